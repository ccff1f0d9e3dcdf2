(* Properties C51-C53: string helpers and tables.  Specifications: TextSpec.v. *)
From Coq Require Import Ascii String.
From Verif Require Import Base TextModel TextSpec TextProofs TableProofs.
Open Scope nat_scope.
Notation length := List.length.
Notation concat := List.concat.
Definition txt (s : string) : text := list_ascii_of_string s.

(* ---- C51 ---- *)
(* The loop ends after at most |str| + 1 searches (fuel), with every occurrence replaced, left to
   right, without overlap and without looking into the replacements. *)
Theorem C51_replace_all : forall s find replace fuel, find <> [] -> length s < fuel ->
  exists r, replace_all fuel s find replace = Some r /\ replaced find replace s r.
Proof. exact replace_all_ok. Qed.
Print Assumptions C51_replace_all.
Theorem C51_replace_all_unique : forall find replace s r r' : text, find <> [] -> replaced find replace s r -> replaced find replace s r' -> r = r'.
Proof. exact replaced_unique. Qed.
Print Assumptions C51_replace_all_unique.
Theorem C51_replace_all_empty : forall s replace fuel, replace_all fuel s [] replace = Some s.
Proof. reflexivity. Qed.
Print Assumptions C51_replace_all_empty.
(* Exactly the special characters get one backslash, including the backslash itself ... *)
Theorem C51_escape : forall s fuel, 2 * length s < fuel -> escape_for_md fuel s = Some (md_escaped s).
Proof. intros. apply escape_ok. assumption. Qed.
Print Assumptions C51_escape.
(* ... and the text can be read back. *)
Theorem C51_escape_reversible : forall s, md_unescape (md_escaped s) = s.
Proof. exact unescape_escaped. Qed.
Print Assumptions C51_escape_reversible.
Example C51_instance : option_map string_of_list_ascii (escape_for_md 40 (txt "a\b_[c](d).x!")) = Some "a\\b\_\[c\]\(d\)\.x\!"%string /\
  option_map string_of_list_ascii (replace_all 9 (txt "aaaxa") (txt "aa") (txt "baa")) = Some "baaaxa"%string.
Proof. split; vm_compute; reflexivity. Qed.

(* ---- C52 ---- *)
Theorem C52_join : forall strs delimiter, join strs delimiter = intercalate delimiter (filter (fun s => match s with [] => false | _ => true end) strs).
Proof. exact join_ok. Qed.
Print Assumptions C52_join.
Theorem C52_contains : forall s p, contains s p = true <-> occurs p s.
Proof. exact contains_ok. Qed.
Print Assumptions C52_contains.
Theorem C52_contains_ignore_case : forall s p, p <> [] -> (contains_ignore_case s p = true <-> exists a m b, s = a ++ m ++ b /\ Forall2 same_letter p m).
Proof. exact ignore_case_ok. Qed.
Print Assumptions C52_contains_ignore_case.
(* Finding: the empty string is contained in every string except, ignoring case, in the empty one. *)
Theorem C52_empty_refuted : contains [] [] = true /\ contains_ignore_case [] [] = false /\ (forall c s, contains_ignore_case (c :: s) [] = true).
Proof. repeat split. Qed.
Print Assumptions C52_empty_refuted.
Example C52_instance : string_of_list_ascii (join [txt "a"; []; txt "bc"; txt ""; txt "d"] (txt ", ")) = "a, bc, d"%string /\
  contains (txt "xmx32") (txt "x3") = true /\ contains (txt "xmx32") (txt "xX") = false /\ contains_ignore_case (txt "Mx3[z") (txt "mX3[Z") = true /\ contains_ignore_case (txt "[") (txt "{") = false.
Proof. repeat split; vm_compute; reflexivity. Qed.

(* ---- C53 ---- *)
(* For two or more headers and rows of at most that many cells: the table shows the header and the
   rows in order, each cell padded to the width of the widest cell of its column plus two; a row that
   is one cell short is completed by an empty cell, an empty row shows nothing. *)
Theorem C53_rendering : forall headers rows, 2 <= length headers -> Forall (fun r => length r <= length headers) rows ->
  (t <- t_new headers ;; t <- ofold (fun t r => t <- ofold (fun t c => t_col_text c t) r t ;; t_row t) rows t ;; t_to_string t) =
  Ok (rendered (filter (fun r => match r with [] => false | _ => true end)
        (headers :: map (fun r => if length headers =? S (length r) then r ++ [[]] else r) rows))).
Proof. exact table_ok. Qed.
Print Assumptions C53_rendering.
(* Full rows: nothing is added or dropped. *)
Theorem C53_full_rows : forall headers rows, 2 <= length headers -> Forall (fun r => length r = length headers) rows ->
  (t <- t_new headers ;; t <- ofold (fun t r => t <- ofold (fun t c => t_col_text c t) r t ;; t_row t) rows t ;; t_to_string t) = Ok (rendered (headers :: rows)).
Proof.
  intros headers rows H F. rewrite C53_rendering; [|exact H|eapply Forall_impl; [|exact F]; cbn; intros; lia]. do 2 f_equal.
  assert (E : map (fun r => if length headers =? S (length r) then r ++ [[]] else r) rows = rows).
  { rewrite <- (map_id rows) at 2. apply map_ext_in. intros r Hr. rewrite Forall_forall in F. specialize (F r Hr). destruct (Nat.eqb_spec (length headers) (S (length r))); [lia|reflexivity]. }
  rewrite E. assert (G : forall (p : list text -> bool) l, (forall x, In x l -> p x = true) -> filter p l = l).
  { clear. induction l as [|x l IH]; intro H; [reflexivity|]. cbn [filter]. rewrite (H x (or_introl eq_refl)). f_equal. apply IH. intros y Hy. apply H. right. exact Hy. }
  apply G. intros r [<-|Hr]; [destruct headers; [cbn in H; lia|reflexivity]|]. rewrite Forall_forall in F. specialize (F r Hr). destruct r; [cbn in F; lia|reflexivity].
Qed.
Print Assumptions C53_full_rows.
(* The last cell may also be left to row(). *)
Theorem C53_last_cell : forall headers rows r c, S (length r) = length headers -> 2 <= length headers -> Forall (fun r => length r <= length headers) rows ->
  (t <- t_new headers ;; t <- ofold fill_row rows t ;; t <- ofold (fun t c => t_col_text c t) r t ;; t_row (t_app c t)) =
  (t <- t_new headers ;; t <- ofold fill_row rows t ;; t <- ofold (fun t c => t_col_text c t) (r ++ [c]) t ;; t_row t).
Proof.
  intros headers rows r c Hr H2 F. rewrite new_ok by lia. cbn [obind]. rewrite fill_all by exact F. cbn [obind]. rewrite !cols_ok by (rewrite ?app_length; cbn; lia). cbn [obind app].
  rewrite row_ok by (rewrite app_length; cbn; lia). unfold t_row. cbn [t_app t_columns t_index st]. destruct (Nat.eqb_spec (length headers) (S (length r))); [|lia].
  change (t_col _) with (t_col_text c (st (length headers) ([headers] ++ map (completed (length headers)) rows) r)). rewrite col_ok by lia. cbn [obind].
  pose proof (row_ok (length headers) ([headers] ++ map (completed (length headers)) rows) (r ++ [c]) ltac:(rewrite app_length; cbn; lia)) as R.
  unfold t_row in R. cbn [t_columns t_index st] in R. destruct (Nat.eqb_spec (length headers) (S (length (r ++ [c])))) as [X|_]; [rewrite app_length in X; cbn in X; lia|]. exact R.
Qed.
Print Assumptions C53_last_cell.
(* Alignment: cell i of every row starts at the same offset, and is followed by at least two blanks. *)
Theorem C53_aligned : forall rows r i, In r rows -> i < length r -> exists before after,
  rendered_row (column_width rows) r = before ++ nth i r [] ++ repeat (ascii_of_nat 32) (column_width rows i - length (nth i r [])) ++ after /\
  length before = list_sum (map (column_width rows) (seq 0 i)) /\ 2 <= column_width rows i - length (nth i r []).
Proof.
  intros rows r i Hr Hi. destruct (aligned rows r i Hr Hi) as (a & b & E & L). exists a, b. split; [exact E|]. split; [exact L|]. pose proof (width_ge rows r i Hr). lia.
Qed.
Print Assumptions C53_aligned.
(* Findings: a table with one column cannot be constructed, and a cell too many is undefined. *)
Theorem C53_one_column_refuted : forall h, t_new [h] = UB.
Proof. reflexivity. Qed.
Print Assumptions C53_one_column_refuted.
Theorem C53_too_many_cells_refuted : forall headers rows r c, 2 <= length headers -> Forall (fun r => length r <= length headers) rows -> length r = length headers ->
  (t <- t_new headers ;; t <- ofold fill_row rows t ;; t <- ofold (fun t c => t_col_text c t) r t ;; t_col_text c t) = UB.
Proof.
  intros headers rows r c H2 F Hr. rewrite new_ok by lia. cbn [obind]. rewrite fill_all by exact F. cbn [obind]. rewrite cols_ok by (cbn; lia). cbn [obind]. apply col_ub. exact Hr.
Qed.
Print Assumptions C53_too_many_cells_refuted.
Example C53_instance : (t <- t_new [txt "a"; txt "bcd"] ;; t <- ofold fill_row [[txt "xyz"; txt "q"]; [txt "1"]] t ;; r <- t_to_string t ;; Ok (string_of_list_ascii r)) =
  Ok ("a    bcd  " ++ String (ascii_of_nat 10) ("xyz  q    " ++ String (ascii_of_nat 10) ("1         " ++ String (ascii_of_nat 10) "")))%string.
Proof. vm_compute. reflexivity. Qed.
