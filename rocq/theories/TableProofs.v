(* Proofs about tables. *)
From Coq Require Import Ascii.
From Verif Require Import Base TextModel TextSpec.
Open Scope nat_scope.
Notation row := (list text).
Definition cellw (i : nat) (r : row) : nat := match nth_error r i with Some c => length c + 2 | None => 0 end.
Definition sp (rows : list row) (i : nat) : nat := fold_right Nat.max 0 (map (cellw i) rows).
Definition st (n : nat) (rows : list row) (p : row) : table := mktable n (map (sp (rows ++ [p])) (seq 0 n)) (length p) [] (rows ++ [p]).
Lemma sp_app a b i : sp (a ++ b) i = Nat.max (sp a i) (sp b i).
Proof. unfold sp. rewrite map_app. induction (map (cellw i) a) as [|x l IH]; [reflexivity|]. cbn [app fold_right]. rewrite IH. lia. Qed.
Lemma sp_one p i : sp [p] i = cellw i p. Proof. unfold sp. cbn. lia. Qed.
Lemma cellw_snoc p c i : cellw i (p ++ [c]) = if i =? length p then length c + 2 else cellw i p.
Proof.
  unfold cellw. destruct (Nat.eqb_spec i (length p)) as [->|N].
  - rewrite nth_error_app2, Nat.sub_diag by lia. reflexivity.
  - destruct (Nat.lt_ge_cases i (length p)) as [H|H]; [rewrite nth_error_app1 by exact H; reflexivity|].
    rewrite (proj2 (nth_error_None p i)) by lia. rewrite (proj2 (nth_error_None (p ++ [c]) i)) by (rewrite app_length; cbn; lia). reflexivity.
Qed.
Lemma cellw_end p : cellw (length p) p = 0.
Proof. unfold cellw. rewrite (proj2 (nth_error_None p (length p))) by lia. reflexivity. Qed.
Lemma upd_map_seq_nat (f g : nat -> nat) n k v : k < n -> f k = v -> (forall i, i <> k -> f i = g i) -> upd (map g (seq 0 n)) k v = map f (seq 0 n).
Proof.
  intros Hk Hv Hf. assert (G : forall m s, s <= k < s + m -> upd (map g (seq s m)) (k - s) v = map f (seq s m)).
  { induction m as [|m IH]; intros s H; [lia|]. cbn [seq map]. destruct (Nat.eq_dec s k) as [->|N].
    - rewrite Nat.sub_diag. cbn [upd]. rewrite Hv. f_equal. apply map_ext_in. intros i Hi. apply in_seq in Hi. symmetry. apply Hf. lia.
    - replace (k - s) with (S (k - S s)) by lia. cbn [upd]. rewrite (Hf s N). f_equal. apply IH. lia. }
  specialize (G n 0). rewrite Nat.sub_0_r in G. apply G. lia.
Qed.
Lemma nth_map_seq (g : nat -> nat) n k d : k < n -> nth k (map g (seq 0 n)) d = g k.
Proof. intro H. rewrite (nth_indep _ d (g 0)) by (rewrite map_length, seq_length; exact H). rewrite map_nth, seq_nth by exact H. reflexivity. Qed.
Lemma col_ok n rows p c : length p < n -> t_col_text c (st n rows p) = Ok (st n rows (p ++ [c])).
Proof.
  intro H. unfold t_col_text, t_col, t_app, st. cbn [t_columns t_spaces t_index t_current t_rows app]. rewrite map_length, seq_length.
  destruct (Nat.ltb_spec (length p) n); [|lia]. rewrite rev_app_distr. cbn [rev app]. rewrite rev_involutive. f_equal. f_equal; [|rewrite app_length; cbn; lia].
  apply upd_map_seq_nat; [exact H| |].
  - rewrite nth_map_seq by exact H. rewrite !sp_app, !sp_one, cellw_snoc, Nat.eqb_refl, cellw_end. lia.
  - intros i Hi. rewrite !sp_app, !sp_one, cellw_snoc. destruct (Nat.eqb_spec i (length p)); [contradiction|reflexivity].
Qed.
Lemma cols_ok n rows r : forall p, length p + length r <= n -> ofold (fun t c => t_col_text c t) r (st n rows p) = Ok (st n rows (p ++ r)).
Proof.
  induction r as [|c r IH]; intros p H; [rewrite app_nil_r; reflexivity|]. cbn [length] in H. cbn [ofold]. rewrite col_ok by lia. cbn [obind].
  rewrite IH by (rewrite app_length; cbn; lia). rewrite <- app_assoc. reflexivity.
Qed.
Lemma row_ok n rows p : n <> S (length p) -> t_row (st n rows p) = Ok (st n (rows ++ [p]) []).
Proof.
  intro H. unfold t_row. cbn [t_columns t_index st]. destruct (Nat.eqb_spec n (S (length p))); [contradiction|]. cbn [obind]. unfold st. cbn [t_columns t_spaces t_index t_current t_rows length].
  f_equal. f_equal. apply map_ext. intro i. rewrite (sp_app (rows ++ [p])). rewrite sp_one. unfold cellw. destruct i; cbn; lia.
Qed.
Lemma row_last n rows p : n = S (length p) -> t_row (st n rows p) = Ok (st n (rows ++ [p ++ [[]]]) []).
Proof.
  intro H. rewrite <- row_ok by (rewrite app_length; cbn; lia). unfold t_row at 1. cbn [t_columns t_index st]. destruct (Nat.eqb_spec n (S (length p))); [|contradiction].
  assert (E : t_col (st n rows p) = t_col_text [] (st n rows p)) by (unfold t_col_text, t_app, st; cbn [t_columns t_spaces t_index t_current t_rows app]; reflexivity).
  fold (st n rows p). rewrite E, col_ok by lia. cbn [obind]. unfold t_row. cbn [t_columns t_index st]. destruct (Nat.eqb_spec n (S (length (p ++ [[]])))) as [X|_]; [rewrite app_length in X; cbn in X; lia|]. reflexivity.
Qed.
(* what a row of the given cells becomes *)
Definition completed (n : nat) (r : row) : row := if n =? S (length r) then r ++ [[]] else r.
Definition fill_row (t : table) (r : row) : outcome table := t <- ofold (fun t c => t_col_text c t) r t ;; t_row t.
Lemma fill_ok n rows r : length r <= n -> fill_row (st n rows []) r = Ok (st n (rows ++ [completed n r]) []).
Proof.
  intro H. unfold fill_row. rewrite cols_ok by (cbn; lia). cbn [obind app]. unfold completed. destruct (Nat.eqb_spec n (S (length r))) as [E|E]; [apply row_last, E|apply row_ok, E].
Qed.
Lemma fill_all n rs : Forall (fun r => length r <= n) rs -> forall rows, ofold fill_row rs (st n rows []) = Ok (st n (rows ++ map (completed n) rs) []).
Proof.
  induction rs as [|r rs IH]; intros F rows; [cbn [map]; rewrite app_nil_r; reflexivity|]. cbn [ofold]. rewrite fill_ok by exact (Forall_inv F). cbn [obind]. rewrite IH by exact (Forall_inv_tail F).
  cbn [map]. rewrite <- app_assoc. reflexivity.
Qed.
Lemma new_ok headers : length headers <> 1 -> t_new headers = Ok (st (length headers) [headers] []).
Proof.
  intro H. unfold t_new. assert (E : t_row (mktable (length headers) (repeat 0 (length headers)) 0 [] []) = Ok (st (length headers) [] [])).
  { unfold t_row. cbn [t_columns t_index]. destruct (Nat.eqb_spec (length headers) 1); [contradiction|]. cbn [obind t_columns t_spaces t_index t_current t_rows app]. unfold st. cbn [app length]. f_equal. f_equal.
    generalize (length headers). clear. intro n. assert (G : forall s, repeat 0 n = map (sp [[]]) (seq s n)); [|apply G]. induction n as [|n IH]; intro s; [reflexivity|]. cbn [repeat seq map]. rewrite <- (IH (S s)). f_equal. rewrite sp_one. unfold cellw. destruct s; reflexivity. }
  rewrite E. cbn [obind]. rewrite cols_ok by (cbn; lia). cbn [obind app]. rewrite row_ok by lia. reflexivity.
Qed.
Lemma new_single h : t_new [h] = UB. Proof. reflexivity. Qed.
Lemma col_ub n rows p c : length p = n -> t_col_text c (st n rows p) = UB.
Proof. intro H. unfold t_col_text, t_col, t_app, st. cbn [t_columns t_spaces t_index t_current t_rows]. rewrite map_length, seq_length. destruct (Nat.ltb_spec (length p) n); [lia|reflexivity]. Qed.
(* ---- rendering ---- *)
Lemma sp_ge rows r i c : In r rows -> nth_error r i = Some c -> length c + 2 <= sp rows i.
Proof.
  intros H E. unfold sp. induction rows as [|x rows IH]; [destruct H|]. cbn [map fold_right]. destruct H as [->|H]; [unfold cellw at 1; rewrite E; lia|]. specialize (IH H). lia.
Qed.
Lemma sp_width headers rows i : i < length headers -> sp (headers :: rows) i = column_width (headers :: rows) i.
Proof.
  intro H. unfold sp, column_width. cbn [map fold_right]. unfold cellw at 1. destruct (nth_error headers i) as [c|] eqn:E; [|apply nth_error_None in E; lia].
  rewrite (nth_error_nth headers i [] E).
  assert (B : fold_right Nat.max 0 (map (cellw i) rows) <= fold_right Nat.max 0 (map (fun r => length (nth i r [])) rows) + 2 /\
    (fold_right Nat.max 0 (map (fun r => length (nth i r [])) rows) = 0 \/ fold_right Nat.max 0 (map (cellw i) rows) = fold_right Nat.max 0 (map (fun r => length (nth i r [])) rows) + 2)).
  { clear. induction rows as [|r rows IH]; [cbn; lia|]. cbn [map fold_right]. unfold cellw at 1 3. destruct (nth_error r i) as [d|] eqn:E.
    - rewrite (nth_error_nth r i [] E). lia.
    - apply nth_error_None in E. rewrite nth_overflow by exact E. cbn [length]. lia. }
  lia.
Qed.
Lemma line_ok n rows r : In r rows -> length r <= n -> t_line (map (sp rows) (seq 0 n)) r = Ok (match r with [] => [] | _ => rendered_row (sp rows) r end).
Proof.
  intros Hr Hn. unfold t_line.
  assert (G : forall q p, r = p ++ q -> omapM (fun ic => t_cell (map (sp rows) (seq 0 n)) (fst ic) (snd ic)) (combine (seq (length p) (length q)) q) =
    Ok (map (fun ic => padded (sp rows (fst ic)) (snd ic)) (combine (seq (length p) (length q)) q))).
  { induction q as [|c q IH]; intros p E; [reflexivity|]. cbn [length seq combine omapM map]. unfold t_cell at 1, at_.
    assert (LP : length p < n) by (apply (f_equal (@length text)) in E; rewrite app_length in E; cbn [length] in E; lia).
    rewrite nth_error_map. assert (NE : nth_error (seq 0 n) (length p) = Some (length p)).
    { rewrite (nth_error_nth' (seq 0 n) 0) by (rewrite seq_length; exact LP). rewrite seq_nth by exact LP. reflexivity. }
    cbn [fst snd]. rewrite NE. cbn [option_map obind].
    assert (NC : nth_error r (length p) = Some c) by (rewrite E, nth_error_app2, Nat.sub_diag by lia; reflexivity).
    pose proof (sp_ge rows r (length p) c Hr NC). destruct (Nat.ltb_spec (sp rows (length p)) (length c)); [lia|].
    specialize (IH (p ++ [c])). replace (length (p ++ [c])) with (S (length p)) in IH by (rewrite app_length; cbn; lia). rewrite IH by (rewrite <- app_assoc; exact E). reflexivity. }
  specialize (G r [] eq_refl). cbn [length] in G. rewrite G. cbn [obind]. destruct r; reflexivity.
Qed.
Definition not_nil (r : row) : bool := match r with [] => false | _ => true end.
Lemma to_string_ok n rows : Forall (fun r => length r <= n) rows ->
  t_to_string (st n rows []) = Ok (concat (map (rendered_row (sp rows)) (filter not_nil rows))).
Proof.
  intro F. unfold t_to_string. cbn [t_spaces t_rows st].
  assert (S0 : forall i, sp (rows ++ [[]]) i = sp rows i) by (intro i; rewrite sp_app, sp_one; unfold cellw; destruct i; cbn; lia).
  rewrite (map_ext _ _ S0).
  assert (G : forall rs, incl rs (rows ++ [[]]) -> exists ls, omapM (t_line (map (sp rows) (seq 0 n))) rs = Ok ls /\ concat ls = concat (map (rendered_row (sp rows)) (filter not_nil rs))).
  { induction rs as [|r rs IH]; intro I; [exists []; split; reflexivity|]. destruct IH as (ls & E & C); [intros x Hx; apply I; right; exact Hx|].
    assert (Hr : In r (rows ++ [[]])) by (apply I; left; reflexivity). apply in_app_iff in Hr. cbn [omapM].
    assert (L : t_line (map (sp rows) (seq 0 n)) r = Ok (match r with [] => [] | _ => rendered_row (sp rows) r end)).
    { destruct Hr as [Hr|[<-|[]]]; [|reflexivity]. apply line_ok; [exact Hr|]. rewrite Forall_forall in F. apply F, Hr. }
    rewrite L. cbn [obind]. rewrite E. cbn [obind]. eexists. split; [reflexivity|]. cbn [concat]. rewrite C. destruct r; reflexivity. }
  destruct (G (rows ++ [[]]) (fun x H => H)) as (ls & E & C). rewrite E. cbn [obind]. rewrite C, filter_app. cbn [filter not_nil]. rewrite app_nil_r. reflexivity.
Qed.
Lemma rendered_row_ext f g r : (forall i, i < length r -> f i = g i) -> rendered_row f r = rendered_row g r.
Proof.
  intro H. unfold rendered_row. do 2 f_equal. apply map_ext_in. intros [i c] Hi. apply in_combine_l in Hi. apply in_seq in Hi. cbn [fst snd]. rewrite H by lia. reflexivity.
Qed.
Lemma width_filter rows i : column_width (filter not_nil rows) i = column_width rows i.
Proof. unfold column_width. f_equal. induction rows as [|r rows IH]; [reflexivity|]. destruct r as [|c r]; cbn [filter not_nil map fold_right]; [rewrite IH; destruct i; reflexivity|rewrite IH; reflexivity]. Qed.
Theorem table_ok headers rs : 2 <= length headers -> Forall (fun r => length r <= length headers) rs ->
  (t <- t_new headers ;; t <- ofold fill_row rs t ;; t_to_string t) = Ok (rendered (filter not_nil (headers :: map (completed (length headers)) rs))).
Proof.
  intros H F. rewrite new_ok by lia. cbn [obind]. rewrite fill_all by exact F. cbn [obind]. cbn [app].
  assert (FC : Forall (fun r => length r <= length headers) (headers :: map (completed (length headers)) rs)).
  { constructor; [lia|]. apply Forall_map. eapply Forall_impl; [|exact F]. intros r Hr. unfold completed. destruct (Nat.eqb_spec (length headers) (S (length r))); [rewrite app_length; cbn; lia|exact Hr]. }
  rewrite to_string_ok by exact FC. unfold rendered. f_equal. f_equal. apply map_ext_in. intros r Hr. apply filter_In in Hr. destruct Hr as [Hr _].
  apply rendered_row_ext. intros i Hi. rewrite width_filter. apply sp_width. rewrite Forall_forall in FC. specialize (FC r Hr). cbn beta in FC. lia.
Qed.
(* every cell of column i starts at the same offset *)
Lemma padded_len w s : length s <= w -> length (padded w s) = w.
Proof. intro H. unfold padded. rewrite app_length, repeat_length. lia. Qed.
Lemma width_ge rows r i : In r rows -> length (nth i r []) + 2 <= column_width rows i.
Proof.
  intro H. unfold column_width. induction rows as [|x rows IH]; [destruct H|]. cbn [map fold_right]. destruct H as [->|H]; [lia|]. specialize (IH H). lia.
Qed.
Lemma aligned rows r i : In r rows -> i < length r -> exists a b, rendered_row (column_width rows) r = a ++ nth i r [] ++ repeat (ascii_of_nat 32) (column_width rows i - length (nth i r [])) ++ b /\ length a = list_sum (map (column_width rows) (seq 0 i)).
Proof.
  intros Hr Hi. unfold rendered_row.
  assert (G : forall i q p, r = p ++ q -> i < length q -> exists a b, concat (map (fun ic => padded (column_width rows (fst ic)) (snd ic)) (combine (seq (length p) (length q)) q)) =
    a ++ padded (column_width rows (length p + i)) (nth i q []) ++ b /\ length a = list_sum (map (column_width rows) (seq (length p) i))).
  { clear i Hi. induction i as [|i IH]; intros q p E Hi; (destruct q as [|c q]; [cbn in Hi; lia|]).
    - exists [], (concat (map (fun ic => padded (column_width rows (fst ic)) (snd ic)) (combine (seq (S (length p)) (length q)) q))). rewrite Nat.add_0_r. split; reflexivity.
    - destruct (IH q (p ++ [c])) as (a & b & C & L); [rewrite <- app_assoc; exact E|cbn in Hi; lia|].
      replace (length (p ++ [c])) with (S (length p)) in * by (rewrite app_length; cbn; lia).
      exists (padded (column_width rows (length p)) c ++ a), b. cbn [length seq combine map concat fst snd nth]. rewrite C. replace (length p + S i) with (S (length p) + i) by lia.
      rewrite <- !app_assoc. split; [reflexivity|]. rewrite app_length, L. cbn [seq map list_sum fold_right]. f_equal. apply padded_len.
      pose proof (width_ge rows r (length p) Hr) as W. rewrite E, app_nth2, Nat.sub_diag in W by lia. cbn [nth] in W. lia. }
  destruct (G i r [] eq_refl Hi) as (a & b & C & L). cbn [length Nat.add] in *. rewrite C. exists a, (b ++ [ascii_of_nat 10]). split; [|exact L]. unfold padded. rewrite <- !app_assoc. reflexivity.
Qed.
