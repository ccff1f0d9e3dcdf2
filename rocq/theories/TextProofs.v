(* Proofs about string helpers and tables. *)
From Coq Require Import Ascii.
From Verif Require Import Base TextModel TextSpec.
Open Scope nat_scope.

Lemma prefixb_spec p s : prefixb Ascii.eqb p s = true <-> exists t, s = p ++ t.
Proof.
  revert s. induction p as [|a p IH]; intro s; cbn [prefixb]; [split; [intros _; exists s; reflexivity|reflexivity]|].
  destruct s as [|b s]; [split; [discriminate|intros [t H]; discriminate]|].
  rewrite andb_true_iff, IH, Ascii.eqb_eq. split.
  - intros [-> [t ->]]. exists t. reflexivity.
  - intros [t H]. cbn in H. inversion H; subst. split; [reflexivity|exists t; reflexivity].
Qed.
Lemma search_some eq p s i : search eq p s = Some i -> i <= length s /\ prefixb eq p (skipn i s) = true /\ forall j, j < i -> prefixb eq p (skipn j s) = false.
Proof.
  revert i. induction s as [|c s IH]; intros i H; cbn [search] in H.
  - destruct (prefixb eq p []) eqn:E; [|discriminate]. inversion H; subst. cbn. split; [lia|]. split; [exact E|]. lia.
  - destruct (prefixb eq p (c :: s)) eqn:E.
    + inversion H; subst. cbn. split; [lia|]. split; [exact E|]. lia.
    + destruct (search eq p s) as [k|] eqn:F; [|discriminate]. inversion H; subst. destruct (IH k eq_refl) as (H1 & H2 & H3). cbn [length skipn]. split; [lia|]. split; [exact H2|].
      intros j Hj. destruct j as [|j]; [exact E|]. cbn [skipn]. apply H3. lia.
Qed.
Lemma search_none eq p s : search eq p s = None -> forall j, j <= length s -> prefixb eq p (skipn j s) = false.
Proof.
  induction s as [|c s IH]; cbn [search]; intros H j Hj.
  - destruct (prefixb eq p []) eqn:E; [discriminate|]. replace j with 0 by (cbn in Hj; lia). exact E.
  - destruct (prefixb eq p (c :: s)) eqn:E; [discriminate|]. destruct (search eq p s) eqn:F; [discriminate|]. destruct j as [|j]; [exact E|]. cbn [skipn]. apply IH; [reflexivity|cbn in Hj; lia].
Qed.
Lemma find_0 s p : str_find s p 0 = search Ascii.eqb p s.
Proof. unfold str_find. cbn. destruct (search Ascii.eqb p s); reflexivity. Qed.
Lemma contains_ok s p : contains s p = true <-> occurs p s.
Proof.
  unfold contains. rewrite find_0. split.
  - destruct (search Ascii.eqb p s) as [i|] eqn:E; [|discriminate]. intros _. destruct (search_some _ _ _ _ E) as (_ & H & _). apply prefixb_spec in H. destruct H as [t H].
    exists (firstn i s), t. rewrite <- H. symmetry. apply firstn_skipn.
  - intros (a & b & ->). destruct (search Ascii.eqb p (a ++ p ++ b)) eqn:E; [reflexivity|exfalso]. pose proof (search_none _ _ _ E (length a)) as H.
    rewrite skipn_app, skipn_all, Nat.sub_diag in H. cbn [skipn app] in H. assert (X : prefixb Ascii.eqb p (p ++ b) = true) by (apply prefixb_spec; exists b; reflexivity).
    rewrite X in H. specialize (H ltac:(rewrite app_length; lia)). discriminate.
Qed.
(* ---- ignoring case ---- *)
Lemma tolower_nat c : nat_of_ascii (tolower c) = if (65 <=? nat_of_ascii c) && (nat_of_ascii c <=? 90) then nat_of_ascii c + 32 else nat_of_ascii c.
Proof.
  unfold tolower. cbn zeta. destruct (Nat.leb_spec 65 (nat_of_ascii c)), (Nat.leb_spec (nat_of_ascii c) 90); cbn [andb]; try reflexivity. apply nat_ascii_embedding. lia.
Qed.
Lemma tolower_same a b : Ascii.eqb (tolower a) (tolower b) = true <-> same_letter a b.
Proof.
  rewrite Ascii.eqb_eq. assert (I : tolower a = tolower b <-> nat_of_ascii (tolower a) = nat_of_ascii (tolower b)).
  { split; [intros ->; reflexivity|]. intro H. rewrite <- (ascii_nat_embedding (tolower a)), H. apply ascii_nat_embedding. }
  rewrite I, !tolower_nat. unfold same_letter. cbn zeta.
  destruct (Nat.leb_spec 65 (nat_of_ascii a)), (Nat.leb_spec (nat_of_ascii a) 90), (Nat.leb_spec 65 (nat_of_ascii b)), (Nat.leb_spec (nat_of_ascii b) 90); cbn [andb]; lia.
Qed.
Lemma prefixb_case p s : prefixb (fun a b => Ascii.eqb (tolower a) (tolower b)) p s = true <-> exists m t, s = m ++ t /\ Forall2 same_letter p m.
Proof.
  revert s. induction p as [|a p IH]; intro s; cbn [prefixb]; [split; [intros _; exists [], s; split; [reflexivity|constructor]|reflexivity]|].
  destruct s as [|b s]; [split; [discriminate|intros (m & t & H & F); inversion F; subst; discriminate]|].
  rewrite andb_true_iff, IH, tolower_same. split.
  - intros [E (m & t & -> & F)]. exists (b :: m), t. split; [reflexivity|constructor; assumption].
  - intros (m & t & H & F). inversion F; subst. cbn in H. inversion H; subst. split; [assumption|]. eauto.
Qed.
Lemma ignore_case_ok s p : p <> [] -> (contains_ignore_case s p = true <-> exists a m b, s = a ++ m ++ b /\ Forall2 same_letter p m).
Proof.
  intro Hp. unfold contains_ignore_case. split.
  - destruct (search _ p s) as [i|] eqn:E; [|discriminate]. intros _. destruct (search_some _ _ _ _ E) as (_ & H & _). apply prefixb_case in H. destruct H as (m & t & H & F).
    exists (firstn i s), m, t. split; [|exact F]. rewrite <- H. symmetry. apply firstn_skipn.
  - intros (a & m & b & -> & F). assert (X : prefixb (fun a b => Ascii.eqb (tolower a) (tolower b)) p (m ++ b) = true) by (apply prefixb_case; eauto).
    destruct (search _ p (a ++ m ++ b)) as [i|] eqn:E.
    + destruct (search_some _ _ _ _ E) as (H1 & H2 & H3). destruct (Nat.eqb_spec i (length (a ++ m ++ b))) as [Hi|]; [exfalso|reflexivity]. rewrite Hi, skipn_all in H2. destruct p; [contradiction|discriminate].
    + exfalso. pose proof (search_none _ _ _ E (length a)) as H. rewrite skipn_app, skipn_all, Nat.sub_diag in H. cbn [skipn app] in H. rewrite X in H. specialize (H ltac:(rewrite app_length; lia)). discriminate.
Qed.
Lemma ignore_case_empty s : contains_ignore_case s [] = negb (length s =? 0).
Proof. unfold contains_ignore_case. destruct s; reflexivity. Qed.
(* ---- join ---- *)
Definition nonempty (s : text) : bool := match s with [] => false | _ => true end.
Lemma intercalate_snoc (d x : text) l : l <> [] -> intercalate d (l ++ [x]) = intercalate d l ++ d ++ x.
Proof.
  induction l as [|a l IH]; intro H; [contradiction|]. destruct l as [|b l]; [reflexivity|]. cbn [app intercalate] in *. rewrite IH by discriminate. rewrite <- !app_assoc. reflexivity.
Qed.
Lemma intercalate_nil (d : text) l : Forall (fun s => nonempty s = true) l -> intercalate d l = [] -> l = [].
Proof. intros F H. destruct l as [|a l]; [reflexivity|exfalso]. pose proof (Forall_inv F) as Ha. destruct a as [|c a]; [discriminate|]. destruct l; discriminate. Qed.
Lemma join_ok strs d : join strs d = intercalate d (filter nonempty strs).
Proof.
  unfold join. induction strs as [|s strs IH] using rev_ind; [reflexivity|]. rewrite fold_left_app, IH, filter_app. cbn [fold_left filter].
  assert (F : Forall (fun s => nonempty s = true) (filter nonempty strs)) by (apply Forall_forall; intros x Hx; apply filter_In in Hx; tauto).
  destruct s as [|c s]; [cbn [nonempty]; rewrite app_nil_r; reflexivity|]. cbn [nonempty].
  destruct (intercalate d (filter nonempty strs)) as [|e r] eqn:E.
  - rewrite (intercalate_nil d _ F E). reflexivity.
  - rewrite intercalate_snoc; [rewrite E, app_assoc; reflexivity|]. intro N. rewrite N in E. discriminate.
Qed.
(* ---- replace_all ---- *)
Lemma replaced_none (f g s : text) : f <> [] -> (forall j, j <= length s -> prefixb Ascii.eqb f (skipn j s) = false) -> replaced f g s s.
Proof.
  intros Hf. induction s as [|c s IH]; intro H; [constructor|]. constructor.
  - intros t E. specialize (H 0 ltac:(lia)). cbn [skipn] in H. assert (X : prefixb Ascii.eqb f (c :: s) = true) by (apply prefixb_spec; exists t; exact E). congruence.
  - apply IH. intros j Hj. apply (H (S j)). cbn. lia.
Qed.
Lemma replaced_first (f g rest r : text) : replaced f g rest r -> forall pre, (forall j, j < length pre -> prefixb Ascii.eqb f (skipn j (pre ++ f ++ rest)) = false) ->
  replaced f g (pre ++ f ++ rest) (pre ++ g ++ r).
Proof.
  intros R. induction pre as [|c pre IH]; intro H; [cbn; constructor; exact R|]. cbn [app]. constructor.
  - intros t E. specialize (H 0 ltac:(cbn; lia)). cbn [skipn app] in H. assert (X : prefixb Ascii.eqb f (c :: pre ++ f ++ rest) = true) by (apply prefixb_spec; exists t; exact E). congruence.
  - apply IH. intros j Hj. apply (H (S j)). cbn. lia.
Qed.
Lemma replace_loop_ok f g : f <> [] -> forall fuel rest dn, length rest < fuel ->
  exists r, replace_loop f g fuel (dn ++ rest) (str_find (dn ++ rest) f (length dn)) = Some (dn ++ r) /\ replaced f g rest r.
Proof.
  intros Hf. induction fuel as [|fuel IH]; intros rest dn Hl; [lia|].
  assert (F : str_find (dn ++ rest) f (length dn) = option_map (Nat.add (length dn)) (search Ascii.eqb f rest)).
  { unfold str_find. destruct (Nat.leb_spec (length dn) (length (dn ++ rest))) as [_|H]; [|rewrite app_length in H; lia]. rewrite skipn_app, skipn_all, Nat.sub_diag. reflexivity. }
  rewrite F. destruct (search Ascii.eqb f rest) as [i|] eqn:E; cbn [option_map].
  - destruct (search_some _ _ _ _ E) as (H1 & H2 & H3). apply prefixb_spec in H2. destruct H2 as [rest2 H2].
    assert (ER : rest = firstn i rest ++ f ++ rest2) by (rewrite <- H2; symmetry; apply firstn_skipn). set (pre := firstn i rest) in *. assert (LP : length pre = i) by (apply firstn_length_le, H1).
    cbn [replace_loop]. assert (NEW : firstn (length dn + i) (dn ++ rest) ++ g ++ skipn (length dn + i + length f) (dn ++ rest) = (dn ++ pre ++ g) ++ rest2).
    { rewrite ER. rewrite !app_assoc. rewrite <- app_assoc with (m := f). rewrite firstn_app. rewrite app_length, LP.
      replace (length dn + i - (length dn + i)) with 0 by lia. rewrite firstn_O, app_nil_r. rewrite firstn_all2 by (rewrite app_length; lia).
      rewrite app_assoc. rewrite skipn_app, (skipn_all2 ((dn ++ pre) ++ f)) by (rewrite !app_length; lia). rewrite !app_length, LP. replace (length dn + i + length f - (length dn + i + length f)) with 0 by lia. reflexivity. }
    rewrite NEW. replace (length dn + i + length g) with (length (dn ++ pre ++ g)) by (rewrite !app_length; lia).
    assert (0 < length f) by (destruct f; [contradiction|cbn; lia]).
    destruct (IH rest2 (dn ++ pre ++ g)) as (r & R1 & R2); [apply (f_equal (@length ascii)) in ER; rewrite !app_length in ER; lia|].
    exists (pre ++ g ++ r). rewrite R1. split; [rewrite <- !app_assoc; reflexivity|]. rewrite ER. apply replaced_first; [exact R2|]. rewrite LP, <- ER. exact H3.
  - exists rest. split; [reflexivity|]. apply replaced_none; [exact Hf|]. apply search_none, E.
Qed.
Lemma replace_all_ok s f g fuel : f <> [] -> length s < fuel -> exists r, replace_all fuel s f g = Some r /\ replaced f g s r.
Proof. intros Hf Hl. destruct f as [|c f]; [contradiction|]. unfold replace_all. exact (replace_loop_ok (c :: f) g Hf fuel s [] Hl). Qed.
Lemma replaced_unique (f g s r r' : text) : f <> [] -> replaced f g s r -> replaced f g s r' -> r = r'.
Proof.
  intros Hf R. revert r'. induction R as [|s r R IH|c s r N R IH]; intros r' R'.
  - inversion R' as [|s2 r2 H E|]; subst; [reflexivity|]. destruct f; [contradiction|discriminate].
  - inversion R' as [E|s2 r2 H E|c s2 r2 N H E]; subst.
    + destruct f; [contradiction|discriminate].
    + apply app_inv_head in E. subst. f_equal. apply IH, H.
    + exfalso. apply (N s). assumption.
  - inversion R' as [E|s2 r2 H E|c2 s2 r2 N2 H E]; subst.
    + exfalso. apply (N s2). symmetry. assumption.
    + f_equal. apply IH, H.
Qed.
(* ---- escaping ---- *)
Definition esc1 (c x : ascii) : text := if Ascii.eqb x c then [backslash; c] else [x].
Lemma replaced_char c s : replaced [c] [backslash; c] s (flat_map (esc1 c) s).
Proof.
  induction s as [|x s IH]; [constructor|]. cbn [flat_map]. unfold esc1 at 1. destruct (Ascii.eqb_spec x c) as [->|N].
  - apply (replaced_here [c] [backslash; c] s). exact IH.
  - apply (replaced_keep [c] [backslash; c] x). { intros t E. cbn in E. inversion E. contradiction. } exact IH.
Qed.
Lemma replace_char fuel s c : length s < fuel -> replace_all fuel s [c] [backslash; c] = Some (flat_map (esc1 c) s).
Proof.
  intro H. destruct (replace_all_ok s [c] [backslash; c] fuel) as (r & E & R); [discriminate|exact H|]. rewrite E. f_equal. apply (replaced_unique [c] [backslash; c] s); [discriminate|exact R|apply replaced_char].
Qed.
Lemma flat_map_flat_map {A B C} (f : A -> list B) (g : B -> list C) l : flat_map g (flat_map f l) = flat_map (fun x => flat_map g (f x)) l.
Proof. induction l as [|x l IH]; [reflexivity|]. cbn [flat_map]. rewrite flat_map_app, IH. reflexivity. Qed.
Lemma flat_map_le2 {A B} (f : A -> list B) l : (forall x, length (f x) <= 2) -> length (flat_map f l) <= 2 * length l.
Proof. intro H. induction l as [|x l IH]; [reflexivity|]. cbn [flat_map length]. rewrite app_length. specialize (H x). lia. Qed.
Definition esc_seq (cs : text) (x : ascii) : text := fold_left (fun t c => flat_map (esc1 c) t) cs [x].
Lemma esc_fold cs : forall s, fold_left (fun t c => flat_map (esc1 c) t) cs s = flat_map (esc_seq cs) s.
Proof.
  induction cs as [|c cs IH] using rev_ind; intro s.
  - cbn. unfold esc_seq. cbn. induction s as [|x s IHs]; [reflexivity|]. cbn [flat_map app]. rewrite <- IHs. reflexivity.
  - rewrite fold_left_app. cbn [fold_left]. rewrite IH, flat_map_flat_map. apply flat_map_ext. intro x. unfold esc_seq. rewrite fold_left_app. reflexivity.
Qed.
Lemma esc_seq_special x : esc_seq special_chars x = if md_special x then [ascii_of_nat 92; x] else [x].
Proof. destruct x as [[] [] [] [] [] [] [] []]; vm_compute; reflexivity. Qed.
Lemma esc_prefix_le cs x : In cs (map (fun k => firstn k special_chars) (seq 0 16)) -> length (esc_seq cs x) <= 2.
Proof.
  intro H. assert (G : forallb (fun x => forallb (fun cs => length (esc_seq cs x) <=? 2) (map (fun k => firstn k special_chars) (seq 0 16))) (map ascii_of_nat (seq 0 256)) = true) by (vm_compute; reflexivity).
  rewrite forallb_forall in G. specialize (G x). rewrite forallb_forall in G. apply Nat.leb_le, G; [|exact H].
  apply in_map_iff. exists (nat_of_ascii x). split; [apply ascii_nat_embedding|]. apply in_seq. pose proof (nat_ascii_bounded x). lia.
Qed.
Lemma escape_ok fuel s : 2 * length s < fuel -> escape_for_md fuel s = Some (md_escaped s).
Proof.
  intro H. unfold escape_for_md.
  assert (G : forall k, k <= 15 -> fold_left (fun t c => match t with Some t => replace_all fuel t [c] [backslash; c] | None => None end) (firstn k special_chars) (Some s) = Some (flat_map (esc_seq (firstn k special_chars)) s)).
  { induction k as [|k IH]; intro Hk; [cbn; f_equal; unfold esc_seq; cbn; clear; induction s as [|x s IHs]; [reflexivity|cbn [flat_map app]; rewrite <- IHs; reflexivity]|].
    assert (E : firstn (S k) special_chars = firstn k special_chars ++ [nth k special_chars backslash]).
    { assert (GG : forall (l : text) k, k < length l -> firstn (S k) l = firstn k l ++ [nth k l backslash]).
      { clear. induction l as [|a l IH]; intros k H; [cbn in H; lia|]. destruct k as [|k]; [reflexivity|]. cbn [firstn app nth]. f_equal. apply IH. cbn in H. lia. }
      apply GG. change (length special_chars) with 15. lia. }
    rewrite E, fold_left_app, IH by lia. cbn [fold_left]. rewrite replace_char.
    - f_equal. rewrite flat_map_flat_map. apply flat_map_ext. intro x. unfold esc_seq. rewrite fold_left_app. reflexivity.
    - apply Nat.le_lt_trans with (2 := H). apply flat_map_le2. intro x. apply esc_prefix_le. apply in_map_iff. exists k. split; [reflexivity|apply in_seq; lia]. }
  specialize (G 15 (le_n _)). change (firstn 15 special_chars) with special_chars in G. rewrite G. f_equal. unfold md_escaped. apply flat_map_ext. intro x. apply esc_seq_special.
Qed.
Lemma unescape_escaped s : md_unescape (md_escaped s) = s.
Proof.
  induction s as [|c s IH]; [reflexivity|]. unfold md_escaped in *. cbn [flat_map]. destruct (md_special c) eqn:E.
  - cbn [app md_unescape]. rewrite Ascii.eqb_refl, IH. reflexivity.
  - cbn [app md_unescape]. destruct (Ascii.eqb_spec c (ascii_of_nat 92)) as [->|_]; [vm_compute in E; discriminate|]. rewrite IH. reflexivity.
Qed.
