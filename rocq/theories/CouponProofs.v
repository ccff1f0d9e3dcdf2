(* Stirling numbers count surjections; the coupon collector's finishing times. *)
From Coq Require Import Permutation.
From Verif Require Import Base FloatModel CollectSpec CouponModel CouponSpec CollectProofs Collect2Proofs.
Open Scope N_scope.

Lemma words_in d n s : In s (words d n) <-> length s = n /\ Forall (fun x => x < d)%nat s.
Proof.
  revert s. induction n as [|n IH]; intro s; cbn [words].
  - split; [intros [<-|[]]; split; [reflexivity|constructor]|]. intros [H _]. left. destruct s; [reflexivity|discriminate].
  - rewrite in_flat_map. split.
    + intros (t & Ht & Hs). apply in_map_iff in Hs. destruct Hs as (x & <- & Hx). apply in_seq in Hx. apply IH in Ht. destruct Ht as [H1 H2].
      split; [rewrite app_length; cbn; lia|]. apply Forall_app. split; [exact H2|constructor; [lia|constructor]].
    + intros [H1 H2]. destruct s as [|x t _] using rev_ind; [discriminate|]. exists t. rewrite app_length in H1. cbn in H1. apply Forall_app in H2. destruct H2 as [H2 H3].
      split; [apply IH; split; [lia|exact H2]|]. apply in_map_iff. exists x. split; [reflexivity|]. apply in_seq. pose proof (Forall_inv H3). cbn in *. lia.
Qed.
Lemma nodup_app {A} (l m : list A) : NoDup l -> NoDup m -> (forall x, In x l -> ~ In x m) -> NoDup (l ++ m).
Proof.
  induction 1 as [|x l Hx H IH]; intros Hm Hd; [exact Hm|]. cbn. constructor.
  - rewrite in_app_iff. intros [Hi|Hi]; [contradiction|]. apply (Hd x); [left; reflexivity|exact Hi].
  - apply IH; [exact Hm|]. intros y Hy. apply Hd. right. exact Hy.
Qed.
Lemma words_nodup d n : NoDup (words d n).
Proof.
  induction n as [|n IH]; cbn [words]; [repeat constructor; auto|]. revert IH. generalize (words d n). intros l.
  induction 1 as [|s l Hs H IHl]; cbn [flat_map]; [constructor|]. apply nodup_app; [|exact IHl|].
  - apply FinFun.Injective_map_NoDup; [|apply seq_NoDup]. intros a b E. apply app_inj_tail in E. apply E.
  - intros u H1 H2. apply in_map_iff in H1. destruct H1 as (x & <- & _). apply in_flat_map in H2. destruct H2 as (t & Ht & H2).
    apply in_map_iff in H2. destruct H2 as (y & E & _). apply app_inj_tail in E. destruct E as [-> _]. contradiction.
Qed.
Lemma words_length d n : length (words d n) = (d ^ n)%nat.
Proof.
  induction n as [|n IH]; [reflexivity|]. cbn [words]. rewrite Nat.pow_succ_r', <- IH. generalize (words d n). intro l.
  induction l as [|s l IHl]; cbn [flat_map length]; [lia|]. rewrite app_length, map_length, seq_length, IHl. lia.
Qed.

Definition distinct (s : list nat) : nat := length (nodup Nat.eq_dec s).
Definition mem (s : list nat) (x : nat) : bool := existsb (Nat.eqb x) s.
Lemma mem_in s x : mem s x = true <-> In x s.
Proof. unfold mem. rewrite existsb_exists. split; [intros (y & Hy & E); apply Nat.eqb_eq in E; subst; exact Hy|intro H; exists x; split; [exact H|apply Nat.eqb_refl]]. Qed.
Lemma same_length (l m : list nat) : NoDup l -> NoDup m -> (forall x, In x l <-> In x m) -> length l = length m.
Proof. intros H1 H2 H. apply Permutation_length, NoDup_Permutation; assumption. Qed.
Lemma distinct_snoc s x : distinct (s ++ [x]) = (distinct s + if mem s x then 0 else 1)%nat.
Proof.
  unfold distinct. destruct (mem s x) eqn:E.
  - rewrite Nat.add_0_r. apply mem_in in E. apply same_length; try apply NoDup_nodup. intro y. rewrite !nodup_In, in_app_iff. cbn. split; [intros [H|[<-|[]]]; assumption|auto].
  - rewrite Nat.add_1_r. change (Datatypes.S (length (nodup Nat.eq_dec s))) with (length (x :: nodup Nat.eq_dec s)). apply same_length; [apply NoDup_nodup| |].
    + constructor; [|apply NoDup_nodup]. rewrite nodup_In, <- mem_in, E. discriminate.
    + intro y. rewrite nodup_In, in_app_iff. cbn [In]. rewrite nodup_In. tauto.
Qed.
Lemma members d s : Forall (fun x => x < d)%nat s -> length (filter (mem s) (seq 0 d)) = distinct s.
Proof.
  intros H. apply same_length; [apply NoDup_filter, seq_NoDup|apply NoDup_nodup|]. intro x. rewrite filter_In, in_seq, mem_in, nodup_In. rewrite Forall_forall in H.
  split; [tauto|]. intro Hx. specialize (H x Hx). split; [lia|exact Hx].
Qed.
Lemma distinct_le d s : Forall (fun x => x < d)%nat s -> (distinct s <= d)%nat.
Proof. intros H. rewrite <- (members d s H). rewrite <- (seq_length d 0) at 2. generalize (seq 0 d). intro l. induction l as [|a l IH]; [reflexivity|]. cbn [filter length]. destruct (mem s a); cbn [length]; lia. Qed.
Lemma onto_distinct d s : Forall (fun x => x < d)%nat s -> ontob d s = (distinct s =? d)%nat.
Proof.
  intros H. change (ontob d s) with (forallb (mem s) (seq 0 d)). destruct (Nat.eqb_spec (distinct s) d) as [E|Hn].
  - apply forallb_forall. intros x Hx. rewrite mem_in. apply (nodup_In Nat.eq_dec).
    refine (NoDup_length_incl (NoDup_nodup Nat.eq_dec s) _ _ x Hx); [rewrite seq_length; unfold distinct in E; lia|].
    intros y Hy. rewrite nodup_In in Hy. rewrite Forall_forall in H. specialize (H y Hy). apply in_seq. lia.
  - destruct (forallb (mem s) (seq 0 d)) eqn:E; [|reflexivity]. exfalso. apply Hn. rewrite forallb_forall in E. rewrite <- (members d s H). rewrite <- (seq_length d 0) at 2.
    f_equal. clear - E. induction (seq 0 d) as [|a l IH]; [reflexivity|]. cbn [filter]. assert (Ea : mem s a = true) by (apply E; left; reflexivity). rewrite Ea. f_equal. apply IH. intros x Hx. apply E. right. exact Hx.
Qed.
Lemma ontob_iff d s : ontob d s = true <-> onto d s.
Proof.
  unfold ontob, onto. rewrite forallb_forall. split.
  - intros H x Hx. apply mem_in. apply H. apply in_seq. lia.
  - intros H x Hx. apply in_seq in Hx. apply mem_in, H. lia.
Qed.
(* number of ways to continue *)
Lemma count_new d s : Forall (fun x => x < d)%nat s ->
  count (mem s) (seq 0 d) = N.of_nat (distinct s) /\ count (fun x => negb (mem s x)) (seq 0 d) = N.of_nat d - N.of_nat (distinct s).
Proof.
  intros H. unfold count. rewrite (members d s H). split; [reflexivity|]. pose proof (members d s H) as M.
  assert (L : forall l, (length (filter (mem s) l) + length (filter (fun x => negb (mem s x)) l) = length l)%nat).
  { induction l as [|a l IH]; [reflexivity|]. cbn [filter length]. destruct (mem s a); cbn [negb length]; lia. }
  specialize (L (seq 0 d)). rewrite seq_length in L. lia.
Qed.
Lemma count_flat_map {A B} (f : A -> list B) (p : B -> bool) l : count p (flat_map f l) = nsum (map (fun a => count p (f a)) l).
Proof. induction l as [|a l IH]; [reflexivity|]. cbn [flat_map map nsum fold_right]. rewrite count_app, IH. reflexivity. Qed.
Definition reach (d n j : nat) : N := count (fun s => (distinct s =? j)%nat) (words d n).
Lemma reach_succ d n j : reach d (Datatypes.S n) j =
  N.of_nat j * reach d n j + match j with O => 0 | Datatypes.S j' => (N.of_nat d - N.of_nat j') * reach d n j' end.
Proof.
  unfold reach. cbn [words]. rewrite count_flat_map.
  rewrite (nsum_map_ext _ (fun s => (if (distinct s =? j)%nat then N.of_nat j else 0) + match j with O => 0 | Datatypes.S j' => if (distinct s =? j')%nat then N.of_nat d - N.of_nat j' else 0 end)).
  - rewrite nsum_add. f_equal.
    + rewrite count_as_sum. generalize (words d n). intro l. induction l as [|s l IH]; cbn [map nsum fold_right]; [lia|]. unfold nsum in IH. rewrite IH. destruct (distinct s =? j)%nat; cbn [bitn]; lia.
    + destruct j as [|j']; [apply nsum_zero|]. rewrite count_as_sum. generalize (words d n). intro l. induction l as [|s l IH]; cbn [map nsum fold_right]; [lia|]. unfold nsum in IH. rewrite IH. destruct (distinct s =? j')%nat; cbn [bitn]; lia.
  - intros s Hs. apply words_in in Hs. destruct Hs as [_ Hs]. rewrite count_map. destruct (count_new d s Hs) as [C1 C2].
    rewrite (count_ext _ (fun x => if mem s x then (distinct s =? j)%nat else (distinct s + 1 =? j)%nat)).
    + assert (G : forall a b l, count (fun x => if mem s x then a else b) l = (if a : bool then count (mem s) l else 0) + (if b : bool then count (fun x => negb (mem s x)) l else 0)).
      { intros a b l. unfold count. induction l as [|x l IH]; [destruct a, b; reflexivity|]. cbn [filter]. destruct (mem s x), a, b; cbn [negb length] in *; lia. }
      rewrite G, C1, C2. f_equal.
      * destruct (Nat.eqb_spec (distinct s) j); congruence.
      * destruct j as [|j']; [destruct (Nat.eqb_spec (distinct s + 1) 0); [lia|reflexivity]|].
        destruct (Nat.eqb_spec (distinct s + 1) (Datatypes.S j')), (Nat.eqb_spec (distinct s) j'); try lia.
    + intros x _. rewrite distinct_snoc. destruct (mem s x); rewrite ?Nat.add_0_r; reflexivity.
Qed.

(* falling factorial and the true Stirling numbers *)
Fixpoint fall (d : N) (j : nat) : N := match j with O => 1 | S j' => fall d j' * (d - N.of_nat j') end.
Fixpoint S2 (n k : nat) : N :=
  match n, k with
  | O, O => 1 | O, _ => 0 | _, O => 0
  | S n', S k' => N.of_nat k * S2 n' k + S2 n' k'
  end.
Lemma reach_S2 d n : forall j, reach d n j = fall (N.of_nat d) j * S2 n j.
Proof.
  induction n as [|n IH]; intro j.
  - unfold reach, words, count. cbn [filter distinct nodup length Nat.eqb]. destruct j; [reflexivity|]. cbn. lia.
  - rewrite reach_succ. destruct j as [|j].
    + cbn. lia.
    + rewrite !IH. cbn [S2 fall]. nia.
Qed.
Fixpoint fact (n : nat) : N := match n with O => 1 | S n' => N.of_nat n * fact n' end.
Lemma fall_shift d : forall j, fall (N.of_nat (Datatypes.S d)) (Datatypes.S j) = N.of_nat (Datatypes.S d) * fall (N.of_nat d) j.
Proof.
  induction j as [|j IH]; [cbn [fall]; lia|]. change (fall (N.of_nat (Datatypes.S d)) (Datatypes.S (Datatypes.S j))) with (fall (N.of_nat (Datatypes.S d)) (Datatypes.S j) * (N.of_nat (Datatypes.S d) - N.of_nat (Datatypes.S j))).
  rewrite IH. cbn [fall]. replace (N.of_nat (Datatypes.S d) - N.of_nat (Datatypes.S j)) with (N.of_nat d - N.of_nat j) by lia. lia.
Qed.
Lemma fall_fact d : fall (N.of_nat d) d = fact d.
Proof. induction d as [|d IH]; [reflexivity|]. rewrite fall_shift, IH. reflexivity. Qed.
Lemma fall_fact_pred d : fall (N.of_nat (Datatypes.S d)) d = fact (Datatypes.S d).
Proof. rewrite <- fall_fact. change (fall (N.of_nat (Datatypes.S d)) (Datatypes.S d)) with (fall (N.of_nat (Datatypes.S d)) d * (N.of_nat (Datatypes.S d) - N.of_nat d)). lia. Qed.
Lemma surjections n k : count (ontob k) (words k n) = fact k * S2 n k.
Proof.
  rewrite <- fall_fact, <- reach_S2. unfold reach. apply count_ext. intros s Hs. apply words_in in Hs. apply onto_distinct, Hs.
Qed.
Lemma finishing d i : (1 <= d)%nat -> (1 <= i)%nat -> count (finishes d) (words d i) = fact d * S2 (i - 1) (d - 1).
Proof.
  intros Hd Hi. destruct d as [|d]; [lia|]. destruct i as [|i]; [lia|]. rewrite !Nat.sub_succ, !Nat.sub_0_r.
  rewrite <- fall_fact_pred, <- reach_S2. unfold reach. cbn [words]. rewrite count_flat_map, count_as_sum. apply nsum_map_ext. intros s Hs. apply words_in in Hs. destruct Hs as [_ Hs].
  rewrite count_map. destruct (count_new _ s Hs) as [_ C2].
  assert (L : (distinct s <= Datatypes.S d)%nat) by (apply distinct_le, Hs).
  assert (E : forall x, In x (seq 0 (Datatypes.S d)) -> finishes (Datatypes.S d) (s ++ [x]) = ((distinct s =? d)%nat && negb (mem s x))).
  { intros x Hx. apply in_seq in Hx. unfold finishes. rewrite removelast_last, !onto_distinct, distinct_snoc.
    - destruct (mem s x); destruct (Nat.eqb_spec (distinct s) d), (Nat.eqb_spec (distinct s) (Datatypes.S d)); cbn [negb andb]; rewrite ?andb_false_r, ?andb_true_r; try lia;
        try (rewrite e; rewrite ?Nat.add_1_r, ?Nat.add_0_r, ?Nat.eqb_refl; reflexivity || (apply Nat.eqb_neq; lia)); try (apply Nat.eqb_neq; lia); try reflexivity.
    - exact Hs.
    - apply Forall_app. split; [exact Hs|constructor; [lia|constructor]]. }
  rewrite (count_ext _ _ _ E). destruct (Nat.eqb_spec (distinct s) d) as [Ed|Nd]; cbn [bitn andb].
  - rewrite C2, Ed. lia.
  - unfold count. generalize (seq 0 (Datatypes.S d)). intro l. induction l as [|a l IH]; [reflexivity|exact IH].
Qed.
(* the function *)
Lemma stirling_nat_pos n : forall k, (Z.of_nat k < 2 ^ 31)%Z -> stirling_nat n (Z.of_nat k) = wrap 64 (S2 n k).
Proof.
  induction n as [|n IH]; intros k Hk.
  - destruct k; reflexivity.
  - cbn [stirling_nat]. destruct k as [|k]; [reflexivity|]. destruct (Z.eqb_spec (Z.of_nat (Datatypes.S k)) 0) as [E|_]; [lia|].
    replace (Z.of_nat (Datatypes.S k) - 1)%Z with (Z.of_nat k) by lia. rewrite !IH by lia. rewrite Z.mod_small; [|split; [lia|]].
    + replace (Z.to_N (Z.of_nat (Datatypes.S k))) with (N.of_nat (Datatypes.S k)) by lia. cbn [S2]. unfold wrap. rewrite N.mul_mod_idemp_r, N.add_mod_idemp_l, N.add_mod_idemp_r by discriminate. reflexivity.
    + lia.
Qed.
Lemma stirling_nat_neg n : forall k, (k < 0)%Z -> stirling_nat n k = 0.
Proof.
  induction n as [|n IH]; intros k Hk; cbn [stirling_nat]; destruct (Z.eqb_spec k 0); try lia. rewrite !IH by lia. rewrite N.mul_0_r. reflexivity.
Qed.
