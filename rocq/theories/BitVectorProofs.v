From Coq Require Import String Ascii.
From Verif Require Import Base BitwiseModel BitwiseSpec WordLemmas BitwiseProofs BitVectorModel BitVectorSpec.
Open Scope Z_scope.
Ltac Zify.zify_post_hook ::= Z.div_mod_to_equations.

Definition raw (d : list N) (k : nat) : bool :=
  N.testbit (nth (k / 8) d 0%N) (N.of_nat (k mod 8)).

Definition Rep (bv : bit_vector) (l : list bool) : Prop :=
  bv_bits bv = Z.of_nat (length l) /\
  Z.of_nat (length l) <= int_max /\
  length (bv_data bv) = ((length l + 7) / 8)%nat /\
  forall i, (i < length l)%nat -> raw (bv_data bv) i = nth i l false.

Lemma at_ok {A} (l : list A) i d : (i < length l)%nat -> at_ l i = Ok (nth i l d).
Proof.
  intros H. unfold at_. rewrite (nth_error_nth' l d H). reflexivity.
Qed.

Lemma get_bit_raw bv i : (i < 8 * length (bv_data bv))%nat ->
  get_bit bv (Z.of_nat i) = Ok (raw (bv_data bv) i).
Proof.
  intros H. unfold get_bit. destruct (Z.ltb_spec (Z.of_nat i) 0); [lia|].
  replace (Z.to_nat (Z.of_nat i / 8)) with (i / 8)%nat by lia.
  rewrite (at_ok _ _ 0%N) by lia. cbn [obind]. rewrite land_1_testbit, shiftr_testbit.
  unfold raw. f_equal. f_equal. lia.
Qed.

Lemma get_bit_ub_high bv i : (8 * length (bv_data bv) <= i)%nat -> get_bit bv (Z.of_nat i) = UB.
Proof.
  intros H. unfold get_bit. destruct (Z.ltb_spec (Z.of_nat i) 0); [lia|].
  unfold at_. replace (nth_error _ _) with (@None N); [reflexivity|].
  symmetry. apply nth_error_None. lia.
Qed.

Lemma get_bit_ub_neg bv i : i < 0 -> get_bit bv i = UB.
Proof. intros H. unfold get_bit. destruct (Z.ltb_spec i 0); [reflexivity|lia]. Qed.

Lemma nth_upd {A} (l : list A) i j a d : (i < length l)%nat ->
  nth j (upd l i a) d = if Nat.eqb j i then a else nth j l d.
Proof.
  revert i j. induction l as [|h t IH]; intros [|i] [|j] H; cbn [length] in H; try lia;
    cbn [upd nth Nat.eqb]; try reflexivity. apply IH. lia.
Qed.

Lemma set_bit_raw bv k b : (k < 8 * length (bv_data bv))%nat ->
  exists d', set_bit bv (N.of_nat k) b = Ok (mkbv (bv_bits bv) d') /\
    length d' = length (bv_data bv) /\
    forall j, raw d' j = if Nat.eqb j k then b else raw (bv_data bv) j.
Proof.
  intros H. unfold set_bit.
  replace (N.to_nat (N.of_nat k / 8)) with (k / 8)%nat by lia.
  rewrite (at_ok _ _ 0%N) by lia. cbn [obind].
  eexists. split; [reflexivity|]. split; [apply upd_length|]. intro j.
  unfold raw. rewrite nth_upd by lia.
  destruct (Nat.eqb_spec (j / 8) (k / 8)) as [E|E].
  - rewrite E. replace (N.of_nat k - 8 * (N.of_nat k / 8))%N with (N.of_nat (k mod 8)) by lia.
    set (byte := nth (k / 8) (bv_data bv) 0%N).
    assert (Hj : (j mod 8 < 8)%nat) by (apply Nat.mod_upper_bound; lia).
    assert (Hk : (k mod 8 < 8)%nat) by (apply Nat.mod_upper_bound; lia).
    assert (HE : (j =? k)%nat = (j mod 8 =? k mod 8)%nat).
    { destruct (Nat.eqb_spec j k), (Nat.eqb_spec (j mod 8) (k mod 8)); try reflexivity; lia. }
    rewrite HE. revert Hj Hk. generalize (j mod 8)%nat (k mod 8)%nat. clear. intros p q Hp Hq.
    assert (H1 : N.testbit (N.shiftl 1 (N.of_nat q)) (N.of_nat p) = (p =? q)%nat).
    { rewrite N.shiftl_1_l. destruct (Nat.eqb_spec p q) as [->|Hne].
      - apply N.pow2_bits_true.
      - apply N.pow2_bits_false. lia. }
    destruct b.
    + rewrite wrap_testbit, N.lor_spec, H1.
      destruct (N.ltb_spec (N.of_nat p) 8); [|lia]. cbn [andb].
      destruct (p =? q)%nat; [apply orb_true_r|apply orb_false_r].
    + rewrite wrap_testbit, N.ldiff_spec, H1.
      destruct (N.ltb_spec (N.of_nat p) 8); [|lia]. cbn [andb].
      destruct (p =? q)%nat; [apply andb_false_r|apply andb_true_r].
  - destruct (Nat.eqb_spec j k); [subst; contradiction|reflexivity].
Qed.

Lemma set_bit_ub bv k b : (8 * length (bv_data bv) <= k)%nat -> set_bit bv (N.of_nat k) b = UB.
Proof.
  intros H. unfold set_bit, at_. replace (nth_error _ _) with (@None N); [reflexivity|].
  symmetry. apply nth_error_None. lia.
Qed.

Lemma resize_length l n : length (resize l n) = n.
Proof. unfold resize. rewrite app_length, firstn_length, repeat_length. lia. Qed.

Lemma resize_raw l n k : (k < 8 * Nat.min n (length l))%nat -> raw (resize l n) k = raw l k.
Proof.
  intros H. unfold raw, resize. f_equal.
  rewrite app_nth1 by (rewrite firstn_length; lia).
  rewrite <- (firstn_skipn n l) at 2. rewrite app_nth1; [reflexivity|].
  rewrite firstn_length. lia.
Qed.

Lemma zrange_S lo n : zrange lo (lo + Z.of_nat (S n)) = zrange lo (lo + Z.of_nat n) ++ [lo + Z.of_nat n].
Proof.
  unfold zrange. replace (Z.to_nat (lo + Z.of_nat (S n) - lo)) with (S n) by lia.
  replace (Z.to_nat (lo + Z.of_nat n - lo)) with n by lia.
  rewrite seq_S, map_app. reflexivity.
Qed.

Lemma zrange_nil lo hi : hi <= lo -> zrange lo hi = [].
Proof. intros H. unfold zrange. replace (Z.to_nat (hi - lo)) with O by lia. reflexivity. Qed.

Lemma ofold_app {S A} (f : S -> A -> outcome S) l1 l2 s :
  ofold f (l1 ++ l2) s = (s' <- ofold f l1 s ;; ofold f l2 s').
Proof.
  revert s. induction l1 as [|a l1 IH]; intro s; [reflexivity|].
  cbn [app ofold]. destruct (f s a); cbn [obind]; [apply IH|reflexivity].
Qed.

Lemma Rep_bytes bv l i : Rep bv l -> (i < length l)%nat -> (i < 8 * length (bv_data bv))%nat.
Proof. intros (_ & _ & L & _) H. rewrite L. lia. Qed.

Lemma Rep_get bv l i : Rep bv l -> (i < length l)%nat -> get_bit bv (Z.of_nat i) = Ok (nth i l false).
Proof.
  intros R H. rewrite get_bit_raw by (eapply Rep_bytes; eassumption).
  f_equal. apply R, H.
Qed.

Lemma firstn_S_nth {A} (l : list A) n d : (n < length l)%nat -> firstn (S n) l = firstn n l ++ [nth n l d].
Proof.
  revert n. induction l as [|a l IH]; intros [|n] H; cbn [length] in H; try lia; [reflexivity|].
  change (firstn (S (S n)) (a :: l)) with (a :: firstn (S n) l). rewrite IH by lia. reflexivity.
Qed.

Lemma count_true_app l1 l2 : count_true (l1 ++ l2) = (count_true l1 + count_true l2)%nat.
Proof. unfold count_true. rewrite filter_app, app_length. reflexivity. Qed.

Lemma string_of_bits_app l1 l2 : string_of_bits (l1 ++ l2) = (string_of_bits l1 ++ string_of_bits l2)%string.
Proof. induction l1 as [|b l1 IH]; [reflexivity|]. cbn. rewrite IH. reflexivity. Qed.

Lemma Rep_count bv l : Rep bv l -> bv_count bv = Ok (Z.of_nat (count_true l)).
Proof.
  intros R. unfold bv_count. destruct R as (Hb & R'). rewrite Hb.
  assert (H : forall n, (n <= length l)%nat ->
    ofold (fun sum i => b <- get_bit bv i ;; Ok (if b : bool then sum + 1 else sum))
      (zrange 0 (0 + Z.of_nat n)) 0 = Ok (Z.of_nat (count_true (firstn n l)))).
  { induction n as [|n IH]; intros Hn; [reflexivity|].
    rewrite zrange_S, ofold_app, IH by lia. cbn [obind ofold].
    change (0 + Z.of_nat n) with (Z.of_nat n).
    rewrite (Rep_get bv l) by (exact (conj Hb R') || lia). cbn [obind].
    rewrite (firstn_S_nth l n false), count_true_app by lia. f_equal.
    destruct (nth n l false); cbn; lia. }
  change (Z.of_nat (length l)) with (0 + Z.of_nat (length l)). rewrite H by lia.
  rewrite firstn_all. reflexivity.
Qed.

Lemma Rep_to_string bv l : Rep bv l -> bv_to_string bv = Ok (string_of_bits l).
Proof.
  intros R. unfold bv_to_string. destruct R as (Hb & R'). rewrite Hb.
  assert (H : forall n, (n <= length l)%nat ->
    ofold (fun s i => b <- get_bit bv i ;; Ok (s ++ (if b : bool then "1" else "0"))%string)
      (zrange 0 (0 + Z.of_nat n)) ""%string = Ok (string_of_bits (firstn n l))).
  { induction n as [|n IH]; intros Hn; [reflexivity|].
    rewrite zrange_S, ofold_app, IH by lia. cbn [obind ofold].
    change (0 + Z.of_nat n) with (Z.of_nat n).
    rewrite (Rep_get bv l) by (exact (conj Hb R') || lia). cbn [obind].
    rewrite (firstn_S_nth l n false), string_of_bits_app by lia. f_equal. f_equal.
    destruct (nth n l false); reflexivity. }
  change (Z.of_nat (length l)) with (0 + Z.of_nat (length l)). rewrite H by lia.
  rewrite firstn_all. reflexivity.
Qed.

Lemma nth_skipn {A} (l : list A) n k d : nth k (skipn n l) d = nth (n + k) l d.
Proof. revert l. induction n as [|n IH]; intros [|a l]; cbn [skipn]; try reflexivity; [destruct k; reflexivity|]. apply IH. Qed.

Lemma Rep_get_range bv l w from count : Rep bv l -> (N.of_nat count <= w)%N ->
  (from + count <= length l)%nat ->
  bv_get w bv (Z.of_nat from) (Z.of_nat count) = Ok (value_lsb (firstn count (skipn from l))).
Proof.
  intros R Hw Hr. unfold bv_get.
  assert (Hl : Z.of_nat (length l) <= int_max) by apply R.
  destruct (Z.ltb_spec int_max (Z.of_nat from + Z.of_nat count)); [lia|].
  revert Hw Hr. clear H. induction count as [|c IH]; intros Hw Hr.
  - rewrite zrange_nil by lia. reflexivity.
  - rewrite zrange_S, ofold_app, IH by lia. cbn [obind ofold].
    replace (Z.of_nat from + Z.of_nat c) with (Z.of_nat (from + c)) by lia.
    rewrite (Rep_get bv l) by (exact R || lia). cbn [obind].
    replace (Z.to_N (Z.of_nat (from + c) - Z.of_nat from)) with (N.of_nat c) by lia.
    rewrite (firstn_S_nth (skipn from l) c false) by (rewrite skipn_length; lia).
    rewrite nth_skipn. set (p := firstn c (skipn from l)).
    assert (Lp : length p = c) by (unfold p; rewrite firstn_length, skipn_length; lia).
    rewrite <- lor_shift_value. rewrite Lp.
    destruct (nth (from + c) l false).
    + unfold promoted. destruct (N.leb_spec (N.max w 32) (N.of_nat c)); [lia|].
      cbn [obind]. f_equal. apply wrap_id.
      pose proof (lor_shift_value p true) as HL. rewrite Lp in HL. cbn [Bool.eqb] in HL. rewrite HL.
      unfold is_word.
      eapply N.lt_le_trans; [apply value_lsb_bound|]. apply N.pow_le_mono_r; [lia|].
      rewrite app_length. cbn [length]. lia.
    + cbn [obind]. rewrite N.shiftl_0_l, N.lor_0_r. reflexivity.
Qed.

Lemma Rep_observes bv l : Rep bv l -> observes bv l.
Proof.
  intros R. split; [apply R|]. split; [intros i Hi; apply Rep_get; assumption|].
  split; [apply Rep_count, R|]. split; [apply Rep_to_string, R|].
  intros w from count Hw Hc Hr. apply Rep_get_range; [exact R|lia|exact Hr].
Qed.

Lemma Rep_empty : Rep bv_empty [].
Proof. split; [reflexivity|]. split; [unfold int_max; cbn; lia|]. split; [reflexivity|]. cbn. lia. Qed.

Lemma raw_zero n k : raw (repeat 0%N n) k = false.
Proof.
  unfold raw. replace (nth (k / 8) (repeat 0%N n) 0%N) with 0%N; [apply N.bits_0|].
  symmetry. apply nth_repeat.
Qed.

Lemma byte_size_ok n : Z.of_nat n <= int_max -> byte_size (Z.of_nat n) = Ok ((n + 7) / 8)%nat.
Proof.
  intros H. unfold byte_size. destruct (Z.leb_spec (Z.of_nat n) (-8)); [lia|]. f_equal. lia.
Qed.

Lemma Rep_new n : Z.of_nat n <= int_max ->
  exists bv, bv_new (Z.of_nat n) = Ok bv /\ Rep bv (repeat false n).
Proof.
  intros H. unfold bv_new. rewrite byte_size_ok by exact H. cbn [obind].
  eexists. split; [reflexivity|]. split; [cbn [bv_bits]; rewrite repeat_length; reflexivity|].
  rewrite repeat_length. split; [exact H|]. split; [apply resize_length|]. intros i Hi.
  cbn [bv_data]. unfold resize. rewrite firstn_nil. cbn [app].
  rewrite raw_zero. symmetry. apply nth_repeat.
Qed.

Lemma Rep_set bv l i b : Rep bv l -> (i < N.of_nat (length l))%N ->
  exists bv', set_bit bv i b = Ok bv' /\ Rep bv' (upd l (N.to_nat i) b).
Proof.
  intros R Hi.
  destruct (set_bit_raw bv (N.to_nat i) b) as (d' & E & L & Hraw).
  { eapply Rep_bytes; [exact R|lia]. }
  rewrite N2Nat.id in E. rewrite E. eexists. split; [reflexivity|].
  destruct R as (R1 & R2 & R3 & R4). unfold Rep. rewrite upd_length. cbn [bv_bits bv_data].
  split; [exact R1|]. split; [exact R2|]. split; [rewrite L; exact R3|].
  intros j Hj. rewrite Hraw, nth_upd by lia. destruct (Nat.eqb j (N.to_nat i)); [reflexivity|].
  apply R4, Hj.
Qed.

Lemma nth_firstn {A} (l : list A) n k d : (k < n)%nat -> nth k (firstn n l) d = nth k l d.
Proof.
  revert l k. induction n as [|n IH]; intros [|a l] [|k] H; cbn; try reflexivity; try lia. apply IH. lia.
Qed.

Lemma nth_bits_lsb n v k : (k < n)%nat -> nth k (bits_lsb n v) false = N.testbit v (N.of_nat k).
Proof.
  intros H. unfold bits_lsb.
  rewrite (nth_indep _ false (N.testbit v (N.of_nat 0))) by (rewrite map_length, seq_length; exact H).
  rewrite (map_nth (fun i => N.testbit v (N.of_nat i))), seq_nth by exact H. reflexivity.
Qed.

Lemma Rep_add bv l v c : Rep bv l -> op_ok l (OpAdd v c) ->
  exists bv', bv_add bv v c = Ok bv' /\ Rep bv' (spec_step l (OpAdd v c)).
Proof.
  intros R (Hc & Hlen). cbn [spec_step]. unfold bv_add.
  destruct R as (R1 & R2 & R3 & R4). rewrite R1.
  destruct (Z.ltb_spec int_max (Z.of_nat (length l) + c)); [lia|].
  destruct (Z.ltb_spec c 0) as [Hneg|Hpos].
  - rewrite (zrange_nil 0 c) by lia. cbn [ofold].
    set (m := Z.to_nat (Z.of_nat (length l) + c)).
    replace (Z.of_nat (length l) + c) with (Z.of_nat m) by lia.
    rewrite byte_size_ok by lia. cbn [obind]. eexists. split; [reflexivity|].
    assert (Lf : length (firstn m l) = m) by (rewrite firstn_length; lia).
    unfold Rep. rewrite Lf. cbn [bv_bits bv_data]. split; [reflexivity|]. split; [lia|].
    split; [apply resize_length|]. intros i Hi. rewrite resize_raw by lia.
    rewrite nth_firstn by exact Hi. apply R4. lia.
  - set (k := Z.to_nat c). replace c with (Z.of_nat k) in * by lia.
    rewrite <- Nat2Z.inj_add, byte_size_ok by lia. cbn [obind].
    set (d0 := resize (bv_data bv) ((length l + k + 7) / 8)).
    assert (H0 : forall n, (n <= k)%nat -> exists d',
      ofold (fun bv i => if 64 <=? i then UB
               else set_bit bv (Z.to_N (Z.of_nat (length l) + i)) (N.land (N.shiftr v (Z.to_N i)) 1 =? 1)%N)
        (zrange 0 (0 + Z.of_nat n)) (mkbv (Z.of_nat (length l + k)) d0)
      = Ok (mkbv (Z.of_nat (length l + k)) d') /\ length d' = length d0 /\
      forall i, (i < length l + n)%nat -> raw d' i = nth i (l ++ bits_lsb k v) false).
    { induction n as [|n IH]; intros Hn.
      - exists d0. split; [reflexivity|]. split; [reflexivity|]. intros i Hi.
        unfold d0. rewrite resize_raw by lia. rewrite app_nth1 by lia. apply R4. lia.
      - destruct IH as (d' & E & L & Hr); [lia|].
        rewrite zrange_S, ofold_app, E. cbn [obind ofold].
        destruct (Z.leb_spec 64 (0 + Z.of_nat n)); [lia|].
        replace (Z.to_N (Z.of_nat (length l) + (0 + Z.of_nat n))) with (N.of_nat (length l + n)) by lia.
        destruct (set_bit_raw (mkbv (Z.of_nat (length l + k)) d') (length l + n)
                   (N.land (N.shiftr v (Z.to_N (0 + Z.of_nat n))) 1 =? 1)%N) as (d'' & E2 & L2 & Hr2).
        { cbn [bv_data]. rewrite L. unfold d0. rewrite resize_length. lia. }
        rewrite E2. cbn [obind bv_bits]. exists d''. split; [reflexivity|].
        split; [cbn [bv_data] in L2; congruence|]. intros i Hi. rewrite Hr2. cbn [bv_data].
        destruct (Nat.eqb_spec i (length l + n)) as [->|Hne].
        + rewrite app_nth2 by lia. replace (length l + n - length l)%nat with n by lia.
          rewrite nth_bits_lsb by lia. rewrite land_1_testbit, shiftr_testbit. f_equal. lia.
        + apply Hr. lia. }
    destruct (H0 k ltac:(lia)) as (d' & E & L & Hr).
    change (Z.of_nat k) with (0 + Z.of_nat k) at 1. rewrite E.
    eexists. split; [reflexivity|]. unfold Rep. rewrite app_length, bits_lsb_length.
    cbn [bv_bits bv_data]. split; [reflexivity|]. split; [lia|].
    split; [rewrite L; unfold d0; apply resize_length|]. intros i Hi. apply Hr. lia.
Qed.

Lemma Rep_step bv l o : Rep bv l -> op_ok l o ->
  exists bv', bv_step bv o = Ok bv' /\ Rep bv' (spec_step l o).
Proof.
  destruct o as [v c|i b]; intros R H.
  - apply Rep_add; assumption.
  - apply Rep_set; assumption.
Qed.

Lemma Rep_steps os : forall bv l, Rep bv l -> ops_ok l os ->
  exists bv', ofold bv_step os bv = Ok bv' /\ Rep bv' (fold_left spec_step os l).
Proof.
  induction os as [|o os IH]; intros bv l R H.
  - exists bv. split; [reflexivity|exact R].
  - destruct H as (H1 & H2). destruct (Rep_step bv l o R H1) as (bv1 & E1 & R1).
    destruct (IH bv1 _ R1 H2) as (bv2 & E2 & R2). exists bv2. split; [|exact R2].
    cbn [ofold]. rewrite E1. exact E2.
Qed.

Lemma bit_vector_refines n os :
  Z.of_nat n <= int_max -> ops_ok (repeat false n) os ->
  exists bv0 bv, bv_new (Z.of_nat n) = Ok bv0 /\ ofold bv_step os bv0 = Ok bv /\
    observes bv (fold_left spec_step os (repeat false n)).
Proof.
  intros Hn H. destruct (Rep_new n Hn) as (bv0 & E0 & R0).
  destruct (Rep_steps os bv0 _ R0 H) as (bv & E & R).
  exists bv0, bv. split; [exact E0|]. split; [exact E|apply Rep_observes, R].
Qed.

Lemma bit_vector_default_refines os : ops_ok [] os ->
  exists bv, ofold bv_step os bv_empty = Ok bv /\ observes bv (fold_left spec_step os []).
Proof.
  intros H. destruct (Rep_steps os bv_empty _ Rep_empty H) as (bv & E & R).
  exists bv. split; [exact E|apply Rep_observes, R].
Qed.

(* After any valid history, reading or writing outside the allocated bytes is UB. *)
Lemma bit_vector_oob os bv : ops_ok [] os -> ofold bv_step os bv_empty = Ok bv ->
  (forall i, i < 0 \/ 8 * ((bv_size bv + 7) / 8) <= i -> get_bit bv i = UB) /\
  (forall i b, 8 * ((bv_size bv + 7) / 8) <= Z.of_N i -> set_bit bv i b = UB).
Proof.
  intros H E. destruct (Rep_steps os bv_empty _ Rep_empty H) as (bv' & E' & R).
  rewrite E in E'. injection E' as <-. destruct R as (R1 & R2 & R3 & _). unfold bv_size. rewrite R1.
  split.
  - intros i [Hi|Hi]; [apply get_bit_ub_neg, Hi|].
    replace i with (Z.of_nat (Z.to_nat i)) by lia. apply get_bit_ub_high. rewrite R3. lia.
  - intros i b Hi. replace i with (N.of_nat (N.to_nat i)) by lia. apply set_bit_ub. rewrite R3. lia.
Qed.

(* Adding more than 64 bits at once is UB. *)
Lemma bv_add_too_many bv v c : 64 < c -> 0 <= bv_bits bv -> bv_add bv v c = UB.
Proof.
  intros Hc Hb. unfold bv_add. destruct (int_max <? bv_bits bv + c); [reflexivity|].
  destruct (byte_size (bv_bits bv + c)); [cbn [obind]|reflexivity].
  replace c with (0 + Z.of_nat (65 + (Z.to_nat c - 65)))%Z by lia.
  set (m := (Z.to_nat c - 65)%nat).
  assert (Hz : exists r, zrange 0 (0 + Z.of_nat (65 + m)) = zrange 0 64 ++ 64 :: r).
  { unfold zrange. replace (Z.to_nat (0 + Z.of_nat (65 + m) - 0)) with (64 + S m)%nat by lia.
    rewrite seq_app, map_app. change (Z.to_nat (64 - 0)) with 64%nat. cbn [seq map].
    eexists. reflexivity. }
  destruct Hz as (r & ->). rewrite ofold_app.
  match goal with |- obind ?x _ = _ => destruct x end; reflexivity.
Qed.
