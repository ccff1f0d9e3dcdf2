(* From chi2_stats to the specification chi2_test. *)
From Coq Require Import Reals Lra String.
From Flocq Require Import Core BinarySingleNaN.
From Verif Require Import Base FloatModel FloatLemmas ResultModel CollectModel CollectSpec CollectProofs Collect2Proofs RescaleProofs Collect3Proofs CouponFloatProofs StatsModel StatsProofs ErrorSpec StatFormulas TestsModel TestsSpec.
Open Scope R_scope.

Lemma filter_len_map {A B} (f : A -> B) (p : B -> bool) l : length (filter p (map f l)) = length (filter (fun x => p (f x)) l).
Proof. induction l as [|a l IH]; [reflexivity|]. cbn [map filter]. destruct (p (f a)); cbn [length]; rewrite IH; reflexivity. Qed.
Lemma map_nth_seq {A} (l : list A) d : map (fun i => nth i l d) (seq 0 (length l)) = l.
Proof.
  apply nth_ext with d d; [rewrite map_length, seq_length; reflexivity|]. intros i Hi. rewrite map_length, seq_length in Hi.
  rewrite (nth_indep _ d (nth O l d)) by (rewrite map_length, seq_length; exact Hi).
  rewrite (map_nth (fun i => nth i l d) (seq 0 (length l)) O i), seq_nth by exact Hi. reflexivity.
Qed.
Lemma combine_seq {A B} (l : list A) (f : nat -> B) d : forall k, combine l (map f (seq k (length l))) = map (fun i => (nth (i - k) l d, f i)) (seq k (length l)).
Proof.
  induction l as [|a l IH]; intros k; [reflexivity|]. cbn [length seq map combine]. rewrite IH. rewrite Nat.sub_diag. cbn [nth]. f_equal.
  apply map_ext_in. intros i Hi. apply in_seq in Hi. replace (i - k)%nat with (S (i - S k)) by lia. reflexivity.
Qed.
Lemma rsum_filter {A} (f : A -> R) (p : A -> bool) l : rsum (map f (filter p l)) = rsum (map (fun x => if p x then f x else 0) l).
Proof. induction l as [|a l IH]; [reflexivity|]. cbn [filter map]. destruct (p a); cbn [map rsum fold_right]; unfold rsum in IH |- *; cbn [fold_right]; rewrite IH; ring. Qed.

(* observed counts as doubles, expected counts all finite, the used ones moderate *)
Lemma chi2_is_test cdf os observed (expected : nat -> double) threshold es : (Z.of_nat (length os) <= 2 ^ 50)%Z -> fin threshold ->
  es = map (fun i => dval (expected i)) (seq 0 (length os)) ->
  (forall i, (i < length os)%nat -> (nth i os 0 <= 2 ^ 53)%N /\ fin (observed i) /\ dval (observed i) = IZR (Z.of_N (nth i os 0%N))) ->
  (forall i, (i < length os)%nat -> fin (expected i)) ->
  (forall i, (i < length os)%nat -> dval threshold < dval (expected i) -> bpow radix2 (-64) <= dval (expected i) <= bpow radix2 64) ->
  chi2_test cdf (dval threshold) os es (chi2_stats cdf (length os) observed expected threshold).
Proof.
  intros Hl Ft -> HO HF HE. split; [rewrite map_length, seq_length; reflexivity|]. cbn zeta.
  assert (B53 : (N.of_nat (length os) <= 2 ^ 53)%N).
  { apply N2Z.inj_le. rewrite nat_N_Z. apply Z.le_trans with (1 := Hl). discriminate. }
  assert (EX : forall i, (i < length os)%nat -> negb (dle (expected i) threshold) = Rlt_bool (dval threshold) (dval (expected i))).
  { intros i Hi. destruct (Rlt_bool_spec (dval threshold) (dval (expected i))) as [L|L].
    - apply negb_true_iff, dle_false; [apply HF, Hi|exact Ft|exact L].
    - apply negb_false_iff, dle_iff; [apply HF, Hi|exact Ft|exact L]. }
  assert (EK : length (filter (Rlt_bool (dval threshold)) (map (fun i => dval (expected i)) (seq 0 (length os)))) = N.to_nat (count (included expected threshold) (seq 0 (length os)))).
  { rewrite filter_len_map. unfold count. rewrite Nat2N.id. f_equal. apply filter_ext_in. intros i Hi. apply in_seq in Hi. symmetry. apply EX. lia. }
  rewrite EK. set (k := count (included expected threshold) (seq 0 (length os))) in *.
  destruct (chi2_stats_ok cdf observed expected threshold (length os) B53) as [K1 K2]. fold k in K1, K2.
  destruct (N.le_gt_cases k 1) as [Hk|Hk].
  - rewrite K1 by exact Hk. lia.
  - destruct K2 as (v & df & E & _ & [Fdf Vdf]); [lia|].
    assert (AC := chi2_value_accurate cdf (length os) observed expected threshold (mkstat Chi2 v (cdf v df) df)).
    rewrite E. cbn [st_type st_df st_value st_p].
    destruct AC as [Fv Av].
    + intros i Hi. destruct (HO i Hi) as (B & F & V). split; [exact F|]. rewrite V. split; [apply IZR_le; lia|].
      apply Rle_trans with (IZR (2 ^ 53)); [apply IZR_le; change (2 ^ 53)%Z with (Z.of_N (2 ^ 53)); apply N2Z.inj_le, B|].
      rewrite IZR_pow2 by lia. apply bpow_le. lia.
    + intros i Hi L. split; [apply HF, Hi|]. apply HE; [exact Hi|]. apply dle_false in L; [exact L|apply HF, Hi|exact Ft].
    + exact Hl.
    + exact E.
    + cbn [st_value] in *. split; [lia|]. split; [reflexivity|]. split; [exact Fdf|]. split.
      { rewrite Vdf. cbn [bpow]. rewrite Rmult_1_r, INR_IZR_INZ. f_equal. lia. }
      split; [exact Fv|]. split; [|reflexivity].
      assert (EC : chi2_exact observed expected threshold (seq 0 (length os)) = chi2_sum (dval threshold) os (map (fun i => dval (expected i)) (seq 0 (length os)))).
      { rewrite chi2_exact_sum. unfold chi2_sum. rewrite rsum_filter, (combine_seq os _ 0%N 0), map_map. f_equal. apply map_ext_in. intros i Hi. apply in_seq in Hi. cbn [fst snd].
        rewrite Nat.sub_0_r, (EX i) by lia. destruct (HO i) as (_ & _ & V); [lia|]. rewrite V. reflexivity. }
      rewrite <- EC. exact Av.
Qed.
(* the common case: the counts themselves *)
Lemma to_data_ok os i : (i < length os)%nat -> Forall (fun c => c <= 2 ^ 53)%N os -> (nth i os 0 <= 2 ^ 53)%N /\ fin (to_data os i) /\ dval (to_data os i) = IZR (Z.of_N (nth i os 0%N)).
Proof.
  intros Hi Ho. assert (B : (nth i os 0 <= 2 ^ 53)%N) by (rewrite Forall_forall in Ho; apply Ho, nth_In, Hi).
  destruct (double_of_N_exact _ B) as [V F]. split; [exact B|]. split; [exact F|exact V].
Qed.
