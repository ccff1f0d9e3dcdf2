(* The linear complexity test. *)
From Coq Require Import String Reals Lra.
From Flocq Require Import Core BinarySingleNaN.
From Verif Require Import Base BitwiseModel WordLemmas BitwiseProofs FloatModel FloatLemmas ResultModel CollectModel CollectSpec CollectProofs RescaleProofs RankModel RankProofs RankProb RankStats LfsrModel LfsrSpec LfsrProofs LfsrCount.
Open Scope N_scope.
Section S.
Variables (pow : double -> double -> double) (cdf : double -> double -> double).
(* the bits of one block *)
Definition lc_block (stream : nat -> N) (b : N) (bs k : nat) : list bool := map (fun i => N.testbit (stream i) b) (seq (k * bs) bs).
Lemma omapM_all {A B} (f : A -> outcome B) (g : A -> B) l : (forall x, f x = Ok (g x)) -> omapM f l = Ok (map g l).
Proof. intro H. induction l as [|x l IH]; [reflexivity|]. cbn [omapM map]. rewrite H. cbn [obind]. rewrite IH. reflexivity. Qed.
Lemma lc_stats_ok w n stream bs b : (0 < bs)%nat -> b < promoted w ->
  linear_complexity_stats pow cdf w n stream bs (Z.of_N b) =
  Ok (rank_chi2 cdf (get_expected_probabilities pow bs)
        (map (fun L => count (fun k => Nat.eqb (lcf (lc_block stream b bs k)) L) (seq 0 (N.to_nat (n / N.of_nat bs)))) (seq 0 (S bs))) (n / N.of_nat bs)).
Proof.
  intros H0 Hb. unfold linear_complexity_stats. destruct (Nat.eqb_spec bs 0); [lia|]. cbn zeta.
  assert (LP : length (get_expected_probabilities pow bs) = S bs) by (unfold get_expected_probabilities; rewrite map_length, seq_length; reflexivity).
  rewrite LP, repeat_cells. rewrite (inc_loop (fun k => lcf (lc_block stream b bs k)) _ (S bs)).
  - cbn [obind]. do 2 f_equal.
  - intros h k _. rewrite (omapM_all _ (fun i => if N.testbit (stream i) b then 1 else 0)) by (intro i; rewrite is_bit_set_spec by exact Hb; reflexivity). cbn [obind].
    assert (E : map (fun i => if N.testbit (stream i) b then 1 else 0) (seq (k * bs) bs) = bit_cells (lc_block stream b bs k)) by (unfold bit_cells, lc_block; rewrite map_map; reflexivity).
    rewrite E. destruct (bm_lc (lc_block stream b bs k)) as (L & EL & XL).
    + intro Z. apply (f_equal (@length bool)) in Z. unfold lc_block in Z. rewrite map_length, seq_length in Z. cbn in Z. lia.
    + rewrite EL. cbn [obind]. apply lcf_eq in XL. rewrite XL. reflexivity.
  - apply Forall_forall. intros k _. pose proof (lcf_le (lc_block stream b bs k)) as H. unfold lc_block in H at 2. rewrite map_length, seq_length in H. lia.
Qed.
Lemma lc_test_small w n stream : n < 8192 -> linear_complexity_test pow cdf w n stream = Ok [].
Proof. intro H. unfold linear_complexity_test. assert (n / 1024 < 8) by (apply N.div_lt_upper_bound; lia). destruct (N.ltb_spec (n / 1024) 8); [reflexivity|lia]. Qed.
Lemma lc_test_ok w n stream : 8192 <= n -> linear_complexity_test pow cdf w n stream =
  (s <- linear_complexity_stats pow cdf w n stream (N.to_nat (n / 1024)) 0 ;; Ok [s]).
Proof. intro H. unfold linear_complexity_test. assert (8 <= n / 1024) by (apply N.div_le_lower_bound; lia). destruct (N.ltb_spec (n / 1024) 8); [lia|reflexivity]. Qed.
Open Scope R_scope.
Lemma lc_prob_ok bs L d : pow2_exact pow -> (0 < bs)%nat -> (Z.of_nat bs <= 2 ^ 53)%Z -> (L <= bs)%nat ->
  let p := nth L (get_expected_probabilities pow bs) d in let q := INR (lc_count bs L) / IZR (2 ^ Z.of_nat bs) in
  fin p /\ (bpow radix2 (-1074) <= q -> dval p = q) /\ Rabs (dval p - q) <= bpow radix2 (-1074).
Proof.
  intros HP H0 Hbs HL p q. assert (Hn : (N.of_nat bs < 2 ^ 62)%N) by lia.
  destruct (log2_prob_count bs L H0 Hn HL) as [B E]. set (e := lfsr_log2_probability (N.of_nat bs) (N.of_nat L)) in *.
  assert (EP : p = pow (double_of_N 2) (double_of_Z e)).
  { unfold p, get_expected_probabilities. set (g := fun l => pow (double_of_N 2) (double_of_Z (lfsr_log2_probability (N.of_nat bs) (N.of_nat l)))).
    rewrite (nth_indep _ d (g O)) by (rewrite map_length, seq_length; lia). rewrite map_nth, seq_nth by lia. reflexivity. }
  assert (EQ : q = bpow radix2 e).
  { unfold q. rewrite INR_IZR_INZ, E. rewrite !IZR_pow2 by lia. unfold Rdiv. rewrite <- bpow_opp, <- bpow_plus. f_equal. lia. }
  destruct (HP e ltac:(lia)) as [F V]. rewrite <- EP in F, V. split; [exact F|]. rewrite EQ. destruct (Z.ltb_spec e (-1074)).
  - split.
    + intro C. apply le_bpow in C. lia.
    + assert (0 < bpow radix2 e) by apply bpow_gt_0. assert (bpow radix2 e <= bpow radix2 (-1074)) by (apply bpow_le; lia). apply Rabs_le. lra.
  - split; [intros _; exact V|]. rewrite V. replace (bpow radix2 e - bpow radix2 e) with 0 by ring. rewrite Rabs_R0. apply bpow_ge_0.
Qed.
End S.
