(* The coupon test: the 24 probabilities and the remainder. *)
From Coq Require Import Reals Lra String.
From Flocq Require Import Core BinarySingleNaN.
From Verif Require Import Base FloatModel FloatLemmas ResultModel CollectModel CollectSpec CollectProofs Collect2Proofs RescaleProofs Collect3Proofs CouponModel CouponSpec CouponProofs CouponFloatProofs StatsModel StatsProofs ErrorSpec StatFormulas EvaluateModel EvaluateSpec TestsModel TestsSpec TestsProofs TestsUniform TestsGap Prop_Collect.
Open Scope R_scope.

(* the loop stops at the first sum that reaches .99 *)
Definition p99 : double := dconst 8917127262193582 (-53).
Lemma coupon_loop_shape pow fac d : forall left i sum l, coupon_loop pow fac d i left sum = Ok l ->
  exists ps, l = ps ++ [dsub d1 (fold_left dadd ps sum)] /\ (length ps <= left)%nat /\
    (forall j, (j < length ps)%nat -> dlt (fold_left dadd (firstn j ps) sum) p99 = true) /\
    (length ps = left \/ dlt (fold_left dadd ps sum) p99 = false).
Proof.
  induction left as [|left IH]; intros i sum l; cbn [coupon_loop].
  - intros [= <-]. exists []. split; [reflexivity|]. split; [cbn; lia|]. split; [cbn; lia|left; reflexivity].
  - fold p99. destruct (dlt sum p99) eqn:E.
    + destruct (stirling_second_kind (Z.of_N i - 1) (Z.of_N d - 1)) as [s|]; cbn [obind]; [|discriminate]. set (p := dmul (ddiv _ _) _).
      destruct (coupon_loop pow fac d (i + 1) left (dadd sum p)) as [r|] eqn:ER; cbn [obind]; [|discriminate]. intros [= <-].
      destruct (IH _ _ _ ER) as (ps & -> & L & H & X). exists (p :: ps). split; [reflexivity|]. split; [cbn [length]; lia|]. split.
      * intros [|j] Hj; [exact E|]. cbn [firstn fold_left]. apply H. cbn [length] in Hj. lia.
      * destruct X as [X|X]; [left; cbn [length]; lia|right; exact X].
    + intros [= <-]. exists []. split; [reflexivity|]. split; [cbn; lia|]. split; [cbn; lia|right; exact E].
Qed.

(* the number of words of length 5 + k that complete five coupons at the end, over 5^(5+k) *)
Definition fin5 (k : nat) : N := (fact 5 * S2 (4 + k) 4)%N.
Definition prob5 (k : nat) : R := IZR (Z.of_N (fin5 k)) / IZR (Z.of_N (5 ^ N.of_nat (5 + k))).
Definition num5 (j : nat) : N := total (map (fun k => fin5 k * 5 ^ N.of_nat (25 - k))%N (seq 0 j)).
Definition sum5 (j : nat) : R := IZR (Z.of_N (num5 j)) / IZR (Z.of_N (5 ^ 30)).
Lemma pow5 k : IZR (Z.of_N (5 ^ N.of_nat k)) = 5 ^ k.
Proof. rewrite N2Z.inj_pow, nat_N_Z. change (Z.of_N 5) with 5%Z. rewrite <- pow_IZR. reflexivity. Qed.
Lemma total_snoc l x : total (l ++ [x]) = (total l + x)%N.
Proof. induction l as [|a l IH]; [cbn; lia|]. cbn [app total fold_right]. unfold total in IH. rewrite IH. lia. Qed.
Lemma sum5_step j : (j <= 25)%nat -> sum5 (S j) = sum5 j + prob5 j.
Proof.
  intros Hj. unfold sum5, prob5, num5. rewrite seq_S, map_app. cbn [map]. rewrite Nat.add_0_l, total_snoc, N2Z.inj_add, plus_IZR, N2Z.inj_mul, mult_IZR, pow5, (pow5 (5 + j)).
  change 30%N with (N.of_nat 30). rewrite pow5. replace 30%nat with ((5 + j) + (25 - j))%nat by lia. rewrite pow_add.
  pose proof (pow_lt 5 (5 + j) ltac:(lra)). pose proof (pow_lt 5 (25 - j) ltac:(lra)). field. lra.
Qed.
Lemma sum5_0 : sum5 0 = 0.
Proof. unfold sum5. cbn [num5 seq map total fold_right Z.of_N]. unfold Rdiv. ring. Qed.
Lemma frac_lt a b c d : (0 < b)%N -> (0 < d)%N -> (a * d < c * b)%N -> IZR (Z.of_N a) / IZR (Z.of_N b) < IZR (Z.of_N c) / IZR (Z.of_N d).
Proof.
  intros Hb Hd H. assert (0 < IZR (Z.of_N b)) by (apply IZR_lt; lia). assert (0 < IZR (Z.of_N d)) by (apply IZR_lt; lia).
  apply (Rmult_lt_reg_r (IZR (Z.of_N b))); [assumption|]. apply (Rmult_lt_reg_r (IZR (Z.of_N d))); [assumption|].
  replace (IZR (Z.of_N a) / IZR (Z.of_N b) * IZR (Z.of_N b) * IZR (Z.of_N d)) with (IZR (Z.of_N a) * IZR (Z.of_N d)) by (field; lra).
  replace (IZR (Z.of_N c) / IZR (Z.of_N d) * IZR (Z.of_N b) * IZR (Z.of_N d)) with (IZR (Z.of_N c) * IZR (Z.of_N b)) by (field; lra).
  rewrite <- !mult_IZR, <- !N2Z.inj_mul. apply IZR_lt, N2Z.inj_lt, H.
Qed.
Lemma sum5_below j : (j < 24)%nat -> sum5 j < 9891 / 10000.
Proof.
  intros Hj. unfold sum5. change (9891 / 10000) with (IZR (Z.of_N 9891) / IZR (Z.of_N 10000)). apply frac_lt; [reflexivity|reflexivity|].
  do 24 (destruct j as [|j]; [vm_compute; reflexivity|]). lia.
Qed.
Lemma sum5_24 : 9902 / 10000 < sum5 24 < 9904 / 10000.
Proof.
  unfold sum5. change (9902 / 10000) with (IZR (Z.of_N 9902) / IZR (Z.of_N 10000)). change (9904 / 10000) with (IZR (Z.of_N 9904) / IZR (Z.of_N 10000)).
  split; apply frac_lt; vm_compute; reflexivity.
Qed.
Lemma prob5_pos k : 0 <= prob5 k.
Proof. unfold prob5. apply Rmult_le_pos; [apply IZR_le; lia|]. apply Rlt_le, Rinv_0_lt_compat. rewrite pow5. apply pow_lt. lra. Qed.
Lemma sum5_all j : (j <= 25)%nat -> 0 <= sum5 j < 1.
Proof.
  intros Hj. split; [unfold sum5; apply Rmult_le_pos; [apply IZR_le; lia|apply Rlt_le, Rinv_0_lt_compat, IZR_lt; reflexivity]|].
  unfold sum5. replace 1 with (IZR (Z.of_N 1) / IZR (Z.of_N 1)) by (cbn; field). apply frac_lt; [reflexivity|reflexivity|].
  do 26 (destruct j as [|j]; [vm_compute; reflexivity|]). lia.
Qed.

(* the running sums in floating point *)
Lemma sums_close ps : (forall k, (k < length ps)%nat -> fin (nth k ps d0) /\ approx (bpow radix2 (-48)) (dval (nth k ps d0)) (prob5 k)) ->
  forall j, (j <= length ps)%nat -> (j <= 25)%nat -> fin (fold_left dadd (firstn j ps) d0) /\ Rabs (dval (fold_left dadd (firstn j ps) d0) - sum5 j) <= INR j * / 70368744177664.
Proof.
  intros H j. induction j as [|j IH]; intros Hj H25.
  - cbn [firstn fold_left INR]. rewrite sum5_0, (proj1 d0_val). split; [reflexivity|]. rewrite Rminus_0_r, Rabs_R0. lra.
  - destruct (IH ltac:(lia) ltac:(lia)) as [F A]. destruct (H j ltac:(lia)) as [Fp Ap]. set (s := fold_left dadd (firstn j ps) d0) in *.
    assert (E : fold_left dadd (firstn (S j) ps) d0 = dadd s (nth j ps d0)).
    { unfold s. clear -Hj. assert (X : firstn (S j) ps = firstn j ps ++ [nth j ps d0]); [|rewrite X, fold_left_app; reflexivity].
      revert j Hj. induction ps as [|p ps IHp]; intros j Hj; [cbn in Hj; lia|]. destruct j as [|j]; [reflexivity|]. cbn [firstn nth app]. f_equal. apply IHp. cbn [length] in Hj. lia. }
    rewrite E. set (p := nth j ps d0) in *. pose proof (prob5_pos j) as P0. pose proof (sum5_all j ltac:(lia)) as S0. pose proof (sum5_step j ltac:(lia)) as SS. pose proof (sum5_all (S j) H25) as S1.
    unfold approx in Ap. rewrite (Rabs_pos_eq _ P0) in Ap. destruct bpow_small_consts as (_ & _ & C53 & C48). rewrite C48 in Ap. apply Rabs_le_inv in A. apply Rabs_le_inv in Ap.
    assert (J : 0 <= INR j <= 25) by (split; [apply pos_INR|]; replace 25 with (INR 25) by (cbn; lra); apply le_INR; lia).
    assert (BS : -1 <= dval s + dval p <= 2) by lra.
    destruct (dadd_ok s p F Fp) as [V Fs]; [apply (small_bpow _ 1); [lia|]; apply Rabs_le; change (bpow radix2 1) with 2; lra|].
    split; [exact Fs|]. rewrite V, S_INR.
    assert (RE' : Rabs (rnd (dval s + dval p) - (dval s + dval p)) <= / 9007199254740992 * 2).
    { pose proof (rnd_plus_err _ _ (dval_format s) (dval_format p)) as RE. unfold approx in RE. change u with (bpow radix2 (-53)) in RE. rewrite C53 in RE. apply Rle_trans with (1 := RE).
      apply Rmult_le_compat_l; [lra|]. apply Rabs_le. lra. }
    apply Rabs_le_inv in RE'. apply Rabs_le. rewrite SS. lra.
Qed.

(* the probabilities of the test *)
Lemma coupon_probs M : good_math M -> exists ps last, expected_probabilities (m_tgamma M) (m_pow M) 5 = Ok (ps ++ [last]) /\ length ps = 24%nat /\
  (forall k, (k < 24)%nat -> fin (nth k ps d0) /\ approx (bpow radix2 (-48)) (dval (nth k ps d0)) (prob5 k)) /\
  fin last /\ Rabs (dval last - (1 - sum5 24)) <= bpow radix2 (-41).
Proof.
  intros G. assert (GT : good_tgamma (m_tgamma M)) by (intros n Hn; exact (gm_tgamma M G n Hn)).
  assert (GP : CouponFloatProofs.good_pow (m_pow M)) by (intros b n Hb Hn; exact (gm_pow_int M G b n Hb Hn)).
  destruct (coupon_loop_ok (m_tgamma M) (m_pow M) 5 GT GP ltac:(lia) 25 5 d0 ltac:(lia) ltac:(lia)) as (ps & last & E & L & H).
  change (N.of_nat 5) with 5%N in E. destruct (coupon_loop_shape _ _ _ _ _ _ _ E) as (ps' & E' & _ & HP & HE).
  apply app_inj_tail in E'. destruct E' as [<- EL].
  assert (HA : forall k, (k < length ps)%nat -> fin (nth k ps d0) /\ approx (bpow radix2 (-48)) (dval (nth k ps d0)) (prob5 k)).
  { intros k Hk. pose proof (C48_five_no_overflow k ltac:(lia)) as O. destruct (H k Hk O) as [F A]. split; [exact F|]. unfold prob5, fin5.
    replace (4 + k)%nat with (5 + k - 1)%nat by lia. exact A. }
  pose proof (sums_close ps HA) as SC.
  assert (I : forall j, (j <= 25)%nat -> 0 <= INR j * / 70368744177664 <= / 1000000000000).
  { intros j Hj. assert (J : 0 <= INR j <= 25) by (split; [apply pos_INR|]; replace 25 with (INR 25) by (cbn; lra); apply le_INR; lia). lra. }
  destruct (dconst_ok 8917127262193582 (-53)) as [V99 F99].
  { unfold F2R. cbn [Fnum Fexp]. apply (small_bpow _ 0); [lia|]. rewrite Rabs_pos_eq by (apply Rmult_le_pos; [lra|apply bpow_ge_0]). change (bpow radix2 (-53)) with (/ 9007199254740992). cbn [bpow]. lra. }
  rewrite rnd_id in V99 by (apply F64_F2R; lia). fold p99 in V99, F99.
  assert (B99 : 98999 / 100000 < dval p99 < 99001 / 100000).
  { rewrite V99. unfold F2R. cbn [Fnum Fexp]. change (bpow radix2 (-53)) with (/ 9007199254740992). lra. }
  assert (Len : length ps = 24%nat).
  { destruct (Nat.lt_trichotomy (length ps) 24) as [C|[C|C]]; [exfalso| exact C|exfalso].
    - destruct HE as [HE|HE]; [lia|]. destruct (SC (length ps) ltac:(lia) ltac:(lia)) as [F A]. rewrite firstn_all in F, A. apply dlt_false in HE; [|exact F|exact F99].
      pose proof (sum5_below _ C). pose proof (I (length ps) ltac:(lia)). apply Rabs_le_inv in A. lra.
    - specialize (HP 24%nat C). destruct (SC 24%nat ltac:(lia) ltac:(lia)) as [F A]. apply dlt_iff in HP; [|exact F|exact F99].
      pose proof sum5_24. pose proof (I 24%nat ltac:(lia)). apply Rabs_le_inv in A. lra. }
  exists ps, last. split; [exact E|]. split; [exact Len|]. split; [intros k Hk; apply HA; lia|].
  destruct (SC 24%nat ltac:(lia) ltac:(lia)) as [F A]. rewrite <- Len, firstn_all in F, A. rewrite Len in A. set (sm := fold_left dadd ps d0) in *.
  pose proof sum5_24 as S24. pose proof (I 24%nat ltac:(lia)) as I24. replace (INR 24) with 24 in * by (cbn; lra). apply Rabs_le_inv in A.
  destruct d1_val as [V1 F1].
  destruct (dsub_ok d1 sm F1 F) as [Vl Fl]; [rewrite V1; apply (small_bpow _ 0); [lia|]; apply Rabs_le; cbn [bpow]; lra|].
  rewrite <- EL in Vl, Fl. split; [exact Fl|]. rewrite V1 in Vl.
  pose proof (rnd_plus_err 1 (- dval sm)) as RE. specialize (RE ltac:(rewrite <- V1; apply dval_format) ltac:(apply generic_format_opp, dval_format)).
  change (1 + - dval sm) with (1 - dval sm) in RE. rewrite <- Vl in RE. unfold approx in RE. change u with (/ 9007199254740992) in RE.
  assert (RB : Rabs (1 - dval sm) <= 1) by (apply Rabs_le; lra). change (bpow radix2 (-41)) with (/ 2199023255552).
  assert (RE' : Rabs (dval last - (1 - dval sm)) <= / 9007199254740992) by (apply Rle_trans with (1 := RE); lra). apply Rabs_le_inv in RE'. apply Rabs_le. lra.
Qed.

Lemma sf_val s m e (x : double) : B2SF x = SpecFloat.S754_finite s m e -> fin x /\ dval x = F2R (Float radix2 (SpecFloat.cond_Zopp s (Zpos m)) e).
Proof. intros H. destruct x; try discriminate. injection H as -> -> ->. split; reflexivity. Qed.
Lemma draws_ok M : fin (expected_draws_per_coupon M 5) /\ approx (/ 1125899906842624) (dval (expected_draws_per_coupon M 5)) (137 / 12).
Proof.
  assert (S : B2SF (expected_draws_per_coupon M 5) = SpecFloat.S754_finite false 6427011968226645 (-49)) by (vm_compute; reflexivity).
  destruct (sf_val _ _ _ _ S) as [F V]. split; [exact F|]. unfold approx. rewrite V. unfold F2R. cbn [Fnum Fexp SpecFloat.cond_Zopp]. change (bpow radix2 (-49)) with (/ 562949953421312).
  rewrite (Rabs_pos_eq (137 / 12)) by lra. apply Rabs_le. lra.
Qed.
(* 12 n / 137 *)
Lemma coupon_total M n : (1 <= n <= 2 ^ 53)%N -> let e := ddiv (double_of_N n) (expected_draws_per_coupon M 5) in
  fin e /\ approx (/ 281474976710656) (dval e) (IZR (Z.of_N n) * 12 / 137) /\ / 20 <= dval e <= bpow radix2 53.
Proof.
  intros Hn e. destruct (draws_ok M) as [Fd Ad]. set (d := expected_draws_per_coupon M 5) in *. destruct (double_of_N_exact n (proj2 Hn)) as [Vn Fn].
  assert (Hb : 1 <= IZR (Z.of_N n) <= bpow radix2 53).
  { split; [apply (IZR_le 1); lia|]. rewrite <- IZR_pow2 by lia. apply IZR_le. change (2 ^ 53)%Z with (Z.of_N (2 ^ 53)). apply N2Z.inj_le, Hn. }
  destruct (approx_inv (/ 1125899906842624) (dval d) (137 / 12) ltac:(lra) ltac:(lra) Ad) as [Ai Pd].
  assert (Bd : 11 <= dval d <= 12) by (unfold approx in Ad; rewrite (Rabs_pos_eq (137 / 12)) in Ad by lra; apply Rabs_le_inv in Ad; lra).
  assert (Bi : / 12 <= / dval d <= / 11) by (split; apply Rinv_le; lra).
  assert (BQ : / 12 <= IZR (Z.of_N n) / dval d <= bpow radix2 53).
  { unfold Rdiv. split; [apply Rle_trans with (1 * / dval d); [lra|apply Rmult_le_compat_r; lra]|]. apply Rle_trans with (IZR (Z.of_N n) * 1); [apply Rmult_le_compat_l; lra|lra]. }
  destruct (ddiv_ok (double_of_N n) d Fn ltac:(lra)) as [V F].
  { rewrite Vn. apply (small_bpow _ 53); [lia|]. rewrite Rabs_pos_eq; lra. }
  fold e in V, F. rewrite Vn in V. split; [exact F|]. split.
  - assert (A1 : approx (2 * / 1125899906842624) (IZR (Z.of_N n) / dval d) (IZR (Z.of_N n) * 12 / 137)).
    { unfold approx in *. replace (IZR (Z.of_N n) / dval d - IZR (Z.of_N n) * 12 / 137) with (IZR (Z.of_N n) * (/ dval d - / (137 / 12))) by (field; lra).
      replace (IZR (Z.of_N n) * 12 / 137) with (IZR (Z.of_N n) * / (137 / 12)) by field. rewrite !Rabs_mult. pose proof (Rabs_pos (IZR (Z.of_N n))). nra. }
    assert (A2 : approx (bpow radix2 (-53)) (dval e) (IZR (Z.of_N n) / dval d)).
    { rewrite V. apply rnd_approx. apply Rle_trans with (bpow radix2 (-4)); [apply bpow_le; lia|]. change (bpow radix2 (-4)) with (/ 16). lra. }
    change (bpow radix2 (-53)) with (/ 9007199254740992) in A2. assert (Q0 : 0 <= / 9007199254740992) by lra. eapply approx_le; [|exact (approx_trans _ _ _ _ _ Q0 A1 A2)]. lra.
  - rewrite V. split.
    + apply Rle_trans with (bpow radix2 (-4)); [change (bpow radix2 (-4)) with (/ 16); lra|]. rewrite <- (rnd_id (bpow radix2 (-4))) by (apply F64_bpow; lia). apply rnd_mono. change (bpow radix2 (-4)) with (/ 16). lra.
    + rewrite <- (rnd_id (bpow radix2 53)) by (apply F64_bpow; lia). apply rnd_mono, BQ.
Qed.
Lemma coupon_cell a p P e E : 0 <= a <= / 1000000 -> fin p -> approx a (dval p) P -> / 1000000000000 <= P <= 1 -> fin e -> approx (/ 281474976710656) (dval e) E -> / 20 <= dval e <= bpow radix2 53 ->
  fin (dmul p e) /\ approx (a + / 140737488355328) (dval (dmul p e)) (P * E).
Proof.
  intros Ha Fp Ap BP Fe Ae Be. assert (Bp : / 2000000000000 <= dval p <= 2) by (unfold approx in Ap; rewrite (Rabs_pos_eq P) in Ap by lra; apply Rabs_le_inv in Ap; split; nra).
  assert (B : bpow radix2 (-100) <= dval p * dval e <= bpow radix2 54).
  { split.
    - apply Rle_trans with (/ 2000000000000 * / 20); [|apply Rmult_le_compat; lra]. apply Rle_trans with (bpow radix2 (-50)); [apply bpow_le; lia|]. change (bpow radix2 (-50)) with (/ 1125899906842624). lra.
    - change 54%Z with (1 + 53)%Z. rewrite bpow_plus. change (bpow radix2 1) with 2. apply Rmult_le_compat; lra. }
  destruct (dmul_ok p e Fp Fe) as [V F]; [apply (small_bpow _ 54); [lia|]; rewrite Rabs_pos_eq; [apply B|apply Rle_trans with (2 := proj1 B), bpow_ge_0]|].
  split; [exact F|]. pose proof (approx_mult a (/ 281474976710656) _ _ _ _ ltac:(lra) ltac:(lra) Ap Ae) as A1.
  assert (A2 : approx (bpow radix2 (-53)) (dval (dmul p e)) (dval p * dval e)) by (rewrite V; apply rnd_approx; apply Rle_trans with (2 := proj1 B); apply bpow_le; lia).
  change (bpow radix2 (-53)) with (/ 9007199254740992) in A2. assert (Q0 : 0 <= / 9007199254740992) by lra. eapply approx_le; [|exact (approx_trans _ _ _ _ _ Q0 A1 A2)]. nra.
Qed.

Definition coupon_ideal (k : nat) : R := if (k <? 24)%nat then prob5 k else 1 - sum5 24.
Lemma prob5_bounds k : (k < 24)%nat -> / 1000000000000 <= prob5 k <= 1.
Proof.
  intros Hk. unfold prob5. split.
  - replace (/ 1000000000000) with (IZR (Z.of_N 1) / IZR (Z.of_N 1000000000000)) by (cbn; field). apply Rlt_le, frac_lt; [reflexivity|apply N.neq_0_lt_0, N.pow_nonzero; discriminate|].
    do 24 (destruct k as [|k]; [vm_compute; reflexivity|]). lia.
  - replace 1 with (IZR (Z.of_N 1) / IZR (Z.of_N 1)) by (cbn; field). apply Rlt_le, frac_lt; [apply N.neq_0_lt_0, N.pow_nonzero; discriminate|reflexivity|].
    do 24 (destruct k as [|k]; [vm_compute; reflexivity|]). lia.
Qed.

Lemma coupon_ok M cdf w n stream : good_math M -> (0 < w <= 64)%N -> (1 <= n <= 2 ^ 53)%N -> (forall i, is_word w (stream i)) ->
  exists segs rest os es r,
    cut_into (fun l => forall k, (k < 5)%N -> exists x, In x l /\ coupon_id w 5 x = Ok k) (values stream n) segs rest /\
    length os = 25%nat /\ tallies os 5 segs /\
    length es = 25%nat /\ (forall k, (k < 25)%nat -> within (if (k <? 24)%nat then 46 else 34) (nth k es 0) (coupon_ideal k * (IZR (Z.of_N n) * 12 / 137))) /\
    chi2_test cdf 1 os es r /\ coupon_test M cdf w n stream = Ok [mksub "" r].
Proof.
  intros G Hw Hn Hs. assert (Hv : (N.of_nat (length (values stream n)) < 2 ^ 64)%N) by (rewrite values_len, N2Nat.id; apply N.le_lt_trans with (1 := proj2 Hn); reflexivity).
  destruct (C34_coupons w 5 25 (values stream n) Hw ltac:(split; discriminate) ltac:(lia) Hv (values_words _ _ _ Hs)) as (segs & rest & os & Cut & Eo & Lo & To).
  destruct (coupon_probs M G) as (ps & last & EP & Lp & HP & Fl & Al). destruct (coupon_total M n Hn) as (Fe & Ae & Be). set (e := ddiv (double_of_N n) (expected_draws_per_coupon M 5)) in *.
  assert (LL : length (ps ++ [last]) = 25%nat) by (rewrite app_length, Lp; reflexivity).
  set (ex := fun i => dmul (nth i (ps ++ [last]) d0) e).
  assert (C : forall k, (k < 25)%nat -> fin (ex k) /\ approx (bpow radix2 (- (if (k <? 24)%nat then 46 else 34))) (dval (ex k)) (coupon_ideal k * (IZR (Z.of_N n) * 12 / 137))).
  { intros k Hk. unfold ex, coupon_ideal. destruct (Nat.ltb_spec k 24) as [L|L].
    - destruct (HP k L) as [Fp Ap]. rewrite app_nth1 by lia. change (bpow radix2 (-48)) with (/ 281474976710656) in Ap.
      destruct (coupon_cell (/ 281474976710656) (nth k ps d0) (prob5 k) e _ ltac:(lra) Fp Ap (prob5_bounds k L) Fe Ae Be) as [F A]. split; [exact F|].
      eapply approx_le; [|exact A]. change (bpow radix2 (- (46))) with (/ 70368744177664). lra.
    - replace k with 24%nat by lia. rewrite app_nth2, Lp by lia. cbn [Nat.sub nth]. pose proof sum5_24 as S24. change (bpow radix2 (-41)) with (/ 2199023255552) in Al.
      assert (Al' : approx (/ 2199023255552 * 105) (dval last) (1 - sum5 24)) by (unfold approx; rewrite (Rabs_pos_eq (1 - sum5 24)) by lra; apply Rle_trans with (1 := Al); lra).
      destruct (coupon_cell (/ 2199023255552 * 105) last (1 - sum5 24) e _ ltac:(lra) Fl Al' ltac:(lra) Fe Ae Be) as [F A]. split; [exact F|].
      eapply approx_le; [|exact A]. change (bpow radix2 (- (34))) with (/ 17179869184). lra. }
  assert (LS : (length segs <= N.to_nat n)%nat).
  { destruct Cut as (Ec & Fc & _). pose proof (f_equal (@length N) Ec) as L. rewrite values_len, app_length in L. rewrite L.
    apply Nat.le_trans with (length (concat segs)); [|lia]. clear Ec L To. induction segs as [|s segs IH]; [cbn; lia|]. cbn [concat length]. rewrite app_length.
    apply Forall_inv in Fc as Fs. apply Forall_inv_tail in Fc. specialize (IH Fc). destruct s as [|x s]; [destruct Fs as [Fs _]; destruct (Fs 0%N ltac:(lia)) as (x & [] & _)|]. cbn [length]. lia. }
  assert (TT : (total os <= 2 ^ 53)%N).
  { rewrite (C33_total _ 5 segs os) by (exact To || lia). apply N.le_trans with (2 := proj2 Hn). lia. }
  destruct d1_val as [V1 F1].
  assert (T : chi2_test cdf 1 os (map (fun i => dval (ex i)) (seq 0 (length os))) (chi2_stats cdf (length os) (to_data os) ex d1)).
  { replace 1 with (dval d1) by exact V1. apply chi2_is_test.
    - rewrite Lo. discriminate.
    - exact F1.
    - reflexivity.
    - intros i Hi. apply to_data_ok; [exact Hi|]. apply total_forall, TT.
    - intros i Hi. apply C. lia.
    - intros i Hi L. rewrite V1 in L. split; [apply Rle_trans with 1; [|lra]; change 1 with (bpow radix2 0); apply bpow_le; lia|].
      destruct (C i ltac:(lia)) as [_ A]. unfold approx in A.
      assert (Hb : 1 <= IZR (Z.of_N n) <= bpow radix2 53).
      { split; [apply (IZR_le 1); lia|]. rewrite <- IZR_pow2 by lia. apply IZR_le. change (2 ^ 53)%Z with (Z.of_N (2 ^ 53)). apply N2Z.inj_le, Hn. }
      assert (BI : 0 <= coupon_ideal i <= 1).
      { unfold coupon_ideal. destruct (Nat.ltb_spec i 24) as [L'|L']; [pose proof (prob5_bounds i L'); lra|pose proof sum5_24; lra]. }
      assert (BX : 0 <= coupon_ideal i * (IZR (Z.of_N n) * 12 / 137) <= bpow radix2 53) by nra.
      rewrite (Rabs_pos_eq (coupon_ideal i * _)) in A by apply BX.
      assert (Bb : 0 <= bpow radix2 (- (if (i <? 24)%nat then 46 else 34)) <= 1) by (split; [apply bpow_ge_0|]; change 1 with (bpow radix2 0); apply bpow_le; destruct (i <? 24)%nat; lia).
      apply Rabs_le_inv in A. apply Rle_trans with (bpow radix2 54); [|apply bpow_le; lia]. change 54%Z with (1 + 53)%Z. rewrite bpow_plus. change (bpow radix2 1) with 2. nra. }
  exists segs, rest, os, (map (fun i => dval (ex i)) (seq 0 (length os))), (chi2_stats cdf (length os) (to_data os) ex d1).
  split; [exact Cut|]. split; [exact Lo|]. split; [exact To|]. split; [rewrite map_length, seq_length; exact Lo|]. split; [|split; [exact T|]].
  - intros k Hk. rewrite (nth_indep _ 0 (dval (ex 0%nat))) by (rewrite map_length, seq_length; lia). rewrite (map_nth (fun i => dval (ex i))), seq_nth by lia. apply C, Hk.
  - unfold coupon_test, coupon_stats. rewrite EP. cbn [obind]. rewrite LL, Eo. cbn [obind]. reflexivity.
Qed.

(* the same probabilities as counts of words *)
Lemma prob5_words k : prob5 k = IZR (Z.of_N (count (finishes 5) (words 5 (5 + k)))) / IZR (Z.of_nat (length (words 5 (5 + k)))).
Proof.
  destruct (C48_finishing_words 5 (5 + k) ltac:(lia) ltac:(lia)) as [E1 E2]. rewrite E1. rewrite <- nat_N_Z, E2. unfold prob5, fin5.
  replace (5 + k - 1)%nat with (4 + k)%nat by lia. reflexivity.
Qed.
Lemma count_negb {A} (p : A -> bool) l : (count p l + count (fun x => negb (p x)) l = N.of_nat (length l))%N.
Proof. unfold count. induction l as [|a l IH]; [reflexivity|]. cbn [filter]. destruct (p a); cbn [negb length]; lia. Qed.
Lemma rest_words d n : (1 <= d)%nat -> IZR (Z.of_N (count (fun s => negb (ontob d s)) (words d n))) / IZR (Z.of_nat (length (words d n))) =
  1 - IZR (Z.of_N (fact d * S2 n d)) / IZR (Z.of_N (N.of_nat d ^ N.of_nat n)).
Proof.
  intros Hd. pose proof (surjections n d) as E1. pose proof (count_negb (ontob d) (words d n)) as E2. pose proof (words_length d n) as E3. rewrite E1, E3 in E2. rewrite E3. clear E1 E3.
  rewrite <- nat_N_Z. rewrite Nat2N.inj_pow in *. assert (P : (N.of_nat d ^ N.of_nat n <> 0)%N) by (apply N.pow_nonzero; lia).
  set (q := (N.of_nat d ^ N.of_nat n)%N) in *. set (c := count _ _) in *. set (k := (fact d * S2 n d)%N) in *. replace c with (q - k)%N by lia. rewrite N2Z.inj_sub, minus_IZR by lia.
  assert (0 < IZR (Z.of_N q)) by (apply IZR_lt; lia). field. lra.
Qed.
Lemma frac_eq a b c d : (0 < b)%N -> (0 < d)%N -> (a * d = c * b)%N -> IZR (Z.of_N a) / IZR (Z.of_N b) = IZR (Z.of_N c) / IZR (Z.of_N d).
Proof.
  intros Hb Hd H. assert (0 < IZR (Z.of_N b)) by (apply IZR_lt; lia). assert (0 < IZR (Z.of_N d)) by (apply IZR_lt; lia).
  assert (E : IZR (Z.of_N a) * IZR (Z.of_N d) = IZR (Z.of_N c) * IZR (Z.of_N b)) by (rewrite <- !mult_IZR, <- !N2Z.inj_mul, H; reflexivity).
  apply (Rmult_eq_reg_r (IZR (Z.of_N b))); [|lra]. apply (Rmult_eq_reg_r (IZR (Z.of_N d))); [|lra].
  replace (IZR (Z.of_N a) / IZR (Z.of_N b) * IZR (Z.of_N b) * IZR (Z.of_N d)) with (IZR (Z.of_N a) * IZR (Z.of_N d)) by (field; lra). rewrite E. field. lra.
Qed.
Lemma rest5_words n : n = 28%nat -> 1 - sum5 24 = IZR (Z.of_N (count (fun s => negb (ontob 5 s)) (words 5 n))) / IZR (Z.of_nat (length (words 5 n))).
Proof.
  intros Hn. rewrite rest_words by lia. f_equal. f_equal. unfold sum5. apply frac_eq; rewrite ?Hn; vm_compute; reflexivity.
Qed.
Lemma filter_two {A} (p : A -> bool) (l : list A) i j d : (i < j < length l)%nat -> p (nth i l d) = true -> p (nth j l d) = true -> (2 <= length (filter p l))%nat.
Proof.
  revert i j. induction l as [|a l IH]; intros i j Hl Hi Hj; [cbn in Hl; lia|]. cbn [length] in Hl. destruct j as [|j]; [lia|]. cbn [nth] in Hj.
  assert (O : (1 <= length (filter p l))%nat).
  { assert (X : In (nth j l d) (filter p l)) by (apply filter_In; split; [apply nth_In; lia|exact Hj]). destruct (filter p l); [contradiction|cbn; lia]. }
  destruct i as [|i]; cbn [nth] in Hi; cbn [filter].
  - rewrite Hi. cbn [length]. lia.
  - specialize (IH i j ltac:(lia) Hi Hj). destruct (p a); cbn [length]; lia.
Qed.
Lemma two_bins cdf t os es r i j : chi2_test cdf t os es r -> (i < j < length es)%nat -> t < nth i es 0 -> t < nth j es 0 -> r <> None.
Proof.
  intros [_ H] Hl Hi Hj ->. cbn zeta in H. pose proof (filter_two (Rlt_bool t) es i j 0 Hl (Rlt_bool_true _ _ Hi) (Rlt_bool_true _ _ Hj)). lia.
Qed.
Lemma coupon_present cdf n os es r : (110 <= n)%N -> length es = 25%nat ->
  (forall k, (k < 25)%nat -> within (if (k <? 24)%nat then 46 else 34) (nth k es 0) (coupon_ideal k * (IZR (Z.of_N n) * 12 / 137))) -> chi2_test cdf 1 os es r -> r <> None.
Proof.
  intros Hn Le HW T. assert (Bn : 110 <= IZR (Z.of_N n)) by (apply (IZR_le 110); lia).
  assert (G : forall k, (k < 24)%nat -> 137 / 1314 < prob5 k -> 1 < nth k es 0).
  { intros k Hk HP. specialize (HW k ltac:(lia)). unfold coupon_ideal in HW. destruct (Nat.ltb_spec k 24) as [L|]; [|lia]. unfold within in HW.
    change (bpow radix2 (- (46))) with (/ 70368744177664) in HW. set (X := prob5 k * (IZR (Z.of_N n) * 12 / 137)) in *.
    assert (BX : 1320 / 1314 <= X) by (unfold X; replace (1320 / 1314) with (137 / 1314 * (110 * 12 / 137)) by field; apply Rmult_le_compat; lra).
    rewrite (Rabs_pos_eq X) in HW by lra. apply Rabs_le_inv in HW. nra. }
  apply (two_bins cdf 1 os es r 3 4 T ltac:(lia)); apply G; try lia; unfold prob5; change (137 / 1314) with (IZR (Z.of_N 137) / IZR (Z.of_N 1314)); apply frac_lt; vm_compute; reflexivity.
Qed.
