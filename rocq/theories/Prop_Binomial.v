(* Property C105: the cumulative binomial distribution. *)
From Coq Require Import Reals Lra Lia List.
From Flocq Require Import Core BinarySingleNaN.
From Verif Require Import Base FloatModel FloatLemmas ErrorSpec ResultModel ResultSpec CollectModel StatsModel StatsProofs CouponFloatProofs RescaleProofs LimitProofs TestsPerm DistModel DistSpec DistSeries DistInst CorrPearson CorrPearson2 OtherModel OtherSpec GProofs BinomProofs AndersonPoly OtherInst BinomValue Prop_Fisher.
Import ListNotations.
Open Scope R_scope.

Definition eps10 : double := dconst 7737125245533627 (-86).
Lemma eps10_val : fin eps10 /\ dval eps10 = 7737125245533627 * / 77371252455336267181195264 /\ bpow radix2 (-34) <= dval eps10 <= bpow radix2 (-33).
Proof.
  assert (E : F2R (Float radix2 7737125245533627 (-86)) = 7737125245533627 * / 77371252455336267181195264).
  { unfold F2R. cbn [Fnum Fexp]. change (bpow radix2 (-86)) with (/ 77371252455336267181195264). reflexivity. }
  destruct (dconst_ok 7737125245533627 (-86)) as [V F].
  { rewrite E. apply small_R with 1; [rewrite Rabs_pos_eq by lra; lra|lra]. }
  rewrite (rnd_id _ (F64_F2R 7737125245533627 (-86) ltac:(lia) ltac:(lia))), E in V. split; [exact F|]. unfold eps10. split; [exact V|]. rewrite V.
  change (bpow radix2 (-34)) with (/ 17179869184). change (bpow radix2 (-33)) with (/ 8589934592). lra.
Qed.
(* neither near 0 nor near 1 *)
Lemma near_cases p : valid01 p -> 
  (is_near_eps p d0 eps10 = true /\ dval p <= dval eps10) \/
  (is_near_eps p d0 eps10 = false /\ is_near_eps p d1 eps10 = true) \/
  (is_near_eps p d0 eps10 = false /\ is_near_eps p d1 eps10 = false /\ bpow radix2 (-34) <= dval p <= 1 /\ fin (dsub d1 p) /\ bpow radix2 (-34) <= dval (dsub d1 p) <= 1 /\ dval (dsub d1 p) = rnd (1 - dval p)).
Proof.
  intros [F B]. destruct eps10_val as (Fe & Ve & Be). destruct d0_val as [V0 F0]. destruct d1_val as [V1 F1]. unfold is_near_eps.
  destruct (dsub_ok p d0 F F0) as [Va Fa]; [rewrite V0, Rminus_0_r; apply small_R with 1; [rewrite Rabs_pos_eq; lra|lra]|]. rewrite V0, Rminus_0_r, (rnd_id _ (dval_format p)) in Va.
  destruct (dsub_ok p d1 F F1) as [Vb Fb]; [rewrite V1; apply small_R with 1; [apply Rabs_le; lra|lra]|]. rewrite V1 in Vb.
  destruct (dle (dabs (dsub p d0)) eps10) eqn:E0.
  { left. split; [reflexivity|]. apply dle_iff in E0; [|apply dabs_fin, Fa|exact Fe]. rewrite dabs_val, Va, Rabs_pos_eq in E0 by lra. exact E0. }
  right. apply dle_false in E0; [|apply dabs_fin, Fa|exact Fe]. rewrite dabs_val, Va, Rabs_pos_eq in E0 by lra.
  destruct (dle (dabs (dsub p d1)) eps10) eqn:E1; [left; split; reflexivity|]. right. apply dle_false in E1; [|apply dabs_fin, Fb|exact Fe]. rewrite dabs_val, Vb in E1.
  destruct (dsub_ok d1 p F1 F) as [Vc Fc]; [rewrite V1; apply small_R with 1; [apply Rabs_le; lra|lra]|]. rewrite V1 in Vc.
  assert (R : rnd (dval p - 1) = - rnd (1 - dval p)) by (rewrite <- rnd_opp; f_equal; ring). rewrite R, Rabs_Ropp in E1.
  assert (R01 : 0 <= rnd (1 - dval p) <= 1) by (apply rnd_between; [apply F64_0|apply F64_1|lra]). rewrite Rabs_pos_eq in E1 by lra.
  split; [reflexivity|]. split; [reflexivity|]. split; [lra|]. split; [exact Fc|]. split; [lra|exact Vc].
Qed.
Lemma log_range log exp erfc x : good_dist log exp erfc -> fin x -> bpow radix2 (-34) <= dval x <= 1 -> fin (log x) /\ Rabs (dval (log x)) <= 64 /\ Rabs (ln (dval x)) <= 25 /\ Rabs (dval (log x) - ln (dval x)) <= bpow radix2 (-40).
Proof.
  intros G F B. pose proof (bpow_gt_0 radix2 (-34)) as P. destruct (gd_log _ _ _ G x F ltac:(lra)) as [Fl El].
  assert (L0 : ln (dval x) <= 0) by (rewrite <- ln_1; apply ln_le; lra). assert (L1 : ln (bpow radix2 (-34)) <= ln (dval x)) by (apply ln_le; lra). rewrite ln_pow2 in L1. pose proof ln2_upper.
  split; [exact Fl|]. split; [|split; [apply Rabs_le; lra|exact El]]. apply Rabs_le_inv in El. change (bpow radix2 (-40)) with (/ 1099511627776) in El. apply Rabs_le. lra.
Qed.
Lemma clamp_nonneg x : nonneg x -> valid01 (dclamp x d0 d1).
Proof.
  intros H. destruct d0_val as [V0 F0]. destruct d1_val as [V1 F1]. unfold dclamp. destruct (nonneg_cases x H) as [->|[F P]].
  - replace (dlt (B754_infinity false) d0) with false by reflexivity. replace (dlt d1 (B754_infinity false)) with true by reflexivity. split; [exact F1|lra].
  - destruct (dlt x d0) eqn:A; [split; [exact F0|lra]|]. destruct (dlt d1 x) eqn:B; [split; [exact F1|lra]|]. apply dlt_false in A, B; try assumption. split; [exact F|lra].
Qed.
Lemma clamp_mono x y : nonneg x -> nonneg y -> dle x y = true -> dval (dclamp x d0 d1) <= dval (dclamp y d0 d1).
Proof.
  intros X Y L. pose proof (clamp_nonneg x X) as [_ CX]. destruct d0_val as [V0 F0]. destruct d1_val as [V1 F1]. destruct (nonneg_cases y Y) as [->|[Fy Py]].
  - replace (dclamp (B754_infinity false) d0 d1) with d1 by reflexivity. lra.
  - destruct (nonneg_cases x X) as [->|[Fx Px]]; [exfalso; destruct y as [s|s| |[] m e B]; try discriminate Fy; try (destruct s); discriminate L|].
    apply dle_iff in L; [|assumption|assumption]. unfold dclamp.
    destruct (dlt x d0) eqn:A1; destruct (dlt d1 x) eqn:B1; destruct (dlt y d0) eqn:A2; destruct (dlt d1 y) eqn:B2;
    repeat match goal with H : dlt _ _ = true |- _ => apply dlt_iff in H; [|assumption|assumption] | H : dlt _ _ = false |- _ => apply dlt_false in H; [|assumption|assumption] end; lra.
Qed.
Lemma clamp_same x y : same x y -> dval (dclamp x d0 d1) = dval (dclamp y d0 d1).
Proof.
  intros [->|(Fx & Fy & E)]; [reflexivity|]. destruct d0_val as [V0 F0]. destruct d1_val as [V1 F1]. unfold dclamp.
  destruct (dlt x d0) eqn:A1; destruct (dlt d1 x) eqn:B1; destruct (dlt y d0) eqn:A2; destruct (dlt d1 y) eqn:B2;
    repeat match goal with H : dlt _ _ = true |- _ => apply dlt_iff in H; [|assumption|assumption] | H : dlt _ _ = false |- _ => apply dlt_false in H; [|assumption|assumption] end; lra.
Qed.

Section Fix.
Variables (log exp erfc : double -> double) (pow : double -> double -> double).
Hypothesis G : good_dist log exp erfc.
Hypothesis X : exp_nonneg exp.
Hypothesis W : pow01 pow.
Lemma binomial_steps n p : (n < 2 ^ 32)%N -> valid01 p -> is_near_eps p d0 eps10 = false -> is_near_eps p d1 eps10 = false ->
  exists f : nat -> double, (forall k, (k < 2 ^ 31 - 1)%N -> binomial_cdf log exp pow n p k = Ok (dclamp (f (N.to_nat k)) d0 d1)) /\
    (forall k, (N.of_nat k < 2 ^ 31 - 1)%N -> nonneg (f k)) /\ (forall k l, (k <= l)%nat -> (N.of_nat l < 2 ^ 31 - 1)%N -> dle (f k) (f l) = true) /\
    (forall k l, (n <= N.of_nat k)%N -> (k <= l)%nat -> (N.of_nat l < 2 ^ 31 - 1)%N -> same (f l) (f k)).
Proof.
  intros Hn V E0 E1. destruct (near_cases p V) as [(A & _)|[(_ & A)|(_ & _ & Bp & Fq & Bq & _)]]; [congruence|congruence|].
  destruct (log_range log exp erfc p G (proj1 V) Bp) as (Fl & Bl & _). destruct (log_range log exp erfc _ G Fq Bq) as (Fm & Bm & _).
  destruct (double_of_N_exact n ltac:(lia)) as [Vn Fn]. destruct (W (dsub d1 p) (double_of_N n) Fq) as [Fw Bw]; [pose proof (bpow_gt_0 radix2 (-34)); lra|exact Fn|rewrite Vn; apply IZR_le; lia|].
  set (c0 := pow (dsub d1 p) (double_of_N n)) in *. assert (N0 : nonneg c0) by (apply nonneg_fin; [exact Fw|lra]).
  set (lp := log p) in *. set (lq := log (dsub d1 p)) in *.
  assert (B0 : bok 1 d0) by (left; split; [reflexivity|]; change (dval d0) with 0; rewrite Rabs_R0; change (IZR (Z.of_N 1)) with 1; lra).
  exists (fun k => binomial_cdf_loop log exp n lp lq 1 k d0 c0).
  assert (RUN : forall k, (N.of_nat k < 2 ^ 31 - 1)%N -> exists b', bok (1 + N.of_nat k) b' /\ nonneg (binomial_cdf_loop log exp n lp lq 1 k d0 c0) /\
     (forall l2, binomial_cdf_loop log exp n lp lq 1 (k + l2) d0 c0 = binomial_cdf_loop log exp n lp lq (1 + N.of_nat k) l2 b' (binomial_cdf_loop log exp n lp lq 1 k d0 c0)) /\ ((n < N.of_nat k)%N -> b' = B754_infinity true)).
  { intros k Hk. destruct (loop_run log exp erfc G X n lp lq Hn (conj Fl Bl) (conj Fm Bm) k 1 d0 c0 ltac:(lia) ltac:(lia) B0 N0) as (b' & cdf' & P1 & P2 & P3 & P4 & P5 & P6).
    exists b'. pose proof (P4 0%nat) as P7. rewrite Nat.add_0_r in P7. cbn [binomial_cdf_loop] in P7. rewrite P7. split; [exact P1|]. split; [exact P2|]. split; [exact P4|]. intros H. apply P5. right. lia. }
  split; [|split; [|split]].
  - intros k Hk. unfold binomial_cdf. fold eps10. rewrite E0, E1. replace (2 ^ 31 - 1 <=? k)%N with false by (symmetry; apply N.leb_gt; exact Hk). reflexivity.
  - intros k Hk. destruct (RUN k Hk) as (b' & _ & H & _). exact H.
  - intros k l Hkl Hl. destruct (RUN k ltac:(lia)) as (b' & P1 & P2 & P3 & P4). replace l with (k + (l - k))%nat by lia. rewrite P3.
    destruct (loop_run log exp erfc G X n lp lq Hn (conj Fl Bl) (conj Fm Bm) (l - k) (1 + N.of_nat k) b' _ ltac:(lia) ltac:(lia) P1 P2) as (b2 & c2 & Q1 & Q2 & Q3 & Q4 & _).
    specialize (Q4 0%nat). rewrite Nat.add_0_r in Q4. cbn [binomial_cdf_loop] in Q4. rewrite Q4. exact Q3.
  - intros k l Hnk Hkl Hl. destruct (RUN k ltac:(lia)) as (b' & P1 & P2 & P3 & P4).
    destruct (N.eq_dec n (N.of_nat k)) as [EK|NK].
    + (* the next step makes the coefficient 0 *)
      destruct (Nat.eq_dec k l) as [->|NL]; [left; reflexivity|].
      replace l with (k + S (l - k - 1))%nat by lia. rewrite P3, loop_S.
      set (c := binomial_cdf_loop log exp n lp lq 1 k d0 c0) in *.
      destruct (bnext_ok log exp erfc G n Hn (1 + N.of_nat k) b' ltac:(lia) P1) as [H1 H2]. assert (EN : (1 + N.of_nat k = n + 1)%N) by lia. specialize (H2 (or_intror EN)).
      destruct (arg_ok n lp lq Hn (conj Fl Bl) (conj Fm Bm) (1 + N.of_nat k) (bnext log n (1 + N.of_nat k) b') ltac:(lia) H1) as [NA IA]. specialize (IA H2).
      assert (Z : same (dadd c (exp (arg n lp lq (1 + N.of_nat k) (bnext log n (1 + N.of_nat k) b')))) c). { apply same_add0; [exact P2|]. rewrite IA. exact (gd_exp_inf _ _ _ G). }
      assert (NX : nonneg (exp (arg n lp lq (1 + N.of_nat k) (bnext log n (1 + N.of_nat k) b')))) by (destruct (X _ NA); split; assumption).
      destruct (nonneg_add c _ P2 NX) as [Nc _].
      destruct (loop_run log exp erfc G X n lp lq Hn (conj Fl Bl) (conj Fm Bm) (l - k - 1) (1 + N.of_nat k + 1) _ _ ltac:(lia) ltac:(lia) H1 Nc) as (b2 & c2 & Q1 & Q2 & Q3 & Q4 & Q5 & Q6).
      specialize (Q4 0%nat). rewrite Nat.add_0_r in Q4. cbn [binomial_cdf_loop] in Q4. rewrite Q4. specialize (Q6 H2).
      destruct Q6 as [->|(A & B & C)]; [exact Z|]. destruct Z as [Z|(A' & B' & C')]; [rewrite Z in B, C; right; repeat split; assumption|]. right. split; [exact A|]. split; [exact B'|]. congruence.
    + replace l with (k + (l - k))%nat by lia. rewrite P3.
      destruct (loop_run log exp erfc G X n lp lq Hn (conj Fl Bl) (conj Fm Bm) (l - k) (1 + N.of_nat k) b' _ ltac:(lia) ltac:(lia) P1 P2) as (b2 & c2 & Q1 & Q2 & Q3 & Q4 & _ & Q6).
      specialize (Q4 0%nat). rewrite Nat.add_0_r in Q4. cbn [binomial_cdf_loop] in Q4. rewrite Q4. apply Q6, P4. lia.
Qed.
End Fix.

(* The result is a probability, for every number of trials and every p; it grows with k and does not change any more from k = n on. *)
Theorem C105_probability : forall log exp erfc pow n p k, good_dist log exp erfc -> exp_nonneg exp -> pow01 pow -> (n < 2 ^ 32)%N -> (k < 2 ^ 31 - 1)%N -> valid01 p ->
  exists r, binomial_cdf log exp pow n p k = Ok r /\ valid01 r.
Proof.
  intros log exp erfc pow n p k G X W Hn Hk V. destruct d0_val as [V0 F0]. destruct d1_val as [V1 F1].
  destruct (near_cases p V) as [(A & _)|[(A & B)|(A & B & _)]].
  - exists d1. unfold binomial_cdf. fold eps10. rewrite A. split; [reflexivity|]. split; [exact F1|lra].
  - exists d0. unfold binomial_cdf. fold eps10. rewrite A, B. split; [reflexivity|]. split; [exact F0|lra].
  - destruct (binomial_steps log exp erfc pow G X W n p Hn V A B) as (f & H1 & H2 & _). exists (dclamp (f (N.to_nat k)) d0 d1). split; [apply H1, Hk|]. apply clamp_nonneg, H2. lia.
Qed.
Print Assumptions C105_probability.
Theorem C105_monotone : forall log exp erfc pow n p k l r s, good_dist log exp erfc -> exp_nonneg exp -> pow01 pow -> (n < 2 ^ 32)%N -> (k <= l < 2 ^ 31 - 1)%N -> valid01 p ->
  binomial_cdf log exp pow n p k = Ok r -> binomial_cdf log exp pow n p l = Ok s -> dval r <= dval s /\ ((n <= k)%N -> dval r = dval s).
Proof.
  intros log exp erfc pow n p k l r s G X W Hn [Hkl Hl] V R S.
  destruct (near_cases p V) as [(A & _)|[(A & B)|(A & B & _)]].
  - unfold binomial_cdf in R, S. fold eps10 in R, S. rewrite A in R, S. assert (r = s) by congruence. subst. split; [lra|reflexivity].
  - unfold binomial_cdf in R, S. fold eps10 in R, S. rewrite A, B in R, S. assert (r = s) by congruence. subst. split; [lra|reflexivity].
  - destruct (binomial_steps log exp erfc pow G X W n p Hn V A B) as (f & H1 & H2 & H3 & H4). rewrite H1 in R, S by lia. 
    apply (f_equal (fun o => match o with Ok a => a | UB => d0 end)) in R, S. cbv beta iota in R, S. subst r s. split.
    + apply clamp_mono; [apply H2; lia|apply H2; lia|apply H3; lia].
    + intros Hnk. symmetry. apply clamp_same, H4; lia.
Qed.
Print Assumptions C105_monotone.
(* The result is the probability of at most k successes in n trials, up to 2^-23. *)
Lemma pow_close a b n : 0 <= a <= 1 -> 0 <= b <= 1 -> Rabs (a ^ n - b ^ n) <= INR n * Rabs (a - b).
Proof.
  intros A B. induction n as [|n IH]; [cbn [pow]; rewrite Rminus_diag_eq, Rabs_R0 by reflexivity; cbn [INR]; lra|]. rewrite S_INR. cbn [pow].
  replace (a * a ^ n - b * b ^ n) with (a * (a ^ n - b ^ n) + (a - b) * b ^ n) by ring. eapply Rle_trans; [apply Rabs_triang|]. rewrite !Rabs_mult, (Rabs_pos_eq a), (Rabs_pos_eq (b ^ n)) by (try apply pow_le; lra).
  assert (b ^ n <= 1) by (rewrite <- (pow1 n); apply pow_incr; lra). pose proof (pow_le b n ltac:(lra)). pose proof (Rabs_pos (a ^ n - b ^ n)). pose proof (Rabs_pos (a - b)). nra.
Qed.
Lemma clamp_close x y e : fin x -> 0 <= y <= 1 -> Rabs (dval x - y) <= e -> Rabs (dval (dclamp x d0 d1) - y) <= e.
Proof.
  intros F Y H. destruct d0_val as [V0 F0]. destruct d1_val as [V1 F1]. unfold dclamp. apply Rabs_le_inv in H.
  destruct (dlt x d0) eqn:A; [apply dlt_iff in A; try assumption; rewrite V0 in *; apply Rabs_le; lra|]. destruct (dlt d1 x) eqn:B; [apply dlt_iff in B; try assumption; rewrite V1 in *; apply Rabs_le; lra|]. apply Rabs_le. lra.
Qed.
Lemma value_low log exp erfc pow n p k r : good_dist log exp erfc -> exp_1 exp -> pow01 pow -> pow_near pow -> (N.of_nat n <= 4096)%N -> is_finite p = true -> bpow radix2 (-33) <= dval p <= 1 - bpow radix2 (-33) -> (k <= n)%nat ->
  binomial_cdf log exp pow (N.of_nat n) p (N.of_nat k) = Ok r -> Rabs (dval r - at_most n k (dval p)) <= bpow radix2 (-23).
Proof.
  intros G X1 W W1 Hn F B Hk E. destruct d0_val as [V0 F0]. destruct d1_val as [V1 F1]. destruct eps10_val as (Fe & Ve & Be). change (bpow radix2 (-33)) with (/ 8589934592) in *.
  assert (V : valid01 p) by (split; [exact F|lra]).
  destruct (near_cases p V) as [(A & C)|[(A & C)|(A0 & A1 & Bp & Fq & Bq & Vq)]].
  - exfalso. rewrite Ve in C. lra.
  - exfalso. unfold is_near_eps in C. destruct (dsub_ok p d1 F F1) as [Vb Fb]; [rewrite V1; apply small_R with 1; [apply Rabs_le; lra|lra]|]. rewrite V1 in Vb.
    apply dle_iff in C; [|apply dabs_fin, Fb|exact Fe]. rewrite dabs_val, Vb in C. 
    assert (R : rnd (dval p - 1) <= - / 8589934592). { replace (- / 8589934592) with (rnd (- / 8589934592)) by (apply rnd_id; replace (- / 8589934592) with (- bpow radix2 (-33)) by reflexivity; apply generic_format_opp, F64_bpow; lia). apply rnd_mono. lra. }
    rewrite Rabs_left in C by lra. rewrite Ve in C. lra.
  - destruct (log_range log exp erfc p G F Bp) as (Fl & _ & Bl & El). destruct (log_range log exp erfc _ G Fq Bq) as (Fm & _ & _ & Em).
    change (bpow radix2 (-40)) with (/ 1099511627776) in *. change (bpow radix2 (-34)) with (/ 17179869184) in *. destruct tiny_le as [T0 T1]. destruct u_le as [U0 U1].
    assert (DQ : Rabs (dval (dsub d1 p) - (1 - dval p)) <= u * (1 - dval p) + bpow radix2 (-1000)). { rewrite Vq. eapply Rle_trans; [apply rnd_err_abs|]. rewrite Rabs_pos_eq by lra. lra. }
    assert (LQ : Rabs (ln (dval (dsub d1 p)) - ln (1 - dval p)) <= / 1000000000000000).
    { assert (LOW : (1 - dval p) / 2 <= dval (dsub d1 p)). { apply Rabs_le_inv in DQ. rewrite U1 in DQ. lra. }
      apply Rle_trans with (1 := ln_diff (dval (dsub d1 p)) (1 - dval p) ((1 - dval p) / 2) ltac:(lra) LOW ltac:(lra)).
      apply Rmult_le_reg_r with ((1 - dval p) / 2); [lra|]. unfold Rdiv at 1. rewrite Rmult_assoc, Rinv_l, Rmult_1_r by lra. apply Rle_trans with (1 := DQ). rewrite U1. lra. }
    assert (BQ : Rabs (ln (1 - dval p)) <= 25).
    { assert (L0 : ln (1 - dval p) <= 0) by (rewrite <- ln_1; apply ln_le; lra). assert (L1 : ln (bpow radix2 (-33)) <= ln (1 - dval p)) by (apply ln_le; [apply bpow_gt_0|change (bpow radix2 (-33)) with (/ 8589934592); lra]). rewrite ln_pow2 in L1. pose proof ln2_upper. apply Rabs_le. lra. }
    assert (Hp : fin (log p) /\ Rabs (dval (log p) - ln (dval p)) <= / 1000000000000 /\ Rabs (ln (dval p)) <= 25) by (split; [exact Fl|split; [lra|exact Bl]]).
    assert (Hq : fin (log (dsub d1 p)) /\ Rabs (dval (log (dsub d1 p)) - ln (1 - dval p)) <= / 1000000000000 /\ Rabs (ln (1 - dval p)) <= 25).
    { split; [exact Fm|]. split; [|exact BQ]. replace (dval (log (dsub d1 p)) - ln (1 - dval p)) with ((dval (log (dsub d1 p)) - ln (dval (dsub d1 p))) + (ln (dval (dsub d1 p)) - ln (1 - dval p))) by ring. eapply Rle_trans; [apply Rabs_triang|]. lra. }
    unfold binomial_cdf in E. fold eps10 in E. rewrite A0, A1 in E. replace (2 ^ 31 - 1 <=? N.of_nat k)%N with false in E by (symmetry; apply N.leb_gt; lia).
    apply (f_equal (fun o => match o with Ok a => a | UB => d0 end)) in E. cbv beta iota in E. subst r.
    destruct (double_of_N_exact (N.of_nat n) ltac:(lia)) as [Vn Fn].
    destruct (W (dsub d1 p) (double_of_N (N.of_nat n)) Fq) as [Fw Bw]; [lra|exact Fn|rewrite Vn; apply IZR_le; lia|].
    pose proof (W1 (dsub d1 p) (N.of_nat n) Fq ltac:(lra) ltac:(lia)) as Ew. change (bpow radix2 (-40)) with (/ 1099511627776) in Ew. rewrite Nat2N.id in Ew.
    assert (N1 : INR n <= 4096) by (rewrite INR_N; apply IZR_le; lia). pose proof (pos_INR n) as N0.
    assert (PC : Rabs (dval (dsub d1 p) ^ n - (1 - dval p) ^ n) <= / 1099511627776).
    { eapply Rle_trans; [apply pow_close; lra|]. apply Rle_trans with (4096 * (u * (1 - dval p) + bpow radix2 (-1000))); [apply Rmult_le_compat; [lra|apply Rabs_pos|lra|exact DQ]|]. rewrite U1. lra. }
    assert (HPP : 0 < dval p < 1) by lra.
    pose proof (loop_near log exp erfc G X1 n p (log p) (log (dsub d1 p)) Hn HPP Hp Hq k 0 d0 (pow (dsub d1 p) (double_of_N (N.of_nat n))) Hk) as L.
    destruct L as [FL EL].
    + split; [exact F0|]. rewrite V0, C_n_0, ln_1. replace (0 - 0) with 0 by ring. rewrite Rabs_R0. cbn [INR]. lra.
    + exact Fw.
    + unfold cdf_err. rewrite at_most_0. pose proof (pow_le (1 - dval p) n ltac:(lra)) as PW. cbn [INR].
      replace (dval (pow (dsub d1 p) (double_of_N (N.of_nat n))) - (1 - dval p) ^ n) with ((dval (pow (dsub d1 p) (double_of_N (N.of_nat n))) - dval (dsub d1 p) ^ n) + (dval (dsub d1 p) ^ n - (1 - dval p) ^ n)) by ring.
      eapply Rle_trans; [apply Rabs_triang|]. lra.
    + cbn [plus] in FL, EL. change (N.of_nat 1) with 1%N in FL, EL. rewrite Nat2N.id.
      destruct (at_most_le_1 n k (dval p) ltac:(lra) Hk) as [M0 M1].
      apply clamp_close; [exact FL|split; assumption|]. apply Rle_trans with (1 := EL). unfold cdf_err. change (bpow radix2 (-23)) with (/ 8388608).
      assert (INR (S k) <= 4097) by (rewrite INR_N; apply IZR_le; lia). lra.
Qed.
Theorem C105_value : forall log exp erfc pow n p k r, good_dist log exp erfc -> exp_nonneg exp -> exp_1 exp -> pow01 pow -> pow_near pow -> (n <= 4096)%N -> is_finite p = true -> bpow radix2 (-33) <= dval p <= 1 - bpow radix2 (-33) -> (k < 2 ^ 31 - 1)%N ->
  binomial_cdf log exp pow n p k = Ok r -> Rabs (dval r - at_most (N.to_nat n) (N.to_nat (N.min k n)) (dval p)) <= bpow radix2 (-23).
Proof.
  intros log exp erfc pow n p k r G X X1 W W1 Hn F B Hk E. assert (NN : N.of_nat (N.to_nat n) = n) by apply N2Nat.id.
  assert (V : valid01 p) by (split; [exact F|pose proof (bpow_gt_0 radix2 (-33)); lra]).
  destruct (N.le_gt_cases k n) as [H|H].
  - rewrite N.min_l by exact H. apply (value_low log exp erfc pow (N.to_nat n) p (N.to_nat k) r G X1 W W1); [rewrite NN; exact Hn|exact F|exact B|lia|rewrite NN, N2Nat.id; exact E].
  - rewrite N.min_r by lia. destruct (C105_probability log exp erfc pow n p n G X W ltac:(lia) ltac:(lia) V) as (s & S & _).
    destruct (C105_monotone log exp erfc pow n p n k s r G X W ltac:(lia) ltac:(lia) V S E) as [_ M]. rewrite <- (M (N.le_refl n)).
    apply (value_low log exp erfc pow (N.to_nat n) p (N.to_nat n) s G X1 W W1); [rewrite NN; exact Hn|exact F|exact B|lia|rewrite NN; exact S].
Qed.
Print Assumptions C105_value.
(* From 2^31 - 1 on the loop counter overflows. *)
Theorem C105_overflow_ub : forall log exp pow n p k, valid01 p -> is_near_eps p d0 eps10 = false -> is_near_eps p d1 eps10 = false -> (2 ^ 31 - 1 <= k)%N -> binomial_cdf log exp pow n p k = UB.
Proof. intros log exp pow n p k V A B H. unfold binomial_cdf. fold eps10. rewrite A, B. apply N.leb_le in H. rewrite H. reflexivity. Qed.
Print Assumptions C105_overflow_ub.
(* Certain success: at most n of n successes has the probability 1, but the result is 0. *)
Theorem C105_certain_refuted : forall log exp pow n, binomial_cdf log exp pow n d1 n = Ok d0.
Proof.
  intros. unfold binomial_cdf. replace (is_near_eps d1 d0 (dconst 7737125245533627 (-86))) with false by (vm_compute; reflexivity). replace (is_near_eps d1 d1 (dconst 7737125245533627 (-86))) with true by (vm_compute; reflexivity). reflexivity.
Qed.
Print Assumptions C105_certain_refuted.

Lemma other_exp_1 : exp_1 other_exp.
Proof.
  intros x F H. rewrite other_exp_low by (try exact F; lra). assert (B : 0 < Rtrigo_def.exp (dval x) <= 3). { split; [apply exp_pos|]. apply Rle_trans with (2 := exp_le_3). apply LimitProofs.exp_le. exact H. }
  destruct (LibInst.double_of_R_ok (Rtrigo_def.exp (dval x))) as [V F']; [apply small_R with 3; [rewrite Rabs_pos_eq; lra|lra]|]. unfold LibInst.exact_exp. split; [exact F'|]. rewrite V.
  pose proof (rnd_err_abs (Rtrigo_def.exp (dval x))) as E. rewrite (Rabs_pos_eq (Rtrigo_def.exp (dval x))) in E by lra. destruct tiny_le as [T0 T1]. destruct u_le as [U0 U1]. change (bpow radix2 (-40)) with (/ 1099511627776). rewrite U1 in E. lra.
Qed.
Lemma other_pow_near : pow_near other_pow.
Proof.
  intros x n F B Hn. destruct (double_of_N_exact n ltac:(lia)) as [V Fn]. destruct d0_val as [V0 F0]. destruct d1_val as [V1 F1]. pose proof (bpow_gt_0 radix2 (-40)) as P40. unfold other_pow. rewrite V.
  destruct (Rle_dec (dval x) 0) as [H|H].
  - replace (dval x) with 0 by lra. destruct (Rle_dec (IZR (Z.of_N n)) 0) as [Z|Z].
    + apply (le_IZR _ 0) in Z. replace n with 0%N by lia. cbn [N.to_nat pow]. rewrite V1, Rminus_diag_eq, Rabs_R0 by reflexivity. lra.
    + assert (N.to_nat n <> 0)%nat by (intros E; apply Z, IZR_le; lia). rewrite pow_i by lia. rewrite V0, Rminus_diag_eq, Rabs_R0 by reflexivity. lra.
  - assert (R : Rpower (dval x) (IZR (Z.of_N n)) = dval x ^ N.to_nat n) by (rewrite <- Rpower_pow by lra; f_equal; rewrite INR_N, N2Nat.id; reflexivity). rewrite R.
    assert (B1 : 0 <= dval x ^ N.to_nat n <= 1) by (split; [apply pow_le; lra|rewrite <- (pow1 (N.to_nat n)); apply pow_incr; lra]).
    destruct (LibInst.double_of_R_ok (dval x ^ N.to_nat n)) as [V' F']; [apply small_R with 1; [rewrite Rabs_pos_eq; lra|lra]|]. rewrite V'.
    eapply Rle_trans; [apply rnd_err_abs|]. rewrite Rabs_pos_eq by lra. destruct tiny_le as [T0 T1]. destruct u_le as [U0 U1]. change (bpow radix2 (-40)) with (/ 1099511627776). rewrite U1. lra.
Qed.

(* Example: 3 of 10 with probability 1/2. *)
Example C105_instance : good_dist lib_log other_exp lib_erfc /\ exp_nonneg other_exp /\ pow01 other_pow /\ exp_1 other_exp /\ pow_near other_pow /\ bpow radix2 (-33) <= dval (dconst 1 (-1)) <= 1 - bpow radix2 (-33) /\ valid01 (dconst 1 (-1)) /\ is_near_eps (dconst 1 (-1)) d0 eps10 = false /\ is_near_eps (dconst 1 (-1)) d1 eps10 = false /\
  exists r s, binomial_cdf lib_log other_exp other_pow 10 (dconst 1 (-1)) 3 = Ok r /\ binomial_cdf lib_log other_exp other_pow 10 (dconst 1 (-1)) 10 = Ok s /\ dval r <= dval s.
Proof.
  split; [exact other_dist_good|]. split; [exact other_exp_nonneg|]. split; [exact other_pow01|]. split; [exact other_exp_1|]. split; [exact other_pow_near|].
  split; [destruct (cst 1 (-1) ltac:(lia) ltac:(lia)) as [_ V1]; rewrite V1; change (bpow radix2 (-1)) with (/ 2); change (bpow radix2 (-33)) with (/ 8589934592); lra|].
  assert (V : valid01 (dconst 1 (-1))). { destruct (cst 1 (-1) ltac:(lia) ltac:(lia)) as [F1 V1]. change (bpow radix2 (-1)) with (/ 2) in V1. split; [exact F1|rewrite V1; lra]. }
  split; [exact V|]. split; [vm_compute; reflexivity|]. split; [vm_compute; reflexivity|].
  destruct (C105_probability lib_log other_exp lib_erfc other_pow 10 (dconst 1 (-1)) 3 other_dist_good other_exp_nonneg other_pow01 ltac:(lia) ltac:(lia) V) as (r & R & _).
  destruct (C105_probability lib_log other_exp lib_erfc other_pow 10 (dconst 1 (-1)) 10 other_dist_good other_exp_nonneg other_pow01 ltac:(lia) ltac:(lia) V) as (s & S & _).
  exists r, s. split; [exact R|]. split; [exact S|]. apply (C105_monotone lib_log other_exp lib_erfc other_pow 10 (dconst 1 (-1)) 3 10 r s other_dist_good other_exp_nonneg other_pow01 ltac:(lia) ltac:(lia) V R S).
Qed.
