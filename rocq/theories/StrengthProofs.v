(* Failure strength: range, monotonicity, thresholds. *)
From Coq Require Import Reals Lra.
From Verif Require Import Base FloatModel FloatLemmas ResultModel ResultSpec AnalysisProofs EvalProofs.
Open Scope R_scope.

Definition eps40 : R := / 2 ^ 40.
Definition delta : R := / 2 ^ 37.
Lemma eps40_pos : 0 < eps40. Proof. unfold eps40. apply Rinv_0_lt_compat, pow_lt. lra. Qed.
Lemma delta_eps : delta = 8 * eps40.
Proof. unfold delta, eps40. replace 40%nat with (37 + 3)%nat by reflexivity. rewrite pow_add. field. Qed.
Lemma eps40_small : eps40 <= / 1024.
Proof. unfold eps40. apply Rinv_le_contravar; [lra|]. replace 1024 with (2 ^ 10) by (cbn; lra). apply Rle_pow; [lra|lia]. Qed.

Lemma ln10_lt3 : ln 10 < 3.
Proof.
  rewrite <- (ln_exp 3). apply ln_increasing; [lra|].
  assert (H : 1 + / 2 < exp (/ 2)) by (apply exp_ineq1; lra).
  replace 3 with (/2 + /2 + /2 + /2 + /2 + /2) by lra. rewrite !exp_plus.
  assert (1.5 * 1.5 < exp (/2) * exp (/2)) by (apply Rmult_gt_0_lt_compat; lra).
  assert (1.5 * 1.5 * 1.5 < exp (/2) * exp (/2) * exp (/2)) by (apply Rmult_gt_0_lt_compat; lra).
  assert (3.375 * 3.375 < (exp (/2) * exp (/2) * exp (/2)) * (exp (/2) * exp (/2) * exp (/2))) by (apply Rmult_gt_0_lt_compat; lra).
  lra.
Qed.
Lemma ln10_pos : 0 < ln 10.
Proof. rewrite <- ln_1. apply ln_increasing; lra. Qed.

Definition lg (x : R) : R := ln x / ln 10.
Lemma lg_mono x y : 0 < x -> x <= y -> lg x <= lg y.
Proof.
  intros Hx Hy. unfold lg, Rdiv. apply Rmult_le_compat_r; [apply Rlt_le, Rinv_0_lt_compat, ln10_pos|].
  destruct (Req_dec x y) as [->|]; [lra|]. apply Rlt_le, ln_increasing; lra.
Qed.
Lemma lg_pow k : lg (/ 10 ^ k) = - INR k.
Proof.
  unfold lg. rewrite ln_Rinv by (apply pow_lt; lra). rewrite ln_pow by lra. field. apply Rgt_not_eq, ln10_pos.
Qed.
Lemma lg_mult x y : 0 < x -> 0 < y -> lg (x * y) = lg x + lg y.
Proof. intros. unfold lg. rewrite ln_mult by assumption. field. apply Rgt_not_eq, ln10_pos. Qed.

Lemma lg_below : lg (1 - delta) <= - 2 * eps40.
Proof.
  pose proof eps40_pos as P. pose proof eps40_small as S. pose proof delta_eps as D. pose proof ln10_pos as P10. pose proof ln10_lt3 as L10.
  assert (ln (1 - delta) <= - delta).
  { rewrite <- (ln_exp (- delta)). assert (1 + - delta <= exp (- delta)) by (apply exp_ineq1_le).
    destruct (Req_dec (1 - delta) (exp (- delta))) as [->|]; [lra|]. apply Rlt_le, ln_increasing; lra. }
  unfold lg. apply (Rmult_le_reg_r (ln 10)); [exact P10|]. unfold Rdiv. rewrite Rmult_assoc, Rinv_l, Rmult_1_r by lra.
  assert (eps40 * ln 10 <= eps40 * 3) by (apply Rmult_le_compat_l; lra). lra.
Qed.
Lemma lg_above : 2 * eps40 <= lg (1 + delta).
Proof.
  pose proof eps40_pos as P. pose proof eps40_small as S. pose proof delta_eps as D. pose proof ln10_pos as P10. pose proof ln10_lt3 as L10.
  assert (7 * eps40 <= ln (1 + delta)).
  { assert (H : ln (/ (1 + delta)) <= - (7 * eps40)); [|rewrite ln_Rinv in H by lra; lra].
    rewrite <- (ln_exp (- (7 * eps40))). assert (1 + - (7 * eps40) <= exp (- (7 * eps40))) by (apply exp_ineq1_le).
    assert (/ (1 + delta) <= 1 - 7 * eps40).
    { apply (Rmult_le_reg_r (1 + delta)); [lra|]. rewrite Rinv_l by lra. rewrite D.
      assert (eps40 * eps40 <= eps40 * / 1024) by (apply Rmult_le_compat_l; lra). lra. }
    assert (0 < / (1 + delta)) by (apply Rinv_0_lt_compat; lra).
    destruct (Req_dec (/ (1 + delta)) (exp (- (7 * eps40)))) as [->|]; [lra|]. apply Rlt_le, ln_increasing; lra. }
  unfold lg. apply (Rmult_le_reg_r (ln 10)); [exact P10|]. unfold Rdiv. rewrite (Rmult_assoc (ln (1 + delta))), Rinv_l, Rmult_1_r by lra.
  assert (eps40 * ln 10 <= eps40 * 3) by (apply Rmult_le_compat_l; lra). lra.
Qed.

(* 1e-10 as a double is within a tiny relative distance of 10^-10 *)
Lemma c1em10_val : dval c1em10 = IZR 7737125245533627 * / 2 ^ 86.
Proof.
  destruct (dconst_ok 7737125245533627 (-86)) as [V F].
  { apply (small_pow2 _ 1); [lia|]. unfold F2R, Fnum, Fexp. rewrite Rabs_right by (apply Rle_ge, Rmult_le_pos; [apply IZR_le; lia|apply bpow_ge_0]).
    replace (bpow radix2 1) with (IZR (2 ^ 87) * bpow radix2 (-86)) by (change (IZR (2 ^ 87)) with (bpow radix2 87); rewrite <- bpow_plus; reflexivity).
    apply Rmult_le_compat_r; [apply bpow_ge_0|apply IZR_le; lia]. }
  unfold c1em10. rewrite V, rnd_id by (apply F64_F2R; [apply Z.leb_le; reflexivity|lia]).
  unfold F2R, Fnum, Fexp. f_equal. cbn [bpow]. rewrite pow_IZR. f_equal.
Qed.
Lemma c1em10_near : / 10 ^ 10 * (1 - delta) < dval c1em10 < / 10 ^ 10 * (1 + delta).
Proof. rewrite c1em10_val. unfold delta. cbn [pow]. split; lra. Qed.
Lemma c1em10_le1 : dval c1em10 <= 1.
Proof. rewrite c1em10_val. cbn [pow]. lra. Qed.

Section S.
Variable log10 : double -> double.
Hypothesis G : good_log10 log10.

(* the number of decades, when it is computed through log10 *)
Lemma strength_cases s : valid_stat s ->
  (two_sided s < dval c1em10 /\ get_failure_strength log10 s = Ok 10%N) \/
  (dval c1em10 <= two_sided s <= 1 /\ exists l, dval (log10 (get_comparable_p_value s)) = - l /\ 0 <= l /\
     Rabs (l + lg (two_sided s)) <= eps40 /\ get_failure_strength log10 s = Ok (Z.to_N (Zfloor l)) /\ l < 11).
Proof.
  intros V. destruct c1em10_ok as [Fc Pc]. destruct (comparable_ok s V) as [E [F B]]. unfold get_failure_strength.
  destruct (dlt (get_comparable_p_value s) c1em10) eqn:D.
  - left. apply dlt_iff in D; [|exact F|exact Fc]. rewrite E in D. split; [exact D|reflexivity].
  - right. apply dlt_false in D; [|exact F|exact Fc]. rewrite E in *. split; [lra|].
    destruct G as [G1 _]. destruct (G1 (get_comparable_p_value s) F ltac:(rewrite E; lra)) as (Fl & Nl & Al). rewrite E in Al.
    fold (lg (two_sided s)) in Al. fold eps40 in Al.
    exists (- dval (log10 (get_comparable_p_value s))). split; [ring|]. split; [lra|].
    assert (Hl : Rabs (- dval (log10 (get_comparable_p_value s)) + lg (two_sided s)) <= eps40).
    { rewrite <- Rabs_Ropp. replace (- (- dval (log10 (get_comparable_p_value s)) + lg (two_sided s))) with (dval (log10 (get_comparable_p_value s)) - lg (two_sided s)) by ring. exact Al. }
    split; [exact Hl|].
    assert (H11 : - dval (log10 (get_comparable_p_value s)) < 11).
    { apply Rabs_le_inv in Hl. pose proof eps40_small. pose proof c1em10_near as [N1 _].
      assert (- 10 - 1 / 2 <= lg (two_sided s)); [|lra].
      assert (P10 : 0 < / 10 ^ 10) by (apply Rinv_0_lt_compat, pow_lt; lra).
      assert (L1 : lg (/ 10 ^ 10 * (1 - delta)) <= lg (two_sided s)).
      { apply lg_mono; [|lra]. apply Rmult_lt_0_compat; [exact P10|]. rewrite delta_eps. pose proof eps40_small. lra. }
      rewrite lg_mult in L1; [|exact P10|rewrite delta_eps; pose proof eps40_small; lra]. rewrite lg_pow in L1. cbn [INR] in L1.
      assert (- (1/2) <= lg (1 - delta)); [|lra].
      assert (X : ln (1 - delta) >= - (1/2)).
      { rewrite <- (ln_exp (-(1/2))). apply Rle_ge. assert (exp (-(1/2)) <= 1 - delta).
        { rewrite exp_Ropp. assert (1 + 1/2 < exp (1/2)) by (apply exp_ineq1; lra).
          assert (/ exp (1/2) <= / (1 + 1/2)) by (apply Rinv_le_contravar; lra). rewrite delta_eps. pose proof eps40_small. lra. }
        destruct (Req_dec (exp (-(1/2))) (1 - delta)) as [->|]; [lra|]. apply Rlt_le, ln_increasing; [apply exp_pos|lra]. }
      assert (1 <= ln 10).
      { rewrite <- (ln_exp 1) at 1. apply Rlt_le, ln_increasing; [apply exp_pos|]. pose proof exp_le_3. lra. }
      unfold lg. apply (Rmult_le_reg_r (ln 10)); [lra|]. unfold Rdiv at 2. rewrite Rmult_assoc, Rinv_l, Rmult_1_r by lra. lra. }
    split; [|exact H11].
    rewrite (N_of_double_trunc 32).
    + rewrite dabs_val. rewrite Rabs_left1 by exact Nl. reflexivity.
    + apply dabs_fin, Fl.
    + rewrite dabs_val. apply Rabs_pos.
    + rewrite dabs_val, Rabs_left1 by exact Nl. eapply Rlt_trans; [exact H11|]. apply IZR_lt. reflexivity.
Qed.

Lemma strength_total s : valid_stat s -> exists f, get_failure_strength log10 s = Ok f /\ (f <= 10)%N.
Proof.
  intros V. destruct (strength_cases s V) as [[_ E]|(_ & l & _ & L0 & _ & E & L1)]; [exists 10%N; split; [exact E|lia]|].
  eexists. split; [exact E|]. assert (Zfloor l < 11)%Z.
  { apply lt_IZR. eapply Rle_lt_trans; [apply Zfloor_lb|exact L1]. }
  assert (0 <= Zfloor l)%Z by (apply Zfloor_lub; exact L0). lia.
Qed.

Lemma strength_antitone s s' f f' : valid_stat s -> valid_stat s' -> two_sided s <= two_sided s' ->
  get_failure_strength log10 s = Ok f -> get_failure_strength log10 s' = Ok f' -> (f' <= f)%N.
Proof.
  intros V V' H E E'. destruct (strength_cases s V) as [[H1 X]|(H1 & l & L & L0 & _ & X & L1)];
  destruct (strength_cases s' V') as [[H1' X']|(H1' & l' & L' & L0' & _ & X' & L1')]; rewrite X in E; rewrite X' in E';
  injection E as <-; injection E' as <-.
  - lia.
  - destruct (strength_total s' V') as (f & Y & Hf). rewrite X' in Y. injection Y as <-. exact Hf.
  - lra.
  - assert (l' <= l).
    { destruct G as [_ G2]. destruct (comparable_ok s V) as [C [F B]]. destruct (comparable_ok s' V') as [C' [F' B']].
      specialize (G2 _ _ F F'). rewrite C, C' in G2. rewrite C' in B'. destruct c1em10_ok as [_ Pc].
      specialize (G2 ltac:(lra) H ltac:(lra)). rewrite L, L' in G2. lra. }
    apply Z2N.inj_le; [apply Zfloor_lub; exact L0'|apply Zfloor_lub; exact L0|]. apply Zfloor_le. assumption.
Qed.

Lemma inv_pow10_pos k : 0 < / 10 ^ k. Proof. apply Rinv_0_lt_compat, pow_lt. lra. Qed.
Lemma delta_small : 0 < delta < / 100. Proof. rewrite delta_eps. pose proof eps40_pos. pose proof eps40_small. lra. Qed.

Lemma pow10_anti a b : (a <= b)%nat -> / 10 ^ b <= / 10 ^ a.
Proof. intros H. apply Rinv_le_contravar; [apply pow_lt; lra|]. apply Rle_pow; [lra|exact H]. Qed.

Lemma strength_low k s f : (k <= 10)%nat -> valid_stat s -> two_sided s <= / 10 ^ k * (1 - delta) ->
  get_failure_strength log10 s = Ok f -> (N.of_nat k <= f)%N.
Proof.
  intros Hk V H E. destruct (strength_cases s V) as [[H1 X]|(H1 & l & L & L0 & A & X & L1)]; rewrite X in E; injection E as <-; [lia|].
  destruct c1em10_ok as [_ Pc]. pose proof delta_small as D. pose proof (inv_pow10_pos k) as P.
  assert (B : lg (two_sided s) <= lg (/ 10 ^ k * (1 - delta))) by (apply lg_mono; lra).
  rewrite lg_mult, lg_pow in B by lra. pose proof lg_below. apply Rabs_le_inv in A. pose proof eps40_pos.
  assert (INR k <= l) by lra. rewrite INR_IZR_INZ in *.
  assert (Z.of_nat k <= Zfloor l)%Z by (apply Zfloor_lub; assumption). lia.
Qed.
Lemma strength_high k s f : (k <= 10)%nat -> valid_stat s -> / 10 ^ k * (1 + delta) <= two_sided s ->
  get_failure_strength log10 s = Ok f -> (f < N.of_nat k)%N.
Proof.
  intros Hk V H E. destruct c1em10_ok as [_ Pc]. pose proof delta_small as D. pose proof (inv_pow10_pos k) as P.
  pose proof (pow10_anti k 10 Hk) as Q. pose proof c1em10_near as [_ N2].
  destruct (strength_cases s V) as [[H1 X]|(H1 & l & L & L0 & A & X & L1)]; rewrite X in E; injection E as <-.
  - exfalso. assert (/ 10 ^ 10 * (1 + delta) <= / 10 ^ k * (1 + delta)) by (apply Rmult_le_compat_r; lra). lra.
  - assert (B : lg (/ 10 ^ k * (1 + delta)) <= lg (two_sided s)) by (apply lg_mono; [apply Rmult_lt_0_compat; lra|exact H]).
    rewrite lg_mult, lg_pow in B by lra. pose proof lg_above. apply Rabs_le_inv in A. pose proof eps40_pos.
    assert (l < INR k) by lra. rewrite INR_IZR_INZ in *.
    assert (Zfloor l < Z.of_nat k)%Z by (apply lt_IZR; eapply Rle_lt_trans; [apply Zfloor_lb|assumption]).
    assert (0 <= Zfloor l)%Z by (apply Zfloor_lub; exact L0). lia.
Qed.
End S.
