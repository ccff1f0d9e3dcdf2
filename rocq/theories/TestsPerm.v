(* The permutation test: the window size solves size * 2^size = bits / 32 up to a small factor. *)
From Coq Require Import Reals Lra String.
From Flocq Require Import Core BinarySingleNaN.
From Verif Require Import Base BitwiseSpec FloatModel FloatLemmas ResultModel CollectModel CollectSpec CollectProofs Collect2Proofs RescaleProofs Collect3Proofs CouponModel CouponSpec CouponProofs CouponFloatProofs StatsModel StatsProofs ErrorSpec StatsSpec StatFormulas EvaluateModel EvaluateSpec LimitProofs TestsModel TestsSpec TestsProofs TestsUniform TestsGap TestsCoupon Prop_Collect.
Open Scope R_scope.

(* ---- numbers ---- *)
Lemma exp_pow_INR x n : exp x ^ n = exp (INR n * x).
Proof. induction n as [|n IH]; [cbn [pow INR]; rewrite Rmult_0_l, exp_0; reflexivity|]. cbn [pow]. rewrite IH, S_INR, Rmult_plus_distr_r, Rmult_1_l, exp_plus. ring. Qed.
Lemma exp_pow_lower x m : 0 < 1 + x / INR (S m) -> (1 + x / INR (S m)) ^ (S m) <= exp x.
Proof.
  intros H. assert (P : 0 < INR (S m)) by (apply lt_0_INR; lia).
  replace x with (INR (S m) * (x / INR (S m))) at 2 by (field; lra). rewrite <- exp_pow_INR.
  apply pow_incr. split; [lra|]. pose proof (exp_ineq1_le (x / INR (S m))). lra.
Qed.
Lemma ln2_lower : 69 / 100 <= ln 2.
Proof.
  rewrite <- (ln_exp (69 / 100)). apply ln_le; [apply exp_pos|].
  assert (H : / 2 <= exp (- (69 / 100))).
  { apply Rle_trans with ((1 + - (69 / 100) / INR 256) ^ 256); [|apply (exp_pow_lower _ 255)].
    - replace (1 + - (69 / 100) / INR 256) with (25531 / 25600) by (rewrite INR_IZR_INZ; cbn [Z.of_nat Pos.of_succ_nat Pos.succ]; field).
      unfold Rdiv. rewrite Rpow_mult_distr, pow_inv, !pow_IZR. apply (Rmult_le_reg_r (IZR (25600 ^ Z.of_nat 256))); [apply IZR_lt; reflexivity|].
      rewrite Rmult_assoc, Rinv_l by (apply Rgt_not_eq, IZR_lt; reflexivity). rewrite Rmult_1_r. apply (Rmult_le_reg_l 2); [lra|]. rewrite <- Rmult_assoc, Rinv_r, Rmult_1_l by lra. rewrite <- mult_IZR. apply IZR_le. vm_compute. discriminate.
    - rewrite INR_IZR_INZ. cbn [Z.of_nat Pos.of_succ_nat Pos.succ]. lra. }
  rewrite exp_Ropp in H. pose proof (exp_pos (69 / 100)) as P. apply (Rmult_le_reg_r (/ exp (69 / 100))); [apply Rinv_0_lt_compat, P|]. rewrite Rinv_r by lra. lra.
Qed.
Lemma ln2_upper : ln 2 <= 7 / 10.
Proof.
  rewrite <- (ln_exp (7 / 10)). apply ln_le; [lra|]. apply Rle_trans with ((1 + 7 / 10 / INR 64) ^ 64); [|apply (exp_pow_lower _ 63)].
  - replace (1 + 7 / 10 / INR 64) with (647 / 640) by (rewrite INR_IZR_INZ; cbn [Z.of_nat Pos.of_succ_nat Pos.succ]; field).
    unfold Rdiv. rewrite Rpow_mult_distr, pow_inv, !pow_IZR. apply (Rmult_le_reg_r (IZR (640 ^ Z.of_nat 64))); [apply IZR_lt; reflexivity|].
    rewrite Rmult_assoc, Rinv_l by (apply Rgt_not_eq, IZR_lt; reflexivity). rewrite Rmult_1_r. rewrite <- mult_IZR. apply IZR_le. vm_compute. discriminate.
  - rewrite INR_IZR_INZ. cbn [Z.of_nat Pos.of_succ_nat Pos.succ]. lra.
Qed.
(* 5 < ln 176 *)
Lemma ln176 : 5 <= ln 176.
Proof.
  rewrite <- (ln_exp 5). apply ln_le; [apply exp_pos|].
  assert (H : / 176 <= exp (Ropp 5)).
  { apply Rle_trans with ((1 + Ropp 5 / INR 128) ^ 128); [|apply (exp_pow_lower _ 127)].
    - replace (1 + Ropp 5 / INR 128) with (123 / 128) by (rewrite INR_IZR_INZ; cbn [Z.of_nat Pos.of_succ_nat Pos.succ]; field).
      unfold Rdiv. rewrite Rpow_mult_distr, pow_inv, !pow_IZR. apply (Rmult_le_reg_r (IZR (128 ^ Z.of_nat 128))); [apply IZR_lt; reflexivity|].
      rewrite Rmult_assoc, Rinv_l by (apply Rgt_not_eq, IZR_lt; reflexivity). rewrite Rmult_1_r. apply (Rmult_le_reg_l 176); [lra|]. rewrite <- Rmult_assoc, Rinv_r, Rmult_1_l by lra. rewrite <- mult_IZR. apply IZR_le. vm_compute. discriminate.
    - rewrite INR_IZR_INZ. cbn [Z.of_nat Pos.of_succ_nat Pos.succ]. lra. }
  rewrite exp_Ropp in H. pose proof (exp_pos 5) as P. apply (Rmult_le_reg_r (/ exp 5)); [apply Rinv_0_lt_compat, P|]. rewrite Rinv_r by lra. apply (Rmult_le_compat_l 176) in H; [|lra]. lra.
Qed.
(* 1.6 <= ln 4.99, ln 5 <= 1.65 *)
Lemma ln499 : 16 / 10 <= ln (499 / 100).
Proof.
  rewrite <- (ln_exp (16 / 10)). apply ln_le; [apply exp_pos|].
  assert (H : 100 / 499 <= exp (- (16 / 10))).
  { apply Rle_trans with ((1 + - (16 / 10) / INR 512) ^ 512); [|apply (exp_pow_lower _ 511)].
    - replace (1 + - (16 / 10) / INR 512) with (319 / 320) by (rewrite INR_IZR_INZ; cbn [Z.of_nat Pos.of_succ_nat Pos.succ]; field).
      unfold Rdiv. rewrite Rpow_mult_distr, pow_inv, !pow_IZR. apply (Rmult_le_reg_r (IZR (320 ^ Z.of_nat 512))); [apply IZR_lt; reflexivity|].
      rewrite (Rmult_assoc (IZR (319 ^ _))), Rinv_l by (apply Rgt_not_eq, IZR_lt; reflexivity). rewrite Rmult_1_r. apply (Rmult_le_reg_l 499); [lra|]. replace (499 * (100 * / 499 * IZR (320 ^ Z.of_nat 512))) with (100 * IZR (320 ^ Z.of_nat 512)) by field. rewrite <- !mult_IZR. apply IZR_le. vm_compute. discriminate.
    - rewrite INR_IZR_INZ. cbn [Z.of_nat Pos.of_succ_nat Pos.succ]. lra. }
  rewrite exp_Ropp in H. pose proof (exp_pos (16 / 10)) as P. apply (Rmult_le_reg_r (/ exp (16 / 10))); [apply Rinv_0_lt_compat, P|]. rewrite Rinv_r by lra. lra.
Qed.
Lemma ln5_upper : ln 5 <= 165 / 100.
Proof.
  rewrite <- (ln_exp (165 / 100)). apply ln_le; [lra|]. apply Rle_trans with ((1 + 165 / 100 / INR 64) ^ 64); [|apply (exp_pow_lower _ 63)].
  - replace (1 + 165 / 100 / INR 64) with (6565 / 6400) by (rewrite INR_IZR_INZ; cbn [Z.of_nat Pos.of_succ_nat Pos.succ]; field).
    unfold Rdiv. rewrite Rpow_mult_distr, pow_inv, !pow_IZR. apply (Rmult_le_reg_r (IZR (6400 ^ Z.of_nat 64))); [apply IZR_lt; reflexivity|].
    rewrite Rmult_assoc, Rinv_l by (apply Rgt_not_eq, IZR_lt; reflexivity). rewrite Rmult_1_r. rewrite <- mult_IZR. apply IZR_le. vm_compute. discriminate.
  - rewrite INR_IZR_INZ. cbn [Z.of_nat Pos.of_succ_nat Pos.succ]. lra.
Qed.

(* ---- the approximation of the Lambert function ---- *)
Definition lambert (l1 l2 : R) : R := l1 - l2 + l2 / l1 + l2 * (l2 - 2) / (2 * l1 * l1).
Lemma lambert_ok l1 : 499 / 100 <= l1 -> let a := lambert l1 (ln l1) in
  333 / 100 <= a /\ a <= l1 /\ 86 / 100 * exp l1 <= a * exp a <= 112 / 100 * exp l1.
Proof.
  intros H a. set (v := / l1). set (l2 := ln l1) in *. set (q := l2 * v).
  assert (P1 : 0 < l1) by lra. assert (Pv : 0 < v) by (apply Rinv_0_lt_compat, P1). assert (Ev : l1 * v = 1) by (apply Rinv_r; lra).
  assert (Bv : v <= 100 / 499) by (unfold v; replace (100 / 499) with (/ (499 / 100)) by field; apply Rinv_le; lra).
  assert (L2a : 16 / 10 <= l2) by (apply Rle_trans with (1 := ln499); apply ln_le; lra).
  assert (L2b : l2 <= 165 / 100 + (l1 / 5 - 1)).
  { unfold l2. replace l1 with (5 * (l1 / 5)) at 1 by field. rewrite ln_mult by lra. pose proof ln5_upper.
    assert (ln (l1 / 5) <= l1 / 5 - 1); [|lra]. rewrite <- (ln_exp (l1 / 5 - 1)). apply ln_le; [lra|]. pose proof (exp_ineq1_le (l1 / 5 - 1)). lra. }
  assert (Bq : 16 / 10 * v <= q <= 331 / 1000).
  { unfold q. split; [apply Rmult_le_compat_r; lra|]. apply Rle_trans with ((65 / 100 + l1 / 5) * v); [apply Rmult_le_compat_r; lra|]. nra. }
  set (d := q + q * q / 2 - q * v).
  assert (Ea : a = l1 * (1 - q + d * v)).
  { unfold a, lambert, d, q, v. fold l2. field. lra. }
  assert (Ee : exp a = exp l1 * v * exp d).
  { replace a with (l1 + - l2 + d). - rewrite !exp_plus, exp_Ropp. unfold l2 at 1. rewrite exp_ln by exact P1. reflexivity. - unfold a, lambert, d, q, v. fold l2. field. lra. }
  assert (Bd : 0 <= d <= 39 / 100) by (unfold d; nra).
  assert (D1 : 1 + d <= exp d) by apply exp_ineq1_le.
  assert (D2 : exp d * (1 - d) <= 1).
  { assert (E : exp d * exp (- d) = 1) by (rewrite <- exp_plus; replace (d + - d) with 0 by ring; apply exp_0). rewrite <- E. apply Rmult_le_compat_l; [apply Rlt_le, exp_pos|]. pose proof (exp_ineq1_le (- d)). lra. }
  set (f := 1 - q + d * v) in *. assert (F0 : 669 / 1000 <= f) by (unfold f; nra).
  assert (F1 : f <= 1). { unfold f, d. nra. }
  split; [rewrite Ea; nra|]. split; [rewrite Ea; apply Rle_trans with (l1 * 1); [apply Rmult_le_compat_l; lra|lra]|].
  assert (EE : a * exp a = exp l1 * (f * exp d)).
  { rewrite Ee, Ea. replace (l1 * f * (exp l1 * v * exp d)) with ((l1 * v) * (exp l1 * (f * exp d))) by ring. rewrite Ev. ring. }
  rewrite EE. pose proof (exp_pos l1) as PE.
  assert (U : f * exp d <= 112 / 100).
  { apply (Rmult_le_reg_r (1 - d)); [lra|]. rewrite Rmult_assoc. apply Rle_trans with (f * 1); [apply Rmult_le_compat_l; lra|]. unfold f. 
    assert (0 <= 112 / 100 * (1 - d) - (1 - q + d * v)); [|lra]. unfold d. nra. }
  assert (L : 86 / 100 <= f * exp d).
  { apply Rle_trans with (f * (1 + d)); [|apply Rmult_le_compat_l; lra]. unfold f.
    apply Rle_trans with ((1 - q) * (1 + d)); [|apply Rmult_le_compat_r; [lra|nra]]. unfold d.
    assert (q * v <= q * (10 / 16 * q)) by (apply Rmult_le_compat_l; lra). nra. }
  split; nra.
Qed.

(* ---- its evaluation in floating point ---- *)
Lemma rnd_abs x : Rabs x <= 4096 -> Rabs (rnd x - x) <= / 2000000000000.
Proof.
  intros H. destruct (Req_dec x 0) as [->|N0]; [rewrite (rnd_id 0 F64_0), Rminus_0_r, Rabs_R0; lra|].
  destruct (Rle_or_lt (bpow radix2 (-1000)) (Rabs x)) as [C|C].
  - pose proof (rnd_err x (or_intror C)) as A. unfold approx in A. change u with (/ 9007199254740992) in A. apply Rle_trans with (1 := A). lra.
  - assert (B : bpow radix2 (-1000) <= / 8000000000000) by (apply Rle_trans with (bpow radix2 (-43)); [apply bpow_le; lia|change (bpow radix2 (-43)) with (/ 8796093022208); lra]).
    assert (K : - bpow radix2 (-1000) <= rnd x <= bpow radix2 (-1000)).
    { apply rnd_between; [apply generic_format_opp, F64_bpow; lia|apply F64_bpow; lia|]. apply Rabs_def2 in C. lra. }
    apply Rabs_def2 in C. apply Rabs_le. lra.
Qed.
Lemma op_abs x r : r = rnd x -> Rabs x <= 4096 -> - / 2000000000000 <= r - x <= / 2000000000000.
Proof. intros -> H. apply Rabs_le_inv, rnd_abs, H. Qed.
Lemma small4096 x : Rabs x <= 4096 -> Rabs x <= bpow radix2 1023.
Proof. intros H. apply (small_bpow _ 12); [lia|]. change (bpow radix2 12) with 4096. exact H. Qed.

Lemma mul_in x y a b : 0 <= b -> - a <= x <= a -> 0 <= y <= b -> - (a * b) <= x * y <= a * b.
Proof. intros Hb Hx Hy. assert (Ha : 0 <= a) by lra. split; nra. Qed.
Lemma eg_bound E G l1 l2 D F d : d = / 2000000000000 -> 499 / 100 <= l1 <= 36 -> 15 / 10 <= l2 <= 9 -> - d <= D - (l2 - 2) <= d -> - d <= E - l2 * D <= d ->
  - d <= F - 2 * l1 <= d -> - d <= G - F * l1 <= d -> Rabs (E / G - l2 * (l2 - 2) / (2 * l1 * l1)) <= / 100000000000.
Proof.
  intros Hd B1 B2 HD HE HF HG. assert (Pd : 0 < d) by (rewrite Hd; lra).
  pose proof (mul_in (F - 2 * l1) l1 d 36 ltac:(lra) HF ltac:(lra)) as X1. pose proof (mul_in (D - (l2 - 2)) l2 d 9 ltac:(lra) HD ltac:(lra)) as X2.
  set (g := 2 * l1 * l1) in *. set (t := l2 * (l2 - 2)) in *.
  assert (DG : - (37 * d) <= g - G <= 37 * d) by (unfold g; lra). assert (DE : - (10 * d) <= E - t <= 10 * d) by (unfold t; lra).
  assert (Bg : 49 <= g) by (unfold g; clear -B1; nra). assert (TE : -63 <= t <= 63) by (unfold t; clear -B2; nra).
  assert (BG : 48 <= G) by lra. clearbody g t.
  replace (E / G - t / g) with ((E - t) * / G + t * / g * ((g - G) * / G)) by (field; lra).
  assert (Ig : 0 <= / g <= / 49) by (split; [apply Rlt_le, Rinv_0_lt_compat; lra|apply Rinv_le; lra]).
  assert (IG : 0 <= / G <= / 48) by (split; [apply Rlt_le, Rinv_0_lt_compat; lra|apply Rinv_le; lra]).
  pose proof (mul_in t (/ g) 63 (/ 49) ltac:(lra) TE Ig) as T1. pose proof (mul_in _ _ _ (/ 48) ltac:(lra) DG IG) as T2. pose proof (mul_in _ _ _ (/ 48) ltac:(lra) DE IG) as T3.
  set (p := t * / g) in *. set (r := (g - G) * / G) in *. assert (T4 : - (2 * d) <= p * r <= 2 * d) by (clear -T1 T2 Pd; nra). apply Rabs_le. lra.
Qed.
Lemma lambert_lip l1 l2 m2 e : 0 <= e -> 499 / 100 <= l1 <= 36 -> 15 / 10 <= l2 <= 9 -> 16 / 10 <= m2 <= 8 -> - e <= l2 - m2 <= e -> Rabs (lambert l1 l2 - lambert l1 m2) <= 3 * e.
Proof.
  intros He B1 B2 BM H. unfold lambert. set (g := 2 * l1 * l1). assert (Bg : 49 <= g) by (unfold g; clear -B1; nra).
  replace (l1 - l2 + l2 / l1 + l2 * (l2 - 2) / g - (l1 - m2 + m2 / l1 + m2 * (m2 - 2) / g)) with ((l2 - m2) * (-1 + / l1 + (l2 + m2 - 2) * / g)) by (field; lra).
  assert (Ig : 0 <= / g <= / 49) by (split; [apply Rlt_le, Rinv_0_lt_compat; lra|apply Rinv_le; lra]).
  assert (I1 : 0 <= / l1 <= / 4) by (split; [apply Rlt_le, Rinv_0_lt_compat; lra|apply Rinv_le; lra]).
  pose proof (mul_in (l2 + m2 - 2) (/ g) 17 (/ 49) ltac:(lra) ltac:(lra) Ig) as T. set (p := (l2 + m2 - 2) * / g) in *. set (z := -1 + / l1 + p). assert (Bz : -3 <= z <= 3) by (unfold z; lra). clearbody z.
  apply Rabs_le. nra.
Qed.

Lemma lambert_float M x : good_math M -> fin x -> 176 <= dval x <= bpow radix2 50 ->
  exists l1, fin (lambert_w_approximation M x) /\ 499 / 100 <= l1 <= 36 /\ Rabs (l1 - ln (dval x)) <= / 1000000000000 /\
    Rabs (dval (lambert_w_approximation M x) - lambert l1 (ln l1)) <= / 10000000000.
Proof.
  intros G Fx Bx. destruct (gm_log M G x Fx) as [F1 A1]; [split; [lra|apply Rle_trans with (1 := proj2 Bx), bpow_le; lia]|].
  assert (L1 : 5 <= ln (dval x) <= 35).
  { split; [apply Rle_trans with (1 := ln176), ln_le; lra|]. apply Rle_trans with (ln (bpow radix2 50)); [apply ln_le; lra|]. rewrite ln_bpow by lia. pose proof ln2_upper. lra. }
  change (bpow radix2 (-40)) with (/ 1099511627776) in A1. set (l1 := m_log M x) in *. pose proof (Rabs_le_inv _ _ A1) as A1'.
  assert (B1 : 499 / 100 <= dval l1 <= 36) by lra.
  destruct (gm_log M G l1 F1) as [F2 A2]; [split; [lra|apply Rle_trans with (bpow radix2 6); [change (bpow radix2 6) with 64; lra|apply bpow_le; lia]]|].
  change (bpow radix2 (-40)) with (/ 1099511627776) in A2. set (l2 := m_log M l1) in *. apply Rabs_le_inv in A2.
  assert (L2 : 16 / 10 <= ln (dval l1) <= 8).
  { split; [apply Rle_trans with (1 := ln499), ln_le; lra|]. apply Rle_trans with (ln (bpow radix2 6)); [apply ln_le; [lra|change (bpow radix2 6) with 64; lra]|]. rewrite ln_bpow by lia. pose proof ln2_upper. lra. }
  assert (B2 : 15 / 10 <= dval l2 <= 9) by lra.
  assert (V2 : dval (double_of_N 2) = 2 /\ fin (double_of_N 2)) by (apply (double_of_N_exact 2); discriminate). destruct V2 as [V2 Ftwo].
  assert (NN : is_near x d1 = false).
  { unfold is_near, is_near_eps. destruct d1_val as [V1 Fd1].
    destruct (dsub_ok x d1 Fx Fd1) as [Vs Fs].
    { rewrite V1. apply (small_bpow _ 51); [lia|]. change 51%Z with (1 + 50)%Z. rewrite bpow_plus. change (bpow radix2 1) with 2. rewrite Rabs_pos_eq; lra. }
    apply dle_false; [apply dabs_fin, Fs|apply near_eps_val|]. rewrite dabs_val, Vs, V1.
    assert (1 <= rnd (dval x - 1)) by (apply Rle_trans with (rnd 1); [rewrite (rnd_id 1) by (apply (F64_Z 1); lia); lra|apply rnd_mono; lra]).
    rewrite Rabs_pos_eq by lra. pose proof near_eps_range. lra. }
  exists (dval l1). unfold lambert_w_approximation. rewrite NN. fold l1 l2.
  (* step by step *)
  destruct (dsub_ok l1 l2 F1 F2) as [VA FA]; [apply small4096, Rabs_le; lra|]. set (A := dsub l1 l2) in *. apply op_abs in VA; [|apply Rabs_le; lra].
  assert (I1 : 0 < / dval l1 <= / 4) by (split; [apply Rinv_0_lt_compat; lra|apply Rinv_le; lra]).
  assert (Q1 : 0 <= dval l2 / dval l1 <= 9 / 4) by (unfold Rdiv; nra).
  destruct (ddiv_ok l2 l1 F2 ltac:(lra)) as [VB FB]; [apply small4096, Rabs_le; lra|]. set (B := ddiv l2 l1) in *. apply op_abs in VB; [|apply Rabs_le; lra].
  destruct (dadd_ok A B FA FB) as [VC FC]; [apply small4096, Rabs_le; lra|]. set (C := dadd A B) in *. apply op_abs in VC; [|apply Rabs_le; lra].
  destruct (dsub_ok l2 (double_of_N 2) F2 Ftwo) as [VD FD]; [rewrite V2; apply small4096, Rabs_le; lra|]. set (D := dsub l2 (double_of_N 2)) in *. rewrite V2 in VD. apply op_abs in VD; [|apply Rabs_le; lra].
  assert (Q2 : -81 <= dval l2 * dval D <= 81) by nra.
  destruct (dmul_ok l2 D F2 FD) as [VE FE]; [apply small4096, Rabs_le; lra|]. set (E := dmul l2 D) in *. apply op_abs in VE; [|apply Rabs_le; lra].
  destruct (dmul_ok (double_of_N 2) l1 Ftwo F1) as [VF FF]; [rewrite V2; apply small4096, Rabs_le; lra|]. set (Fv := dmul (double_of_N 2) l1) in *. rewrite V2 in VF. apply op_abs in VF; [|apply Rabs_le; lra].
  assert (Q3 : 49 <= dval Fv * dval l1 <= 2700) by nra.
  destruct (dmul_ok Fv l1 FF F1) as [VG FG]; [apply small4096, Rabs_le; lra|]. set (Gv := dmul Fv l1) in *. apply op_abs in VG; [|apply Rabs_le; lra].
  assert (BG : 48 <= dval Gv <= 2701) by lra.
  assert (IG : 0 < / dval Gv <= / 48) by (split; [apply Rinv_0_lt_compat; lra|apply Rinv_le; lra]).
  assert (BE : -82 <= dval E <= 82) by lra.
  assert (Q4 : -2 <= dval E / dval Gv <= 2) by (unfold Rdiv; nra).
  destruct (ddiv_ok E Gv FE ltac:(lra)) as [VH FH]; [apply small4096, Rabs_le; lra|]. set (H := ddiv E Gv) in *. apply op_abs in VH; [|apply Rabs_le; lra].
  destruct (dadd_ok C H FC FH) as [VR FR]; [apply small4096, Rabs_le; lra|]. set (Rr := dadd C H) in *. apply op_abs in VR; [|apply Rabs_le; lra].
  split; [exact FR|]. split; [exact B1|]. split; [apply Rabs_le; lra|].
  set (m2 := ln (dval l1)) in *.
  pose proof (eg_bound (dval E) (dval Gv) (dval l1) (dval l2) (dval D) (dval Fv) _ eq_refl B1 B2 VD VE VF VG) as EGi.
  pose proof (lambert_lip (dval l1) (dval l2) m2 (/ 1099511627776) ltac:(lra) B1 B2 L2 A2) as X.
  apply Rabs_le_inv in EGi. apply Rabs_le_inv in X. unfold lambert. unfold lambert in X. apply Rabs_le. lra.
Qed.

(* ---- the window size ---- *)
Lemma size_real a y l1 k eps : 0 <= eps <= / 1000000000 -> 333 / 100 <= a -> 0 < y -> 86 / 100 * exp l1 <= a * exp a <= 112 / 100 * exp l1 ->
  y * ln 2 * (1 - / 100000000000) <= exp l1 <= y * ln 2 * (1 + / 100000000000) ->
  a / ln 2 - 1 - eps <= k <= a / ln 2 + eps -> 339 / 1000 * y <= k * exp (k * ln 2) <= 1121 / 1000 * y.
Proof.
  intros He Ha Hy HA HL Hk. pose proof ln2_lower as N1. pose proof ln2_upper as N2. set (s := a / ln 2) in *.
  assert (Es : s * ln 2 = a) by (unfold s; field; lra).
  assert (Bs : 475 / 100 <= s) by (apply (Rmult_le_reg_r (ln 2)); [lra|]; rewrite Es; lra).
  assert (SE : 8599 / 10000 * y <= s * exp a <= 11201 / 10000 * y).
  { replace (s * exp a) with ((a * exp a) * / ln 2) by (unfold s; field; lra). assert (PI : 0 < / ln 2) by (apply Rinv_0_lt_compat; lra). assert (E2 : ln 2 * / ln 2 = 1) by (apply Rinv_r; lra).
    split.
    - apply Rle_trans with (86 / 100 * (y * ln 2 * (1 - / 100000000000)) * / ln 2).
      + replace (86 / 100 * (y * ln 2 * (1 - / 100000000000)) * / ln 2) with (86 / 100 * y * (1 - / 100000000000) * (ln 2 * / ln 2)) by ring. rewrite E2. lra.
      + apply Rmult_le_compat_r; lra.
    - apply Rle_trans with (112 / 100 * (y * ln 2 * (1 + / 100000000000)) * / ln 2).
      + apply Rmult_le_compat_r; lra.
      + replace (112 / 100 * (y * ln 2 * (1 + / 100000000000)) * / ln 2) with (112 / 100 * y * (1 + / 100000000000) * (ln 2 * / ln 2)) by ring. rewrite E2. lra. }
  pose proof (exp_pos a) as PA. set (e2 := eps * ln 2). assert (B2 : 0 <= e2 <= eps) by (unfold e2; nra).
  split.
  - apply Rle_trans with ((s - 1 - eps) * (exp a / 2 * (1 - eps))).
    + apply Rle_trans with (789 / 1000 * s * (exp a / 2 * (1 - eps))).
      * apply Rle_trans with (789 / 1000 * (1 - eps) / 2 * (s * exp a)); [|right; field]. clear - SE He Hy. nra.
      * apply Rmult_le_compat_r; [clear - PA He; nra|lra].
    + apply Rmult_le_compat; [lra|clear - PA He; nra|lra|].
      apply Rle_trans with (exp (a + - ln 2 + - e2)); [|apply exp_le; unfold e2; nra].
      rewrite !exp_plus, (exp_Ropp (ln 2)), exp_ln by lra. unfold Rdiv. apply Rmult_le_compat_l; [lra|]. pose proof (exp_ineq1_le (- e2)). lra.
  - apply Rle_trans with ((s + eps) * (exp a * (1 + 2 * eps))).
    + apply Rmult_le_compat; [lra|apply Rlt_le, exp_pos|lra|].
      apply Rle_trans with (exp (a + e2)); [apply exp_le; unfold e2; nra|]. rewrite exp_plus. apply Rmult_le_compat_l; [lra|]. apply (exp_bounds eps); lra.
    + apply Rle_trans with (s * (1 + eps) * (exp a * (1 + 2 * eps))); [apply Rmult_le_compat_r; [clear - PA He; nra|nra]|].
      replace (s * (1 + eps) * (exp a * (1 + 2 * eps))) with ((1 + eps) * (1 + 2 * eps) * (s * exp a)) by ring.
      assert (K : (1 + eps) * (1 + 2 * eps) <= 10005 / 10000) by (clear - He; nra). assert (K0 : 0 <= (1 + eps) * (1 + 2 * eps)) by (clear - He; nra). set (c := (1 + eps) * (1 + 2 * eps)) in *. clear - SE K K0 Hy. nra.
Qed.

Lemma perm_size M w n : good_math M -> (8192 <= n * w <= 2 ^ 53)%N ->
  exists size, get_permutation_size M w n = Ok size /\ (3 <= size <= 43)%N /\
    285 / 10 * IZR (Z.of_N (size * 2 ^ size)) <= IZR (Z.of_N (n * w)) <= 945 / 10 * IZR (Z.of_N (size * 2 ^ size)).
Proof.
  intros G Hb. set (t := (n * w)%N) in *. unfold get_permutation_size. fold t.
  assert (W : wrap 64 t = t) by (unfold wrap; apply N.mod_small; apply N.le_lt_trans with (1 := proj2 Hb); reflexivity). rewrite W.
  destruct (div_pow2 t 5 ltac:(lia) ltac:(lia)) as (Fy & Vy & _). change (2 ^ 5)%N with 32%N in Fy, Vy. set (y := ddiv (double_of_N t) (double_of_N 32)) in *.
  assert (BT : 8192 <= IZR (Z.of_N t) <= bpow radix2 53).
  { split; [apply (IZR_le 8192); lia|]. rewrite <- IZR_pow2 by lia. apply IZR_le. change (2 ^ 53)%Z with (Z.of_N (2 ^ 53)). apply N2Z.inj_le, Hb. }
  change (IZR (Z.of_N 32)) with 32 in Vy. assert (BY : 256 <= dval y <= bpow radix2 48).
  { rewrite Vy. change 53%Z with (5 + 48)%Z in BT. rewrite bpow_plus in BT. change (bpow radix2 5) with 32 in BT. lra. }
  assert (V2 : dval (double_of_N 2) = 2 /\ fin (double_of_N 2)) by (apply (double_of_N_exact 2); discriminate). destruct V2 as [V2 F2].
  destruct (gm_log M G (double_of_N 2) F2) as [Fl Al]; [rewrite V2; split; [lra|]; apply Rle_trans with (bpow radix2 1); [cbn; lra|apply bpow_le; lia]|].
  rewrite V2 in Al. change (bpow radix2 (-40)) with (/ 1099511627776) in Al. set (lg := m_log M (double_of_N 2)) in *. apply Rabs_le_inv in Al.
  pose proof ln2_lower as N1. pose proof ln2_upper as N2. set (L := ln 2) in *.
  assert (PXY : 176 <= dval y * dval lg <= bpow radix2 48) by nra.
  destruct (dmul_ok y lg Fy Fl) as [Vx Fx]; [apply (small_bpow _ 48); [lia|]; rewrite Rabs_pos_eq; lra|]. set (x := dmul y lg) in *.
  assert (Bx : 176 <= dval x <= bpow radix2 50).
  { rewrite Vx. apply rnd_between; [apply (F64_Z 176); lia|apply F64_bpow; lia|]. split; [apply PXY|]. apply Rle_trans with (1 := proj2 PXY), bpow_le. lia. }
  assert (Ax : Rabs (dval x - dval y * dval lg) <= / 9007199254740992 * (dval y * dval lg)).
  { rewrite Vx. change (/ 9007199254740992) with (bpow radix2 (-53)). rewrite <- (Rabs_pos_eq (dval y * dval lg)) at 3 by lra. apply rnd_approx. apply Rle_trans with (bpow radix2 0); [apply bpow_le; lia|cbn; lra]. }
  apply Rabs_le_inv in Ax. destruct (lambert_float M x G Fx Bx) as (l1 & Fa & B1 & E1 & Ea). set (lam := lambert_w_approximation M x) in *.
  destruct (lambert_ok l1 (proj1 B1)) as (a1 & a2 & a3). set (a := lambert l1 (ln l1)) in *. apply Rabs_le_inv in Ea. apply Rabs_le_inv in E1.
  assert (EL : exp l1 = dval x * exp (l1 - ln (dval x))).
  { replace l1 with (ln (dval x) + (l1 - ln (dval x))) at 1 by ring. rewrite exp_plus, exp_ln by lra. reflexivity. }
  destruct (exp_bounds (/ 1000000000000) ltac:(lra) (l1 - ln (dval x)) E1) as [X1 X2]. set (z := exp (l1 - ln (dval x))) in *.
  assert (XY : dval y * L * (1 - / 500000000000) <= dval x <= dval y * L * (1 + / 500000000000)).
  { assert (YL : dval y * (L - / 1099511627776) <= dval y * dval lg <= dval y * (L + / 1099511627776)) by (split; apply Rmult_le_compat_l; lra).
    assert (YL2 : dval y * / 1099511627776 <= dval y * L * / 700000000000) by (rewrite Rmult_assoc; apply Rmult_le_compat_l; lra). lra. }
  assert (HL : dval y * L * (1 - / 100000000000) <= exp l1 <= dval y * L * (1 + / 100000000000)).
  { rewrite EL. assert (P0 : 0 < dval y * L) by nra. set (yl := dval y * L) in *. clear - XY X1 X2 P0. split; nra. }
  (* the quotient *)
  assert (BL : 689 / 1000 <= dval lg <= 701 / 1000) by lra. assert (Blam : 332 / 100 <= dval lam <= 37) by lra.
  assert (IL : 14 / 10 <= / dval lg <= 146 / 100).
  { split; [apply (Rmult_le_reg_r (dval lg)); [lra|]; rewrite Rinv_l by lra; lra|]. apply (Rmult_le_reg_r (dval lg)); [lra|]; rewrite Rinv_l by lra; lra. }
  assert (BQ : 4 <= dval lam / dval lg <= 55) by (unfold Rdiv; clear - IL Blam; nra).
  destruct (ddiv_ok lam lg Fa ltac:(lra)) as [VS FS]; [apply small4096, Rabs_le; lra|]. set (sz := ddiv lam lg) in *.
  assert (AS := op_abs _ _ VS ltac:(apply Rabs_le; lra)).
  assert (QA : - / 2000000000 <= dval lam / dval lg - a / L <= / 2000000000).
  { replace (dval lam / dval lg - a / L) with ((dval lam - a) * / dval lg + (L - dval lg) * (a * / L * / dval lg)) by (field; lra).
    assert (IL2 : 14 / 10 <= / L <= 146 / 100) by (split; (apply (Rmult_le_reg_r L); [lra|]; rewrite Rinv_l by lra; lra)).
    pose proof (mul_in (dval lam - a) (/ dval lg) (/ 10000000000) (146 / 100) ltac:(lra) ltac:(lra) ltac:(lra)) as M1.
    assert (AL : 0 <= a * / L <= 60) by (clear - a1 a2 B1 IL2; nra).
    assert (AL2 : 0 <= a * / L * / dval lg <= 90) by (clear - AL IL; set (p := a * / L) in *; nra).
    pose proof (mul_in (L - dval lg) (a * / L * / dval lg) (/ 1099511627776) 90 ltac:(lra) ltac:(lra) AL2) as M2. lra. }
  assert (BS : 3 <= dval sz <= 56) by lra.
  rewrite N_of_double_trunc; [|exact FS|lra|apply Rle_lt_trans with 56; [lra|]; apply IZR_lt; reflexivity].
  set (k := Zfloor (dval sz)). pose proof (Zfloor_lb (dval sz)) as K1. pose proof (Zfloor_ub (dval sz)) as K2. fold k in K1, K2.
  assert (K3 : (3 <= k)%Z) by (unfold k; rewrite <- (Zfloor_IZR 3); apply Zfloor_le; lra).
  exists (Z.to_N k). split; [reflexivity|].
  assert (SR := size_real a (dval y) l1 (IZR k) (/ 1000000000) ltac:(lra) a1 ltac:(lra) a3 HL ltac:(fold L; lra)).
  assert (EK : IZR (Z.of_N (Z.to_N k * 2 ^ Z.to_N k)) = IZR k * exp (IZR k * L)).
  { rewrite N2Z.inj_mul, N2Z.inj_pow, Z2N.id by lia. change (Z.of_N 2) with 2%Z. rewrite mult_IZR, IZR_pow2 by lia. f_equal. unfold L. rewrite <- ln_bpow by lia. rewrite exp_ln by apply bpow_gt_0. reflexivity. }
  rewrite EK. fold L in SR. set (kk := IZR k * exp (IZR k * L)) in *.
  split; [|split; lra].
  split; [lia|]. (* an upper bound on the size *)
  destruct (Z.le_gt_cases k 43) as [C|C]; [lia|exfalso].
  assert (KB : 44 * bpow radix2 44 <= kk).
  { unfold kk, L. rewrite <- ln_bpow by lia. rewrite exp_ln by apply bpow_gt_0. apply Rmult_le_compat; [lra|apply bpow_ge_0|apply (IZR_le 44); lia|apply bpow_le; lia]. }
  assert (Q48 : bpow radix2 48 = 16 * bpow radix2 44) by (change 48%Z with (4 + 44)%Z; rewrite bpow_plus; reflexivity). pose proof (bpow_gt_0 radix2 44). lra.
Qed.

Lemma flat_test' cdf os c : (Z.of_nat (length os) <= 2 ^ 50)%Z -> Forall (fun x => x <= 2 ^ 53)%N os -> fin c -> bpow radix2 (-64) <= dval c <= bpow radix2 64 ->
  chi2_test cdf 0 os (repeat (dval c) (length os)) (chi2_stats cdf (length os) (to_data os) (fun _ => c) d0).
Proof.
  intros Hl Ht Fc Bc. rewrite <- (proj1 d0_val). apply chi2_is_test.
  - exact Hl.
  - reflexivity.
  - rewrite map_const_seq. reflexivity.
  - intros i Hi. apply to_data_ok; [exact Hi|exact Ht].
  - intros _ _. exact Fc.
  - intros _ _ _. exact Bc.
Qed.
Lemma floor_N q : (1 <= q <= 2 ^ 53)%N -> dfloor (double_of_N q) = double_of_N q.
Proof.
  intros Hq. destruct (double_of_N_exact q (proj2 Hq)) as [V F]. destruct (nearby_val mode_DN (double_of_N q)) as [Vf Ff]. fold (dfloor (double_of_N q)) in Vf, Ff. cbn [round_mode] in Vf.
  rewrite V, Zfloor_IZR in Vf. symmetry. apply pos_eq; [exact F|exact (Ff F)|rewrite V; apply (IZR_lt 0); lia|rewrite V, Vf; reflexivity].
Qed.

Lemma perm_ok M cdf w n stream : good_math M -> (8192 <= n * w <= 2 ^ 53)%N ->
  exists size blocks os s,
    (3 <= size <= 43)%N /\
    chopped (N.to_nat size) (flat_map (bits_lsb (N.to_nat w)) (values stream n)) blocks /\
    N.of_nat (length os) = (2 ^ size)%N /\ (forall v, (v < 2 ^ size)%N -> nth (N.to_nat v) os 0%N = N.min 255 (count (fun b => (value_lsb b =? v)%N) blocks)) /\
    28 <= IZR (Z.of_N (n * w / size)) / IZR (Z.of_N (2 ^ size)) <= 95 /\
    chi2_test cdf 0 os (repeat (IZR (Z.of_N (n * w / size)) / IZR (Z.of_N (2 ^ size))) (length os)) (Some s) /\
    permutation_test M cdf w n stream = Ok [mksub (to_string_N size) (Some s)].
Proof.
  intros G Hb. destruct (perm_size M w n G Hb) as (size & ES & BS & BB). set (t := (n * w)%N) in *.
  assert (W : wrap 64 t = t) by (unfold wrap; apply N.mod_small; apply N.le_lt_trans with (1 := proj2 Hb); reflexivity).
  destruct (C36_histogram w (values stream n) size ltac:(lia)) as (blocks & Ch & os & Eo & Lo & Co).
  assert (P2 : (8 <= 2 ^ size <= 2 ^ 43)%N) by (split; [change 8%N with (2 ^ 3)%N|]; apply N.pow_le_mono_r; lia).
  set (q := (t / size)%N). assert (Dq : (size * q <= t < size * q + size)%N).
  { unfold q. pose proof (N.div_mod t size ltac:(lia)). pose proof (N.mod_lt t size ltac:(lia)). lia. }
  assert (Q1 : (1 <= q)%N) by (unfold q; apply N.div_le_lower_bound; lia). assert (Q2 : (q <= 2 ^ 53)%N) by (apply N.le_trans with t; [nia|apply Hb]).
  destruct (div_pow2 q size ltac:(lia) ltac:(lia)) as (Fe & Ve & Be). set (e := ddiv (double_of_N q) (double_of_N (2 ^ size))) in *.
  assert (BE : 28 <= dval e <= 95).
  { rewrite Ve. rewrite N2Z.inj_mul, mult_IZR in BB. set (T := IZR (Z.of_N t)) in *. set (S := IZR (Z.of_N size)) in *. set (H := IZR (Z.of_N (2 ^ size))) in *.
    assert (DQ : S * IZR (Z.of_N q) <= T < S * IZR (Z.of_N q) + S).
    { unfold S, T. rewrite <- mult_IZR, <- plus_IZR, <- N2Z.inj_mul, <- N2Z.inj_add. split; [apply IZR_le|apply IZR_lt]; lia. }
    assert (S3 : 3 <= S) by (apply (IZR_le 3); lia). assert (H8 : 8 <= H) by (apply (IZR_le 8); lia). set (Q := IZR (Z.of_N q)) in *. clearbody S T H Q.
    assert (L1 : 28 * H <= Q).
    { apply (Rmult_le_reg_l S); [lra|]. apply Rlt_le. assert (S * (28 * H) + S <= 285 / 10 * (S * H)) by nra. nra. }
    assert (U1 : Q <= 95 * H) by (apply (Rmult_le_reg_l S); [lra|]; nra).
    split; [apply (Rmult_le_reg_r H); [lra|]|apply (Rmult_le_reg_r H); [lra|]]; unfold Rdiv; rewrite Rmult_assoc, Rinv_l, Rmult_1_r by lra; assumption. }
  assert (F255 : Forall (fun x => x <= 2 ^ 53)%N os).
  { apply Forall_forall. intros x Hx. apply (In_nth _ _ 0%N) in Hx. destruct Hx as (i & Hi & <-). specialize (Co (N.of_nat i) ltac:(lia)). rewrite Nat2N.id in Co. rewrite Co.
    apply N.le_trans with 255%N; [apply N.le_min_l|discriminate]. }
  assert (T : chi2_test cdf 0 os (repeat (dval e) (length os)) (chi2_stats cdf (length os) (to_data os) (fun _ => e) d0)).
  { apply flat_test'; [|exact F255|exact Fe|].
    - apply Z.le_trans with (2 ^ 43)%Z; [|discriminate]. rewrite <- nat_N_Z, Lo. change (2 ^ 43)%Z with (Z.of_N (2 ^ 43)). apply N2Z.inj_le, P2.
    - split; [apply Be|]. apply Rle_trans with (1 := proj2 Be). apply bpow_le. lia. }
  assert (NE : chi2_stats cdf (length os) (to_data os) (fun _ => e) d0 <> None) by (eapply flat_exists; [| |exact T]; [lra|lia]).
  destruct (chi2_stats cdf (length os) (to_data os) (fun _ => e) d0) as [s|] eqn:Es; [|congruence].
  exists size, blocks, os, s. split; [exact BS|]. split; [exact Ch|]. split; [exact Lo|]. split; [exact Co|]. split; [fold t q; rewrite <- Ve; exact BE|]. split; [fold t q; rewrite <- Ve; exact T|].
  unfold permutation_test. rewrite ES. cbn [obind]. unfold permutation_stat. fold t. rewrite Eo. cbn [obind]. destruct (N.eqb_spec size 0); [lia|]. rewrite W. fold q. rewrite floor_N by lia. rewrite Lo. fold e. rewrite Es. reflexivity.
Qed.
