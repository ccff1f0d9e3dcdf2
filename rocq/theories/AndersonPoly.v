(* The Anderson-Darling test: bounds for the approximation of its p-value. *)
From Coq Require Import Reals Lra Lia List.
From Flocq Require Import Core BinarySingleNaN.
From Verif Require Import Base FloatModel FloatLemmas ErrorSpec ResultModel ResultSpec StatsModel StatsProofs CouponFloatProofs DistModel DistSpec DistSeries CorrPearson OtherModel OtherSpec FisherProofs BinomProofs LibInst AndersonProofs.
Import ListNotations.
Open Scope R_scope.

Lemma cst m e : (Z.abs m <= 2 ^ 53)%Z -> (-1000 <= e <= 900)%Z -> fin (dconst m e) /\ dval (dconst m e) = IZR m * bpow radix2 e.
Proof.
  intros Hm He. assert (B : Rabs (F2R (Float radix2 m e)) <= bpow radix2 1023).
  { rewrite <- F2R_Zabs. unfold F2R. cbn [Fnum Fexp]. apply Rle_trans with (bpow radix2 53 * bpow radix2 900); [|rewrite <- bpow_plus; apply bpow_le; lia].
    apply Rmult_le_compat; [apply IZR_le; lia|apply bpow_ge_0|change (bpow radix2 53) with (IZR (2 ^ 53)); apply IZR_le; exact Hm|apply bpow_le; lia]. }
  destruct (dconst_ok m e B) as [V F]. split; [exact F|]. rewrite V. apply rnd_id, F64_F2R; [exact Hm|lia].
Qed.
(* |x| <= 2^k *)
Definition ab (x : double) (k : Z) : Prop := fin x /\ Rabs (dval x) <= bpow radix2 k.
Lemma ab_rnd x k : (-1000 <= k <= 1000)%Z -> Rabs x <= bpow radix2 k -> Rabs (rnd x) <= bpow radix2 k.
Proof. intros H B. apply Rabs_le_inv in B. apply Rabs_le. apply rnd_between; [apply F64_opp, F64_bpow; lia|apply F64_bpow; lia|exact B]. Qed.
Lemma ab_sub x y a b k : ab x a -> ab y b -> (a < k)%Z -> (b < k)%Z -> (-1000 <= k <= 1000)%Z -> ab (dsub x y) k.
Proof.
  intros [Fx Bx] [Fy By] Ha Hb Hk. assert (B : Rabs (dval x - dval y) <= bpow radix2 k).
  { replace k with (k - 1 + 1)%Z by lia. rewrite bpow_plus. change (bpow radix2 1) with 2.
    assert (bpow radix2 a <= bpow radix2 (k - 1)) by (apply bpow_le; lia). assert (bpow radix2 b <= bpow radix2 (k - 1)) by (apply bpow_le; lia).
    apply Rabs_le_inv in Bx, By. apply Rabs_le. lra. }
  destruct (dsub_ok x y Fx Fy) as [V F]; [apply Rle_trans with (1 := B), bpow_le; lia|]. split; [exact F|]. rewrite V. apply ab_rnd; assumption.
Qed.
Lemma ab_add x y a b k : ab x a -> ab y b -> (a < k)%Z -> (b < k)%Z -> (-1000 <= k <= 1000)%Z -> ab (dadd x y) k.
Proof.
  intros [Fx Bx] [Fy By] Ha Hb Hk. assert (B : Rabs (dval x + dval y) <= bpow radix2 k).
  { replace k with (k - 1 + 1)%Z by lia. rewrite bpow_plus. change (bpow radix2 1) with 2.
    assert (bpow radix2 a <= bpow radix2 (k - 1)) by (apply bpow_le; lia). assert (bpow radix2 b <= bpow radix2 (k - 1)) by (apply bpow_le; lia).
    apply Rabs_le_inv in Bx, By. apply Rabs_le. lra. }
  destruct (dadd_ok x y Fx Fy) as [V F]; [apply Rle_trans with (1 := B), bpow_le; lia|]. split; [exact F|]. rewrite V. apply ab_rnd; assumption.
Qed.
Lemma ab_mul x y a b k : ab x a -> ab y b -> (a + b <= k)%Z -> (-1000 <= k <= 1000)%Z -> ab (dmul x y) k.
Proof.
  intros [Fx Bx] [Fy By] Ha Hk. assert (B : Rabs (dval x * dval y) <= bpow radix2 k).
  { rewrite Rabs_mult. apply Rle_trans with (bpow radix2 a * bpow radix2 b); [apply Rmult_le_compat; try apply Rabs_pos; assumption|rewrite <- bpow_plus; apply bpow_le; lia]. }
  destruct (dmul_ok x y Fx Fy) as [V F]; [apply Rle_trans with (1 := B), bpow_le; lia|]. split; [exact F|]. rewrite V. apply ab_rnd; assumption.
Qed.
Lemma ab_div x y a b k : ab x a -> bpow radix2 b <= dval y -> (a - b <= k)%Z -> (-1000 <= k <= 1000)%Z -> ab (ddiv x y) k.
Proof.
  intros [Fx Bx] By Ha Hk. pose proof (bpow_gt_0 radix2 b) as P. assert (B : Rabs (dval x / dval y) <= bpow radix2 k).
  { unfold Rdiv. rewrite Rabs_mult, Rabs_inv. rewrite (Rabs_pos_eq (dval y)) by lra. apply Rle_trans with (bpow radix2 a * bpow radix2 (- b)).
    - apply Rmult_le_compat; [apply Rabs_pos|apply Rlt_le, Rinv_0_lt_compat; lra|exact Bx|rewrite bpow_opp; apply Rinv_le; lra].
    - rewrite <- bpow_plus. apply bpow_le. lia. }
  destruct (ddiv_ok x y Fx) as [V F]; [lra|apply Rle_trans with (1 := B), bpow_le; lia|]. split; [exact F|]. rewrite V. apply ab_rnd; assumption.
Qed.
Lemma ab_cst m e k : (Z.abs m <= 2 ^ 53)%Z -> (-1000 <= e <= 900)%Z -> (Z.abs m <= 2 ^ (k - e))%Z -> (e <= k)%Z -> ab (dconst m e) k.
Proof.
  intros H1 H2 H3 H4. destruct (cst m e H1 H2) as [F V]. split; [exact F|]. rewrite V, Rabs_mult, <- abs_IZR, (Rabs_pos_eq (bpow radix2 e)) by apply bpow_ge_0.
  replace k with ((k - e) + e)%Z by lia. rewrite bpow_plus. apply Rmult_le_compat_r; [apply bpow_ge_0|].
  rewrite <- (IZR_Zpower radix2) by lia. apply IZR_le. exact H3.
Qed.
(* rounding of moderate numbers *)
Lemma rnd_slop x : Rabs x <= 64 -> Rabs (rnd x - x) <= / 1000000000.
Proof.
  intros H. pose proof (rnd_err_abs x) as E. assert (A2 : bpow radix2 (-1000) <= / 9007199254740992) by (rewrite <- u_val; apply bpow_le; lia). rewrite u_val in E. lra.
Qed.
(* c - q z for 0 <= z <= 2 *)
Lemma hor c q z C L H : fin c -> fin q -> fin z -> 0 <= dval z <= 2 -> C - / 1000000 <= dval c <= C + / 1000000 -> -8 <= C <= 8 -> L <= dval q <= H -> -8 <= L <= 0 -> 0 <= H <= 8 ->
  fin (dsub c (dmul q z)) /\ C - 2 * H - / 1000 <= dval (dsub c (dmul q z)) <= C - 2 * L + / 1000.
Proof.
  intros Fc Fq Fz Bz Bc BC Bq BL BH. assert (P : 2 * L <= dval q * dval z <= 2 * H) by (split; nra).
  destruct (dmul_ok q z Fq Fz) as [V F]; [apply small_R with 16; [apply Rabs_le; lra|lra]|].
  pose proof (rnd_slop (dval q * dval z) ltac:(apply Rabs_le; lra)) as E. rewrite <- V in E. apply Rabs_le_inv in E.
  destruct (dsub_ok c _ Fc F) as [V' F']; [apply small_R with 32; [apply Rabs_le; lra|lra]|]. split; [exact F'|].
  pose proof (rnd_slop (dval c - dval (dmul q z)) ltac:(apply Rabs_le; lra)) as E'. rewrite <- V' in E'. apply Rabs_le_inv in E'. lra.
Qed.
Ltac cstv m e F V b := let t := constr:(conj (cst m e ltac:(lia) ltac:(lia)) I) in destruct t as [[F V] _]; change (bpow radix2 e) with b in V.

Section Poly.
Variables (log exp erfc : double -> double).
Hypothesis G : good_dist log exp erfc.
Hypothesis X : exp_nonneg exp.
Hypothesis XA : accurate_exp exp.

Definition qlow (z : double) : double :=
  dadd (dconst 4503869843348138 (-51)) (dmul
    (dsub (dconst 8902895887371091 (-55)) (dmul (dsub (dconst 4682453781532037 (-56)) (dmul (dsub (dconst 5014660907325096 (-57)) (dmul (dsub (dconst 6728449900885559 (-59)) (dmul (dconst 7779499261345345 (-62)) z)) z)) z)) z)) z).
Lemma qlow_ok z : fin z -> 0 <= dval z <= 2 -> fin (qlow z) /\ 199 / 100 <= dval (qlow z) <= 254 / 100 /\ (dval z <= 1 / 5 -> dval (qlow z) <= 206 / 100).
Proof.
  intros Fz Bz.
  cstv 7779499261345345%Z (-62)%Z F0 V0 (/ 4611686018427387904).
  cstv 6728449900885559%Z (-59)%Z F1 V1 (/ 576460752303423488).
  cstv 5014660907325096%Z (-57)%Z F2 V2 (/ 144115188075855872).
  cstv 4682453781532037%Z (-56)%Z F3 V3 (/ 72057594037927936).
  cstv 8902895887371091%Z (-55)%Z F4 V4 (/ 36028797018963968).
  cstv 4503869843348138%Z (-51)%Z F5 V5 (/ 2251799813685248).
  unfold qlow.
  destruct (hor _ _ z (11672 / 1000000) 0 (2 / 1000) F1 F0 Fz Bz ltac:(lra) ltac:(lra) ltac:(lra) ltac:(lra) ltac:(lra)) as [G1 B1].
  destruct (hor _ _ z (347962 / 10000000) 0 (13 / 1000) F2 G1 Fz Bz ltac:(lra) ltac:(lra) ltac:(lra) ltac:(lra) ltac:(lra)) as [G2 B2].
  destruct (hor _ _ z (649821 / 10000000) 0 (36 / 1000) F3 G2 Fz Bz ltac:(lra) ltac:(lra) ltac:(lra) ltac:(lra) ltac:(lra)) as [G3 B3].
  destruct (hor _ _ z (247105 / 1000000) (-9 / 1000) (66 / 1000) F4 G3 Fz Bz ltac:(lra) ltac:(lra) ltac:(lra) ltac:(lra) ltac:(lra)) as [G4 B4].
  match type of G4 with fin ?t => set (q := t) in * end.
  assert (Bq : 0 <= dval q <= 267 / 1000) by (clear - B4; lra). assert (P : 0 <= dval q * dval z <= 535 / 1000) by (clear - Bq Bz; nra).
  destruct (dmul_ok q z G4 Fz) as [V F]; [apply small_R with 16; [apply Rabs_le; lra|lra]|].
  pose proof (rnd_slop (dval q * dval z) ltac:(apply Rabs_le; lra)) as E. rewrite <- V in E. apply Rabs_le_inv in E.
  destruct (dadd_ok _ _ F5 F) as [V' F']; [apply small_R with 32; [apply Rabs_le; lra|lra]|].
  pose proof (rnd_slop (dval (dconst 4503869843348138 (-51)) + dval (dmul q z)) ltac:(apply Rabs_le; lra)) as E'. rewrite <- V' in E'. apply Rabs_le_inv in E'.
  split; [exact F'|]. split; [lra|]. intros H. assert (dval q * dval z <= 54 / 1000) by (clear - Bq Bz H; nra). lra.
Qed.
(* exp(-c / z) / sqrt z *)
Lemma exp_inv_le x : 0 < x -> Rtrigo_def.exp (- x) <= / x.
Proof. intros H. rewrite exp_Ropp. apply Rinv_le; [exact H|]. pose proof (exp_ineq1 x ltac:(lra)). lra. Qed.
Lemma exp_m6 : Rtrigo_def.exp (-6) <= 1 / 370.
Proof.
  assert (E1 : 268 / 100 <= Rtrigo_def.exp 1).
  { replace 1 with (1 / 16 + (1/16 + (1/16 + (1/16 + (1/16 + (1/16 + (1/16 + (1/16 + (1/16 + (1/16 + (1/16 + (1/16 + (1/16 + (1/16 + (1/16 + 1/16))))))))))))))) by field.
    rewrite !exp_plus. assert (H0 : 1064 / 1000 <= Rtrigo_def.exp (1 / 16)).
    { replace (1/16) with (1/32 + 1/32) by field. rewrite exp_plus. replace (1/32) with (1/64+1/64) by field. rewrite exp_plus. 
      assert (H : 1 + 1 / 64 <= Rtrigo_def.exp (1 / 64)) by (pose proof (exp_ineq1 (1 / 64) ltac:(lra)); lra). 
      replace (1/64) with (1/128+1/128) in * by field. rewrite exp_plus in *. assert (H2 : 1 + 1 / 128 <= Rtrigo_def.exp (1 / 128)) by (pose proof (exp_ineq1 (1 / 128) ltac:(lra)); lra). 
      replace (1/128) with (1/256+1/256) in * by field. rewrite exp_plus in *. assert (H3 : 1 + 1 / 256 <= Rtrigo_def.exp (1 / 256)) by (pose proof (exp_ineq1 (1 / 256) ltac:(lra)); lra). 
      clear H H2. set (e := Rtrigo_def.exp (1 / 256)) in *. assert (K : 257/256 * (257/256) <= e * e) by nra. set (e2 := e * e) in *.
      assert (K2 : 257/256 * (257/256) * (257/256 * (257/256)) <= e2 * e2) by (apply Rmult_le_compat; lra). set (e4 := e2 * e2) in *. 
      assert (K3 : 257/256 * (257/256) * (257/256 * (257/256)) * (257/256 * (257/256) * (257/256 * (257/256))) <= e4 * e4) by (apply Rmult_le_compat; lra). set (e8 := e4 * e4) in *.
      assert (K4 : 257/256 * (257/256) * (257/256 * (257/256)) * (257/256 * (257/256) * (257/256 * (257/256))) * (257/256 * (257/256) * (257/256 * (257/256)) * (257/256 * (257/256) * (257/256 * (257/256)))) <= e8 * e8) by (apply Rmult_le_compat; lra). lra. }
    set (e := Rtrigo_def.exp (1 / 16)) in *. assert (K : 1132 / 1000 <= e * e) by nra. assert (K2 : 128 / 100 <= (e * e) * (e * e)) by nra. set (e4 := (e * e) * (e * e)) in *.
    assert (K3 : 1638 / 1000 <= e4 * e4) by nra. assert (K4 : 268 / 100 <= (e4 * e4) * (e4 * e4)) by nra. 
    replace (e * (e * (e * (e * (e * (e * (e * (e * (e * (e * (e * (e * (e * (e * (e * e))))))))))))))) with ((e4 * e4) * (e4 * e4)) by (subst e4; ring). lra. }
  rewrite <- (Ropp_involutive (-6)), exp_Ropp. replace (1 / 370) with (/ 370) by field. apply Rinv_le; [lra|].
  replace (- -6) with (1 + (1 + (1 + (1 + (1 + 1))))) by ring. rewrite !exp_plus. set (e := Rtrigo_def.exp 1) in *.
  assert (K : 718 / 100 <= e * e) by nra. assert (K2 : 718 / 100 * (718 / 100) <= (e * e) * (e * e)) by nra. assert (K3 : 718 / 100 * (718 / 100) * (718/100) <= (e * e) * (e * e) * (e * e)) by nra.
  replace (e * (e * (e * (e * (e * e))))) with ((e * e) * (e * e) * (e * e)) by ring. lra.
Qed.
Definition elow (z : double) : double := ddiv (exp (ddiv (dconst (-5556154361041727) (-52)) z)) (dsqrt z).
Lemma elow_ok z : fin z -> bpow radix2 (-54) <= dval z < 2 -> fin (elow z) /\ 0 <= dval (elow z) <= 15 / 10 /\ (dval z <= 1 / 5 -> dval (elow z) <= 61 / 10000).
Proof.
  intros Fz Bz. pose proof (bpow_gt_0 radix2 (-54)) as P54. cstv (-5556154361041727)%Z (-52)%Z Fc Vc (/ 4503599627370496).
  set (c := dconst (-5556154361041727) (-52)) in *.
  assert (Z0 : 0 < dval z) by lra. 
  assert (D : Rabs (dval c / dval z) <= bpow radix2 56).
  { unfold Rdiv. rewrite Rabs_mult, Rabs_inv, (Rabs_pos_eq (dval z)) by lra. replace (bpow radix2 56) with (4 * bpow radix2 54) by (change 4 with (bpow radix2 2); rewrite <- bpow_plus; reflexivity).
    apply Rmult_le_compat; [apply Rabs_pos|apply Rlt_le, Rinv_0_lt_compat; lra|rewrite Vc; apply Rabs_le; lra|]. replace (bpow radix2 54) with (/ bpow radix2 (-54)) by (rewrite <- bpow_opp; reflexivity). apply Rinv_le; lra. }
  destruct (ddiv_ok c z Fc ltac:(lra) ltac:(apply (small_bpow _ 56); [lia|exact D])) as [Vq Fq].
  assert (Q : dval c / dval z <= - (123 / 100) / dval z) by (unfold Rdiv; apply Rmult_le_compat_r; [apply Rlt_le, Rinv_0_lt_compat; lra|rewrite Vc; lra]).
  assert (IZ : / 2 <= / dval z) by (apply Rinv_le; lra).
  assert (Q2 : dval (ddiv c z) <= - (6 / 5) * / dval z).
  { pose proof (rnd_err_abs (dval c / dval z)) as E. rewrite <- Vq in E. assert (A2 : bpow radix2 (-1000) <= / 9007199254740992) by (rewrite <- u_val; apply bpow_le; lia). rewrite u_val in E.
    unfold Rdiv in *. set (w := / dval z) in *. rewrite Vc in *. assert (N : -5556154361041727 * / 4503599627370496 * w < 0) by nra. rewrite (Rabs_left _ N) in E. apply Rabs_le_inv in E. lra. }
  assert (Q3 : dval (ddiv c z) <= 0) by lra.
  destruct (gd_exp _ _ _ G _ Fq Q3) as [Fe Be]. pose proof (XA _ Fq Q3) as Ae.
  set (x := 6 / 5 * / dval z) in *. assert (X0 : 0 < x) by (subst x; lra).
  assert (T1 : Rtrigo_def.exp (dval (ddiv c z)) <= Rtrigo_def.exp (- x)).
  { destruct (Req_dec (dval (ddiv c z)) (- x)) as [->|]; [lra|]. apply Rlt_le, exp_increasing. subst x. lra. }
  pose proof (exp_inv_le x X0) as T2. replace (/ x) with (5 / 6 * dval z) in T2 by (subst x; field; lra).
  destruct (dsqrt_ok z Fz ltac:(lra)) as [Fs Vs]. set (e := exp (ddiv c z)) in *. fold e. set (y := sqrt (dval z)) in *.
  assert (Y0 : 0 < y) by (apply sqrt_lt_R0; exact Z0). assert (YY : y * y = dval z) by (apply sqrt_sqrt; lra).
  assert (YB : bpow radix2 (-27) <= y).
  { apply Rsqr_incr_0_var; [|lra]. unfold Rsqr. rewrite YY, <- bpow_plus. exact (proj1 Bz). }
  change (bpow radix2 (-27)) with (/ 134217728) in YB. assert (Y2 : y <= 1415 / 1000) by nra.
  assert (SB : y * (1 - / 1000000) <= dval (dsqrt z)).
  { rewrite Vs. pose proof (rnd_err_abs y) as E. assert (A2 : bpow radix2 (-1000) <= / 134217728 * / 9007199254740992) by (rewrite <- u_val; change (/ 134217728) with (bpow radix2 (-27)); rewrite <- bpow_plus; apply bpow_le; lia).
    rewrite u_val in E. rewrite (Rabs_pos_eq y) in E by lra. apply Rabs_le_inv in E. lra. }
  set (s := dval (dsqrt z)) in *. assert (S0 : 0 < s) by lra.
  apply Rabs_le_inv in Ae. change (bpow radix2 (-50)) with (/ 1125899906842624) in Ae.
  assert (E1 : dval e <= 5 / 6 * (y * y) + / 1125899906842624) by (rewrite YY; lra).
  assert (R1 : 0 <= dval e / s <= 13 / 10).
  { split; [apply Rmult_le_pos; [lra|apply Rlt_le, Rinv_0_lt_compat; exact S0]|]. apply Rmult_le_reg_r with s; [exact S0|]. unfold Rdiv. rewrite Rmult_assoc, Rinv_l by lra. nra. }
  destruct (ddiv_ok e (dsqrt z) Fe) as [Vr Fr]; [fold s; lra|fold s; apply small_2, Rabs_le; lra|]. fold s in Vr. change (elow z) with (ddiv e (dsqrt z)).
  pose proof (rnd_slop (dval e / s) ltac:(apply Rabs_le; lra)) as E. rewrite <- Vr in E. apply Rabs_le_inv in E.
  split; [exact Fr|]. split; [split; [rewrite Vr; rewrite <- (rnd_id 0 F64_0); apply rnd_mono; lra|lra]|].
  intros H. assert (X6 : 6 <= x). { subst x. assert (5 <= / dval z); [|lra]. replace 5 with (/ (1 / 5)) by field. apply Rinv_le; lra. }
  assert (T3 : Rtrigo_def.exp (- x) <= 6 / 370 * / x).
  { replace (- x) with (- (x - 6) + -6) by ring. rewrite exp_plus. pose proof exp_m6 as M6.
    assert (T4 : Rtrigo_def.exp (- (x - 6)) <= 6 * / x).
    { rewrite exp_Ropp. replace (6 * / x) with (/ (x / 6)) by (field; lra). apply Rinv_le; [lra|]. destruct (Req_dec x 6) as [->|]; [replace (6 - 6) with 0 by ring; rewrite exp_0; lra|]. pose proof (exp_ineq1 (x - 6) ltac:(lra)). lra. }
    pose proof (exp_pos (- (x - 6))). pose proof (exp_pos (-6)). apply Rle_trans with (6 * / x * (1 / 370)); [apply Rmult_le_compat; lra|lra]. }
  replace (/ x) with (5 / 6 * (y * y)) in T3 by (rewrite YY; subst x; field; lra).
  assert (Y3 : y <= 4473 / 10000) by nra.
  assert (R2 : dval e / s <= 605 / 100000); [|lra]. apply Rmult_le_reg_r with s; [exact S0|]. unfold Rdiv. rewrite Rmult_assoc, Rinv_l by lra. 
  apply Rle_trans with (605 / 100000 * (y * (1 - / 1000000))); [|lra]. nra.
Qed.
Lemma inf_low z : fin z -> bpow radix2 (-54) <= dval z < 2 -> fin (AndersonDarlingInf exp z) /\ 0 <= dval (AndersonDarlingInf exp z) <= 4 /\ (dval z <= 1 / 5 -> dval (AndersonDarlingInf exp z) <= 126 / 10000).
Proof.
  intros Fz Bz. pose proof (bpow_gt_0 radix2 (-54)) as P54. destruct (double_of_N_exact 2 ltac:(lia)) as [V2 F2].
  unfold AndersonDarlingInf. replace (dlt z two_) with true by (symmetry; apply dlt_iff; [exact Fz|exact F2|unfold two_; rewrite V2; exact (proj2 Bz)]).
  change (fin (dmul (elow z) (qlow z)) /\ 0 <= dval (dmul (elow z) (qlow z)) <= 4 /\ (dval z <= 1 / 5 -> dval (dmul (elow z) (qlow z)) <= 126 / 10000)).
  destruct (elow_ok z Fz Bz) as (Fe & Be & Ce). destruct (qlow_ok z Fz ltac:(lra)) as (Fq & Bq & Cq).
  assert (P : 0 <= dval (elow z) * dval (qlow z) <= 39 / 10) by nra.
  destruct (dmul_ok _ _ Fe Fq) as [V F]; [apply small_R with 4; [apply Rabs_le; lra|lra]|].
  pose proof (rnd_slop (dval (elow z) * dval (qlow z)) ltac:(apply Rabs_le; lra)) as E. rewrite <- V in E. apply Rabs_le_inv in E.
  split; [exact F|]. split; [split; [rewrite V, <- (rnd_id 0 F64_0); apply rnd_mono; lra|lra]|].
  intros H. specialize (Ce H). specialize (Cq H). assert (dval (elow z) * dval (qlow z) <= 12567 / 1000000) by nra. lra.
Qed.
End Poly.
