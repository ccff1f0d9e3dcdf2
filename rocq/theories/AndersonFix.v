(* The Anderson-Darling test: the p-value for all and for large statistics, and the accuracy of the statistic. *)
From Coq Require Import Reals Lra Lia List.
From Flocq Require Import Core BinarySingleNaN.
From Verif Require Import Base FloatModel FloatLemmas ErrorSpec ResultModel ResultSpec StatsModel StatsProofs CouponFloatProofs DistModel DistSpec DistSeries CorrPearson OtherModel OtherSpec FisherProofs BinomProofs TestsPerm LibInst AndersonProofs AndersonPoly.
Import ListNotations.
Open Scope R_scope.

Definition qhigh (z : double) : double :=
  dsub (dconst 4853078958454446 (-52)) (dmul (dsub (dconst 5194789580181183 (-51)) (dmul (dsub (dconst 7822572408757457 (-54)) (dmul (dsub (dconst 5939923649328514 (-56)) (dmul
    (dsub (dconst 4643967820556380 (-59)) (dmul (dconst 5803345685589025 (-64)) z)) z)) z)) z)) z).
Lemma ab_of z k : fin z -> Rabs (dval z) <= bpow radix2 k -> ab z k. Proof. intros A B. split; assumption. Qed.
Lemma qhigh_ab z : ab z 40 -> ab (qhigh z) 240.
Proof.
  intros Z. unfold qhigh.
  assert (A1 : ab (dsub (dconst 4643967820556380 (-59)) (dmul (dconst 5803345685589025 (-64)) z)) 50).
  { apply ab_sub with 10%Z 45%Z; [apply ab_cst; lia|apply ab_mul with 1%Z 40%Z; [apply ab_cst; lia|exact Z|lia|lia]|lia|lia|lia]. }
  match type of A1 with ab ?t _ => set (q1 := t) in * end.
  assert (A2 : ab (dsub (dconst 5939923649328514 (-56)) (dmul q1 z)) 95).
  { apply ab_sub with 10%Z 90%Z; [apply ab_cst; lia|apply ab_mul with 50%Z 40%Z; [exact A1|exact Z|lia|lia]|lia|lia|lia]. }
  match type of A2 with ab ?t _ => set (q2 := t) in * end.
  assert (A3 : ab (dsub (dconst 7822572408757457 (-54)) (dmul q2 z)) 140).
  { apply ab_sub with 10%Z 135%Z; [apply ab_cst; lia|apply ab_mul with 95%Z 40%Z; [exact A2|exact Z|lia|lia]|lia|lia|lia]. }
  match type of A3 with ab ?t _ => set (q3 := t) in * end.
  assert (A4 : ab (dsub (dconst 5194789580181183 (-51)) (dmul q3 z)) 185).
  { apply ab_sub with 10%Z 180%Z; [apply ab_cst; lia|apply ab_mul with 140%Z 40%Z; [exact A3|exact Z|lia|lia]|lia|lia|lia]. }
  match type of A4 with ab ?t _ => set (q4 := t) in * end.
  apply ab_sub with 10%Z 230%Z; [apply ab_cst; lia|apply ab_mul with 185%Z 40%Z; [exact A4|exact Z|lia|lia]|lia|lia|lia].
Qed.
(* one step: c - q z, bounds by monotonic rounding *)
Lemma step_up c q z C Q : fin c -> fin q -> ab z 40 -> 32 <= dval z -> C <= dval c <= 8 -> -8 <= C -> dval q <= IZR Q * bpow radix2 (-10) -> (-1000000000 < Q < 0)%Z -> Rabs (dval q) <= bpow radix2 200 ->
  forall L, (Z.abs L <= 1000000000000)%Z -> IZR L * bpow radix2 (-10) <= C - 32 * IZR Q * bpow radix2 (-10) -> IZR L * bpow radix2 (-10) <= dval (dsub c (dmul q z)) /\ Rabs (dval (dsub c (dmul q z))) <= bpow radix2 250 /\ fin (dsub c (dmul q z)).
Proof.
  intros Fc Fq [Fz Bz] Z32 Bc BC Bq BQ Aq L HL HC. rewrite Rabs_pos_eq in Bz by lra.
  assert (T : Rabs (dval q * dval z) <= bpow radix2 240).
  { rewrite Rabs_mult. replace (bpow radix2 240) with (bpow radix2 200 * bpow radix2 40) by (rewrite <- bpow_plus; reflexivity). apply Rmult_le_compat; try apply Rabs_pos; [exact Aq|rewrite Rabs_pos_eq by lra; exact Bz]. }
  destruct (dmul_ok q z Fq Fz) as [V F]; [apply (small_bpow _ 240); [lia|exact T]|].
  pose proof (ab_rnd _ 240 ltac:(lia) T) as T'. rewrite <- V in T'.
  pose proof (bpow_gt_0 radix2 (-10)) as P10.
  assert (QN : IZR Q <= -1) by (apply IZR_le; lia).
  assert (M : dval (dmul q z) <= IZR (32 * Q) * bpow radix2 (-10)).
  { rewrite V. rewrite <- (rnd_id (IZR (32 * Q) * bpow radix2 (-10))) by (apply F64_frac; lia). apply rnd_mono. rewrite mult_IZR.
    apply Rle_trans with (IZR Q * bpow radix2 (-10) * dval z); [apply Rmult_le_compat_r; lra|]. assert (K : IZR Q * bpow radix2 (-10) <= 0) by (clear - QN P10; nra). replace (IZR 32 * IZR Q * bpow radix2 (-10)) with (IZR Q * bpow radix2 (-10) * 32) by ring. apply Rmult_le_compat_neg_l; lra. }
  rewrite mult_IZR in M.
  assert (B8 : 8 <= bpow radix2 240) by (change 8 with (bpow radix2 3); apply bpow_le; lia).
  assert (D : Rabs (dval c - dval (dmul q z)) <= bpow radix2 241).
  { replace (bpow radix2 241) with (bpow radix2 240 + bpow radix2 240) by (replace 241%Z with (240 + 1)%Z by lia; rewrite bpow_plus; change (bpow radix2 1) with 2; ring). apply Rabs_le_inv in T'. apply Rabs_le. lra. }
  destruct (dsub_ok c _ Fc F) as [V' F']; [apply (small_bpow _ 241); [lia|exact D]|].
  split; [|split; [|exact F']].
  - rewrite V', <- (rnd_id (IZR L * bpow radix2 (-10))) by (apply F64_frac; lia). apply rnd_mono. lra.
  - apply Rle_trans with (bpow radix2 241); [rewrite V'; apply ab_rnd; [lia|exact D]|apply bpow_le; lia].
Qed.
Lemma step_down c q z C Q : fin c -> fin q -> ab z 40 -> 32 <= dval z -> -8 <= dval c <= C -> C <= 8 -> IZR Q * bpow radix2 (-10) <= dval q -> (0 < Q < 1000000000)%Z -> Rabs (dval q) <= bpow radix2 200 ->
  forall L, (Z.abs L <= 1000000000000)%Z -> C - 32 * IZR Q * bpow radix2 (-10) <= IZR L * bpow radix2 (-10) -> dval (dsub c (dmul q z)) <= IZR L * bpow radix2 (-10) /\ Rabs (dval (dsub c (dmul q z))) <= bpow radix2 250 /\ fin (dsub c (dmul q z)).
Proof.
  intros Fc Fq [Fz Bz] Z32 Bc BC Bq BQ Aq L HL HC. rewrite Rabs_pos_eq in Bz by lra.
  assert (T : Rabs (dval q * dval z) <= bpow radix2 240).
  { rewrite Rabs_mult. replace (bpow radix2 240) with (bpow radix2 200 * bpow radix2 40) by (rewrite <- bpow_plus; reflexivity). apply Rmult_le_compat; try apply Rabs_pos; [exact Aq|rewrite Rabs_pos_eq by lra; exact Bz]. }
  destruct (dmul_ok q z Fq Fz) as [V F]; [apply (small_bpow _ 240); [lia|exact T]|].
  pose proof (ab_rnd _ 240 ltac:(lia) T) as T'. rewrite <- V in T'.
  pose proof (bpow_gt_0 radix2 (-10)) as P10.
  assert (QN : 1 <= IZR Q) by (apply IZR_le; lia).
  assert (M : IZR (32 * Q) * bpow radix2 (-10) <= dval (dmul q z)).
  { rewrite V. rewrite <- (rnd_id (IZR (32 * Q) * bpow radix2 (-10))) by (apply F64_frac; lia). apply rnd_mono. rewrite mult_IZR.
    apply Rle_trans with (IZR Q * bpow radix2 (-10) * dval z); [|apply Rmult_le_compat_r; lra]. assert (K : 0 <= IZR Q * bpow radix2 (-10)) by (clear - QN P10; nra). replace (IZR 32 * IZR Q * bpow radix2 (-10)) with (IZR Q * bpow radix2 (-10) * 32) by ring. apply Rmult_le_compat_l; lra. }
  rewrite mult_IZR in M.
  assert (B8 : 8 <= bpow radix2 240) by (change 8 with (bpow radix2 3); apply bpow_le; lia).
  assert (D : Rabs (dval c - dval (dmul q z)) <= bpow radix2 241).
  { replace (bpow radix2 241) with (bpow radix2 240 + bpow radix2 240) by (replace 241%Z with (240 + 1)%Z by lia; rewrite bpow_plus; change (bpow radix2 1) with 2; ring). apply Rabs_le_inv in T'. apply Rabs_le. lra. }
  destruct (dsub_ok c _ Fc F) as [V' F']; [apply (small_bpow _ 241); [lia|exact D]|].
  split; [|split; [|exact F']].
  - rewrite V', <- (rnd_id (IZR L * bpow radix2 (-10))) by (apply F64_frac; lia). apply rnd_mono. lra.
  - apply Rle_trans with (bpow radix2 241); [rewrite V'; apply ab_rnd; [lia|exact D]|apply bpow_le; lia].
Qed.
(* the polynomial is below -4000 from 32 on *)
Lemma qhigh_low z : ab z 40 -> 32 <= dval z -> dval (qhigh z) <= -4000.
Proof.
  intros Z Z32. assert (Fz : fin z) by apply Z. unfold qhigh.
  cstv 5803345685589025%Z (-64)%Z F0 V0 (/ 18446744073709551616).
  cstv 4643967820556380%Z (-59)%Z F1 V1 (/ 576460752303423488).
  cstv 5939923649328514%Z (-56)%Z F2 V2 (/ 72057594037927936).
  cstv 7822572408757457%Z (-54)%Z F3 V3 (/ 18014398509481984).
  cstv 5194789580181183%Z (-51)%Z F4 V4 (/ 2251799813685248).
  cstv 4853078958454446%Z (-52)%Z F5 V5 (/ 4503599627370496).
  set (c0 := dconst 5803345685589025 (-64)) in *. set (c1 := dconst 4643967820556380 (-59)) in *. set (c2 := dconst 5939923649328514 (-56)) in *. set (c3 := dconst 7822572408757457 (-54)) in *. set (c4 := dconst 5194789580181183 (-51)) in *. set (c5 := dconst 4853078958454446 (-52)) in *.
  assert (B10 : bpow radix2 (-10) = / 1024) by reflexivity.
  (* q1 <= -2/1024 *)
  assert (Q1 : fin (dsub c1 (dmul c0 z)) /\ dval (dsub c1 (dmul c0 z)) <= IZR (-2) * bpow radix2 (-10) /\ Rabs (dval (dsub c1 (dmul c0 z))) <= bpow radix2 60).
  { destruct Z as [_ Bz]. rewrite Rabs_pos_eq in Bz by lra. change (bpow radix2 40) with 1099511627776 in Bz.
    assert (P : 10067 / 1000000 <= dval c0 * dval z <= 1099511627776) by (rewrite V0; lra).
    destruct (dmul_ok c0 z F0 Fz) as [V F]; [apply small_R with 1099511627776; [apply Rabs_le; lra|lra]|].
    assert (M : IZR 10550 * bpow radix2 (-20) <= dval (dmul c0 z) <= 1099511627776).
    { rewrite V. apply rnd_between; [apply F64_frac; lia|apply (F64_Z 1099511627776); lia|]. change (bpow radix2 (-20)) with (/ 1048576). lra. }
    change (bpow radix2 (-20)) with (/ 1048576) in M.
    destruct (dsub_ok c1 _ F1 F) as [V' F']; [apply small_R with 2199023255552; [apply Rabs_le; lra|lra]|]. split; [exact F'|].
    assert (R : IZR (-2199023255552) <= dval (dsub c1 (dmul c0 z)) <= -2100 * bpow radix2 (-20)).
    { rewrite V'. apply rnd_between; [apply (F64_Z (-2199023255552)); lia|apply (F64_frac (-2100)); lia|]. change (bpow radix2 (-20)) with (/ 1048576). lra. }
    change (bpow radix2 (-20)) with (/ 1048576) in R. split; [rewrite B10; lra|]. change (bpow radix2 60) with 1152921504606846976. apply Rabs_le. lra. }
  destruct Q1 as (G1 & U1 & A1). set (q1 := dsub c1 (dmul c0 z)) in *.
  destruct (ab_of q1 60 G1 A1) as [_ _].
  assert (W : forall q k, Rabs q <= bpow radix2 k -> (k <= 200)%Z -> Rabs q <= bpow radix2 200) by (intros q k H1 H2; apply Rle_trans with (1 := H1), bpow_le; exact H2).
  destruct (step_up c2 q1 z (82 / 1000) (-2) F2 G1 Z Z32 ltac:(lra) ltac:(lra) U1 ltac:(lia) (W _ _ A1 ltac:(lia)) 140) as (U2 & _ & G2); [lia|rewrite B10; lra|].
  assert (A2 : ab (dsub c2 (dmul q1 z)) 105) by (apply ab_sub with 10%Z 102%Z; [apply ab_cst; lia|apply ab_mul with 60%Z 40%Z; [exact (ab_of _ _ G1 A1)|exact Z|lia|lia]|lia|lia|lia]).
  set (q2 := dsub c2 (dmul q1 z)) in *.
  destruct (step_down c3 q2 z (435 / 1000) 140 F3 G2 Z Z32 ltac:(lra) ltac:(lra) U2 ltac:(lia) (W _ _ (proj2 A2) ltac:(lia)) (-4000)) as (U3 & _ & G3); [lia|rewrite B10; lra|].
  assert (A3 : ab (dsub c3 (dmul q2 z)) 150) by (apply ab_sub with 10%Z 147%Z; [apply ab_cst; lia|apply ab_mul with 105%Z 40%Z; [exact A2|exact Z|lia|lia]|lia|lia|lia]).
  set (q3 := dsub c3 (dmul q2 z)) in *.
  destruct (step_up c4 q3 z 2 (-4000) F4 G3 Z Z32 ltac:(lra) ltac:(lra) U3 ltac:(lia) (W _ _ (proj2 A3) ltac:(lia)) 130000) as (U4 & _ & G4); [lia|rewrite B10; lra|].
  assert (A4 : ab (dsub c4 (dmul q3 z)) 195) by (apply ab_sub with 10%Z 192%Z; [apply ab_cst; lia|apply ab_mul with 150%Z 40%Z; [exact A3|exact Z|lia|lia]|lia|lia|lia]).
  set (q4 := dsub c4 (dmul q3 z)) in *.
  destruct (step_down c5 q4 z 2 130000 F5 G4 Z Z32 ltac:(lra) ltac:(lra) U4 ltac:(lia) (W _ _ (proj2 A4) ltac:(lia)) (-4096000)) as (U5 & _ & _); [lia|rewrite B10; lra|].
  rewrite B10 in U5. lra.
Qed.

Section Fix.
Variables (log exp erfc : double -> double).
Hypothesis G : good_dist log exp erfc.
Hypothesis X : exp_nonneg exp.
Hypothesis XA : accurate_exp exp.
Lemma exp_neg x : nonneg x -> fin (exp (dneg x)) /\ 0 <= dval (exp (dneg x)) <= 1.
Proof.
  intros N. destruct (nonneg_cases x N) as [->|[F B]].
  - change (dneg (B754_infinity false)) with (B754_infinity true : double). destruct (gd_exp_inf _ _ _ G) as [A B]. split; [exact A|lra].
  - destruct (neg_ok x F) as [Fn Vn]. apply (gd_exp _ _ _ G); [exact Fn|lra].
Qed.
Lemma inf_high z : ab z 40 -> 2 <= dval z -> fin (AndersonDarlingInf exp z) /\ 0 <= dval (AndersonDarlingInf exp z) <= 1 /\ (32 <= dval z -> 1 - bpow radix2 (-47) <= dval (AndersonDarlingInf exp z)).
Proof.
  intros Z Z2. assert (Fz : fin z) by apply Z. destruct (double_of_N_exact 2 ltac:(lia)) as [V2 F2].
  unfold AndersonDarlingInf. replace (dlt z two_) with false by (symmetry; apply dlt_false; [exact Fz|exact F2|unfold two_; rewrite V2; exact Z2]).
  change (fin (exp (dneg (exp (qhigh z)))) /\ 0 <= dval (exp (dneg (exp (qhigh z)))) <= 1 /\ (32 <= dval z -> 1 - bpow radix2 (-47) <= dval (exp (dneg (exp (qhigh z)))))).
  destruct (qhigh_ab z Z) as [Fq _]. destruct (X (qhigh z) (fin_not_nan _ Fq)) as [N1 N2].
  destruct (exp_neg (exp (qhigh z)) (conj N1 N2)) as [Fe Be]. split; [exact Fe|]. split; [exact Be|]. intros Z32.
  pose proof (qhigh_low z Z Z32) as L. destruct (gd_exp _ _ _ G (qhigh z) Fq ltac:(lra)) as [F1 B1]. pose proof (XA (qhigh z) Fq ltac:(lra)) as E1.
  destruct (neg_ok _ F1) as [Fn Vn]. pose proof (XA _ Fn ltac:(lra)) as E2.
  assert (H : Rtrigo_def.exp (dval (qhigh z)) <= bpow radix2 (-50)).
  { apply Rle_trans with (Rtrigo_def.exp (- 4000)); [destruct (Req_dec (dval (qhigh z)) (-4000)) as [->|]; [lra|apply Rlt_le, exp_increasing; lra]|].
    replace (-4000) with (-50 * 1 + -3950) by ring. rewrite exp_plus. 
    assert (A : Rtrigo_def.exp (-3950) <= 1) by (rewrite <- exp_0; apply Rlt_le, exp_increasing; lra). pose proof (exp_pos (-3950)).
    assert (A2 : Rtrigo_def.exp (-50 * 1) <= bpow radix2 (-50)).
    { rewrite (bpow_exp radix2). replace (IZR radix2) with 2 by reflexivity. apply Rlt_le, exp_increasing. pose proof ln2_upper. lra. }
    pose proof (exp_pos (-50 * 1)). nra. }
  pose proof (exp_ineq1_le (dval (dneg (exp (qhigh z))))) as I. rewrite Vn in *. apply Rabs_le_inv in E1, E2.
  replace (bpow radix2 (-47)) with (8 * bpow radix2 (-50)) by (change 8 with (bpow radix2 3); rewrite <- bpow_plus; reflexivity). pose proof (bpow_gt_0 radix2 (-50)). lra.
Qed.
End Fix.
