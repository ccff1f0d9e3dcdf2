(* _kf_gammaq for very large arguments: one round of the loop, no overflow. *)
From Coq Require Import Reals Lra Lia Psatz ZArith List.
From Flocq Require Import Core BinarySingleNaN Relative.
From Verif Require Import Base FloatModel FloatLemmas ResultModel CollectModel StatsModel StatsProofs CouponFloatProofs StatFormulas DistModel DistSpec DistReal DistReal2 DistSeries DistLentz DistGamma.
Open Scope R_scope.

Notation b1023 := (bpow radix2 1023).
(* results up to 3 * 2^1022 do not overflow *)
Definition big (a : R) : Prop := Rabs a <= 3 / 2 * b1023.
Lemma F64_big k : (Z.abs k <= 2 ^ 53)%Z -> F64 (IZR k / 4 * b1023).
Proof.
  intros H. replace (IZR k / 4 * b1023) with (F2R (Float radix2 k 1021)); [apply F64_F2R; [exact H|lia]|].
  unfold F2R. cbn [Fnum Fexp]. change 1021%Z with (1023 + -2)%Z. rewrite bpow_plus. change (bpow radix2 (-2)) with (/ 4). lra.
Qed.
Lemma big_no_overflow a : big a -> Rlt_bool (Rabs (rnd a)) (bpow radix2 1024) = true.
Proof.
  intros H. apply Rlt_bool_true. change 1024%Z with (1023 + 1)%Z. rewrite bpow_plus. change (bpow radix2 1) with 2. pose proof (bpow_gt_0 radix2 1023) as P.
  apply Rle_lt_trans with (3 / 2 * b1023); [|lra]. unfold big in H. replace (3 / 2 * b1023) with (IZR 6 / 4 * b1023) in * by lra.
  apply Rabs_le. apply Rabs_le_inv in H. apply rnd_between; [apply F64_opp| |exact H]; apply F64_big; lia.
Qed.
Lemma dadd_big x y : fin x -> fin y -> big (dval x + dval y) -> dval (dadd x y) = rnd (dval x + dval y) /\ fin (dadd x y).
Proof.
  intros Hx Hy Hs. pose proof (Bplus_correct 53 1024 _ _ mode_NE x y Hx Hy) as H. cbn [round_mode] in H.
  fold (dval x) (dval y) (rnd (dval x + dval y)) in H. rewrite big_no_overflow in H by exact Hs. split; apply H.
Qed.
Lemma dsub_big x y : fin x -> fin y -> big (dval x - dval y) -> dval (dsub x y) = rnd (dval x - dval y) /\ fin (dsub x y).
Proof.
  intros Hx Hy Hs. pose proof (Bminus_correct 53 1024 _ _ mode_NE x y Hx Hy) as H. cbn [round_mode] in H.
  fold (dval x) (dval y) (rnd (dval x - dval y)) in H. rewrite big_no_overflow in H by exact Hs. split; apply H.
Qed.
Lemma dmul_big x y : fin x -> fin y -> big (dval x * dval y) -> dval (dmul x y) = rnd (dval x * dval y) /\ fin (dmul x y).
Proof.
  intros Hx Hy Hs. pose proof (Bmult_correct 53 1024 _ _ mode_NE x y) as H. cbn [round_mode] in H.
  fold (dval x) (dval y) (rnd (dval x * dval y)) in H.
  rewrite big_no_overflow in H by exact Hs. split; [apply H|]. destruct H as (_ & H & _). unfold fin in *. unfold dmul. rewrite H, Hx, Hy. reflexivity.
Qed.
(* rounding, including subnormal results *)
Lemma rnd_sub x : Rabs (rnd x - x) <= u * Rabs x + bpow radix2 (-1075).
Proof.
  destruct (error_N_FLT radix2 (3 - 1024 - 53) 53 ltac:(lia) (fun x => negb (Z.even x)) x) as (e & t & He & Ht & _ & E).
  unfold rnd. change (SpecFloat.fexp 53 1024) with (FLT_exp (3 - 1024 - 53) 53). rewrite E.
  replace (x * (1 + e) + t - x) with (e * x + t) by ring. apply Rle_trans with (1 := Rabs_triang _ _). rewrite Rabs_mult.
  assert (E1 : / 2 * bpow radix2 (- (53) + 1) = u) by (change (- (53) + 1)%Z with (-53 + 1)%Z; rewrite bpow_plus; change (bpow radix2 1) with 2; lra).
  assert (E2 : / 2 * bpow radix2 (3 - 1024 - 53) = bpow radix2 (-1075)) by (change (3 - 1024 - 53)%Z with (-1075 + 1)%Z; rewrite bpow_plus; change (bpow radix2 1) with 2; lra).
  rewrite E1 in He. rewrite E2 in Ht. assert (Rabs e * Rabs x <= u * Rabs x) by (apply Rmult_le_compat_r; [apply Rabs_pos|exact He]). lra.
Qed.

Section Large.
Variables (s z : double) (m : Z).
Hypothesis Fs : fin s.
Hypothesis Fz : fin z.
Hypothesis Hm : (1 <= m <= 1100000)%Z.
Hypothesis Vs : dval s = IZR m / 2.
Hypothesis Vz : 17000000000 <= dval z <= b1023.
Notation sR := (dval s).
Notation zR := (dval z).
Lemma sl_rng : / 2 <= sR <= 550000.
Proof. rewrite Vs. assert (1 <= IZR m <= 1100000) by (split; apply IZR_le; lia). lra. Qed.
Lemma b1023_large : 1000000000000000000000 <= b1023.
Proof. apply Rle_trans with (bpow radix2 70); [|apply bpow_le; lia]. change (bpow radix2 70) with 1180591620717411303424. lra. Qed.
Lemma u_tiny : 0 < u <= / 1000000000000000. Proof. rewrite u_val. lra. Qed.
(* k + z - s, rounded twice *)
Lemma lin_ok k : (k <= 100)%N -> let t := dsub (dadd (double_of_N k) z) s in fin t /\ (1 - / 1000) * zR <= dval t <= (1 + / 1000) * zR.
Proof.
  intros Hk t. destruct (double_of_N_INR k ltac:(lia)) as [Vk Fk]. pose proof sl_rng as S. pose proof b1023_large as B. pose proof u_tiny as U.
  assert (K : 0 <= IZR (Z.of_N k) <= 100) by (split; apply IZR_le; lia).
  destruct (dadd_big (double_of_N k) z Fk Fz) as [Va Fa]; [rewrite Vk; unfold big; apply Rabs_le; lra|].
  pose proof (rnd_plus_err _ _ (dval_format (double_of_N k)) (dval_format z)) as Ea. rewrite <- Va, Vk in Ea. unfold approx in Ea.
  set (a := dadd (double_of_N k) z) in *. rewrite (Rabs_pos_eq (IZR (Z.of_N k) + zR)) in Ea by lra.
  assert (u * (IZR (Z.of_N k) + zR) <= / 1000000000000000 * (IZR (Z.of_N k) + zR)) by (apply Rmult_le_compat_r; lra). apply Rabs_le_inv in Ea.
  assert (D : (1 - / 2000) * zR <= dval a - sR <= (1 + / 2000) * zR) by lra.
  destruct (dsub_big a s Fa Fs) as [Vt Ft]; [unfold big; apply Rabs_le; lra|]. fold t in Vt, Ft. split; [exact Ft|].
  pose proof (rnd_minus_err _ _ (dval_format a) (dval_format s)) as Et. rewrite <- Vt in Et. unfold approx in Et. rewrite (Rabs_pos_eq (dval a - sR)) in Et by lra.
  assert (u * (dval a - sR) <= / 1000000000000000 * (dval a - sR)) by (apply Rmult_le_compat_r; lra). apply Rabs_le_inv in Et. lra.
Qed.
Lemma b_eta b : 0 < b <= 3 / 2 * b1023 -> b * bpow radix2 (-1075) <= / 2000000000000000.
Proof.
  intros [P H]. pose proof (bpow_gt_0 radix2 (-1075)) as Q. apply Rle_trans with (3 / 2 * b1023 * bpow radix2 (-1075)); [apply Rmult_le_compat_r; lra|].
  rewrite Rmult_assoc, <- bpow_plus. change (bpow radix2 (1023 + -1075)) with (/ 4503599627370496). lra.
Qed.
Theorem large_value : let v := gammaq_loop s z (N.to_nat (max_iterations - 1)) 1 (dsub (dadd d1 z) s) d0 (dsub (dadd d1 z) s) in
  fin v /\ 1 <= dval v <= 3 / 2 * b1023.
Proof.
  intros v. pose proof sl_rng as S. pose proof b1023_large as B. pose proof u_tiny as U. destruct d1_val as [V1 F1]. destruct d0_val as [V0 F0].
  destruct (lin_ok 1 ltac:(lia)) as [Ff Bf]. destruct (lin_ok 3 ltac:(lia)) as [Fb Bb]. change (double_of_N 1) with d1 in *.
  set (f := dsub (dadd d1 z) s) in *. unfold v.
  destruct (N.to_nat (max_iterations - 1)) as [|left] eqn:EL; [exfalso; unfold max_iterations in EL; lia|].
  cbn [gammaq_loop]. change (2 * 1 + 1)%N with 3%N. set (b := dsub (dadd (double_of_N 3) z) s) in *.
  change (double_of_N 1) with d1.
  assert (Ha : fin (dmul d1 (dsub s d1)) /\ dval (dmul d1 (dsub s d1)) = sR - 1).
  { destruct (dsub_ok s d1 Fs F1) as [Vd Fd]; [rewrite V1; apply (small_R _ 1000000); [apply Rabs_le; lra|lra]|].
    assert (E1 : sR - 1 = IZR (m - 2) / 2) by (rewrite Vs, minus_IZR; lra). rewrite V1, E1, rnd_id in Vd by (apply F64_half; lia).
    destruct (dmul_ok d1 (dsub s d1) F1 Fd) as [Vm Fm]; [rewrite V1, Vd, <- E1; apply (small_R _ 1000000); [apply Rabs_le; lra|lra]|].
    split; [exact Fm|]. rewrite Vm, V1, Vd, Rmult_1_l, rnd_id by (apply F64_half; lia). symmetry; exact E1. }
  destruct Ha as [Fa Va]. set (a := dmul d1 (dsub s d1)) in *.
  (* D *)
  destruct (dmul_ok a d0 Fa F0) as [Vad Fad]; [rewrite V0, Rmult_0_r; apply (small_R _ 1); [rewrite Rabs_R0; lra|lra]|].
  rewrite V0, Rmult_0_r, rnd_id in Vad by apply F64_0.
  destruct (dadd_big b (dmul a d0) Fb Fad) as [VD FD]; [rewrite Vad, Rplus_0_r; unfold big; apply Rabs_le; lra|].
  rewrite Vad, Rplus_0_r, rnd_id in VD by apply dval_format.
  rewrite (tiny_ok (dadd b (dmul a d0)) FD) by lra. set (E := dadd b (dmul a d0)) in *.
  (* C *)
  assert (Qf : Rabs ((sR - 1) / dval f) <= / 30000).
  { assert (I : 0 < / dval f <= / 16900000000) by (split; [apply Rinv_0_lt_compat; lra|apply Rinv_le_contravar; lra]).
    unfold Rdiv. rewrite Rabs_mult, (Rabs_pos_eq (/ dval f)) by lra. apply Rle_trans with (550000 * / 16900000000); [|lra].
    apply Rmult_le_compat; try apply Rabs_pos; try lra. apply Rabs_le. lra. }
  destruct (ddiv_ok a f Fa) as [Vq Fq]; [lra|rewrite Va; apply (small_R _ 1); lra|]. rewrite Va in Vq.
  assert (Bq : Rabs (dval (ddiv a f)) <= / 16384).
  { rewrite Vq. replace (/ 16384) with (bpow radix2 (-14)) by reflexivity. apply Rabs_le. apply Rabs_le_inv in Qf.
    apply rnd_between; [apply F64_opp, F64_bpow; lia|apply F64_bpow; lia|change (bpow radix2 (-14)) with (/ 16384); lra]. }
  set (q := ddiv a f) in *. apply Rabs_le_inv in Bq.
  destruct (dadd_big b q Fb Fq) as [VC FC]; [unfold big; apply Rabs_le; lra|].
  pose proof (rnd_plus_err _ _ (dval_format b) (dval_format q)) as EC. rewrite <- VC in EC. unfold approx in EC. set (C := dadd b q) in *.
  rewrite (Rabs_pos_eq (dval b + dval q)) in EC by lra.
  assert (UB : u * (dval b + dval q) <= / 9000000000000000 * (dval b + dval q)) by (apply Rmult_le_compat_r; [lra|rewrite u_val; lra]).
  apply Rabs_le_inv in EC.
  (* |C - b| relative to b *)
  assert (CB : Rabs (dval C - dval b) <= 40 / 10000000000000000 * dval b) by (apply Rabs_le; lra).
  rewrite (tiny_ok C FC) by (apply Rabs_le_inv in CB; lra).
  (* 1 / D *)
  assert (IE : 0 < / dval b <= 1) by (split; [apply Rinv_0_lt_compat; lra|rewrite <- Rinv_1; apply Rinv_le_contravar; lra]).
  assert (W : dval d1 / dval E = / dval b) by (rewrite V1, VD; unfold Rdiv; ring).
  destruct (ddiv_ok d1 E F1) as [Vi Fi]; [rewrite VD; lra|rewrite W; apply (small_R _ 1); [apply Rabs_le; lra|lra]|]. rewrite W in Vi.
  pose proof (rnd_sub (/ dval b)) as Ei. rewrite <- Vi, (Rabs_pos_eq (/ dval b)) in Ei by lra. set (D := ddiv d1 E) in *.
  assert (Eta : dval b * bpow radix2 (-1075) <= / 2000000000000000) by (apply b_eta; lra).
  assert (BD : Rabs (dval b * dval D - 1) <= / 1600000000000000).
  { replace (dval b * dval D - 1) with (dval b * (dval D - / dval b)) by (field; lra). rewrite Rabs_mult, (Rabs_pos_eq (dval b)) by lra.
    apply Rle_trans with (dval b * (u * / dval b + bpow radix2 (-1075))); [apply Rmult_le_compat_l; lra|].
    replace (dval b * (u * / dval b + bpow radix2 (-1075))) with (u + dval b * bpow radix2 (-1075)) by (field; lra). rewrite u_val. lra. }
  assert (CD : Rabs (dval C * dval D - 1) <= 48 / 10000000000000000).
  { set (r := dval C / dval b - 1). assert (Er : dval C = dval b * (1 + r)) by (unfold r; field; lra).
    assert (Br : Rabs r <= 40 / 10000000000000000).
    { unfold r. replace (dval C / dval b - 1) with ((dval C - dval b) * / dval b) by (field; lra). rewrite Rabs_mult, (Rabs_pos_eq (/ dval b)) by lra.
      apply Rmult_le_reg_r with (dval b); [lra|]. rewrite Rmult_assoc, Rinv_l by lra. lra. }
    rewrite Er. replace (dval b * (1 + r) * dval D - 1) with ((dval b * dval D - 1) * (1 + r) + r) by ring.
    apply Rle_trans with (1 := Rabs_triang _ _). rewrite Rabs_mult.
    assert (Rabs (1 + r) <= 1 + / 1000) by (apply Rabs_le_inv in Br; apply Rabs_le; lra).
    assert (Rabs (dval b * dval D - 1) * Rabs (1 + r) <= / 1600000000000000 * (1 + / 1000)) by (apply Rmult_le_compat; try apply Rabs_pos; lra). lra. }
  pose proof (Rabs_le_inv _ _ CD) as CD'.
  destruct (dmul_ok C D FC Fi) as [Vd Fd]; [apply (small_R _ 2); [apply Rabs_le; lra|lra]|].
  assert (Dd : Rabs (dval (dmul C D) - 1) <= 60 / 10000000000000000).
  { assert (A : approx u (rnd (dval C * dval D)) (dval C * dval D)) by (apply rnd_err; right; pose proof tau_le; rewrite Rabs_pos_eq; lra).
    rewrite <- Vd in A. unfold approx in A. rewrite (Rabs_pos_eq (dval C * dval D)) in A by lra.
    assert (u * (dval C * dval D) <= / 9000000000000000 * (dval C * dval D)) by (apply Rmult_le_compat_r; [lra|rewrite u_val; lra]).
    apply Rabs_le_inv in A. apply Rabs_le. lra. }
  set (d := dmul C D) in *. pose proof (Rabs_le_inv _ _ Dd) as Dd'.
  destruct (dsub_ok d d1 Fd F1) as [Vs1 Fs1]; [apply (small_R _ 2); [rewrite V1; apply Rabs_le; lra|lra]|]. rewrite V1 in Vs1.
  assert (ST : dlt (dabs (dsub d d1)) kf_gamma_eps = true).
  { unfold kf_gamma_eps. assert (EK : / 101000000000000 <= F2R (Float radix2 6338253001141147 (-99)) <= 1) by (unfold F2R; cbn; lra).
    destruct (dconst_ok 6338253001141147 (-99)) as [V F]; [apply (small_R _ 1); [apply Rabs_le; lra|lra]|]. rewrite rnd_id in V by (apply F64_F2R; lia).
    apply dlt_iff; [apply dabs_fin; exact Fs1|exact F|]. rewrite dabs_val, V, Vs1.
    pose proof (rnd_minus_err _ _ (dval_format d) (dval_format d1)) as A. rewrite V1 in A. unfold approx in A.
    set (x := rnd (dval d - 1)) in *.
    assert (u * Rabs (dval d - 1) <= / 10 * Rabs (dval d - 1)) by (apply Rmult_le_compat_r; [apply Rabs_pos|lra]).
    assert (Rabs x <= Rabs (x - (dval d - 1)) + Rabs (dval d - 1)) by (replace x with ((x - (dval d - 1)) + (dval d - 1)) at 1 by ring; apply Rabs_triang). lra. }
  rewrite ST.
  assert (FDb : (1 - / 500) * zR <= dval f * dval d <= (1 + / 500) * zR).
  { split; [apply Rle_trans with ((1 - / 1000) * zR * (1 - / 1000000)); [lra|apply Rmult_le_compat; lra]|apply Rle_trans with ((1 + / 1000) * zR * (1 + / 1000000)); [apply Rmult_le_compat; lra|lra]]. }
  destruct (dmul_big f d Ff Fd) as [Vv Fv]; [unfold big; apply Rabs_le; lra|]. split; [exact Fv|]. rewrite Vv.
  replace (3 / 2 * b1023) with (IZR 6 / 4 * b1023) by lra. apply rnd_between; [apply F64_1|apply F64_big; lia|lra].
Qed.
End Large.
