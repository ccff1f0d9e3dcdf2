(* The series of _kf_gammap in floating point: the sum is at most what the ratios allow. *)
From Coq Require Import Reals Lra Lia Psatz ZArith List.
From Flocq Require Import Core BinarySingleNaN.
From Verif Require Import Base FloatModel FloatLemmas ResultModel CollectModel StatsModel StatsProofs CouponFloatProofs StatFormulas DistModel DistReal DistReal2.
Open Scope R_scope.

Notation tau := (bpow radix2 (-1000)).
Lemma tau_pos : 0 < tau. Proof. apply bpow_gt_0. Qed.
Lemma tau_small : tau <= u * / 1267650600228229401496703205376.
Proof.
  replace (/ 1267650600228229401496703205376) with (bpow radix2 (-100)) by reflexivity.
  rewrite <- bpow_plus. apply bpow_le. lia.
Qed.
Lemma rnd_abs a : Rabs (rnd a - a) <= u * Rabs a + tau.
Proof.
  destruct (Rle_or_lt 0 a) as [P|P].
  - rewrite (Rabs_pos_eq a P). now apply rnd_err_any.
  - rewrite (Rabs_left a P). replace (rnd a - a) with (- (rnd (- a) - - a)) by (rewrite rnd_opp; ring). rewrite Rabs_Ropp.
    apply rnd_err_any. lra.
Qed.
(* half-integers are exact *)
Lemma F64_half m : (Z.abs m <= 2 ^ 53)%Z -> F64 (IZR m / 2).
Proof. intros H. replace (IZR m / 2) with (F2R (Float radix2 m (-1))) by (unfold F2R; cbn; lra). apply F64_F2R; [exact H|lia]. Qed.
Lemma small_R a c : Rabs a <= c -> c <= 1606938044258990275541962092341162602522202993782792835301376 -> small a.
Proof. intros H1 H2. apply small_bpow with 200%Z; [lia|]. change (bpow radix2 200) with 1606938044258990275541962092341162602522202993782792835301376. lra. Qed.
Lemma double_of_N_INR k : (k <= 1048576)%N -> dval (double_of_N k) = IZR (Z.of_N k) /\ fin (double_of_N k).
Proof. intros H. apply double_of_N_exact. lia. Qed.

(* one round of the loop *)
Lemma series_algebra (X0 X1 A A1 rr w w1 qq v t : R) :
  0 <= X0 <= 1 -> 0 <= X1 -> 1 <= A -> 0 <= rr -> 0 <= w -> 0 <= w1 <= 10000 -> 0 < v -> v <= / 1000000000 -> 0 < t -> t <= v / 100000 ->
  qq <= rr * (1 + v) + t -> 0 <= qq -> X1 <= X0 * qq * (1 + v) + t -> A1 <= (1 + v) * (A + X1) -> rr * (1 + w1) <= w ->
  A1 + X1 * w1 <= (1 + 6 * v) * (A + X0 * w).
Proof.
  intros HX0 HX1 HA Hr Hw Hw1 Hv Hv1 Ht Ht1 Hq Hq0 H1 H2 H3.
  assert (B1 : X1 <= (1 + v) * (1 + v) * (X0 * rr) + 3 * t).
  { assert (E1 : X0 * qq <= X0 * (rr * (1 + v) + t)) by (apply Rmult_le_compat_l; lra).
    assert (E2 : X0 * qq * (1 + v) <= X0 * (rr * (1 + v) + t) * (1 + v)) by (apply Rmult_le_compat_r; lra).
    assert (E3 : X0 * t <= 1 * t) by (apply Rmult_le_compat_r; lra).
    assert (E4 : X0 * t * (1 + v) <= 1 * t * 2) by (apply Rmult_le_compat; try lra; apply Rmult_le_pos; lra). lra. }
  assert (V2 : 0 <= v * v <= v) by (split; [apply Rmult_le_pos; lra|]; apply Rle_trans with (v * 1); [apply Rmult_le_compat_l; lra|lra]).
  assert (G : 0 <= (1 + v) * (1 + v)) by (apply Rmult_le_pos; lra).
  assert (B2 : X1 * (1 + w1) <= (1 + v) * (1 + v) * (X0 * w) + 3 * t * 10001).
  { apply Rle_trans with (((1 + v) * (1 + v) * (X0 * rr) + 3 * t) * (1 + w1)); [apply Rmult_le_compat_r; lra|].
    assert (E1 : X0 * (rr * (1 + w1)) <= X0 * w) by (apply Rmult_le_compat_l; lra).
    assert (E2 : (1 + v) * (1 + v) * (X0 * (rr * (1 + w1))) <= (1 + v) * (1 + v) * (X0 * w)) by (apply Rmult_le_compat_l; lra).
    assert (E3 : 3 * t * (1 + w1) <= 3 * t * 10001) by (apply Rmult_le_compat_l; lra). lra. }
  assert (XW : 0 <= X0 * w) by (apply Rmult_le_pos; lra).
  assert (B3 : A1 + X1 * w1 <= (1 + v) * (A + X1 * (1 + w1))).
  { assert (0 <= v * (X1 * w1)) by (apply Rmult_le_pos; [lra|apply Rmult_le_pos; lra]). lra. }
  apply Rle_trans with (1 := B3).
  set (P := A + X0 * w) in *.
  assert (B7 : A + X1 * (1 + w1) <= ((1 + v) * (1 + v) + v) * P).
  { assert (3 * t * 10001 <= v * 1) by lra. assert (v * 1 <= v * P) by (apply Rmult_le_compat_l; unfold P; lra).
    assert (0 <= (2 * v + v * v) * A) by (apply Rmult_le_pos; lra). unfold P in *. lra. }
  apply Rle_trans with ((1 + v) * (((1 + v) * (1 + v) + v) * P)); [apply Rmult_le_compat_l; lra|].
  rewrite <- Rmult_assoc. apply Rmult_le_compat_r; [unfold P; lra|].
  assert (v * (v * v) <= v * v) by (rewrite <- (Rmult_1_l (v * v)) at 2; apply Rmult_le_compat_r; lra).
  assert (v * v <= / 1000000000 * v) by (apply Rmult_le_compat_r; lra). lra.
Qed.

(* ---- the loop ---- *)
Section Series.
Variables (s z : double) (m : Z) (W : nat -> R).
Hypothesis Fs : fin s.
Hypothesis Fz : fin z.
Hypothesis Hm : (1 <= m <= 2000000)%Z.
Hypothesis Vs : dval s = IZR m / 2.
Hypothesis Vz : 0 <= dval z <= 1000000.
Let r (k : nat) : R := dval z / (dval s + INR k).
Hypothesis r_le : forall k, r (S k) <= 1.
Hypothesis W_range : forall k, 0 <= W k <= 10000.
Hypothesis W_step : forall k, r (S k) * (1 + W (S k)) <= W k.

Lemma s_range : / 2 <= dval s <= 1000000.
Proof. rewrite Vs. assert (1 <= IZR m <= 2000000) by (split; apply IZR_le; lia). lra. Qed.
Lemma s_plus k : (k <= 1048576)%N -> dval (dadd s (double_of_N k)) = dval s + IZR (Z.of_N k) /\ fin (dadd s (double_of_N k)).
Proof.
  intros Hk. destruct (double_of_N_INR k Hk) as [Vk Fk]. pose proof s_range as R.
  assert (0 <= IZR (Z.of_N k) <= 1048576) by (split; apply IZR_le; lia).
  destruct (dadd_ok s (double_of_N k) Fs Fk) as [V F]; [apply (small_R _ 3000000); [apply Rabs_le; lra|lra]|].
  split; [|exact F]. rewrite V, Vk. apply rnd_id. rewrite Vs.
  replace (IZR m / 2 + IZR (Z.of_N k)) with (IZR (m + 2 * Z.of_N k) / 2) by (rewrite plus_IZR, mult_IZR; field).
  apply F64_half. lia.
Qed.
Lemma r_pos k : 0 <= r k.
Proof. pose proof s_range. pose proof (pos_INR k). unfold r. apply Rmult_le_pos; [lra|left; apply Rinv_0_lt_compat; lra]. Qed.

Lemma series_step k sum x : (Z.of_nat k < 1000000)%Z -> fin sum -> fin x -> 0 <= dval x <= 1 -> 1 <= dval sum -> dval sum + dval x * W k <= 1000000000 ->
  let x' := dmul x (ddiv z (dadd s (double_of_N (N.of_nat (S k))))) in let sum' := dadd sum x' in
  fin x' /\ fin sum' /\ 0 <= dval x' <= 1 /\ 1 <= dval sum' /\ dval sum' + dval x' * W (S k) <= (1 + 6 * u) * (dval sum + dval x * W k).
Proof.
  intros Hk Fsum Fx Hx Hsum HP x' sum'. destruct (s_plus (N.of_nat (S k))) as [Vd Fd]; [lia|].
  set (den := dadd s (double_of_N (N.of_nat (S k)))) in *. pose proof s_range as SR.
  assert (Ek : IZR (Z.of_N (N.of_nat (S k))) = INR (S k)) by (rewrite INR_IZR_INZ; f_equal; lia).
  rewrite Ek in Vd. pose proof (pos_INR (S k)) as Pk.
  assert (Er : dval z / dval den = r (S k)) by (unfold r; rewrite Vd; reflexivity).
  pose proof (r_pos (S k)) as R0. pose proof (r_le k) as R1. pose proof u_pos as U0. assert (U1 : u <= / 1000000000) by (rewrite u_val; lra).
  pose proof tau_pos as T0. pose proof tau_small as T1.
  destruct (ddiv_ok z den Fz) as [Vq Fq]; [rewrite Vd; lra|rewrite Er; apply (small_R _ 1); [apply Rabs_le; lra|lra]|].
  rewrite Er in Vq. set (q := ddiv z den) in *.
  assert (Q : 0 <= dval q <= 1) by (rewrite Vq; apply rnd_between; [apply F64_0|apply F64_1|lra]).
  assert (Q2 : dval q <= r (S k) * (1 + u) + tau) by (rewrite Vq; pose proof (rnd_err_any _ R0) as E; apply Rabs_le_inv in E; lra).
  assert (Pxq : 0 <= dval x * dval q <= 1) by nra.
  destruct (dmul_ok x q Fx Fq) as [Vx Fx']; [apply (small_R _ 1); [apply Rabs_le; lra|lra]|].
  fold x' in Vx, Fx'.
  assert (X : 0 <= dval x' <= 1) by (rewrite Vx; apply rnd_between; [apply F64_0|apply F64_1|lra]).
  assert (X2 : dval x' <= dval x * dval q * (1 + u) + tau) by (rewrite Vx; pose proof (rnd_err_any _ (proj1 Pxq)) as E; apply Rabs_le_inv in E; lra).
  pose proof (W_range k) as Wk. pose proof (W_range (S k)) as WSk. pose proof (W_step k) as Wst.
  assert (XW : 0 <= dval x * W k) by (apply Rmult_le_pos; lra).
  destruct (dadd_ok sum x' Fsum Fx') as [Vsum Fsum']; [apply (small_R _ 10000000000); [apply Rabs_le; lra|lra]|].
  fold sum' in Vsum, Fsum'.
  assert (S1 : 1 <= dval sum').
  { rewrite Vsum. apply Rle_trans with (rnd (dval sum)); [rewrite rnd_id by apply dval_format; exact Hsum|apply rnd_mono; lra]. }
  assert (S2 : dval sum' <= (1 + u) * (dval sum + dval x')).
  { pose proof (rnd_plus_err (dval sum) (dval x') (dval_format _) (dval_format _)) as E. unfold approx in E.
    rewrite <- Vsum, (Rabs_pos_eq (dval sum + dval x')) in E by lra. apply Rabs_le_inv in E. lra. }
  split; [exact Fx'|]. split; [exact Fsum'|]. split; [exact X|]. split; [exact S1|].
  apply series_algebra with (r (S k)) (dval q) tau; try assumption; lra.
Qed.
Lemma series_loop left : forall k sum x B, (Z.of_nat (k + left) < 1000000)%Z -> fin sum -> fin x -> 0 <= dval x <= 1 -> 1 <= dval sum ->
  dval sum + dval x * W k <= B -> B * (1 + 6 * u) ^ left <= 1000000000 ->
  let v := gammap_loop s z left (N.of_nat (S k)) sum x in fin v /\ 1 <= dval v <= B * (1 + 6 * u) ^ left.
Proof.
  induction left as [|left IH]; intros k sum x B Hk Fsum Fx Hx Hsum HB HB2 v.
  - simpl in v. unfold v. split; [exact Fsum|]. split; [exact Hsum|]. rewrite pow_O, Rmult_1_r.
    pose proof (W_range k). assert (0 <= dval x * W k) by (apply Rmult_le_pos; lra). lra.
  - pose proof u_pos as U0. assert (P1 : 1 <= (1 + 6 * u) ^ left) by (apply pow_R1_Rle; lra).
    pose proof (W_range k) as Wk. assert (XW : 0 <= dval x * W k) by (apply Rmult_le_pos; lra).
    assert (B1 : 1 <= B) by lra. rewrite <- tech_pow_Rmult in HB2 |- *.
    assert (P2 : 1 <= (1 + 6 * u) * (1 + 6 * u) ^ left) by (apply Rle_trans with ((1 + 6 * u) * 1); [lra|apply Rmult_le_compat_l; lra]).
    assert (P3 : B * 1 <= B * ((1 + 6 * u) * (1 + 6 * u) ^ left)) by (apply Rmult_le_compat_l; lra).
    assert (BB : B <= 1000000000) by lra.
    destruct (series_step k sum x ltac:(lia) Fsum Fx Hx Hsum ltac:(lra)) as (Fx' & Fsum' & Hx' & Hsum' & HP).
    set (x' := dmul x (ddiv z (dadd s (double_of_N (N.of_nat (S k)))))) in *. set (sum' := dadd sum x') in *.
    assert (HP' : dval sum' + dval x' * W (S k) <= (1 + 6 * u) * B) by (apply Rle_trans with (1 := HP); apply Rmult_le_compat_l; lra).
    pose proof (IH (S k) sum' x' ((1 + 6 * u) * B) ltac:(lia) Fsum' Fx' Hx' Hsum' HP' ltac:(lra)) as (F & L).
    unfold v. cbn [gammap_loop]. fold x'. fold sum'.
    replace (N.of_nat (S k) + 1)%N with (N.of_nat (S (S k))) by lia.
    destruct (dlt (ddiv x' sum') kf_gamma_eps).
    + split; [exact Fsum'|]. split; [exact Hsum'|]. pose proof (W_range (S k)).
      assert (0 <= dval x' * W (S k)) by (apply Rmult_le_pos; lra).
      apply Rle_trans with ((1 + 6 * u) * B * 1); [lra|]. replace (B * ((1 + 6 * u) * (1 + 6 * u) ^ left)) with ((1 + 6 * u) * B * (1 + 6 * u) ^ left) by ring.
      apply Rmult_le_compat_l; [apply Rmult_le_pos; lra|exact P1].
    + split; [exact F|]. lra.
Qed.
Lemma series_sum : 1 + W 0 <= 10001 -> let v := gammap_loop s z (N.to_nat (max_iterations - 1)) 1 d1 d1 in fin v /\ 1 <= dval v <= (1 + / 1000) * (1 + W 0).
Proof.
  intros HW v. destruct d1_val as [V1 F1]. pose proof u_pos as U0. pose proof (W_range 0) as W0.
  assert (P : (1 + 6 * u) ^ N.to_nat (max_iterations - 1) <= 1 + / 1000).
  { apply Rle_trans with (exp (6 * u) ^ N.to_nat (max_iterations - 1)).
    - apply pow_incr. split; [lra|apply exp_ineq1_le].
    - rewrite <- exp_pow. rewrite <- (exp_ln (1 + / 1000)) by lra.
      assert (L : / 2000 <= ln (1 + / 1000)) by (pose proof (ln_pade (/ 1000) ltac:(lra)); lra).
      assert (E : INR (N.to_nat (max_iterations - 1)) * (6 * u) <= / 2000).
      { rewrite INR_IZR_INZ, N_nat_Z. change (Z.of_N (max_iterations - 1)) with 9999%Z. rewrite u_val. lra. }
      destruct (Rle_lt_or_eq_dec _ _ (Rle_trans _ _ _ E L)) as [H|H]; [left; now apply exp_increasing|right; now rewrite H]. }
  assert (G : 0 <= (1 + 6 * u) ^ N.to_nat (max_iterations - 1)) by (apply pow_le; lra).
  destruct (series_loop (N.to_nat (max_iterations - 1)) 0 d1 d1 (1 + W 0)) as (F & L1 & L2); try assumption.
  - unfold max_iterations. lia.
  - rewrite V1. lra.
  - rewrite V1. lra.
  - rewrite V1. lra.
  - assert ((1 + W 0) * (1 + 6 * u) ^ N.to_nat (max_iterations - 1) <= 10001 * (1 + / 1000)) by (apply Rmult_le_compat; lra). lra.
  - split; [exact F|]. split; [exact L1|]. apply Rle_trans with (1 := L2). rewrite Rmult_comm. apply Rmult_le_compat_r; lra.
Qed.
End Series.

(* ---- the two cases ---- *)
Lemma series_le s z m : fin s -> fin z -> (2 <= m <= 2000000)%Z -> dval s = IZR m / 2 -> 0 <= dval z <= dval s ->
  let v := gammap_loop s z (N.to_nat (max_iterations - 1)) 1 d1 d1 in fin v /\ 1 <= dval v <= (1 + / 1000) * (1 + sqrt (2 * dval s)).
Proof.
  intros Fs Fz Hm Vs Vz. assert (R : 1 <= dval s <= 1000000) by (rewrite Vs; assert (2 <= IZR m <= 2000000) by (split; apply IZR_le; lia); lra).
  rewrite <- wsum_0. set (W := fun k => wsum (dval s) (INR k)). change (wsum (dval s) 0) with (W 0%nat).
  assert (WB : forall k, 0 <= W k <= 10000).
  { intros k. unfold W. pose proof (pos_INR k) as Pk. split; [left; apply wsum_pos; lra|]. unfold wsum.
    assert (sqrt (INR k * INR k + 2 * dval s) <= INR k + 10000); [|lra].
    rewrite <- (sqrt_square (INR k + 10000)) by lra. apply sqrt_le_1; nra. }
  assert (ratio : forall k, dval z / (dval s + INR (S k)) <= dval s / (dval s + INR k + 1) /\ 0 <= dval s / (dval s + INR k + 1) <= 1).
  { intros k. rewrite S_INR. pose proof (pos_INR k). replace (dval s + (INR k + 1)) with (dval s + INR k + 1) by ring.
    assert (0 < / (dval s + INR k + 1)) by (apply Rinv_0_lt_compat; lra).
    split; [apply Rmult_le_compat_r; lra|]. split; [apply Rmult_le_pos; lra|].
    apply Rmult_le_reg_r with (dval s + INR k + 1); [lra|]. unfold Rdiv. rewrite Rmult_assoc, Rinv_l by lra. lra. }
  apply (series_sum s z m W); try assumption.
  - lia.
  - lra.
  - intros k. destruct (ratio k). lra.
  - intros k. pose proof (pos_INR k). pose proof (wsum_step (dval s) (INR k) ltac:(lra) ltac:(lra)) as S1. destruct (ratio k) as [R1 R2].
    unfold W at 2. apply Rle_trans with (dval s / (dval s + INR k + 1) * (1 + W (S k))).
    + apply Rmult_le_compat_r; [pose proof (WB (S k)); lra|exact R1].
    + unfold W. rewrite S_INR. lra.
  - pose proof (WB 0%nat). lra.
Qed.
Definition W_half (k : nat) : R :=
  match k with 0%nat => 10308 / 10000 | 1%nat => 54610 / 100000 | 2%nat => 36511 / 100000 | 3%nat => 27778 / 100000 | _ => / 4 end.
Lemma series_half s z : fin s -> fin z -> dval s = / 2 -> 0 <= dval z <= 1 ->
  let v := gammap_loop s z (N.to_nat (max_iterations - 1)) 1 d1 d1 in fin v /\ 1 <= dval v <= (1 + / 1000) * (20308 / 10000).
Proof.
  intros Fs Fz Vs Vz. replace (20308 / 10000) with (1 + W_half 0) by (unfold W_half; lra).
  assert (WB : forall k, 0 <= W_half k <= 10000) by (intros [|[|[|[|k]]]]; simpl; lra).
  assert (ratio : forall k, 0 <= dval z / (dval s + INR (S k)) <= / (/ 2 + INR (S k))).
  { intros k. rewrite Vs. pose proof (pos_INR (S k)). assert (0 < / (/ 2 + INR (S k))) by (apply Rinv_0_lt_compat; lra). unfold Rdiv.
    split; [apply Rmult_le_pos; lra|]. rewrite <- (Rmult_1_l (/ (/ 2 + INR (S k)))) at 2. apply Rmult_le_compat_r; lra. }
  assert (R3 : forall k, / (/ 2 + INR (S k)) <= 2 / 3).
  { intros k. replace (2 / 3) with (/ (3 / 2)) by field. apply Rinv_le_contravar; [lra|]. rewrite S_INR. pose proof (pos_INR k). lra. }
  apply (series_sum s z 1 W_half); try assumption.
  - lia.
  - rewrite Vs. lra.
  - lra.
  - intros k. pose proof (ratio k). pose proof (R3 k). lra.
  - intros k. apply Rle_trans with (/ (/ 2 + INR (S k)) * (1 + W_half (S k))).
    + apply Rmult_le_compat_r; [pose proof (WB (S k)); lra|apply ratio].
    + destruct k as [|[|[|[|k]]]]; cbn [W_half]; [simpl INR; lra|simpl INR; lra|simpl INR; lra|simpl INR; lra|].
      assert (/ (/ 2 + INR (S (S (S (S (S k)))))) <= / 5); [|lra].
      apply Rinv_le_contravar; [lra|]. rewrite !S_INR. pose proof (pos_INR k). lra.
  - simpl. lra.
Qed.
