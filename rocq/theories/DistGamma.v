(* log_gamma and the exponents of _kf_gammap and _kf_gammaq in floating point: the exponents are not positive. *)
From Coq Require Import Reals Lra Lia Psatz ZArith List.
From Flocq Require Import Core BinarySingleNaN.
From Verif Require Import Base FloatModel FloatLemmas ResultModel CollectModel StatsModel StatsProofs CouponFloatProofs StatFormulas DistModel DistSpec DistReal DistReal2 DistSeries DistLentz.
Open Scope R_scope.

(* x is within e of X, which is at most A in magnitude *)
Definition near_R (x : double) (X e A : R) : Prop := fin x /\ Rabs (dval x - X) <= e /\ Rabs X <= A.
Lemma near_le x X e A e' A' : near_R x X e A -> e <= e' -> A <= A' -> near_R x X e' A'.
Proof. intros (F & H & B) He HA. split; [exact F|]. lra. Qed.
Lemma near_bound x X e A : near_R x X e A -> Rabs (dval x) <= A + e.
Proof. intros (_ & H & B). replace (dval x) with ((dval x - X) + X) by ring. apply Rle_trans with (1 := Rabs_triang _ _). lra. Qed.
Lemma near_exact x X A : fin x -> dval x = X -> Rabs X <= A -> near_R x X 0 A.
Proof. intros F E H. split; [exact F|]. split; [rewrite E; replace (X - X) with 0 by ring; rewrite Rabs_R0; lra|exact H]. Qed.
Definition vast : R := 1000000000000000000000000000000.
Lemma near_add x y X Y e f A B : near_R x X e A -> near_R y Y f B -> A + B + e + f <= vast -> near_R (dadd x y) (X + Y) (e + f + u * (A + B + e + f)) (A + B).
Proof.
  intros Hx Hy HV. pose proof (near_bound _ _ _ _ Hx) as Bx. pose proof (near_bound _ _ _ _ Hy) as By. destruct Hx as (Fx & Ex & Ax). destruct Hy as (Fy & Ey & Ay).
  assert (Bs : Rabs (dval x + dval y) <= A + B + e + f) by (apply Rle_trans with (1 := Rabs_triang _ _); lra).
  destruct (dadd_ok x y Fx Fy) as [V F]; [apply (small_R _ vast); [lra|unfold vast; lra]|]. split; [exact F|]. split.
  - pose proof (rnd_plus_err _ _ (dval_format x) (dval_format y)) as E. rewrite <- V in E. unfold approx in E. pose proof u_pos.
    assert (u * Rabs (dval x + dval y) <= u * (A + B + e + f)) by (apply Rmult_le_compat_l; lra).
    replace (dval (dadd x y) - (X + Y)) with ((dval (dadd x y) - (dval x + dval y)) + ((dval x - X) + (dval y - Y))) by ring.
    apply Rle_trans with (1 := Rabs_triang _ _). pose proof (Rabs_triang (dval x - X) (dval y - Y)). lra.
  - apply Rle_trans with (1 := Rabs_triang _ _). lra.
Qed.
Lemma near_sub x y X Y e f A B : near_R x X e A -> near_R y Y f B -> A + B + e + f <= vast -> near_R (dsub x y) (X - Y) (e + f + u * (A + B + e + f)) (A + B).
Proof.
  intros Hx Hy HV. pose proof (near_bound _ _ _ _ Hx) as Bx. pose proof (near_bound _ _ _ _ Hy) as By. destruct Hx as (Fx & Ex & Ax). destruct Hy as (Fy & Ey & Ay).
  assert (T : forall a b, Rabs (a - b) <= Rabs a + Rabs b) by (intros a b; unfold Rminus; rewrite <- (Rabs_Ropp b); apply Rabs_triang).
  assert (Bs : Rabs (dval x - dval y) <= A + B + e + f) by (apply Rle_trans with (1 := T _ _); lra).
  destruct (dsub_ok x y Fx Fy) as [V F]; [apply (small_R _ vast); [lra|unfold vast; lra]|]. split; [exact F|]. split.
  - pose proof (rnd_minus_err _ _ (dval_format x) (dval_format y)) as E. rewrite <- V in E. unfold approx in E. pose proof u_pos.
    assert (u * Rabs (dval x - dval y) <= u * (A + B + e + f)) by (apply Rmult_le_compat_l; lra).
    replace (dval (dsub x y) - (X - Y)) with ((dval (dsub x y) - (dval x - dval y)) + ((dval x - X) - (dval y - Y))) by ring.
    apply Rle_trans with (1 := Rabs_triang _ _). pose proof (T (dval x - X) (dval y - Y)). lra.
  - apply Rle_trans with (1 := T _ _). lra.
Qed.
(* times an exact factor *)
Lemma near_mul x y X Y f A B : fin x -> dval x = X -> Rabs X <= A -> near_R y Y f B -> 0 <= f -> A * (B + f) <= vast ->
  near_R (dmul x y) (X * Y) (A * f + u * (A * (B + f)) + tau) (A * B).
Proof.
  intros Fx Ex Ax Hy Hf HV. pose proof (near_bound _ _ _ _ Hy) as By. destruct Hy as (Fy & Ey & Ay). pose proof (Rabs_pos X) as PX. pose proof (Rabs_pos (dval y)) as PY.
  pose proof (Rabs_pos Y) as PY2.
  assert (Bs : Rabs (X * dval y) <= A * (B + f)) by (rewrite Rabs_mult; apply Rmult_le_compat; lra).
  destruct (dmul_ok x y Fx Fy) as [V F]; [rewrite Ex; apply (small_R _ vast); [lra|unfold vast; lra]|]. rewrite Ex in V. split; [exact F|]. split.
  - pose proof (rnd_abs (X * dval y)) as E. rewrite <- V in E. pose proof u_pos.
    assert (u * Rabs (X * dval y) <= u * (A * (B + f))) by (apply Rmult_le_compat_l; lra).
    replace (dval (dmul x y) - X * Y) with ((dval (dmul x y) - X * dval y) + X * (dval y - Y)) by ring.
    apply Rle_trans with (1 := Rabs_triang _ _). rewrite (Rabs_mult X).
    assert (Rabs X * Rabs (dval y - Y) <= A * f) by (apply Rmult_le_compat; try apply Rabs_pos; lra). lra.
  - rewrite Rabs_mult. apply Rmult_le_compat; lra.
Qed.

(* ---- the sum of log_gamma ---- *)
Section LogGamma.
Variables (log : double -> double) (z : double) (m : Z).
Hypothesis Hlog : forall x, fin x -> 0 < dval x -> fin (log x) /\ Rabs (dval (log x) - ln (dval x)) <= bpow radix2 (-40).
Hypothesis Fz : fin z.
Hypothesis Hm : (1 <= m <= 1200000)%Z.
Hypothesis Vz : dval z = IZR m / 2.
Notation zR := (dval z).
Lemma z_rng : / 2 <= zR <= 600000.
Proof. rewrite Vz. assert (1 <= IZR m <= 1200000) by (split; apply IZR_le; lia). lra. Qed.
Lemma z_plus k e q : (-1 <= e <= 0)%Z -> dconst k e = q -> F2R (Float radix2 k e) = IZR (2 * k) / (if Z.eqb e 0 then 2 else 4) -> (0 <= k <= 100)%Z ->
  fin (dadd z q) /\ dval (dadd z q) = zR + F2R (Float radix2 k e).
Proof.
  intros He <- Ev Hk. pose proof z_rng as Z.
  assert (B : 0 <= F2R (Float radix2 k e) <= 100).
  { assert (0 <= IZR (2 * k) <= 200) by (split; apply IZR_le; lia). rewrite Ev. destruct (Z.eqb e 0); lra. }
  destruct (dconst_ok k e) as [V F]; [apply (small_R _ 100); [apply Rabs_le; lra|lra]|]. rewrite rnd_id in V by (apply F64_F2R; lia).
  destruct (dadd_ok z (dconst k e) Fz F) as [Va Fa]; [rewrite V; apply (small_R _ 1000000); [apply Rabs_le; lra|lra]|]. split; [exact Fa|].
  rewrite Va, V. apply rnd_id. rewrite Ev, Vz. destruct (Z.eqb_spec e 0) as [E|E].
  - replace (IZR m / 2 + IZR (2 * k) / 2) with (IZR (m + 2 * k) / 2) by (rewrite plus_IZR; lra). apply F64_half. lia.
  - replace (IZR m / 2 + IZR (2 * k) / 4) with (IZR (m + k) / 2) by (rewrite plus_IZR, mult_IZR; lra). apply F64_half. lia.
Qed.
Lemma z_plus_int k : (0 <= k <= 100)%N -> fin (dadd z (double_of_N k)) /\ dval (dadd z (double_of_N k)) = zR + IZR (Z.of_N k).
Proof.
  intros Hk. assert (E : F2R (Float radix2 (Z.of_N k) 0) = IZR (Z.of_N k)) by (unfold F2R; cbn; ring).
  destruct (z_plus (Z.of_N k) 0 (double_of_N k)) as [F V]; [lia|reflexivity|rewrite E, mult_IZR; cbn [Z.eqb]; lra|lia|]. rewrite E in V. split; assumption.
Qed.
(* one term *)
Lemma term_near (k e : Z) (r : R) (w : double) (wR : R) : F2R (Float radix2 k e) = r -> (Z.abs k <= 2 ^ 53)%Z -> (-1074 <= e)%Z -> / 100000000 <= r <= 1300 ->
  fin w -> dval w = wR -> / 2 <= wR <= 700000 -> near_R (ddiv (dconst k e) w) (r / wR) (2600 * u) 2600.
Proof.
  intros Er Hk He Hr Fw Vw Hw. pose proof u_pos as U0. pose proof tau_le as T0.
  destruct (dconst_ok k e) as [V F]; [rewrite Er; apply (small_R _ 1300); [apply Rabs_le; lra|lra]|]. rewrite rnd_id, Er in V by (apply F64_F2R; assumption).
  assert (I : / 700000 <= / wR <= 2) by (split; [apply Rinv_le_contravar; lra|rewrite <- (Rinv_inv 2); apply Rinv_le_contravar; lra]).
  assert (B : / 100000000 * / 700000 <= r / wR <= 2600).
  { unfold Rdiv. split; [apply Rmult_le_compat; lra|]. replace 2600 with (1300 * 2) by ring. apply Rmult_le_compat; lra. }
  destruct (ddiv_ok (dconst k e) w F) as [Vd Fd]; [rewrite Vw; lra|rewrite V, Vw; apply (small_R _ 2600); [apply Rabs_le; lra|lra]|].
  rewrite V, Vw in Vd. split; [exact Fd|]. split; [|apply Rabs_le; lra].
  assert (A : approx u (rnd (r / wR)) (r / wR)) by (apply rnd_err; right; rewrite Rabs_pos_eq; lra).
  unfold approx in A. rewrite (Rabs_pos_eq (r / wR)) in A by lra. rewrite Vd. apply Rle_trans with (1 := A). rewrite Rmult_comm. apply Rmult_le_compat_r; lra.
Qed.
Lemma acc_bound (a b : R) : 0 <= a <= 30000 -> 0 <= b <= 1000000 -> b * u + 2600 * u + u * (a + 2600 + b * u + 2600 * u) <= (b + 40000) * u.
Proof.
  intros Ha Hb. pose proof u_pos as U0. assert (B1 : b * u <= 1) by (apply Rle_trans with (1000000 * u); [apply Rmult_le_compat_r; lra|rewrite u_val; lra]).
  assert (B2 : 2600 * u <= 1) by (rewrite u_val; lra).
  assert (u * (a + 2600 + b * u + 2600 * u) <= u * 37000) by (apply Rmult_le_compat_l; lra). lra.
Qed.
Lemma acc_add x X t T a b : near_R x X (b * u) a -> near_R t T (2600 * u) 2600 -> 0 <= a <= 30000 -> 0 <= b <= 1000000 -> near_R (dadd x t) (X + T) ((b + 40000) * u) (a + 2600).
Proof.
  intros Hx Ht Ha Hb. pose proof (acc_bound a b Ha Hb) as G. pose proof u_pos as U0.
  assert (B1 : b * u <= 1) by (apply Rle_trans with (1000000 * u); [apply Rmult_le_compat_r; lra|rewrite u_val; lra]). assert (B2 : 2600 * u <= 1) by (rewrite u_val; lra).
  eapply near_le; [apply (near_add _ _ _ _ _ _ _ _ Hx Ht); unfold vast; lra|exact G|lra].
Qed.
Lemma acc_sub x X t T a b : near_R x X (b * u) a -> near_R t T (2600 * u) 2600 -> 0 <= a <= 30000 -> 0 <= b <= 1000000 -> near_R (dsub x t) (X - T) ((b + 40000) * u) (a + 2600).
Proof.
  intros Hx Ht Ha Hb. pose proof (acc_bound a b Ha Hb) as G. pose proof u_pos as U0.
  assert (B1 : b * u <= 1) by (apply Rle_trans with (1000000 * u); [apply Rmult_le_compat_r; lra|rewrite u_val; lra]). assert (B2 : 2600 * u <= 1) by (rewrite u_val; lra).
  eapply near_le; [apply (near_sub _ _ _ _ _ _ _ _ Hx Ht); unfold vast; lra|exact G|lra].
Qed.
Lemma lanczos_near : near_R (lanczos_sum z) (lanczos zR) (360000 * u) 23400.
Proof.
  pose proof z_rng as Z.
  destruct (z_plus_int 7 ltac:(lia)) as [F7 V7]. destruct (z_plus_int 6 ltac:(lia)) as [F6 V6]. destruct (z_plus_int 5 ltac:(lia)) as [F5 V5]. destruct (z_plus_int 4 ltac:(lia)) as [F4 V4].
  destruct (z_plus_int 3 ltac:(lia)) as [F3 V3]. destruct (z_plus_int 2 ltac:(lia)) as [F2 V2]. destruct (z_plus_int 1 ltac:(lia)) as [F1 V1]. simpl Z.of_N in *.
  pose proof (term_near 6269301113871304 (-75) (6269301113871304 / 37778931862957161709568) _ _ ltac:(unfold F2R; cbn; lra) ltac:(lia) ltac:(lia) ltac:(lra) F7 V7 ltac:(lra)) as T7.
  pose proof (term_near 5864551754530531 (-69) (5864551754530531 / 590295810358705651712) _ _ ltac:(unfold F2R; cbn; lra) ltac:(lia) ltac:(lia) ltac:(lra) F6 V6 ltac:(lra)) as T6.
  pose proof (term_near 4992547625336385 (-55) (4992547625336385 / 36028797018963968) _ _ ltac:(unfold F2R; cbn; lra) ltac:(lia) ltac:(lia) ltac:(lra) F5 V5 ltac:(lra)) as T5.
  pose proof (term_near 7041008294433342 (-49) (7041008294433342 / 562949953421312) _ _ ltac:(unfold F2R; cbn; lra) ltac:(lia) ltac:(lia) ltac:(lra) F4 V4 ltac:(lra)) as T4.
  pose proof (term_near 6214088902087831 (-45) (6214088902087831 / 35184372088832) _ _ ltac:(unfold F2R; cbn; lra) ltac:(lia) ltac:(lia) ltac:(lra) F3 V3 ltac:(lra)) as T3.
  pose proof (term_near 6784632629720077 (-43) (6784632629720077 / 8796093022208) _ _ ltac:(unfold F2R; cbn; lra) ltac:(lia) ltac:(lia) ltac:(lra) F2 V2 ltac:(lra)) as T2.
  pose proof (term_near 5537752839099686 (-42) (5537752839099686 / 4398046511104) _ _ ltac:(unfold F2R; cbn; lra) ltac:(lia) ltac:(lia) ltac:(lra) F1 V1 ltac:(lra)) as T1.
  pose proof (term_near 5950736089418487 (-43) (5950736089418487 / 8796093022208) z zR ltac:(unfold F2R; cbn; lra) ltac:(lia) ltac:(lia) ltac:(lra) Fz eq_refl ltac:(lra)) as T0.
  assert (TC : near_R (dconst 9007199254736653 (-53)) (9007199254736653 / 9007199254740992) (2600 * u) 2600).
  { assert (E : F2R (Float radix2 9007199254736653 (-53)) = 9007199254736653 / 9007199254740992) by (unfold F2R; cbn; lra).
    destruct (dconst_ok 9007199254736653 (-53)) as [V F]; [rewrite E; apply (small_R _ 1); [apply Rabs_le; lra|lra]|]. rewrite rnd_id, E in V by (apply F64_F2R; lia).
    eapply near_le; [apply (near_exact _ (9007199254736653 / 9007199254740992) 1 F V); apply Rabs_le; lra|pose proof u_pos; lra|lra]. }
  assert (N0 : near_R d0 0 (0 * u) 0) by (destruct d0_val as [V F]; split; [exact F|]; rewrite V, Rminus_0_r, Rabs_R0; lra).
  pose proof (acc_add _ _ _ _ _ _ N0 T7 ltac:(lra) ltac:(lra)) as N1. pose proof (acc_add _ _ _ _ _ _ N1 T6 ltac:(lra) ltac:(lra)) as N2.
  pose proof (acc_sub _ _ _ _ _ _ N2 T5 ltac:(lra) ltac:(lra)) as N3. pose proof (acc_add _ _ _ _ _ _ N3 T4 ltac:(lra) ltac:(lra)) as N4.
  pose proof (acc_sub _ _ _ _ _ _ N4 T3 ltac:(lra) ltac:(lra)) as N5. pose proof (acc_add _ _ _ _ _ _ N5 T2 ltac:(lra) ltac:(lra)) as N6.
  pose proof (acc_sub _ _ _ _ _ _ N6 T1 ltac:(lra) ltac:(lra)) as N7. pose proof (acc_add _ _ _ _ _ _ N7 T0 ltac:(lra) ltac:(lra)) as N8.
  pose proof (acc_add _ _ _ _ _ _ N8 TC ltac:(lra) ltac:(lra)) as N9.
  unfold lanczos_sum, lanczos. rewrite Rplus_0_l in N9.
  eapply near_le; [exact N9| |]; [right; ring|lra].
Qed.

(* logarithms *)
Lemma log_near x X e A : near_R x X e A -> 1 <= X -> 0 <= e <= / 2 -> near_R (log x) (ln X) (2 * e + bpow radix2 (-40)) (ln A).
Proof.
  intros (F & H & B) HX He. rewrite Rabs_pos_eq in B by lra. pose proof (Rabs_le_inv _ _ H) as H'.
  destruct (Hlog x F ltac:(lra)) as [Fl El]. split; [exact Fl|]. split.
  - assert (D : Rabs (ln (dval x) - ln X) <= 2 * e).
    { assert (U1 : ln (dval x / X) <= dval x / X - 1) by (apply ln_upper; apply Rmult_lt_0_compat; [lra|apply Rinv_0_lt_compat; lra]).
      assert (U2 : ln (X / dval x) <= X / dval x - 1) by (apply ln_upper; apply Rmult_lt_0_compat; [lra|apply Rinv_0_lt_compat; lra]).
      rewrite ln_quot in U1, U2 by lra.
      assert (IX : 0 < / X <= 1) by (split; [apply Rinv_0_lt_compat; lra|rewrite <- Rinv_1; apply Rinv_le_contravar; lra]).
      assert (Ix : 0 < / dval x <= 2) by (split; [apply Rinv_0_lt_compat; lra|rewrite <- (Rinv_inv 2); apply Rinv_le_contravar; lra]).
      assert (W1 : dval x / X - 1 <= e).
      { replace (dval x / X - 1) with ((dval x - X) * / X) by (field; lra). apply Rle_trans with (e * / X); [apply Rmult_le_compat_r; lra|]. rewrite <- (Rmult_1_r e) at 2. apply Rmult_le_compat_l; lra. }
      assert (W2 : X / dval x - 1 <= e * 2).
      { replace (X / dval x - 1) with ((X - dval x) * / dval x) by (field; lra). apply Rle_trans with (e * / dval x); [apply Rmult_le_compat_r; lra|]. apply Rmult_le_compat_l; lra. }
      apply Rabs_le. lra. }
    replace (dval (log x) - ln X) with ((dval (log x) - ln (dval x)) + (ln (dval x) - ln X)) by ring. apply Rle_trans with (1 := Rabs_triang _ _). lra.
  - rewrite Rabs_pos_eq; [apply ln_mono; lra|]. rewrite <- ln_1. apply ln_mono; lra.
Qed.
Lemma ln_pow2 (k : nat) x : 0 < x <= 2 ^ k -> ln x <= INR k * (694 / 1000).
Proof.
  intros H. apply Rle_trans with (ln (2 ^ k)); [apply ln_mono; lra|]. rewrite ln_pow by lra. apply Rmult_le_compat_l; [apply pos_INR|exact ln2_up].
Qed.
Lemma c40 : bpow radix2 (-40) = / 1099511627776. Proof. reflexivity. Qed.
Lemma lanczos_ge1 : 1 <= lanczos zR.
Proof.
  pose proof z_rng as Z. destruct (Z.eq_dec m 1) as [E|E].
  - rewrite Vz, E. replace (1 / 2) with (/ 2) by lra. pose proof lanczos_half. lra.
  - apply (log_gamma_low zR); [exists m; split; [lia|exact Vz]|]. rewrite Vz in *. assert (2 <= IZR m) by (apply IZR_le; lia). lra.
Qed.
Lemma log_gamma_near : near_R (log_gamma log z) (log_gamma_R zR) (/ 1000000) 10000000.
Proof.
  pose proof z_rng as Z. pose proof u_pos as U0. pose proof lanczos_ge1 as L1. pose proof lanczos_near as LN. pose proof tau_le as T0. pose proof tau_pos as T1.
  assert (Uv : u = / 9007199254740992) by apply u_val.
  pose proof (log_near _ _ _ _ LN L1 ltac:(rewrite Uv; lra)) as NL.
  assert (B1 : ln 23400 <= 15 * (694 / 1000)).
  { replace 15 with (INR 15) by (rewrite INR_IZR_INZ; reflexivity). apply ln_pow2. lra. }
  assert (CC : near_R (dconst 6283716585547818 (-50)) lg_const 0 6).
  { assert (E : F2R (Float radix2 6283716585547818 (-50)) = lg_const) by (unfold F2R, lg_const; cbn; lra).
    assert (Rabs lg_const <= 6) by (unfold lg_const; apply Rabs_le; lra).
    destruct (dconst_ok 6283716585547818 (-50)) as [V F]; [rewrite E; apply (small_R _ 6); lra|]. rewrite rnd_id, E in V by (apply F64_F2R; lia).
    apply near_exact; assumption. }
  assert (NZ : near_R z zR 0 600000) by (apply near_exact; [exact Fz|reflexivity|apply Rabs_le; lra]).
  assert (NL' : near_R (log (lanczos_sum z)) (ln (lanczos zR)) (/ 1000000000) 11).
  { eapply near_le; [exact NL| |]; [rewrite c40, Uv|]; lra. }
  pose proof (near_sub _ _ _ _ _ _ _ _ NL' CC ltac:(unfold vast; lra)) as S1.
  pose proof (near_sub _ _ _ _ _ _ _ _ S1 NZ ltac:(rewrite Uv; unfold vast; lra)) as S2.
  destruct (z_plus 13 (-1) (dconst 13 (-1))) as [F13 V13]; [lia|reflexivity|unfold F2R; cbn; lra|lia|].
  replace (F2R (Float radix2 13 (-1))) with (13 / 2) in V13 by (unfold F2R; cbn; lra).
  assert (N13 : near_R (dadd z (dconst 13 (-1))) (zR + 13 / 2) 0 700000) by (apply near_exact; [exact F13|exact V13|apply Rabs_le; lra]).
  pose proof (log_near _ _ _ _ N13 ltac:(lra) ltac:(lra)) as NL2.
  assert (B2 : ln 700000 <= 20 * (694 / 1000)).
  { replace 20 with (INR 20) by (rewrite INR_IZR_INZ; reflexivity). apply ln_pow2. lra. }
  assert (NL2' : near_R (log (dadd z (dconst 13 (-1)))) (ln (zR + 13 / 2)) (bpow radix2 (-40)) 14) by (eapply near_le; [exact NL2| |]; lra).
  assert (Hh : fin (dsub z (dconst 1 (-1))) /\ dval (dsub z (dconst 1 (-1))) = zR - / 2).
  { assert (E : F2R (Float radix2 1 (-1)) = / 2) by (unfold F2R; cbn; lra).
    destruct (dconst_ok 1 (-1)) as [V F]; [rewrite E; apply (small_R _ 1); [apply Rabs_le; lra|lra]|]. rewrite rnd_id, E in V by (apply F64_F2R; lia).
    destruct (dsub_ok z (dconst 1 (-1)) Fz F) as [V2 F2]; [rewrite V; apply (small_R _ 1000000); [apply Rabs_le; lra|lra]|]. split; [exact F2|].
    rewrite V2, V, Vz. replace (IZR m / 2 - / 2) with (IZR (m - 1) / 2) by (rewrite minus_IZR; lra). apply rnd_id, F64_half. lia. }
  destruct Hh as [Fh Vh].
  assert (Hh2 : Rabs (zR - / 2) <= 600000) by (apply Rabs_le; lra).
  assert (E40 : 0 <= bpow radix2 (-40)) by (rewrite c40; lra).
  pose proof (near_mul _ _ _ _ _ _ _ Fh Vh Hh2 NL2' E40 ltac:(rewrite c40; unfold vast; lra)) as M1.
  pose proof (near_add _ _ _ _ _ _ _ _ S2 M1 ltac:(rewrite c40, Uv; unfold vast; lra)) as G.
  unfold log_gamma, log_gamma_R. eapply near_le; [exact G| |]; [rewrite c40, Uv; lra|lra].
Qed.
End LogGamma.
