(* Proofs about the sample limiting wrappers and split_test. *)
From Coq Require Import Reals Lra String DecimalString DecimalN.
From Flocq Require Import Relative.
From Verif Require Import Base FloatModel FloatLemmas StreamModel ResultModel ResultSpec AnalysisProofs EvaluateModel EvaluateSpec StrengthProofs LibInst.
Open Scope R_scope.

(* relative rounding error of integers below 2^64 *)
Lemma rnd_rel a : 1 <= a -> Rabs (rnd a - a) <= / 2 ^ 53 * a.
Proof.
  intros Ha. assert (E : / 2 ^ 53 = bpow radix2 (-53)) by (symmetry; apply (bpow_neg 53)). rewrite E.
  pose proof (relative_error_N_FLT radix2 (-1074) 53 eq_refl (fun x => negb (Z.even x)) a) as H.
  assert (Ea : Rabs a = a) by (apply Rabs_right; lra).
  assert (M : bpow radix2 (-1074 + 53 - 1) <= Rabs a).
  { rewrite Ea. eapply Rle_trans; [|exact Ha]. change 1 with (bpow radix2 0). apply bpow_le. lia. }
  specialize (H M). rewrite Ea in H. unfold rnd.
  replace (round radix2 (SpecFloat.fexp 53 1024) ZnearestE a) with (round radix2 (FLT_exp (-1074) 53) ZnearestE a) by reflexivity.
  eapply Rle_trans; [exact H|]. right. rewrite bpow_plus. change (bpow radix2 1) with 2. change (-(53))%Z with (-53)%Z. lra.
Qed.

Lemma dbl_N n : (1 <= n < 2 ^ 64)%N -> let X := dval (double_of_N n) in
  fin (double_of_N n) /\ 1 <= X <= IZR (2 ^ 64) /\ IZR (Z.of_N n) * (1 - / 2 ^ 53) <= X <= IZR (Z.of_N n) * (1 + / 2 ^ 53).
Proof.
  intros [H1 H2] X. destruct (double_of_N_ok n H2) as [V F]. unfold X. rewrite V. split; [exact F|].
  assert (B1 : 1 <= IZR (Z.of_N n)) by (apply (IZR_le 1); lia).
  assert (B2 : IZR (Z.of_N n) <= IZR (2 ^ 64)) by (apply IZR_le; apply Z.lt_le_incl; apply (proj1 (N2Z.inj_lt n (2 ^ 64))), H2).
  split.
  - apply rnd_between; [apply F64_1| |lra]. change (IZR (2 ^ 64)) with (bpow radix2 64). apply F64_bpow. lia.
  - pose proof (rnd_rel _ B1) as R. apply Rabs_le_inv in R. lra.
Qed.

Lemma exp_bounds d : 0 <= d <= / 2 -> forall x, - d <= x <= d -> 1 - d <= exp x <= 1 + 2 * d.
Proof.
  intros Hd x Hx. split; [pose proof (exp_ineq1_le x); lra|].
  assert (H : 1 - d <= exp (- x)) by (pose proof (exp_ineq1_le (- x)); lra).
  assert (L : exp x <= 1 + 2 * d \/ 1 + 2 * d < exp x) by lra. destruct L as [|L]; [assumption|exfalso].
  assert (E : exp x * exp (- x) = 1) by (rewrite <- exp_plus; replace (x + - x) with 0 by ring; apply exp_0).
  assert (1 < exp x * exp (- x)); [|lra]. eapply Rle_lt_trans; [|apply Rmult_lt_compat_r; [apply exp_pos|exact L]].
  assert ((1 + 2 * d) * (1 - d) <= (1 + 2 * d) * exp (- x)) by (apply Rmult_le_compat_l; lra).
  assert (0 <= d * (1 - 2 * d)) by (apply Rmult_le_pos; lra). lra.
Qed.

Lemma ln_le x y : 0 < x -> x <= y -> ln x <= ln y.
Proof. intros H H'. destruct (Req_dec x y) as [->|]; [lra|apply Rlt_le, ln_increasing; lra]. Qed.
Lemma exp_le x y : x <= y -> exp x <= exp y.
Proof. intros H'. destruct (Req_dec x y) as [->|]; [lra|apply Rlt_le, exp_increasing; lra]. Qed.
Lemma ln2_lt1 : ln 2 < 1.
Proof. rewrite <- (ln_exp 1). apply ln_increasing; [lra|]. pose proof (exp_ineq1 1 ltac:(lra)). lra. Qed.

(* the power of a 64-bit number, with a nearby base and exponent *)
Lemma Rpower_near N X y y' : 1 <= N <= IZR (2 ^ 64) -> N * (1 - / 2 ^ 53) <= X <= N * (1 + / 2 ^ 53) ->
  0 < y < 1 -> Rabs (y' - y) <= / 2 ^ 53 -> 0 < y' <= 1 -> 1 <= X ->
  Rpower N y * (1 - / 2 ^ 45) <= Rpower X y' <= Rpower N y * (1 + / 2 ^ 44).
Proof.
  intros HN HX Hy Hd Hy' HX1. unfold Rpower.
  assert (E : exp (y' * ln X) = exp (y * ln N) * exp ((y' - y) * ln N + y' * (ln X - ln N))) by (rewrite <- exp_plus; f_equal; ring).
  rewrite E. pose proof (exp_pos (y * ln N)) as P.
  assert (LN : 0 <= ln N <= 64).
  { split; [rewrite <- ln_1; apply ln_le; lra|]. eapply Rle_trans; [apply (ln_le N (2 ^ 64)); [lra|]|].
    - destruct HN as [_ HN]. eapply Rle_trans; [exact HN|]. right. rewrite pow_IZR. reflexivity.
    - rewrite ln_pow by lra. replace (INR 64) with 64 by (rewrite INR_IZR_INZ; reflexivity). pose proof ln2_lt1. lra. }
  assert (P53 : 0 < / 2 ^ 53 <= / 1024).
  { split; [apply Rinv_0_lt_compat, pow_lt; lra|]. apply Rinv_le_contravar; [lra|]. replace 1024 with (2 ^ 10) by (cbn; lra). apply Rle_pow; [lra|lia]. }
  assert (LX : - (2 * / 2 ^ 53) <= ln X - ln N <= 2 * / 2 ^ 53).
  { assert (Q : ln X - ln N = ln (X / N)) by (unfold Rdiv; rewrite ln_mult, ln_Rinv by (try apply Rinv_0_lt_compat; lra); ring).
    rewrite Q. assert (B : 1 - / 2 ^ 53 <= X / N <= 1 + / 2 ^ 53).
    { split; apply (Rmult_le_reg_r N); try lra; unfold Rdiv; rewrite Rmult_assoc, Rinv_l by lra; lra. }
    split.
    - rewrite <- (ln_exp (- (2 * / 2 ^ 53))). apply ln_le; [apply exp_pos|]. eapply Rle_trans; [|apply B].
      (* exp(-2u) <= 1 - u *)
      rewrite exp_Ropp. pose proof (exp_ineq1_le (2 * / 2 ^ 53)). eapply Rle_trans; [apply Rinv_le_contravar; [|exact H]; lra|].
      apply (Rmult_le_reg_r (1 + 2 * / 2 ^ 53)); [lra|]. rewrite Rinv_l by lra.
      assert (0 <= / 2 ^ 53 * (1 - 2 * / 2 ^ 53)) by (apply Rmult_le_pos; lra). lra.
    - rewrite <- (ln_exp (2 * / 2 ^ 53)). apply ln_le; [lra|]. pose proof (exp_ineq1_le (2 * / 2 ^ 53)). lra. }
  assert (D : - / 2 ^ 46 <= (y' - y) * ln N + y' * (ln X - ln N) <= / 2 ^ 46).
  { assert (E46 : / 2 ^ 46 = 128 * / 2 ^ 53) by (replace 53%nat with (46 + 7)%nat by reflexivity; rewrite pow_add; field). rewrite E46.
    apply Rabs_le_inv in Hd.
    assert (A1 : - (/ 2 ^ 53 * 64) <= (y' - y) * ln N <= / 2 ^ 53 * 64).
    { assert (G : Rabs ((y' - y) * ln N) <= / 2 ^ 53 * 64).
      { rewrite Rabs_mult. apply Rmult_le_compat; [apply Rabs_pos|apply Rabs_pos|apply Rabs_le; lra|rewrite Rabs_right; lra]. }
      apply Rabs_le_inv, G. }
    assert (A2 : - (1 * (2 * / 2 ^ 53)) <= y' * (ln X - ln N) <= 1 * (2 * / 2 ^ 53)).
    { assert (G : Rabs (y' * (ln X - ln N)) <= 1 * (2 * / 2 ^ 53)).
      { rewrite Rabs_mult. apply Rmult_le_compat; [apply Rabs_pos|apply Rabs_pos|rewrite Rabs_right; lra|apply Rabs_le; lra]. }
      apply Rabs_le_inv, G. }
    lra. }
  assert (P46 : 0 < / 2 ^ 46 <= / 2).
  { split; [apply Rinv_0_lt_compat, pow_lt; lra|]. apply Rinv_le_contravar; [lra|]. replace 2 with (2 ^ 1) at 1 by (cbn; lra). apply Rle_pow; [lra|lia]. }
  destruct (exp_bounds (/ 2 ^ 46) ltac:(lra) _ D) as [B1 B2].
  assert (E45 : / 2 ^ 45 = 2 * / 2 ^ 46) by (replace 46%nat with (45 + 1)%nat by reflexivity; rewrite pow_add; field).
  assert (E44 : / 2 ^ 44 = 4 * / 2 ^ 46) by (replace 46%nat with (44 + 2)%nat by reflexivity; rewrite pow_add; field).
  split; apply Rmult_le_compat_l; lra.
Qed.

Lemma sevenths_ok k : (k = 5 \/ k = 6)%N -> let c := ddiv (double_of_N k) (double_of_N 7) in
  fin c /\ 0 < dval c <= 1 /\ Rabs (dval c - IZR (Z.of_N k) / 7) <= / 2 ^ 53.
Proof.
  intros Hk c. assert (Kb : (k <= 2 ^ 53)%N) by (destruct Hk as [-> | ->]; discriminate).
  destruct (double_of_N_exact k Kb) as [Vk Fk]. destruct (double_of_N_exact 7 ltac:(discriminate)) as [V7 F7].
  assert (K : 5 <= IZR (Z.of_N k) <= 6) by (destruct Hk as [-> | ->]; cbn; lra).
  destruct (ddiv_ok (double_of_N k) (double_of_N 7) Fk) as [V F].
  - rewrite V7. cbn. lra.
  - rewrite Vk, V7. apply small_1, Rabs_le. cbn. lra.
  - rewrite Vk, V7 in V. cbn [Z.of_N] in V. fold c in V, F. split; [exact F|]. rewrite V.
    assert (E : / 2 ^ 53 = bpow radix2 (-53)) by (symmetry; apply (bpow_neg 53)).
    assert (R : Rabs (rnd (IZR (Z.of_N k) / 7) - IZR (Z.of_N k) / 7) <= / 2 ^ 53).
    { rewrite E. eapply Rle_trans; [apply error_le_half_ulp; typeclasses eauto|].
      assert (Hz : IZR (Z.of_N k) / 7 <> 0) by lra. rewrite ulp_neq_0 by exact Hz.
      assert (Hc : (cexp radix2 (SpecFloat.fexp 53 1024) (IZR (Z.of_N k) / 7) <= -53)%Z).
      { unfold cexp, SpecFloat.fexp, SpecFloat.emin. assert (mag radix2 (IZR (Z.of_N k) / 7) <= 0)%Z; [|lia].
        apply mag_le_bpow; [exact Hz|]. change (bpow radix2 0) with 1. rewrite Rabs_right by lra. lra. }
      apply (bpow_le radix2) in Hc. pose proof (bpow_gt_0 radix2 (-53)). lra. }
    split; [|exact R].
    assert (F64 (/ 2)) by (change (/ 2) with (bpow radix2 (-1)); apply F64_bpow; lia).
    pose proof (rnd_between (IZR (Z.of_N k) / 7) (/ 2) 1 H F64_1 ltac:(lra)). lra.
Qed.

Definition near (k : N) (n m : N) : Prop :=
  Rpower (IZR (Z.of_N n)) (IZR (Z.of_N k) / 7) * (1 - / 2 ^ 39) - 1 < IZR (Z.of_N m)
  <= Rpower (IZR (Z.of_N n)) (IZR (Z.of_N k) / 7) * (1 + / 2 ^ 39).

Lemma slow_n_value pow k n : (k = 5 \/ k = 6)%N -> good_pow pow -> (1 <= n < 2 ^ 64)%N ->
  exists m, N_of_double 64 (pow (double_of_N n) (ddiv (double_of_N k) (double_of_N 7))) = Ok m /\ near k n m /\
    m = Z.to_N (Zfloor (dval (pow (double_of_N n) (ddiv (double_of_N k) (double_of_N 7))))).
Proof.
  intros Hk (G1 & _ & _) Hn. destruct (sevenths_ok k Hk) as (Fc & Bc & Nc). set (c := ddiv (double_of_N k) (double_of_N 7)) in *.
  destruct (dbl_N n Hn) as (FX & BX & NX). destruct (G1 (double_of_N n) c FX Fc BX Bc) as [FP EP].
  set (P := pow (double_of_N n) c) in *. set (X := dval (double_of_N n)) in *.
  assert (K : 5 <= IZR (Z.of_N k) <= 6) by (destruct Hk as [-> | ->]; cbn; lra).
  assert (BN : 1 <= IZR (Z.of_N n) <= IZR (2 ^ 64)).
  { split; [apply (IZR_le 1); lia|apply IZR_le, Z.lt_le_incl, (proj1 (N2Z.inj_lt n (2 ^ 64))), Hn]. }
  destruct (Rpower_near (IZR (Z.of_N n)) X (IZR (Z.of_N k) / 7) (dval c) BN NX ltac:(lra) Nc Bc ltac:(apply BX)) as [R1 R2].
  set (T := Rpower (IZR (Z.of_N n)) (IZR (Z.of_N k) / 7)) in *. set (U := Rpower X (dval c)) in *.
  assert (PT : 0 < T) by apply exp_pos. assert (PU : 0 < U) by apply exp_pos. apply Rabs_le_inv in EP.
  assert (P45 : / 2 ^ 45 = / 2 ^ 40 * / 32) by (replace 45%nat with (40 + 5)%nat by reflexivity; rewrite pow_add; field).
  assert (P44 : / 2 ^ 44 = / 2 ^ 40 * / 16) by (replace 44%nat with (40 + 4)%nat by reflexivity; rewrite pow_add; field).
  assert (P39 : / 2 ^ 39 = / 2 ^ 40 * 2) by (replace 40%nat with (39 + 1)%nat by reflexivity; rewrite pow_add; field).
  pose proof eps40_pos as P40. pose proof eps40_small as S40. fold eps40 in EP, P45, P44, P39. rewrite P45 in R1. rewrite P44 in R2.
  assert (TE : 0 < T * eps40 <= T * / 1024) by (split; [apply Rmult_lt_0_compat; lra|apply Rmult_le_compat_l; lra]).
  assert (UE1 : eps40 * U <= eps40 * (2 * T)) by (apply Rmult_le_compat_l; lra).
  assert (UE2 : eps40 * (T * eps40) <= / 1024 * (T * eps40)) by (apply Rmult_le_compat_r; lra).
  assert (UE : eps40 * U <= T * eps40 + / 4 * (T * eps40)).
  { eapply Rle_trans; [apply Rmult_le_compat_l; [lra|exact R2]|]. lra. }
  assert (VP : T * (1 - / 2 ^ 39) <= dval P <= T * (1 + / 2 ^ 39)) by (rewrite P39; lra).
  assert (TB : T <= IZR (2 ^ 55)).
  { unfold T, Rpower. assert (LN : ln (IZR (Z.of_N n)) <= 64 * ln 2).
    { eapply Rle_trans; [apply (ln_le _ (2 ^ 64)); [lra|]|rewrite ln_pow by lra; replace (INR 64) with 64 by (rewrite INR_IZR_INZ; reflexivity); lra].
      destruct BN as [_ BN]. eapply Rle_trans; [exact BN|]. right. rewrite pow_IZR. reflexivity. }
    assert (L0 : 0 <= ln (IZR (Z.of_N n))) by (rewrite <- ln_1; apply ln_le; lra).
    replace (IZR (2 ^ 55)) with (exp (55 * ln 2)).
    - apply exp_le. assert (IZR (Z.of_N k) / 7 * ln (IZR (Z.of_N n)) <= 6 / 7 * (64 * ln 2)) by (apply Rmult_le_compat; lra).
      pose proof ln_lt_2. lra.
    - replace (55 * ln 2) with (ln (2 ^ 55)) by (rewrite ln_pow by lra; replace (INR 55) with 55 by (rewrite INR_IZR_INZ; reflexivity); reflexivity).
      rewrite exp_ln by (apply pow_lt; lra). rewrite pow_IZR. reflexivity. }
  assert (V0 : 0 <= dval P) by (rewrite P39 in VP; lra).
  assert (V1 : dval P < IZR (2 ^ Z.of_N 64)).
  { eapply Rle_lt_trans; [apply VP|]. rewrite P39. apply (Rle_lt_trans _ (2 * IZR (2 ^ 55))); [lra|]. rewrite <- mult_IZR. apply IZR_lt. reflexivity. }
  rewrite (N_of_double_trunc 64 P FP V0 V1). eexists. split; [reflexivity|]. split; [|reflexivity].
  assert (Z0 : (0 <= Zfloor (dval P))%Z) by (apply Zfloor_lub; exact V0).
  unfold near. fold T. rewrite Z2N.id by exact Z0.
  pose proof (Zfloor_lb (dval P)). pose proof (Zfloor_ub (dval P)). split; lra.
Qed.

Lemma near_le k n m : (k = 5 \/ k = 6)%N -> (1 <= n)%N -> near k n m -> (1024 <= m)%N -> (m <= n)%N.
Proof.
  intros Hk Hn [_ H] Hm.
  assert (K : 5 <= IZR (Z.of_N k) <= 6) by (destruct Hk as [-> | ->]; cbn; lra).
  assert (N1 : 1 <= IZR (Z.of_N n)) by (apply (IZR_le 1); lia).
  assert (M1 : 1024 <= IZR (Z.of_N m)) by (apply (IZR_le 1024); lia).
  set (T := Rpower (IZR (Z.of_N n)) (IZR (Z.of_N k) / 7)) in *. assert (PT : 0 < T) by apply exp_pos.
  assert (P39 : / 2 ^ 39 = / 2 ^ 40 * 2) by (replace 40%nat with (39 + 1)%nat by reflexivity; rewrite pow_add; field).
  pose proof eps40_pos as P40. pose proof eps40_small as S40. fold eps40 in P39. rewrite P39 in H.
  assert (TE : 0 < T * eps40 <= T * / 1024) by (split; [apply Rmult_lt_0_compat; lra|apply Rmult_le_compat_l; lra]).
  assert (T1 : 128 <= T) by lra.
  set (lnn := ln (IZR (Z.of_N n))) in *. assert (L0 : 0 <= lnn) by (unfold lnn; rewrite <- ln_1; apply ln_le; lra).
  assert (L7 : 7 * ln 2 <= lnn).
  { apply (Rle_trans _ (ln T)).
    - replace (7 * ln 2) with (ln (2 ^ 7)) by (rewrite ln_pow by lra; f_equal; cbn; lra). apply ln_le; [cbn; lra|]. cbn. lra.
    - unfold T, Rpower. rewrite ln_exp. fold lnn. assert (IZR (Z.of_N k) / 7 * lnn <= 1 * lnn) by (apply Rmult_le_compat_r; lra). lra. }
  assert (D : 2 * T <= IZR (Z.of_N n)).
  { assert (E : IZR (Z.of_N n) = exp (IZR (Z.of_N k) / 7 * lnn) * exp ((1 - IZR (Z.of_N k) / 7) * lnn)).
    { rewrite <- exp_plus. replace (IZR (Z.of_N k) / 7 * lnn + (1 - IZR (Z.of_N k) / 7) * lnn) with lnn by ring. symmetry. apply exp_ln. lra. }
    rewrite E. unfold T, Rpower. fold lnn. rewrite Rmult_comm. apply Rmult_le_compat_l; [apply Rlt_le, exp_pos|].
    rewrite <- (exp_ln 2) at 1 by lra. apply exp_le.
    assert (1 / 7 * lnn <= (1 - IZR (Z.of_N k) / 7) * lnn) by (apply Rmult_le_compat_r; lra). lra. }
  assert (IZR (Z.of_N m) <= IZR (Z.of_N n)) by lra. apply le_IZR in H0. lia.
Qed.

Definition limit_k pow k n := limit_n_exp pow (ddiv (double_of_N k) (double_of_N 7)) n.
Lemma limit_zero pow k : (k = 5 \/ k = 6)%N -> good_pow pow -> limit_k pow k 0 = Ok None.
Proof.
  intros Hk (_ & G2 & _). unfold limit_k, limit_n_exp. destruct (sevenths_ok k Hk) as (Fc & Bc & _).
  destruct (double_of_N_exact 0 ltac:(discriminate)) as [V F].
  destruct (G2 (double_of_N 0) _ F Fc V Bc) as [FP VP].
  assert (W1 : 0 <= dval (pow (double_of_N 0) (ddiv (double_of_N k) (double_of_N 7)))) by (rewrite VP; lra).
  assert (W2 : dval (pow (double_of_N 0) (ddiv (double_of_N k) (double_of_N 7))) < IZR (2 ^ Z.of_N 64)) by (rewrite VP; apply (IZR_lt 0); reflexivity).
  rewrite (N_of_double_trunc 64 _ FP W1 W2), VP.
  change 0 with (IZR 0). rewrite Zfloor_IZR. reflexivity.
Qed.

Lemma limit_spec pow k n : (k = 5 \/ k = 6)%N -> good_pow pow -> (n < 2 ^ 64)%N ->
  exists o, limit_k pow k n = Ok o /\
    match o with
    | Some m => (1024 <= m <= n)%N /\ near k n m
    | None => Rpower (IZR (Z.of_N n)) (IZR (Z.of_N k) / 7) * (1 - / 2 ^ 39) < 1024 \/ n = 0%N
    end.
Proof.
  intros Hk G Hn. destruct (N.eq_dec n 0) as [->|Hz].
  { exists None. split; [apply limit_zero; assumption|right; reflexivity]. }
  destruct (slow_n_value pow k n Hk G ltac:(lia)) as (m & E & Hm & _).
  unfold limit_k, limit_n_exp. rewrite E. cbn [obind]. destruct (N.leb_spec 1024 m) as [Hl|Hl]; eexists; (split; [reflexivity|]).
  - split; [|exact Hm]. split; [exact Hl|]. eapply near_le; [exact Hk|lia|exact Hm|exact Hl].
  - left. destruct Hm as [Hm _]. assert (IZR (Z.of_N m) + 1 <= 1024); [|lra].
    rewrite <- plus_IZR. apply IZR_le. lia.
Qed.

Lemma limit_mono pow k n n' m : (k = 5 \/ k = 6)%N -> good_pow pow -> (n <= n')%N -> (n' < 2 ^ 64)%N ->
  limit_k pow k n = Ok (Some m) -> exists m', limit_k pow k n' = Ok (Some m') /\ (m <= m')%N.
Proof.
  intros Hk G Hnn Hn' E. destruct (N.eq_dec n 0) as [->|Hz].
  { rewrite (limit_zero pow k Hk G) in E. discriminate. }
  assert (Hn : (1 <= n < 2 ^ 64)%N) by (split; [lia|eapply N.le_lt_trans; eassumption]).
  assert (Hn1 : (1 <= n' < 2 ^ 64)%N) by (split; [lia|assumption]).
  destruct (slow_n_value pow k n Hk G Hn) as (s & E1 & _ & V1).
  destruct (slow_n_value pow k n' Hk G Hn1) as (s' & E2 & _ & V2).
  unfold limit_k, limit_n_exp in *. rewrite E1 in E. rewrite E2. cbn [obind] in *.
  assert (Hs : (s <= s')%N).
  { rewrite V1, V2. destruct (sevenths_ok k Hk) as (Fc & Bc & _). destruct (dbl_N n Hn) as (FX & BX & _). destruct (dbl_N n' Hn1) as (FX' & BX' & _).
    assert (Hx : dval (double_of_N n) <= dval (double_of_N n')).
    { destruct (double_of_N_ok n (proj2 Hn)) as [-> _]. destruct (double_of_N_ok n' (proj2 Hn1)) as [-> _]. apply rnd_N_le, Hnn. }
    destruct G as (_ & _ & G3). specialize (G3 _ _ _ FX FX' Fc (proj1 BX) Hx (proj2 BX') Bc).
    apply Zfloor_le in G3. lia. }
  destruct (N.leb_spec 1024 s); [|discriminate]. injection E as <-. destruct (N.leb_spec 1024 s'); [|lia]. eauto.
Qed.

(* an instance of pow *)
Definition exact_pow (x y : double) : double := if Req_EM_T (dval x) 0 then d0 else double_of_R (Rpower (dval x) (dval y)).
Lemma exact_pow_good : good_pow exact_pow.
Proof.
  assert (K : forall x y, 1 <= dval x <= IZR (2 ^ 64) -> 0 < dval y <= 1 ->
    1 <= Rpower (dval x) (dval y) /\ dval (exact_pow x y) = rnd (Rpower (dval x) (dval y)) /\ fin (exact_pow x y)).
  { intros x y Hx Hy. unfold exact_pow. destruct (Req_EM_T (dval x) 0); [lra|].
    assert (L0 : 0 <= ln (dval x)) by (rewrite <- ln_1; apply ln_le; lra).
    assert (A : 1 <= Rpower (dval x) (dval y)).
    { unfold Rpower. rewrite <- exp_0. apply exp_le. apply Rmult_le_pos; lra. }
    split; [exact A|]. apply double_of_R_ok. apply (small_pow2 _ 64); [lia|].
    rewrite Rabs_right by lra. unfold Rpower. change (bpow radix2 64) with (IZR (2 ^ 64)).
    eapply Rle_trans; [|apply Hx]. rewrite <- (exp_ln (dval x)) at 2 by lra. apply exp_le.
    assert (dval y * ln (dval x) <= 1 * ln (dval x)) by (apply Rmult_le_compat_r; lra). lra. }
  split; [|split].
  - intros x y _ _ Hx Hy. destruct (K x y Hx Hy) as (A & V & F). split; [exact F|]. rewrite V.
    eapply Rle_trans; [apply rnd_rel, A|]. apply Rmult_le_compat_r; [lra|]. apply Rinv_le_contravar; [apply pow_lt; lra|]. apply Rle_pow; [lra|lia].
  - intros x y _ _ Hx _. unfold exact_pow. destruct (Req_EM_T (dval x) 0); [|contradiction]. split; reflexivity.
  - intros x x' y _ _ _ H1 H2 H3 Hy. destruct (K x y ltac:(lra) Hy) as (_ & -> & _). destruct (K x' y ltac:(lra) Hy) as (_ & -> & _).
    apply rnd_mono. unfold Rpower. apply exp_le. apply Rmult_le_compat_l; [lra|]. apply ln_le; lra.
Qed.

(* ---------- split_test ---------- *)
Lemma to_string_inj a b : to_string_N a = to_string_N b -> a = b.
Proof.
  unfold to_string_N. intros H. assert (E : N.to_uint a = N.to_uint b).
  { pose proof (NilEmpty.usu (N.to_uint a)) as A. pose proof (NilEmpty.usu (N.to_uint b)) as B. rewrite H in A. congruence. }
  rewrite <- (Unsigned.of_to a), <- (Unsigned.of_to b), E. reflexivity.
Qed.

Section Split.
Context {St : Type} (f : N -> St -> option statistic * St) (max_size : N).
Definition after (k : nat) (s : St) : St := Nat.iter k (fun s => snd (f max_size s)) s.
Lemma after_S k s : after (S k) s = after k (snd (f max_size s)).
Proof. unfold after. induction k; cbn in *; [reflexivity|]. rewrite IHk. reflexivity. Qed.
Lemma split_loop_spec is : forall s,
  snd (split_loop f max_size is s) = after (length is) s /\
  length (fst (split_loop f max_size is s)) = length is /\
  forall i x, nth_error is i = Some x -> nth_error (fst (split_loop f max_size is s)) i =
    Some (mksub ("s" ++ to_string_N (x + 1)) (fst (f max_size (after i s)))).
Proof.
  induction is as [|x is IH]; intro s; [cbn; split; [reflexivity|split; [reflexivity|intros [|i] y H; discriminate]]|].
  cbn [split_loop]. destruct (f max_size s) as [r s'] eqn:E. destruct (IH s') as (H1 & H2 & H3).
  destruct (split_loop f max_size is s') as [rs s''] eqn:E2. cbn [fst snd length] in *.
  split; [rewrite after_S, E; exact H1|]. split; [congruence|]. intros [|i] y H; cbn in H; cbn [nth_error].
  - injection H as ->. unfold after. cbn. rewrite E. reflexivity.
  - rewrite (H3 i y H). rewrite after_S, E. reflexivity.
Qed.
End Split.
