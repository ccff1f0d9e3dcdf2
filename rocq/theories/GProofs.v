(* The G test: counts, totals and errors. *)
From Coq Require Import Reals Lra Lia List.
From Flocq Require Import Core BinarySingleNaN.
From Verif Require Import Base FloatModel FloatLemmas ErrorSpec ResultModel ResultSpec CollectModel StatsModel StatsProofs CouponFloatProofs RescaleProofs LimitProofs TestsPerm DistModel DistSpec DistSeries CorrPearson CorrPearson2 OtherModel OtherSpec.
Import ListNotations.
Open Scope R_scope.

Lemma g_eps_val : fin (dconst 6490371073168535 (-109)) /\ 0 <= dval (dconst 6490371073168535 (-109)) < 1 / 2.
Proof.
  assert (E : F2R (Float radix2 6490371073168535 (-109)) = 6490371073168535 * / 649037107316853453566312041152512).
  { unfold F2R. cbn [Fnum Fexp]. change (bpow radix2 (-109)) with (/ 649037107316853453566312041152512). reflexivity. }
  destruct (dconst_ok 6490371073168535 (-109)) as [V F].
  { rewrite E. apply small_R with 1; [rewrite Rabs_pos_eq by lra; lra|lra]. }
  rewrite (rnd_id _ (F64_F2R 6490371073168535 (-109) ltac:(lia) ltac:(lia))), E in V. split; [exact F|]. rewrite V. lra.
Qed.
Lemma g_step_eq log t s b : fin t -> ok_bin b ->
  g_step log t s (dbin b) = if g_used t b then
    mkg (dadd (gs_g s) (dmul (double_of_N (fst b)) (log (ddiv (double_of_N (fst b)) (snd b))))) (dadd (gs_observed s) (double_of_N (fst b))) (dadd (gs_expected s) (snd b)) (dadd (gs_df s) d1) else s.
Proof.
  intros Ft [B F]. destruct b as [c e]. cbn [fst snd] in *. unfold g_step, dbin, g_used. cbn [fst snd].
  destruct (double_of_N_exact c ltac:(lia)) as [Vc Fc]. destruct g_eps_val as [Fe Ve].
  destruct (Rle_dec (dval t) (dval e)) as [H|H].
  - replace (dlt e t) with false by (symmetry; apply dlt_false; assumption || lra).
    destruct (N.eqb_spec c 0) as [Z|Z].
    + replace (dle (double_of_N c) (dconst 6490371073168535 (-109))) with true; [reflexivity|]. symmetry. apply dle_iff; [exact Fc|exact Fe|]. rewrite Vc, Z. change (IZR (Z.of_N 0)) with 0. lra.
    + replace (dle (double_of_N c) (dconst 6490371073168535 (-109))) with false; [reflexivity|]. symmetry. apply dle_false; [exact Fc|exact Fe|]. rewrite Vc.
      assert (1 <= IZR (Z.of_N c)) by (apply IZR_le; lia). lra.
  - replace (dlt e t) with true; [reflexivity|]. symmetry. apply dlt_iff; [exact F|exact Ft|lra].
Qed.
Lemma g_fold log t bins : forall s, fin t -> Forall ok_bin bins -> fold_left (g_step log t) (map dbin bins) s = fold_left (g_step log t) (map dbin (filter (g_used t) bins)) s.
Proof.
  induction bins as [|b bins IH]; intros s Ft V; [reflexivity|]. inversion V as [|? ? V1 V2]; subst. cbn [map fold_left filter].
  destruct (g_used t b) eqn:U.
  - cbn [map fold_left]. apply IH; assumption.
  - rewrite g_step_eq, U by assumption. apply IH; assumption.
Qed.
Lemma used_filter t bins : Forall ok_bin bins -> Forall (fun b => ok_bin b /\ g_used t b = true) (filter (g_used t) bins).
Proof. intros V. apply Forall_forall. intros b H. apply filter_In in H. destruct H as [H1 H2]. split; [|exact H2]. rewrite Forall_forall in V. apply V, H1. Qed.
(* the number of used bins is counted exactly *)
Lemma g_df log t bins : forall s k, fin t -> Forall (fun b => ok_bin b /\ g_used t b = true) bins -> gs_df s = double_of_N k -> (k + N.of_nat (length bins) < 2 ^ 53)%N ->
  gs_df (fold_left (g_step log t) (map dbin bins) s) = double_of_N (k + N.of_nat (length bins)).
Proof.
  induction bins as [|b bins IH]; intros s k Ft V D L; [cbn [map fold_left length N.of_nat]; rewrite N.add_0_r; exact D|].
  inversion V as [|? ? [V0 V1] V2]; subst. cbn [map fold_left length] in *. rewrite g_step_eq, V1 by assumption.
  replace (k + N.of_nat (S (length bins)))%N with ((k + 1) + N.of_nat (length bins))%N by lia. apply IH; [assumption|assumption| |lia].
  cbn [gs_df]. rewrite D. destruct (double_of_N_exact k ltac:(lia)) as [Vk Fk]. destruct (double_of_N_exact (k + 1) ltac:(lia)) as [Vk1 Fk1]. destruct d1_val as [V11 F11].
  destruct (dadd_ok (double_of_N k) d1 Fk F11) as [Va Fa].
  { rewrite Vk, V11. apply small_R with (IZR (2 ^ 54)); [|change (2 ^ 54)%Z with 18014398509481984%Z; lra]. rewrite <- plus_IZR, Rabs_pos_eq by (apply IZR_le; lia). apply IZR_le. lia. }
  apply B2R_Bsign_inj; [exact Fa|exact Fk1| |].
  - fold (dval (dadd (double_of_N k) d1)) (dval (double_of_N (k + 1))). rewrite Va, Vk, V11, Vk1, <- plus_IZR. replace (Z.of_N k + 1)%Z with (Z.of_N (k + 1)) by lia. apply rnd_id, F64_Z. lia.
  - assert (P1 : 0 < dval (dadd (double_of_N k) d1)).
    { rewrite Va, Vk, V11, <- plus_IZR. rewrite rnd_id by (apply F64_Z; lia). apply IZR_lt. lia. }
    assert (P2 : 0 < dval (double_of_N (k + 1))) by (rewrite Vk1; apply IZR_lt; lia).
    assert (SG : forall x : double, 0 < dval x -> Bsign x = false).
    { intros x H. destruct x as [sx|sx| |sx mx ex Hx]; unfold dval in H; cbn in H; try lra. cbn. destruct sx; [|reflexivity]. exfalso.
      assert (F2R (Float radix2 (Z.neg mx) ex) < 0) by (apply F2R_lt_0; reflexivity). cbn in H0. unfold F2R in *. cbn in *. lra. }
    rewrite (SG _ P1), (SG _ P2). reflexivity.
Qed.

Section Err.
Variables (log exp erfc : double -> double).
Hypothesis G : good_dist log exp erfc.
Variable t : double.
Hypothesis Ft : fin t.

Notation usual_bin := (usual_bin t).
Lemma ln_pow2 e : ln (bpow radix2 e) = IZR e * ln 2.
Proof.
  destruct e as [|p|p].
  - change (bpow radix2 0) with 1. rewrite ln_1. ring.
  - rewrite <- (Z2Nat.id (Z.pos p)) by lia. rewrite bpow_nat || rewrite LibInst.bpow_nat. rewrite ln_pow by lra. rewrite INR_IZR_INZ. reflexivity.
  - replace (Z.neg p) with (- Z.pos p)%Z by reflexivity. rewrite <- (Z2Nat.id (Z.pos p)) by lia. rewrite LibInst.bpow_neg. rewrite ln_Rinv by (apply pow_lt; lra). rewrite ln_pow by lra. rewrite INR_IZR_INZ, opp_IZR. ring.
Qed.
(* log of a quotient computed with relative error d *)
Lemma ln_rel x y d : 0 < y -> 0 <= d <= 1 / 4 -> Rabs (x - y) <= d * y -> Rabs (ln x - ln y) <= 2 * d.
Proof.
  intros Y D H. apply Rabs_le_inv in H. pose proof (ln_diff x y (y / 2) ltac:(lra) ltac:(nra) ltac:(lra)) as L.
  eapply Rle_trans; [exact L|]. apply Rmult_le_reg_r with (y / 2); [lra|]. unfold Rdiv at 1. rewrite Rmult_assoc, Rinv_l by lra. rewrite Rmult_1_r. apply Rabs_le. nra.
Qed.
Lemma term_ok (b : N * double) : usual_bin b ->
  let O := IZR (Z.of_N (fst b)) in let L := ln (O / dval (snd b)) in
  let x := dmul (double_of_N (fst b)) (log (ddiv (double_of_N (fst b)) (snd b))) in
  fin x /\ 1 <= O /\ Rabs L <= 90 /\ Rabs (dval x - O * L) <= O * bpow radix2 (-38).
Proof.
  intros ([Bc Fe] & U & Be). destruct b as [c e]. cbn [fst snd] in *. cbv zeta. set (O := IZR (Z.of_N c)).
  assert (C1 : (1 <= c)%N). { unfold g_used in U. cbn [fst snd] in U. destruct (Rle_dec _ _); [|discriminate]. destruct (N.eqb_spec c 0); [discriminate|lia]. }
  assert (O1 : 1 <= O) by (apply IZR_le; lia). assert (O2 : O <= bpow radix2 53) by (change (bpow radix2 53) with (IZR (2 ^ 53)); apply IZR_le; lia).
  destruct (double_of_N_exact c ltac:(lia)) as [Vc Fc]. fold O in Vc.
  set (E := dval e) in *. assert (PE : 0 < E) by (pose proof (bpow_gt_0 radix2 (-64)); lra).
  assert (Q : bpow radix2 (-64) <= O / E <= bpow radix2 117).
  { split.
    - apply Rmult_le_reg_r with E; [exact PE|]. unfold Rdiv. rewrite Rmult_assoc, Rinv_l by lra. rewrite Rmult_1_r. apply Rle_trans with (bpow radix2 (-64) * bpow radix2 64); [apply Rmult_le_compat_l; [apply bpow_ge_0|apply Be]|]. rewrite <- bpow_plus. change (bpow radix2 (-64 + 64)) with 1. exact O1.
    - apply Rmult_le_reg_r with E; [exact PE|]. unfold Rdiv. rewrite Rmult_assoc, Rinv_l by lra. rewrite Rmult_1_r. apply Rle_trans with (bpow radix2 117 * bpow radix2 (-64)); [rewrite <- bpow_plus; exact O2|]. apply Rmult_le_compat_l; [apply bpow_ge_0|apply Be]. }
  assert (Q0 : 0 < O / E) by (apply Rdiv_lt_0_compat; lra).
  assert (L : Rabs (ln (O / E)) <= 90).
  { pose proof ln2_lower. pose proof ln2_upper.
    assert (ln (bpow radix2 (-64)) <= ln (O / E)) by (apply ln_le; [apply bpow_gt_0|apply Q]). assert (ln (O / E) <= ln (bpow radix2 117)) by (apply ln_le; [exact Q0|apply Q]).
    rewrite ln_pow2 in *. apply Rabs_le. lra. }
  destruct (ddiv_ok (double_of_N c) e Fc) as [Vq Fq]; [fold E; lra| |].
  { rewrite Vc. fold E. apply small_bpow with 117%Z; [lia|]. rewrite Rabs_pos_eq by lra. apply Q. }
  rewrite Vc in Vq. fold E in Vq. set (q := ddiv (double_of_N c) e) in *.
  assert (RQ : Rabs (dval q - O / E) <= 2 * u * (O / E)).
  { rewrite Vq. pose proof (rnd_err_abs (O / E)) as R. rewrite (Rabs_pos_eq (O / E)) in R by lra.
    assert (bpow radix2 (-1000) <= u * (O / E)). { apply Rle_trans with (u * bpow radix2 (-64)); [rewrite <- bpow_plus; apply bpow_le; lia|]. apply Rmult_le_compat_l; [left; apply u_pos|apply Q]. } lra. }
  assert (Pq : 0 < dval q). { apply Rabs_le_inv in RQ. assert (2 * u <= 1 / 2) by (rewrite u_val; lra). nra. }
  destruct (gd_log _ _ _ G q Fq Pq) as [Fl El].
  pose proof (ln_rel (dval q) (O / E) (2 * u) Q0 ltac:(rewrite u_val; lra) RQ) as Lq.
  set (l := dval (log q)) in *. set (La := ln (O / E)) in *.
  assert (LL : Rabs (l - La) <= bpow radix2 (-40) + 4 * u) by (replace (l - La) with ((l - ln (dval q)) + (ln (dval q) - La)) by ring; eapply Rle_trans; [apply Rabs_triang|]; lra).
  assert (l91 : Rabs l <= 91).
  { apply Rabs_le_inv in LL, L. rewrite u_val in LL. change (bpow radix2 (-40)) with (/ 1099511627776) in LL. apply Rabs_le. lra. }
  destruct (dmul_ok (double_of_N c) (log q) Fc Fl) as [Vx Fx].
  { rewrite Vc. fold l. apply small_R with (9007199254740992 * 91); [|lra]. rewrite Rabs_mult. apply Rmult_le_compat; [apply Rabs_pos|apply Rabs_pos| |exact l91]. rewrite Rabs_pos_eq by lra. exact O2. }
  split; [exact Fx|]. split; [exact O1|]. split; [exact L|]. rewrite Vx, Vc. fold l.
  pose proof (rnd_err_abs (O * l)) as R. rewrite Rabs_mult, (Rabs_pos_eq O) in R by lra.
  replace (rnd (O * l) - O * La) with ((rnd (O * l) - O * l) + O * (l - La)) by ring. eapply Rle_trans; [apply Rabs_triang|]. rewrite Rabs_mult, (Rabs_pos_eq O) by lra.
  assert (T1 : bpow radix2 (-1000) <= u * O). { apply Rle_trans with (u * 1); [rewrite Rmult_1_r; apply bpow_le; lia|]. apply Rmult_le_compat_l; [left; apply u_pos|exact O1]. }
  assert (T2 : u * (O * Rabs l) <= O * (91 * u)). { replace (u * (O * Rabs l)) with (O * (Rabs l * u)) by ring. apply Rmult_le_compat_l; [lra|]. apply Rmult_le_compat_r; [left; apply u_pos|exact l91]. }
  assert (T3 : O * Rabs (l - La) <= O * (bpow radix2 (-40) + 4 * u)) by (apply Rmult_le_compat_l; [lra|exact LL]).
  assert (T4 : O * (92 * u + (bpow radix2 (-40) + 4 * u)) <= O * bpow radix2 (-38)).
  { apply Rmult_le_compat_l; [lra|]. rewrite u_val. change (bpow radix2 (-40)) with (/ 1099511627776). change (bpow radix2 (-38)) with (/ 274877906944). lra. }
  lra.
Qed.

Definition ginv (k m : Z) (E S : R) (s : g_state) : Prop :=
  (fin (gs_g s) /\ fin (gs_observed s) /\ fin (gs_expected s)) /\ dval (gs_observed s) = IZR m /\
  (0 <= E <= IZR k * bpow radix2 64 /\ Rabs (dval (gs_expected s) - E) <= 2 * IZR k * u * E) /\ Rabs S <= 90 * IZR m /\
  Rabs (dval (gs_g s) - S) <= IZR m * (bpow radix2 (-38) + IZR k * bpow radix2 (-45)).
Lemma g_inv_step s b k m E S : usual_bin b -> (0 <= k < 2 ^ 20)%Z -> (0 <= m)%Z -> (m + Z.of_N (fst b) <= 2 ^ 53)%Z -> ginv k m E S s ->
  let O := IZR (Z.of_N (fst b)) in ginv (k + 1) (m + Z.of_N (fst b)) (E + dval (snd b)) (S + O * ln (O / dval (snd b))) (g_step log t s (dbin b)).
Proof.
  intros UB K M0 M ((Fg & Fo & Fe) & Vo & (BE & EE) & BS & ES) O. pose proof (term_ok b UB) as T. cbv zeta in T. fold O in T. destruct UB as (OK & U & Be). rewrite g_step_eq, U by assumption.
  destruct b as [c e]. cbn [fst snd] in *. destruct T as (Fx & O1 & L & X). destruct OK as [Bc Fe']. cbn [fst snd] in *.
  set (x := dmul (double_of_N c) (log (ddiv (double_of_N c) e))) in *. set (La := ln (O / dval e)) in *.
  assert (K1 : 0 <= IZR k <= 1048575) by (split; apply IZR_le; lia).
  assert (M1 : 0 <= IZR m) by (apply IZR_le; exact M0). assert (M2 : IZR m + O <= 9007199254740992) by (unfold O; rewrite <- plus_IZR; change 9007199254740992 with (IZR (2 ^ 53)); apply IZR_le; exact M).
  assert (B38 : bpow radix2 (-38) = / 274877906944) by reflexivity. assert (B45 : bpow radix2 (-45) = / 35184372088832) by reflexivity.
  assert (BX : Rabs (dval x) <= 91 * O).
  { replace (dval x) with ((dval x - O * La) + O * La) by ring. eapply Rle_trans; [apply Rabs_triang|]. rewrite (Rabs_mult O La), (Rabs_pos_eq O) by lra.
    assert (O * Rabs La <= O * 90) by (apply Rmult_le_compat_l; lra). rewrite B38 in X. lra. }
  assert (BG : Rabs (dval (gs_g s)) <= 91 * IZR m).
  { replace (dval (gs_g s)) with ((dval (gs_g s) - S) + S) by ring. eapply Rle_trans; [apply Rabs_triang|].
    assert (IZR m * (bpow radix2 (-38) + IZR k * bpow radix2 (-45)) <= IZR m * 1) by (apply Rmult_le_compat_l; [exact M1|rewrite B38, B45; lra]). lra. }
  assert (BA : Rabs (dval (gs_g s) + dval x) <= 91 * (IZR m + O)) by (eapply Rle_trans; [apply Rabs_triang|]; lra).
  destruct (dadd_ok (gs_g s) x Fg Fx) as [Vg Fg']; [apply small_R with (91 * 9007199254740992); lra|].
  destruct (double_of_N_exact c ltac:(lia)) as [Vc Fc].
  destruct (dadd_ok (gs_observed s) (double_of_N c) Fo Fc) as [Vo' Fo'].
  { rewrite Vo, Vc. fold O. apply small_R with 9007199254740992; [rewrite Rabs_pos_eq; lra|lra]. }
  assert (P64 : bpow radix2 64 = 18446744073709551616) by reflexivity.
  assert (Pe : 0 < dval e) by (pose proof (bpow_gt_0 radix2 (-64)); lra).
  assert (UV := u_val).
  assert (EX : Rabs (dval (gs_expected s)) <= 2 * E).
  { replace (dval (gs_expected s)) with ((dval (gs_expected s) - E) + E) by ring. eapply Rle_trans; [apply Rabs_triang|]. rewrite (Rabs_pos_eq E) by lra.
    assert (2 * IZR k * u * E <= 1 * E) by (apply Rmult_le_compat_r; [lra|rewrite UV; lra]). lra. }
  assert (EB : E <= 1048575 * bpow radix2 64) by (eapply Rle_trans; [apply BE|]; apply Rmult_le_compat_r; [apply bpow_ge_0|lra]).
  destruct (dadd_ok (gs_expected s) e Fe Fe') as [Ve Fe''].
  { apply small_R with (3 * 1048576 * bpow radix2 64); [|rewrite P64; lra]. eapply Rle_trans; [apply Rabs_triang|]. rewrite (Rabs_pos_eq (dval e)) by lra. lra. }
  unfold ginv. cbn [gs_g gs_observed gs_expected gs_df].
  split; [repeat split; assumption|]. split.
  { rewrite Vo', Vo, Vc, <- plus_IZR. apply rnd_id, F64_Z. lia. }
  split; [split|split].
  - rewrite plus_IZR. lra.
  - rewrite Ve. pose proof (rnd_err_abs (dval (gs_expected s) + dval e)) as R.
    assert (A0 : Rabs (dval (gs_expected s) + dval e) <= (1 + 2 * IZR k * u) * (E + dval e)).
    { replace (dval (gs_expected s) + dval e) with ((dval (gs_expected s) - E) + (E + dval e)) by ring. eapply Rle_trans; [apply Rabs_triang|]. rewrite (Rabs_pos_eq (E + dval e)) by lra.
      assert (0 <= 2 * IZR k * u * dval e) by (apply Rmult_le_pos; [|lra]; rewrite UV; lra). lra. }
    assert (A1 : (1 + 2 * IZR k * u) * (E + dval e) <= (3 / 2) * (E + dval e)) by (apply Rmult_le_compat_r; [lra|rewrite UV; lra]).
    assert (A2 : u * Rabs (dval (gs_expected s) + dval e) <= u * (3 / 2 * (E + dval e))) by (apply Rmult_le_compat_l; [left; apply u_pos|lra]).
    assert (A3 : bpow radix2 (-1000) <= u * (/ 2 * (E + dval e))).
    { apply Rle_trans with (u * (/ 2 * bpow radix2 (-64))).
      - replace (/ 2) with (bpow radix2 (-1)) by reflexivity. rewrite <- !bpow_plus. apply bpow_le. lia.
      - apply Rmult_le_compat_l; [left; apply u_pos|]. apply Rmult_le_compat_l; [lra|]. lra. }
    assert (A4 : 2 * IZR k * u * E <= 2 * IZR k * u * (E + dval e)) by (apply Rmult_le_compat_l; [rewrite UV; lra|lra]).
    replace (rnd (dval (gs_expected s) + dval e) - (E + dval e)) with ((rnd (dval (gs_expected s) + dval e) - (dval (gs_expected s) + dval e)) + (dval (gs_expected s) - E)) by ring.
    eapply Rle_trans; [apply Rabs_triang|]. rewrite plus_IZR. 
    replace (2 * (IZR k + 1) * u * (E + dval e)) with (2 * IZR k * u * (E + dval e) + 2 * (u * (E + dval e))) by ring. 
    replace (u * (3 / 2 * (E + dval e))) with (3 / 2 * (u * (E + dval e))) in A2 by ring. replace (u * (/ 2 * (E + dval e))) with (/ 2 * (u * (E + dval e))) in A3 by ring. lra.
  - rewrite plus_IZR. fold O. eapply Rle_trans; [apply Rabs_triang|]. rewrite Rabs_mult, (Rabs_pos_eq O) by lra. assert (O * Rabs La <= O * 90) by (apply Rmult_le_compat_l; lra). lra.
  - rewrite Vg. pose proof (rnd_err_abs (dval (gs_g s) + dval x)) as R. set (y := dval (gs_g s) + dval x) in *.
    replace (rnd y - (S + O * La)) with ((rnd y - y) + (dval (gs_g s) - S) + (dval x - O * La)) by (unfold y; ring).
    eapply Rle_trans; [apply Rabs_triang|]. eapply Rle_trans; [apply Rplus_le_compat_r, Rabs_triang|].
    assert (A1 : u * Rabs y <= u * (91 * (IZR m + O))) by (apply Rmult_le_compat_l; [left; apply u_pos|exact BA]).
    assert (A2 : bpow radix2 (-1000) <= u * (IZR m + O)).
    { apply Rle_trans with (u * 1); [rewrite Rmult_1_r; apply bpow_le; lia|]. apply Rmult_le_compat_l; [left; apply u_pos|lra]. }
    rewrite !plus_IZR. fold O. rewrite B38, B45, UV in *.
    assert (0 <= O * IZR k) by (apply Rmult_le_pos; lra). 
    replace ((IZR m + O) * (/ 274877906944 + (IZR k + 1) * / 35184372088832)) with (IZR m * (/ 274877906944 + IZR k * / 35184372088832) + O * / 274877906944 + (O * IZR k) * / 35184372088832 + (IZR m + O) * / 35184372088832) by ring. lra.
Qed.
Lemma g_inv bins : forall s k m E S, Forall usual_bin bins -> (0 <= k)%Z -> (k + Z.of_nat (length bins) <= 2 ^ 20)%Z -> (0 <= m)%Z -> IZR m + g_observed bins <= 9007199254740992 -> ginv k m E S s ->
  exists m', IZR m' = IZR m + g_observed bins /\ (m <= m')%Z /\
    ginv (k + Z.of_nat (length bins)) m' (E + g_expected bins) (S + rsum (map (fun b => IZR (Z.of_N (fst b)) * ln (IZR (Z.of_N (fst b)) / dval (snd b))) bins)) (fold_left (g_step log t) (map dbin bins) s).
Proof.
  induction bins as [|b bins IH]; intros s k m E S V K L M0 M I.
  - exists m. unfold g_observed, g_expected, rsum. cbn [map fold_right fold_left length]. rewrite Z.add_0_r, !Rplus_0_r. split; [reflexivity|]. split; [lia|exact I].
  - inversion V as [|? ? V1 V2]; subst. cbn [length] in L.
    assert (P : 0 <= g_observed bins). { unfold g_observed, rsum. clear. induction bins as [|a bins IH]; cbn [map fold_right]; [lra|]. assert (0 <= IZR (Z.of_N (fst a))) by (apply IZR_le; lia). lra. }
    assert (OE : g_observed (b :: bins) = IZR (Z.of_N (fst b)) + g_observed bins) by reflexivity. rewrite OE in M.
    assert (EE : g_expected (b :: bins) = dval (snd b) + g_expected bins) by reflexivity.
    assert (M' : (m + Z.of_N (fst b) <= 2 ^ 53)%Z) by (apply le_IZR; rewrite plus_IZR; change (IZR (2 ^ 53)) with 9007199254740992; lra).
    pose proof (g_inv_step s b k m E S V1 ltac:(lia) M0 M' I) as I1. cbv zeta in I1.
    pose proof (fun A B C D => IH _ _ _ _ _ V2 A B C D I1) as I3. destruct I3 as (m' & E1 & E2 & I2); [lia|lia|lia|rewrite plus_IZR; lra|]. exists m'. rewrite plus_IZR in E1.
    split; [rewrite OE; lra|]. split; [lia|]. cbn [map fold_left length].
    replace (k + Z.of_nat (Datatypes.S (length bins)))%Z with (k + 1 + Z.of_nat (length bins))%Z by lia. rewrite EE. unfold rsum in *. cbn [fold_right] in *. rewrite <- !Rplus_assoc. exact I2.
Qed.
End Err.
