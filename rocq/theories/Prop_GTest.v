(* Property C106: the G test. *)
From Coq Require Import Reals Lra Lia List.
From Flocq Require Import Core BinarySingleNaN.
From Verif Require Import Base FloatModel FloatLemmas ErrorSpec ResultModel ResultSpec CollectModel StatsModel StatsProofs CouponFloatProofs RescaleProofs LimitProofs TestsPerm DistModel DistSpec DistSeries DistInst CorrPearson CorrPearson2 Prop_Dist OtherModel OtherSpec GProofs Prop_Fisher.
Import ListNotations.
Open Scope R_scope.

Lemma minus_one k : (k < 2 ^ 53)%N -> let d := dmax (dsub (double_of_N k) d1) d0 in fin d /\ dval d = Rmax (IZR (Z.of_N k) - 1) 0.
Proof.
  intros H d. subst d. destruct (double_of_N_exact k ltac:(lia)) as [Vk Fk]. destruct d1_val as [V1 F1]. destruct d0_val as [V0 F0].
  assert (B : 0 <= IZR (Z.of_N k) <= 9007199254740992) by (change 9007199254740992 with (IZR (2 ^ 53)); split; apply IZR_le; lia).
  destruct (dsub_ok (double_of_N k) d1 Fk F1) as [V F]; [rewrite Vk, V1; apply small_R with 9007199254740993; [apply Rabs_le; lra|lra]|].
  rewrite Vk, V1, <- minus_IZR in V. rewrite rnd_id in V by (apply F64_Z; lia).
  unfold dmax. destruct (dlt (dsub (double_of_N k) d1) d0) eqn:E.
  - apply dlt_iff in E; [|assumption|assumption]. split; [exact F0|]. rewrite V, V0, minus_IZR in E. rewrite V0, Rmax_right by lra. reflexivity.
  - apply dlt_false in E; [|assumption|assumption]. split; [exact F|]. rewrite V, minus_IZR. rewrite V, V0, minus_IZR in E. rewrite Rmax_left by lra. reflexivity.
Qed.
Lemma near_df k : (k < 2 ^ 53)%N -> is_near (dmax (dsub (double_of_N k) d1) d0) d0 = (k <=? 1)%N.
Proof.
  intros H. destruct (minus_one k H) as [F V]. pose proof (proj1 near_eps_val) as NE. change (bpow radix2 (-72)) with (/ 4722366482869645213696) in NE. destruct (N.leb_spec k 1) as [L|L].
  - apply is_near_0; [exact F|]. rewrite V. assert (IZR (Z.of_N k) <= IZR 1) by (apply IZR_le; lia). rewrite Rmax_right by lra. rewrite Rabs_R0. lra.
  - destruct (is_near (dmax (dsub (double_of_N k) d1) d0) d0) eqn:E; [|reflexivity]. exfalso. apply is_near_0 in E; [|exact F]. rewrite V in E. assert (IZR 2 <= IZR (Z.of_N k)) by (apply IZR_le; lia).
    rewrite Rmax_left in E by lra. rewrite Rabs_pos_eq in E by lra. lra.
Qed.

(* The test has a result exactly if at least two bins are used; it has one degree of freedom less than used bins. *)
Theorem C106_result : forall log cdf bins t, is_finite t = true -> Forall ok_bin bins -> (N.of_nat (length bins) < 2 ^ 53)%N ->
  let used := length (filter (g_used t) bins) in
  match g_test_stats log cdf (map dbin bins) t with
  | None => (used <= 1)%nat
  | Some s => (2 <= used)%nat /\ st_type s = Chi2 /\ is_finite (st_df s) = true /\ dval (st_df s) = INR used - 1 /\ st_p s = cdf (st_value s) (st_df s)
  end.
Proof.
  intros log cdf bins t Ft V L used. unfold g_test_stats. rewrite g_fold by assumption.
  assert (LE : (length (filter (g_used t) bins) <= length bins)%nat) by (clear; induction bins as [|b bins IH]; cbn [filter length]; [lia|destruct (g_used t b); cbn [length]; lia]).
  set (s := fold_left _ _ _).
  assert (D : gs_df s = double_of_N (0 + N.of_nat used)) by (apply g_df; [exact Ft|apply used_filter, V|reflexivity|lia]). rewrite N.add_0_l in D.
  rewrite D, near_df by lia. destruct (N.leb_spec (N.of_nat used) 1) as [H|H]; [lia|]. cbn [st_type st_df st_value st_p].
  split; [lia|]. split; [reflexivity|]. destruct (minus_one (N.of_nat used) ltac:(lia)) as [F W]. split; [exact F|]. split; [|reflexivity].
  rewrite W, nat_N_Z, <- INR_IZR_INZ. apply Rmax_left. assert (2 <= INR used) by (change 2 with (INR 2); apply le_INR; lia). lra.
Qed.
Print Assumptions C106_result.
Lemma g_expected_low t bins : Forall (usual_bin t) bins -> bins <> [] -> bpow radix2 (-64) <= g_expected bins.
Proof.
  intros V NE. assert (G : forall l, Forall (usual_bin t) l -> 0 <= g_expected l).
  { induction l as [|b l IH]; intros F; [unfold g_expected, rsum; cbn; lra|]. inversion F as [|? ? F1 F2]; subst. specialize (IH F2). unfold g_expected, rsum in *. cbn [map fold_right]. destruct F1 as (_ & _ & B). pose proof (bpow_gt_0 radix2 (-64)). lra. }
  destruct bins as [|b l]; [congruence|]. inversion V as [|? ? F1 F2]; subst. pose proof (G l F2) as P. unfold g_expected, rsum in *. cbn [map fold_right]. destruct F1 as (_ & _ & B). lra.
Qed.
(* The statistic, up to the stated error. *)
Theorem C106_formula : forall log exp erfc cdf bins t s, good_dist log exp erfc -> is_finite t = true -> Forall ok_bin bins -> (N.of_nat (length bins) < 2 ^ 53)%N ->
  let used := filter (g_used t) bins in
  Forall (usual_bin t) used -> (Z.of_nat (length used) <= 2 ^ 20)%Z -> g_observed used <= 2 ^ 53 ->
  g_test_stats log cdf (map dbin bins) t = Some s ->
  is_finite (st_value s) = true /\ Rabs (dval (st_value s) - g_value used) <= g_observed used * (/ 2 ^ 36 + INR (length used) / 2 ^ 43).
Proof.
  intros log exp erfc cdf bins t s G Ft V L used UB LU TO E. pose proof (C106_result log cdf bins t Ft V L) as RES. cbv zeta in RES. rewrite E in RES. fold used in RES. destruct RES as (L2 & _).
  unfold g_test_stats in E. rewrite g_fold in E by assumption. fold used in E.
  assert (I0 : ginv 0 0 0 0 (mkg d0 d0 d0 d0)).
  { unfold ginv. cbn [gs_g gs_observed gs_expected]. change (dval d0) with 0. pose proof (bpow_gt_0 radix2 64). repeat split; try reflexivity; try (rewrite Rminus_0_r, Rabs_R0; lra); try (rewrite Rabs_R0; lra); lra. }
  replace (2 ^ 53) with 9007199254740992 in TO by (cbn; lra).
  destruct (g_inv log exp erfc G t Ft used _ 0 0 0 0 UB ltac:(lia) ltac:(lia) ltac:(lia) ltac:(lra) I0) as (m & Em & M0 & I). rewrite Rplus_0_l in Em. rewrite !Rplus_0_l, Z.add_0_l in I.
  set (f := fold_left _ _ _) in *. destruct I as ((Fg & Fo & Fe) & Vo & (BE & EE) & BS & ES).
  set (T := g_observed used) in *. set (TE := g_expected used) in *. set (S := rsum _) in *. rewrite Em in *.
  set (K := IZR (Z.of_nat (length used))) in *. assert (KB : 2 <= K <= 1048576) by (unfold K; split; [apply IZR_le; lia|change 1048576 with (IZR (2 ^ 20)); apply IZR_le; exact LU]).
  assert (NE : used <> []) by (intros Z; rewrite Z in L2; cbn in L2; lia).
  pose proof (g_expected_low t used UB NE) as TL. fold TE in TL. assert (PTE : 0 < TE) by (pose proof (bpow_gt_0 radix2 (-64)); lra).
  assert (T1 : 1 <= T).
  { unfold T. destruct used as [|b l]; [congruence|]. inversion UB as [|? ? F1 F2]; subst. destruct (term_ok log exp erfc G t b F1) as (_ & O1 & _). 
    assert (P : 0 <= g_observed l). { unfold g_observed, rsum. clear. induction l as [|a l IH]; cbn [map fold_right]; [lra|]. assert (0 <= IZR (Z.of_N (fst a))) by (apply IZR_le; lia). lra. }
    unfold g_observed, rsum in *. cbn [map fold_right]. lra. }
  assert (UV := u_val). assert (B64 : bpow radix2 64 = 18446744073709551616) by reflexivity. assert (B64' : bpow radix2 (-64) = / 18446744073709551616) by reflexivity.
  set (X := dval (gs_expected f)) in *.
  assert (KU : 0 <= 2 * K * u <= / 1000000000) by (rewrite UV; lra).
  assert (XE : (1 - 2 * K * u) * TE <= X <= (1 + 2 * K * u) * TE) by (apply Rabs_le_inv in EE; lra).
  assert (PX : 0 < X). { eapply Rlt_le_trans; [|apply XE]. apply Rmult_lt_0_compat; lra. }
  assert (Q0 : 0 < T / TE) by (apply Rdiv_lt_0_compat; lra).
  (* the quotient of the totals *)
  assert (QX : Rabs (T / X - T / TE) <= 3 * K * u * (T / TE)).
  { replace (T / X - T / TE) with (T / TE * ((TE - X) / X)) by (field; lra). rewrite Rabs_mult, (Rabs_pos_eq (T / TE)) by lra. rewrite (Rmult_comm (3 * K * u)). apply Rmult_le_compat_l; [lra|].
    unfold Rdiv. rewrite Rabs_mult, (Rabs_pos_eq (/ X)) by (left; apply Rinv_0_lt_compat; exact PX). apply Rmult_le_reg_r with X; [exact PX|]. rewrite Rmult_assoc, Rinv_l by lra. rewrite Rmult_1_r, Rabs_minus_sym. eapply Rle_trans; [exact EE|].
    apply Rle_trans with (3 * K * u * ((1 - 2 * K * u) * TE)); [|apply Rmult_le_compat_l; [rewrite UV; lra|apply XE]].
    replace (3 * K * u * ((1 - 2 * K * u) * TE)) with ((3 / 2 * (1 - 2 * K * u)) * (2 * K * u * TE)) by field. rewrite <- (Rmult_1_l (2 * K * u * TE)) at 1. apply Rmult_le_compat_r; [apply Rmult_le_pos; lra|lra]. }
  assert (QB : bpow radix2 (-86) <= T / TE <= bpow radix2 117).
  { split; apply Rmult_le_reg_r with TE; try exact PTE; unfold Rdiv; rewrite Rmult_assoc, Rinv_l by lra; rewrite Rmult_1_r.
    - apply Rle_trans with (bpow radix2 (-86) * (K * bpow radix2 64)); [apply Rmult_le_compat_l; [apply bpow_ge_0|apply BE]|].
      replace (bpow radix2 (-86) * (K * bpow radix2 64)) with (K * bpow radix2 (-22)) by (replace (bpow radix2 (-22)) with (bpow radix2 (-86) * bpow radix2 64) by (rewrite <- bpow_plus; reflexivity); ring).
      change (bpow radix2 (-22)) with (/ 4194304). lra.
    - apply Rle_trans with (bpow radix2 117 * bpow radix2 (-64)); [rewrite <- bpow_plus; exact TO|]. apply Rmult_le_compat_l; [apply bpow_ge_0|exact TL]. }
  assert (La90 : Rabs (ln (T / TE)) <= 90).
  { pose proof ln2_lower. pose proof ln2_upper.
    assert (ln (bpow radix2 (-86)) <= ln (T / TE)) by (apply ln_le; [apply bpow_gt_0|apply QB]). assert (ln (T / TE) <= ln (bpow radix2 117)) by (apply ln_le; [exact Q0|apply QB]).
    rewrite ln_pow2 in *. apply Rabs_le. lra. }
  assert (PTX : 0 < T / X) by (apply Rdiv_lt_0_compat; lra).
  assert (K3 : 3 * K * u <= / 1000000) by (rewrite UV; lra).
  assert (QX2 : T / X <= 2 * (T / TE)). { apply Rabs_le_inv in QX. assert (3 * K * u * (T / TE) <= 1 * (T / TE)) by (apply Rmult_le_compat_r; lra). lra. }
  destruct (ddiv_ok (gs_observed f) (gs_expected f) Fo) as [Vq Fq]; [fold X; lra| |].
  { rewrite Vo. fold X. apply small_bpow with 118%Z; [lia|]. rewrite Rabs_pos_eq by lra. replace (bpow radix2 118) with (2 * bpow radix2 117) by reflexivity. lra. }
  rewrite Vo in Vq. fold X in Vq. set (q := ddiv (gs_observed f) (gs_expected f)) in *.
  assert (RQ : Rabs (dval q - T / TE) <= (3 * K + 4) * u * (T / TE)).
  { rewrite Vq. pose proof (rnd_err_abs (T / X)) as R. rewrite (Rabs_pos_eq (T / X)) in R by lra.
    assert (A1 : bpow radix2 (-1000) <= u * (T / TE)). { apply Rle_trans with (u * bpow radix2 (-86)); [rewrite <- bpow_plus; apply bpow_le; lia|]. apply Rmult_le_compat_l; [left; apply u_pos|apply QB]. }
    assert (A2 : u * (T / X) <= u * (2 * (T / TE))) by (apply Rmult_le_compat_l; [left; apply u_pos|exact QX2]).
    replace (rnd (T / X) - T / TE) with ((rnd (T / X) - T / X) + (T / X - T / TE)) by ring. eapply Rle_trans; [apply Rabs_triang|].
    replace ((3 * K + 4) * u * (T / TE)) with (3 * K * u * (T / TE) + 4 * (u * (T / TE))) by ring. replace (u * (2 * (T / TE))) with (2 * (u * (T / TE))) in A2 by ring.
    assert (0 <= u * (T / TE)) by (apply Rmult_le_pos; [left; apply u_pos|lra]). lra. }
  assert (Pq : 0 < dval q). { apply Rabs_le_inv in RQ. assert ((3 * K + 4) * u * (T / TE) <= / 2 * (T / TE)) by (apply Rmult_le_compat_r; [lra|rewrite UV; lra]). lra. }
  destruct (gd_log _ _ _ G q Fq Pq) as [Fl El].
  pose proof (ln_rel (dval q) (T / TE) ((3 * K + 4) * u) Q0 ltac:(rewrite UV; lra) RQ) as Lq.
  set (l := dval (log q)) in *. set (La := ln (T / TE)) in *.
  assert (LL : Rabs (l - La) <= bpow radix2 (-40) + (6 * K + 8) * u) by (replace (l - La) with ((l - ln (dval q)) + (ln (dval q) - La)) by ring; eapply Rle_trans; [apply Rabs_triang|]; lra).
  assert (B40 : bpow radix2 (-40) = / 1099511627776) by reflexivity. assert (B38 : bpow radix2 (-38) = / 274877906944) by reflexivity. assert (B45 : bpow radix2 (-45) = / 35184372088832) by reflexivity.
  assert (l91 : Rabs l <= 91). { apply Rabs_le_inv in LL, La90. rewrite UV, B40 in LL. apply Rabs_le. lra. }
  destruct (dmul_ok (gs_observed f) (log q) Fo Fl) as [Vz Fz].
  { rewrite Vo. fold l. apply small_R with (9007199254740992 * 91); [|lra]. rewrite Rabs_mult. apply Rmult_le_compat; [apply Rabs_pos|apply Rabs_pos| |exact l91]. rewrite Rabs_pos_eq by lra. exact TO. }
  rewrite Vo in Vz. fold l in Vz. set (z := dmul (gs_observed f) (log q)) in *.
  assert (TU : bpow radix2 (-1000) <= u * T). { apply Rle_trans with (u * 1); [rewrite Rmult_1_r; apply bpow_le; lia|]. apply Rmult_le_compat_l; [left; apply u_pos|exact T1]. }
  assert (ZE : Rabs (dval z - T * La) <= T * (bpow radix2 (-40) + (6 * K + 100) * u)).
  { rewrite Vz. pose proof (rnd_err_abs (T * l)) as R. rewrite Rabs_mult, (Rabs_pos_eq T) in R by lra.
    replace (rnd (T * l) - T * La) with ((rnd (T * l) - T * l) + T * (l - La)) by ring. eapply Rle_trans; [apply Rabs_triang|]. rewrite Rabs_mult, (Rabs_pos_eq T) by lra.
    assert (A1 : u * (T * Rabs l) <= T * (91 * u)). { replace (u * (T * Rabs l)) with (T * (Rabs l * u)) by ring. apply Rmult_le_compat_l; [lra|]. apply Rmult_le_compat_r; [left; apply u_pos|exact l91]. }
    assert (A2 : T * Rabs (l - La) <= T * (bpow radix2 (-40) + (6 * K + 8) * u)) by (apply Rmult_le_compat_l; [lra|exact LL]).
    replace (T * (bpow radix2 (-40) + (6 * K + 100) * u)) with (T * (bpow radix2 (-40) + (6 * K + 8) * u) + T * (91 * u) + u * T) by ring. lra. }
  assert (TK : T * (bpow radix2 (-40) + (6 * K + 100) * u) <= T * 1) by (apply Rmult_le_compat_l; [lra|rewrite B40, UV; lra]).
  assert (TL90 : Rabs (T * La) <= 90 * T). { rewrite Rabs_mult, (Rabs_pos_eq T) by lra. rewrite (Rmult_comm 90). apply Rmult_le_compat_l; lra. }
  assert (TK2 : T * (bpow radix2 (-38) + K * bpow radix2 (-45)) <= T * 1) by (apply Rmult_le_compat_l; [lra|rewrite B38, B45; lra]).
  set (gg := dval (gs_g f)) in *.
  assert (BD : Rabs (gg - dval z) <= 182 * T). { apply Rabs_le_inv in ES, BS, ZE, TL90. apply Rabs_le. lra. }
  destruct (dsub_ok (gs_g f) z Fg Fz) as [Vd Fd]; [fold gg; apply small_R with (182 * 9007199254740992); lra|]. fold gg in Vd.
  destruct (double_of_N_exact 2 ltac:(lia)) as [V2 F2]. fold two_ in V2, F2. change (IZR (Z.of_N 2)) with 2 in V2.
  pose proof (rnd_err_abs (gg - dval z)) as R1. rewrite <- Vd in R1.
  assert (R1' : Rabs (dval (dsub (gs_g f) z) - (gg - dval z)) <= 183 * (u * T)).
  { eapply Rle_trans; [exact R1|]. assert (u * Rabs (gg - dval z) <= u * (182 * T)) by (apply Rmult_le_compat_l; [left; apply u_pos|exact BD]). lra. }
  assert (UT : u * T <= T * / 1000). { rewrite Rmult_comm. apply Rmult_le_compat_l; [lra|rewrite UV; lra]. }
  assert (BD2 : Rabs (dval (dsub (gs_g f) z) * 2) <= 400 * T). { apply Rabs_le_inv in R1', BD. apply Rabs_le. lra. }
  destruct (dmul_ok (dsub (gs_g f) z) two_ Fd F2) as [Vv Fv]; [rewrite V2; apply small_R with (400 * 9007199254740992); lra|]. rewrite V2 in Vv.
  destruct (is_near _ _); [discriminate|]. apply (f_equal (fun o => match o with Some a => st_value a | None => d0 end)) in E. cbn [st_value] in E. rewrite <- E. clear E.
  split; [exact Fv|]. rewrite Vv.
  pose proof (rnd_err_abs (dval (dsub (gs_g f) z) * 2)) as R2.
  assert (R2' : Rabs (rnd (dval (dsub (gs_g f) z) * 2) - dval (dsub (gs_g f) z) * 2) <= 401 * (u * T)).
  { eapply Rle_trans; [exact R2|]. assert (u * Rabs (dval (dsub (gs_g f) z) * 2) <= u * (400 * T)) by (apply Rmult_le_compat_l; [left; apply u_pos|exact BD2]). lra. }
  change (g_value used) with (2 * (S - T * La)).
  assert (FIN : T * (2 * (bpow radix2 (-38) + K * bpow radix2 (-45)) + 2 * (bpow radix2 (-40) + (6 * K + 100) * u) + 800 * u) <= T * (/ 2 ^ 36 + INR (length used) / 2 ^ 43)).
  { apply Rmult_le_compat_l; [lra|]. rewrite INR_IZR_INZ. fold K. rewrite B38, B45, B40, UV. replace (2 ^ 36) with 68719476736 by (cbn; lra). replace (2 ^ 43) with 8796093022208 by (cbn; lra). lra. }
  eapply Rle_trans; [|exact FIN]. apply Rabs_le_inv in R2', R1', ES, ZE. set (y := rnd _) in *. set (dd := dval (dsub (gs_g f) z)) in *. apply Rabs_le.
  replace (T * (2 * (bpow radix2 (-38) + K * bpow radix2 (-45)) + 2 * (bpow radix2 (-40) + (6 * K + 100) * u) + 800 * u)) with
    (2 * (T * (bpow radix2 (-38) + K * bpow radix2 (-45))) + 2 * (T * (bpow radix2 (-40) + (6 * K + 100) * u)) + 800 * (u * T)) by ring.
  clear - R2' R1' ES ZE TU UT T1. assert (0 <= u * T) by (pose proof (bpow_ge_0 radix2 (-1000)); lra). lra.
Qed.
Print Assumptions C106_formula.
(* The p-value is a probability if the statistic is larger than the error. *)
Theorem C106_probability : forall log exp erfc bins t s, good_dist log exp erfc -> is_finite t = true -> Forall ok_bin bins -> (N.of_nat (length bins) < 2 ^ 53)%N ->
  let used := filter (g_used t) bins in
  Forall (usual_bin t) used -> (Z.of_nat (length used) <= 2 ^ 20)%Z -> g_observed used <= 2 ^ 53 ->
  g_observed used * (/ 2 ^ 36 + INR (length used) / 2 ^ 43) <= g_value used ->
  g_test_stats log (chi2_distribution_cdf log exp erfc) (map dbin bins) t = Some s -> valid_stat s.
Proof.
  intros log exp erfc bins t s G Ft V L used UB LU TO GE E. 
  destruct (C106_formula log exp erfc _ bins t s G Ft V L UB LU TO E) as [F H].
  pose proof (C106_result log (chi2_distribution_cdf log exp erfc) bins t Ft V L) as RES. cbv zeta in RES. rewrite E in RES. destruct RES as (L2 & _ & Fd & Vd & P).
  unfold valid_stat. rewrite P. apply C88_probability; [exact G|exact F| |].
  - fold used in H. apply Rabs_le_inv in H. lra.
  - split; [exact Fd|]. fold used in L2. exists (Z.of_nat (length used) - 1)%Z. split; [lia|]. rewrite Vd. fold used. rewrite minus_IZR, <- INR_IZR_INZ. reflexivity.
Qed.
Print Assumptions C106_probability.

Lemma sign_pos (x : double) : 0 < dval x -> Bsign x = false.
Proof.
  intros H. destruct x as [sx|sx| |sx mx ex Hx]; unfold dval in H; cbn in H; try lra. cbn. destruct sx; [|reflexivity]. exfalso.
  assert (F2R (Float radix2 (Z.neg mx) ex) < 0) by (apply F2R_lt_0; reflexivity). cbn in H0. unfold F2R in *. cbn in *. lra.
Qed.
Lemma pos_eq (x y : double) : fin x -> fin y -> 0 < dval x -> dval x = dval y -> x = y.
Proof. intros F1 F2 P E. apply dval_inj_pos; [assumption|assumption|exact E|]. rewrite !sign_pos by lra. reflexivity. Qed.

(* Counts that are exactly the expected ones have the statistic 0 and the p-value 1. *)
Lemma equal_fold log t cs : forall s m, is_finite (log d1) = true -> dval (log d1) = 0 -> fin t -> dval t <= 1 -> Forall (fun c => (1 <= c < 2 ^ 53)%N) cs -> (0 <= m)%Z -> (m + Z.of_N (fold_right N.add 0%N cs) <= 2 ^ 53)%Z ->
  fin (gs_g s) -> dval (gs_g s) = 0 -> gs_observed s = gs_expected s -> fin (gs_observed s) -> dval (gs_observed s) = IZR m ->
  let f := fold_left (g_step log t) (map dbin (map (fun c => (c, double_of_N c)) cs)) s in
  fin (gs_g f) /\ dval (gs_g f) = 0 /\ gs_observed f = gs_expected f /\ fin (gs_observed f) /\ dval (gs_observed f) = IZR (m + Z.of_N (fold_right N.add 0%N cs)).
Proof.
  induction cs as [|c cs IH]; intros s m Z1 Z0 Ft Tt V M0 M Fg Vg EQ Fo Vo.
  - cbn [map fold_left fold_right]. rewrite Z.add_0_r. repeat split; assumption.
  - inversion V as [|? ? V1 V2]; subst. cbn [map fold_left fold_right] in *. destruct (double_of_N_exact c ltac:(lia)) as [Vc Fc].
    assert (C1 : 1 <= IZR (Z.of_N c)) by (apply IZR_le; lia).
    rewrite g_step_eq; [|exact Ft|split; [cbn [fst]; lia|exact Fc]].
    assert (U : g_used t (c, double_of_N c) = true). { unfold g_used. cbn [fst snd]. rewrite Vc. destruct (Rle_dec _ _); [|lra]. destruct (N.eqb_spec c 0); [lia|reflexivity]. }
    rewrite U. cbn [fst snd].
    assert (Q : ddiv (double_of_N c) (double_of_N c) = d1).
    { destruct (ddiv_ok (double_of_N c) (double_of_N c) Fc) as [Vq Fq]; [lra|rewrite Vc; unfold Rdiv; rewrite Rinv_r by lra; apply small_R with 1; [rewrite Rabs_R1; lra|lra]|].
      rewrite Vc in Vq. unfold Rdiv in Vq. rewrite Rinv_r in Vq by lra. rewrite rnd_id in Vq by apply F64_1. destruct d1_val as [W1 W2]. apply pos_eq; [exact Fq|exact W2|lra|lra]. }
    rewrite Q.
    destruct (dmul_ok (double_of_N c) (log d1) Fc Z1) as [Vm Fm]; [rewrite Z0, Rmult_0_r; apply small_R with 1; [rewrite Rabs_R0; lra|lra]|]. rewrite Z0, Rmult_0_r, rnd_id in Vm by apply F64_0.
    destruct (dadd_ok (gs_g s) (dmul (double_of_N c) (log d1)) Fg Fm) as [Va Fa]; [rewrite Vg, Vm, Rplus_0_r; apply small_R with 1; [rewrite Rabs_R0; lra|lra]|]. rewrite Vg, Vm, Rplus_0_r, rnd_id in Va by apply F64_0.
    assert (MB : 0 <= IZR (m + Z.of_N c) <= 9007199254740992) by (change 9007199254740992 with (IZR (2 ^ 53)); split; apply IZR_le; lia).
    destruct (dadd_ok (gs_observed s) (double_of_N c) Fo Fc) as [Vb Fb]; [rewrite Vo, Vc, <- plus_IZR; apply small_R with 9007199254740992; [rewrite Rabs_pos_eq; lra|lra]|].
    rewrite Vo, Vc, <- plus_IZR, rnd_id in Vb by (apply F64_Z; lia).
    replace (m + Z.of_N (c + fold_right N.add 0%N cs))%Z with ((m + Z.of_N c) + Z.of_N (fold_right N.add 0%N cs))%Z by lia.
    apply IH; cbn [gs_g gs_observed gs_expected]; try assumption; [lia|lia|rewrite EQ; reflexivity].
Qed.
Theorem C106_equal : forall log exp erfc cs t, good_dist log exp erfc -> is_finite (log d1) = true -> dval (log d1) = 0 -> is_finite t = true -> dval t <= 1 -> Forall (fun c => (1 <= c < 2 ^ 53)%N) cs -> (fold_right N.add 0 cs <= 2 ^ 53)%N ->
  (2 <= length cs)%nat -> (N.of_nat (length cs) <= 1100000)%N ->
  exists s, g_test_stats log (chi2_distribution_cdf log exp erfc) (map dbin (map (fun c => (c, double_of_N c)) cs)) t = Some s /\ is_finite (st_value s) = true /\ dval (st_value s) = 0 /\ is_finite (st_p s) = true /\ dval (st_p s) = 1.
Proof.
  intros log exp erfc cs t G Z1 Z0 Ft Tt V T L2 L. set (bins := map (fun c => (c, double_of_N c)) cs).
  assert (OK : Forall ok_bin bins). { apply Forall_forall. intros b H. apply in_map_iff in H. destruct H as (c & <- & H). rewrite Forall_forall in V. specialize (V c H). split; cbn [fst snd]; [lia|apply double_of_N_exact; lia]. }
  assert (U : filter (g_used t) bins = bins).
  { unfold bins. clear - V Tt. induction V as [|c cs V1 V2 IH]; [reflexivity|]. cbn [map filter].
    assert (g_used t (c, double_of_N c) = true). { destruct (double_of_N_exact c ltac:(lia)) as [Vc Fc]. assert (1 <= IZR (Z.of_N c)) by (apply IZR_le; lia). unfold g_used. cbn [fst snd]. rewrite Vc. destruct (Rle_dec _ _); [|lra]. destruct (N.eqb_spec c 0); [lia|reflexivity]. }
    rewrite H, IH. reflexivity. }
  assert (LB : length bins = length cs) by apply map_length.
  pose proof (C106_result log (chi2_distribution_cdf log exp erfc) bins t Ft OK ltac:(rewrite LB; lia)) as RES. cbv zeta in RES. rewrite U, LB in RES.
  pose proof (equal_fold log t cs (mkg d0 d0 d0 d0) 0 Z1 Z0 Ft Tt V ltac:(lia) ltac:(lia) eq_refl eq_refl eq_refl eq_refl eq_refl) as EF. cbv zeta in EF. fold bins in EF. rewrite Z.add_0_l in EF.
  destruct (g_test_stats log (chi2_distribution_cdf log exp erfc) (map dbin bins) t) as [s|] eqn:E; [|lia]. destruct RES as (_ & _ & Fd & Vd & P). exists s. split; [reflexivity|].
  unfold g_test_stats in E. set (f := fold_left _ _ _) in *. destruct EF as (Fg & Vg & EQ & Fo & Vo). destruct (is_near _ _); [discriminate|].
  assert (T1 : 1 <= IZR (Z.of_N (fold_right N.add 0%N cs))). { apply IZR_le. destruct cs as [|c cs]; [cbn in L2; lia|]. inversion V as [|? ? V1 V2]; subst. cbn [fold_right]. lia. }
  set (TT := IZR (Z.of_N (fold_right N.add 0%N cs))) in *.
  assert (Q : ddiv (gs_observed f) (gs_expected f) = d1).
  { rewrite <- EQ. destruct (ddiv_ok (gs_observed f) (gs_observed f) Fo) as [Vq Fq]; [lra|rewrite Vo; unfold Rdiv; rewrite Rinv_r by lra; apply small_R with 1; [rewrite Rabs_R1; lra|lra]|].
    rewrite Vo in Vq. unfold Rdiv in Vq. rewrite Rinv_r in Vq by lra. rewrite rnd_id in Vq by apply F64_1. destruct d1_val as [W1 W2]. apply pos_eq; [exact Fq|exact W2|lra|lra]. }
  rewrite Q in E. destruct (double_of_N_exact 2 ltac:(lia)) as [V2 F2]. fold two_ in V2, F2.
  destruct (dmul_ok (gs_observed f) (log d1) Fo Z1) as [Vm Fm]; [rewrite Z0, Rmult_0_r; apply small_R with 1; [rewrite Rabs_R0; lra|lra]|]. rewrite Z0, Rmult_0_r, rnd_id in Vm by apply F64_0.
  destruct (dsub_ok (gs_g f) (dmul (gs_observed f) (log d1)) Fg Fm) as [Va Fa]; [rewrite Vg, Vm, Rminus_0_r; apply small_R with 1; [rewrite Rabs_R0; lra|lra]|]. rewrite Vg, Vm, Rminus_0_r, rnd_id in Va by apply F64_0.
  destruct (dmul_ok (dsub (gs_g f) (dmul (gs_observed f) (log d1))) two_ Fa F2) as [Vb Fb]; [rewrite Va, Rmult_0_l; apply small_R with 1; [rewrite Rabs_R0; lra|lra]|]. rewrite Va, Rmult_0_l, rnd_id in Vb by apply F64_0.
  assert (SV : st_value s = dmul (dsub (gs_g f) (dmul (gs_observed f) (log d1))) two_) by (apply (f_equal (fun o => match o with Some a => st_value a | None => d0 end)) in E; cbn [st_value] in E; symmetry; exact E).
  rewrite SV. split; [exact Fb|]. split; [exact Vb|]. rewrite P, SV. apply C89_zero; [exact G|exact Fb|exact Vb| |].
  - split; [exact Fd|]. exists (Z.of_nat (length cs) - 1)%Z. split; [lia|]. rewrite Vd, minus_IZR, <- INR_IZR_INZ. reflexivity.
  - rewrite Vd. assert (INR (length cs) <= 1100000); [|lra]. rewrite INR_IZR_INZ. apply IZR_le. lia.
Qed.
Print Assumptions C106_equal.

(* All values in two of m+2 bins: the empty bins are left out, and the statistic is 0 with the p-value 1. *)
Definition concentrated (c k : N) (m : nat) : list (N * double) := (c, double_of_N k) :: (c, double_of_N k) :: repeat (0%N, double_of_N k) m.
Theorem C106_concentrated_refuted : forall log exp erfc c k m, good_dist log exp erfc -> (1 <= k)%N -> (2 <= m)%nat -> (2 * c = (N.of_nat m + 2) * k)%N -> (c <= 2 ^ 50)%N ->
  exists s, g_test_stats log (chi2_distribution_cdf log exp erfc) (map dbin (concentrated c k m)) d1 = Some s /\ is_finite (st_value s) = true /\ dval (st_value s) = 0 /\ is_finite (st_p s) = true /\ dval (st_p s) = 1.
Proof.
  intros log exp erfc c k m G K M C B. assert (CK : (2 * k <= c)%N) by nia. assert (MK : (N.of_nat m <= 2 ^ 51)%N) by nia.
  destruct (double_of_N_exact c) as [Vc Fc]; [lia|]. destruct (double_of_N_exact k) as [Vk Fk]; [lia|]. destruct d1_val as [V1 F1]. destruct d0_val as [Z0 Z1].
  destruct (double_of_N_exact 2 ltac:(lia)) as [V2 F2]. fold two_ in V2, F2. change (IZR (Z.of_N 2)) with 2 in V2.
  set (x := IZR (Z.of_N c)) in *. set (y := IZR (Z.of_N k)) in *.
  assert (Y1 : 1 <= y) by (apply IZR_le; lia). assert (XY : 2 * y <= x) by (unfold x, y; rewrite <- mult_IZR; apply IZR_le; lia). assert (X50 : x <= 1125899906842624) by (change 1125899906842624 with (IZR (2 ^ 50)); apply IZR_le; lia).
  assert (OK : Forall ok_bin (concentrated c k m)).
  { unfold concentrated. constructor; [|constructor]; try (split; cbn [fst snd]; [lia|exact Fk]). apply Forall_forall. intros b H. apply repeat_spec in H. subst b. split; cbn [fst snd]; [lia|exact Fk]. }
  assert (U1 : g_used d1 (c, double_of_N k) = true). { unfold g_used. cbn [fst snd]. rewrite Vk, V1. destruct (Rle_dec _ _); [|lra]. destruct (N.eqb_spec c 0); [lia|reflexivity]. }
  assert (U0 : forall j, filter (g_used d1) (repeat (0%N, double_of_N k) j) = []).
  { induction j as [|j IH]; [reflexivity|]. cbn [repeat filter]. replace (g_used d1 (0%N, double_of_N k)) with false; [exact IH|]. unfold g_used. cbn [fst snd]. destruct (Rle_dec _ _); reflexivity. }
  assert (US : filter (g_used d1) (concentrated c k m) = [(c, double_of_N k); (c, double_of_N k)]) by (unfold concentrated; cbn [filter]; rewrite U1, U0; reflexivity).
  assert (LN : (N.of_nat (length (concentrated c k m)) < 2 ^ 53)%N) by (unfold concentrated; cbn [length]; rewrite repeat_length; lia).
  pose proof (C106_result log (chi2_distribution_cdf log exp erfc) (concentrated c k m) d1 F1 OK LN) as RES. cbv zeta in RES. rewrite US in RES.
  destruct (g_test_stats _ _ _ _) as [s|] eqn:E; [|cbn [length] in RES; lia]. destruct RES as (_ & _ & Fd & Vd & P). exists s. split; [reflexivity|].
  unfold g_test_stats in E. rewrite g_fold in E by assumption. rewrite US in E. cbn [map fold_left] in E.
  assert (OK1 : ok_bin (c, double_of_N k)) by (split; cbn [fst snd]; [lia|exact Fk]).
  rewrite !(g_step_eq log d1 _ _ F1 OK1), !U1 in E. cbn [fst snd gs_g gs_observed gs_expected gs_df] in E.
  set (q := ddiv (double_of_N c) (double_of_N k)) in *. set (xx := dmul (double_of_N c) (log q)) in *.
  assert (QR : x / y = x * / y) by reflexivity.
  assert (Q2 : 2 <= x / y <= 1125899906842624).
  { split; apply Rmult_le_reg_r with y; try lra; unfold Rdiv; rewrite Rmult_assoc, Rinv_l by lra; nra. }
  destruct (ddiv_ok (double_of_N c) (double_of_N k) Fc) as [Vq Fq]; [lra|rewrite Vc, Vk; apply small_R with 1125899906842624; [rewrite Rabs_pos_eq; lra|lra]|]. fold q in Vq, Fq. rewrite Vc, Vk in Vq.
  assert (Bq : 2 <= dval q <= 1125899906842624). { rewrite Vq. apply rnd_between; [apply (F64_Z 2); lia|apply (F64_Z 1125899906842624); lia|exact Q2]. }
  destruct (gd_log _ _ _ G q Fq ltac:(lra)) as [Fl El]. set (l := dval (log q)) in *.
  assert (LB : 1 / 2 <= l <= 40).
  { pose proof ln2_lower. pose proof ln2_upper. assert (ln 2 <= ln (dval q)) by (apply ln_le; lra). assert (ln (dval q) <= ln (bpow radix2 50)) by (apply ln_le; [lra|exact (proj2 Bq)]). rewrite ln_pow2 in *.
    apply Rabs_le_inv in El. change (bpow radix2 (-40)) with (/ 1099511627776) in El. lra. }
  assert (XL : 1 / 2 <= x * l <= 1125899906842624 * 40) by nra.
  destruct (dmul_ok (double_of_N c) (log q) Fc Fl) as [Vx Fx]; [rewrite Vc; fold l; apply small_R with (1125899906842624 * 40); [rewrite Rabs_pos_eq; lra|lra]|]. fold xx in Vx, Fx. rewrite Vc in Vx. fold l in Vx.
  assert (RX : 0 <= rnd (x * l) <= 1125899906842624 * 64).
  { replace (1125899906842624 * 64) with (IZR 72057594037927936) by lra. apply rnd_between; [apply F64_0| |lra]. replace (IZR 72057594037927936) with (bpow radix2 56) by reflexivity. apply F64_bpow. lia. }
  (* sums of equal terms are exact *)
  assert (DBL : forall v, F64 v -> 0 <= v -> v = 0 \/ bpow radix2 (-960) <= v -> rnd (v + v) = v + v).
  { intros v Fv Pv H. replace (v + v) with (bpow radix2 1 * v) by (change (bpow radix2 1) with 2; ring). rewrite rnd_scale by (try lia; assumption). rewrite (rnd_id v Fv). reflexivity. }
  assert (T960 : bpow radix2 (-960) <= 1 / 4). { replace (1 / 4) with (bpow radix2 (-2)) by (cbn; lra). apply bpow_le. lia. }
  assert (RX4 : 1 / 4 <= rnd (x * l)). { replace (1 / 4) with (bpow radix2 (-2)) by (cbn; lra). rewrite <- (rnd_id (bpow radix2 (-2))) by (apply F64_bpow; lia). apply rnd_mono. change (bpow radix2 (-2)) with (/ 4). lra. }
  destruct (dadd_ok d0 xx Z1 Fx) as [Va Fa]; [rewrite Z0, Vx, Rplus_0_l; apply small_R with (1125899906842624 * 64); [rewrite Rabs_pos_eq; lra|lra]|].
  rewrite Z0, Rplus_0_l, (rnd_id (dval xx)) in Va by apply dval_format. rewrite Vx in Va.
  destruct (dadd_ok (dadd d0 xx) xx Fa Fx) as [Vb Fb]; [rewrite Va, Vx; apply small_R with (1125899906842624 * 128); [rewrite Rabs_pos_eq; lra|lra]|].
  rewrite Va, Vx, DBL in Vb; [|rewrite <- Vx; apply dval_format|lra|right; lra].
  assert (TWICE : forall n, (n <= 2 ^ 50)%N -> fin (dadd (dadd d0 (double_of_N n)) (double_of_N n)) /\ dval (dadd (dadd d0 (double_of_N n)) (double_of_N n)) = 2 * IZR (Z.of_N n)).
  { intros n Hn. destruct (double_of_N_exact n) as [Vn Fn]; [lia|]. assert (NB : 0 <= IZR (Z.of_N n) <= 1125899906842624) by (change 1125899906842624 with (IZR (2 ^ 50)); split; apply IZR_le; lia).
    destruct (dadd_ok d0 (double_of_N n) Z1 Fn) as [Wa Wf]; [rewrite Z0, Vn, Rplus_0_l; apply small_R with 1125899906842624; [rewrite Rabs_pos_eq; lra|lra]|]. rewrite Z0, Rplus_0_l, Vn, rnd_id in Wa by (apply F64_Z; lia).
    destruct (dadd_ok _ (double_of_N n) Wf Fn) as [Wb Wg]; [rewrite Wa, Vn; apply small_R with (2 * 1125899906842624); [rewrite Rabs_pos_eq; lra|lra]|]. split; [exact Wg|]. rewrite Wb, Wa, Vn. rewrite <- plus_IZR, rnd_id by (apply F64_Z; lia). rewrite plus_IZR. ring. }
  destruct (TWICE c ltac:(lia)) as [Fo Vo]. destruct (TWICE k ltac:(lia)) as [Fe Ve]. fold x in Vo. fold y in Ve.
  set (O := dadd (dadd d0 (double_of_N c)) (double_of_N c)) in *. set (EX := dadd (dadd d0 (double_of_N k)) (double_of_N k)) in *.
  assert (QQ : ddiv O EX = q).
  { destruct (ddiv_ok O EX Fo) as [Wq Wf]; [lra|rewrite Vo, Ve; replace (2 * x / (2 * y)) with (x / y) by (field; lra); apply small_R with 1125899906842624; [rewrite Rabs_pos_eq; lra|lra]|].
    rewrite Vo, Ve in Wq. replace (2 * x / (2 * y)) with (x / y) in Wq by (field; lra). apply pos_eq; [exact Wf|exact Fq|lra|lra]. }
  rewrite QQ in E.
  destruct (dmul_ok O (log q) Fo Fl) as [Vz Fz]; [rewrite Vo; fold l; apply small_R with (1125899906842624 * 80); [rewrite Rabs_pos_eq; lra|lra]|]. rewrite Vo in Vz. fold l in Vz.
  replace (2 * x * l) with (bpow radix2 1 * (x * l)) in Vz by (change (bpow radix2 1) with 2; ring). rewrite rnd_scale in Vz by (try lia; try lra; right; lra). change (bpow radix2 1) with 2 in Vz.
  destruct (dsub_ok (dadd (dadd d0 xx) xx) (dmul O (log q)) Fb Fz) as [Vs Fs]; [rewrite Vb, Vz; replace (rnd (x * l) + rnd (x * l) - 2 * rnd (x * l)) with 0 by ring; apply small_R with 1; [rewrite Rabs_R0; lra|lra]|].
  rewrite Vb, Vz in Vs. replace (rnd (x * l) + rnd (x * l) - 2 * rnd (x * l)) with 0 in Vs by ring. rewrite rnd_id in Vs by apply F64_0.
  destruct (dmul_ok _ two_ Fs F2) as [Vw Fw]; [rewrite Vs, Rmult_0_l; apply small_R with 1; [rewrite Rabs_R0; lra|lra]|]. rewrite Vs, Rmult_0_l, rnd_id in Vw by apply F64_0.
  destruct (is_near _ _); [discriminate|]. 
  assert (SV : st_value s = dmul (dsub (dadd (dadd d0 xx) xx) (dmul O (log q))) two_) by (apply (f_equal (fun o => match o with Some a => st_value a | None => d0 end)) in E; cbn [st_value] in E; symmetry; exact E).
  rewrite SV. split; [exact Fw|]. split; [exact Vw|]. rewrite P, SV. cbn [length] in Vd. replace (INR 2 - 1) with 1 in Vd by (cbn; lra). apply C89_zero; [exact G|exact Fw|exact Vw| |lra].
  split; [exact Fd|]. exists 1%Z. split; [lia|exact Vd].
Qed.
Print Assumptions C106_concentrated_refuted.

(* Rounding can make the statistic negative and the p-value NaN, although as much is observed as expected: three bins
   with 3 values and three empty ones, 1.5 expected in each. *)
Definition ln2_double : double := dconst 6243314768165359 (-53).
Definition nan_bins : list (double * double) := map (fun c => (double_of_N c, dconst 3 (-1))) [3; 3; 3; 0; 0; 0]%N.
Definition neg_g : double := dconst (-1) (-49).
Lemma nan_g log cdf : log (double_of_N 2) = ln2_double -> g_test_stats log cdf nan_bins d1 = Some (mkstat Chi2 neg_g (cdf neg_g two_) two_).
Proof.
  intros H. unfold g_test_stats, nan_bins. cbn [map fold_left].
  assert (S3 : forall s, g_step log d1 s (double_of_N 3, dconst 3 (-1)) = mkg (dadd (gs_g s) (dmul (double_of_N 3) ln2_double)) (dadd (gs_observed s) (double_of_N 3)) (dadd (gs_expected s) (dconst 3 (-1))) (dadd (gs_df s) d1)).
  { intros s. unfold g_step. replace (dlt (dconst 3 (-1)) d1) with false by (vm_compute; reflexivity). replace (dle (double_of_N 3) (dconst 6490371073168535 (-109))) with false by (vm_compute; reflexivity).
    replace (ddiv (double_of_N 3) (dconst 3 (-1))) with (double_of_N 2) by (apply B2SF_inj; vm_compute; reflexivity). rewrite H. reflexivity. }
  assert (S0 : forall s, g_step log d1 s (double_of_N 0, dconst 3 (-1)) = s).
  { intros s. unfold g_step. replace (dlt (dconst 3 (-1)) d1) with false by (vm_compute; reflexivity). replace (dle (double_of_N 0) (dconst 6490371073168535 (-109))) with true by (vm_compute; reflexivity). reflexivity. }
  rewrite !S3, !S0. cbn [gs_g gs_observed gs_expected gs_df].
  replace (dmax (dsub (dadd (dadd (dadd d0 d1) d1) d1) d1) d0) with two_ by (apply B2SF_inj; vm_compute; reflexivity).
  replace (is_near two_ d0) with false by (vm_compute; reflexivity).
  replace (ddiv (dadd (dadd (dadd d0 (double_of_N 3)) (double_of_N 3)) (double_of_N 3)) (dadd (dadd (dadd d0 (dconst 3 (-1))) (dconst 3 (-1))) (dconst 3 (-1)))) with (double_of_N 2) by (apply B2SF_inj; vm_compute; reflexivity).
  rewrite H. replace (dmul (dsub _ _) two_) with neg_g by (apply B2SF_inj; vm_compute; reflexivity). reflexivity.
Qed.
Theorem C106_nan_refuted : forall log exp erfc, nan_lib log exp -> log (double_of_N 2) = ln2_double ->
  exists s, g_test_stats log (chi2_distribution_cdf log exp erfc) nan_bins d1 = Some s /\ dval (st_value s) < 0 /\ st_p s = B754_nan.
Proof.
  intros log exp erfc [NL NX] H. eexists. split; [apply nan_g, H|]. cbn [st_value st_p].
  assert (V : fin neg_g /\ dval neg_g < 0 /\ fin (dmul (dconst 1 (-1)) neg_g) /\ dval (dmul (dconst 1 (-1)) neg_g) < 0).
  { assert (NEG : forall x : double, (exists m e Hb, x = B754_finite true m e Hb) -> fin x /\ dval x < 0).
    { intros x (mm & e & Hb & ->). split; [reflexivity|]. unfold dval. cbn. apply F2R_lt_0. reflexivity. }
    assert (SF : forall (x : double) m e, B2SF x = SpecFloat.S754_finite true m e -> exists m' e' Hb, x = B754_finite true m' e' Hb).
    { intros x m e E. destruct x as [sx|sx| |sx mx ex Hx]; cbn in E; try discriminate. inversion E; subst. eauto. }
    destruct (NEG neg_g) as [A1 A2]; [eapply SF; vm_compute; reflexivity|]. destruct (NEG (dmul (dconst 1 (-1)) neg_g)) as [A3 A4]; [eapply SF; vm_compute; reflexivity|]. repeat split; assumption. }
  destruct V as (F & N & Fh & Nh). split; [exact N|].
  unfold chi2_distribution_cdf. replace (is_near two_ d0) with false by (vm_compute; reflexivity). replace (dle (double_of_N 1100000) two_) with false by (vm_compute; reflexivity).
  unfold gamma_regularized. replace (is_near (dmul (dconst 1 (-1)) two_) d0) with false by (vm_compute; reflexivity). cbn [andb]. unfold kf_gammap.
  replace (dle (dmul (dconst 1 (-1)) neg_g) d1) with true by (symmetry; apply dle_iff; [exact Fh|apply d1_val|destruct d1_val as [-> _]; lra]). cbn [orb].
  unfold kf_gammap_series. cbv zeta. rewrite (NL _ Fh Nh).
  assert (N1 : forall x, dmul x B754_nan = B754_nan) by (intros x; destruct x; reflexivity). assert (N2 : forall x, dsub B754_nan x = B754_nan) by (intros x; destruct x; reflexivity). assert (N3 : forall x, dadd B754_nan x = B754_nan) by (intros x; destruct x; reflexivity).
  rewrite N1. repeat rewrite N2. rewrite N3, NX. reflexivity.
Qed.
Print Assumptions C106_nan_refuted.

(* ln2_double, 0x3FE62E42FEFA39EF, is the double nearest to ln 2 *)
Definition nan_log (x : double) : double := if Rlt_dec (dval x) 0 then B754_nan else ln2_double.
Example C106_instance : good_dist lib_log lib_exp lib_erfc /\ (is_finite (lib_log d1) = true /\ dval (lib_log d1) = 0) /\ nan_lib nan_log (fun x => x) /\ nan_log (double_of_N 2) = ln2_double /\
  (let bins := [(80, double_of_N 100); (125, double_of_N 100); (95, double_of_N 100); (0, double_of_N 100)]%N in
   Forall ok_bin bins /\ length (filter (g_used d1) bins) = 3%nat /\ Forall (usual_bin d1) (filter (g_used d1) bins) /\ g_observed (filter (g_used d1) bins) = 300) /\
  (let c := 100%N in let k := 50%N in 2 * c = (N.of_nat 2 + 2) * k)%N.
Proof.
  split; [exact lib_dist_good|]. split; [exact lib_log_1|]. split; [split; [intros x F H; unfold nan_log; destruct (Rlt_dec _ _); [reflexivity|lra]|reflexivity]|].
  split. { unfold nan_log. destruct (double_of_N_exact 2 ltac:(lia)) as [-> _]. destruct (Rlt_dec _ _); [exfalso; change (IZR (Z.of_N 2)) with 2 in *; lra|reflexivity]. }
  split; [|reflexivity]. cbv zeta. destruct (double_of_N_exact 100 ltac:(lia)) as [V F]. change (IZR (Z.of_N 100)) with 100 in V. destruct d1_val as [V1 F1].
  assert (U : forall c, g_used d1 (c, double_of_N 100) = negb (c =? 0)%N) by (intros c; unfold g_used; cbn [fst snd]; rewrite V, V1; destruct (Rle_dec _ _); [reflexivity|lra]).
  assert (OK : forall c, (c < 2 ^ 53)%N -> ok_bin (c, double_of_N 100)) by (intros c H; split; [exact H|exact F]).
  cbn [filter]. rewrite !U. cbn [negb N.eqb]. split; [repeat constructor; exact F|]. split; [reflexivity|].
  split; [|unfold g_observed, rsum; cbn [map fold_right fst]; change (Z.of_N 80) with 80%Z; change (Z.of_N 125) with 125%Z; change (Z.of_N 95) with 95%Z; lra].
  assert (UB : forall c, (1 <= c < 2 ^ 53)%N -> usual_bin d1 (c, double_of_N 100)).
  { intros c H. split; [apply OK; lia|]. split; [rewrite U; destruct (N.eqb_spec c 0); [lia|reflexivity]|]. cbn [snd]. rewrite V. change (bpow radix2 (-64)) with (/ 18446744073709551616). change (bpow radix2 64) with 18446744073709551616. lra. }
  repeat constructor; try exact F; try (rewrite U; reflexivity); cbn [snd]; rewrite V; change (bpow radix2 (-64)) with (/ 18446744073709551616); change (bpow radix2 64) with 18446744073709551616; lra.
Qed.
