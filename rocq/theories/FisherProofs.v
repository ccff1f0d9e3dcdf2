(* Fisher's method: bounds and errors of the sum of logarithms. *)
From Coq Require Import Reals Lra Lia List.
From Flocq Require Import Core BinarySingleNaN.
From Verif Require Import Base FloatModel FloatLemmas ErrorSpec ResultModel ResultSpec StatsModel StatsProofs CouponFloatProofs RescaleProofs LimitProofs TestsPerm DistModel DistSpec DistSeries CorrPearson CorrPearson2 OtherModel OtherSpec.
Import ListNotations.
Open Scope R_scope.

Lemma min_p_val : fin min_p /\ Rabs (dval min_p - / 10 ^ 16) <= bpow radix2 (-106) /\ bpow radix2 (-54) <= dval min_p <= 1 / 1000.
Proof.
  assert (E : F2R (Float radix2 8112963841460668 (-106)) = 8112963841460668 * / 81129638414606681695789005144064).
  { unfold F2R. cbn [Fnum Fexp]. change (bpow radix2 (-106)) with (/ 81129638414606681695789005144064). reflexivity. }
  destruct (dconst_ok 8112963841460668 (-106)) as [V F].
  { rewrite E. apply small_R with 1; [rewrite Rabs_pos_eq by lra; lra|lra]. }
  rewrite (rnd_id _ (F64_F2R 8112963841460668 (-106) ltac:(lia) ltac:(lia))), E in V. split; [exact F|]. unfold min_p. rewrite V.
  change (bpow radix2 (-106)) with (/ 81129638414606681695789005144064). change (bpow radix2 (-54)) with (/ 18014398509481984).
  split; [|lra]. apply Rabs_le. lra.
Qed.
Lemma dmax_val x y : fin x -> fin y -> fin (dmax x y) /\ dval (dmax x y) = Rmax (dval x) (dval y).
Proof.
  intros Fx Fy. unfold dmax. destruct (dlt x y) eqn:E.
  - apply dlt_iff in E; [|assumption|assumption]. split; [exact Fy|]. rewrite Rmax_right by lra. reflexivity.
  - apply dlt_false in E; [|assumption|assumption]. split; [exact Fx|]. rewrite Rmax_left by lra. reflexivity.
Qed.
Section Log.
Variables (log exp erfc : double -> double).
Hypothesis G : good_dist log exp erfc.
Hypothesis S : log_sign log.

Lemma log_safe_ok p : valid01 p -> let t := log_safe log p in fin t /\ -38 <= dval t <= 0 /\ Rabs (dval t - ln (Rmax (/ 10 ^ 16) (dval p))) <= bpow radix2 (-39).
Proof.
  intros [Fp Hp]. cbv zeta. unfold log_safe. destruct min_p_val as (F0 & V0 & B0). destruct (dmax_val min_p p F0 Fp) as [Fm Vm].
  assert (P54 : 0 < bpow radix2 (-54)) by apply bpow_gt_0.
  assert (Hm : bpow radix2 (-54) <= dval (dmax min_p p) <= 1).
  { rewrite Vm. split; [apply Rle_trans with (1 := proj1 B0), Rmax_l|apply Rmax_lub; lra]. }
  destruct (gd_log _ _ _ G _ Fm ltac:(lra)) as [Fl El]. split; [exact Fl|].
  assert (L : - (54 * (7 / 10)) <= ln (dval (dmax min_p p))).
  { apply Rle_trans with (ln (bpow radix2 (-54))); [|apply ln_le; lra].
    replace (bpow radix2 (-54)) with (/ 2 ^ 54) by (rewrite <- (LibInst.bpow_neg 54); reflexivity). rewrite ln_Rinv by (apply pow_lt; lra).
    change 54 with (INR 54) at 1 || replace 54 with (INR 54) by (cbn; lra). rewrite (ln_pow 2 ltac:(lra) 54). pose proof ln2_upper. replace (INR 54) with 54 by (cbn; lra). lra. }
  assert (B40 : bpow radix2 (-40) <= / 10) by (change (bpow radix2 (-40)) with (/ 1099511627776); lra).
  split; [split|].
  - apply Rabs_le_inv in El. lra.
  - apply S; [exact Fm|lra].
  - assert (D : Rabs (dval (dmax min_p p) - Rmax (/ 10 ^ 16) (dval p)) <= bpow radix2 (-106)).
    { rewrite Vm. apply Rle_trans with (2 := V0). unfold Rmax. repeat destruct Rle_dec; unfold Rabs; repeat destruct Rcase_abs; lra. }
    assert (T : bpow radix2 (-55) <= Rmax (/ 10 ^ 16) (dval p)).
    { apply Rle_trans with (2 := Rmax_l _ _). change (bpow radix2 (-55)) with (/ 36028797018963968). lra. }
    pose proof (ln_diff _ _ (bpow radix2 (-55)) (bpow_gt_0 _ _) ltac:(eapply Rle_trans; [|exact (proj1 Hm)]; apply bpow_le; lia) T) as LD.
    assert (Rabs (dval (dmax min_p p) - Rmax (/ 10 ^ 16) (dval p)) / bpow radix2 (-55) <= bpow radix2 (-51)).
    { unfold Rdiv. rewrite <- bpow_opp. replace (bpow radix2 (-51)) with (bpow radix2 (-106) * bpow radix2 (- -55)) by (rewrite <- bpow_plus; reflexivity).
      apply Rmult_le_compat_r; [apply bpow_ge_0|exact D]. }
    set (L1 := dval (log (dmax min_p p))) in *. set (L2 := ln (dval (dmax min_p p))) in *. set (L3 := ln (Rmax (/ 10 ^ 16) (dval p))) in *.
    replace (L1 - L3) with ((L1 - L2) + (L2 - L3)) by ring. eapply Rle_trans; [apply Rabs_triang|].
    assert (bpow radix2 (-51) <= bpow radix2 (-40)) by (apply bpow_le; lia).
    replace (bpow radix2 (-39)) with (bpow radix2 (-40) + bpow radix2 (-40)) by (change (bpow radix2 (-40)) with (/ 1099511627776); change (bpow radix2 (-39)) with (/ 549755813888); lra). lra.
Qed.

Definition fsum (ps : list double) (s : double) : double := fold_left (fun sum p => dadd sum (log_safe log p)) ps s.
Lemma fisher_range ps : forall s k, Forall valid01 ps -> fin s -> (0 <= k)%Z -> (k + Z.of_nat (length ps) <= 2 ^ 47)%Z -> - 38 * IZR k <= dval s <= 0 ->
  fin (fsum ps s) /\ - 38 * IZR (k + Z.of_nat (length ps)) <= dval (fsum ps s) <= 0.
Proof.
  induction ps as [|p ps IH]; intros s k V F K L B.
  - cbn [fsum fold_left length]. rewrite Z.add_0_r. split; assumption.
  - inversion V as [|? ? V1 V2]; subst. destruct (log_safe_ok p V1) as (Ft & Bt & _). cbn [length] in L.
    replace (fsum (p :: ps) s) with (fsum ps (dadd s (log_safe log p))) by reflexivity.
    assert (K1 : (k + 1 <= 2 ^ 47)%Z) by lia.
    assert (K2 : IZR (k + 1) <= IZR (2 ^ 47)) by (apply IZR_le; exact K1). change (2 ^ 47)%Z with 140737488355328%Z in K2. rewrite plus_IZR in K2.
    assert (K3 : 0 <= IZR k) by (apply IZR_le; exact K).
    destruct (dadd_ok s (log_safe log p) F Ft) as [Va Fa].
    { apply small_R with (38 * 140737488355328); [apply Rabs_le; lra|lra]. }
    assert (Ba : - 38 * IZR (k + 1) <= dval (dadd s (log_safe log p)) <= 0).
    { rewrite Va. rewrite <- mult_IZR. apply rnd_between; [apply F64_Z; lia|apply F64_0|]. rewrite mult_IZR, plus_IZR. lra. }
    destruct (IH _ (k + 1)%Z V2 Fa ltac:(lia) ltac:(lia) Ba) as [I1 I2]. split; [exact I1|].
    replace (k + Z.of_nat (length (p :: ps)))%Z with (k + 1 + Z.of_nat (length ps))%Z by (cbn [length]; lia). exact I2.
Qed.
Lemma fisher_error ps : forall s k T, Forall valid01 ps -> fin s -> (0 <= k)%Z -> (k + Z.of_nat (length ps) <= 2 ^ 19)%Z -> - 38 * IZR k <= dval s <= 0 ->
  -2 * dval s - T <= IZR k * bpow radix2 (-25) /\ T - -2 * dval s <= IZR k * bpow radix2 (-25) ->
  Rabs (-2 * dval (fsum ps s) - (T + fisher ps)) <= IZR (k + Z.of_nat (length ps)) * bpow radix2 (-25).
Proof.
  induction ps as [|p ps IH]; intros s k T V F K L B E.
  - cbn [fsum fold_left length fisher map rsum fold_right]. rewrite Z.add_0_r. unfold fisher, rsum. cbn [map fold_right]. apply Rabs_le. lra.
  - inversion V as [|? ? V1 V2]; subst. destruct (log_safe_ok p V1) as (Ft & Bt & Et). cbn [length] in L.
    replace (fsum (p :: ps) s) with (fsum ps (dadd s (log_safe log p))) by reflexivity.
    assert (K1 : (k + 1 <= 2 ^ 19)%Z) by lia.
    assert (K2 : IZR (k + 1) <= IZR (2 ^ 19)) by (apply IZR_le; exact K1). change (2 ^ 19)%Z with 524288%Z in K2. rewrite plus_IZR in K2.
    assert (K3 : 0 <= IZR k) by (apply IZR_le; exact K).
    destruct (dadd_ok s (log_safe log p) F Ft) as [Va Fa].
    { apply small_R with (38 * 140737488355328); [apply Rabs_le; lra|lra]. }
    assert (Ba : - 38 * IZR (k + 1) <= dval (dadd s (log_safe log p)) <= 0).
    { rewrite Va. rewrite <- mult_IZR. apply rnd_between; [apply F64_Z; lia|apply F64_0|]. rewrite mult_IZR, plus_IZR. lra. }
    set (y := -2 * ln (Rmax (/ 10 ^ 16) (dval p))).
    replace (T + fisher (p :: ps)) with ((T + y) + fisher ps) by (unfold fisher, rsum; cbn [map fold_right]; fold y; ring).
    replace (k + Z.of_nat (length (p :: ps)))%Z with (k + 1 + Z.of_nat (length ps))%Z by (cbn [length]; lia).
    apply IH; [exact V2|exact Fa|lia|lia|exact Ba|].
    assert (R : Rabs (rnd (dval s + dval (log_safe log p)) - (dval s + dval (log_safe log p))) <= bpow radix2 (-27)).
    { pose proof (rnd_err_abs (dval s + dval (log_safe log p))) as R. eapply Rle_trans; [exact R|].
      assert (A1 : Rabs (dval s + dval (log_safe log p)) <= 38 * 524288) by (apply Rabs_le; lra).
      assert (A2 : bpow radix2 (-1000) <= / 9007199254740992) by (rewrite <- u_val; apply bpow_le; lia).
      change (bpow radix2 (-27)) with (/ 134217728). rewrite u_val. clear - A1 A2. lra. }
    rewrite <- Va in R. apply Rabs_le_inv in R. apply Rabs_le_inv in Et.
    change (bpow radix2 (-27)) with (/ 134217728) in R. change (bpow radix2 (-39)) with (/ 549755813888) in Et. change (bpow radix2 (-25)) with (/ 33554432) in *.
    rewrite plus_IZR. subst y. set (L3 := ln (Rmax (/ 10 ^ 16) (dval p))) in *. lra.
Qed.
End Log.
