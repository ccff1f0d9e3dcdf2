(* Property C104: Fisher's method of combining p-values. *)
From Coq Require Import Reals Lra Lia List.
From Flocq Require Import Core BinarySingleNaN.
From Verif Require Import Base FloatModel FloatLemmas ErrorSpec ResultModel ResultSpec CollectModel StatsModel StatsProofs CouponFloatProofs RescaleProofs DistModel DistSpec DistSeries DistInst CorrPearson Prop_Dist OtherModel OtherSpec FisherProofs LibInst TestsInst LimitProofs.
Import ListNotations.
Open Scope R_scope.

(* ---- C104: Fisher's method ---- *)
Lemma two_N n : (n <= 2 ^ 47)%N -> fin (dmul two_ (double_of_N n)) /\ dval (dmul two_ (double_of_N n)) = IZR (2 * Z.of_N n).
Proof.
  intros H. destruct (double_of_N_exact 2 ltac:(lia)) as [V2 F2]. destruct (double_of_N_exact n) as [Vn Fn]; [apply N.le_trans with (1 := H); lia|].
  assert (B : (2 * Z.of_N n <= 2 ^ 48)%Z) by lia.
  assert (E : dval two_ * dval (double_of_N n) = IZR (2 * Z.of_N n)) by (unfold two_; rewrite V2, Vn, mult_IZR; reflexivity).
  destruct (dmul_ok two_ (double_of_N n) F2 Fn) as [V F].
  { rewrite E. apply small_R with (IZR (2 ^ 48)); [rewrite Rabs_pos_eq by (apply IZR_le; lia); apply IZR_le; exact B|change (2 ^ 48)%Z with 281474976710656%Z; lra]. }
  split; [exact F|]. rewrite V, E. apply rnd_id, F64_Z. lia.
Qed.
Lemma minus_two : fin (dconst (-2) 0) /\ dval (dconst (-2) 0) = -2.
Proof.
  assert (E : F2R (Float radix2 (-2) 0) = -2) by (unfold F2R; cbn; lra).
  destruct (dconst_ok (-2) 0) as [V F]; [rewrite E; apply small_R with 2; [rewrite Rabs_left; lra|lra]|]. split; [exact F|]. rewrite V, E. apply rnd_id. apply (F64_Z (-2)). lia.
Qed.
Lemma fisher_stat log exp erfc ps : good_dist log exp erfc -> log_sign log -> Forall valid01 ps -> ps <> [] -> (N.of_nat (length ps) <= 2 ^ 47)%N ->
  let x := dmul (dconst (-2) 0) (fsum log ps d0) in
  fin x /\ 0 <= dval x /\ dval x = rnd (-2 * dval (fsum log ps d0)) /\ whole_df (dmul two_ (double_of_N (N.of_nat (length ps)))) /\ fin (fsum log ps d0) /\ - 38 * IZR (Z.of_nat (length ps)) <= dval (fsum log ps d0) <= 0.
Proof.
  intros G S V NE L. cbv zeta. destruct minus_two as [Fm Vm].
  destruct (fisher_range log exp erfc G S ps d0 0 V ltac:(reflexivity) ltac:(lia) ltac:(lia)) as [F B]; [change (dval d0) with 0; lra|]. rewrite Z.add_0_l in B.
  assert (K : IZR (Z.of_nat (length ps)) <= 140737488355328) by (change 140737488355328 with (IZR (2 ^ 47)); apply IZR_le; lia).
  destruct (dmul_ok (dconst (-2) 0) (fsum log ps d0) Fm F) as [Vx Fx].
  { rewrite Vm. apply small_R with (76 * 140737488355328); [rewrite Rabs_pos_eq; lra|lra]. }
  rewrite Vm in Vx. split; [exact Fx|]. split; [|split; [exact Vx|split; [|split; assumption]]].
  - rewrite Vx. rewrite <- (rnd_id 0 F64_0). apply rnd_mono. lra.
  - destruct (two_N (N.of_nat (length ps)) L) as [F2 V2]. split; [exact F2|]. exists (2 * Z.of_N (N.of_nat (length ps)))%Z. split; [|exact V2].
    destruct ps; [congruence|]. cbn [length] in *. lia.
Qed.
Theorem C104_probability : forall log exp erfc ps, good_dist log exp erfc -> log_sign log -> Forall valid01 ps -> ps <> [] -> (N.of_nat (length ps) <= 2 ^ 47)%N ->
  valid01 (fishers_combined_probabilities log (chi2_distribution_cdf log exp erfc) ps).
Proof.
  intros log exp erfc ps G S V NE L. destruct (fisher_stat log exp erfc ps G S V NE L) as (F & P & _ & W & _).
  unfold fishers_combined_probabilities. cbv zeta. apply C88_probability; [exact G|exact F|exact P|exact W].
Qed.
Print Assumptions C104_probability.
Lemma fisher_near log exp erfc ps : good_dist log exp erfc -> log_sign log -> Forall valid01 ps -> ps <> [] -> (N.of_nat (length ps) <= 2 ^ 19)%N ->
  Rabs (dval (dmul (dconst (-2) 0) (fsum log ps d0)) - fisher ps) <= 1 / 10.
Proof.
  intros G S V NE L. destruct (fisher_stat log exp erfc ps G S V NE) as (F & P & Vx & W & Fs & Bs); [apply N.le_trans with (1 := L); lia|].
  assert (K : IZR (Z.of_nat (length ps)) <= 524288) by (change 524288 with (IZR (2 ^ 19)); apply IZR_le; lia).
  pose proof (fisher_error log exp erfc G S ps d0 0 0 V ltac:(reflexivity) ltac:(lia) ltac:(lia)) as E. rewrite Z.add_0_l in E. change (dval d0) with 0 in E.
  specialize (E ltac:(lra) ltac:(lra)). rewrite Rplus_0_l in E. rewrite Vx.
  pose proof (rnd_err_abs (-2 * dval (fsum log ps d0))) as R.
  assert (A1 : Rabs (-2 * dval (fsum log ps d0)) <= 76 * 524288) by (apply Rabs_le; lra).
  assert (A2 : bpow radix2 (-1000) <= / 9007199254740992) by (rewrite <- u_val; apply bpow_le; lia). rewrite u_val in R. change (bpow radix2 (-25)) with (/ 33554432) in E.
  set (y := -2 * dval (fsum log ps d0)) in *. apply Rabs_le_inv in E. 
  assert (R2 : Rabs (rnd y - y) <= 1 / 100) by (clear - R A1 A2; lra). apply Rabs_le_inv in R2. apply Rabs_le. lra.
Qed.
Theorem C104_alarm : forall log exp erfc ps, good_dist log exp erfc -> accurate_exp exp -> log_sign log -> Forall valid01 ps -> ps <> [] -> (N.of_nat (length ps) <= 2 ^ 19)%N ->
  8 * INR (length ps) + 201 <= fisher ps -> dval (fishers_combined_probabilities log (chi2_distribution_cdf log exp erfc) ps) <= / 10 ^ 14.
Proof.
  intros log exp erfc ps G X S V NE L H. destruct (fisher_stat log exp erfc ps G S V NE) as (F & P & _ & W & _); [apply N.le_trans with (1 := L); lia|].
  pose proof (fisher_near log exp erfc ps G S V NE L) as E. apply Rabs_le_inv in E.
  destruct (two_N (N.of_nat (length ps))) as [_ V2]; [apply N.le_trans with (1 := L); lia|]. rewrite nat_N_Z, mult_IZR, <- INR_IZR_INZ in V2.
  assert (K : INR (length ps) <= 524288) by (rewrite INR_IZR_INZ; change 524288 with (IZR (2 ^ 19)); apply IZR_le; lia).
  unfold fishers_combined_probabilities. cbv zeta. fold (fsum log ps d0). apply C91_far; [exact G|exact X|exact F|exact W|lra|lra].
Qed.
Print Assumptions C104_alarm.
Theorem C104_calm : forall log exp erfc ps, good_dist log exp erfc -> accurate_exp exp -> log_sign log -> Forall valid01 ps -> ps <> [] -> (N.of_nat (length ps) <= 2 ^ 19)%N ->
  fisher ps <= 2 * INR (length ps) - 1 -> 7 / 1000 <= dval (fishers_combined_probabilities log (chi2_distribution_cdf log exp erfc) ps).
Proof.
  intros log exp erfc ps G X S V NE L H. destruct (fisher_stat log exp erfc ps G S V NE) as (F & P & _ & W & _); [apply N.le_trans with (1 := L); lia|].
  pose proof (fisher_near log exp erfc ps G S V NE L) as E. apply Rabs_le_inv in E.
  destruct (two_N (N.of_nat (length ps))) as [_ V2]; [apply N.le_trans with (1 := L); lia|]. rewrite nat_N_Z, mult_IZR, <- INR_IZR_INZ in V2.
  assert (K : INR (length ps) <= 524288) by (rewrite INR_IZR_INZ; change 524288 with (IZR (2 ^ 19)); apply IZR_le; lia).
  unfold fishers_combined_probabilities. cbv zeta. fold (fsum log ps d0). apply C91_below; [exact G|exact X|exact F|exact W|lra|lra].
Qed.
Print Assumptions C104_calm.
(* p-values of 1 are no evidence. *)
Theorem C104_ones : forall log exp erfc n, good_dist log exp erfc -> is_finite (log d1) = true -> dval (log d1) = 0 -> (1 <= n < 550000)%N ->
  let p := fishers_combined_probabilities log (chi2_distribution_cdf log exp erfc) (repeat d1 (N.to_nat n)) in is_finite p = true /\ dval p = 1.
Proof.
  intros log exp erfc n G F1 V1 Hn p. subst p. unfold fishers_combined_probabilities. cbv zeta. rewrite repeat_length, N2Nat.id.
  assert (M : dmax min_p d1 = d1).
  { unfold dmax. replace (dlt min_p d1) with true; [reflexivity|]. symmetry. apply dlt_iff; [apply min_p_val|apply d1_val|]. destruct min_p_val as (_ & _ & B). destruct d1_val as [-> _]. lra. }
  assert (Z : forall k s, fin s -> dval s = 0 -> fin (fold_left (fun sum p => dadd sum (log_safe log p)) (repeat d1 k) s) /\ dval (fold_left (fun sum p => dadd sum (log_safe log p)) (repeat d1 k) s) = 0).
  { induction k as [|k IH]; intros s Fs Vs; cbn [repeat fold_left]; [split; assumption|]. unfold log_safe at 2 4. rewrite M.
    destruct (dadd_ok s (log d1) Fs F1) as [Va Fa]; [rewrite Vs, V1; apply small_R with 1; [rewrite Rplus_0_r, Rabs_R0; lra|lra]|].
    apply IH; [exact Fa|]. rewrite Va, Vs, V1, Rplus_0_r. apply rnd_id, F64_0. }
  destruct (Z (N.to_nat n) d0 eq_refl eq_refl) as [Fs Vs]. destruct minus_two as [Fm Vm].
  destruct (dmul_ok _ _ Fm Fs) as [Vx Fx]; [rewrite Vs, Rmult_0_r; apply small_R with 1; [rewrite Rabs_R0; lra|lra]|].
  destruct (two_N n) as [F2 V2]; [lia|]. assert (K : IZR (2 * Z.of_N n) <= IZR 1099998) by (apply IZR_le; lia).
  apply C89_zero; [exact G|exact Fx|rewrite Vx, Vs, Rmult_0_r; apply rnd_id, F64_0| |rewrite V2; lra].
  split; [exact F2|]. exists (2 * Z.of_N n)%Z. split; [lia|exact V2].
Qed.
Print Assumptions C104_ones.
(* Without any p-values the result is 0, the strongest possible alarm. *)
Theorem C104_empty_refuted : forall log exp erfc, fishers_combined_probabilities log (chi2_distribution_cdf log exp erfc) [] = d0.
Proof.
  intros. unfold fishers_combined_probabilities. cbv zeta. cbn [fold_left length N.of_nat]. unfold chi2_distribution_cdf.
  replace (is_near (dmul two_ (double_of_N 0)) d0) with true; [reflexivity|]. vm_compute. reflexivity.
Qed.
Print Assumptions C104_empty_refuted.
Lemma lib_log_sign : log_sign lib_log.
Proof.
  intros x F H. unfold lib_log. destruct (Req_EM_T (dval x) 0); [lra|]. unfold exact_log.
  assert (L0 : ln (dval x) <= 0) by (rewrite <- ln_1; apply LimitProofs.ln_le; lra).
  assert (B : Rabs (ln (dval x)) <= 2048) by (pose proof (DistProofs.ln_low x (proj1 H)); apply Rabs_le; lra).
  destruct (double_of_R_ok (ln (dval x))) as [V F']; [apply (small_bpow _ 11); [lia|exact B]|]. rewrite V. rewrite <- (rnd_id 0 F64_0). apply rnd_mono. exact L0.
Qed.
Lemma lib_log_1 : is_finite (lib_log d1) = true /\ dval (lib_log d1) = 0.
Proof.
  unfold lib_log. destruct d1_val as [V1 F1]. destruct (Req_EM_T (dval d1) 0); [lra|]. unfold exact_log. rewrite V1, ln_1.
  destruct (double_of_R_ok 0) as [V F]; [apply small_R with 1; [rewrite Rabs_R0; lra|lra]|]. split; [exact F|]. rewrite V. apply rnd_id, F64_0.
Qed.
Lemma zeros_valid k : Forall valid01 (repeat d0 k).
Proof. apply Forall_forall. intros x H. apply repeat_spec in H. subst x. split; [reflexivity|]. change (dval d0) with 0. lra. Qed.
Example C104_instance : good_dist lib_log lib_exp lib_erfc /\ accurate_exp lib_exp /\ log_sign lib_log /\ (is_finite (lib_log d1) = true /\ dval (lib_log d1) = 0) /\
  Forall valid01 (repeat d0 4) /\ 8 * INR 4 + 201 <= fisher (repeat d0 4) /\ Forall valid01 [d1; dconst 1 (-1)] /\ fisher [d1; dconst 1 (-1)] <= 2 * INR 2 - 1.
Proof.
  split; [exact lib_dist_good|]. split; [exact lib_exp_accurate|]. split; [exact lib_log_sign|]. split; [exact lib_log_1|]. split; [apply zeros_valid|].
  pose proof TestsPerm.ln2_lower as L1. pose proof TestsPerm.ln2_upper as L2. destruct d1_val as [V1 F1].
  assert (H : dval (dconst 1 (-1)) = / 2 /\ fin (dconst 1 (-1))).
  { assert (E : F2R (Float radix2 1 (-1)) = / 2) by (unfold F2R; cbn; lra). destruct (dconst_ok 1 (-1)) as [V F]; [rewrite E; apply small_R with 1; [rewrite Rabs_pos_eq; lra|lra]|].
    rewrite E in V. split; [|exact F]. rewrite V. apply rnd_id. rewrite <- E. apply F64_F2R; lia. }
  destruct H as [VH FH]. split; [|split].
  - unfold fisher, rsum. cbn [repeat map fold_right]. change (dval d0) with 0. rewrite (Rmax_left (/ 10 ^ 16) 0) by (left; apply Rinv_0_lt_compat, pow_lt; lra).
    rewrite ln_Rinv by (apply pow_lt; lra). rewrite ln_pow by lra.
    assert (3 * ln 2 <= ln 10). { change 3 with (INR 3) || replace 3 with (INR 3) by (cbn; lra). rewrite <- ln_pow by lra. apply LimitProofs.ln_le; [apply pow_lt; lra|cbn; lra]. }
    replace (INR 16) with 16 by (cbn; lra). replace (INR 4) with 4 by (cbn; lra). lra.
  - repeat constructor; try assumption; rewrite ?V1, ?VH; lra.
  - unfold fisher, rsum. cbn [map fold_right]. rewrite V1, VH. rewrite (Rmax_right (/ 10 ^ 16) 1), (Rmax_right (/ 10 ^ 16) (/ 2)) by lra.
    rewrite ln_1, ln_Rinv by lra. replace (INR 2) with 2 by (cbn; lra). lra.
Qed.
