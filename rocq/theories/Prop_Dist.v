(* Properties C88-C91: the chi-square p-value. *)
From Coq Require Import String Reals Lra.
From Flocq Require Import Core BinarySingleNaN.
From Verif Require Import Base BitwiseSpec FloatModel FloatLemmas StreamModel StreamSpec ResultModel ResultSpec EvaluateModel EvaluateSpec CommandModel CommandSpec
  TestsModel TestsSpec BatteryModel BatterySpec StatsModel DistModel DistSpec DistProofs DistInst Prop_Tests.
Open Scope R_scope.

(* the 40 degrees of freedom and the statistic 55 of the examples *)
Definition df40 : double := double_of_N 40.
Definition x55 : double := double_of_N 55.
Lemma df40_whole : whole_df df40.
Proof. destruct (double_of_N_exact 40) as [V F]; [lia|]. split; [exact F|]. exists 40%Z. split; [lia|exact V]. Qed.

(* ---- C88: it is a probability ---- *)
Theorem C88_probability : forall log exp erfc x k, good_dist log exp erfc -> is_finite x = true -> 0 <= dval x -> whole_df k ->
  valid01 (chi2_distribution_cdf log exp erfc x k).
Proof.
  intros log exp erfc x k G Fx Hx (Fk & m & Hm & Vk). destruct (chi2_form log exp erfc G x k m Fx Fk Hx Hm Vk) as (p & Hp & -> & _). apply one_minus, Hp.
Qed.
Print Assumptions C88_probability.
Example C88_instance : good_dist lib_log lib_exp lib_erfc /\ is_finite x55 = true /\ 0 <= dval x55 /\ whole_df df40 /\ valid01 (chi2_distribution_cdf lib_log lib_exp lib_erfc x55 df40).
Proof.
  destruct (double_of_N_exact 55) as [V F]; [lia|]. change (IZR (Z.of_N 55)) with 55 in V. unfold x55. assert (0 <= dval (double_of_N 55)) by (rewrite V; lra).
  repeat split; try apply lib_dist_good; try apply df40_whole; try assumption; apply (C88_probability lib_log lib_exp lib_erfc); try assumption; try apply df40_whole; apply lib_dist_good.
Qed.
(* The tests of the battery with this p-value: C86 and C87 without an assumption on the distribution. *)
Lemma chi2_good_cdf log exp erfc : good_dist log exp erfc -> good_cdf (chi2_distribution_cdf log exp erfc).
Proof. intros G x k Fx Hx Hk. apply C88_probability; assumption. Qed.
Theorem C88_tests : forall M exp w stream mix n, good_math M -> good_dist (m_log M) exp (m_erfc M) -> In w [8; 16; 32; 64]%N ->
  (forall i, is_word w (stream i)) -> word_mixer w mix -> samples n ->
  let cdf := chi2_distribution_cdf (m_log M) exp (m_erfc M) in
  Forall (defined_valid 64)
    [mean_sub_test M w n stream; uniform_test M cdf w n stream; runs_sub_test M w n stream; serial_avalanche_test M cdf w n stream; gap_test M cdf w n stream;
     coupon_test M cdf w n stream; divisibility_test M cdf w n stream; permutation_test M cdf w n stream; binary_rank_test M cdf w n stream;
     linear_complexity_sub_test M cdf w n stream; sac_test M cdf w n stream mix; bic_test cdf w n stream mix].
Proof. intros M exp w stream mix n G D W Hs Hm Hn. apply C86_defined; try assumption. apply chi2_good_cdf, D. Qed.
Print Assumptions C88_tests.
Theorem C88_report : forall M exp w E debug root s, good_math M -> good_dist (m_log M) exp (m_erfc M) -> In w [8; 16; 32; 64]%N ->
  good_env E (m_pow M) (BatteryModel.battery_tests M (chi2_distribution_cdf (m_log M) exp (m_erfc M)) w) -> word_subjects w s ->
  (exists ops, test_command E debug root w s (Ok ops)) /\ ~ test_command E debug root w s UB /\
  forall ops, test_command E false root w s (Ok ops) ->
    let path := (root ++ "result_" ++ to_string_N w ++ ".md")%string in
    exists rows, ops = Write path (report_header w) :: map (Append path) rows /\ Forall2 (report_row E w) (test_setups E w s) rows.
Proof. intros M exp w E debug root s G D W GE WS. apply (C87_report M (chi2_distribution_cdf (m_log M) exp (m_erfc M))); try assumption. apply chi2_good_cdf, D. Qed.
Print Assumptions C88_report.
Example C88_tests_instance : good_math lib_math /\ good_dist (m_log lib_math) lib_exp (m_erfc lib_math) /\ (forall i, is_word 8 (demo_words i)) /\ samples 4096.
Proof. split; [exact lib_math_good|]. split; [exact lib_dist_good|]. split; [exact demo_words_ok|]. split; discriminate. Qed.

(* ---- C89: perfect agreement of observation and expectation has the p-value 1 ---- *)
Theorem C89_zero : forall log exp erfc x k, good_dist log exp erfc -> is_finite x = true -> dval x = 0 -> whole_df k -> dval k < 1100000 ->
  let p := chi2_distribution_cdf log exp erfc x k in is_finite p = true /\ dval p = 1.
Proof.
  intros log exp erfc x k G Fx Hx (Fk & m & Hm & Vk) Hk. rewrite Vk in Hk. apply lt_IZR in Hk.
  destruct (chi2_form log exp erfc G x k m Fx Fk ltac:(lra) Hm Vk) as (p & [Fp Bp] & -> & Z0). specialize (Z0 Hk Hx). cbv zeta.
  destruct d1_val as [V1 F1]. destruct (dsub_ok d1 p F1 Fp) as [V F]; [rewrite V1, Z0; apply (small_bpow _ 0); [lia|rewrite Rabs_pos_eq by lra; simpl; lra]|].
  split; [exact F|]. rewrite V, V1, Z0, Rminus_0_r. apply rnd_id. apply (F64_Z 1). lia.
Qed.
Print Assumptions C89_zero.
Example C89_instance : dval (chi2_distribution_cdf lib_log lib_exp lib_erfc d0 df40) = 1.
Proof.
  destruct (double_of_N_exact 40) as [V F]; [lia|]. apply (C89_zero lib_log lib_exp lib_erfc d0 df40 lib_dist_good); [reflexivity|reflexivity|exact df40_whole|]. unfold df40. rewrite V. apply (IZR_lt 40 1100000). lia.
Qed.

(* ---- C90: it is computed as 1 - P, so it is a multiple of 2^-53: either 0 or at least 2^-53 ---- *)
Theorem C90_granularity : forall log exp erfc x k, good_dist log exp erfc -> is_finite x = true -> 0 <= dval x -> whole_df k ->
  exists j : Z, (0 <= j <= 2 ^ 53)%Z /\ dval (chi2_distribution_cdf log exp erfc x k) = IZR j / 2 ^ 53.
Proof.
  intros log exp erfc x k G Fx Hx (Fk & m & Hm & Vk). destruct (chi2_form log exp erfc G x k m Fx Fk Hx Hm Vk) as (p & Hp & -> & _).
  destruct (one_minus_multiple p Hp) as (j & Hj & E). exists j. split; [exact Hj|]. rewrite E. change (bpow radix2 (-53)) with (/ 9007199254740992). replace (2 ^ 53) with 9007199254740992 by (simpl; lra). reflexivity.
Qed.
Print Assumptions C90_granularity.
Corollary C90_no_small : forall log exp erfc x k, good_dist log exp erfc -> is_finite x = true -> 0 <= dval x -> whole_df k ->
  let p := dval (chi2_distribution_cdf log exp erfc x k) in p = 0 \/ / 2 ^ 53 <= p.
Proof.
  intros log exp erfc x k G Fx Hx Hk. destruct (C90_granularity log exp erfc x k G Fx Hx Hk) as (j & [J1 J2] & E). cbv zeta. rewrite E.
  destruct (Z.eq_dec j 0) as [->|N]; [left; unfold Rdiv; ring|right]. assert (1 <= IZR j) by (apply (IZR_le 1); lia). unfold Rdiv. rewrite <- (Rmult_1_l (/ 2 ^ 53)) at 1.
  apply Rmult_le_compat_r; [left; apply Rinv_0_lt_compat, pow_lt; lra|assumption].
Qed.
Example C90_instance : exists j : Z, (0 <= j <= 2 ^ 53)%Z /\ dval (chi2_distribution_cdf lib_log lib_exp lib_erfc x55 df40) = IZR j / 2 ^ 53.
Proof.
  destruct C88_instance as (A & B & C & D & _). apply C90_granularity; assumption.
Qed.

(* ---- C91: no alarm for a statistic below the number of degrees of freedom, alarm for one far above it ---- *)
Theorem C91_below : forall log exp erfc x k, good_dist log exp erfc -> accurate_exp exp -> is_finite x = true -> whole_df k -> dval k < 1100000 ->
  0 <= dval x < dval k -> 7 / 1000 <= dval (chi2_distribution_cdf log exp erfc x k).
Proof.
  intros log exp erfc x k G X Fx (Fk & m & Hm & Vk) Hk Hx. rewrite Vk in *. apply lt_IZR in Hk.
  pose proof (chi2_below log exp erfc G x k m Fx Fk ltac:(lra) Hm Vk X Hk ltac:(lra)). lra.
Qed.
Print Assumptions C91_below.
Theorem C91_far : forall log exp erfc x k, good_dist log exp erfc -> accurate_exp exp -> is_finite x = true -> whole_df k -> dval k < 1100000 ->
  4 * dval k + 200 <= dval x -> dval (chi2_distribution_cdf log exp erfc x k) <= / 10 ^ 14.
Proof.
  intros log exp erfc x k G X Fx (Fk & m & Hm & Vk) Hk Hx. rewrite Vk in *. apply lt_IZR in Hk.
  assert (0 <= IZR m) by (apply (IZR_le 0); lia).
  apply Rle_trans with (1 := chi2_far log exp erfc G x k m Fx Fk ltac:(lra) Hm Vk X Hk Hx). change (bpow radix2 (-49)) with (/ 562949953421312). apply Rinv_le_contravar; simpl; lra.
Qed.
Print Assumptions C91_far.
Example C91_instance : accurate_exp lib_exp /\ 7 / 1000 <= dval (chi2_distribution_cdf lib_log lib_exp lib_erfc (double_of_N 39) df40) /\
  dval (chi2_distribution_cdf lib_log lib_exp lib_erfc (double_of_N 360) df40) <= / 10 ^ 14.
Proof.
  split; [exact lib_exp_accurate|]. destruct (double_of_N_exact 40) as [V F]; [lia|]. destruct (double_of_N_exact 39) as [V1 F1]; [lia|]. destruct (double_of_N_exact 360) as [V2 F2]; [lia|].
  change (IZR (Z.of_N 40)) with 40 in V. change (IZR (Z.of_N 39)) with 39 in V1. change (IZR (Z.of_N 360)) with 360 in V2. split.
  - apply C91_below; try assumption; [exact lib_dist_good|exact lib_exp_accurate|exact df40_whole|unfold df40; lra|unfold df40; lra].
  - apply C91_far; try assumption; [exact lib_dist_good|exact lib_exp_accurate|exact df40_whole|unfold df40; lra|unfold df40; lra].
Qed.
