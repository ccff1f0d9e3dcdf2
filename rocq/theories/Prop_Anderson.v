(* Property C107: the Anderson-Darling test. *)
From Coq Require Import Reals Lra Lia List Permutation Sorted.
From Flocq Require Import Core BinarySingleNaN.
From Verif Require Import Base FloatModel FloatLemmas ErrorSpec ResultModel ResultSpec CollectModel StatsModel StatsProofs DistModel DistSpec DistInst OtherModel OtherSpec FisherProofs BinomProofs LibInst TestsInst AndersonProofs AndersonPoly AndersonFix AndersonCdf AndersonError AndersonReal Prop_Fisher OtherInst.
Import ListNotations.
Open Scope R_scope.

(* No result exactly for no data. *)
Theorem C107_none : forall log exp sort data, anderson_darling_stats log exp sort data = Ok None <-> data = [].
Proof.
  intros log exp sort data. split; [|intros ->; reflexivity]. destruct data as [|x l]; [reflexivity|]. unfold anderson_darling_stats. cbv zeta.
  destruct (anderson_darling_cdf _ _ _); cbn [obind]; intros H; discriminate H.
Qed.
Print Assumptions C107_none.
(* The order of the data is irrelevant, and so is the sorting algorithm. *)
Theorem C107_order : forall log exp sort sort' data data', sorts finite_double dlt sort -> sorts finite_double dlt sort' -> Forall valid01 data -> Permutation data data' ->
  anderson_darling_stats log exp sort data = anderson_darling_stats log exp sort' data'.
Proof. intros. apply anderson_perm; assumption. Qed.
Print Assumptions C107_order.

Lemma a2_sorted log exp erfc sort data : good_dist log exp erfc -> log_sign log -> sorts finite_double dlt sort -> Forall valid01 data -> data <> [] -> (N.of_nat (length data) <= 2 ^ 23)%N ->
  fin (a2 log (sort data)) /\ ab (a2 log (sort data)) 40 /\ (0 < dval (a2 log (sort data)) -> bpow radix2 (-52) <= dval (a2 log (sort data))) /\ sort data <> [] /\ length (sort data) = length data /\ Forall valid01 (sort data).
Proof.
  intros G S Hs V NE L. destruct (sorted_data sort data Hs V) as (Ls & Vs & _ & _).
  assert (NE' : sort data <> []) by (destruct (sort data); [destruct data; [congruence|discriminate Ls]|discriminate]).
  destruct (a2_ok log exp erfc G S (sort data) Vs NE' ltac:(rewrite Ls; exact L)) as (Fa & Va & Fq & _ & _ & Ba & _ & Bn). rewrite Ls in *.
  split; [exact Fa|]. split; [split; [exact Fa|change (bpow radix2 40) with 1099511627776; apply Rabs_le; lra]|]. split; [|split; [exact NE'|split; [reflexivity|exact Vs]]].
  intros P. rewrite Va in *. apply gap; [|exact Fq|exact P]. destruct data; [congruence|cbn [length]; lia].
Qed.
Lemma log_size n : (n <> 0)%nat -> (N.of_nat n <= 2 ^ 17)%N -> bpow radix2 (-36) * INR n + bpow radix2 (-45) * (INR n * INR n) <= 6 / 10000.
Proof.
  intros N0 H. assert (N1 : 1 <= INR n <= 131072) by (rewrite INR_IZR_INZ; split; [apply (IZR_le 1); lia|apply (IZR_le _ 131072); lia]).
  change (bpow radix2 (-36)) with (/ 68719476736). change (bpow radix2 (-45)) with (/ 35184372088832). assert (INR n * INR n <= 131072 * 131072) by (apply Rmult_le_compat; lra). lra.
Qed.
(* Up to 46340 numbers there is a result; if the statistic is positive, p is a probability. *)
Theorem C107_result : forall log exp erfc sort data, good_dist log exp erfc -> exp_nonneg exp -> accurate_exp exp -> log_sign log -> sorts finite_double dlt sort ->
  Forall valid01 data -> data <> [] -> (N.of_nat (length data) <= 46340)%N ->
  exists s, anderson_darling_stats log exp sort data = Ok (Some s) /\ st_type s = Anderson_darling_A2 /\ dval (st_df s) = INR (length data) /\ (0 < dval (st_value s) -> valid01 (st_p s)).
Proof.
  intros log exp erfc sort data G X XA S Hs V NE L. assert (HL := L).
  destruct (a2_sorted log exp erfc sort data G S Hs V NE ltac:(apply N.le_trans with (1 := HL); discriminate)) as (Fa & Aa & Ga & _ & Ls & _).
  rewrite (stats_eq log exp sort data NE Ls). set (n := N.of_nat (length data)) in *. assert (N1 : (1 <= n)%N) by (subst n; destruct data; [congruence|cbn [length]; clear; lia]).
  assert (Hn : (1 <= n < 2 ^ 31)%N) by (split; [exact N1|apply N.le_lt_trans with (1 := HL); reflexivity]). assert (NN : (n * n < 2 ^ 31)%N) by (apply N.le_lt_trans with (46340 * 46340)%N; [apply N.mul_le_mono; exact HL|reflexivity]).
  assert (DF : dval (double_of_N n) = INR (length data)). { destruct (count_ok n Hn) as (_ & Vn & _). rewrite Vn. subst n. rewrite nat_N_Z, <- INR_IZR_INZ. reflexivity. }
  assert (E : exists p, anderson_darling_cdf exp (a2 log (sort data)) (double_of_N n) = Ok p).
  { unfold anderson_darling_cdf. rewrite df_ok by exact Hn. cbn [obind]. unfold AndersonDarlingPValue. cbv zeta. rewrite errfix_eq.
    destruct (dlt _ _); [eexists; reflexivity|]. destruct (dlt _ _); [|eexists; reflexivity].
    replace (2 ^ 31 <=? n * n)%N with false by (symmetry; apply N.leb_gt; exact NN). eexists; reflexivity. }
  destruct E as [p E]. rewrite E. cbn [obind]. eexists. split; [reflexivity|]. cbn [st_type st_df st_value st_p]. split; [reflexivity|]. split; [exact DF|].
  intros P. destruct (cdf_ok log exp erfc G X XA (a2 log (sort data)) n Hn Aa) as [(p' & E' & Vp)|[E' _]].
  - apply Rle_trans with (2 := Ga P). apply bpow_le. lia.
  - rewrite E in E'. apply (f_equal (fun o => match o with Ok a => a | UB => d0 end)) in E'. cbv beta iota in E'. subst p'. exact Vp.
  - rewrite E in E'. discriminate E'.
Qed.
Print Assumptions C107_result.
(* The statistic is the formula, up to a small error. *)
Theorem C107_statistic : forall log exp erfc sort data s, good_dist log exp erfc -> log_sign log -> sorts finite_double dlt sort -> Forall valid01 data -> (N.of_nat (length data) <= 131072)%N ->
  anderson_darling_stats log exp sort data = Ok (Some s) ->
  Rabs (dval (st_value s) - ad_value (map dval (sort data))) <= bpow radix2 (-36) * INR (length data) + bpow radix2 (-45) * (INR (length data) * INR (length data)).
Proof.
  intros log exp erfc sort data s G S Hs V L E. assert (HL : (N.of_nat (length data) <= 2 ^ 17)%N) by (change (2 ^ 17)%N with 131072%N; apply L).
  assert (NE : data <> []) by (intros ->; discriminate E). 
  destruct (a2_sorted log exp erfc sort data G S Hs V NE) as (_ & _ & _ & NE' & Ls & Vs); [apply N.le_trans with (1 := HL); discriminate|].
  rewrite (stats_eq log exp sort data NE Ls) in E. destruct (anderson_darling_cdf _ _ _) as [p|]; [|discriminate E]. cbn [obind] in E.
  apply (f_equal (fun o => match o with Ok (Some a) => a | _ => mkstat Chi2 d0 d0 d0 end)) in E. cbv beta iota in E. subst s. cbn [st_value].
  pose proof (a2_err log exp erfc G S (sort data) Vs NE' ltac:(rewrite Ls; exact HL)) as Q. cbv zeta in Q. rewrite Ls in Q. exact Q.
Qed.
Print Assumptions C107_statistic.
(* For up to 10000 numbers, whatever they are, the statistic is positive and p is a probability. *)
Theorem C107_probability : forall log exp erfc sort data, good_dist log exp erfc -> exp_nonneg exp -> accurate_exp exp -> log_sign log -> sorts finite_double dlt sort ->
  Forall valid01 data -> data <> [] -> (N.of_nat (length data) <= 10000)%N ->
  exists s, anderson_darling_stats log exp sort data = Ok (Some s) /\ 0 < dval (st_value s) /\ valid01 (st_p s).
Proof.
  intros log exp erfc sort data G X XA S Hs V NE L. assert (L' : (N.of_nat (length data) <= 46340)%N) by (apply N.le_trans with (1 := L); discriminate). assert (L2 : (N.of_nat (length data) <= 131072)%N) by (apply N.le_trans with (1 := L); discriminate).
  destruct (C107_result log exp erfc sort data G X XA S Hs V NE L') as (s & E & _ & _ & P). exists s. split; [exact E|].
  assert (Q : 0 < dval (st_value s)); [|split; [exact Q|apply P, Q]].
  pose proof (C107_statistic log exp erfc sort data s G S Hs V L2 E) as D.
  destruct (sorted_data sort data Hs V) as (Ls & Vs & _ & _).
  pose proof (ad_positive (map dval (sort data))) as A. rewrite map_length, Ls in A.
  assert (A1 : map dval (sort data) <> []) by (destruct (sort data); [destruct data; [congruence|discriminate Ls]|discriminate]).
  assert (A2 : Forall (fun x => 0 <= x <= 1) (map dval (sort data))) by (apply Forall_map; eapply Forall_impl; [|exact Vs]; intros a [_ B]; exact B).
  specialize (A A1 A2). assert (N1 : 1 <= INR (length data)) by (apply (le_INR 1); destruct data; [congruence|cbn [length]; clear; lia]).
  assert (N2 : INR (length data) <= 10000). { rewrite INR_IZR_INZ. apply IZR_le. clear - L. lia. }
  set (n := INR (length data)) in *. apply Rabs_le_inv in D. change (bpow radix2 (-36)) with (/ 68719476736) in D. change (bpow radix2 (-45)) with (/ 35184372088832) in D.
  assert (NN : n * n <= 10000 * 10000) by (apply Rmult_le_compat; lra). assert (I : / 80000 <= / (8 * n)) by (apply Rinv_le; lra). lra.
Qed.
Print Assumptions C107_probability.
(* However far the data are from uniform: if the statistic is above 33, p is between 0.0004/n and 0.0008/n. It does not become smaller. *)
Theorem C107_floor : forall log exp erfc sort data, good_dist log exp erfc -> exp_nonneg exp -> accurate_exp exp -> log_sign log -> sorts finite_double dlt sort ->
  Forall valid01 data -> data <> [] -> (N.of_nat (length data) <= 131072)%N -> 33 <= ad_value (map dval (sort data)) ->
  exists s, anderson_darling_stats log exp sort data = Ok (Some s) /\ 4 / 10000 / INR (length data) <= dval (st_p s) <= 8 / 10000 / INR (length data).
Proof.
  intros log exp erfc sort data G X XA S Hs V NE L H. assert (HL : (N.of_nat (length data) <= 2 ^ 17)%N) by (change (2 ^ 17)%N with 131072%N; apply L).
  destruct (a2_sorted log exp erfc sort data G S Hs V NE) as (Fa & Aa & _ & NE' & Ls & Vs); [apply N.le_trans with (1 := HL); discriminate|].
  pose proof (a2_err log exp erfc G S (sort data) Vs NE' ltac:(rewrite Ls; exact HL)) as Q. cbv zeta in Q. rewrite Ls in Q.
  assert (N0 : length data <> 0%nat) by (destruct data; [congruence|discriminate]). pose proof (log_size (length data) N0 HL) as Z. apply Rabs_le_inv in Q.
  rewrite (stats_eq log exp sort data NE Ls). set (n := N.of_nat (length data)) in *.
  assert (Hn : (1 <= n < 2 ^ 31)%N) by (split; [subst n; clear - N0; lia|apply N.le_lt_trans with (1 := HL); reflexivity]).
  destruct (cdf_large log exp erfc G X XA (a2 log (sort data)) n Hn Aa ltac:(lra)) as (p & E & Vp & Bp). rewrite E. cbn [obind]. eexists. split; [reflexivity|]. cbn [st_p].
  subst n. rewrite nat_N_Z, <- INR_IZR_INZ in Bp. exact Bp.
Qed.
Print Assumptions C107_floor.
(* the same for data *)
Lemma overflow_data : forall log exp erfc sort data, good_dist log exp erfc -> accurate_exp exp -> log_sign log -> sorts finite_double dlt sort ->
  Forall valid01 data -> (46341 <= N.of_nat (length data) <= 131072)%N -> 1 / 100 <= ad_value (map dval (sort data)) <= 19 / 100 -> anderson_darling_stats log exp sort data = UB.
Proof.
  intros log exp erfc sort data G XA S Hs V L H. assert (HL : (N.of_nat (length data) <= 2 ^ 17)%N) by (change (2 ^ 17)%N with 131072%N; apply L).
  assert (NE : data <> []) by (intros ->; destruct L as [L _]; apply L; reflexivity).
  destruct (a2_sorted log exp erfc sort data G S Hs V NE) as (Fa & Aa & _ & NE' & Ls & Vs); [apply N.le_trans with (1 := HL); discriminate|].
  pose proof (a2_err log exp erfc G S (sort data) Vs NE' ltac:(rewrite Ls; exact HL)) as Q. cbv zeta in Q. rewrite Ls in Q.
  assert (N0 : length data <> 0%nat) by (destruct data; [congruence|discriminate]). pose proof (log_size (length data) N0 HL) as Z. apply Rabs_le_inv in Q.
  rewrite (stats_eq log exp sort data NE Ls). set (n := N.of_nat (length data)) in *.
  assert (Hn : (46341 <= n < 2 ^ 31)%N) by (split; [apply L|apply N.le_lt_trans with (1 := HL); reflexivity]).
  rewrite (cdf_ub log exp erfc G XA (a2 log (sort data)) n Hn Fa); [reflexivity|].
  assert (bpow radix2 (-54) <= / 1000) by (change (bpow radix2 (-54)) with (/ 18014398509481984); lra). lra.
Qed.

(* More than 46340 numbers and a small statistic, i.e. evenly spread numbers: the int n * n overflows, undefined behaviour. *)
Theorem C107_overflow_ub : forall log exp erfc n A2, good_dist log exp erfc -> accurate_exp exp -> (46341 <= n < 2 ^ 31)%N -> is_finite A2 = true -> bpow radix2 (-54) <= dval A2 <= 1 / 5 ->
  anderson_darling_cdf exp A2 (double_of_N n) = UB.
Proof. intros log exp erfc n A2 G XA Hn F B. exact (cdf_ub log exp erfc G XA A2 n Hn F B). Qed.
Print Assumptions C107_overflow_ub.
(* The statistic 0 gives no number. *)
Lemma nan_sub_l y : dsub B754_nan y = B754_nan. Proof. destruct y; reflexivity. Qed.
Lemma nan_sub_r y : dsub y B754_nan = B754_nan. Proof. destruct y; reflexivity. Qed.
Lemma nan_add_l y : dadd B754_nan y = B754_nan. Proof. destruct y; reflexivity. Qed.
Lemma nan_add_r y : dadd y B754_nan = B754_nan. Proof. destruct y; reflexivity. Qed.
Lemma nan_mul_l y : dmul B754_nan y = B754_nan. Proof. destruct y; reflexivity. Qed.
Lemma nan_mul_r y : dmul y B754_nan = B754_nan. Proof. destruct y; reflexivity. Qed.
Lemma nan_div_l y : ddiv B754_nan y = B754_nan. Proof. destruct y; reflexivity. Qed.
Lemma nan_lt_l y : dlt B754_nan y = false. Proof. destruct y; reflexivity. Qed.
Lemma nan_lt_r y : dlt y B754_nan = false. Proof. destruct y; reflexivity. Qed.
Theorem C107_zero_refuted : forall log exp erfc n, good_dist log exp erfc -> (1 <= n < 2 ^ 31)%N -> anderson_darling_cdf exp d0 (double_of_N n) = Ok B754_nan.
Proof.
  intros log exp erfc n G Hn. unfold anderson_darling_cdf. rewrite df_ok by exact Hn. cbn [obind]. unfold AndersonDarlingPValue. cbv zeta.
  assert (Z : AndersonDarlingInf exp d0 = B754_nan).
  { destruct (gd_exp_inf _ _ _ G) as [F V]. unfold AndersonDarlingInf. replace (dlt d0 two_) with true by (vm_compute; reflexivity). cbv zeta.
    replace (ddiv (dconst (-5556154361041727) (-52)) d0) with (B754_infinity true : double) by (apply B2SF_inj; vm_compute; reflexivity).
    assert (N : ddiv (exp (B754_infinity true)) (dsqrt d0) = B754_nan).
    { destruct (exp (B754_infinity true)) as [b|b| |b m e p] eqn:E; try discriminate F; [destruct b; reflexivity|]. exfalso.
      assert (Q : dval (B754_finite b m e p) <> 0) by (unfold dval; cbn [B2R]; unfold F2R; cbn [Fnum Fexp]; apply Rmult_integral_contrapositive_currified; [apply (IZR_neq _ 0); destruct b; discriminate|apply Rgt_not_eq, bpow_gt_0]). apply Q, V. }
    rewrite N. apply nan_mul_l. }
  rewrite Z, errfix_eq, nan_lt_r, nan_lt_l. cbn [obind]. unfold errmid_r, errmid. cbv zeta.
  rewrite nan_add_l. unfold dclamp. rewrite nan_lt_l, nan_lt_r, nan_sub_r. reflexivity.
Qed.
Print Assumptions C107_zero_refuted.

(* Examples: four numbers 0 are as far from uniform as four numbers can be; p is still 0.0001 or more. Ten numbers. A small statistic. *)
Lemma zeros_ad : ad_value (map dval (repeat d0 4)) = -4 + 4 * ln (10 ^ 16).
Proof.
  unfold ad_value, ad_sum, rsum. cbn [repeat map length seq fold_right nth Nat.sub]. change (dval d0) with 0. unfold floor16.
  rewrite (Rmax_left (/ 10 ^ 16) 0) by (left; apply Rinv_0_lt_compat, pow_lt; lra). rewrite (Rmax_right (/ 10 ^ 16) (1 - 0)) by lra. rewrite Rminus_0_r, ln_1, ln_Rinv by (apply pow_lt; lra). cbn [INR]. field.
Qed.
Example C107_instance : good_dist lib_log other_exp lib_erfc /\ exp_nonneg other_exp /\ accurate_exp other_exp /\ log_sign lib_log /\ sorts finite_double dlt (isort dlt) /\
  Forall valid01 (repeat d0 4) /\ (forall sort, sorts finite_double dlt sort -> 33 <= ad_value (map dval (sort (repeat d0 4)))) /\
  Permutation [d0; d1; dconst 1 (-1)] [d1; dconst 1 (-1); d0] /\ Forall valid01 [d0; d1; dconst 1 (-1)] /\
  is_finite (dconst 1 (-3)) = true /\ bpow radix2 (-54) <= dval (dconst 1 (-3)) <= 1 / 5.
Proof.
  split; [exact other_dist_good|]. split; [exact other_exp_nonneg|]. split; [exact other_exp_accurate|]. split; [exact lib_log_sign|]. split; [exact dlt_sorts|]. split; [apply zeros_valid|].
  destruct (cst 1 (-3) ltac:(lia) ltac:(lia)) as [F3 V3]. destruct (cst 1 (-1) ltac:(lia) ltac:(lia)) as [F1 V1]. change (bpow radix2 (-3)) with (/ 8) in V3. change (bpow radix2 (-1)) with (/ 2) in V1.
  split; [|split; [|split; [|split; [exact F3|rewrite V3; change (bpow radix2 (-54)) with (/ 18014398509481984); lra]]]].
  - intros sort Hs. assert (E : map dval (sort (repeat d0 4)) = map dval (repeat d0 4)).
    { destruct (sorted_data sort (repeat d0 4) Hs (zeros_valid 4)) as (L & V & _ & P). assert (A : forall x, In x (sort (repeat d0 4)) -> x = d0) by (intros x H; apply (repeat_spec 4), Permutation_in with (1 := Permutation_sym P), H).
      destruct (sort (repeat d0 4)) as [|a [|b [|c [|d [|e l]]]]]; try discriminate L. rewrite (A a), (A b), (A c), (A d) by (cbn; tauto). reflexivity. }
    rewrite E, zeros_ad. rewrite ln_pow by lra. pose proof TestsPerm.ln2_lower as L1.
    assert (3 * ln 2 <= ln 10). { replace 3 with (INR 3) by (cbn; lra). rewrite <- ln_pow by lra. apply LimitProofs.ln_le; [apply pow_lt; lra|cbn; lra]. }
    replace (INR 16) with 16 by (cbn; lra). lra.
  - apply Permutation_trans with [d1; d0; dconst 1 (-1)]; [apply perm_swap|apply perm_skip, perm_swap].
  - destruct d1_val as [W1 G1]. repeat constructor; try exact G1; try exact F1; try (change (dval d0) with 0); try rewrite W1; try (rewrite V1); lra.
Qed.
