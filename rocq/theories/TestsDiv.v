(* The divisibility test. *)
From Coq Require Import Reals Lra String.
From Flocq Require Import Core BinarySingleNaN.
From Verif Require Import Base FloatModel FloatLemmas ResultModel CollectModel CollectSpec CollectProofs Collect2Proofs RescaleProofs Collect3Proofs CouponModel CouponSpec CouponProofs CouponFloatProofs StatsModel StatsProofs ErrorSpec StatsSpec StatFormulas EvaluateModel EvaluateSpec TestsModel TestsSpec TestsProofs TestsUniform TestsGap TestsCoupon Prop_Collect.
Open Scope R_scope.

(* C(k+4, 4) *)
Definition nb (k : nat) : N := choose (k + 4) 4.
Definition nb_term (k : nat) : Z := (Z.of_N (nb k) * 2 ^ (15 - Z.of_nat k))%Z.
Definition nb_sum (k : nat) : Z := fold_left Z.add (map nb_term (seq 0 k)) 0%Z.
Definition nb_p (k : nat) : double := dconst (nb_term k) (-20).
Definition nb_s (k : nat) : double := dconst (nb_sum k) (-20).

Lemma div_step M k fuel : good_math M -> (k < 15)%nat ->
  divisible_loop M 2 5 (S fuel) (N.of_nat k) (nb_s k) = (rest <- divisible_loop M 2 5 fuel (N.of_nat (S k)) (nb_s (S k)) ;; Ok (nb_p k :: rest)).
Proof.
  intros G Hk. pose proof (good_half_pow M G) as HP. cbn [divisible_loop].
  assert (L : dlt (nb_s k) (dconst 8917127262193582 (-53)) = true).
  { do 15 (destruct k as [|k]; [vm_compute; reflexivity|]). lia. }
  rewrite L. unfold negative_binomial_pdf.
  assert (E1 : ddiv d1 (double_of_N 2) = dhalf) by (apply sf_eq; vm_compute; reflexivity).
  assert (E2 : dsub d1 dhalf = dhalf) by (apply sf_eq; vm_compute; reflexivity).
  rewrite E1, E2, (HP (N.of_nat k)) by lia. rewrite (HP 5%N) by lia.
  assert (B : binomial_coefficient (wrap 32 (N.of_nat k + 5 + (2 ^ 32 - 1))) (wrap 32 (5 + (2 ^ 32 - 1))) = Ok (nb k)).
  { do 15 (destruct k as [|k]; [vm_compute; reflexivity|]). lia. }
  rewrite B. cbn [obind].
  assert (P : dmul (dmul (double_of_N (nb k)) (half_pow (N.of_nat k))) (half_pow 5) = nb_p k).
  { apply sf_eq. do 15 (destruct k as [|k]; [vm_compute; reflexivity|]). lia. }
  rewrite P. assert (A : dadd (nb_s k) (nb_p k) = nb_s (S k)).
  { apply sf_eq. do 15 (destruct k as [|k]; [vm_compute; reflexivity|]). lia. }
  rewrite A. replace (wrap 32 (N.of_nat k + 1)) with (N.of_nat (S k)) by (do 15 (destruct k as [|k]; [reflexivity|]); lia). reflexivity.
Qed.
Lemma div_from M : good_math M -> forall j k fuel, (k + j = 15)%nat -> (j < fuel)%nat ->
  divisible_loop M 2 5 fuel (N.of_nat k) (nb_s k) = Ok (map nb_p (seq k j) ++ [dconst 10072 (-20)]).
Proof.
  intros G. induction j as [|j IH]; intros k fuel Hk Hf; (destruct fuel as [|fuel]; [lia|]).
  - replace k with 15%nat by lia. cbn [divisible_loop]. assert (L : dlt (nb_s 15) (dconst 8917127262193582 (-53)) = false) by (vm_compute; reflexivity). rewrite L. cbn [seq map app]. f_equal. f_equal. apply sf_eq. vm_compute. reflexivity.
  - rewrite div_step by (exact G || lia). rewrite (IH (S k) fuel) by lia. reflexivity.
Qed.
Lemma div_probs M : good_math M -> divisible_expected_probabilities M 2 5 100 = Ok (map nb_p (seq 0 15) ++ [dconst 10072 (-20)]).
Proof.
  intros G. unfold divisible_expected_probabilities. change 0%N with (N.of_nat 0). replace d0 with (nb_s 0) by (apply sf_eq; vm_compute; reflexivity). apply div_from; [exact G|lia|lia].
Qed.

(* the number of outcomes per 2^20 *)
Definition nb_ideal (k : nat) : Z := if (k <? 15)%nat then nb_term k else 10072%Z.
Lemma div_cell m t : (0 <= m <= 2 ^ 18)%Z -> (t <= 2 ^ 35 \/ t <= 2 ^ 41 /\ exists c e, m = c * 2 ^ e /\ 0 <= c < 2 ^ 12 /\ 0 <= e)%Z -> (0 <= t)%Z ->
  fin (dmul (dconst m (-20)) (double_of_N (Z.to_N t))) /\ dval (dmul (dconst m (-20)) (double_of_N (Z.to_N t))) = IZR (m * t) / 1048576.
Proof.
  intros Hm Ht T0.
  assert (T53 : (t <= 2 ^ 41)%Z) by (destruct Ht as [Ht|[Ht _]]; [|exact Ht]; apply Z.le_trans with (1 := Ht); discriminate).
  assert (TN : (Z.to_N t <= 2 ^ 53)%N) by (apply N2Z.inj_le; rewrite Z2N.id by exact T0; apply Z.le_trans with (1 := T53); discriminate).
  destruct (double_of_N_exact _ TN) as [Vt Ft]. rewrite Z2N.id in Vt by exact T0.
  assert (BT : 0 <= IZR t <= bpow radix2 41) by (split; [apply (IZR_le 0), T0|]; rewrite <- IZR_pow2 by lia; apply IZR_le, T53).
  assert (BM : 0 <= IZR m <= 262144) by (split; [apply (IZR_le 0)|apply (IZR_le _ 262144)]; lia).
  destruct (dconst_ok m (-20)) as [Vm Fm].
  { unfold F2R. cbn [Fnum Fexp]. change (bpow radix2 (-20)) with (/ 1048576). apply (small_bpow _ 0); [lia|]. cbn [bpow]. rewrite Rabs_pos_eq; lra. }
  rewrite rnd_id in Vm by (apply F64_F2R; lia). unfold F2R in Vm. cbn [Fnum Fexp] in Vm. change (bpow radix2 (-20)) with (/ 1048576) in Vm.
  assert (EE : dval (dconst m (-20)) * dval (double_of_N (Z.to_N t)) = IZR (m * t) / 1048576) by (rewrite Vm, Vt, mult_IZR; field).
  destruct (dmul_ok _ _ Fm Ft) as [V F].
  { rewrite EE, mult_IZR. apply (small_bpow _ 41); [lia|]. rewrite Rabs_pos_eq by nra. nra. }
  split; [exact F|]. rewrite V, EE. apply rnd_id.
  destruct Ht as [Ht|[Ht (c & e & Ec & Hc & He)]].
  - replace (IZR (m * t) / 1048576) with (F2R (Float radix2 (m * t) (-20))) by reflexivity. apply F64_F2R; [|lia]. rewrite Z.abs_eq by lia.
    change (2 ^ 53)%Z with (2 ^ 18 * 2 ^ 35)%Z. apply Z.mul_le_mono_nonneg; lia.
  - replace (IZR (m * t) / 1048576) with (F2R (Float radix2 (c * t) (e - 20))).
    + apply F64_F2R; [|lia]. rewrite Z.abs_eq by lia. change (2 ^ 53)%Z with (2 ^ 12 * 2 ^ 41)%Z. apply Z.mul_le_mono_nonneg; lia.
    + unfold F2R. cbn [Fnum Fexp]. replace (e - 20)%Z with (e + -20)%Z by lia. rewrite bpow_plus, Ec, <- Z.mul_assoc, (Z.mul_comm (2 ^ e)), Z.mul_assoc, (mult_IZR (c * t) (2 ^ e)), IZR_pow2 by exact He. change (bpow radix2 (-20)) with (/ 1048576). unfold Rdiv. ring.
Qed.
Definition div_expected (n : N) : list R := map (fun k => IZR (nb_ideal k) / 1048576 * IZR (Z.of_N (n / 10))) (seq 0 16).
Lemma nb_cell k : (k < 15)%nat -> (exists c e, nb_term k = c * 2 ^ e /\ 0 <= c < 2 ^ 12 /\ 0 <= e)%Z /\ (2 <= nb_term k <= 2 ^ 18)%Z.
Proof.
  intros Hk. split.
  - exists (Z.of_N (nb k)), (15 - Z.of_nat k)%Z. split; [reflexivity|]. split; [|lia]. do 15 (destruct k as [|k]; [vm_compute; split; [discriminate|reflexivity]|]). lia.
  - do 15 (destruct k as [|k]; [vm_compute; split; discriminate|]). lia.
Qed.

Lemma div_ok M cdf w n stream : good_math M -> (n <= 2 ^ 44)%N ->
  exists segs rest os r,
    cut_into (fun l => (5 <= count (fun v => (v mod 2 =? 0)%N) l)%N) (values stream n) segs rest /\
    length os = 16%nat /\ tallies os 5 segs /\ chi2_test cdf 5 os (div_expected n) r /\
    divisibility_test M cdf w n stream = Ok (if (n <? 1000)%N then [] else reported "d2" r).
Proof.
  intros G Hn. assert (Hv : (N.of_nat (length (values stream n)) < 2 ^ 64)%N) by (rewrite values_len, N2Nat.id; apply N.le_lt_trans with (1 := Hn); reflexivity).
  destruct (C35_divisible 2 5 16 (values stream n) ltac:(discriminate) ltac:(discriminate) ltac:(lia) Hv) as (segs & rest & os & Cut & Eo & Lo & To).
  set (t := (n / 10)%N). assert (Ht : (t <= 2 ^ 41)%N) by (apply N.div_le_upper_bound; [discriminate|]; apply N.le_trans with (1 := Hn); discriminate).
  assert (HtZ : (0 <= Z.of_N t <= 2 ^ 41)%Z) by (split; [lia|]; change (2 ^ 41)%Z with (Z.of_N (2 ^ 41)); apply N2Z.inj_le, Ht).
  set (ps := map nb_p (seq 0 15) ++ [dconst 10072 (-20)]).
  assert (EN : forall i, (i < 16)%nat -> nth i ps d0 = dconst (nb_ideal i) (-20)).
  { intros i Hi. unfold ps, nb_ideal. do 16 (destruct i as [|i]; [reflexivity|]). lia. }
  set (ex := fun i => dmul (nth i ps d0) (double_of_N t)).
  assert (C : forall i, (i < 16)%nat -> fin (ex i) /\ dval (ex i) = IZR (nb_ideal i) / 1048576 * IZR (Z.of_N t)).
  { intros i Hi. unfold ex. rewrite (EN i Hi). destruct (div_cell (nb_ideal i) (Z.of_N t)) as [F V].
    - unfold nb_ideal. destruct (Nat.ltb_spec i 15) as [L|L]; [destruct (nb_cell i L) as [_ B]; lia|lia].
    - right. split; [apply HtZ|]. unfold nb_ideal. destruct (Nat.ltb_spec i 15) as [L|L]; [apply nb_cell, L|]. exists 1259%Z, 3%Z. split; [reflexivity|]. split; [split; [discriminate|reflexivity]|discriminate].
    - apply HtZ.
    - rewrite N2Z.id in F, V. split; [exact F|]. rewrite V, mult_IZR. field. }
  assert (LS : (length segs <= N.to_nat n)%nat).
  { destruct Cut as (Ec & Fc & _). pose proof (f_equal (@length N) Ec) as L. rewrite values_len, app_length in L. rewrite L.
    apply Nat.le_trans with (length (concat segs)); [|lia]. clear Ec L To. induction segs as [|s segs IH]; [cbn; lia|]. cbn [concat length]. rewrite app_length.
    apply Forall_inv in Fc as Fs. apply Forall_inv_tail in Fc. specialize (IH Fc). destruct s as [|x s]; [destruct Fs as [Fs _]; cbn in Fs; lia|]. cbn [length]. lia. }
  assert (TT : (total os <= 2 ^ 53)%N).
  { rewrite (C33_total _ 5 segs os) by (exact To || lia). apply N.le_trans with n; [lia|]. apply N.le_trans with (1 := Hn). discriminate. }
  destruct (double_of_N_exact 5 ltac:(discriminate)) as [V5 F5].
  assert (T : chi2_test cdf 5 os (div_expected n) (chi2_stats cdf (length os) (to_data os) ex (double_of_N 5))).
  { replace 5 with (dval (double_of_N 5)) by exact V5. apply chi2_is_test.
    - rewrite Lo. discriminate.
    - exact F5.
    - rewrite Lo. unfold div_expected. apply map_ext_in. intros i Hi. apply in_seq in Hi. symmetry. apply C. lia.
    - intros i Hi. apply to_data_ok; [exact Hi|]. apply total_forall, TT.
    - intros i Hi. apply C. lia.
    - intros i Hi L. rewrite V5 in L. change (IZR (Z.of_N 5)) with 5 in L. split; [apply Rle_trans with 5; [|lra]; apply Rle_trans with (bpow radix2 0); [apply bpow_le; lia|cbn; lra]|].
      destruct (C i ltac:(lia)) as [_ V]. rewrite V.
      assert (BI : 0 <= IZR (nb_ideal i) <= 262144).
      { unfold nb_ideal. destruct (Nat.ltb_spec i 15) as [L'|L']; [destruct (nb_cell i L') as [_ B]|]; split; try (apply (IZR_le 0); lia); apply (IZR_le _ 262144); lia. }
      assert (BT : 0 <= IZR (Z.of_N t) <= bpow radix2 41) by (split; [apply (IZR_le 0), HtZ|]; rewrite <- IZR_pow2 by lia; apply IZR_le, HtZ).
      apply Rle_trans with (bpow radix2 41); [nra|apply bpow_le; lia]. }
  exists segs, rest, os, (chi2_stats cdf (length os) (to_data os) ex (double_of_N 5)). split; [exact Cut|]. split; [exact Lo|]. split; [exact To|]. split; [exact T|].
  unfold divisibility_test. rewrite (div_probs M G). cbn [obind]. fold ps. change (length ps) with 16%nat. rewrite Eo. cbn [obind]. fold t ex.
  assert (X : (t <? 100)%N = (n <? 1000)%N).
  { unfold t. destruct (N.ltb_spec n 1000) as [L|L]; [apply N.ltb_lt, N.div_lt_upper_bound; lia|apply N.ltb_ge, N.div_le_lower_bound; lia]. }
  rewrite X. destruct (n <? 1000)%N; [reflexivity|]. unfold reported. change ("d" ++ to_string_N 2)%string with "d2"%string. destruct (chi2_stats _ _ _ _ _); reflexivity.
Qed.
Lemma div_present cdf n os r : (1000 <= n)%N -> chi2_test cdf 5 os (div_expected n) r -> r <> None.
Proof.
  intros Hn T. assert (B : 100 <= IZR (Z.of_N (n / 10))) by (apply (IZR_le 100); change 100%Z with (Z.of_N 100); apply N2Z.inj_le, N.div_le_lower_bound; lia).
  apply (two_bins cdf 5 os _ r 3 4 T).
  - unfold div_expected. rewrite map_length, seq_length. lia.
  - change (nth 3 (div_expected n) 0) with (IZR 143360 / 1048576 * IZR (Z.of_N (n / 10))). lra.
  - change (nth 4 (div_expected n) 0) with (IZR 143360 / 1048576 * IZR (Z.of_N (n / 10))). lra.
Qed.
