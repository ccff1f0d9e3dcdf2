(* The gap test. *)
From Coq Require Import Reals Lra String.
From Flocq Require Import Core BinarySingleNaN.
From Verif Require Import Base FloatModel FloatLemmas ResultModel CollectModel CollectSpec CollectProofs Collect2Proofs RescaleProofs Collect3Proofs CouponModel CouponSpec CouponProofs CouponFloatProofs StatsModel StatsProofs ErrorSpec StatFormulas EvaluateModel EvaluateSpec TestsModel TestsSpec TestsProofs TestsUniform Prop_Collect.
Open Scope R_scope.

Lemma pos_eq (x y : double) : fin x -> fin y -> 0 < dval x -> dval x = dval y -> x = y.
Proof.
  intros Fx Fy P E. apply B2R_inj; [| |exact E].
  - destruct x; try discriminate; [exfalso; unfold dval in P; cbn in P; lra|reflexivity].
  - rewrite E in P. destruct y; try discriminate; [exfalso; unfold dval in P; cbn in P; lra|reflexivity].
Qed.
Lemma filter_cons_true {A} (p : A -> bool) x l : p x = true -> filter p (x :: l) = x :: filter p l.
Proof. intros H. cbn. rewrite H. reflexivity. Qed.
Lemma is_double_half_pow x i : (i <= 1000)%N -> is_double x (bpow radix2 (- Z.of_N i)) -> x = half_pow i.
Proof.
  intros Hi [F V]. destruct (half_pow_val i Hi) as [F' V']. apply pos_eq; try assumption.
  - rewrite V. apply bpow_gt_0.
  - rewrite V, V', bpow_opp, IZR_pow2 by lia. reflexivity.
Qed.
Lemma good_half_pow M : good_math M -> exact_half_pow (m_pow M).
Proof. intros G i Hi. apply is_double_half_pow; [lia|]. apply (gm_pow_half M G i Hi). Qed.

(* an exact multiple of a power of two *)
Lemma mul_pow2 m i : (m <= 2 ^ 53)%N -> (i <= 1000)%N -> fin (dmul (half_pow i) (double_of_N m)) /\ dval (dmul (half_pow i) (double_of_N m)) = IZR (Z.of_N m) / IZR (Z.of_N (2 ^ i)).
Proof.
  intros Hm Hi. destruct (half_pow_val i Hi) as [Fh Vh]. destruct (double_of_N_exact m Hm) as [Vm Fm].
  assert (E : IZR (Z.of_N m) / IZR (Z.of_N (2 ^ i)) = F2R (Float radix2 (Z.of_N m) (- Z.of_N i))).
  { unfold F2R. cbn [Fnum Fexp]. rewrite bpow_opp, N2Z.inj_pow. change (Z.of_N 2) with 2%Z. rewrite IZR_pow2 by lia. reflexivity. }
  assert (B : 0 <= IZR (Z.of_N m) / IZR (Z.of_N (2 ^ i)) <= bpow radix2 53).
  { assert (P1 : 1 <= IZR (Z.of_N (2 ^ i))) by (apply (IZR_le 1); assert (2 ^ i <> 0)%N by (apply N.pow_nonzero; discriminate); lia).
    assert (P2 : 0 <= IZR (Z.of_N m) <= bpow radix2 53).
    { split; [apply IZR_le; lia|]. rewrite <- IZR_pow2 by lia. apply IZR_le. change (2 ^ 53)%Z with (Z.of_N (2 ^ 53)). apply N2Z.inj_le, Hm. }
    split; [apply Rmult_le_pos; [apply P2|apply Rlt_le, Rinv_0_lt_compat; lra]|].
    apply Rle_trans with (2 := proj2 P2). apply (Rmult_le_reg_r (IZR (Z.of_N (2 ^ i)))); [lra|]. unfold Rdiv. rewrite Rmult_assoc, Rinv_l by lra. nra. }
  assert (EE : dval (half_pow i) * dval (double_of_N m) = IZR (Z.of_N m) / IZR (Z.of_N (2 ^ i))).
  { rewrite Vh, Vm, N2Z.inj_pow. change (Z.of_N 2) with 2%Z. unfold Rdiv. ring. }
  destruct (dmul_ok (half_pow i) (double_of_N m) Fh Fm) as [V F].
  { rewrite EE. apply (small_bpow _ 53); [lia|]. rewrite Rabs_pos_eq; apply B. }
  split; [exact F|]. rewrite V, EE. apply rnd_id. rewrite E. apply F64_F2R; [|lia]. rewrite Z.abs_eq by lia. change (2 ^ 53)%Z with (Z.of_N (2 ^ 53)). apply N2Z.inj_le, Hm.
Qed.


Lemma gap_half M cdf w n stream gi a b : good_math M -> (0 < w <= 64)%N -> (n <= 2 ^ 53)%N ->
  snap_to_01 (dmul (double_of_N gi) (ddiv d1 (double_of_N 2))) = a -> snap_to_01 (dadd a (ddiv d1 (double_of_N 2))) = b ->
  generate_gap_probabilities (m_pow M) a b 100 = Some (map half_pow [1; 2; 3; 4; 5; 6; 7; 7]%N) ->
  exists segs rest os r, cut_into (fun l => existsb (in_gap w a b) l = true) (values stream n) segs rest /\
    length os = 8%nat /\ tallies os 1 segs /\ chi2_test cdf 5 os (gap_expected (n / 2)) r /\
    gap_sub_test M cdf w n stream 2 gi = Ok (reported (to_string_N (gi + 1) ++ "/2") r).
Proof.
  intros G Hw Hn Ea Eb EP. destruct (C33_gaps w 8 a b (values stream n) ltac:(lia)) as (segs & rest & os & Cut & Eo & Lo & To).
  set (m := (n / 2)%N). assert (Hm : (m <= 2 ^ 53)%N) by (apply N.le_trans with (2 := Hn); apply N.div_le_upper_bound; lia).
  set (e := fun i => dmul (nth i (map half_pow [1; 2; 3; 4; 5; 6; 7; 7]%N) d0) (double_of_N m)).
  assert (EV : forall i, (i < 8)%nat -> fin (e i) /\ dval (e i) = nth i (gap_expected m) 0).
  { intros i Hi. unfold e, gap_expected. do 8 (destruct i as [|i]; [apply mul_pow2; [exact Hm|lia]|]). lia. }
  destruct (double_of_N_exact 5 ltac:(discriminate)) as [V5 F5].
  assert (LS : (length segs <= N.to_nat n)%nat).
  { destruct Cut as (Ec & Fc & _). pose proof (f_equal (@length N) Ec) as L. rewrite values_len, app_length in L. rewrite L.
    apply Nat.le_trans with (length (concat segs)); [|lia]. clear Ec L To. induction segs as [|s segs IH]; [cbn; lia|]. cbn [concat length]. rewrite app_length.
    apply Forall_inv in Fc as Fs. apply Forall_inv_tail in Fc. specialize (IH Fc). destruct s as [|x s]; [destruct Fs as [Fs _]; discriminate Fs|]. cbn [length]. lia. }
  assert (TT : (total os <= 2 ^ 53)%N).
  { rewrite (C33_total _ 1 segs os) by (exact To || lia). apply N.le_trans with (2 := Hn). lia. }
  assert (T : chi2_test cdf 5 os (gap_expected m) (chi2_stats cdf (length os) (to_data os) e (double_of_N 5))).
  { replace 5 with (dval (double_of_N 5)) by exact V5. apply chi2_is_test.
    - rewrite Lo. discriminate.
    - exact F5.
    - rewrite Lo. rewrite (map_ext_in _ (fun i => nth i (gap_expected m) 0)); [reflexivity|]. intros i Hi. apply in_seq in Hi. apply EV. lia.
    - intros i Hi. apply to_data_ok; [exact Hi|]. apply total_forall, TT.
    - intros i Hi. apply EV. rewrite <- Lo. exact Hi.
    - intros i Hi L. rewrite V5 in L. change (IZR (Z.of_N 5)) with 5 in L. split; [apply Rle_trans with 5; [|lra]; apply Rle_trans with (bpow radix2 0); [apply bpow_le; lia|cbn; lra]|].
      destruct (EV i) as [_ V]; [lia|]. rewrite V. unfold gap_expected.
      assert (Bm : 0 <= IZR (Z.of_N m) <= bpow radix2 64).
      { split; [apply IZR_le; lia|]. rewrite <- IZR_pow2 by lia. apply IZR_le. apply Z.le_trans with (Z.of_N (2 ^ 53)); [apply N2Z.inj_le, Hm|discriminate]. }
      rewrite Lo in Hi. do 8 (destruct i as [|i]; [cbn [map nth]; unfold Rdiv; change (2 ^ 1)%N with 2%N; apply Rle_trans with (2 := proj2 Bm); rewrite <- (Rmult_1_r (IZR (Z.of_N m))) at 2; apply Rmult_le_compat_l; [apply Bm|]; cbn; lra|]). lia. }
  exists segs, rest, os, (chi2_stats cdf (length os) (to_data os) e (double_of_N 5)). split; [exact Cut|]. split; [exact Lo|]. split; [exact To|]. split; [exact T|].
  unfold gap_sub_test. rewrite Ea, Eb, EP. change (length (map half_pow [1; 2; 3; 4; 5; 6; 7; 7]%N)) with 8%nat. rewrite Eo. cbn [obind]. fold m e. unfold reported.
  change (to_string_N 2) with "2"%string. destruct (chi2_stats _ _ _ _ _); reflexivity.
Qed.

Lemma gap_ok M cdf w n stream : good_math M -> (0 < w <= 64)%N -> (n <= 2 ^ 53)%N ->
  exists lo_segs lo_rest lo r_lo hi_segs hi_rest hi r_hi,
    cut_into (fun l => existsb (in_gap w d0 dhalf) l = true) (values stream n) lo_segs lo_rest /\ length lo = 8%nat /\ tallies lo 1 lo_segs /\
    cut_into (fun l => existsb (in_gap w dhalf d1) l = true) (values stream n) hi_segs hi_rest /\ length hi = 8%nat /\ tallies hi 1 hi_segs /\
    chi2_test cdf 5 lo (gap_expected (n / 2)) r_lo /\ chi2_test cdf 5 hi (gap_expected (n / 2)) r_hi /\
    gap_test M cdf w n stream = Ok (reported "1/2" r_lo ++ reported "2/2" r_hi).
Proof.
  intros G Hw Hn.
  destruct (gap_half M cdf w n stream 0 d0 dhalf G Hw Hn) as (s1 & t1 & lo & r1 & A1 & A2 & A3 & A4 & A5).
  { apply sf_eq. vm_compute. reflexivity. } { apply sf_eq. vm_compute. reflexivity. } { apply gap_probs_lower; [apply good_half_pow, G|lia]. }
  destruct (gap_half M cdf w n stream 1 dhalf d1 G Hw Hn) as (s2 & t2 & hi & r2 & B1 & B2 & B3 & B4 & B5).
  { apply sf_eq. vm_compute. reflexivity. } { apply sf_eq. vm_compute. reflexivity. } { apply gap_probs_upper; [apply good_half_pow, G|lia]. }
  exists s1, t1, lo, r1, s2, t2, hi, r2. repeat (split; [assumption|]).
  unfold gap_test. cbn [omapM obind]. rewrite A5. cbn [obind]. rewrite B5. cbn [obind concat]. rewrite app_nil_r. reflexivity.
Qed.

(* both are reported exactly if at least two bins expect more than 5 *)
Lemma gap_present cdf n os r : (length os = 8)%nat -> chi2_test cdf 5 os (gap_expected (n / 2)) r -> (r <> None <-> (42 <= n)%N).
Proof.
  intros Lo [_ H]. cbn zeta in H. set (m := (n / 2)%N) in *.
  assert (D : (2 * m <= n < 2 * m + 2)%N) by (unfold m; pose proof (N.div_mod n 2 ltac:(discriminate)); pose proof (N.mod_lt n 2 ltac:(discriminate)); lia).
  assert (L2 : (2 <= length (filter (Rlt_bool 5) (gap_expected m)))%nat <-> (21 <= m)%N).
  { assert (C1 : forall i, In i [2; 3; 4; 5; 6; 7]%N -> (m <= 20)%N -> Rlt_bool 5 (IZR (Z.of_N m) / IZR (Z.of_N (2 ^ i))) = false).
    { intros i Hi L. apply Rlt_bool_false. assert (IZR (Z.of_N m) <= 20) by (apply IZR_le; lia). assert (0 <= IZR (Z.of_N m)) by (apply IZR_le; lia).
      cbn in Hi. repeat (destruct Hi as [<-|Hi]; [cbn [N.pow Pos.pow Pos.iter Pos.mul Z.of_N]; lra|]). contradiction. }
    destruct (N.le_gt_cases 21 m) as [L|L].
    - assert (B : 21 <= IZR (Z.of_N m)) by (apply (IZR_le 21); lia). unfold gap_expected. cbn [map]. rewrite !(filter_cons_true (Rlt_bool 5)) by (apply Rlt_bool_true; cbn [N.pow Pos.pow Pos.iter Pos.mul Z.of_N]; lra).
      cbn [length]. split; [intros _; exact L|lia].
    - unfold gap_expected. cbn [map]. split; [|lia]. intros F. exfalso. revert F. apply Nat.lt_nge. cbn [filter]. rewrite (C1 2%N), (C1 3%N), (C1 4%N), (C1 5%N), (C1 6%N), (C1 7%N) by (cbn; tauto || lia). match goal with |- context [if ?b then _ else _] => destruct b end; cbn; lia. }
  destruct r as [s|].
  - destruct H as [K _]. split; [intros _|discriminate]. apply L2 in K. lia.
  - split; [congruence|]. intros L. exfalso. assert (X : (21 <= m)%N) by lia. apply L2 in X. lia.
Qed.
