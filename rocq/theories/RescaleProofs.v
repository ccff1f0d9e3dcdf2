(* Facts about rescale_type_to_01, the bin index and the coupon index. *)
From Coq Require Import Reals Lra.
From Flocq Require Import Core BinarySingleNaN.
From Verif Require Import Base WordLemmas FloatModel FloatLemmas CollectModel CollectSpec CollectProofs.
Open Scope R_scope.

Lemma IZR_pow2 k : (0 <= k)%Z -> IZR (2 ^ k) = bpow radix2 k.
Proof. intros H. change (IZR (2 ^ k)) with (IZR (radix2 ^ k)). apply IZR_Zpower, H. Qed.
Lemma word_max w : (0 < w <= 64)%N -> (0 < 2 ^ w - 1 < 2 ^ 64)%N.
Proof.
  intros H. assert (2 ^ 1 <= 2 ^ w)%N by (apply N.pow_le_mono_r; lia). assert (2 ^ w <= 2 ^ 64)%N by (apply N.pow_le_mono_r; lia). change (2 ^ 1)%N with 2%N in *. lia.
Qed.
Lemma rescale_range w x : (0 < w <= 64)%N -> is_word w x ->
  fin (rescale_type_to_01 w x) /\ 0 <= dval (rescale_type_to_01 w x) <= 1 /\
  dval (rescale_type_to_01 w x) = rnd (rnd (IZR (Z.of_N x)) / rnd (IZR (Z.of_N (2 ^ w - 1)))).
Proof.
  intros Hw Hx. unfold rescale_type_to_01. unfold is_word in Hx. pose proof (word_max w Hw) as M. set (B := (2 ^ w - 1)%N) in *.
  assert (Hxb : (x <= B)%N) by (unfold B; lia). clearbody B. assert (x < 2 ^ 64)%N by lia.
  destruct (double_of_N_ok x) as [Ex Fx]; [lia|]. destruct (double_of_N_ok B) as [EB FB]; [lia|].
  assert (P : 1 <= rnd (IZR (Z.of_N B))) by (rewrite <- (rnd_id 1 F64_1); apply rnd_mono, IZR_le; lia).
  assert (Q : 0 <= rnd (IZR (Z.of_N x))) by (rewrite <- (rnd_id 0 F64_0); apply rnd_mono, IZR_le; lia).
  assert (Rr : rnd (IZR (Z.of_N x)) <= rnd (IZR (Z.of_N B))) by (apply rnd_mono, IZR_le; lia).
  assert (D : 0 <= rnd (IZR (Z.of_N x)) / rnd (IZR (Z.of_N B)) <= 1).
  { split; [apply Rmult_le_pos; [exact Q|apply Rlt_le, Rinv_0_lt_compat; lra]|]. apply Rmult_le_reg_r with (rnd (IZR (Z.of_N B))); [lra|]. field_simplify; lra. }
  destruct (ddiv_ok (double_of_N x) (double_of_N B)) as [E F]; [exact Fx|rewrite EB; lra| |].
  - rewrite Ex, EB. unfold small. rewrite Rabs_pos_eq by lra. apply Rle_trans with 1; [lra|]. change 1 with (bpow radix2 0). apply bpow_le. lia.
  - split; [exact F|]. rewrite E, Ex, EB. split; [|reflexivity]. apply rnd_between; [exact F64_0|exact F64_1|exact D].
Qed.
(* up to 32 bits: one rounding of the exact quotient *)
Lemma rescale_small w x : (0 < w <= 53)%N -> is_word w x -> dval (rescale_type_to_01 w x) = rnd (IZR (Z.of_N x) / IZR (2 ^ Z.of_N w - 1)).
Proof.
  intros Hw Hx. destruct (rescale_range w x) as (_ & _ & E); [lia|exact Hx|]. rewrite E. unfold is_word in Hx.
  assert (2 ^ w <= 2 ^ 53)%N by (apply N.pow_le_mono_r; lia). assert (2 ^ 1 <= 2 ^ w)%N by (apply N.pow_le_mono_r; lia).
  assert (EB : Z.of_N (2 ^ w - 1) = (2 ^ Z.of_N w - 1)%Z) by (rewrite N2Z.inj_sub, N2Z.inj_pow by (change 1%N with (2 ^ 0)%N; apply N.pow_le_mono_r; lia); reflexivity).
  rewrite (rnd_id (IZR (Z.of_N x))), (rnd_id (IZR (Z.of_N (2 ^ w - 1)))), EB; [reflexivity| |]; apply F64_Z.
  - change (2 ^ 53)%Z with (Z.of_N (2 ^ 53)). lia.
  - change (2 ^ 53)%Z with (Z.of_N (2 ^ 53)). lia.
Qed.
Lemma rescale_mono w x y : (0 < w <= 64)%N -> is_word w x -> is_word w y -> (x <= y)%N -> dval (rescale_type_to_01 w x) <= dval (rescale_type_to_01 w y).
Proof.
  intros Hw Hx Hy H. destruct (rescale_range w x Hw Hx) as (_ & _ & ->). destruct (rescale_range w y Hw Hy) as (_ & _ & ->). apply rnd_mono.
  pose proof (word_max w Hw). assert (1 <= rnd (IZR (Z.of_N (2 ^ w - 1)))) by (rewrite <- (rnd_id 1 F64_1); apply rnd_mono, IZR_le; lia).
  apply Rmult_le_compat_r; [apply Rlt_le, Rinv_0_lt_compat; lra|]. apply rnd_mono, IZR_le. lia.
Qed.

(* the common part of the bin and the coupon index: trunc(m * v) *)
Definition scaled (w m x : N) : double := dmul (double_of_N m) (rescale_type_to_01 w x).
Lemma scaled_ok w m x : (0 < w <= 64)%N -> (1 <= m <= 2 ^ 53)%N -> is_word w x ->
  fin (scaled w m x) /\ dval (scaled w m x) = rnd (IZR (Z.of_N m) * dval (rescale_type_to_01 w x)) /\ 0 <= dval (scaled w m x) <= IZR (Z.of_N m).
Proof.
  intros Hw Hm Hx. destruct (rescale_range w x Hw Hx) as (Fv & Rv & _). destruct (double_of_N_exact m) as [Em Fm]; [apply Hm|].
  assert (M1 : 1 <= IZR (Z.of_N m)) by (apply IZR_le; lia).
  assert (D : 0 <= IZR (Z.of_N m) * dval (rescale_type_to_01 w x) <= IZR (Z.of_N m)) by (split; nra).
  destruct (dmul_ok (double_of_N m) (rescale_type_to_01 w x) Fm Fv) as [E F].
  - rewrite Em. apply (small_bpow _ 53); [lia|]. rewrite Rabs_pos_eq by lra. apply Rle_trans with (1 := proj2 D). rewrite <- IZR_pow2 by lia. apply IZR_le.
    change (2 ^ 53)%Z with (Z.of_N (2 ^ 53)). apply N2Z.inj_le, Hm.
  - unfold scaled. split; [exact F|]. rewrite E, Em. split; [reflexivity|]. apply rnd_between; [exact F64_0| |exact D].
    apply F64_Z. change (2 ^ 53)%Z with (Z.of_N (2 ^ 53)). rewrite Z.abs_eq by apply N2Z.is_nonneg. apply N2Z.inj_le, Hm.
Qed.
Lemma wrap_pred m : (1 <= m < 2 ^ 64)%N -> wrap 64 (m + (2 ^ 64 - 1)) = (m - 1)%N.
Proof. intros H. apply wrap_sub; lia. Qed.
Lemma bin_index_val w m x : (0 < w <= 64)%N -> (1 <= m <= 2 ^ 53)%N -> is_word w x ->
  bin_index w m x = Ok (N.min (m - 1) (Z.to_N (Zfloor (dval (scaled w m x))))).
Proof.
  intros Hw Hm Hx. destruct (scaled_ok w m x Hw Hm Hx) as (F & _ & R). unfold bin_index. fold (scaled w m x).
  rewrite N_of_double_trunc; [|exact F|lra|].
  - cbn [obind]. rewrite wrap_pred; [reflexivity|]. split; [lia|]. eapply N.le_lt_trans; [apply Hm|reflexivity].
  - apply Rle_lt_trans with (1 := proj2 R). apply IZR_lt. change (2 ^ Z.of_N 64)%Z with (Z.of_N (2 ^ 64)). apply N2Z.inj_lt. eapply N.le_lt_trans; [apply Hm|reflexivity].
Qed.
Lemma bin_index_lt w m x : (0 < w <= 64)%N -> (1 <= m <= 2 ^ 53)%N -> is_word w x -> exists i, bin_index w m x = Ok i /\ (i < m)%N.
Proof. intros Hw Hm Hx. rewrite bin_index_val by assumption. eexists. split; [reflexivity|]. lia. Qed.
Lemma coupon_id_bin w m x : coupon_id w m x = bin_index w m x.
Proof. unfold coupon_id, bin_index. destruct (N_of_double 64 _) as [i|]; [|reflexivity]. cbn [obind]. rewrite N.min_comm. reflexivity. Qed.

(* a rounded value strictly below the next integer *)
Lemma floor_rnd_pow2 k q z : (0 <= k <= 52)%Z -> (0 <= q < 2 ^ k)%Z -> IZR q <= z -> z <= IZR (q + 1) - bpow radix2 (k - 52) -> Zfloor (rnd z) = q.
Proof.
  intros Hk Hq H1 H2. apply Zfloor_imp.
  assert (G : IZR (q + 1) - bpow radix2 (k - 52) = F2R (Float radix2 ((q + 1) * 2 ^ (52 - k) - 1) (k - 52))).
  { unfold F2R. cbn [Fnum Fexp]. rewrite minus_IZR, mult_IZR, IZR_pow2 by lia. rewrite Rmult_minus_distr_r, Rmult_assoc, <- bpow_plus.
    replace (52 - k + (k - 52))%Z with 0%Z by lia. cbn [bpow]. ring. }
  assert (P0 : (0 < 2 ^ (52 - k))%Z) by (apply Z.pow_pos_nonneg; lia).
  assert (P : (2 ^ k * 2 ^ (52 - k) = 2 ^ 52)%Z) by (rewrite <- Z.pow_add_r by lia; f_equal; lia).
  destruct (rnd_between z (IZR q) (IZR (q + 1) - bpow radix2 (k - 52))) as [L U].
  - apply F64_Z. assert (2 ^ k <= 2 ^ 52)%Z by (apply Z.pow_le_mono_r; lia). change (2 ^ 53)%Z with (2 * 2 ^ 52)%Z. lia.
  - rewrite G. apply F64_F2R; [|lia]. change (2 ^ 53)%Z with (2 * 2 ^ 52)%Z. nia.
  - lra.
  - split; [exact L|]. apply Rle_lt_trans with (1 := U). pose proof (bpow_gt_0 radix2 (k - 52)). lra.
Qed.
(* scaling by a power of two commutes with rounding for the values at hand *)
Lemma rnd_scale k v : (0 <= k)%Z -> 0 <= v -> v = 0 \/ bpow radix2 (-960) <= v -> rnd (bpow radix2 k * v) = bpow radix2 k * rnd v.
Proof.
  intros Hk H0 [->|Hv]; [rewrite Rmult_0_r, (rnd_id 0 F64_0); ring|].
  assert (Hm : (-959 <= mag radix2 v)%Z) by (apply (mag_ge_bpow radix2 v (-959)); rewrite Rabs_pos_eq by exact H0; exact Hv).
  assert (Pv : 0 < v) by (pose proof (bpow_gt_0 radix2 (-960)); lra).
  unfold rnd, round, scaled_mantissa, cexp.
  assert (Em : mag radix2 (bpow radix2 k * v) = (mag radix2 v + k)%Z :> Z) by (rewrite Rmult_comm, mag_mult_bpow by lra; reflexivity).
  rewrite Em. unfold SpecFloat.fexp, SpecFloat.emin. rewrite !Z.max_l by lia.
  replace (bpow radix2 k * v * bpow radix2 (- (mag radix2 v + k - 53))) with (v * bpow radix2 (- (mag radix2 v - 53))).
  - unfold F2R. cbn [Fnum Fexp]. rewrite Rmult_comm. rewrite (Rmult_comm (bpow radix2 k)). 
    replace (mag radix2 v + k - 53)%Z with (mag radix2 v - 53 + k)%Z by lia. rewrite bpow_plus. ring.
  - replace (- (mag radix2 v - 53))%Z with (k + - (mag radix2 v + k - 53))%Z by lia. rewrite bpow_plus. ring.
Qed.
Lemma top_bits_arith w k x : (k <= w)%N -> is_word w x -> let a := (x / 2 ^ (w - k))%N in
  (a < 2 ^ k)%N /\ (a * (2 ^ w - 1) <= 2 ^ k * x)%N /\ ((x < 2 ^ w - 1)%N -> (2 ^ k * x + 1 <= (a + 1) * (2 ^ w - 1))%N).
Proof.
  intros Hk Hx a. unfold is_word in Hx. assert (E : (2 ^ w = 2 ^ k * 2 ^ (w - k))%N) by (rewrite <- N.pow_add_r; f_equal; lia).
  set (h := (2 ^ (w - k))%N) in *. set (p := (2 ^ k)%N) in *. assert (Hh : (1 <= h)%N) by (assert (h <> 0)%N by (apply N.pow_nonzero; lia); lia).
  assert (Hp : (1 <= p)%N) by (assert (p <> 0)%N by (apply N.pow_nonzero; lia); lia).
  pose proof (N.div_mod x h ltac:(lia)) as D. fold a in D. pose proof (N.mod_upper_bound x h ltac:(lia)) as M. set (r := (x mod h)%N) in *. clearbody h p r a.
  assert (A : (a < p)%N) by (rewrite E in Hx; nia). split; [exact A|]. split.
  - rewrite N.mul_sub_distr_l, E, N.mul_1_r. nia.
  - intros Hn. rewrite N.mul_sub_distr_l, N.mul_1_r, E. rewrite E in Hn. 
    assert (a + p * r + 2 <= p * h)%N by nia. nia.
Qed.
Lemma pred_mul p q : (p <> 0 -> q <> 0 -> p * q - 1 = q * (p - 1) + (q - 1))%N.
Proof. intros Hp Hq. rewrite N.mul_sub_distr_l, N.mul_1_r, (N.mul_comm q p). assert (q * 1 <= q * p)%N by (apply N.mul_le_mono_l; lia). lia. Qed.
Lemma bin_top_bits w k x : (0 < w)%N -> (k <= w)%N -> (k + w <= 52)%N -> is_word w x -> bin_index w (2 ^ k) x = Ok (x / 2 ^ (w - k))%N.
Proof.
  intros Hw Hk Hkw Hx. assert (K0 : (1 <= 2 ^ k)%N) by (assert (2 ^ k <> 0)%N by (apply N.pow_nonzero; lia); lia).
  assert (Hm : (1 <= 2 ^ k <= 2 ^ 53)%N) by (split; [exact K0|apply N.pow_le_mono_r; lia]).
  rewrite bin_index_val by (assumption || lia). f_equal. destruct (top_bits_arith w k x Hk Hx) as (A & L & U). set (a := (x / 2 ^ (w - k))%N) in *.
  destruct (scaled_ok w (2 ^ k) x ltac:(lia) Hm Hx) as (_ & E & _). rewrite E. clear E. rewrite rescale_small by (assumption || lia).
  replace (IZR (Z.of_N (2 ^ k))) with (bpow radix2 (Z.of_N k)) by (rewrite N2Z.inj_pow; symmetry; apply IZR_pow2; lia).
  set (B := IZR (2 ^ Z.of_N w - 1)) in *.
  assert (EB : (2 ^ Z.of_N w - 1)%Z = Z.of_N (2 ^ w - 1)) by (rewrite N2Z.inj_sub, N2Z.inj_pow by (change 1%N with (2 ^ 0)%N; apply N.pow_le_mono_r; lia); reflexivity).
  assert (BP : 1 <= B). { unfold B. rewrite EB. apply IZR_le. pose proof (word_max w ltac:(lia)). lia. }
  assert (BU : B <= bpow radix2 (52 - Z.of_N k)).
  { unfold B. rewrite <- IZR_pow2 by lia. apply IZR_le. assert (2 ^ Z.of_N w <= 2 ^ (52 - Z.of_N k))%Z by (apply Z.pow_le_mono_r; lia). lia. }
  assert (X0 : 0 <= IZR (Z.of_N x)) by (apply IZR_le; lia).
  assert (Q0 : 0 <= IZR (Z.of_N x) / B) by (apply Rmult_le_pos; [exact X0|apply Rlt_le, Rinv_0_lt_compat; lra]).
  rewrite <- rnd_scale; [|lia|exact Q0|].
  2:{ destruct (N.eq_dec x 0) as [->|Hn]; [left; unfold Rdiv; ring|right].
      assert (1 <= IZR (Z.of_N x)) by (apply IZR_le; lia). apply Rle_trans with (/ bpow radix2 52).
      - rewrite <- (bpow_opp radix2 52). apply bpow_le. lia.
      - assert (B <= bpow radix2 52) by (apply Rle_trans with (1 := BU); apply bpow_le; lia).
        apply Rle_trans with (/ B); [apply Rinv_le; lra|]. unfold Rdiv. assert (0 < / B) by (apply Rinv_0_lt_compat; lra). nra. }
  rewrite (rnd_id (rnd _)) by apply rnd_format.
  destruct (N.eq_dec x (2 ^ w - 1)) as [Ex|Nx].
  - assert (Q1 : IZR (Z.of_N x) / B = 1) by (rewrite Ex; unfold B; rewrite EB; apply Rinv_r; unfold B in BP; rewrite EB in BP; lra).
    rewrite Q1, Rmult_1_r, rnd_id by (apply F64_bpow; lia). rewrite <- IZR_pow2 by lia. rewrite Zfloor_IZR. change 2%Z with (Z.of_N 2). rewrite <- N2Z.inj_pow, N2Z.id.
    assert (Ea : a = (2 ^ k - 1)%N); [|lia]. unfold is_word in Hx.
    assert (2 ^ k * x + 1 = 2 ^ k * (2 ^ w - 1) + 1)%N by (rewrite Ex; reflexivity).
    assert (E2 : (2 ^ w = 2 ^ k * 2 ^ (w - k))%N) by (rewrite <- N.pow_add_r; f_equal; lia).
    unfold a. rewrite Ex. symmetry. apply (N.div_unique _ _ _ (2 ^ (w - k) - 1)).
    + assert (2 ^ (w - k) <> 0)%N by (apply N.pow_nonzero; lia). lia.
    + rewrite E2. apply pred_mul; apply N.pow_nonzero; lia.
  - rewrite (floor_rnd_pow2 (Z.of_N k) (Z.of_N a)).
    + rewrite N2Z.id. lia.
    + lia.
    + change 2%Z with (Z.of_N 2). rewrite <- N2Z.inj_pow. lia.
    + apply Rmult_le_reg_r with B; [lra|]. replace (bpow radix2 (Z.of_N k) * (IZR (Z.of_N x) / B) * B) with (bpow radix2 (Z.of_N k) * IZR (Z.of_N x)) by (field; lra).
      rewrite <- IZR_pow2 by lia. unfold B. rewrite EB, <- !mult_IZR. apply IZR_le. change 2%Z with (Z.of_N 2). rewrite <- N2Z.inj_pow. lia.
    + apply Rmult_le_reg_r with B; [lra|]. replace (bpow radix2 (Z.of_N k) * (IZR (Z.of_N x) / B) * B) with (bpow radix2 (Z.of_N k) * IZR (Z.of_N x)) by (field; lra).
      rewrite Rmult_minus_distr_r. assert (bpow radix2 (Z.of_N k - 52) * B <= 1).
      { apply Rle_trans with (bpow radix2 (Z.of_N k - 52) * bpow radix2 (52 - Z.of_N k)); [apply Rmult_le_compat_l; [apply bpow_ge_0|exact BU]|].
        rewrite <- bpow_plus. replace (Z.of_N k - 52 + (52 - Z.of_N k))%Z with 0%Z by lia. cbn. lra. }
      assert (U' : bpow radix2 (Z.of_N k) * IZR (Z.of_N x) + 1 <= IZR (Z.of_N a + 1) * B); [|lra].
      rewrite <- IZR_pow2 by lia. unfold B. rewrite EB, <- !mult_IZR, <- plus_IZR. apply IZR_le. change 2%Z with (Z.of_N 2). rewrite <- N2Z.inj_pow.
      unfold is_word in Hx. specialize (U ltac:(lia)). lia.
Qed.

(* ---- the gap membership test for the two halves ---- *)
Definition dhalf : double := dconst 1 (-1).
Lemma dhalf_val : dval dhalf = / 2 /\ fin dhalf.
Proof.
  destruct (dconst_ok 1 (-1)) as [E F]; [apply (small_bpow _ 0); [lia|]; unfold F2R; cbn; rewrite Rabs_pos_eq; lra|].
  split; [|exact F]. unfold dhalf. rewrite E. rewrite rnd_id by (apply F64_F2R; lia). unfold F2R; cbn. lra.
Qed.
Lemma in_gap_lower w x : in_gap w d0 dhalf x = dle d0 (rescale_type_to_01 w x) && dlt (rescale_type_to_01 w x) dhalf.
Proof. unfold in_gap. replace (is_near_eps dhalf d1 (dconst 6338253001141147 (-99))) with false by (vm_compute; reflexivity). reflexivity. Qed.
Lemma in_gap_upper w x : (0 < w <= 64)%N -> is_word w x -> in_gap w dhalf d1 x = dle dhalf (rescale_type_to_01 w x).
Proof.
  intros Hw Hx. unfold in_gap. replace (is_near_eps d1 d1 (dconst 6338253001141147 (-99))) with true by (vm_compute; reflexivity).
  destruct (rescale_range w x Hw Hx) as (F & R & _). destruct (double_of_N_exact 2) as [E2 F2]; [discriminate|].
  replace (dlt (rescale_type_to_01 w x) (double_of_N 2)) with true; [apply andb_true_r|].
  symmetry. apply dlt_iff; [exact F|exact F2|]. rewrite E2. cbn. lra.
Qed.
(* every value is in exactly one half *)
Lemma halves_complement w x : (0 < w <= 64)%N -> is_word w x -> in_gap w dhalf d1 x = negb (in_gap w d0 dhalf x).
Proof.
  intros Hw Hx. rewrite in_gap_upper, in_gap_lower by assumption. destruct (rescale_range w x Hw Hx) as (F & R & _). destruct dhalf_val as [Eh Fh]. destruct d0_val as [E0 F0].
  replace (dle d0 (rescale_type_to_01 w x)) with true by (symmetry; apply dle_iff; [exact F0|exact F|rewrite E0; lra]). cbn [andb].
  destruct (dlt (rescale_type_to_01 w x) dhalf) eqn:E; cbn [negb].
  - apply dlt_iff in E; [|assumption|assumption]. apply dle_false; assumption.
  - apply dlt_false in E; [|assumption|assumption]. apply dle_iff; assumption.
Qed.
Lemma top_bit_half w x : (0 < w)%N -> is_word w x -> N.testbit x (w - 1) = (2 ^ (w - 1) <=? x)%N.
Proof.
  intros Hw Hx. unfold is_word in Hx. assert (E : (2 ^ w = 2 * 2 ^ (w - 1))%N) by (rewrite <- N.pow_succ_r'; f_equal; lia).
  rewrite N.testbit_eqb. set (h := (2 ^ (w - 1))%N) in *. assert (h <> 0)%N by (apply N.pow_nonzero; lia).
  destruct (N.leb_spec h x).
  - replace (x / h)%N with 1%N by (apply (N.div_unique x h 1 (x - h)); lia). reflexivity.
  - rewrite N.div_small by lia. reflexivity.
Qed.
Lemma upper_half w x : (0 < w <= 52)%N -> is_word w x -> in_gap w dhalf d1 x = N.testbit x (w - 1).
Proof.
  intros Hw Hx. rewrite in_gap_upper by (assumption || lia). rewrite top_bit_half by (assumption || lia).
  destruct (rescale_range w x ltac:(lia) Hx) as (F & R & _). destruct dhalf_val as [Eh Fh]. pose proof Hx as Hx'. unfold is_word in Hx'.
  assert (E : (2 ^ w = 2 * 2 ^ (w - 1))%N) by (rewrite <- N.pow_succ_r'; f_equal; lia). assert (Hh : (2 ^ (w - 1) <> 0)%N) by (apply N.pow_nonzero; lia).
  assert (EB : (2 ^ Z.of_N w - 1)%Z = Z.of_N (2 ^ w - 1)) by (rewrite N2Z.inj_sub, N2Z.inj_pow by (change 1%N with (2 ^ 0)%N; apply N.pow_le_mono_r; lia); reflexivity).
  assert (BP : 1 <= IZR (2 ^ Z.of_N w - 1)) by (rewrite EB; apply IZR_le; lia).
  assert (Fh2 : F64 (/ 2)) by (rewrite <- Eh; apply dval_format).
  destruct (N.leb_spec (2 ^ (w - 1)) x) as [H|H].
  - apply dle_iff; [assumption|assumption|]. rewrite Eh, rescale_small by (assumption || lia). rewrite <- (rnd_id (/ 2) Fh2). apply rnd_mono.
    apply Rmult_le_reg_r with (2 * IZR (2 ^ Z.of_N w - 1)); [lra|]. field_simplify; [|lra]. rewrite EB, <- mult_IZR. apply IZR_le. lia.
  - apply dle_false; [assumption|assumption|]. rewrite Eh, rescale_small by (assumption || lia).
    apply Rle_lt_trans with (/ 2 - bpow radix2 (-54)); [|pose proof (bpow_gt_0 radix2 (-54)); lra].
    assert (Fp : F64 (/ 2 - bpow radix2 (-54))).
    { replace (/ 2 - bpow radix2 (-54)) with (F2R (Float radix2 (2 ^ 53 - 1) (-54))); [apply F64_F2R; lia|].
      unfold F2R. cbn [Fnum Fexp]. rewrite minus_IZR, IZR_pow2 by lia. rewrite Rmult_minus_distr_r, <- bpow_plus. cbn. lra. }
    rewrite <- (rnd_id _ Fp). apply rnd_mono. set (B := IZR (2 ^ Z.of_N w - 1)) in *.
    assert (BU : bpow radix2 (-54) * B <= / 4).
    { apply Rle_trans with (bpow radix2 (-54) * bpow radix2 52); [apply Rmult_le_compat_l; [apply bpow_ge_0|]|rewrite <- bpow_plus; cbn; lra].
      unfold B. rewrite <- IZR_pow2 by lia. apply IZR_le. assert (2 ^ Z.of_N w <= 2 ^ 52)%Z by (apply Z.pow_le_mono_r; lia). lia. }
    apply Rmult_le_reg_r with B; [lra|]. rewrite Rmult_minus_distr_r. replace (IZR (Z.of_N x) / B * B) with (IZR (Z.of_N x)) by (field; lra).
    assert (2 * IZR (Z.of_N x) + 1 <= B); [|lra]. unfold B. rewrite EB, <- mult_IZR, <- plus_IZR. apply IZR_le. lia.
Qed.
(* 64-bit words just below the middle are rounded up to it *)
Lemma upper_half_64 x : (2 ^ 63 - 512 <= x < 2 ^ 63)%N -> in_gap 64 dhalf d1 x = true /\ N.testbit x 63 = false.
Proof.
  intros Hx. assert (Wx : is_word 64 x) by (unfold is_word; apply N.lt_trans with (2 ^ 63)%N; [apply Hx|reflexivity]).
  split.
  - rewrite in_gap_upper by (assumption || lia).
    destruct (rescale_range 64 x ltac:(lia) Wx) as (F & R & E). destruct dhalf_val as [Eh Fh]. apply dle_iff; [assumption|assumption|].
    assert (G : dval (rescale_type_to_01 64 (2 ^ 63 - 512)) = / 2).
    { replace (rescale_type_to_01 64 (2 ^ 63 - 512)) with dhalf; [exact Eh|]. apply B2SF_inj. vm_compute. reflexivity. }
    rewrite Eh, <- G. apply rescale_mono; [lia|unfold is_word; reflexivity|exact Wx|apply Hx].
  - change 63%N with (64 - 1)%N. rewrite top_bit_half by (assumption || lia). apply N.leb_gt. apply Hx.
Qed.

(* ---- coupons: five of them ---- *)
Lemma coupon_five w x : w = 8%N \/ w = 16%N \/ w = 32%N -> is_word w x -> coupon_id w 5 x = Ok (N.min 4 (x / ((2 ^ w - 1) / 5)))%N.
Proof.
  intros Hw Hx. assert (Hw' : (0 < w <= 32)%N) by (destruct Hw as [->|[->| ->]]; lia).
  rewrite coupon_id_bin, bin_index_val by (assumption || lia). f_equal. change (5 - 1)%N with 4%N.
  destruct (scaled_ok w 5 x ltac:(lia) ltac:(lia) Hx) as (_ & Es & _). rewrite Es. clear Es. rewrite rescale_small by (assumption || lia).
  set (c := ((2 ^ w - 1) / 5)%N). assert (Hc : (2 ^ w - 1 = 5 * c)%N /\ (51 <= c)%N /\ (c < 2 ^ 30)%N) by (unfold c; destruct Hw as [->|[->| ->]]; vm_compute; repeat split; congruence).
  destruct Hc as (Ec & C1 & C2). clearbody c. unfold is_word in Hx.
  assert (EB : (2 ^ Z.of_N w - 1)%Z = Z.of_N (5 * c)) by (rewrite <- Ec, N2Z.inj_sub, N2Z.inj_pow by (change 1%N with (2 ^ 0)%N; apply N.pow_le_mono_r; lia); reflexivity).
  rewrite EB. assert (Hx5 : (x <= 5 * c)%N) by lia. clear Hx Ec EB.
  pose proof (N.div_mod x c ltac:(lia)) as D. pose proof (N.mod_upper_bound x c ltac:(lia)) as M. set (q := (x / c)%N) in *. set (r := (x mod c)%N) in *. clearbody q r.
  assert (Hq : (q <= 5)%N) by nia.
  assert (CR : 51 <= IZR (Z.of_N c)) by (apply IZR_le; lia).
  assert (L0 : forall i, (i <= 5)%N -> IZR (Z.of_N i) <= rnd (IZR (Z.of_N 5) * rnd (IZR (Z.of_N i) / 5))).
  { intros i Hi. assert (Gen : forall j : N, (j <= 5)%N -> dval (dmul (double_of_N 5) (ddiv (double_of_N j) (double_of_N 5))) = rnd (IZR (Z.of_N 5) * rnd (IZR (Z.of_N j) / 5))).
    { intros j Hj. destruct (double_of_N_exact 5) as [E5 F5]; [discriminate|]. destruct (double_of_N_exact j) as [Ej Fj]; [eapply N.le_trans; [exact Hj|discriminate]|].
      assert (J : 0 <= IZR (Z.of_N j) <= 5) by (split; apply IZR_le; lia).
      destruct (ddiv_ok (double_of_N j) (double_of_N 5)) as [Ed Fd]; [exact Fj|rewrite E5; cbn; lra|rewrite Ej, E5; apply (small_bpow _ 3); [lia|rewrite Rabs_pos_eq; cbn; lra]|].
      rewrite Ej, E5 in Ed. change (IZR (Z.of_N 5)) with 5 in Ed |- *.
      destruct (rnd_between (IZR (Z.of_N j) / 5) 0 1) as [B1 B2]; [exact F64_0|exact F64_1|lra|].
      destruct (dmul_ok (double_of_N 5) (ddiv (double_of_N j) (double_of_N 5))) as [Em Fm]; [exact F5|exact Fd|rewrite E5, Ed; apply (small_bpow _ 3); [lia|rewrite Rabs_pos_eq; cbn; nra]|].
      rewrite Em, E5, Ed. reflexivity. }
    rewrite <- Gen by exact Hi. destruct (double_of_N_exact i) as [Ei Fi]; [eapply N.le_trans; [exact Hi|discriminate]|]. rewrite <- Ei.
    replace (dmul (double_of_N 5) (ddiv (double_of_N i) (double_of_N 5))) with (double_of_N i); [lra|]. apply B2SF_inj.
    assert (Ci : i = 0%N \/ i = 1%N \/ i = 2%N \/ i = 3%N \/ i = 4%N \/ i = 5%N) by lia.
    destruct Ci as [->|[->|[->|[->|[->| ->]]]]]; vm_compute; reflexivity. }
  assert (Low : IZR (Z.of_N q) <= rnd (IZR (Z.of_N 5) * rnd (IZR (Z.of_N x) / IZR (Z.of_N (5 * c))))).
  { apply Rle_trans with (1 := L0 q Hq). apply rnd_mono, Rmult_le_compat_l; [cbn; lra|]. apply rnd_mono.
    apply Rmult_le_reg_r with (5 * IZR (Z.of_N c)); [lra|]. rewrite N2Z.inj_mul, mult_IZR. change (IZR (Z.of_N 5)) with 5.
    replace (IZR (Z.of_N q) / 5 * (5 * IZR (Z.of_N c))) with (IZR (Z.of_N q) * IZR (Z.of_N c)) by field. replace (IZR (Z.of_N x) / (5 * IZR (Z.of_N c)) * (5 * IZR (Z.of_N c))) with (IZR (Z.of_N x)) by (field; lra).
    rewrite <- mult_IZR. apply IZR_le. nia. }
  destruct (N.eq_dec q 5) as [Eq|Nq].
  - assert (5 <= Zfloor (rnd (IZR (Z.of_N 5) * rnd (IZR (Z.of_N x) / IZR (Z.of_N (5 * c))))))%Z by (apply Zfloor_lub; rewrite Eq in Low; exact Low). lia.
  - assert (Fl : Zfloor (rnd (IZR (Z.of_N 5) * rnd (IZR (Z.of_N x) / IZR (Z.of_N (5 * c))))) = Z.of_N q).
    { apply Zfloor_imp. split; [exact Low|]. rewrite plus_IZR. set (Q := IZR (Z.of_N q)) in *. assert (0 <= Q <= 4) by (split; apply IZR_le; lia).
      assert (H34 : bpow radix2 (-34) = / 17179869184) by exact (bpow_opp radix2 34).
      assert (FA : F64 (Q + 1 - bpow radix2 (-34))).
      { replace (Q + 1 - bpow radix2 (-34)) with (F2R (Float radix2 ((Z.of_N q + 1) * 2 ^ 34 - 1) (-34))); [apply F64_F2R; lia|].
        unfold F2R. cbn [Fnum Fexp]. rewrite minus_IZR, mult_IZR, plus_IZR, H34. fold Q. change (IZR (2 ^ 34)) with 17179869184. field. }
      apply Rle_lt_trans with (Q + 1 - bpow radix2 (-34)); [|rewrite H34; lra]. rewrite <- (rnd_id _ FA). apply rnd_mono. change (IZR (Z.of_N 5)) with 5.
      (* the error of the inner rounding is at most 2^-53 *)
      set (y := IZR (Z.of_N x) / IZR (Z.of_N (5 * c))).
      assert (Hy : 0 <= y /\ 5 * y <= Q + 1 - bpow radix2 (-30)).
      { unfold y. rewrite N2Z.inj_mul, mult_IZR. change (IZR (Z.of_N 5)) with 5. split; [apply Rmult_le_pos; [apply IZR_le; lia|apply Rlt_le, Rinv_0_lt_compat; lra]|].
        apply Rmult_le_reg_r with (IZR (Z.of_N c)); [lra|]. replace (5 * (IZR (Z.of_N x) / (5 * IZR (Z.of_N c))) * IZR (Z.of_N c)) with (IZR (Z.of_N x)) by (field; lra).
        rewrite Rmult_minus_distr_r. assert (bpow radix2 (-30) * IZR (Z.of_N c) <= 1).
        { apply Rle_trans with (bpow radix2 (-30) * bpow radix2 30); [apply Rmult_le_compat_l; [apply bpow_ge_0|rewrite <- IZR_pow2 by lia; apply IZR_le; change (2 ^ 30)%Z with (Z.of_N (2 ^ 30)); lia]|rewrite <- bpow_plus; cbn; lra]. }
        assert (IZR (Z.of_N x) + 1 <= (Q + 1) * IZR (Z.of_N c)); [|lra]. unfold Q. rewrite <- !plus_IZR, <- mult_IZR. apply IZR_le. nia. }
      assert (H30 : bpow radix2 (-30) = / 1073741824) by exact (bpow_opp radix2 30). rewrite H30 in Hy.
      assert (Ey : Rabs (rnd y - y) <= bpow radix2 (-53)).
      { assert (Hy1 : Rabs y < bpow radix2 1) by (rewrite Rabs_pos_eq by lra; cbn; lra).
        apply Rle_trans with (/ 2 * bpow radix2 (-52)); [|rewrite (bpow_plus radix2 (-53) 1 : bpow radix2 (-52) = _); cbn [bpow]; change (IZR (Z.pow_pos radix2 1)) with 2; lra].
        apply Rle_trans with (1 := error_le_half_ulp radix2 (SpecFloat.fexp 53 1024) (fun z => negb (Z.even z)) y).
        apply Rmult_le_compat_l; [lra|]. destruct (Req_dec y 0) as [->|Ny].
        - rewrite ulp_FLT_0 || idtac. unfold ulp. rewrite Req_bool_true by reflexivity. destruct (negligible_exp_spec' (SpecFloat.fexp 53 1024)) as [[-> _]|(n & -> & Hn)]; [apply bpow_ge_0|].
          apply bpow_le. unfold SpecFloat.fexp, SpecFloat.emin in *. lia.
        - rewrite ulp_neq_0 by exact Ny. apply bpow_le. unfold cexp, SpecFloat.fexp, SpecFloat.emin.
          assert (mag radix2 y <= 1)%Z by (apply mag_le_bpow; assumption). lia. }
      assert (H53 : bpow radix2 (-53) <= / 1099511627776) by (rewrite <- (eq_refl : IZR (2 ^ 40) = 1099511627776), IZR_pow2, <- bpow_opp by lia; apply bpow_le; lia).
      apply Rabs_le_inv in Ey. rewrite H34. lra. }
    rewrite Fl, N2Z.id. lia.
Qed.
