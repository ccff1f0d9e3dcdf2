(* The Anderson-Darling test: the computed statistic against the formula. *)
From Coq Require Import Reals Lra Lia List.
From Flocq Require Import Core BinarySingleNaN.
From Verif Require Import Base FloatModel FloatLemmas ErrorSpec ResultModel ResultSpec StatsModel StatsProofs CouponFloatProofs DistModel DistSpec DistSeries CorrPearson OtherModel OtherSpec FisherProofs LibInst AndersonProofs CorrPearson2.
Import ListNotations.
Open Scope R_scope.

(* a positive statistic is at least 2^-52 *)
Lemma big_multiple x : F64 x -> 1 <= Rabs x -> exists m : Z, x = IZR m * bpow radix2 (-52).
Proof.
  intros F B. unfold F64, generic_format in F. set (e := cexp radix2 (SpecFloat.fexp 53 1024) x) in *. set (k := Ztrunc (scaled_mantissa radix2 (SpecFloat.fexp 53 1024) x)) in *.
  assert (E : (-52 <= e)%Z).
  { unfold e, cexp, SpecFloat.fexp, SpecFloat.emin. assert (1 <= mag radix2 x)%Z; [|lia].
    apply mag_ge_bpow. change (bpow radix2 (1 - 1)) with 1. exact B. }
  exists (k * 2 ^ (e + 52))%Z. rewrite F. unfold F2R. cbn [Fnum Fexp]. rewrite mult_IZR. rewrite (IZR_Zpower radix2) by lia. rewrite Rmult_assoc, <- bpow_plus. f_equal. f_equal. lia.
Qed.
Lemma gap n q : (1 <= n)%Z -> fin q -> 0 < rnd (- IZR n - dval q) -> bpow radix2 (-52) <= rnd (- IZR n - dval q).
Proof.
  intros N F P. assert (T : 0 < - IZR n - dval q).
  { destruct (Rlt_or_le 0 (- IZR n - dval q)) as [H|H]; [exact H|]. apply rnd_mono in H. rewrite (rnd_id 0 F64_0) in H. lra. }
  assert (N1 : 1 <= IZR n) by (apply IZR_le; exact N).
  destruct (big_multiple (dval q) (dval_format q)) as [m E]; [rewrite Rabs_left by lra; lra|].
  rewrite <- (rnd_id (bpow radix2 (-52))) by (apply F64_bpow; lia). apply rnd_mono.
  assert (E2 : - IZR n - dval q = IZR (- n * 2 ^ 52 - m) * bpow radix2 (-52)).
  { rewrite minus_IZR, mult_IZR, opp_IZR, E. change (IZR (2 ^ 52)) with (bpow radix2 52). replace (bpow radix2 (-52)) with (/ bpow radix2 52) by (rewrite <- bpow_opp; reflexivity). field. apply Rgt_not_eq, bpow_gt_0. }
  rewrite E2 in *. pose proof (bpow_gt_0 radix2 (-52)) as P52. assert (0 < IZR (- n * 2 ^ 52 - m)) by (apply Rmult_lt_reg_r with (bpow radix2 (-52)); lra).
  assert (1 <= IZR (- n * 2 ^ 52 - m)) by (apply (IZR_le 1); assert (0 < - n * 2 ^ 52 - m)%Z by (apply lt_IZR; assumption); lia). 
  rewrite <- (Rmult_1_l (bpow radix2 (-52))) at 1. apply Rmult_le_compat_r; lra.
Qed.

(* the sum, term by term *)
Definition fterm (i : R) (a b : R) : R := (2 * i + 1) * (ln (floor16 a) + ln (floor16 (1 - b))).
Fixpoint ad_rec (i : N) (l m : list double) : R :=
  match l, m with a :: l', b :: m' => fterm (IZR (Z.of_N i)) (dval a) (dval b) + ad_rec (i + 1) l' m' | _, _ => 0 end.
Lemma ad_rec_sum l : forall m i, length m = length l -> ad_rec (N.of_nat i) l m = rsum (map (fun j => fterm (INR (i + j)) (nth j (map dval l) 0) (nth j (map dval m) 0)) (seq 0 (length l))).
Proof.
  induction l as [|a l IH]; intros m i L; [reflexivity|]. destruct m as [|b m]; [discriminate L|]. cbn [length] in *. 
  cbn [ad_rec seq map]. unfold rsum. cbn [fold_right nth map].
  rewrite Nat.add_0_r, INR_IZR_INZ, nat_N_Z. f_equal.
  replace (N.of_nat i + 1)%N with (N.of_nat (S i)) by lia. rewrite (IH m (S i)) by lia. unfold rsum. rewrite <- seq_shift, map_map. f_equal. apply map_ext. intros j. cbn [nth].
  replace (i + S j)%nat with (S i + j)%nat by lia. reflexivity.
Qed.
Lemma ad_sum_rec l : ad_sum (map dval l) = ad_rec 0 l (rev l).
Proof.
  change 0%N with (N.of_nat 0). rewrite ad_rec_sum by apply rev_length. unfold ad_sum. rewrite map_length. f_equal. apply map_ext_in. intros j Hj. apply in_seq in Hj.
  unfold fterm. rewrite Nat.add_0_l. do 3 f_equal. rewrite map_rev, rev_nth by (rewrite map_length; lia). rewrite map_length. do 3 f_equal. lia.
Qed.

Section Log.
Variables (log exp erfc : double -> double).
Hypothesis G : good_dist log exp erfc.
Hypothesis S : log_sign log.
Lemma floor16_low x : bpow radix2 (-54) <= floor16 x.
Proof. unfold floor16. apply Rle_trans with (2 := Rmax_l _ _). change (bpow radix2 (-54)) with (/ 18014398509481984). lra. Qed.
Lemma floor16_diff x y : Rabs (floor16 x - floor16 y) <= Rabs (x - y).
Proof. unfold floor16, Rmax. repeat destruct Rle_dec; unfold Rabs; repeat destruct Rcase_abs; lra. Qed.
(* log_safe (1 - b): the rounding of 1 - b matters only relative to 1 - b *)
Lemma log_one_minus b : valid01 b -> Rabs (dval (log_safe log (dsub d1 b)) - ln (floor16 (1 - dval b))) <= bpow radix2 (-38).
Proof.
  intros [Fb Bb]. pose proof (one_minus b (conj Fb Bb)) as V. destruct (log_safe_ok log exp erfc G S _ V) as (_ & _ & E). fold (floor16 (dval (dsub d1 b))) in E.
  destruct d1_val as [V1 F1]. destruct (dsub_ok d1 b F1 Fb) as [Vs _]; [rewrite V1; apply small_2, Rabs_le; lra|]. rewrite V1 in Vs.
  set (x := 1 - dval b) in *. assert (X0 : 0 <= x <= 1) by (subst x; lra).
  assert (D : Rabs (ln (floor16 (rnd x)) - ln (floor16 x)) <= bpow radix2 (-42)).
  { pose proof (rnd_err_abs x) as R. rewrite (Rabs_pos_eq x) in R by lra. pose proof (floor16_low x) as L1. pose proof (floor16_low (rnd x)) as L2. pose proof (floor16_diff (rnd x) x) as FD.
    assert (T : bpow radix2 (-1000) <= bpow radix2 (-100)) by (apply bpow_le; lia). pose proof (bpow_gt_0 radix2 (-100)) as P100. set (t := bpow radix2 (-1000)) in *. rewrite u_val in R.
    destruct (Rle_or_lt x (bpow radix2 (-45))) as [H|H].
    - pose proof (ln_diff (floor16 (rnd x)) (floor16 x) _ (bpow_gt_0 radix2 (-54)) L2 L1) as LD. apply Rle_trans with (1 := LD).
      apply Rle_trans with (bpow radix2 (-96) / bpow radix2 (-54)); [|unfold Rdiv; rewrite <- bpow_opp, <- bpow_plus; apply bpow_le; lia].
      apply Rmult_le_compat_r; [apply Rlt_le, Rinv_0_lt_compat, bpow_gt_0|]. apply Rle_trans with (1 := FD). apply Rle_trans with (1 := R).
      replace (bpow radix2 (-96)) with (/ 9007199254740992 * bpow radix2 (-45) + 12 * bpow radix2 (-100)); [lra|].
      change (/ 9007199254740992) with (bpow radix2 (-53)). rewrite <- bpow_plus. change (-53 + -45)%Z with (-98)%Z. replace (bpow radix2 (-96)) with (16 * bpow radix2 (-100)) by (change 16 with (bpow radix2 4); rewrite <- bpow_plus; reflexivity).
      replace (bpow radix2 (-98)) with (4 * bpow radix2 (-100)) by (change 4 with (bpow radix2 2); rewrite <- bpow_plus; reflexivity). lra.
    - assert (X1 : 0 < x) by (pose proof (bpow_gt_0 radix2 (-45)); lra).
      assert (T2 : t <= x * bpow radix2 (-55)).
      { apply Rle_trans with (1 := T). replace (bpow radix2 (-100)) with (bpow radix2 (-45) * bpow radix2 (-55)) by (rewrite <- bpow_plus; reflexivity). apply Rmult_le_compat_r; [apply bpow_ge_0|lra]. }
      change (bpow radix2 (-55)) with (/ 36028797018963968) in T2.
      pose proof R as R'. apply Rabs_le_inv in R'.
      assert (C1 : x / 2 <= floor16 x) by (unfold floor16; apply Rle_trans with (2 := Rmax_r _ _); lra).
      assert (C2 : x / 2 <= floor16 (rnd x)) by (unfold floor16; apply Rle_trans with (2 := Rmax_r _ _); lra).
      pose proof (ln_diff (floor16 (rnd x)) (floor16 x) (x / 2) ltac:(lra) C2 C1) as LD. apply Rle_trans with (1 := LD). change (bpow radix2 (-42)) with (/ 4398046511104).
      apply Rmult_le_reg_r with (x / 2); [lra|]. unfold Rdiv at 1. rewrite Rmult_assoc, Rinv_l by lra. lra. }
  rewrite Vs in E. set (y := dval (log_safe log (dsub d1 b))) in *. apply Rabs_le_inv in D, E. change (bpow radix2 (-42)) with (/ 4398046511104) in D. change (bpow radix2 (-39)) with (/ 549755813888) in E. change (bpow radix2 (-38)) with (/ 274877906944). apply Rabs_le. lra.
Qed.
Lemma aterm_err i a b : (i < 2 ^ 17)%N -> valid01 a -> valid01 b -> Rabs (dval (aterm log i a b) - fterm (IZR (Z.of_N i)) (dval a) (dval b)) <= bpow radix2 (-37) * (2 * IZR (Z.of_N i) + 1) .
Proof.
  intros H A B. destruct (odd_ok i) as [Fo Vo]; [apply N.lt_trans with (1 := H); reflexivity|]. destruct (log_safe_ok log exp erfc G S a A) as (Fa & Ra & Ea). destruct (log_safe_ok log exp erfc G S _ (one_minus b B)) as (Fb & Rb & _). pose proof (log_one_minus b B) as Eb.
  fold (floor16 (dval a)) in Ea. destruct (dadd_ok _ _ Fa Fb) as [Vs Fs]; [apply small_R with 76; [apply Rabs_le; lra|lra]|].
  set (la := dval (log_safe log a)) in *. set (lb := dval (log_safe log (dsub d1 b))) in *. set (L := ln (floor16 (dval a))) in *. set (M := ln (floor16 (1 - dval b))) in *.
  assert (TN : bpow radix2 (-1000) <= / 9007199254740992) by (rewrite <- u_val; apply bpow_le; lia).
  assert (Es : Rabs (dval (dadd (log_safe log a) (log_safe log (dsub d1 b))) - (la + lb)) <= 77 * / 9007199254740992).
  { rewrite Vs. pose proof (rnd_err_abs (la + lb)) as E. rewrite u_val in E. rewrite (Rabs_left1 (la + lb)) in E by lra. lra. }
  assert (Bs : -76 <= dval (dadd (log_safe log a) (log_safe log (dsub d1 b))) <= 0).
  { rewrite Vs. apply rnd_between; [apply (F64_Z (-76)); lia|apply F64_0|lra]. }
  unfold aterm. set (o := dadd (dmul two_ (double_of_N i)) d1) in *. set (s := dadd (log_safe log a) (log_safe log (dsub d1 b))) in *.
  assert (I0 : 0 <= IZR (Z.of_N i) <= 131071) by (split; [apply (IZR_le 0); lia|apply (IZR_le _ 131071); lia]).
  rewrite plus_IZR, mult_IZR in Vo. set (k := 2 * IZR (Z.of_N i) + 1) in *. assert (K1 : 1 <= k <= 262143) by (subst k; lra).
  assert (P : - (76 * k) <= dval o * dval s <= 0) by (rewrite Vo; nra).
  destruct (dmul_ok o s Fo Fs) as [V F]; [apply small_R with (76 * 262143); [apply Rabs_le; lra|lra]|].
  pose proof (rnd_err_abs (dval o * dval s)) as E. rewrite <- V in E. rewrite u_val in E. rewrite (Rabs_left1 (dval o * dval s)) in E by lra.
  unfold fterm. fold L M k. rewrite Vo in *. apply Rabs_le_inv in E, Es, Ea, Eb.
  assert (TN2 : bpow radix2 (-1000) <= / 9007199254740992 * k) by lra.
  change (bpow radix2 (-39)) with (/ 549755813888) in Ea. change (bpow radix2 (-38)) with (/ 274877906944) in Eb. change (bpow radix2 (-37)) with (/ 137438953472).
  set (d := dval s - (L + M)). assert (Dd : - (165 / 100 * / 274877906944) <= d <= 165 / 100 * / 274877906944) by (subst d; lra).
  replace (dval (dmul o s) - k * (L + M)) with ((dval (dmul o s) - k * dval s) + k * d) by (subst d; ring).
  assert (KD : - (165 / 100 * / 274877906944 * k) <= k * d <= 165 / 100 * / 274877906944 * k) by (clear - K1 Dd; split; nra). apply Rabs_le. lra.
Qed.
Lemma asum_err l : forall m i s T, Forall valid01 l -> Forall valid01 m -> length m = length l -> (i + N.of_nat (length l) <= 2 ^ 17)%N -> fin s -> - (76 * (IZR (Z.of_N i) * IZR (Z.of_N i))) <= dval s <= 0 ->
  let w := IZR (Z.of_N (i + N.of_nat (length l))) in forall W, w <= W -> W <= 131072 ->
  Rabs (dval s - T) <= bpow radix2 (-37) * (IZR (Z.of_N i) * IZR (Z.of_N i)) + 77 * / 9007199254740992 * (W * W) * IZR (Z.of_N i) ->
  Rabs (dval (anderson_darling_sum log i l m s) - (T + ad_rec i l m)) <= bpow radix2 (-37) * (w * w) + 77 * / 9007199254740992 * (W * W) * w.
Proof.
  induction l as [|a l IH]; intros m i s T Vl Vm Lm L F B; cbv zeta; intros W HW W2 E.
  - cbn [anderson_darling_sum ad_rec length]. replace (i + N.of_nat 0)%N with i by lia. rewrite Rplus_0_r. exact E.
  - destruct m as [|b m]; [discriminate Lm|]. cbn [length] in L, Lm, HW.
    assert (I0 : 0 <= IZR (Z.of_N i)) by (apply (IZR_le 0); lia).
    assert (HL : (i + 1 + N.of_nat (length l) <= 2 ^ 23)%N) by (apply N.le_trans with (2 ^ 17)%N; [|discriminate]; clear - L; lia).
    assert (I2 : (i < 2 ^ 23)%N) by (apply N.lt_le_trans with (2 ^ 17)%N; [|discriminate]; clear - L; lia).
    destruct (aterm_ok log exp erfc G S i a b I2 (Forall_inv Vl) (Forall_inv Vm)) as [Ft Bt]. pose proof (aterm_err i a b ltac:(lia) (Forall_inv Vl) (Forall_inv Vm)) as Et.
    change (anderson_darling_sum log i (a :: l) (b :: m) s) with (anderson_darling_sum log (i + 1) l m (dadd s (aterm log i a b))). cbn [ad_rec].
    replace (T + (fterm (IZR (Z.of_N i)) (dval a) (dval b) + ad_rec (i + 1) l m)) with (T + fterm (IZR (Z.of_N i)) (dval a) (dval b) + ad_rec (i + 1) l m) by ring.
    assert (EQ : (i + N.of_nat (length (a :: l)) = i + 1 + N.of_nat (length l))%N) by (cbn [length]; lia). rewrite EQ.
    assert (IW : IZR (Z.of_N i) + 1 <= W). { apply Rle_trans with (2 := HW). rewrite <- (plus_IZR _ 1). apply IZR_le. lia. }
    assert (TT : - (76 * (IZR (Z.of_N (i + 1)) * IZR (Z.of_N (i + 1)))) <= dval s + dval (aterm log i a b) <= 0).
    { rewrite N2Z.inj_add, plus_IZR. rewrite plus_IZR, mult_IZR in Bt. change (IZR (Z.of_N 1)) with 1. nra. }
    assert (WW : (IZR (Z.of_N i) + 1) * (IZR (Z.of_N i) + 1) <= W * W) by (apply Rmult_le_compat; lra).
    assert (W3 : W * W <= 131072 * 131072) by (apply Rmult_le_compat; lra).
    assert (TW : - (76 * (W * W)) <= dval s + dval (aterm log i a b) <= 0).
    { rewrite N2Z.inj_add, plus_IZR in TT. change (IZR (Z.of_N 1)) with 1 in TT. lra. }
    destruct (dadd_ok s _ F Ft) as [V Fs]; [apply small_R with (76 * (131072 * 131072)); [apply Rabs_le; lra|lra]|].
    pose proof (rnd_err_abs (dval s + dval (aterm log i a b))) as R. rewrite <- V, u_val, (Rabs_left1 (dval s + _)) in R by lra.
    assert (TN : bpow radix2 (-1000) <= / 9007199254740992) by (rewrite <- u_val; apply bpow_le; lia).
    assert (W1 : 1 <= W * W) by nra.
    apply IH; [eapply Forall_inv_tail; eassumption|eapply Forall_inv_tail; eassumption|lia|lia|exact Fs| | |exact W2|].
    + rewrite V. replace (76 * (IZR (Z.of_N (i + 1)) * IZR (Z.of_N (i + 1)))) with (IZR (76 * (Z.of_N (i + 1) * Z.of_N (i + 1)))) in * by (rewrite !mult_IZR; reflexivity). rewrite <- opp_IZR in *.
      apply rnd_between; [apply F64_Z|apply F64_0|exact TT]. rewrite Z.abs_opp, Z.abs_eq by lia.
      assert (Z.of_N (i + 1) <= 131072)%Z by lia. assert (0 <= Z.of_N (i + 1))%Z by lia. nia.
    + replace (i + 1 + N.of_nat (length l))%N with (i + N.of_nat (length (a :: l)))%N by (cbn [length]; lia). exact HW.
    + rewrite N2Z.inj_add, plus_IZR. change (IZR (Z.of_N 1)) with 1. set (ii := IZR (Z.of_N i)) in *. set (v := fterm ii (dval a) (dval b)) in *. set (av := dval (aterm log i a b)) in *.
      set (nv := dval (dadd s (aterm log i a b))) in *. set (w2 := W * W) in *. apply Rabs_le_inv in R, Et, E. set (p37 := bpow radix2 (-37)) in *.
      replace (p37 * ((ii + 1) * (ii + 1))) with (p37 * (ii * ii) + p37 * (2 * ii + 1)) by ring. replace (77 * / 9007199254740992 * w2 * (ii + 1)) with (77 * / 9007199254740992 * w2 * ii + 77 * / 9007199254740992 * w2) by ring.
      set (A := p37 * (ii * ii)) in *. set (B' := p37 * (2 * ii + 1)) in *. set (C := 77 * / 9007199254740992 * w2 * ii) in *. apply Rabs_le. lra.
Qed.
(* The computed statistic against the formula, for up to 2^17 numbers. *)
Lemma a2_err l : Forall valid01 l -> l <> [] -> (N.of_nat (length l) <= 2 ^ 17)%N -> let n := INR (length l) in
  Rabs (dval (a2 log l) - ad_value (map dval l)) <= bpow radix2 (-36) * n + bpow radix2 (-45) * (n * n).
Proof.
  intros V NE L. cbv zeta. destruct (a2_ok log exp erfc G S l V NE) as (Fa & Va & Fq & Vq & Bq & _ & Fs & Bn); [apply N.le_trans with (1 := L); discriminate|].
  unfold ad_value. rewrite map_length, ad_sum_rec. rewrite INR_IZR_INZ. rewrite nat_N_Z in *. set (n := IZR (Z.of_nat (length l))) in *.
  assert (N2 : n <= 131072) by (apply (IZR_le _ 131072); lia).
  pose proof (asum_err l (rev l) 0 d0 0 V (Forall_rev V) (rev_length l) ltac:(lia) eq_refl) as E. change (dval d0) with 0 in E. change (IZR (Z.of_N 0)) with 0 in E.
  specialize (E ltac:(lra) n). rewrite N.add_0_l, nat_N_Z in E. fold n in E. specialize (E ltac:(lra) N2). rewrite Rplus_0_l in E.
  specialize (E ltac:(rewrite Rminus_0_r, Rabs_R0; lra)). set (s := dval (anderson_darling_sum log 0 l (rev l) d0)) in *. set (T := ad_rec 0 l (rev l)) in *. set (q := dval (ddiv _ _)) in *.
  assert (TN : bpow radix2 (-1000) <= / 9007199254740992) by (rewrite <- u_val; apply bpow_le; lia).
  assert (D : Rabs (s / n - T / n) <= bpow radix2 (-37) * n + 77 * / 9007199254740992 * (n * n)).
  { replace (s / n - T / n) with ((s - T) * / n) by (field; lra). rewrite Rabs_mult, (Rabs_pos_eq (/ n)) by (apply Rlt_le, Rinv_0_lt_compat; lra).
    apply Rmult_le_reg_r with n; [lra|]. rewrite Rmult_assoc, Rinv_l, Rmult_1_r by lra. apply Rle_trans with (1 := E). apply Req_le. ring. }
  assert (Bsn : - (76 * n) - 1 <= s / n <= 1).
  { pose proof (rnd_err_abs (s / n)) as R. rewrite <- Vq in R. rewrite u_val in R. 
    destruct (Rle_or_lt 0 (s / n)) as [H|H]; [rewrite (Rabs_pos_eq (s / n)) in R by exact H|rewrite (Rabs_left (s / n)) in R by exact H]; apply Rabs_le_inv in R; split; lra. }
  pose proof (rnd_err_abs (s / n)) as R1. rewrite <- Vq in R1. rewrite u_val in R1.
  assert (A1 : Rabs (s / n) <= 77 * n) by (apply Rabs_le; lra).
  pose proof (rnd_err_abs (- n - q)) as R2. rewrite <- Va in R2. rewrite u_val in R2. assert (A2 : Rabs (- n - q) <= 77 * n) by (apply Rabs_le; lra).
  set (sn := s / n) in *. set (tn := T / n) in *. apply Rabs_le_inv in D. 
  assert (R1' : Rabs (q - sn) <= 78 * / 9007199254740992 * n) by lra. assert (R2' : Rabs (dval (a2 log l) - (- n - q)) <= 78 * / 9007199254740992 * n) by lra.
  apply Rabs_le_inv in R1', R2'. set (nn := n * n) in *. assert (NN : n <= nn) by (subst nn; nra).
  change (bpow radix2 (-37)) with (/ 137438953472) in D. change (bpow radix2 (-36)) with (/ 68719476736). change (bpow radix2 (-45)) with (/ 35184372088832). apply Rabs_le. lra.
Qed.
End Log.
