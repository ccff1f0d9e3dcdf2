(* The z score of Kendall's test: accuracy, symmetry, dependence on the order only. *)
From Coq Require Import Reals Lra Lia Permutation.
From Flocq Require Import Core BinarySingleNaN.
From Verif Require Import Base FloatModel FloatLemmas ResultModel ResultSpec CollectModel StatsModel RescaleProofs StatsProofs CouponFloatProofs StatFormulas CommandModel CorrModel CorrSpec CorrCount.
Open Scope R_scope.

Lemma dmul_comm x y : dmul x y = dmul y x.
Proof.
  unfold dmul. destruct x as [s|s| |s m e B], y as [s'|s'| |s' m' e' B']; cbn [Bmult]; try reflexivity; try (destruct s, s'; reflexivity).
  apply B2SF_inj. rewrite !B2SF_SF2B. rewrite (xorb_comm s s'), (Pos.mul_comm m m'), (Z.add_comm e e'). reflexivity.
Qed.

Lemma double_of_Z_ok z : (Z.abs z <= 2 ^ 53)%Z -> dval (double_of_Z z) = IZR z /\ fin (double_of_Z z).
Proof.
  intros H. unfold double_of_Z. assert (E : F2R (Float radix2 z 0) = IZR z) by (unfold F2R; cbn; ring).
  assert (S : Rabs (IZR z) <= bpow radix2 53). { rewrite <- abs_IZR. rewrite <- IZR_pow2 by lia. apply IZR_le, H. }
  destruct (dconst_ok z 0) as [V F]; [rewrite E; apply small_bpow with 53%Z; [lia|exact S]|]. split; [|exact F]. rewrite V, E. apply rnd_id, F64_Z, H.
Qed.
Lemma dneg_val x : dval (dneg x) = - dval x. Proof. apply B2R_Bopp. Qed.
Lemma dneg_fin x : fin x -> fin (dneg x). Proof. intros F. unfold fin, dneg. rewrite is_finite_Bopp. exact F. Qed.

Lemma is_near_val a b : fin a -> fin b -> Rabs (dval a) <= 4 -> Rabs (dval b) <= 4 -> Rabs (rnd (dval a - dval b)) <= / 2 ^ 20 -> is_near a b = true.
Proof.
  intros Fa Fb Ba Bb H. apply Rabs_le_inv in Ba, Bb. unfold is_near, is_near_eps.
  destruct (dsub_ok a b Fa Fb) as [V F]; [apply small_bpow with 3%Z; [lia|]; change (bpow radix2 3) with 8; apply Rabs_le; lra|].
  destruct near_eps_val as [Ve Fe]. apply dle_iff; [apply dabs_fin, F|exact Fe|]. rewrite dabs_val, V, Ve. apply Rle_trans with (1 := H).
  assert (E : bpow radix2 (-72) = / 4722366482869645213696) by exact (bpow_opp radix2 72). rewrite E. lra.
Qed.
Lemma is_near_far a b : fin a -> fin b -> Rabs (dval a) <= 4 -> Rabs (dval b) <= 4 -> 1 <= Rabs (dval a - dval b) -> is_near a b = false.
Proof.
  intros Fa Fb Ba Bb H. apply Rabs_le_inv in Ba, Bb. unfold is_near, is_near_eps.
  destruct (dsub_ok a b Fa Fb) as [V F]; [apply small_bpow with 3%Z; [lia|]; change (bpow radix2 3) with 8; apply Rabs_le; lra|].
  destruct near_eps_val as [Ve Fe]. apply dle_false; [apply dabs_fin, F|exact Fe|]. rewrite dabs_val, V. apply Rlt_le_trans with 1; [pose proof near_eps_range; lra|].
  unfold rnd. rewrite <- round_NE_abs by typeclasses eauto. change (1 <= rnd (Rabs (dval a - dval b))). rewrite <- (rnd_id 1) by apply F64_1. apply rnd_mono, H.
Qed.
Lemma pow2_20 : / 2 ^ 20 = bpow radix2 (-20). Proof. change (bpow radix2 (-20)) with (/ 1048576). lra. Qed.

(* rounding noise above 1 is cut off *)
Lemma adjust_ok d t e : fin d -> Rabs t <= 1 -> 0 <= e <= / 2 ^ 20 -> approx e (dval d) t ->
  let a := adjust_correlation d in fin a /\ Rabs (dval a) <= 1 /\ approx e (dval a) t /\ (0 <= t -> 0 <= dval d -> 0 <= dval a).
Proof.
  intros F T E A. pose proof A as A'. unfold approx in A'. apply Rabs_le_inv in A'. pose proof (Rabs_pos t) as Pt. apply Rabs_le_inv in T as T'.
  assert (Q : e * Rabs t <= / 2 ^ 20) by (apply Rle_trans with (/ 2 ^ 20 * 1); [apply Rmult_le_compat; lra|lra]).
  assert (S20 : / 2 ^ 20 <= / 2) by (apply Rinv_le_contravar; [lra|simpl; lra]).
  destruct d1_val as [V1 F1]. pose proof (dneg_fin _ F1) as Fm. pose proof (dneg_val d1) as Vm. rewrite V1 in Vm.
  unfold adjust_correlation. destruct (dle (dneg d1) d && dle d d1) eqn:K.
  - apply andb_prop in K. destruct K as [K1 K2]. apply dle_iff in K1; [|assumption..]. apply dle_iff in K2; [|assumption..].
    cbn zeta. split; [exact F|]. split; [apply Rabs_le; lra|]. split; [exact A|]. intros _ P. exact P.
  - assert (Bd : Rabs (dval d) <= 4) by (apply Rabs_le; lra).
    destruct (Rle_or_lt (dval d) 1) as [C|C].
    + assert (C' : dval d < -1). { apply Rnot_le_lt. intros H. apply andb_false_iff in K. destruct K as [K|K]; apply dle_false in K; try assumption; lra. }
      rewrite is_near_val; [| assumption.. |rewrite Vm; apply Rabs_le; lra|].
      2:{ rewrite Vm, pow2_20. apply Rabs_le, rnd_between; [apply F64_opp, F64_bpow; lia|apply F64_bpow; lia|]. rewrite <- pow2_20. lra. }
      cbn zeta. rewrite Vm. split; [exact Fm|]. split; [rewrite Rabs_Ropp, Rabs_R1; lra|]. split; [|intros; lra].
      unfold approx in *. apply Rle_trans with (2 := A). rewrite !Rabs_left1 by lra. lra.
    + rewrite is_near_far; [| assumption.. |rewrite Vm; apply Rabs_le; lra|rewrite Vm, Rabs_pos_eq; lra].
      rewrite is_near_val; [| assumption.. |rewrite V1; apply Rabs_le; lra|].
      2:{ rewrite V1, pow2_20. apply Rabs_le, rnd_between; [apply F64_opp, F64_bpow; lia|apply F64_bpow; lia|]. rewrite <- pow2_20. lra. }
      cbn zeta. rewrite V1. split; [exact F1|]. split; [rewrite Rabs_R1; lra|]. split; [|intros; lra].
      unfold approx in *. apply Rle_trans with (2 := A). rewrite !Rabs_pos_eq by lra. lra.
Qed.

Definition e48 : R := bpow radix2 (-48).
Lemma e48_val : e48 = 32 * u. Proof. unfold e48. change (-48)%Z with (5 + -53)%Z. rewrite bpow_plus. reflexivity. Qed.
Lemma sqrt_range a n : 1 <= a <= IZR n * IZR n -> (0 <= n)%Z -> 1 <= sqrt a <= IZR n.
Proof.
  intros H P. assert (0 <= IZR n) by (apply IZR_le, P). split; [rewrite <- sqrt_1; apply sqrt_le_1_alt; lra|].
  rewrite <- (sqrt_square (IZR n)) by assumption. apply sqrt_le_1_alt. lra.
Qed.
Lemma nf_ok n : (1 <= n <= 2 ^ 52)%N -> let s := dsqrt (double_of_N n) in fin s /\ approx (err 1) (dval s) (sqrt (IZR (Z.of_N n))) /\ 1 <= dval s <= bpow radix2 26.
Proof.
  intros H s. destruct (double_of_N_exact n) as [V F]; [change (2 ^ 52)%N with 4503599627370496%N in H; change (2 ^ 53)%N with 9007199254740992%N; lia|].
  assert (B : 1 <= IZR (Z.of_N n) <= IZR (2 ^ 26) * IZR (2 ^ 26)).
  { split; [apply IZR_le; lia|]. rewrite <- mult_IZR. apply IZR_le. change (2 ^ 26 * 2 ^ 26)%Z with 4503599627370496%Z. change (2 ^ 52)%N with 4503599627370496%N in H. lia. }
  apply sqrt_range in B; [|lia]. rewrite IZR_pow2 in B by lia.
  destruct (dsqrt_ok (double_of_N n) F) as [F' V']; [rewrite V; apply IZR_le; lia|]. fold s in F', V'. rewrite V in V'. split; [exact F'|]. rewrite V'.
  split; [rewrite err_1; apply rnd_approx; apply Rle_trans with 1; [apply (bpow_le radix2 _ 0); lia|apply B]|].
  apply rnd_between; [apply F64_1|apply F64_bpow; lia|exact B].
Qed.

Section Finish.
Variables (n1 n2 : N) (is : Z).
Hypotheses (H1 : (1 <= n1 <= 2 ^ 52)%N) (H2 : (1 <= n2 <= 2 ^ 52)%N) (Hi1 : (Z.abs is <= Z.of_N n1)%Z) (Hi2 : (Z.abs is <= Z.of_N n2)%Z).
Definition den : R := sqrt (IZR (Z.of_N n1)) * sqrt (IZR (Z.of_N n2)).
Lemma den_val : den = sqrt (IZR (Z.of_N n1) * IZR (Z.of_N n2)). Proof. unfold den. rewrite sqrt_mult; [reflexivity|apply IZR_le; lia|apply IZR_le; lia]. Qed.
Lemma den_ge : 1 <= den /\ Rabs (IZR is) <= den.
Proof.
  assert (A : 1 <= IZR (Z.of_N n1)) by (apply IZR_le; lia). assert (B : 1 <= IZR (Z.of_N n2)) by (apply IZR_le; lia). rewrite den_val. split.
  - rewrite <- sqrt_1. apply sqrt_le_1_alt. nra.
  - rewrite <- (sqrt_square (Rabs (IZR is))) by apply Rabs_pos. apply sqrt_le_1_alt. rewrite <- abs_IZR. apply Rmult_le_compat; try (apply IZR_le; lia).
Qed.
Definition raw_tau : double := ddiv (double_of_Z is) (dmul (dsqrt (double_of_N n1)) (dsqrt (double_of_N n2))).
Lemma den_ok : let p := dmul (dsqrt (double_of_N n1)) (dsqrt (double_of_N n2)) in fin p /\ approx (err 3) (dval p) den /\ 1 <= dval p <= bpow radix2 52.
Proof.
  intros p. destruct (nf_ok n1 H1) as (Fa & Aa & Ba). destruct (nf_ok n2 H2) as (Fb & Ab & Bb).
  assert (B : 1 <= dval (dsqrt (double_of_N n1)) * dval (dsqrt (double_of_N n2)) <= bpow radix2 52).
  { split; [nra|]. change 52%Z with (26 + 26)%Z. rewrite bpow_plus. apply Rmult_le_compat; lra. }
  destruct (dmul_ok _ _ Fa Fb) as [V F]; [apply small_bpow with 52%Z; [lia|apply Rabs_le; lra]|]. fold p in V, F. split; [exact F|]. rewrite V. split.
  - apply approx_then with (dval (dsqrt (double_of_N n1)) * dval (dsqrt (double_of_N n2))); [apply (approx_mult_err 1 1); assumption|]. apply rnd_approx. apply Rle_trans with 1; [apply (bpow_le radix2 _ 0); lia|lra].
  - apply rnd_between; [apply F64_1|apply F64_bpow; lia|exact B].
Qed.
Lemma err3 : 0 <= err 3 <= 4 * u.
Proof. split; [apply err_pos|]. unfold err. rewrite u_val. lra. Qed.
Lemma raw_tau_ok : fin raw_tau /\ approx (10 * u) (dval raw_tau) (IZR is / den) /\ (dval raw_tau = 0 \/ bpow radix2 (-54) <= Rabs (dval raw_tau)) /\ (is = 0%Z -> dval raw_tau = 0).
Proof.
  destruct den_ok as (Fp & Ap & Bp). set (p := dmul (dsqrt (double_of_N n1)) (dsqrt (double_of_N n2))) in *. destruct den_ge as [G1 G2].
  destruct (double_of_Z_ok is) as [Vi Fi]. { change (2 ^ 52)%N with 4503599627370496%N in H1. change (2 ^ 53)%Z with 9007199254740992%Z. lia. }
  assert (Bi : Rabs (IZR is) <= bpow radix2 53). { rewrite <- abs_IZR, <- IZR_pow2 by lia. apply IZR_le. change (2 ^ 52)%N with 4503599627370496%N in H1. change (2 ^ 53)%Z with 9007199254740992%Z. lia. }
  assert (I : 0 < / dval p <= 1). { split; [apply Rinv_0_lt_compat; lra|]. rewrite <- Rinv_1. apply Rinv_le_contravar; lra. }
  assert (B : Rabs (IZR is / dval p) <= bpow radix2 53).
  { unfold Rdiv. rewrite Rabs_mult, (Rabs_pos_eq (/ _)) by lra. pose proof (Rabs_pos (IZR is)). nra. }
  destruct (ddiv_ok (double_of_Z is) p Fi) as [V F]; [lra|rewrite Vi; apply small_bpow with 53%Z; [lia|exact B]|]. change (ddiv (double_of_Z is) p) with raw_tau in V, F. rewrite Vi in V.
  assert (Ge : IZR is / dval p = 0 \/ bpow radix2 (-52) <= Rabs (IZR is / dval p)).
  { destruct (Z.eq_dec is 0) as [E|E]; [left; rewrite E; unfold Rdiv; ring|right]. unfold Rdiv. rewrite Rabs_mult, (Rabs_pos_eq (/ _)) by lra.
    assert (1 <= Rabs (IZR is)) by (rewrite <- abs_IZR; apply IZR_le; lia).
    assert (bpow radix2 (-52) <= / dval p). { change (bpow radix2 (-52)) with (bpow radix2 (Z.opp 52)); rewrite bpow_opp. apply Rinv_le_contravar; lra. } nra. }
  split; [exact F|]. destruct err3 as [E0 E3]. pose proof u_pos as Pu. split; [|split].
  - rewrite V. pose proof (approx_quot 0 (err 3) (IZR is) (IZR is) (dval p) den ltac:(lra) ltac:(pose proof u_small; lra) ltac:(lra) (approx_refl 0 _ ltac:(lra)) Ap) as Q.
    assert (R : approx u (rnd (IZR is / dval p)) (IZR is / dval p)).
    { apply rnd_err. destruct Ge as [Ge|Ge]; [left; exact Ge|right]. apply Rle_trans with (2 := Ge). apply bpow_le. lia. }
    pose proof (approx_trans _ u _ _ _ ltac:(lra) Q R) as T. eapply approx_le; [|exact T]. rewrite u_val in *. nra.
  - rewrite V. destruct Ge as [Ge|Ge]; [left; rewrite Ge; apply rnd_id, F64_0|right].
    apply Rle_trans with (bpow radix2 (-52)); [apply bpow_le; lia|]. unfold rnd. rewrite <- round_NE_abs by typeclasses eauto. change (bpow radix2 (-52) <= rnd (Rabs (IZR is / dval p))).
    rewrite <- (rnd_id (bpow radix2 (-52))) by (apply F64_bpow; lia). apply rnd_mono, Ge.
  - intros E. rewrite V, E. unfold Rdiv. rewrite Rmult_0_l. apply rnd_id, F64_0.
Qed.
Definition tau : double := adjust_correlation raw_tau.
Lemma tau_ok : fin tau /\ Rabs (dval tau) <= 1 /\ approx (10 * u) (dval tau) (IZR is / den) /\ (dval tau = 0 \/ bpow radix2 (-54) <= Rabs (dval tau)).
Proof.
  destruct raw_tau_ok as (F & A & G & Z). destruct den_ge as [G1 G2].
  assert (T : Rabs (IZR is / den) <= 1). { unfold Rdiv. rewrite Rabs_mult, (Rabs_pos_eq (/ den)) by (apply Rlt_le, Rinv_0_lt_compat; lra). apply Rmult_le_reg_r with den; [lra|]. rewrite Rmult_assoc, Rinv_l by lra. lra. }
  assert (E : 0 <= 10 * u <= / 2 ^ 20) by (rewrite u_val; lra).
  destruct (adjust_ok raw_tau _ _ F T E A) as (F' & B' & A' & _). fold tau in F', B', A'. split; [exact F'|]. split; [exact B'|]. split; [exact A'|].
  unfold tau, adjust_correlation. destruct d1_val as [V1 _]. pose proof (dneg_val d1) as Vm. rewrite V1 in Vm. assert (S : bpow radix2 (-54) <= 1) by (apply (bpow_le radix2 _ 0); lia).
  destruct (_ && _); [exact G|]. destruct (is_near raw_tau (dneg d1)); [right; rewrite Vm, Rabs_Ropp, Rabs_R1; exact S|].
  destruct (is_near raw_tau d1); [right; rewrite V1, Rabs_R1; exact S|exact G].
Qed.
End Finish.

Section Z.
Variable n : nat.
Hypothesis Hn : (2 <= n)%nat.
Hypothesis Hn' : (N.of_nat n <= 2 ^ 26)%N.
Definition varR : R := (4 * INR n + 10) / (9 * INR n * (INR n - 1)).
Definition var : double := let dn := double_of_N (N.of_nat n) in ddiv (dadd (dmul (double_of_N 4) dn) (double_of_N 10)) (dmul (dmul (double_of_N 9) dn) (dsub dn d1)).
Lemma n_range : 2 <= INR n <= 67108864.
Proof. rewrite INR_IZR_INZ. split; apply IZR_le; [lia|]. change (2 ^ 26)%N with 67108864%N in Hn'. lia. Qed.
Lemma int_ok k : (Z.abs k <= 2 ^ 53)%Z -> rnd (IZR k) = IZR k. Proof. intros H. apply rnd_id, F64_Z, H. Qed.
Lemma var_ok : fin var /\ approx (4 * u) (dval var) varR /\ bpow radix2 (-30) <= dval var <= 4.
Proof.
  pose proof n_range as R. set (k := Z.of_nat n). assert (Ek : INR n = IZR k) by apply INR_IZR_INZ. rewrite Ek in R.
  change (2 ^ 26)%N with 67108864%N in Hn'. assert (Bk : (2 <= k <= 67108864)%Z) by (unfold k; lia).
  destruct (double_of_N_exact (N.of_nat n)) as [Vn Fn]; [change (2 ^ 53)%N with 9007199254740992%N; lia|]. replace (Z.of_N (N.of_nat n)) with k in Vn by (unfold k; lia).
  destruct (double_of_N_exact 4) as [V4 F4]; [lia|]. destruct (double_of_N_exact 9) as [V9 F9]; [lia|]. destruct (double_of_N_exact 10) as [V10 F10]; [lia|]. destruct d1_val as [V1 F1].
  change (IZR (Z.of_N 4)) with 4 in V4. change (IZR (Z.of_N 9)) with 9 in V9. change (IZR (Z.of_N 10)) with 10 in V10.
  assert (SM : forall r, 0 <= r <= 2 ^ 57 -> small r). { intros r Hr. apply small_bpow with 57%Z; [lia|]. rewrite Rabs_pos_eq by lra. change (bpow radix2 57) with 144115188075855872. lra. }
  unfold var. set (dn := double_of_N (N.of_nat n)) in *.
  destruct (dmul_ok (double_of_N 4) dn F4 Fn) as [Va Fa]; [apply SM; rewrite V4, Vn; lra|]. rewrite V4, Vn, <- (mult_IZR 4 k), int_ok, mult_IZR in Va by lia.
  destruct (dadd_ok _ (double_of_N 10) Fa F10) as [Vb Fb]; [apply SM; rewrite Va, V10; lra|]. rewrite Va, V10, <- (mult_IZR 4 k), <- (plus_IZR _ 10), int_ok, plus_IZR, mult_IZR in Vb by lia.
  destruct (dmul_ok (double_of_N 9) dn F9 Fn) as [Vc Fc]; [apply SM; rewrite V9, Vn; lra|]. rewrite V9, Vn, <- (mult_IZR 9 k), int_ok, mult_IZR in Vc by lia.
  destruct (dsub_ok dn d1 Fn F1) as [Vd Fd]; [apply SM; rewrite V1, Vn; lra|]. rewrite V1, Vn, <- (minus_IZR k 1), int_ok, minus_IZR in Vd by lia.
  assert (Q : 18 <= 9 * IZR k * (IZR k - 1) <= 2 ^ 56) by nra.
  destruct (dmul_ok _ _ Fc Fd) as [Ve Fe]; [apply SM; rewrite Vc, Vd; lra|]. rewrite Vc, Vd in Ve.
  assert (Ae : approx u (rnd (9 * IZR k * (IZR k - 1))) (9 * IZR k * (IZR k - 1))). { apply rnd_approx. apply Rle_trans with 1; [apply (bpow_le radix2 _ 0); lia|lra]. }
  assert (Be : 18 <= rnd (9 * IZR k * (IZR k - 1)) <= bpow radix2 56). { apply rnd_between; [apply (F64_Z 18); lia|apply F64_bpow; lia|]. change (bpow radix2 56) with 72057594037927936. lra. }
  rewrite <- Ve in Be, Ae. set (num := dadd (dmul (double_of_N 4) dn) (double_of_N 10)) in *. set (e := dmul (dmul (double_of_N 9) dn) (dsub dn d1)) in *.
  assert (Bq : 0 < 4 * IZR k + 10 <= 2 ^ 57) by lra.
  pose proof (approx_quot 0 u (4 * IZR k + 10) (4 * IZR k + 10) (dval e) (9 * IZR k * (IZR k - 1)) ltac:(lra) ltac:(pose proof u_small; pose proof u_pos; lra) ltac:(lra) (approx_refl 0 _ ltac:(lra)) Ae) as Aq.
  assert (TV : bpow radix2 (-28) <= (4 * IZR k + 10) / (9 * IZR k * (IZR k - 1)) <= 1).
  { assert (KK : 0 <= IZR k * (67108864 - IZR k)) by (apply Rmult_le_pos; lra). assert (KL : 4 * IZR k + 10 <= 9 * IZR k * (IZR k - 1)) by nra.
    assert (KM : 9 * IZR k * (IZR k - 1) <= 268435456 * (4 * IZR k + 10)) by lra. set (D := 9 * IZR k * (IZR k - 1)) in *. set (M := 4 * IZR k + 10) in *.
    change (bpow radix2 (-28)) with (/ 268435456). split; (apply Rmult_le_reg_r with D; [lra|]); unfold Rdiv; rewrite (Rmult_assoc M), (Rinv_l D) by lra; lra. }
  set (q := (4 * IZR k + 10) / (9 * IZR k * (IZR k - 1))) in *.
  assert (TQ : bpow radix2 (-29) <= (4 * IZR k + 10) / dval e <= 2).
  { unfold approx in Aq. rewrite (Rabs_pos_eq q) in Aq by (pose proof (bpow_gt_0 radix2 (-28)); lra). apply Rabs_le_inv in Aq. pose proof (bpow_gt_0 radix2 (-28)) as P28.
    assert (E29 : bpow radix2 (-28) = 2 * bpow radix2 (-29)) by (change (-28)%Z with (1 + -29)%Z; rewrite bpow_plus; reflexivity). rewrite u_val in Aq. lra. }
  destruct (ddiv_ok num e Fb) as [Vf Ff]; [lra|rewrite Vb; apply small_bpow with 1%Z; [lia|]; rewrite Rabs_pos_eq by (pose proof (bpow_gt_0 radix2 (-29)); lra); apply TQ|]. rewrite Vb in Vf.
  split; [exact Ff|]. rewrite Vf. split.
  - unfold varR. rewrite Ek. fold q. assert (Rn : approx u (rnd ((4 * IZR k + 10) / dval e)) ((4 * IZR k + 10) / dval e)).
    { apply rnd_approx. apply Rle_trans with (2 := proj1 TQ). apply bpow_le. lia. }
    pose proof (approx_trans _ u _ _ _ ltac:(pose proof u_pos; lra) Aq Rn) as T. eapply approx_le; [|exact T]. rewrite u_val. lra.
  - assert (bpow radix2 (-29) <= rnd ((4 * IZR k + 10) / dval e) <= 2) by (apply rnd_between; [apply F64_bpow; lia|apply (F64_Z 2); lia|exact TQ]).
    assert (bpow radix2 (-30) <= bpow radix2 (-29)) by (apply bpow_le; lia). lra.
Qed.
Lemma varR_pos : 0 < varR <= 1.
Proof.
  pose proof n_range. unfold varR. split; [apply Rmult_lt_0_compat; [lra|apply Rinv_0_lt_compat; nra]|].
  assert (K : 4 * INR n + 10 <= 9 * INR n * (INR n - 1)) by nra. set (D := 9 * INR n * (INR n - 1)) in *. apply Rmult_le_reg_r with D; [lra|]. unfold Rdiv. rewrite (Rmult_assoc _ (/ D)), Rinv_l by lra. lra.
Qed.
Lemma sd_ok : fin (dsqrt var) /\ approx (6 * u) (dval (dsqrt var)) (sqrt varR) /\ bpow radix2 (-15) <= dval (dsqrt var) <= 2.
Proof.
  destruct var_ok as (F & A & B). pose proof (bpow_gt_0 radix2 (-30)) as P. destruct (dsqrt_ok var F ltac:(lra)) as [F' V']. split; [exact F'|].
  assert (S : bpow radix2 (-15) <= sqrt (dval var) <= 2).
  { split; [rewrite <- (sqrt_square (bpow radix2 (-15))) by apply bpow_ge_0; apply sqrt_le_1_alt; rewrite <- bpow_plus; apply B|].
    rewrite <- (sqrt_square 2) by lra. apply sqrt_le_1_alt. lra. }
  rewrite V'. split; [|apply rnd_between; [apply F64_bpow; lia|apply (F64_Z 2); lia|exact S]].
  pose proof (approx_sqrt (4 * u) (dval var) varR ltac:(lra) (proj1 varR_pos) A) as As.
  assert (Rn : approx u (rnd (sqrt (dval var))) (sqrt (dval var))). { apply rnd_approx. apply Rle_trans with (2 := proj1 S). apply bpow_le. lia. }
  pose proof (approx_trans _ u _ _ _ ltac:(pose proof u_pos; lra) As Rn) as T. eapply approx_le; [|exact T]. rewrite u_val. lra.
Qed.
Lemma z_ok t tR : fin t -> Rabs (dval t) <= 1 -> approx (10 * u) (dval t) tR -> (dval t = 0 \/ bpow radix2 (-54) <= Rabs (dval t)) ->
  let z := ddiv t (dsqrt var) in fin z /\ approx e48 (dval z) (tR / sqrt varR) /\ Rabs (dval z) <= bpow radix2 15.
Proof.
  intros F B A G z. destruct sd_ok as (Fs & As & Bs). pose proof (bpow_gt_0 radix2 (-15)) as P15. pose proof (Rabs_pos (dval t)) as Pt.
  assert (I : / 2 <= / dval (dsqrt var) <= bpow radix2 15).
  { split; [apply Rinv_le_contravar; lra|]. change 15%Z with (- (-15))%Z. rewrite bpow_opp. apply Rinv_le_contravar; lra. }
  assert (Bq : Rabs (dval t / dval (dsqrt var)) <= bpow radix2 15).
  { unfold Rdiv. rewrite Rabs_mult, (Rabs_pos_eq (/ _)) by lra. nra. }
  destruct (ddiv_ok t (dsqrt var) F) as [V Fz]; [lra|apply small_bpow with 15%Z; [lia|exact Bq]|]. fold z in V, Fz. split; [exact Fz|]. rewrite V. split.
  - pose proof (sqrt_lt_R0 varR (proj1 varR_pos)) as Ps. pose proof u_pos as Pu.
    pose proof (approx_quot (10 * u) (6 * u) (dval t) tR (dval (dsqrt var)) (sqrt varR) ltac:(lra) ltac:(pose proof u_small; lra) Ps A As) as Q.
    assert (Rn : approx u (rnd (dval t / dval (dsqrt var))) (dval t / dval (dsqrt var))).
    { apply rnd_err. destruct G as [G|G]; [left; rewrite G; unfold Rdiv; ring|right]. unfold Rdiv. rewrite Rabs_mult, (Rabs_pos_eq (/ _)) by lra.
      apply Rle_trans with (bpow radix2 (-54) * / 2); [|apply Rmult_le_compat; try lra; apply bpow_ge_0].
      change (/ 2) with (bpow radix2 (-1)). rewrite <- bpow_plus. apply bpow_le. lia. }
    pose proof (approx_trans _ u _ _ _ ltac:(lra) Q Rn) as T. eapply approx_le; [|exact T]. rewrite e48_val, u_val. lra.
  - apply Rabs_le_inv in Bq. apply Rabs_le, rnd_between; [apply F64_opp, F64_bpow; lia|apply F64_bpow; lia|exact Bq].
Qed.
End Z.
