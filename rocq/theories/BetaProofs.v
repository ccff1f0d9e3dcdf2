(* Termination and special values of the incomplete beta function; the t test and the F test. *)
From Coq Require Import Reals Lra Lia.
From Flocq Require Import Core BinarySingleNaN.
From Verif Require Import Base FloatModel FloatLemmas ResultModel CollectModel StatsModel StatsProofs CouponFloatProofs StatFormulas DistModel DistSpec DistReal DistReal2 DistSeries DistLentz DistGamma CorrKendall BetaModel BetaSpec.
Open Scope R_scope.

Lemma half_bound (k c : Z) : (Z.abs k <= c)%Z -> Rabs (IZR k / 2) <= IZR c.
Proof. intros H. unfold Rdiv. rewrite Rabs_mult, (Rabs_pos_eq (/ 2)) by lra. rewrite <- abs_IZR. assert (IZR (Z.abs k) <= IZR c) by (apply IZR_le; exact H). assert (0 <= IZR (Z.abs k)) by (apply IZR_le; lia). lra. Qed.
Lemma half_small (k : Z) : (Z.abs k <= 2 ^ 53)%Z -> small (IZR k / 2).
Proof. intros H. apply (small_R _ (IZR (2 ^ 53))); [apply half_bound, H|]. change (2 ^ 53)%Z with 9007199254740992%Z. lra. Qed.
Lemma halves_add a b k l : halves a k -> halves b l -> (Z.abs (k + l) <= 2 ^ 53)%Z -> halves (dadd a b) (k + l).
Proof.
  intros [Fa Va] [Fb Vb] H. assert (E : dval a + dval b = IZR (k + l) / 2) by (rewrite Va, Vb, plus_IZR; lra).
  destruct (dadd_ok a b Fa Fb) as [V F]; [rewrite E; apply half_small, H|]. split; [exact F|]. rewrite V, E. apply rnd_id, F64_half, H.
Qed.
Lemma halves_sub a b k l : halves a k -> halves b l -> (Z.abs (k - l) <= 2 ^ 53)%Z -> halves (dsub a b) (k - l).
Proof.
  intros [Fa Va] [Fb Vb] H. assert (E : dval a - dval b = IZR (k - l) / 2) by (rewrite Va, Vb, minus_IZR; lra).
  destruct (dsub_ok a b Fa Fb) as [V F]; [rewrite E; apply half_small, H|]. split; [exact F|]. rewrite V, E. apply rnd_id, F64_half, H.
Qed.
Lemma halves_1 : halves d1 2.
Proof. destruct d1_val as [V F]. split; [exact F|]. rewrite V. lra. Qed.
Lemma halves_N n : (n < 2 ^ 53)%N -> halves (double_of_N n) (2 * Z.of_N n).
Proof. intros H. destruct (double_of_N_exact n) as [V F]; [lia|]. split; [exact F|]. rewrite V, mult_IZR. lra. Qed.
Lemma halves_2 : halves two 4.
Proof. apply (halves_N 2). reflexivity. Qed.
Lemma half_val : fin half /\ dval half = / 2.
Proof. destruct (dconst_ok 1 (-1)) as [V F]; [apply (small_R _ 1); [unfold F2R; cbn; apply Rabs_le; lra|lra]|]. split; [exact F|]. unfold half. rewrite V, rnd_id by (apply F64_F2R; lia). unfold F2R. cbn. lra. Qed.
Lemma halves_half a k : halves a (2 * k) -> (Z.abs k <= 2 ^ 53)%Z -> halves (dmul half a) k.
Proof.
  intros [Fa Va] H. destruct half_val as [Fh Vh]. assert (E : dval half * dval a = IZR k / 2) by (rewrite Va, Vh, mult_IZR; lra).
  destruct (dmul_ok half a Fh Fa) as [V F]; [rewrite E; apply half_small, H|]. split; [exact F|]. rewrite V, E. apply rnd_id, F64_half, H.
Qed.

(* the threshold is the rounded quotient *)
Definition thr (k l : Z) : R := IZR (k + 2) / IZR (k + l + 4).
Lemma thr_range k l : (0 <= k)%Z -> (0 <= l)%Z -> 0 < thr k l < 1.
Proof.
  intros Hk Hl. assert (Ek : 0 <= IZR k) by (apply IZR_le; exact Hk). assert (El : 0 <= IZR l) by (apply IZR_le; exact Hl).
  unfold thr. rewrite !plus_IZR. split; [apply Rdiv_lt_0_compat; lra|]. apply Rmult_lt_reg_r with (IZR k + IZR l + 4); [lra|]. unfold Rdiv. rewrite Rmult_assoc, Rinv_l by lra. lra.
Qed.
Lemma thr_sym k l : (0 <= k)%Z -> (0 <= l)%Z -> 1 - thr k l = thr l k.
Proof.
  intros Hk Hl. assert (Ek : 0 <= IZR k) by (apply IZR_le; exact Hk). assert (El : 0 <= IZR l) by (apply IZR_le; exact Hl). unfold thr. rewrite !plus_IZR. field. lra.
Qed.
Lemma threshold_val a b k l : halves a k -> halves b l -> (0 <= k)%Z -> (0 <= l)%Z -> (k + l + 4 <= 2 ^ 53)%Z ->
  fin (beta_threshold a b) /\ dval (beta_threshold a b) = rnd (thr k l).
Proof.
  intros Ha Hb Hk Hl H. destruct (halves_add a d1 k 2 Ha halves_1) as [Fn Vn]; [lia|]. pose proof (halves_add a b k l Ha Hb ltac:(lia)) as Hs. destruct (halves_add _ two (k + l) 4 Hs halves_2) as [Fs Vs]; [lia|].
  pose proof (thr_range k l Hk Hl) as T. assert (Ek : 0 <= IZR k) by (apply IZR_le; exact Hk). assert (El : 0 <= IZR l) by (apply IZR_le; exact Hl).
  assert (E : dval (dadd a d1) / dval (dadd (dadd a b) two) = thr k l). { rewrite Vn, Vs. unfold thr. rewrite !plus_IZR. field. lra. }
  unfold beta_threshold. destruct (ddiv_ok (dadd a d1) (dadd (dadd a b) two) Fn) as [V F].
  - rewrite Vs, !plus_IZR. lra.
  - rewrite E. apply (small_R _ 1); [apply Rabs_le|]; lra.
  - split; [exact F|]. rewrite V, E. reflexivity.
Qed.
Lemma unit_cases x : dlt x d0 || dlt d1 x = true \/ x = B754_nan \/ (fin x /\ 0 <= dval x <= 1 /\ dlt x d0 || dlt d1 x = false).
Proof.
  destruct d0_val as [V0 F0]. destruct d1_val as [V1 F1]. destruct x as [s|[|]| |s m e B] eqn:Ex.
  - right. right. split; [reflexivity|]. replace (dval (B754_zero s)) with 0 by reflexivity. split; [lra|].
    assert (A : dlt (B754_zero s : double) d0 = false) by (apply dlt_false; [reflexivity|exact F0|rewrite V0; cbn; lra]). assert (C : dlt d1 (B754_zero s) = false) by (apply dlt_false; [exact F1|reflexivity|rewrite V1; cbn; lra]). rewrite A, C. reflexivity.
  - left. reflexivity.
  - left. apply orb_true_iff. right. reflexivity.
  - right. left. reflexivity.
  - assert (F : fin x) by (rewrite Ex; reflexivity). rewrite <- Ex. destruct (dlt x d0) eqn:A; [left; reflexivity|]. destruct (dlt d1 x) eqn:C; [left; reflexivity|]. right. right. split; [exact F|].
    apply dlt_false in A; [|exact F|exact F0]. apply dlt_false in C; [|exact F1|exact F]. rewrite V0 in A. rewrite V1 in C. split; [lra|reflexivity].
Qed.
Lemma one_minus x : fin x -> 0 <= dval x <= 1 -> fin (dsub d1 x) /\ dval (dsub d1 x) = rnd (1 - dval x) /\ 0 <= dval (dsub d1 x) <= 1.
Proof.
  intros F B. destruct d1_val as [V1 F1]. destruct (dsub_ok d1 x F1 F) as [V F']; [rewrite V1; apply (small_R _ 1); [apply Rabs_le|]; lra|]. rewrite V1 in V. split; [exact F'|]. split; [exact V|]. rewrite V.
  split; [rewrite <- (rnd_id 0 F64_0) at 1|rewrite <- (rnd_id 1 F64_1) at 2]; apply rnd_mono; lra.
Qed.
Lemma not_out y : fin y -> 0 <= dval y <= 1 -> dlt y d0 || dlt d1 y = false.
Proof. intros F B. destruct d0_val as [V0 F0]. destruct d1_val as [V1 F1]. rewrite (proj2 (dlt_false y d0 F F0)) by (rewrite V0; lra). rewrite (proj2 (dlt_false d1 y F1 F)) by (rewrite V1; lra). reflexivity. Qed.
(* The second call does not recurse. *)
Lemma second_call a b x k l : halves a k -> halves b l -> (0 <= k)%Z -> (0 <= l)%Z -> (k + l + 4 <= 2 ^ 53)%Z -> fin x -> 0 <= dval x <= 1 -> dlt (beta_threshold a b) x = true ->
  dlt (beta_threshold b a) (dsub d1 x) = false.
Proof.
  intros Ha Hb Hk Hl H F B C. destruct (threshold_val a b k l Ha Hb Hk Hl H) as [Ft Vt]. destruct (threshold_val b a l k Hb Ha Hl Hk ltac:(lia)) as [Fs Vs]. destruct (one_minus x F B) as (Fy & Vy & _).
  apply dlt_iff in C; [|exact Ft|exact F]. rewrite Vt in C. apply dlt_false; [exact Fs|exact Fy|]. rewrite Vs, Vy, <- thr_sym by assumption. apply rnd_mono.
  destruct (Rle_lt_dec (dval x) (thr k l)) as [D|D]; [|lra]. apply rnd_mono in D. rewrite (rnd_id (dval x)) in D by apply dval_format. lra.
Qed.
Lemma beta_ends log exp a b x k l : halves a k -> halves b l -> (0 <= k)%Z -> (0 <= l)%Z -> (k + l + 4 <= 2 ^ 53)%Z -> exists r, forall depth, (2 <= depth)%nat -> beta_regularized log exp depth a b x = Some r.
Proof.
  intros Ha Hb Hk Hl H. destruct (unit_cases x) as [O|[O|(F & B & O)]].
  - exists infinity. intros [|[|d]] Hd; [lia|lia|]. cbn [beta_regularized]. rewrite O. reflexivity.
  - eexists. intros [|[|d]] Hd; [lia|lia|]. cbn [beta_regularized]. subst x.
    assert (D : forall y, dlt y B754_nan = false) by (intros [s|[|]| |s m e BB]; reflexivity). rewrite (D d1), (D (beta_threshold a b)). cbn [dlt Bltb orb]. reflexivity.
  - destruct (dlt (beta_threshold a b) x) eqn:C.
    + eexists. intros [|[|d]] Hd; [lia|lia|]. cbn [beta_regularized]. rewrite O, C. destruct (one_minus x F B) as (Fy & _ & By). rewrite (not_out _ Fy By), (second_call a b x k l Ha Hb Hk Hl H F B C). reflexivity.
    + eexists. intros [|[|d]] Hd; [lia|lia|]. cbn [beta_regularized]. rewrite O, C. reflexivity.
Qed.

(* ---- the values at 0 and 1 ---- *)
Definition zero_val (x : double) : Prop := fin x /\ dval x = 0.
Lemma zero_cases (x : double) : zero_val x -> exists s, x = B754_zero s.
Proof. intros [F V]. destruct x as [s|s| |s m e B]; try discriminate; [exists s; reflexivity|]. exfalso. unfold dval in V. cbn in V. destruct s; [assert (F2R (Float radix2 (Z.neg m) e) < 0) by (apply F2R_lt_0; reflexivity)|assert (0 < F2R (Float radix2 (Z.pos m) e)) by (apply F2R_gt_0; reflexivity)]; cbn in V; lra. Qed.
Lemma zero_mul_r x y : fin x -> zero_val y -> zero_val (dmul x y).
Proof. intros F Z. destruct (zero_cases y Z) as [s ->]. destruct x as [t|t| |t m e B]; try discriminate; split; reflexivity. Qed.
Lemma zero_mul_l x y : fin x -> zero_val y -> zero_val (dmul y x).
Proof. intros F Z. rewrite dmul_comm. apply zero_mul_r; assumption. Qed.
Lemma zero_neg x : zero_val x -> zero_val (dneg x).
Proof. intros Z. destruct (zero_cases x Z) as [s ->]. split; reflexivity. Qed.
Lemma zero_div x y : zero_val x -> fin y -> dval y <> 0 -> zero_val (ddiv x y).
Proof. intros Z F N. destruct (zero_cases x Z) as [s ->]. destruct y as [t|t| |t m e B]; try discriminate; [exfalso; apply N; reflexivity|split; reflexivity]. Qed.
Lemma one_plus_zero z : zero_val z -> dadd d1 z = d1.
Proof. intros Z. destruct (zero_cases z Z) as [s ->]. destruct s; apply B2SF_inj; vm_compute; reflexivity. Qed.
Lemma guard_1 : beta_guard d1 = d1.
Proof. unfold beta_guard. replace (dlt (dabs d1) beta_tiny) with false by (vm_compute; reflexivity). reflexivity. Qed.
Lemma mul_1_1 : dmul d1 d1 = d1. Proof. apply B2SF_inj; vm_compute; reflexivity. Qed.
Lemma div_1_1 : ddiv d1 d1 = d1. Proof. apply B2SF_inj; vm_compute; reflexivity. Qed.
Lemma sub_1_1 : dsub d1 d1 = d0. Proof. apply B2SF_inj; vm_compute; reflexivity. Qed.
Lemma add_1_1 : dadd d1 d1 = two. Proof. apply B2SF_inj; vm_compute; reflexivity. Qed.
Lemma mul_1_two : dmul d1 two = two. Proof. apply B2SF_inj; vm_compute; reflexivity. Qed.
Lemma mul_two_1 : dmul two d1 = two. Proof. apply B2SF_inj; vm_compute; reflexivity. Qed.
Lemma sub_two_1 : dsub two d1 = d1. Proof. apply B2SF_inj; vm_compute; reflexivity. Qed.
Lemma guard_two : beta_guard two = two.
Proof. unfold beta_guard. replace (dlt (dabs two) beta_tiny) with false by (vm_compute; reflexivity). reflexivity. Qed.
Lemma far : dlt (dabs (dsub d1 two)) beta_stop = false. Proof. vm_compute. reflexivity. Qed.
Lemma close0 : dlt (dabs d0) beta_stop = true. Proof. vm_compute. reflexivity. Qed.
Definition loop_step (numerator c d : double) : double * double :=
  (beta_guard (dadd d1 (ddiv numerator c)), ddiv d1 (beta_guard (dadd d1 (dmul numerator d)))).
Lemma loop_eq a b x front left i f c d : beta_loop a b x front (S left) i f c d =
  let '(c', d') := loop_step (beta_numerator a b x i) c d in
  if dlt (dabs (dsub d1 (dmul c' d'))) beta_stop then dmul front (dsub (dmul f (dmul c' d')) d1) else beta_loop a b x front left (i + 1) (dmul f (dmul c' d')) c' d'.
Proof. reflexivity. Qed.
(* if the first numerators are 1 and 0 *)
Lemma loop_zero a b x front : zero_val (beta_numerator a b x 1) -> beta_loop a b x front 201 0 d1 d1 d0 = dmul front d1.
Proof.
  intros Z. rewrite loop_eq. change (beta_numerator a b x 0) with d1. change (0 + 1)%N with 1%N. unfold loop_step.
  rewrite (one_plus_zero (dmul d1 d0)) by (apply zero_mul_r; [apply d1_val|split; reflexivity]). rewrite guard_1, !div_1_1, add_1_1, guard_two. cbv beta iota. rewrite mul_two_1, mul_1_two, far.
  rewrite loop_eq. unfold loop_step. destruct halves_2 as [F2 V2]. set (z := beta_numerator a b x 1) in *. rewrite (one_plus_zero (dmul z d1)) by (apply zero_mul_l; [apply d1_val|exact Z]). rewrite (one_plus_zero (ddiv z two)) by (apply zero_div; [exact Z|exact F2|rewrite V2; lra]).
  rewrite guard_1, div_1_1. cbv beta iota. rewrite mul_1_1, sub_1_1, close0, mul_two_1, sub_two_1. reflexivity.
Qed.
Lemma num_zero a b x k l : halves a k -> halves b l -> (1 <= k)%Z -> (1 <= l)%Z -> (k + l <= 1200000)%Z -> zero_val x -> zero_val (beta_numerator a b x 1).
Proof.
  intros Ha Hb Hk Hl H Zx. unfold beta_numerator. change (1 =? 0)%N with false. change (1 mod 2 =? 0)%N with false. change (1 / 2)%N with 0%N. cbv zeta. cbn match.
  assert (Z0 : halves (double_of_N 0) 0) by (apply (halves_N 0); reflexivity).
  assert (M : halves (dmul two (double_of_N 0)) 0). { destruct (zero_mul_r two (double_of_N 0)) as [F V]; [apply halves_2|split; [reflexivity|reflexivity]|]. split; [exact F|]. rewrite V. lra. }
  pose proof (halves_add a _ k 0 Ha Z0 ltac:(lia)) as H1. pose proof (halves_add a b k l Ha Hb ltac:(lia)) as H2. pose proof (halves_add _ _ _ 0 H2 Z0 ltac:(lia)) as H3. pose proof (halves_add a _ k 0 Ha M ltac:(lia)) as H4. pose proof (halves_add _ d1 _ 2 H4 halves_1 ltac:(lia)) as H5.
  rewrite !Z.add_0_r in *. destruct H1 as [F1 V1], H3 as [F3 V3], H4 as [F4 V4], H5 as [F5 V5].
  assert (Bk : 1 <= IZR k <= 1200000) by (split; apply IZR_le; lia). assert (Bl : 1 <= IZR l <= 1200000) by (split; apply IZR_le; lia).
  assert (P : forall p q, 0 <= p <= 10000000 -> 0 <= q <= 10000000 -> Rabs (p * q) <= 100000000000000). { intros p q Hp Hq. rewrite Rabs_pos_eq by (apply Rmult_le_pos; lra). replace 100000000000000 with (10000000 * 10000000) by lra. apply Rmult_le_compat; lra. }
  destruct (dmul_ok _ _ F1 F3) as [_ Fm]; [rewrite V1, V3, plus_IZR; apply (small_R _ 100000000000000); [apply P; lra|lra]|].
  destruct (dmul_ok _ _ F4 F5) as [Vd Fd]; [rewrite V4, V5, plus_IZR; apply (small_R _ 100000000000000); [apply P; lra|lra]|].
  apply zero_div; [apply zero_neg, zero_mul_r; assumption|exact Fd|]. rewrite Vd, V4, V5, plus_IZR.
  assert (Q : / 2 <= IZR k / 2 * ((IZR k + 2) / 2)). { assert (/ 2 * (3 / 2) <= IZR k / 2 * ((IZR k + 2) / 2)) by (apply Rmult_le_compat; lra). lra. }
  apply rnd_mono in Q. rewrite (rnd_id (/ 2)) in Q by (replace (/ 2) with (IZR 1 / 2) by lra; apply F64_half; lia). lra.
Qed.
Section Zero.
Variables (log exp : double -> double).
Hypothesis Hlog : forall x, fin x -> 0 < dval x -> fin (log x) /\ Rabs (dval (log x) - ln (dval x)) <= bpow radix2 (-40).
Hypothesis Hlog0 : forall x, fin x -> dval x = 0 -> log x = B754_infinity true.
Hypothesis Hexp : zero_val (exp (B754_infinity true)).
Lemma inf_mul a : fin a -> 0 < dval a -> dmul (B754_infinity true) a = B754_infinity true.
Proof.
  intros F P. destruct a as [s|s| |s m e B]; try discriminate; [cbn in P; lra|]. destruct s; [|reflexivity]. exfalso. apply Rlt_not_le in P. apply P. left. apply F2R_lt_0. reflexivity.
Qed.
Lemma inf_add b : fin b -> dadd (B754_infinity true) b = B754_infinity true.
Proof. intros F. destruct b as [s|s| |s m e B]; try discriminate; reflexivity. Qed.
Lemma inf_sub b : fin b -> dsub (B754_infinity true) b = B754_infinity true.
Proof. intros F. destruct b as [s|s| |s m e B]; try discriminate; reflexivity. Qed.
Lemma front_zero a b x k l : halves a k -> halves b l -> (1 <= k)%Z -> (1 <= l)%Z -> (k + l <= 1200000)%Z -> zero_val x -> zero_val (beta_front log exp a b x).
Proof.
  intros Ha Hb Hk Hl H Zx. pose proof (halves_add a b k l Ha Hb ltac:(lia)) as Hs.
  pose proof (log_gamma_near log a k Hlog (proj1 Ha) ltac:(lia) (proj2 Ha)) as Ga. pose proof (log_gamma_near log b l Hlog (proj1 Hb) ltac:(lia) (proj2 Hb)) as Gb. pose proof (log_gamma_near log _ (k + l) Hlog (proj1 Hs) ltac:(lia) (proj2 Hs)) as Gs.
  pose proof u_pos as U0. pose proof u_val as Uv.
  pose proof (near_add _ _ _ _ _ _ _ _ Ga Gb ltac:(unfold vast; lra)) as N1. pose proof (near_sub _ _ _ _ _ _ _ _ N1 Gs ltac:(rewrite Uv; unfold vast; lra)) as [FL _].
  assert (Bk : 1 <= IZR k <= 1200000) by (split; apply IZR_le; lia). assert (Bl : 1 <= IZR l <= 1200000) by (split; apply IZR_le; lia).
  destruct Ha as [Fa Va], Hb as [Fb Vb].
  assert (E1 : dsub d1 x = d1). { destruct (zero_cases x Zx) as [s ->]. destruct s; apply B2SF_inj; vm_compute; reflexivity. }
  unfold beta_front. rewrite (Hlog0 x (proj1 Zx) (proj2 Zx)), E1, inf_mul by (exact Fa || (rewrite Va; lra)). destruct d1_val as [V1 F1]. destruct (Hlog d1 F1) as [Fl El]; [rewrite V1; lra|].
  rewrite V1, ln_1, Rminus_0_r in El. change (bpow radix2 (-40)) with (/ 1099511627776) in El. apply Rabs_le_inv in El.
  destruct (dmul_ok (log d1) b Fl Fb) as [_ Fm].
  { apply (small_R _ 1200000); [|lra]. rewrite Rabs_mult. replace 1200000 with (1 * 1200000) by lra. apply Rmult_le_compat; try apply Rabs_pos; apply Rabs_le; rewrite ?Vb; lra. }
  rewrite (inf_add _ Fm), (inf_sub _ FL). apply zero_div; [exact Hexp|exact Fa|rewrite Va; lra].
Qed.
Lemma beta_0 a b x k l depth : halves a k -> halves b l -> (1 <= k)%Z -> (1 <= l)%Z -> (k + l <= 1200000)%Z -> zero_val x -> (1 <= depth)%nat ->
  exists r, beta_regularized log exp depth a b x = Some r /\ zero_val r.
Proof.
  intros Ha Hb Hk Hl H Zx Hd. destruct depth as [|d]; [lia|]. cbn [beta_regularized]. rewrite (not_out x) by (apply Zx || (rewrite (proj2 Zx); lra)).
  destruct (threshold_val a b k l Ha Hb ltac:(lia) ltac:(lia) ltac:(lia)) as [Ft Vt]. rewrite (proj2 (dlt_false _ _ Ft (proj1 Zx))).
  - eexists. split; [reflexivity|]. rewrite loop_zero by (apply (num_zero a b x k l); assumption). apply zero_mul_l; [apply d1_val|]. apply (front_zero a b x k l); assumption.
  - rewrite Vt, (proj2 Zx). rewrite <- (rnd_id 0 F64_0) at 1. apply rnd_mono. pose proof (thr_range k l ltac:(lia) ltac:(lia)). lra.
Qed.
Lemma beta_1 a b x k l depth : halves a k -> halves b l -> (1 <= k)%Z -> (1 <= l)%Z -> (k + l <= 1200000)%Z -> fin x -> dval x = 1 -> (2 <= depth)%nat ->
  exists r, beta_regularized log exp depth a b x = Some r /\ fin r /\ dval r = 1.
Proof.
  intros Ha Hb Hk Hl H Fx Vx Hd. destruct depth as [|d]; [lia|]. cbn [beta_regularized]. rewrite (not_out x) by (exact Fx || (rewrite Vx; lra)).
  destruct (threshold_val a b k l Ha Hb ltac:(lia) ltac:(lia) ltac:(lia)) as [Ft Vt]. rewrite (proj2 (dlt_iff _ _ Ft Fx)).
  - destruct (one_minus x Fx ltac:(lra)) as (Fy & Vy & _). rewrite Vx, Rminus_diag_eq, (rnd_id 0 F64_0) in Vy by reflexivity.
    destruct (beta_0 b a (dsub d1 x) l k d Hb Ha Hl Hk ltac:(lia) (conj Fy Vy) ltac:(lia)) as (r & E & Zr). rewrite E. exists (dsub d1 r). split; [reflexivity|]. destruct d1_val as [V1 F1].
    destruct (zero_cases r Zr) as [s ->]. assert (E1 : dsub d1 (B754_zero s) = d1) by (destruct s; apply B2SF_inj; vm_compute; reflexivity). rewrite E1. split; [exact F1|exact V1].
  - rewrite Vt, Vx. pose proof (thr_range k l ltac:(lia) ltac:(lia)) as T.
    (* the quotient is at most 1 - 2^-22 *)
    assert (Q : thr k l <= 1 - bpow radix2 (-22)). { unfold thr. rewrite !plus_IZR. assert (Bk : 1 <= IZR k) by (apply IZR_le; lia). assert (Bl : 1 <= IZR l) by (apply IZR_le; lia). assert (S : IZR k + IZR l <= 1200000) by (rewrite <- plus_IZR; apply IZR_le; lia).
      change (bpow radix2 (-22)) with (/ 4194304). apply Rmult_le_reg_r with (IZR k + IZR l + 4); [lra|]. unfold Rdiv. rewrite Rmult_assoc, Rinv_l by lra. lra. }
    apply rnd_mono in Q. rewrite (rnd_id (1 - bpow radix2 (-22))) in Q. { change (bpow radix2 (-22)) with (/ 4194304) in Q. lra. }
    replace (1 - bpow radix2 (-22)) with (F2R (Float radix2 4194303 (-22))); [apply F64_F2R; lia|]. unfold F2R. cbn [Fnum Fexp]. change (bpow radix2 (-22)) with (/ 4194304). lra.
Qed.
End Zero.
