(* Properties C101-C103: the incomplete beta function, the t test and the F test. *)
From Coq Require Import Reals Lra Lia.
From Flocq Require Import Core Plus_error BinarySingleNaN.
From Verif Require Import Base FloatModel FloatLemmas ResultModel ResultSpec CollectModel StatsModel StatsProofs CouponFloatProofs StatFormulas DistModel DistSpec DistReal DistReal2 DistSeries DistLentz DistGamma DistInst CorrKendall BetaModel BetaSpec BetaProofs BetaTests BetaLarge.
Open Scope R_scope.

(* ---- C101: the incomplete beta function ---- *)
(* For multiples of 1/2 the recursion ends after at most two calls, whatever x is. *)
Theorem C101_ends : forall log exp a b x k l, halves a k -> halves b l -> (0 <= k)%Z -> (0 <= l)%Z -> (k + l + 4 <= 2 ^ 53)%Z ->
  exists r, forall depth, (2 <= depth)%nat -> beta_regularized log exp depth a b x = Some r.
Proof. exact beta_ends. Qed.
Print Assumptions C101_ends.
(* Other arguments can recurse without end. *)
Definition ea : double := dconst 4503599627370497 (-52).  (* 1 + 2^-52 *)
Definition eb : double := dconst 4503599627370501 (-52).  (* 1 + 5 * 2^-52 *)
Definition ex : double := dconst 4503599627370495 (-53).  (* 1/2 - 2^-53 *)
Definition ey : double := dconst 4503599627370497 (-53).  (* 1/2 + 2^-53 *)
Theorem C101_endless : forall log exp depth, beta_regularized log exp depth ea eb ex = None.
Proof.
  intros log exp. assert (E1 : dlt ex d0 || dlt d1 ex = false) by (vm_compute; reflexivity). assert (E2 : dlt ey d0 || dlt d1 ey = false) by (vm_compute; reflexivity).
  assert (T1 : dlt (beta_threshold ea eb) ex = true) by (vm_compute; reflexivity). assert (T2 : dlt (beta_threshold eb ea) ey = true) by (vm_compute; reflexivity).
  assert (S1 : dsub d1 ex = ey) by (apply B2SF_inj; vm_compute; reflexivity). assert (S2 : dsub d1 ey = ex) by (apply B2SF_inj; vm_compute; reflexivity).
  assert (H : forall depth, beta_regularized log exp depth ea eb ex = None /\ beta_regularized log exp depth eb ea ey = None); [|intros depth; apply H].
  induction depth as [|d [IH1 IH2]]; [split; reflexivity|]. cbn [beta_regularized]. rewrite E1, E2, T1, T2, S1, S2, IH1, IH2. split; reflexivity.
Qed.
Print Assumptions C101_endless.
(* Outside of [0,1] the result is infinite; it is 0 at 0 and 1 at 1. *)
Theorem C101_values : forall log exp erfc a b x k l, good_dist log exp erfc -> halves a k -> halves b l -> (1 <= k)%Z -> (1 <= l)%Z -> (k + l <= 1200000)%Z ->
  exists r, (forall depth, (2 <= depth)%nat -> beta_regularized log exp depth a b x = Some r) /\
    (is_finite x = true -> dval x < 0 \/ 1 < dval x -> r = infinity) /\ (x = B754_nan -> r = infinity) /\
    (is_finite x = true -> dval x = 0 -> is_finite r = true /\ dval r = 0) /\ (is_finite x = true -> dval x = 1 -> is_finite r = true /\ dval r = 1).
Proof.
  intros log exp erfc a b x k l G Ha Hb Hk Hl H. destruct (beta_ends log exp a b x k l Ha Hb ltac:(lia) ltac:(lia) ltac:(lia)) as (r & E). exists r. split; [exact E|]. specialize (E 2%nat (le_n 2)).
  assert (Z : zero_val (exp (B754_infinity true))) by (destruct (gd_exp_inf _ _ _ G); split; assumption).
  split; [|split; [|split]].
  - intros F O. cbn [beta_regularized] in E. destruct d0_val as [V0 F0]. destruct d1_val as [V1 F1].
    assert (Q : dlt x d0 || dlt d1 x = true). { destruct O as [O|O]; [rewrite (proj2 (dlt_iff x d0 F F0)) by lra; reflexivity|rewrite (proj2 (dlt_iff d1 x F1 F)) by lra; apply orb_true_r]. }
    rewrite Q in E. congruence.
  - intros ->. rewrite beta_nan in E by lia. congruence.
  - intros F V. destruct (beta_0 log exp (gd_log _ _ _ G) (gd_log_0 _ _ _ G) Z a b x k l 2 Ha Hb Hk Hl H (conj F V) ltac:(lia)) as (r' & E' & Zr). replace r with r' by congruence. exact Zr.
  - intros F V. destruct (beta_1 log exp (gd_log _ _ _ G) (gd_log_0 _ _ _ G) Z a b x k l 2 Ha Hb Hk Hl H F V ltac:(lia)) as (r' & E' & Zr). replace r with r' by congruence. exact Zr.
Qed.
Print Assumptions C101_values.
Example C101_instance : good_dist lib_log lib_exp lib_erfc /\ halves (double_of_N 5) 10 /\ halves half 1.
Proof. split; [exact lib_dist_good|]. split; [apply (halves_N 5); reflexivity|]. destruct half_val as [F V]. split; [exact F|]. rewrite V. lra. Qed.

(* ---- C102: the t test ---- *)
Lemma add_infinity x s : fin x -> dadd x (B754_infinity s) = B754_infinity s.
Proof. intros F. destruct x as [t|t| |t m e B]; try discriminate; reflexivity. Qed.
Lemma div_infinity x s : fin x -> zero_val (ddiv x (B754_infinity s)).
Proof. intros F. destruct x as [t|t| |t m e B]; try discriminate; split; reflexivity. Qed.
Lemma rnd_minus_0 x y : F64 x -> F64 y -> rnd (x - y) = 0 -> x - y = 0.
Proof.
  intros Hx Hy H. destruct (Req_dec (x - y) 0) as [E|E]; [exact E|]. exfalso. revert H. unfold rnd, Rminus. apply round_plus_neq_0; try typeclasses eauto; [exact Hx|apply F64_opp, Hy|exact E].
Qed.
Lemma whole_halves x n : whole x n -> halves x (2 * n).
Proof. intros [F V]. split; [exact F|]. rewrite V, mult_IZR. lra. Qed.
Lemma df_halves a_n b_n n m : whole a_n n -> whole b_n m -> (0 <= n)%Z -> (0 <= m)%Z -> (n + m <= 2 ^ 51)%Z -> halves (dsub (dadd a_n b_n) two) (2 * (n + m - 2)).
Proof.
  intros Ha Hb Hn Hm H. pose proof (halves_add _ _ _ _ (whole_halves _ _ Ha) (whole_halves _ _ Hb) ltac:(lia)) as S. pose proof (halves_sub _ _ _ _ S halves_2 ltac:(lia)) as D.
  replace (2 * n + 2 * m - 4)%Z with (2 * (n + m - 2))%Z in D by ring. exact D.
Qed.
Lemma half_halves : halves half 1.
Proof. destruct half_val as [F V]. split; [exact F|]. rewrite V. lra. Qed.
Theorem C102_ends : forall log exp a_n a_mean a_variance b_n b_mean b_variance n m, whole a_n n -> whole b_n m -> (1 <= n)%Z -> (1 <= m)%Z -> (n + m <= 2 ^ 51)%Z ->
  exists p, forall depth, (2 <= depth)%nat -> t_test log exp depth a_n a_mean a_variance b_n b_mean b_variance = Some p.
Proof.
  intros log exp a_n a_mean a_variance b_n b_mean b_variance n m Ha Hb Hn Hm H. unfold t_test, student_t_cdf.
  pose proof (df_halves a_n b_n n m Ha Hb ltac:(lia) ltac:(lia) H) as D. pose proof (halves_half _ _ D ltac:(lia)) as D'. apply (beta_ends log exp _ _ _ _ _ D' half_halves); lia.
Qed.
Print Assumptions C102_ends.
(* Exchanging the samples does not change the p-value, for any arguments. *)
Theorem C102_symmetric : forall log exp depth a_n a_mean a_variance b_n b_mean b_variance,
  t_test log exp depth b_n b_mean b_variance a_n a_mean a_variance = t_test log exp depth a_n a_mean a_variance b_n b_mean b_variance.
Proof.
  intros. unfold t_test, student_t_cdf. rewrite (dadd_comm b_n a_n), (dadd_comm (dmul (dsub b_n d1) b_variance)), (dadd_comm (ddiv d1 b_n)).
  rewrite (square_quot (dsub b_mean a_mean) (dsub a_mean b_mean)) by apply abs_sub_comm. reflexivity.
Qed.
Print Assumptions C102_symmetric.

Lemma rnd_rng x e1 e2 : (-1000 <= e1)%Z -> (-1000 <= e2 <= 1000)%Z -> bpow radix2 e1 <= x <= bpow radix2 e2 -> bpow radix2 e1 <= rnd x <= bpow radix2 e2 /\ small x.
Proof.
  intros H1 H2 B. pose proof (bpow_gt_0 radix2 e1) as P. assert (L : (e1 <= e2)%Z) by (apply (le_bpow radix2); lra). split; [apply rnd_between; [apply F64_bpow; lia|apply F64_bpow; lia|exact B]|]. apply small_bpow with e2; [lia|]. rewrite Rabs_pos_eq; lra.
Qed.
(* positive and of usual size *)
Definition pos_range (x : double) (e1 e2 : Z) : Prop := fin x /\ bpow radix2 e1 <= dval x <= bpow radix2 e2.
Lemma range_mul x y e1 e2 f1 f2 : pos_range x e1 e2 -> pos_range y f1 f2 -> (-1000 <= e1 + f1)%Z -> (-1000 <= e2 + f2 <= 1000)%Z -> pos_range (dmul x y) (e1 + f1) (e2 + f2).
Proof.
  intros [Fx Bx] [Fy By] H1 H2. pose proof (bpow_gt_0 radix2 e1). pose proof (bpow_gt_0 radix2 f1). assert (B : bpow radix2 (e1 + f1) <= dval x * dval y <= bpow radix2 (e2 + f2)) by (rewrite !bpow_plus; split; apply Rmult_le_compat; lra).
  destruct (rnd_rng _ _ _ H1 H2 B) as [R S]. destruct (dmul_ok x y Fx Fy S) as [V F]. split; [exact F|]. rewrite V. exact R.
Qed.
Lemma range_div x y e1 e2 f1 f2 : pos_range x e1 e2 -> pos_range y f1 f2 -> (-1000 <= e1 - f2)%Z -> (-1000 <= e2 - f1 <= 1000)%Z -> pos_range (ddiv x y) (e1 - f2) (e2 - f1).
Proof.
  intros [Fx Bx] [Fy By] H1 H2. pose proof (bpow_gt_0 radix2 e1). pose proof (bpow_gt_0 radix2 f1).
  assert (I : bpow radix2 (- f2) <= / dval y <= bpow radix2 (- f1)) by (rewrite !bpow_opp; split; apply Rinv_le_contravar; lra). pose proof (bpow_gt_0 radix2 (- f2)).
  assert (B : bpow radix2 (e1 - f2) <= dval x / dval y <= bpow radix2 (e2 - f1)) by (unfold Zminus, Rdiv; rewrite !bpow_plus; split; apply Rmult_le_compat; lra).
  destruct (rnd_rng _ _ _ H1 H2 B) as [R S]. destruct (ddiv_ok x y Fx ltac:(lra) S) as [V F]. split; [exact F|]. rewrite V. exact R.
Qed.
Lemma range_sqrt x e1 e2 : pos_range x e1 e2 -> fin (dsqrt x) /\ 0 < dval (dsqrt x).
Proof.
  intros [F B]. pose proof (bpow_gt_0 radix2 e1) as P. destruct (dsqrt_ok x F ltac:(lra)) as [Fs Vs]. split; [exact Fs|]. rewrite Vs.
  assert (Q : Rmin 1 (dval x) <= sqrt (dval x)).
  { destruct (Rle_lt_dec 1 (dval x)) as [C|C]; [rewrite Rmin_left by lra; rewrite <- sqrt_1; apply sqrt_le_1_alt, C|rewrite Rmin_right by lra]. apply Rsqr_incr_0_var; [|apply sqrt_pos]. unfold Rsqr. rewrite sqrt_sqrt by lra. assert (dval x * dval x <= 1 * dval x) by (apply Rmult_le_compat_r; lra). lra. }
  apply rnd_mono in Q. apply Rlt_le_trans with (2 := Q). unfold Rmin. destruct (Rle_dec 1 (dval x)); [rewrite rnd_id by apply F64_1; lra|rewrite rnd_id by apply dval_format; lra].
Qed.
Lemma range_sum x y e1 e2 : fin x -> fin y -> 0 <= dval x <= bpow radix2 e2 -> 0 <= dval y <= bpow radix2 e2 -> (bpow radix2 e1 <= dval x \/ bpow radix2 e1 <= dval y) -> (-1000 <= e1)%Z -> (-1000 <= e2 <= 999)%Z -> pos_range (dadd x y) e1 (e2 + 1).
Proof.
  intros Fx Fy Bx By L H1 H2. assert (B : bpow radix2 e1 <= dval x + dval y <= bpow radix2 (e2 + 1)) by (rewrite bpow_plus; change (bpow radix2 1) with 2; destruct L; lra).
  destruct (rnd_rng (dval x + dval y) e1 (e2 + 1) H1 ltac:(lia) B) as [R S]. destruct (dadd_ok x y Fx Fy S) as [V F]. split; [exact F|]. rewrite V. exact R.
Qed.
(* a variance between 2^-400 and 2^400 *)
Definition usual_variance (v : double) : Prop := is_finite v = true /\ bpow radix2 (-400) <= dval v <= bpow radix2 400.
Lemma whole_range x n : whole x n -> (1 <= n <= 2 ^ 21)%Z -> pos_range x 0 21.
Proof. intros [F V] H. split; [exact F|]. rewrite V. change (bpow radix2 0) with 1. change (bpow radix2 21) with 2097152. change (2 ^ 21)%Z with 2097152%Z in H. split; apply IZR_le; lia. Qed.
Lemma minus_1 x n : whole x n -> (1 <= n <= 2 ^ 21)%Z -> whole (dsub x d1) (n - 1).
Proof. intros H B. destruct (halves_sub _ _ _ _ (whole_halves _ _ H) halves_1 ltac:(lia)) as [F V]. split; [exact F|]. rewrite V. rewrite !minus_IZR, mult_IZR. lra. Qed.
Lemma weight x v n : whole x n -> usual_variance v -> (1 <= n <= 2 ^ 21)%Z -> let w := dmul (dsub x d1) v in fin w /\ 0 <= dval w <= bpow radix2 421 /\ ((2 <= n)%Z -> bpow radix2 (-400) <= dval w).
Proof.
  intros Hx Hv H w. pose proof (minus_1 x n Hx H) as Hm. destruct (Z.eq_dec n 1) as [E|E].
  - assert (Z : zero_val (dsub x d1)) by (destruct Hm as [F V]; split; [exact F|rewrite V, E; reflexivity]). destruct (zero_mul_l v _ (proj1 Hv) Z) as [F V]. fold w in F, V. split; [exact F|]. rewrite V. pose proof (bpow_gt_0 radix2 421). split; [lra|intros; lia].
  - destruct (range_mul (dsub x d1) v 0 21 (-400) 400 (whole_range _ _ Hm ltac:(lia)) Hv ltac:(lia) ltac:(lia)) as [F B]. fold w in F, B. change (0 + -400)%Z with (-400)%Z in B. change (21 + 400)%Z with 421%Z in B. pose proof (bpow_gt_0 radix2 (-400)). split; [exact F|]. split; [lra|intros _; apply B].
Qed.
(* Equal means have the p-value 1. *)
Theorem C102_equal_means : forall log exp erfc a_n a_mean a_variance b_n b_mean b_variance n m, good_dist log exp erfc -> whole a_n n -> whole b_n m -> (1 <= n)%Z -> (1 <= m)%Z -> (3 <= n + m <= 1200000)%Z ->
  usual_variance a_variance -> usual_variance b_variance -> is_finite a_mean = true -> is_finite b_mean = true -> dval a_mean = dval b_mean ->
  exists p, (forall depth, (2 <= depth)%nat -> t_test log exp depth a_n a_mean a_variance b_n b_mean b_variance = Some p) /\ is_finite p = true /\ dval p = 1.
Proof.
  intros log exp erfc a_n a_mean a_variance b_n b_mean b_variance n m G Ha Hb Hn Hm H Va Vb Fa Fb E.
  destruct (C102_ends log exp a_n a_mean a_variance b_n b_mean b_variance n m Ha Hb Hn Hm ltac:(lia)) as (p & Ep). exists p. split; [exact Ep|]. specialize (Ep 2%nat (le_n 2)).
  pose proof (df_halves a_n b_n n m Ha Hb ltac:(lia) ltac:(lia) ltac:(lia)) as D. pose proof (halves_half _ _ D ltac:(lia)) as D'. unfold t_test, student_t_cdf in Ep. set (df := dsub (dadd a_n b_n) two) in *.
  assert (Wd : whole df (n + m - 2)) by (destruct D as [F V]; split; [exact F|]; rewrite V, mult_IZR; lra).
  destruct (weight a_n a_variance n Ha Va ltac:(lia)) as (F1 & B1 & L1). destruct (weight b_n b_variance m Hb Vb ltac:(lia)) as (F2 & B2 & L2).
  pose proof (range_sum _ _ (-400) 421 F1 F2 B1 B2 ltac:(destruct (Z.eq_dec n 1); [right; apply L2; lia|left; apply L1; lia]) ltac:(lia) ltac:(lia)) as RS.
  pose proof (range_div _ _ _ _ _ _ RS (whole_range df _ Wd ltac:(lia)) ltac:(lia) ltac:(lia)) as RV.
  assert (R1 : pos_range d1 0 0) by (destruct d1_val as [V F]; split; [exact F|rewrite V; change (bpow radix2 0) with 1; lra]).
  pose proof (range_div _ _ _ _ _ _ R1 (whole_range _ _ Ha ltac:(lia)) ltac:(lia) ltac:(lia)) as [FA BA]. pose proof (range_div _ _ _ _ _ _ R1 (whole_range _ _ Hb ltac:(lia)) ltac:(lia) ltac:(lia)) as [FB BB].
  pose proof (bpow_gt_0 radix2 (0 - 21)) as P21. pose proof (range_sum _ _ (0 - 21) (0 - 0) FA FB ltac:(lra) ltac:(lra) ltac:(left; apply BA) ltac:(lia) ltac:(lia)) as RR.
  pose proof (range_mul _ _ _ _ _ _ RV RR ltac:(lia) ltac:(lia)) as RM. destruct (range_sqrt _ _ _ RM) as [Fs Ps]. set (s := dsqrt _) in *.
  assert (Z : zero_val (dsub a_mean b_mean)). { destruct (dsub_ok a_mean b_mean Fa Fb) as [V F]; [rewrite E, Rminus_diag_eq by reflexivity; apply (small_R _ 1); [rewrite Rabs_R0|]; lra|]. split; [exact F|]. rewrite V, E, Rminus_diag_eq by reflexivity. apply rnd_id, F64_0. }
  pose proof (zero_div _ s Z Fs ltac:(lra)) as Zt. pose proof (zero_mul_r _ _ (proj1 Zt) Zt) as Ztt. set (t := ddiv (dsub a_mean b_mean) s) in *.
  assert (N : 1 <= IZR (n + m - 2) <= 1200000) by (split; apply IZR_le; lia). destruct Wd as [Fd Vd].
  destruct (dadd_ok df (dmul t t) Fd (proj1 Ztt)) as [V F]; [rewrite (proj2 Ztt), Vd; apply (small_R _ 1200000); [apply Rabs_le|]; lra|]. rewrite (proj2 Ztt), Rplus_0_r, rnd_id in V by apply dval_format.
  destruct (ddiv_ok df (dadd df (dmul t t)) Fd) as [Vx Fx]; [rewrite V, Vd; lra|rewrite V, Vd; unfold Rdiv; rewrite Rinv_r by lra; apply (small_R _ 1); [rewrite Rabs_R1|]; lra|].
  rewrite V in Vx. unfold Rdiv in Vx. rewrite Rinv_r, (rnd_id 1 F64_1) in Vx by (rewrite Vd; lra).
  assert (Ze : zero_val (exp (B754_infinity true))) by (destruct (gd_exp_inf _ _ _ G); split; assumption).
  destruct (beta_1 log exp (gd_log _ _ _ G) (gd_log_0 _ _ _ G) Ze _ half _ _ 1 2 D' half_halves ltac:(lia) ltac:(lia) ltac:(lia) Fx Vx ltac:(lia)) as (r & Er & Fr & Vr). rewrite Er in Ep. injection Ep as <-. split; assumption.
Qed.
Print Assumptions C102_equal_means.
(* Without variance the p-value is 0 for different means, and infinite for equal means. *)
Theorem C102_no_variance : forall log exp erfc a_n a_mean a_variance b_n b_mean b_variance n m, good_dist log exp erfc -> whole a_n n -> whole b_n m -> (1 <= n)%Z -> (1 <= m)%Z -> (3 <= n + m <= 1200000)%Z ->
  is_finite a_variance = true -> is_finite b_variance = true -> dval a_variance = 0 -> dval b_variance = 0 -> is_finite a_mean = true -> is_finite b_mean = true ->
  exists p, (forall depth, (2 <= depth)%nat -> t_test log exp depth a_n a_mean a_variance b_n b_mean b_variance = Some p) /\
    (dval a_mean = dval b_mean -> p = infinity) /\ (dval a_mean <> dval b_mean -> is_finite p = true /\ dval p = 0).
Proof.
  intros log exp erfc a_n a_mean a_variance b_n b_mean b_variance n m G Ha Hb Hn Hm H Fva Fvb Va Vb Fa Fb.
  destruct (C102_ends log exp a_n a_mean a_variance b_n b_mean b_variance n m Ha Hb Hn Hm ltac:(lia)) as (p & Ep). exists p. split; [exact Ep|]. specialize (Ep 2%nat (le_n 2)).
  pose proof (df_halves a_n b_n n m Ha Hb ltac:(lia) ltac:(lia) ltac:(lia)) as D. pose proof (halves_half _ _ D ltac:(lia)) as D'. unfold t_test, student_t_cdf in Ep. set (df := dsub (dadd a_n b_n) two) in *.
  assert (Wd : whole df (n + m - 2)) by (destruct D as [F V]; split; [exact F|]; rewrite V, mult_IZR; lra).
  assert (N : 1 <= IZR (n + m - 2) <= 1200000) by (split; apply IZR_le; lia). destruct Wd as [Fd Vd].
  pose proof (zero_mul_r _ a_variance (proj1 (minus_1 a_n n Ha ltac:(lia))) (conj Fva Va)) as Z1. pose proof (zero_mul_r _ b_variance (proj1 (minus_1 b_n m Hb ltac:(lia))) (conj Fvb Vb)) as Z2.
  assert (Z3 : zero_val (dadd (dmul (dsub a_n d1) a_variance) (dmul (dsub b_n d1) b_variance))). { destruct (zero_cases _ Z1) as [s1 ->], (zero_cases _ Z2) as [s2 ->]. destruct s1, s2; split; reflexivity. }
  pose proof (zero_div _ df Z3 Fd ltac:(rewrite Vd; lra)) as Z4.
  assert (R1 : pos_range d1 0 0) by (destruct d1_val as [V F]; split; [exact F|rewrite V; change (bpow radix2 0) with 1; lra]).
  pose proof (range_div _ _ _ _ _ _ R1 (whole_range _ _ Ha ltac:(lia)) ltac:(lia) ltac:(lia)) as [FA BA]. pose proof (range_div _ _ _ _ _ _ R1 (whole_range _ _ Hb ltac:(lia)) ltac:(lia) ltac:(lia)) as [FB BB].
  pose proof (bpow_gt_0 radix2 (0 - 21)) as P21. pose proof (range_sum _ _ (0 - 21) (0 - 0) FA FB ltac:(lra) ltac:(lra) ltac:(left; apply BA) ltac:(lia) ltac:(lia)) as [FR _].
  pose proof (zero_mul_l _ _ FR Z4) as Z5. destruct (zero_cases _ Z5) as [s5 E5]. rewrite E5 in Ep. change (dsqrt (B754_zero s5)) with (B754_zero s5 : double) in Ep.
  assert (Ze : zero_val (exp (B754_infinity true))) by (destruct (gd_exp_inf _ _ _ G); split; assumption). split.
  - intros E. assert (Z : zero_val (dsub a_mean b_mean)). { destruct (dsub_ok a_mean b_mean Fa Fb) as [V F]; [rewrite E, Rminus_diag_eq by reflexivity; apply (small_R _ 1); [rewrite Rabs_R0|]; lra|]. split; [exact F|]. rewrite V, E, Rminus_diag_eq by reflexivity. apply rnd_id, F64_0. }
    destruct (zero_cases _ Z) as [s6 E6]. rewrite E6 in Ep. change (ddiv (B754_zero s6) (B754_zero s5)) with (B754_nan : double) in Ep. rewrite nan_mul_r, nan_add_r, nan_div_r in Ep. rewrite beta_nan in Ep by lia. congruence.
  - intros E. assert (Q : exists s, dmul (ddiv (dsub a_mean b_mean) (B754_zero s5)) (ddiv (dsub a_mean b_mean) (B754_zero s5)) = B754_infinity s).
    { pose proof (Bminus_correct 53 1024 _ _ mode_NE a_mean b_mean Fa Fb) as K. fold (dsub a_mean b_mean) in K. destruct (Rlt_bool _ _).
      - destruct K as (V & F & _). destruct (dsub a_mean b_mean) as [s|s| |s mm ee B] eqn:Ed; try discriminate; [|exists false; destruct s, s5; reflexivity]. exfalso. apply E.
        apply Rminus_diag_uniq, rnd_minus_0; [apply dval_format|apply dval_format|symmetry; exact V].
      - destruct K as [K _]. cbn in K. destruct (dsub a_mean b_mean) as [s|s| |s mm ee B]; try discriminate. exists false. destruct s, s5; reflexivity. }
    destruct Q as [s Q]. rewrite Q in Ep. assert (I : dadd df (B754_infinity s) = B754_infinity s) by (apply add_infinity, Fd). rewrite I in Ep.
    assert (Zx : zero_val (ddiv df (B754_infinity s))) by (apply div_infinity, Fd).
    destruct (beta_0 log exp (gd_log _ _ _ G) (gd_log_0 _ _ _ G) Ze _ half _ _ 1 2 D' half_halves ltac:(lia) ltac:(lia) ltac:(lia) Zx ltac:(lia)) as (r & Er & Zr). rewrite Er in Ep. injection Ep as <-. exact Zr.
Qed.
Print Assumptions C102_no_variance.
Lemma whole_N n : (n < 2 ^ 53)%N -> whole (double_of_N n) (Z.of_N n).
Proof. intros H. destruct (double_of_N_exact n) as [V F]; [lia|]. split; assumption. Qed.
Example C102_instance : good_dist lib_log lib_exp lib_erfc /\ whole (double_of_N 20) 20 /\ whole (double_of_N 12) 12 /\ usual_variance (double_of_N 3) /\ usual_variance half.
Proof.
  split; [exact lib_dist_good|]. split; [apply (whole_N 20); reflexivity|]. split; [apply (whole_N 12); reflexivity|].
  assert (L : bpow radix2 (-400) <= / 2) by (change (/ 2) with (bpow radix2 (-1)); apply bpow_le; lia). assert (U : 4 <= bpow radix2 400) by (change 4 with (bpow radix2 2); apply bpow_le; lia).
  split; [destruct (whole_N 3 ltac:(reflexivity)) as [F V]; split; [exact F|rewrite V; cbn [Z.of_N]; lra]|]. destruct half_val as [F V]. split; [exact F|rewrite V; lra].
Qed.

(* ---- C103: the F test ---- *)
Lemma size_halves x n : whole x n -> (1 <= n)%Z -> (n <= 2 ^ 50)%Z -> halves (dmul half (dsub x d1)) (n - 1).
Proof.
  intros H Hn B. pose proof (halves_sub _ _ _ _ (whole_halves _ _ H) halves_1 ltac:(lia)) as D. replace (2 * n - 2)%Z with (2 * (n - 1))%Z in D by ring. apply (halves_half _ _ D). lia.
Qed.
Theorem C103_ends : forall log exp a_n a_variance b_n b_variance n m, whole a_n n -> whole b_n m -> (1 <= n <= 2 ^ 50)%Z -> (1 <= m <= 2 ^ 50)%Z ->
  exists p, forall depth, (2 <= depth)%nat -> f_test log exp depth a_n a_variance b_n b_variance = Some p.
Proof.
  intros log exp a_n a_variance b_n b_variance n m Ha Hb Hn Hm. unfold f_test. pose proof (size_halves a_n n Ha ltac:(lia) ltac:(lia)) as Da. pose proof (size_halves b_n m Hb ltac:(lia) ltac:(lia)) as Db.
  destruct (dlt b_variance a_variance).
  - destruct (beta_ends log exp _ _ (ddiv (dsub b_n d1) (dadd (dsub b_n d1) (dmul (dsub a_n d1) (ddiv a_variance b_variance)))) _ _ Db Da ltac:(lia) ltac:(lia) ltac:(lia)) as (r & E). exists (dmul two r). intros depth Hd. rewrite (E depth Hd). reflexivity.
  - destruct (beta_ends log exp _ _ (ddiv (dsub a_n d1) (dadd (dsub a_n d1) (dmul (dsub b_n d1) (ddiv b_variance a_variance)))) _ _ Da Db ltac:(lia) ltac:(lia) ltac:(lia)) as (r & E). exists (dmul two r). intros depth Hd. rewrite (E depth Hd). reflexivity.
Qed.
Print Assumptions C103_ends.
(* Exchanging the samples does not change the result if one variance is larger. *)
Lemma dlt_asym x y : dlt x y = true -> dlt y x = false.
Proof.
  intros H. destruct (is_finite x) eqn:Fx, (is_finite y) eqn:Fy; [apply dlt_iff in H; [apply dlt_false; [exact Fy|exact Fx|lra]|exact Fx|exact Fy]| | |];
  destruct x as [s|s| |s m e B], y as [t|t| |t m' e' B']; try discriminate; try (destruct s; discriminate); try (destruct t; discriminate); try (destruct s, t; discriminate); try (destruct s; reflexivity); try (destruct t; reflexivity); try (destruct s, t; reflexivity || discriminate).
Qed.
Theorem C103_symmetric : forall log exp depth a_n a_variance b_n b_variance, dlt a_variance b_variance = true \/ dlt b_variance a_variance = true ->
  f_test log exp depth b_n b_variance a_n a_variance = f_test log exp depth a_n a_variance b_n b_variance.
Proof.
  intros log exp depth a_n a_variance b_n b_variance [H|H]; unfold f_test; rewrite H, (dlt_asym _ _ H); reflexivity.
Qed.
Print Assumptions C103_symmetric.
Lemma some_inj {A} (x y : A) : Some x = Some y -> x = y.
Proof. congruence. Qed.
(* One constant sample: 0.  Two constant samples: infinite. *)
Theorem C103_no_variance : forall log exp erfc a_n a_variance b_n b_variance n m, good_dist log exp erfc -> whole a_n n -> whole b_n m -> (2 <= n)%Z -> (2 <= m)%Z -> (n + m <= 1200000)%Z ->
  is_finite a_variance = true -> is_finite b_variance = true -> dval a_variance = 0 -> 0 <= dval b_variance ->
  exists p, (forall depth, (2 <= depth)%nat -> f_test log exp depth a_n a_variance b_n b_variance = Some p) /\
    (dval b_variance = 0 -> p = infinity) /\ (0 < dval b_variance -> is_finite p = true /\ dval p = 0).
Proof.
  intros log exp erfc a_n a_variance b_n b_variance n m G Ha Hb Hn Hm H Fa Fb Va Vb.
  destruct (C103_ends log exp a_n a_variance b_n b_variance n m Ha Hb ltac:(lia) ltac:(lia)) as (p & Ep). exists p. split; [exact Ep|]. specialize (Ep 2%nat (le_n 2)). unfold f_test in Ep.
  rewrite (proj2 (dlt_false b_variance a_variance Fb Fa)) in Ep by lra. pose proof (size_halves a_n n Ha ltac:(lia) ltac:(lia)) as Da. pose proof (size_halves b_n m Hb ltac:(lia) ltac:(lia)) as Db.
  destruct (zero_cases a_variance (conj Fa Va)) as [s ->]. pose proof (minus_1 a_n n Ha ltac:(lia)) as Wa. pose proof (minus_1 b_n m Hb ltac:(lia)) as Wb. split.
  - intros E. destruct (zero_cases b_variance (conj Fb E)) as [t ->]. change (ddiv (B754_zero t) (B754_zero s)) with (B754_nan : double) in Ep. rewrite nan_mul_r, nan_add_r, nan_div_r in Ep. rewrite beta_nan in Ep by lia. apply (some_inj (dmul two infinity) p) in Ep. rewrite <- Ep. apply B2SF_inj. vm_compute. reflexivity.
  - intros P. assert (I : exists t, ddiv b_variance (B754_zero s) = B754_infinity t) by (destruct b_variance as [t|t| |t mm ee B]; try discriminate; [cbn in P; lra|eexists; reflexivity]). destruct I as [t I]. rewrite I in Ep.
    destruct Wb as [Fw Vw]. assert (Nw : 1 <= IZR (m - 1)) by (apply IZR_le; lia). assert (I3 : exists t', dmul (dsub b_n d1) (B754_infinity t) = B754_infinity t') by (destruct (dsub b_n d1) as [q|q| |q mm ee B]; try discriminate; [cbn in Vw; lra|eexists; reflexivity]). destruct I3 as [t' I3]. rewrite I3 in Ep.
    destruct Wa as [Fw' Vw']. assert (I4 : dadd (dsub a_n d1) (B754_infinity t') = B754_infinity t') by (apply add_infinity, Fw'). rewrite I4 in Ep.
    assert (Zx : zero_val (ddiv (dsub a_n d1) (B754_infinity t'))) by (apply div_infinity, Fw').
    assert (Ze : zero_val (exp (B754_infinity true))) by (destruct (gd_exp_inf _ _ _ G); split; assumption).
    destruct (beta_0 log exp (gd_log _ _ _ G) (gd_log_0 _ _ _ G) Ze _ _ _ _ _ 2 Da Db ltac:(lia) ltac:(lia) ltac:(lia) Zx ltac:(lia)) as (r & Er & Zr). rewrite Er in Ep. apply (some_inj (dmul two r) p) in Ep. rewrite <- Ep. apply (zero_mul_r two r); [apply halves_2|exact Zr].
Qed.
Print Assumptions C103_no_variance.
(* Two samples of 100001 values with the same variance: the continued fraction does not converge and the result is infinite. *)
Theorem C103_large_refuted : forall log exp variance depth, is_finite variance = true -> 0 < dval variance -> (1 <= depth)%nat ->
  f_test_same log exp depth (double_of_N 100001) variance variance = Some infinity.
Proof.
  intros log exp v depth F P Hd. unfold f_test_same, f_test. rewrite (proj2 (dlt_false v v F F)) by lra.
  assert (E : ddiv v v = d1).
  { destruct (ddiv_ok v v F) as [V F']; [lra|unfold Rdiv; rewrite Rinv_r by lra; apply (small_R _ 1); [rewrite Rabs_R1|]; lra|]. unfold Rdiv in V. rewrite Rinv_r, (rnd_id 1 F64_1) in V by lra. destruct d1_val as [V1 F1].
    apply B2R_inj; [|reflexivity|exact (eq_trans V (eq_sym V1))]. destruct (ddiv v v) as [s|s| |s m e B]; try discriminate; [cbn in V; lra|reflexivity]. }
  rewrite E. assert (X : ddiv (dsub (double_of_N 100001) d1) (dadd (dsub (double_of_N 100001) d1) (dmul (dsub (double_of_N 100001) d1) d1)) = half) by (apply B2SF_inj; vm_compute; reflexivity).
  assert (A : dmul half (dsub (double_of_N 100001) d1) = large_a) by (apply B2SF_inj; vm_compute; reflexivity). rewrite X, A, (large_beta log exp depth Hd). exact (f_equal Some two_infinity).
Qed.
Print Assumptions C103_large_refuted.
Example C103_instance : good_dist lib_log lib_exp lib_erfc /\ whole (double_of_N 20) 20 /\ whole (double_of_N 12) 12 /\ dlt half (double_of_N 3) = true /\ 0 < dval half.
Proof.
  split; [exact lib_dist_good|]. split; [apply (whole_N 20); reflexivity|]. split; [apply (whole_N 12); reflexivity|]. split; [vm_compute; reflexivity|]. destruct half_val as [_ ->]. lra.
Qed.
