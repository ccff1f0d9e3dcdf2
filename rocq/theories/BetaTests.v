(* Lemmas on doubles for the t test and the F test. *)
From Coq Require Import Reals Lra Lia.
From Flocq Require Import Core BinarySingleNaN.
From Verif Require Import Base FloatModel FloatLemmas ResultModel CollectModel StatsModel StatsProofs CouponFloatProofs StatFormulas DistModel DistSpec DistReal DistReal2 DistSeries DistLentz DistGamma CorrKendall BetaModel BetaSpec BetaProofs.
Open Scope R_scope.

Lemma dadd_comm x y : dadd x y = dadd y x.
Proof.
  destruct (is_finite x) eqn:Fx, (is_finite y) eqn:Fy.
  - pose proof (Bplus_correct 53 1024 _ _ mode_NE x y Fx Fy) as H. pose proof (Bplus_correct 53 1024 _ _ mode_NE y x Fy Fx) as K. rewrite (Rplus_comm (B2R y)) in K. fold (dadd x y) in H. fold (dadd y x) in K.
    destruct (Rlt_bool _ _).
    + destruct H as (V & F & S), K as (V' & F' & S'). apply B2R_Bsign_inj; try assumption; [congruence|]. rewrite S, S'. destruct (Rcompare _ _); try reflexivity. rewrite andb_comm. reflexivity.
    + destruct H as [H E], K as [K _]. apply B2SF_inj. rewrite H, K, E. reflexivity.
  - destruct x as [s|s| |s m e B], y as [t|t| |t m' e' B']; try discriminate; try reflexivity; destruct s, t; reflexivity.
  - destruct x as [s|s| |s m e B], y as [t|t| |t m' e' B']; try discriminate; try reflexivity; destruct s, t; reflexivity.
  - destruct x as [s|s| |s m e B], y as [t|t| |t m' e' B']; try discriminate; try reflexivity; destruct s, t; reflexivity.
Qed.
Lemma abs_sub_comm x y : dabs (dsub x y) = dabs (dsub y x).
Proof.
  destruct (is_finite x) eqn:Fx, (is_finite y) eqn:Fy.
  - pose proof (Bminus_correct 53 1024 _ _ mode_NE x y Fx Fy) as H. pose proof (Bminus_correct 53 1024 _ _ mode_NE y x Fy Fx) as K. fold (dsub x y) in H. fold (dsub y x) in K.
    assert (E : round radix2 (SpecFloat.fexp 53 1024) (round_mode mode_NE) (B2R y - B2R x) = - round radix2 (SpecFloat.fexp 53 1024) (round_mode mode_NE) (B2R x - B2R y)) by (rewrite <- Ropp_minus_distr; apply rnd_opp).
    rewrite E, Rabs_Ropp in K. destruct (Rlt_bool _ _).
    + destruct H as (V & F & _), K as (V' & F' & _). apply dabs_inj; try assumption. unfold dval. rewrite V, V', Rabs_Ropp. reflexivity.
    + destruct H as [H _], K as [K _]. cbn in H, K. destruct (dsub x y) as [|s| |], (dsub y x) as [|t| |]; try discriminate. reflexivity.
  - destruct x as [s|s| |s m e B], y as [t|t| |t m' e' B']; try discriminate; try reflexivity; destruct s, t; reflexivity.
  - destruct x as [s|s| |s m e B], y as [t|t| |t m' e' B']; try discriminate; try reflexivity; destruct s, t; reflexivity.
  - destruct x as [s|s| |s m e B], y as [t|t| |t m' e' B']; try discriminate; try reflexivity; destruct s, t; reflexivity.
Qed.
Lemma square_abs x : dmul x x = dmul (dabs x) (dabs x).
Proof.
  unfold dmul, dabs. destruct x as [s|s| |s m e B]; cbn [Babs Bmult]; try (destruct s; reflexivity); try reflexivity.
  apply B2SF_inj. rewrite !B2SF_SF2B, !xorb_nilpotent. reflexivity.
Qed.
Lemma abs_div x y : dabs (ddiv x y) = dabs (ddiv (dabs x) y).
Proof.
  destruct y as [t|t| |t m e B] eqn:Ey; try (destruct x as [s|s| |s m' e' B']; reflexivity). rewrite <- Ey.
  assert (N : B2R y <> 0). { rewrite Ey. cbn. destruct t; [apply Rlt_not_eq, F2R_lt_0|apply Rgt_not_eq, F2R_gt_0]; reflexivity. }
  destruct (is_finite x) eqn:Fx; [|destruct x; try discriminate; rewrite Ey; reflexivity].
  pose proof (Bdiv_correct 53 1024 _ _ mode_NE x y N) as H. pose proof (Bdiv_correct 53 1024 _ _ mode_NE (dabs x) y N) as K. fold (ddiv x y) in H. fold (ddiv (dabs x) y) in K.
  assert (E : Rabs (round radix2 (SpecFloat.fexp 53 1024) (round_mode mode_NE) (B2R (dabs x) / B2R y)) = Rabs (round radix2 (SpecFloat.fexp 53 1024) (round_mode mode_NE) (B2R x / B2R y))).
  { change (B2R (dabs x)) with (dval (dabs x)). rewrite dabs_val. change (B2R x) with (dval x). destruct (Rle_lt_dec 0 (dval x)) as [C|C].
    - rewrite (Rabs_pos_eq (dval x) C). reflexivity.
    - rewrite (Rabs_left (dval x)) by exact C. replace (- dval x / B2R y) with (- (dval x / B2R y)) by (unfold Rdiv; ring). change (Rabs (rnd (- (dval x / B2R y))) = Rabs (rnd (dval x / B2R y))). rewrite rnd_opp. apply Rabs_Ropp. }
  rewrite E in K. destruct (Rlt_bool _ _).
  - destruct H as (V & F & _), K as (V' & F' & _). apply dabs_inj.
    + unfold fin. rewrite F. exact Fx.
    + unfold fin. rewrite F'. change (fin (dabs x)). apply dabs_fin. exact Fx.
    + unfold dval. rewrite V, V'. symmetry. exact E.
  - cbn in H, K. destruct (ddiv x y), (ddiv (dabs x) y); try discriminate. reflexivity.
Qed.
Lemma square_quot x x' y : dabs x = dabs x' -> dmul (ddiv x y) (ddiv x y) = dmul (ddiv x' y) (ddiv x' y).
Proof. intros H. rewrite (square_abs (ddiv x y)), (square_abs (ddiv x' y)), (abs_div x), (abs_div x'), H. reflexivity. Qed.

(* ---- not a number ---- *)
Lemma nan_mul_r x : dmul x B754_nan = B754_nan. Proof. destruct x; reflexivity. Qed.
Lemma nan_mul_l x : dmul B754_nan x = B754_nan. Proof. destruct x; reflexivity. Qed.
Lemma nan_add_r x : dadd x B754_nan = B754_nan. Proof. destruct x; reflexivity. Qed.
Lemma nan_sub_r x : dsub x B754_nan = B754_nan. Proof. destruct x; reflexivity. Qed.
Lemma nan_div_r x : ddiv x B754_nan = B754_nan. Proof. destruct x; reflexivity. Qed.
Lemma nan_div_l x : ddiv B754_nan x = B754_nan. Proof. destruct x; reflexivity. Qed.
Lemma nan_lt_l x : dlt B754_nan x = false. Proof. destruct x; reflexivity. Qed.
Lemma nan_lt_r x : dlt x B754_nan = false. Proof. destruct x as [s|[|]| |s m e B]; reflexivity. Qed.
Lemma num_nan a b i : (1 <= i)%N -> beta_numerator a b B754_nan i = B754_nan.
Proof. intros H. unfold beta_numerator. destruct (i =? 0)%N eqn:E; [apply N.eqb_eq in E; lia|]. rewrite !nan_mul_r. change (dneg B754_nan) with (B754_nan : double). rewrite !nan_div_l. destruct (i mod 2 =? 0)%N; reflexivity. Qed.
Lemma guard_nan : beta_guard B754_nan = B754_nan.
Proof. unfold beta_guard. change (dabs B754_nan) with (B754_nan : double). rewrite nan_lt_l. reflexivity. Qed.
Lemma step_nan c d : loop_step B754_nan c d = (B754_nan, B754_nan).
Proof. unfold loop_step. rewrite nan_mul_l, nan_div_l, nan_add_r, guard_nan. f_equal. Qed.
Lemma loop_nan a b front left : forall i f c d, (1 <= i)%N -> beta_loop a b B754_nan front left i f c d = infinity.
Proof.
  induction left as [|left IH]; intros i f c d H; [reflexivity|]. rewrite loop_eq, num_nan, step_nan by exact H.
  cbv beta iota. change (dmul B754_nan B754_nan) with (B754_nan : double). rewrite (nan_sub_r d1). change (dabs B754_nan) with (B754_nan : double). rewrite nan_lt_l. apply IH. lia.
Qed.
Lemma beta_nan log exp a b depth : (1 <= depth)%nat -> beta_regularized log exp depth a b B754_nan = Some infinity.
Proof.
  intros Hd. destruct depth as [|depth]; [lia|]. cbn [beta_regularized]. rewrite nan_lt_l, !nan_lt_r. cbn [orb]. f_equal. rewrite loop_eq. change (0 + 1)%N with 1%N. change (beta_numerator a b B754_nan 0) with d1. unfold loop_step.
  rewrite (one_plus_zero (dmul d1 d0)) by (apply zero_mul_r; [apply d1_val|split; reflexivity]). rewrite guard_1, !div_1_1, add_1_1, guard_two. cbv beta iota. rewrite mul_two_1, mul_1_two, far. apply loop_nan. lia.
Qed.
