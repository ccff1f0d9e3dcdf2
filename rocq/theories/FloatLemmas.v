(* Facts about doubles used throughout: order, exact conversions, bounded operations. *)
From Coq Require Import Reals Lra.
From Flocq Require Import Core BinarySingleNaN.
From Verif Require Import Base FloatModel.
Open Scope R_scope.

Definition fin (x : double) : Prop := is_finite x = true.
(* the double format *)
Definition F64 : R -> Prop := generic_format radix2 (SpecFloat.fexp 53 1024).
Definition rnd (r : R) : R := round radix2 (SpecFloat.fexp 53 1024) ZnearestE r.

Global Instance valid_exp64 : Valid_exp (SpecFloat.fexp 53 1024).
Proof. apply (fexp_correct 53 1024). reflexivity. Qed.
Global Instance mono_exp64 : Monotone_exp (SpecFloat.fexp 53 1024).
Proof. apply (fexp_monotone 53 1024). Qed.

Lemma dval_format x : F64 (dval x).
Proof. apply generic_format_B2R. Qed.
Lemma rnd_mono a b : a <= b -> rnd a <= rnd b.
Proof. apply round_le; typeclasses eauto. Qed.
Lemma rnd_id a : F64 a -> rnd a = a.
Proof. apply round_generic; typeclasses eauto. Qed.
Lemma rnd_format a : F64 (rnd a).
Proof. apply generic_format_round; typeclasses eauto. Qed.
Lemma rnd_between a l u : F64 l -> F64 u -> l <= a <= u -> l <= rnd a <= u.
Proof. intros Hl Hu [H1 H2]. rewrite <- (rnd_id l Hl), <- (rnd_id u Hu). split; apply rnd_mono; assumption. Qed.
Lemma rnd_opp a : rnd (- a) = - rnd a.
Proof. apply round_NE_opp. Qed.
Lemma F64_opp a : F64 a -> F64 (- a).
Proof. apply generic_format_opp. Qed.

Lemma F64_bpow e : (-1074 <= e <= 1023)%Z -> F64 (bpow radix2 e).
Proof.
  intros [H _]. apply generic_format_bpow. unfold SpecFloat.fexp, SpecFloat.emin. lia.
Qed.
Lemma F64_F2R m e : (Z.abs m <= 2 ^ 53)%Z -> (-1074 <= e)%Z -> F64 (F2R (Float radix2 m e)).
Proof.
  intros Hm He.
  destruct (Z.eq_dec (Z.abs m) (2 ^ 53)) as [E|Hn].
  - assert (Hm2 : F2R (Float radix2 m e) = (if (0 <=? m)%Z then 1 else -1) * bpow radix2 (e + 53)).
    { unfold F2R. cbn [Fnum Fexp]. rewrite bpow_plus. replace (IZR m) with ((if (0 <=? m)%Z then 1 else -1) * IZR (Z.abs m)).
      - rewrite E. change (IZR (2 ^ 53)) with (IZR (radix2 ^ 53)). rewrite (IZR_Zpower radix2 53) by lia. ring.
      - destruct (Z.leb_spec 0 m); [rewrite Z.abs_eq by assumption; ring|rewrite Z.abs_neq by lia; rewrite opp_IZR; ring]. }
    rewrite Hm2. destruct (0 <=? m)%Z.
    + rewrite Rmult_1_l. apply generic_format_bpow. unfold SpecFloat.fexp, SpecFloat.emin. lia.
    + replace (-1 * bpow radix2 (e + 53)) with (- bpow radix2 (e + 53)) by ring. apply F64_opp, generic_format_bpow.
      unfold SpecFloat.fexp, SpecFloat.emin. lia.
  - change (SpecFloat.fexp 53 1024) with (FLT_exp (3 - 1024 - 53) 53).
    apply generic_format_FLT, (FLT_spec radix2 (3 - 1024 - 53) 53 _ (Float radix2 m e)); [reflexivity| |].
    + cbn [Fnum]. change (Z.pow radix2 53) with (2 ^ 53)%Z. lia.
    + cbn [Fexp]. lia.
Qed.
Lemma F64_Z m : (Z.abs m <= 2 ^ 53)%Z -> F64 (IZR m).
Proof. intros H. rewrite <- (F2R_0 radix2) || idtac. replace (IZR m) with (F2R (Float radix2 m 0)) by (unfold F2R; cbn; ring).
  apply F64_F2R; lia. Qed.
Lemma F64_0 : F64 0. Proof. apply (F64_Z 0). lia. Qed.
Lemma F64_1 : F64 1. Proof. apply (F64_Z 1). lia. Qed.

Lemma small_no_overflow a : Rabs a <= bpow radix2 1023 -> Rlt_bool (Rabs (rnd a)) (bpow radix2 1024) = true.
Proof.
  intros H. apply Rlt_bool_true. apply Rle_lt_trans with (bpow radix2 1023); [|apply bpow_lt; lia].
  assert (F : F64 (bpow radix2 1023)) by (apply F64_bpow; lia).
  apply Rabs_le. apply Rabs_le_inv in H.
  apply rnd_between; [apply F64_opp, F|exact F|exact H].
Qed.

(* operations whose exact result is at most 2^1023 in magnitude are rounded, finite *)
Definition small (a : R) : Prop := Rabs a <= bpow radix2 1023.
Lemma dadd_ok x y : fin x -> fin y -> small (dval x + dval y) -> dval (dadd x y) = rnd (dval x + dval y) /\ fin (dadd x y).
Proof.
  intros Hx Hy Hs. pose proof (Bplus_correct 53 1024 _ _ mode_NE x y Hx Hy) as H. cbn [round_mode] in H.
  fold (dval x) (dval y) (rnd (dval x + dval y)) in H.
  rewrite small_no_overflow in H by exact Hs. split; apply H.
Qed.
Lemma dsub_ok x y : fin x -> fin y -> small (dval x - dval y) -> dval (dsub x y) = rnd (dval x - dval y) /\ fin (dsub x y).
Proof.
  intros Hx Hy Hs. pose proof (Bminus_correct 53 1024 _ _ mode_NE x y Hx Hy) as H. cbn [round_mode] in H.
  fold (dval x) (dval y) (rnd (dval x - dval y)) in H.
  rewrite small_no_overflow in H by exact Hs. split; apply H.
Qed.
Lemma dmul_ok x y : fin x -> fin y -> small (dval x * dval y) -> dval (dmul x y) = rnd (dval x * dval y) /\ fin (dmul x y).
Proof.
  intros Hx Hy Hs. pose proof (Bmult_correct 53 1024 _ _ mode_NE x y) as H. cbn [round_mode] in H.
  fold (dval x) (dval y) (rnd (dval x * dval y)) in H.
  rewrite small_no_overflow in H by exact Hs. split; [apply H|]. destruct H as (_ & H & _). unfold fin in *. unfold dmul. rewrite H, Hx, Hy. reflexivity.
Qed.
Lemma ddiv_ok x y : fin x -> dval y <> 0 -> small (dval x / dval y) -> dval (ddiv x y) = rnd (dval x / dval y) /\ fin (ddiv x y).
Proof.
  intros Hx Hy Hs. pose proof (Bdiv_correct 53 1024 _ _ mode_NE x y Hy) as H. cbn [round_mode] in H.
  fold (dval x) (dval y) (rnd (dval x / dval y)) in H.
  rewrite small_no_overflow in H by exact Hs. split; [apply H|]. destruct H as (_ & H & _). unfold fin in *. unfold ddiv. rewrite H. exact Hx.
Qed.
Lemma dabs_val x : dval (dabs x) = Rabs (dval x).
Proof. apply B2R_Babs. Qed.
Lemma dabs_fin x : fin x -> fin (dabs x).
Proof. unfold fin, dabs. rewrite is_finite_Babs. auto. Qed.

Lemma dconst_ok m e : small (F2R (Float radix2 m e)) -> dval (dconst m e) = rnd (F2R (Float radix2 m e)) /\ fin (dconst m e).
Proof.
  intros Hs. pose proof (binary_normalize_correct 53 1024 _ _ mode_NE m e false) as H. cbn [round_mode] in H.
  cbv zeta in H. fold (rnd (F2R (Float radix2 m e))) in H. rewrite small_no_overflow in H by exact Hs. split; apply H.
Qed.
Lemma small_bpow a e : (e <= 1023)%Z -> Rabs a <= bpow radix2 e -> small a.
Proof. intros He H. eapply Rle_trans; [exact H|]. apply bpow_le. exact He. Qed.
Lemma double_of_N_ok n : (n < 2 ^ 64)%N -> dval (double_of_N n) = rnd (IZR (Z.of_N n)) /\ fin (double_of_N n).
Proof.
  intros Hn. unfold double_of_N. replace (IZR (Z.of_N n)) with (F2R (Float radix2 (Z.of_N n) 0)) by (unfold F2R; cbn; ring).
  apply dconst_ok. apply (small_bpow _ 64); [lia|]. unfold F2R. cbn [Fnum Fexp bpow]. rewrite Rmult_1_r, <- abs_IZR.
  replace (bpow radix2 64) with (IZR (2 ^ 64)) by (change (IZR (2 ^ 64)) with (IZR (radix2 ^ 64)); apply IZR_Zpower; lia).
  apply IZR_le. rewrite Z.abs_eq by apply N2Z.is_nonneg. apply (proj1 (N2Z.inj_le n (2 ^ 64))), N.lt_le_incl, Hn.
Qed.
Lemma double_of_N_exact n : (n <= 2 ^ 53)%N -> dval (double_of_N n) = IZR (Z.of_N n) /\ fin (double_of_N n).
Proof.
  intros Hn. destruct (double_of_N_ok n) as [H1 H2]; [eapply N.le_lt_trans; [exact Hn|reflexivity]|]. split; [|exact H2]. rewrite H1. apply rnd_id, F64_Z. change (2 ^ 53)%Z with (Z.of_N (2 ^ 53)). rewrite Z.abs_eq by apply N2Z.is_nonneg. apply N2Z.inj_le, Hn.
Qed.
Lemma d1_val : dval d1 = 1 /\ fin d1.
Proof. apply (double_of_N_exact 1). discriminate. Qed.
Lemma d0_val : dval d0 = 0 /\ fin d0.
Proof. split; reflexivity. Qed.

(* order *)
Lemma dlt_iff x y : fin x -> fin y -> (dlt x y = true <-> dval x < dval y).
Proof.
  intros Hx Hy. unfold dlt. rewrite Bltb_correct by assumption. split; [|apply Rlt_bool_true].
  destruct (Rlt_bool_spec (B2R x) (B2R y)); [auto|discriminate].
Qed.
Lemma dlt_false x y : fin x -> fin y -> (dlt x y = false <-> dval y <= dval x).
Proof.
  intros Hx Hy. unfold dlt. rewrite Bltb_correct by assumption. split; [|apply Rlt_bool_false].
  destruct (Rlt_bool_spec (B2R x) (B2R y)); [discriminate|auto].
Qed.
Lemma dle_iff x y : fin x -> fin y -> (dle x y = true <-> dval x <= dval y).
Proof.
  intros Hx Hy. unfold dle. rewrite Bleb_correct by assumption. split; [|apply Rle_bool_true].
  destruct (Rle_bool_spec (B2R x) (B2R y)); [auto|discriminate].
Qed.
Lemma dle_false x y : fin x -> fin y -> (dle x y = false <-> dval y < dval x).
Proof.
  intros Hx Hy. unfold dle. rewrite Bleb_correct by assumption. split; [|apply Rle_bool_false].
  destruct (Rle_bool_spec (B2R x) (B2R y)); [discriminate|auto].
Qed.
Lemma dmin_val x y : fin x -> fin y -> dval (dmin x y) = Rmin (dval x) (dval y) /\ fin (dmin x y).
Proof.
  intros Hx Hy. unfold dmin. destruct (dlt y x) eqn:E.
  - apply dlt_iff in E; [|assumption|assumption]. rewrite Rmin_right by lra. auto.
  - apply dlt_false in E; [|assumption|assumption]. rewrite Rmin_left by lra. auto.
Qed.
Lemma dmax_val x y : fin x -> fin y -> dval (dmax x y) = Rmax (dval x) (dval y) /\ fin (dmax x y).
Proof.
  intros Hx Hy. unfold dmax. destruct (dlt x y) eqn:E.
  - apply dlt_iff in E; [|assumption|assumption]. rewrite Rmax_right by lra. auto.
  - apply dlt_false in E; [|assumption|assumption]. rewrite Rmax_left by lra. auto.
Qed.
(* finite doubles with the same value and sign are equal *)
Lemma dval_inj_pos x y : fin x -> fin y -> dval x = dval y -> Bsign x = Bsign y -> x = y.
Proof. intros. apply B2R_Bsign_inj; assumption. Qed.
Lemma dabs_inj x y : fin x -> fin y -> Rabs (dval x) = Rabs (dval y) -> dabs x = dabs y.
Proof.
  intros Hx Hy E. apply dval_inj_pos; [apply dabs_fin, Hx|apply dabs_fin, Hy| |].
  - rewrite !dabs_val. exact E.
  - unfold dabs. destruct x, y; (reflexivity || discriminate).
Qed.

Lemma N_of_double_ok w x n : N_of_double w x = Ok n -> fin x /\ Z.of_N n = Ztrunc (dval x) /\ (n < 2 ^ w)%N.
Proof.
  unfold N_of_double. destruct (is_finite x) eqn:Ef; [|discriminate].
  destruct ((0 <=? Btrunc x) && (Btrunc x <? 2 ^ Z.of_N w))%Z eqn:E; [|discriminate].
  intros H. injection H as <-. apply andb_true_iff in E. destruct E as [E1 E2].
  split; [exact Ef|]. split; [|lia].
  rewrite Z2N.id by lia. apply eq_IZR. rewrite Btrunc_correct by reflexivity.
  unfold round, scaled_mantissa, F2R, cexp, FIX_exp. cbn [Fnum Fexp bpow Z.opp]. rewrite !Rmult_1_r. reflexivity.
Qed.
Lemma N_of_double_trunc w x : fin x -> 0 <= dval x -> dval x < IZR (2 ^ Z.of_N w) ->
  N_of_double w x = Ok (Z.to_N (Zfloor (dval x))).
Proof.
  intros Hf H0 H1. unfold N_of_double. rewrite Hf.
  assert (E : Btrunc x = Zfloor (dval x)).
  { apply eq_IZR. rewrite Btrunc_correct by reflexivity.
    unfold round, scaled_mantissa, F2R, cexp, FIX_exp. cbn [Fnum Fexp bpow Z.opp]. rewrite !Rmult_1_r.
    fold (dval x). rewrite Ztrunc_floor by exact H0. reflexivity. }
  rewrite E.
  assert (A : (0 <= Zfloor (dval x))%Z) by (apply Zfloor_lub; exact H0).
  assert (B : (Zfloor (dval x) < 2 ^ Z.of_N w)%Z) by (apply lt_IZR; eapply Rle_lt_trans; [apply Zfloor_lb|exact H1]).
  destruct ((0 <=? Zfloor (dval x)) && (Zfloor (dval x) <? 2 ^ Z.of_N w))%Z eqn:C; [reflexivity|].
  apply andb_false_iff in C. lia.
Qed.
