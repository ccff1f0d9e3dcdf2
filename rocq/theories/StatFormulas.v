(* Rounding-error analysis: the chi-square value and the z scores are the textbook formulas up to
   a small relative error. *)
From Coq Require Import Reals Lra Lia.
From Flocq Require Import Core BinarySingleNaN Relative Plus_error.
From Verif Require Import Base FloatModel FloatLemmas ResultModel CollectModel CollectSpec CollectProofs Collect2Proofs RescaleProofs Collect3Proofs CouponFloatProofs StatsModel StatsProofs ErrorSpec.
Open Scope R_scope.

(* ---- generic ---- *)
Lemma rnd_err x : x = 0 \/ bpow radix2 (-1000) <= Rabs x -> approx u (rnd x) x.
Proof.
  intros [->|H].
  - rewrite rnd_id by apply F64_0. unfold approx. rewrite Rminus_0_r, Rabs_R0, Rmult_0_r. lra.
  - destruct (Rle_or_lt 0 x) as [P|P].
    + rewrite Rabs_pos_eq in H by exact P. apply rnd_approx, H.
    + rewrite Rabs_left in H by exact P. pose proof (rnd_approx (- x) H) as A. unfold approx in *. rewrite rnd_opp, Rabs_Ropp in A.
      replace (rnd x - x) with (- (- rnd x - - x)) by ring. rewrite Rabs_Ropp. exact A.
Qed.
Lemma u_ro_le : u_ro radix2 53 / (1 + u_ro radix2 53) <= u.
Proof.
  unfold u_ro. change (- (53) + 1)%Z with (-52)%Z. assert (E : / 2 * bpow radix2 (-52) = u) by (rewrite u_val, (proj1 (proj2 bpow_small_consts)); lra). rewrite E. pose proof u_pos.
  apply Rmult_le_reg_r with (1 + u); [lra|]. unfold Rdiv. rewrite Rmult_assoc, Rinv_l by lra. nra.
Qed.
Lemma rnd_plus_err x y : F64 x -> F64 y -> approx u (rnd (x + y)) (x + y).
Proof.
  intros Fx Fy. destruct (FLT_plus_error_N_ex radix2 (3 - 1024 - 53) 53 (fun x => negb (Z.even x)) x y Fx Fy) as (e & He & E).
  unfold approx, rnd. change (SpecFloat.fexp 53 1024) with (FLT_exp (3 - 1024 - 53) 53). rewrite E.
  replace ((x + y) * (1 + e) - (x + y)) with (e * (x + y)) by ring. rewrite Rabs_mult. apply Rmult_le_compat_r; [apply Rabs_pos|].
  apply Rle_trans with (1 := He). apply u_ro_le.
Qed.
Lemma rnd_minus_err x y : F64 x -> F64 y -> approx u (rnd (x - y)) (x - y).
Proof. intros Fx Fy. apply rnd_plus_err; [exact Fx|apply F64_opp, Fy]. Qed.
(* a non-zero difference of doubles, one of them at least 2^(e+53), is at least 2^e *)
Lemma rnd_minus_ge x y e : F64 x -> F64 y -> bpow radix2 (e + 53) <= Rabs y -> rnd (x - y) = 0 \/ bpow radix2 e <= Rabs (rnd (x - y)).
Proof.
  intros Fx Fy H. destruct (Req_dec (rnd (x - y)) 0) as [Z|Z]; [left; exact Z|right].
  replace (x - y) with (- y + x) in * by ring. unfold rnd in *. change (SpecFloat.fexp 53 1024) with (FLT_exp (3 - 1024 - 53) 53) in *.
  apply round_FLT_plus_ge; [typeclasses eauto|reflexivity|apply F64_opp, Fy|exact Fx|rewrite Rabs_Ropp; exact H|exact Z].
Qed.
Lemma approx_refl a x : 0 <= a -> approx a x x.
Proof. intros H. unfold approx. replace (x - x) with 0 by ring. rewrite Rabs_R0. apply Rmult_le_pos; [exact H|apply Rabs_pos]. Qed.
Lemma approx_err_mono m m' x y : (m <= m')%nat -> approx (err m) x y -> approx (err m') x y.
Proof. intros H. apply approx_le, err_mono, H. Qed.
Lemma approx_then m x y z : approx (err m) x y -> approx u z x -> approx (err (S m)) z y.
Proof. intros H K. replace (S m) with (m + 1)%nat by lia. rewrite <- err_add, err_1. apply approx_trans with x; [apply Rlt_le, u_pos|exact H|exact K]. Qed.
Lemma approx_mult_err a b x y x' y' : approx (err a) x y -> approx (err b) x' y' -> approx (err (a + b)) (x * x') (y * y').
Proof. intros A B. rewrite <- err_add. apply approx_mult; try apply err_pos; assumption. Qed.
Lemma approx_div a x y e : approx a x y -> approx a (x / e) (y / e).
Proof. intros H. unfold approx in *. replace (x / e - y / e) with ((x - y) * / e) by (unfold Rdiv; ring). unfold Rdiv. rewrite !Rabs_mult, <- Rmult_assoc. apply Rmult_le_compat_r; [apply Rabs_pos|exact H]. Qed.
Lemma approx_plus a x y x' y' : 0 <= y -> 0 <= y' -> approx a x y -> approx a x' y' -> approx a (x + x') (y + y').
Proof.
  intros H H' A A'. unfold approx in *. rewrite (Rabs_pos_eq y) in A by exact H. rewrite (Rabs_pos_eq y') in A' by exact H'. rewrite (Rabs_pos_eq (y + y')) by lra.
  replace (x + x' - (y + y')) with ((x - y) + (x' - y')) by ring. apply Rle_trans with (1 := Rabs_triang _ _). lra.
Qed.
Lemma approx_sqrt a x y : 0 <= x -> 0 < y -> approx a x y -> approx a (sqrt x) (sqrt y).
Proof.
  intros Hx Hy A. unfold approx in *. rewrite (Rabs_pos_eq y) in A by lra. pose proof (sqrt_lt_R0 y Hy) as Py. pose proof (sqrt_pos x) as Px.
  rewrite (Rabs_pos_eq (sqrt y)) by lra. rewrite <- (sqrt_sqrt x Hx) in A. rewrite <- (sqrt_sqrt y (Rlt_le _ _ Hy)) in A.
  set (s := sqrt x) in *. set (t := sqrt y) in *. replace (s * s - t * t) with ((s - t) * (s + t)) in A by ring. rewrite Rabs_mult, (Rabs_pos_eq (s + t)) in A by lra.
  pose proof (Rabs_pos (s - t)) as Pd. apply Rmult_le_reg_r with t; [exact Py|]. nra.
Qed.
Lemma approx_quot a b x y x' y' : 0 <= a -> 0 <= b <= / 2 -> 0 < y' -> approx a x y -> approx b x' y' -> approx (a + 2 * b + a * (2 * b)) (x / x') (y / y').
Proof. intros Ha Hb Hy A B. destruct (approx_inv b x' y' Hb Hy B) as [I _]. apply approx_mult; [exact Ha|lra|exact A|exact I]. Qed.
Lemma u_small : u <= / 1000. Proof. rewrite u_val. lra. Qed.
Lemma err_2 : err 2 <= 2 * u + u * u. Proof. unfold err. pose proof u_pos. simpl. nra. Qed.
Lemma err_2_half : err 2 <= / 2. Proof. pose proof err_2. pose proof u_small. pose proof u_pos. nra. Qed.

(* ---- chi-square ---- *)
Definition chi2_term (o e : R) : R := (o - e) * (o - e) / e.
Definition chi2_exact (observed expected : nat -> double) (threshold : double) (l : list nat) : R :=
  fold_right (fun i s => (if dle (expected i) threshold then 0 else chi2_term (dval (observed i)) (dval (expected i))) + s) 0 l.

Lemma term_nonneg o e : 0 < e -> 0 <= chi2_term o e.
Proof. intros H. unfold chi2_term. apply Rmult_le_pos; [apply Rle_0_sqr|apply Rlt_le, Rinv_0_lt_compat, H]. Qed.
Lemma chi2_exact_nonneg observed expected threshold l : (forall i, In i l -> dle (expected i) threshold = false -> 0 < dval (expected i)) -> 0 <= chi2_exact observed expected threshold l.
Proof.
  induction l as [|i l IH]; intros H; cbn [chi2_exact fold_right]; [lra|].
  apply Rplus_le_le_0_compat; [|apply IH; intros j Hj; apply H; right; exact Hj].
  destruct (dle (expected i) threshold) eqn:E; [lra|]. apply term_nonneg, H; [left; reflexivity|exact E].
Qed.

Definition moderate (x : double) : Prop := fin x /\ bpow radix2 (-64) <= dval x <= bpow radix2 64.
Definition count_like (x : double) : Prop := fin x /\ 0 <= dval x <= bpow radix2 64.

Lemma bp_le a b : (a <= b)%Z -> bpow radix2 a <= bpow radix2 b. Proof. apply bpow_le. Qed.
Lemma term_ok o e : count_like o -> moderate e ->
  let d := dsub o e in let t := ddiv (dmul d d) e in
  fin t /\ approx (err 4) (dval t) (chi2_term (dval o) (dval e)) /\ 0 <= dval t <= bpow radix2 200.
Proof.
  intros [Fo Bo] [Fe Be] d t. pose proof (bpow_gt_0 radix2 (-64)) as P64. pose proof (bpow_gt_0 radix2 64) as P64'.
  assert (D : Rabs (dval o - dval e) <= bpow radix2 64) by (apply Rabs_le; lra).
  destruct (dsub_ok o e) as [Vd Fd]; [exact Fo|exact Fe|apply small_bpow with 64%Z; [lia|exact D]|]. fold d in Vd, Fd.
  assert (Bd : Rabs (dval d) <= bpow radix2 64).
  { apply Rabs_le_inv in D. rewrite Vd. apply Rabs_le. apply rnd_between; [apply F64_opp, F64_bpow; lia|apply F64_bpow; lia|exact D]. }
  assert (A1 : approx (err 1) (dval d) (dval o - dval e)). { rewrite Vd, err_1. apply rnd_minus_err; apply dval_format. }
  assert (G : dval d = 0 \/ bpow radix2 (-117) <= Rabs (dval d)).
  { rewrite Vd. apply rnd_minus_ge; [apply dval_format|apply dval_format|]. change (-117 + 53)%Z with (-64)%Z. rewrite Rabs_pos_eq; lra. }
  assert (Q : Rabs (dval d * dval d) <= bpow radix2 128).
  { rewrite Rabs_mult. change 128%Z with (64 + 64)%Z. rewrite bpow_plus. apply Rmult_le_compat; try apply Rabs_pos; exact Bd. }
  destruct (dmul_ok d d) as [Vm Fm]; [exact Fd|exact Fd|apply small_bpow with 128%Z; [lia|exact Q]|].
  assert (Pq : 0 <= dval d * dval d) by apply Rle_0_sqr. rewrite Rabs_pos_eq in Q by exact Pq.
  assert (Gq : dval d * dval d = 0 \/ bpow radix2 (-234) <= dval d * dval d).
  { destruct G as [G|G]; [left; rewrite G; ring|right]. rewrite <- (Rabs_pos_eq _ Pq), Rabs_mult. change (-234)%Z with (-117 + -117)%Z. rewrite bpow_plus.
    apply Rmult_le_compat; try apply bpow_ge_0; exact G. }
  assert (Bm : 0 <= dval (dmul d d) <= bpow radix2 128). { rewrite Vm. apply rnd_between; [apply F64_0|apply F64_bpow; lia|lra]. }
  assert (Gm : dval (dmul d d) = 0 \/ bpow radix2 (-234) <= dval (dmul d d)).
  { rewrite Vm. destruct Gq as [Gq|Gq]; [left; rewrite Gq; apply rnd_id, F64_0|right]. rewrite <- (rnd_id (bpow radix2 (-234))) by (apply F64_bpow; lia). apply rnd_mono, Gq. }
  assert (A3 : approx (err 3) (dval (dmul d d)) ((dval o - dval e) * (dval o - dval e))).
  { apply approx_then with (dval d * dval d); [apply (approx_mult_err 1 1); exact A1|]. rewrite Vm. apply rnd_err. destruct Gq as [Gq|Gq]; [left; exact Gq|right].
    rewrite Rabs_pos_eq by exact Pq. apply Rle_trans with (2 := Gq). apply bp_le. lia. }
  assert (I : bpow radix2 (-64) <= / dval e <= bpow radix2 64).
  { split; [change (-64)%Z with (- (64))%Z; rewrite bpow_opp; apply Rinv_le; lra|].
    replace (bpow radix2 64) with (/ bpow radix2 (-64)) by (change (-64)%Z with (- (64))%Z; rewrite bpow_opp, Rinv_inv; reflexivity). apply Rinv_le; lra. }
  assert (Bq : 0 <= dval (dmul d d) / dval e <= bpow radix2 192).
  { unfold Rdiv. split; [apply Rmult_le_pos; lra|]. change 192%Z with (128 + 64)%Z. rewrite bpow_plus. apply Rmult_le_compat; lra. }
  destruct (ddiv_ok (dmul d d) e) as [Vt Ft]; [exact Fm|lra|apply small_bpow with 192%Z; [lia|rewrite Rabs_pos_eq; lra]|]. fold t in Vt, Ft.
  split; [exact Ft|]. split.
  - unfold chi2_term. apply approx_then with (dval (dmul d d) / dval e); [apply approx_div, A3|]. rewrite Vt. apply rnd_err.
    destruct Gm as [Gm|Gm]; [left; rewrite Gm; unfold Rdiv; ring|right]. rewrite Rabs_pos_eq by lra. unfold Rdiv.
    apply Rle_trans with (bpow radix2 (-234) * bpow radix2 (-64)); [rewrite <- bpow_plus; apply bp_le; lia|]. apply Rmult_le_compat; try apply bpow_ge_0; lra.
  - rewrite Vt. apply rnd_between; [apply F64_0|apply F64_bpow; lia|]. pose proof (bp_le 192 200 ltac:(lia)). lra.
Qed.

Lemma chi2_fold_ok observed expected threshold l : (forall i, In i l -> count_like (observed i)) -> (forall i, In i l -> dle (expected i) threshold = false -> moderate (expected i)) ->
  forall c df m C, fin c -> 0 <= dval c <= IZR (Z.of_nat m) * bpow radix2 201 -> 0 <= C -> approx (err (m + 4)) (dval c) C -> (Z.of_nat (m + length l) <= 2 ^ 51)%Z ->
  let r := fst (fold_left (chi2_step observed expected threshold) l (c, df)) in
  fin r /\ approx (err (m + length l + 4)) (dval r) (C + chi2_exact observed expected threshold l).
Proof.
  induction l as [|i l IH]; intros HO HE c df m C Fc Bc PC A Hl; cbn [fold_left length chi2_exact fold_right] in *; cbn zeta.
  - rewrite Rplus_0_r, Nat.add_0_r. split; assumption.
  - destruct (dle (expected i) threshold) eqn:E.
    + assert (ST : chi2_step observed expected threshold (c, df) i = (c, df)) by (unfold chi2_step; rewrite E; reflexivity). rewrite ST. rewrite Rplus_0_l. destruct (IH (fun j Hj => HO j (or_intror Hj)) (fun j Hj => HE j (or_intror Hj)) c df m C Fc Bc PC A ltac:(lia)) as [F X].
      split; [exact F|]. apply (approx_err_mono (m + length l + 4)); [lia|exact X].
    + assert (ST : chi2_step observed expected threshold (c, df) i = (dadd c (ddiv (dmul (dsub (observed i) (expected i)) (dsub (observed i) (expected i))) (expected i)), dadd df d1)) by (unfold chi2_step; rewrite E; reflexivity). rewrite ST.
      destruct (term_ok (observed i) (expected i)) as (Ft & At & Bt); [apply HO; left; reflexivity|apply HE; [left; reflexivity|exact E]|].
      set (t := ddiv (dmul (dsub (observed i) (expected i)) (dsub (observed i) (expected i))) (expected i)) in *.
      assert (Pe : 0 < dval (expected i)) by (destruct (HE i (or_introl eq_refl) E) as [_ B]; pose proof (bpow_gt_0 radix2 (-64)); lra).
      pose proof (term_nonneg (dval (observed i)) _ Pe) as Pt.
      assert (Um : IZR (Z.of_nat m) + 1 <= bpow radix2 52). { change (bpow radix2 52) with 4503599627370496. rewrite <- plus_IZR. apply IZR_le. lia. }
      assert (Pm : 0 <= IZR (Z.of_nat m)) by (apply IZR_le; lia).
      assert (T201 : bpow radix2 200 <= bpow radix2 201) by (apply bp_le; lia). pose proof (bpow_gt_0 radix2 201) as P201.
      assert (S1 : dval c + dval t <= (IZR (Z.of_nat m) + 1) * bpow radix2 201) by nra.
      assert (S2 : (IZR (Z.of_nat m) + 1) * bpow radix2 201 <= bpow radix2 253). { change 253%Z with (52 + 201)%Z. rewrite bpow_plus. apply Rmult_le_compat_r; lra. }
      destruct (dadd_ok c t) as [Va Fa]; [exact Fc|exact Ft|apply small_bpow with 253%Z; [lia|rewrite Rabs_pos_eq; lra]|].
      replace (C + (chi2_term (dval (observed i)) (dval (expected i)) + fold_right (fun (i0 : nat) (s : R) => (if dle (expected i0) threshold then 0 else chi2_term (dval (observed i0)) (dval (expected i0))) + s) 0 l))
        with ((C + chi2_term (dval (observed i)) (dval (expected i))) + chi2_exact observed expected threshold l) by (unfold chi2_exact; ring).
      replace (m + S (length l) + 4)%nat with (S m + length l + 4)%nat by lia.
      apply IH; [intros j Hj; apply HO; right; exact Hj|intros j Hj; apply HE; right; exact Hj|exact Fa| |lra| |lia].
      * rewrite Va. replace (IZR (Z.of_nat (S m))) with (IZR (Z.of_nat m) + 1) by (rewrite Nat2Z.inj_succ, <- Z.add_1_r, plus_IZR; reflexivity).
        apply rnd_between; [apply F64_0| |lra].
        rewrite <- plus_IZR. apply F64_frac; [|lia]. lia.
      * apply approx_then with (dval c + dval t); [|rewrite Va; apply rnd_plus_err; apply dval_format].
        apply approx_plus; [exact PC|exact Pt|exact A|]. apply (approx_err_mono 4 (m + 4)); [clear; lia|exact At].
Qed.

Theorem chi2_value_accurate cdf n observed expected threshold s :
  (forall i, (i < n)%nat -> count_like (observed i)) -> (forall i, (i < n)%nat -> dle (expected i) threshold = false -> moderate (expected i)) ->
  (Z.of_nat n <= 2 ^ 50)%Z -> chi2_stats cdf n observed expected threshold = Some s ->
  fin (st_value s) /\ Rabs (dval (st_value s) - chi2_exact observed expected threshold (seq 0 n)) <= 2 * (INR n + 4) * bpow radix2 (-53) * chi2_exact observed expected threshold (seq 0 n).
Proof.
  intros HO HE Hn H. unfold chi2_stats in H. destruct (chi2_fold_ok observed expected threshold (seq 0 n)) with (c := d0) (df := d0) (m := O) (C := 0) as [F A].
  - intros i Hi. apply in_seq in Hi. apply HO. lia.
  - intros i Hi. apply in_seq in Hi. apply HE. lia.
  - apply d0_val.
  - rewrite (proj1 d0_val). simpl. lra.
  - lra.
  - rewrite (proj1 d0_val). apply approx_refl, err_pos.
  - rewrite seq_length. lia.
  - destruct (fold_left (chi2_step observed expected threshold) (seq 0 n) (d0, d0)) as [v df]. cbn [fst] in *.
    destruct (is_near (dmax (dsub df d1) d0) d0); [discriminate|]. injection H as <-. cbn [st_value]. split; [exact F|].
    rewrite Rplus_0_l, seq_length in A. cbn [Nat.add] in A.
    assert (P : 0 <= chi2_exact observed expected threshold (seq 0 n)).
    { apply chi2_exact_nonneg. intros i Hi E. apply in_seq in Hi. destruct (HE i ltac:(lia) E) as [_ B]. pose proof (bpow_gt_0 radix2 (-64)). lra. }
    unfold approx in A. rewrite (Rabs_pos_eq _ P) in A. apply Rle_trans with (1 := A). apply Rmult_le_compat_r; [exact P|].
    apply Rle_trans with (1 := err_bound (n + 4) ltac:(rewrite plus_INR, u_val, INR_IZR_INZ; assert (IZR (Z.of_nat n) <= 1125899906842624) by (apply IZR_le; lia); simpl; lra)).
    rewrite plus_INR. simpl (INR 4). lra.
Qed.

(* ---- z scores ---- *)
Theorem z_test_formula erfc n mean pm pv s : fin n -> fin mean -> fin pm -> fin pv ->
  1 <= dval n <= bpow radix2 64 -> / 1000 <= dval pv <= bpow radix2 200 -> Rabs (dval mean) <= bpow radix2 200 -> bpow radix2 (-100) <= Rabs (dval pm) <= bpow radix2 200 ->
  z_test erfc n mean pm pv = Some s -> approx (bpow radix2 (-50)) (dval (st_value s)) ((dval mean - dval pm) / sqrt (dval pv / dval n)).
Proof.
  intros Fn Fm Fpm Fpv Bn Bpv Bm Bpm H.
  (* the value does not depend on erfc *)
  destruct (z_test_ok (fun _ => d1) n mean pm pv) as (s' & E & _ & _ & _ & _ & _ & V); [intros x _ _; rewrite (proj1 d1_val); split; [apply d1_val|lra]|exact Fn|exact Fm|exact Fpm|exact Fpv|exact Bn|exact Bpv|exact Bm|lra|].
  assert (VV : st_value s = st_value s').
  { unfold z_test in *. destruct (is_near pv d0); [discriminate|]. destruct (is_near n d0); [discriminate|]. injection H as <-. injection E as <-. reflexivity. }
  rewrite VV, V. clear V E VV H.
  pose proof (bpow_gt_0 radix2 (-100)) as P100.
  assert (L : bpow radix2 (-100) <= dval pv / dval n).
  { apply Rmult_le_reg_r with (dval n); [lra|]. unfold Rdiv. rewrite Rmult_assoc, Rinv_l by lra. rewrite Rmult_1_r.
    apply Rle_trans with (bpow radix2 (-100) * bpow radix2 64); [apply Rmult_le_compat_l; [apply bpow_ge_0|lra]|]. rewrite <- bpow_plus.
    apply Rle_trans with (/ 1000); [|lra]. assert (E : bpow radix2 (-10) = / 1024) by exact (bpow_opp radix2 10).
    apply Rle_trans with (bpow radix2 (-10)); [apply bpow_le; lia|rewrite E; lra]. }
  assert (U : dval pv / dval n <= bpow radix2 200).
  { apply Rmult_le_reg_r with (dval n); [lra|]. unfold Rdiv. rewrite Rmult_assoc, Rinv_l by lra. pose proof (bpow_gt_0 radix2 200). nra. }
  set (q := dval pv / dval n) in *.
  assert (Bq : bpow radix2 (-100) <= rnd q <= bpow radix2 200). { apply rnd_between; [apply F64_bpow; lia|apply F64_bpow; lia|lra]. }
  assert (Aq : approx (err 1) (rnd q) q). { rewrite err_1. apply rnd_err. right. rewrite Rabs_pos_eq by lra. apply Rle_trans with (2 := L). apply bp_le. lia. }
  assert (As : approx (err 1) (sqrt (rnd q)) (sqrt q)) by (apply approx_sqrt; [lra|lra|exact Aq]).
  assert (Ls : bpow radix2 (-50) <= sqrt (rnd q) <= bpow radix2 100).
  { rewrite <- (sqrt_Rsqr (bpow radix2 (-50))), <- (sqrt_Rsqr (bpow radix2 100)) by apply bpow_ge_0. unfold Rsqr. rewrite <- !bpow_plus. split; apply sqrt_le_1_alt; apply Bq. }
  assert (Bs : bpow radix2 (-50) <= rnd (sqrt (rnd q)) <= bpow radix2 100). { apply rnd_between; [apply F64_bpow; lia|apply F64_bpow; lia|exact Ls]. }
  pose proof (bpow_gt_0 radix2 (-50)) as P50.
  assert (As2 : approx (err 2) (rnd (sqrt (rnd q))) (sqrt q)).
  { apply approx_then with (sqrt (rnd q)); [exact As|]. apply rnd_err. right. rewrite Rabs_pos_eq by lra. apply Rle_trans with (2 := proj1 Ls). apply bp_le. lia. }
  assert (Ad : approx u (rnd (dval mean - dval pm)) (dval mean - dval pm)) by (apply rnd_minus_err; apply dval_format).
  assert (Gd : rnd (dval mean - dval pm) = 0 \/ bpow radix2 (-153) <= Rabs (rnd (dval mean - dval pm))).
  { apply rnd_minus_ge; [apply dval_format|apply dval_format|apply Bpm]. }
  assert (Psq : 0 < sqrt q) by (apply sqrt_lt_R0; lra).
  assert (Az := approx_quot u (err 2) _ _ _ _ (Rlt_le _ _ u_pos) (conj (err_pos 2) err_2_half) Psq Ad As2).
  set (X := rnd (dval mean - dval pm) / rnd (sqrt (rnd q))) in *.
  assert (Ax : approx u (rnd X) X).
  { apply rnd_err. destruct Gd as [Gd|Gd]; [left; unfold X; rewrite Gd; unfold Rdiv; ring|right].
    unfold X, Rdiv. rewrite Rabs_mult, Rabs_inv, (Rabs_pos_eq (rnd (sqrt _))) by lra.
    apply Rle_trans with (bpow radix2 (-153) * bpow radix2 (-100)); [rewrite <- bpow_plus; apply bp_le; lia|].
    apply Rmult_le_compat; try apply bpow_ge_0; [exact Gd|]. change (-100)%Z with (- (100))%Z. rewrite bpow_opp. apply Rinv_le; lra. }
  eapply approx_le; [|apply approx_trans with (2 := Az) (3 := Ax); apply Rlt_le, u_pos].
  pose proof err_2 as E2. pose proof (err_pos 2) as E0. assert (bpow radix2 (-50) = 8 * u) by (rewrite u_val; change (bpow radix2 (-50)) with (/ 1125899906842624); lra). rewrite H. pose proof u_small. pose proof u_pos. set (e := err 2) in *. set (v := u) in *. clearbody e v. assert (v * v <= / 1000 * v) by nra. assert (v * e <= / 1000 * e) by nra. nra.
Qed.

(* ---- the runs test ---- *)
Theorem runs_formula erfc runs plus minus s : (1 <= plus)%N -> (1 <= minus)%N -> (3 <= plus + minus)%N -> (plus <= 2 ^ 26)%N -> (minus <= 2 ^ 26)%N -> (runs <= 2 ^ 27)%N ->
  runs_stats erfc (mkruns runs plus minus) = Some s ->
  let P := IZR (Z.of_N plus) in let M := IZR (Z.of_N minus) in let K := 2 * P * M / (P + M) in
  exists mean variance, approx (bpow radix2 (-50)) mean (K + 1) /\ approx (bpow radix2 (-48)) variance (K * (K - 1)) /\
    approx (bpow radix2 (-50)) (dval (st_value s)) ((IZR (Z.of_N runs) - mean) / sqrt (variance / (P + M))).
Proof.
  intros Hp Hm Hpm Up Um Ur HS Pr Mr K.
  destruct (runs_args plus minus Hp Hm Hpm Up Um) as (Fn & En & Fmean & Bmean & Fv & Bv). cbn zeta in *.
  unfold runs_stats in HS. cbn [rd_plus rd_minus rd_runs] in HS.
  assert (Rp : 1 <= Pr <= 67108864) by (split; apply IZR_le; lia).
  assert (Rm : 1 <= Mr <= 67108864) by (split; apply IZR_le; lia).
  assert (Rs : 3 <= Pr + Mr) by (unfold Pr, Mr; rewrite <- plus_IZR; apply IZR_le; lia).
  assert (HF : 4 * (Pr + Mr) <= 6 * (Pr * Mr)).
  { unfold Pr, Mr. rewrite <- plus_IZR, <- mult_IZR, <- !mult_IZR. apply IZR_le. clear -Hp Hm Hpm. set (a := Z.of_N plus). set (b := Z.of_N minus).
    assert (1 <= a)%Z by (unfold a; lia). assert (1 <= b)%Z by (unfold b; lia). assert (3 <= a + b)%Z by (unfold a, b; lia).
    destruct (Z.le_gt_cases 2 a); nia. }
  destruct (double_of_N_exact plus) as [VP FP]; [lia|]. destruct (double_of_N_exact minus) as [VM FM]; [lia|].
  fold Pr in VP. fold Mr in VM. set (P := double_of_N plus) in *. set (M := double_of_N minus) in *.
  destruct (double_of_N_exact 2) as [V2 F2]; [lia|]. change (IZR (Z.of_N 2)) with 2 in V2. destruct d1_val as [V1 F1].
  pose proof two64 as T64. rewrite N2Z.inj_add, plus_IZR in En. fold Pr Mr in En.
  set (n := dadd P M) in *.
  destruct (dmul_ok (double_of_N 2) P) as [Vt Ft]; [exact F2|exact FP|rewrite V2, VP; apply small_num; lra|].
  assert (Et : dval (dmul (double_of_N 2) P) = 2 * Pr). { rewrite Vt, V2, VP. unfold Pr. rewrite <- mult_IZR. apply rnd_id, F64_Z. lia. }
  destruct (dmul_ok (dmul (double_of_N 2) P) M) as [Vu Fu]; [exact Ft|exact FM|rewrite Et, VM; apply small_num; nra|].
  assert (Eu : dval (dmul (dmul (double_of_N 2) P) M) = 2 * Pr * Mr). { rewrite Vu, Et, VM. unfold Pr, Mr. rewrite <- !mult_IZR. apply rnd_id, F64_Z. nia. }
  set (uu := dmul (dmul (double_of_N 2) P) M) in *.
  assert (EK : dval uu / dval n = K) by (rewrite Eu, En; reflexivity).
  assert (BK : 4 / 3 <= K <= 134217728).
  { assert (X : K * (Pr + Mr) = 2 * Pr * Mr) by (unfold K; field; lra).
    split; apply Rmult_le_reg_r with (Pr + Mr); try lra; rewrite X; nra. }
  destruct (ddiv_ok uu n) as [Vq Fq]; [exact Fu|rewrite En; lra|rewrite EK; apply small_num; lra|]. rewrite EK in Vq.
  assert (Bq : 5 / 4 <= dval (ddiv uu n) <= 134217728). { rewrite Vq. apply rnd_between; [apply (F64_frac 5 (-2)); lia|apply (F64_Z 134217728); lia|lra]. }
  assert (Aq : approx (err 1) (dval (ddiv uu n)) K). { rewrite Vq, err_1. apply rnd_err. right. rewrite Rabs_pos_eq by lra. pose proof tiny. lra. }
  destruct (dadd_ok (ddiv uu n) d1) as [Vm Fm]; [exact Fq|exact F1|rewrite V1; apply small_num; lra|]. rewrite V1 in Vm.
  set (mean := dadd (ddiv uu n) d1) in *.
  assert (Bm : 9 / 4 <= dval mean <= 134217729). { rewrite Vm. apply rnd_between; [apply (F64_frac 9 (-2)); lia|apply (F64_Z 134217729); lia|lra]. }
  assert (Am : approx (err 2) (dval mean) (K + 1)).
  { apply approx_then with (dval (ddiv uu n) + 1); [|rewrite Vm; apply rnd_plus_err; [apply dval_format|apply F64_1]].
    apply approx_plus; [lra|lra|exact Aq|apply approx_refl, err_pos]. }
  (* mean - 1, mean - 2: absolute errors *)
  assert (AA : Rabs (dval mean - (K + 1)) <= err 2 * (K + 1)) by (unfold approx in Am; rewrite (Rabs_pos_eq (K + 1)) in Am by lra; exact Am).
  pose proof err_2 as E2. pose proof (err_pos 2) as E2p. pose proof u_small as US. pose proof u_pos as UP.
  assert (A1 : approx (2 * err 2) (dval mean - 1) K).
  { unfold approx. rewrite (Rabs_pos_eq K) by lra. replace (dval mean - 1 - K) with (dval mean - (K + 1)) by ring. nra. }
  assert (A2 : approx (7 * err 2) (dval mean - 2) (K - 1)).
  { unfold approx. rewrite (Rabs_pos_eq (K - 1)) by lra. replace (dval mean - 2 - (K - 1)) with (dval mean - (K + 1)) by ring. nra. }
  destruct (dsub_ok mean d1) as [Va Fa]; [exact Fm|exact F1|rewrite V1; apply small_num; lra|]. rewrite V1 in Va.
  assert (Ba : 5 / 4 <= dval (dsub mean d1) <= 134217728). { rewrite Va. apply rnd_between; [apply (F64_frac 5 (-2)); lia|apply (F64_Z 134217728); lia|lra]. }
  destruct (dsub_ok mean (double_of_N 2)) as [Vb Fb]; [exact Fm|exact F2|rewrite V2; apply small_num; lra|]. rewrite V2 in Vb.
  assert (Bb : 1 / 4 <= dval (dsub mean (double_of_N 2)) <= 134217728). { rewrite Vb. apply rnd_between; [apply (F64_frac 1 (-2)); lia|apply (F64_Z 134217728); lia|lra]. }
  assert (A1' : approx (2 * err 2 + u + 2 * err 2 * u) (dval (dsub mean d1)) K).
  { apply approx_trans with (dval mean - 1); [lra|exact A1|]. rewrite Va. apply rnd_minus_err; [apply dval_format|apply F64_1]. }
  assert (A2' : approx (7 * err 2 + u + 7 * err 2 * u) (dval (dsub mean (double_of_N 2))) (K - 1)).
  { apply approx_trans with (dval mean - 2); [lra|exact A2|]. rewrite Vb. apply rnd_minus_err; [apply dval_format|apply (F64_Z 2); lia]. }
  destruct (dmul_ok (dsub mean d1) (dsub mean (double_of_N 2))) as [Vv Fvv]; [exact Fa|exact Fb|apply small_num; nra|].
  set (variance := dmul (dsub mean d1) (dsub mean (double_of_N 2))) in *.
  exists (dval mean), (dval variance). split; [|split].
  - eapply approx_le; [|exact Am]. assert (EE : bpow radix2 (-50) = 8 * u) by (rewrite u_val; change (bpow radix2 (-50)) with (/ 1125899906842624); lra). rewrite EE. nra.
  - set (e2 := err 2) in *. set (v := u) in *.
    assert (Hv : approx v (dval variance) (dval (dsub mean d1) * dval (dsub mean (double_of_N 2)))).
    { rewrite Vv. apply rnd_err. right. rewrite Rabs_pos_eq by nra. pose proof tiny. nra. }
    assert (P1 : 0 <= 2 * e2 + v + 2 * e2 * v) by nra. assert (P2 : 0 <= 7 * e2 + v + 7 * e2 * v) by nra.
    assert (Hm2 := approx_mult _ _ _ _ _ _ P1 P2 A1' A2').
    eapply approx_le; [|apply approx_trans with (2 := Hm2) (3 := Hv); lra].
    assert (EE : bpow radix2 (-48) = 32 * v) by (unfold v; rewrite u_val, (proj2 (proj2 (proj2 bpow_small_consts))); lra). rewrite EE. clearbody e2 v.
    assert (B2 : e2 <= 2.001 * v) by nra. assert (a1 : 2 * e2 + v + 2 * e2 * v <= 5.1 * v) by nra. assert (a2 : 7 * e2 + v + 7 * e2 * v <= 15.1 * v) by nra.
    set (x := 2 * e2 + v + 2 * e2 * v) in *. set (y := 7 * e2 + v + 7 * e2 * v) in *. clearbody x y. assert (x * y <= 0.1 * v) by nra. assert ((x + y + x * y) * v <= 0.1 * v) by nra. lra.
  - destruct (is_near n d0); [discriminate|].
    assert (T200 : bpow radix2 64 <= bpow radix2 200) by (apply bpow_le; lia).
    destruct (double_of_N_exact runs) as [Vr Fr]; [lia|]. rewrite <- Vr, <- En.
    apply z_test_formula with (erfc := erfc); [exact Fn|exact Fr|exact Fm|exact Fvv|rewrite En; lra|exact Bv| |split; [|rewrite Rabs_pos_eq; lra]|exact HS].
    + rewrite Vr. assert (0 <= IZR (Z.of_N runs) <= 134217728) by (split; apply IZR_le; lia). rewrite Rabs_pos_eq; lra.
    + rewrite Rabs_pos_eq by lra. apply Rle_trans with (bpow radix2 0); [apply bp_le; lia|simpl; lra].
Qed.

(* ---- the mean test ---- *)
Definition exact_mean (w : N) (values : list N) : R :=
  fold_right (fun v s => IZR (Z.of_N v) / IZR (2 ^ Z.of_N w - 1) + s) 0 values / INR (length values).
Lemma word_max_R w : (0 < w <= 64)%N -> Z.of_N (2 ^ w - 1) = (2 ^ Z.of_N w - 1)%Z /\ 1 <= IZR (2 ^ Z.of_N w - 1) <= bpow radix2 64.
Proof.
  intros Hw. pose proof (word_max w Hw) as M. assert (E : Z.of_N (2 ^ w - 1) = (2 ^ Z.of_N w - 1)%Z) by (rewrite N2Z.inj_sub, N2Z.inj_pow by lia; reflexivity).
  split; [exact E|]. rewrite <- E. rewrite <- two64. split; apply IZR_le; lia.
Qed.
Lemma rescale_approx w v : (0 < w <= 64)%N -> is_word w v -> let x := dval (rescale_type_to_01 w v) in let y := IZR (Z.of_N v) / IZR (2 ^ Z.of_N w - 1) in
  approx (err 4) x y /\ 0 <= y <= 1 /\ (y = 0 \/ bpow radix2 (-64) <= y).
Proof.
  intros Hw Hv x y. destruct (word_max_R w Hw) as [EB BB]. destruct (rescale_range w v Hw Hv) as (_ & _ & E). rewrite EB in E. fold x in E.
  assert (Bv : 0 <= IZR (Z.of_N v) <= IZR (2 ^ Z.of_N w - 1)) by (split; apply IZR_le; [lia|rewrite <- EB; unfold is_word in Hv; lia]).
  assert (Iv : IZR (Z.of_N v) = 0 \/ 1 <= IZR (Z.of_N v)) by (destruct (N.eq_dec v 0) as [->|]; [left; reflexivity|right; apply IZR_le; lia]).
  set (B := IZR (2 ^ Z.of_N w - 1)) in *.
  assert (By : 0 <= y <= 1). { unfold y, Rdiv. split; [apply Rmult_le_pos; [lra|apply Rlt_le, Rinv_0_lt_compat; lra]|]. apply Rmult_le_reg_r with B; [lra|]. rewrite Rmult_assoc, Rinv_l by lra. lra. }
  assert (I64 : bpow radix2 (-64) <= / B) by (change (-64)%Z with (- (64))%Z; rewrite bpow_opp; apply Rinv_le; lra).
  assert (Gy : y = 0 \/ bpow radix2 (-64) <= y). { unfold y, Rdiv. destruct Iv as [Iv|Iv]; [left; rewrite Iv; ring|right]. pose proof (bpow_gt_0 radix2 (-64)). nra. }
  split; [|split; assumption].
  assert (T1 : bpow radix2 (-1000) <= 1) by (change 1 with (bpow radix2 0); apply bp_le; lia).
  assert (Ab : approx u (rnd B) B) by (apply rnd_err; right; rewrite Rabs_pos_eq by lra; lra).
  assert (Av : approx u (rnd (IZR (Z.of_N v))) (IZR (Z.of_N v))). { apply rnd_err. destruct Iv as [Iv|Iv]; [left; exact Iv|right; rewrite Rabs_pos_eq; lra]. }
  pose proof u_small as US. pose proof u_pos as UP.
  assert (UH : u <= / 2) by lra. assert (PB : 0 < B) by lra.
  assert (Aq := approx_quot u u _ _ _ _ (Rlt_le _ _ UP) (conj (Rlt_le _ _ UP) UH) PB Av Ab). fold y in Aq.
  assert (Aq3 : approx (err 3) (rnd (IZR (Z.of_N v)) / rnd B) y). { eapply approx_le; [|exact Aq]. unfold err. simpl. clear -US UP. set (t := u) in *. clearbody t. nra. }
  apply approx_then with (rnd (IZR (Z.of_N v)) / rnd B); [exact Aq3|]. rewrite E. apply rnd_err.
  destruct Iv as [Iv|Iv]; [left; rewrite Iv, rnd_id by apply F64_0; unfold Rdiv; ring|right].
  assert (R1 : 1 <= rnd (IZR (Z.of_N v))) by (rewrite <- (rnd_id 1 F64_1); apply rnd_mono, Iv).
  assert (RB : 1 <= rnd B <= bpow radix2 64) by (apply rnd_between; [apply F64_1|apply F64_bpow; lia|exact BB]).
  assert (I2 : bpow radix2 (-64) <= / rnd B) by (change (-64)%Z with (- (64))%Z; rewrite bpow_opp; apply Rinv_le; lra).
  pose proof (bpow_gt_0 radix2 (-64)). rewrite Rabs_pos_eq by (unfold Rdiv; nra). apply Rle_trans with (bpow radix2 (-64)); [apply bp_le; lia|]. unfold Rdiv. nra.
Qed.
Lemma mean_sum_approx w values : (0 < w <= 64)%N -> Forall (is_word w) values -> forall s a S, fin s -> 0 <= dval s <= IZR (Z.of_nat a) -> 0 <= S -> (S = 0 \/ bpow radix2 (-64) <= S) -> approx (err (a + 4)) (dval s) S -> (Z.of_nat (a + length values) <= 2 ^ 53)%Z ->
  let r := fold_left (fun sum v => dadd sum (rescale_type_to_01 w v)) values s in let T := S + fold_right (fun v s => IZR (Z.of_N v) / IZR (2 ^ Z.of_N w - 1) + s) 0 values in
  approx (err (a + length values + 4)) (dval r) T /\ 0 <= T /\ (T = 0 \/ bpow radix2 (-64) <= T).
Proof.
  intros Hw. induction values as [|v values IH]; intros HF s a S Fs Bs PS GS A Hl; cbn zeta; cbn [fold_left fold_right length] in *.
  - rewrite Rplus_0_r, Nat.add_0_r. split; [exact A|]. split; assumption.
  - inversion HF as [|? ? Hv HF']; subst. destruct (rescale_range w v Hw Hv) as (Fv & Bv & _). destruct (rescale_approx w v Hw Hv) as (Av & By & Gy).
    set (y := IZR (Z.of_N v) / IZR (2 ^ Z.of_N w - 1)) in *.
    assert (R1 : IZR (Z.of_nat a) <= 9007199254740991) by (apply IZR_le; lia).
    assert (RS : IZR (Z.of_nat (a + 1)) = IZR (Z.of_nat a) + 1) by (rewrite Nat2Z.inj_add, plus_IZR; reflexivity).
    destruct (dadd_ok s (rescale_type_to_01 w v)) as [Va Fa]; [exact Fs|exact Fv|apply small_num; rewrite <- two64; lra|].
    rewrite <- Rplus_assoc. replace (a + Datatypes.S (length values))%nat with ((a + 1) + length values)%nat by lia.
    pose proof (bpow_gt_0 radix2 (-64)). apply IH; [exact HF'|exact Fa| |lra|destruct GS as [->|GS], Gy as [->|Gy]; [left; ring|right; lra..]| |lia].
    + rewrite Va. apply rnd_between; [apply F64_0|apply F64_Z; lia|]. rewrite RS. lra.
    + replace (a + 1 + 4)%nat with (Datatypes.S (a + 4)) by lia. apply approx_then with (dval s + dval (rescale_type_to_01 w v)); [|rewrite Va; apply rnd_plus_err; apply dval_format].
      apply approx_plus; [exact PS|lra|exact A|]. apply (approx_err_mono 4 (a + 4)); [clear; lia|exact Av].
Qed.
Theorem mean_accurate w values : (0 < w <= 64)%N -> Forall (is_word w) values -> values <> [] -> (Z.of_nat (length values) <= 2 ^ 50)%Z ->
  Rabs (dval (get_mean_rescale_01 w values) - exact_mean w values) <= 2 * (INR (length values) + 5) * bpow radix2 (-53) * exact_mean w values.
Proof.
  intros Hw HF Hne Hl. assert (L1 : (1 <= length values)%nat) by (destruct values; [contradiction|cbn [length]; lia]).
  destruct (mean_sum w values Hw HF d0 0) as [Fs Bs]; [apply d0_val|rewrite (proj1 d0_val); simpl; lra|lia|]. cbn [Nat.add] in Bs.
  destruct (mean_sum_approx w values Hw HF d0 0 0) as (A & PT & GT); [apply d0_val|rewrite (proj1 d0_val); simpl; lra|lra|left; reflexivity|rewrite (proj1 d0_val); apply approx_refl, err_pos|lia|]. cbn [Nat.add] in A.
  rewrite Rplus_0_l in *.
  destruct (double_of_N_exact (N.of_nat (length values))) as [Vn Fn]; [lia|]. rewrite nat_N_Z in Vn.
  assert (R1 : 1 <= IZR (Z.of_nat (length values)) <= 1125899906842624) by (split; apply IZR_le; lia).
  unfold get_mean_rescale_01, exact_mean. rewrite INR_IZR_INZ.
  set (sum := fold_left (fun sum v => dadd sum (rescale_type_to_01 w v)) values d0) in *. set (L := IZR (Z.of_nat (length values))) in *. set (dn := double_of_N (N.of_nat (length values))) in *.
  set (T := fold_right (fun v s => IZR (Z.of_N v) / IZR (2 ^ Z.of_N w - 1) + s) 0 values) in *.
  assert (PI : 0 < / L) by (apply Rinv_0_lt_compat; lra).
  assert (Q : 0 <= dval sum / dval dn <= 1).
  { rewrite Vn. split; [apply Rmult_le_pos; lra|]. apply Rmult_le_reg_r with L; [lra|]. unfold Rdiv. rewrite Rmult_assoc, Rinv_l by lra. lra. }
  destruct (ddiv_ok sum dn) as [Vm Fm]; [exact Fs|rewrite Vn; lra|apply small_num; rewrite <- two64; lra|]. rewrite Vn in Vm, Q.
  assert (EB : err (length values + 4) <= / 2).
  { apply Rle_trans with (1 := err_bound (length values + 4) ltac:(rewrite plus_INR, INR_IZR_INZ; fold L; rewrite u_val; simpl (INR 4); lra)). rewrite plus_INR, INR_IZR_INZ. fold L. rewrite u_val. simpl (INR 4). lra. }
  assert (A2 : approx (err (S (length values + 4))) (dval (ddiv sum dn)) (T / L)).
  { apply approx_then with (dval sum / L); [apply approx_div, A|]. rewrite Vm. apply rnd_err.
    destruct GT as [GT|GT].
    - left. rewrite GT in A. unfold approx in A. rewrite Rabs_R0, Rmult_0_r, Rminus_0_r in A. assert (dval sum = 0) by (apply Rabs_le_inv in A; lra). rewrite H. unfold Rdiv. ring.
    - right. rewrite Rabs_pos_eq by lra. unfold approx in A. rewrite (Rabs_pos_eq T) in A by exact PT. apply Rabs_le_inv in A.
      assert (S1 : bpow radix2 (-65) <= dval sum). { change (-65)%Z with (-64 + -1)%Z. rewrite bpow_plus. change (bpow radix2 (-1)) with (/ 2). nra. }
      assert (IL : bpow radix2 (-64) <= / L). { change (-64)%Z with (- (64))%Z. rewrite bpow_opp. apply Rinv_le; [lra|]. rewrite <- two64. lra. }
      unfold Rdiv. apply Rle_trans with (bpow radix2 (-65) * bpow radix2 (-64)); [rewrite <- bpow_plus; apply bp_le; lia|]. apply Rmult_le_compat; try apply bpow_ge_0; assumption. }
  unfold approx in A2. rewrite (Rabs_pos_eq (T / L)) in A2 by (unfold Rdiv; apply Rmult_le_pos; lra). apply Rle_trans with (1 := A2).
  apply Rmult_le_compat_r; [unfold Rdiv; apply Rmult_le_pos; lra|].
  replace (S (length values + 4)) with (length values + 5)%nat by lia.
  apply Rle_trans with (1 := err_bound (length values + 5) ltac:(rewrite plus_INR, INR_IZR_INZ; fold L; rewrite u_val; simpl (INR 5); lra)). rewrite plus_INR, INR_IZR_INZ. fold L. simpl (INR 5). lra.
Qed.
Theorem mean_formula erfc w values s : (0 < w <= 64)%N -> Forall (is_word w) values -> (Z.of_nat (length values) <= 2 ^ 50)%Z -> mean_test erfc w values = Some s ->
  exists mean variance, Rabs (mean - exact_mean w values) <= 2 * (INR (length values) + 5) * bpow radix2 (-53) * exact_mean w values /\ approx (bpow radix2 (-53)) variance (/ 12) /\
    approx (bpow radix2 (-50)) (dval (st_value s)) ((mean - / 2) / sqrt (variance / INR (length values))).
Proof.
  intros Hw HF Hl HS. assert (Hne : values <> []) by (intros ->; rewrite mean_none in HS; discriminate).
  assert (L1 : (1 <= length values)%nat) by (destruct values; [contradiction|cbn [length]; lia]).
  exists (dval (get_mean_rescale_01 w values)), (dval (ddiv d1 (double_of_N 12))).
  split; [apply mean_accurate; assumption|].
  destruct (double_of_N_exact 12) as [V12 F12]; [lia|]. change (IZR (Z.of_N 12)) with 12 in V12. destruct d1_val as [V1 F1]. pose proof two64 as T64.
  destruct (ddiv_ok d1 (double_of_N 12)) as [Vv Fv]; [exact F1|rewrite V12; lra|rewrite V1, V12; apply small_num; lra|]. rewrite V1, V12 in Vv.
  assert (Bv : / 16 <= dval (ddiv d1 (double_of_N 12)) <= 1). { rewrite Vv. apply rnd_between; [exact (F64_bpow (-4) ltac:(lia))|apply F64_1|lra]. }
  split. { rewrite Vv. replace (1 / 12) with (/ 12) by lra. apply rnd_err. right. rewrite Rabs_pos_eq by lra. pose proof tiny. lra. }
  destruct dhalf_val as [Vh Fh]. destruct (double_of_N_exact (N.of_nat (length values))) as [Vn Fn]; [lia|]. rewrite nat_N_Z in Vn.
  assert (R1 : 1 <= IZR (Z.of_nat (length values)) <= 1125899906842624) by (split; apply IZR_le; lia).
  destruct (mean_some (fun _ => d1) w values) as (_ & _ & _ & _ & _ & _ & _ & Bm); [intros x _ _; rewrite (proj1 d1_val); split; [apply d1_val|lra]|exact Hw|exact HF|exact Hne|lia|].
  assert (Fm : fin (get_mean_rescale_01 w values)).
  { destruct (mean_sum w values Hw HF d0 0) as [Fs Bs]; [apply d0_val|rewrite (proj1 d0_val); simpl; lra|lia|]. cbn [Nat.add] in Bs. unfold get_mean_rescale_01.
    apply ddiv_ok; [exact Fs|rewrite Vn; lra|]. rewrite Vn. apply small_num. split; [apply Rmult_le_pos; [lra|apply Rlt_le, Rinv_0_lt_compat; lra]|].
    apply Rle_trans with 1; [|lra]. apply Rmult_le_reg_r with (IZR (Z.of_nat (length values))); [lra|]. unfold Rdiv. rewrite Rmult_assoc, Rinv_l by lra. lra. }
  assert (T200 : bpow radix2 64 <= bpow radix2 200) by (apply bpow_le; lia).
  rewrite INR_IZR_INZ, <- Vn, <- Vh. unfold mean_test in HS. change (dconst 1 (-1)) with dhalf in HS.
  apply z_test_formula with (erfc := erfc); [exact Fn|exact Fm|exact Fh|exact Fv|rewrite Vn; lra|lra|rewrite Rabs_pos_eq; lra| |exact HS].
  rewrite Vh, Rabs_pos_eq by lra. split; [|lra]. apply Rle_trans with (bpow radix2 (-1)); [apply bp_le; lia|change (bpow radix2 (-1)) with (/ 2); lra].
Qed.

(* ---- the two-tailed p-value ---- *)
Lemma rnd_err_any x : 0 <= x -> Rabs (rnd x - x) <= u * x + bpow radix2 (-1000).
Proof.
  intros P. pose proof u_pos. pose proof (bpow_gt_0 radix2 (-1000)). destruct (Rle_or_lt (bpow radix2 (-1000)) x) as [H1|H1].
  - pose proof (rnd_approx x H1) as A. unfold approx in A. rewrite (Rabs_pos_eq x) in A by exact P. lra.
  - assert (0 <= rnd x <= bpow radix2 (-1000)) by (apply rnd_between; [apply F64_0|apply F64_bpow; lia|lra]). assert (0 <= u * x) by nra. apply Rabs_le. lra.
Qed.
Theorem two_tailed_formula erfc z : erfc_bounded erfc -> fin z ->
  exists a, fin a /\ 0 <= dval a /\ Rabs (dval a - Rabs (dval z) / sqrt 2) <= bpow radix2 (-51) * (Rabs (dval z) / sqrt 2) + bpow radix2 (-1000) /\
    Rabs (dval (normal_two_tailed_cdf erfc z) - dval (erfc a)) <= bpow radix2 (-51) * dval (erfc a) + bpow radix2 (-998).
Proof.
  intros HE Fz. destruct (two_tailed_val erfc z HE Fz) as (a & Fa & Pa & Va & _ & Vp & _). exists a. split; [exact Fa|]. split; [exact Pa|].
  pose proof u_small as US. pose proof u_pos as UP. assert (EE : bpow radix2 (-51) = 4 * u) by (rewrite u_val; change (bpow radix2 (-51)) with (/ 2251799813685248); lra). rewrite EE.
  pose proof (bpow_gt_0 radix2 (-1000)) as TP. split.
  - destruct (double_of_N_exact 2) as [V2 F2]; [lia|]. change (IZR (Z.of_N 2)) with 2 in V2. destruct (dsqrt_ok (double_of_N 2) F2) as [F' V']; [rewrite V2; lra|]. rewrite V2 in V'.
    assert (S2 : 1 <= sqrt 2) by (rewrite <- sqrt_1; apply sqrt_le_1_alt; lra).
    assert (A2 : approx u (rnd (sqrt 2)) (sqrt 2)). { apply rnd_err. right. rewrite Rabs_pos_eq by lra. pose proof tiny. lra. }
    assert (UH : u <= / 2) by lra. assert (PS : 0 < sqrt 2) by lra.
    assert (Aq := approx_quot 0 u _ _ _ _ (Rle_refl 0) (conj (Rlt_le _ _ UP) UH) PS (approx_refl 0 (Rabs (dval z)) (Rle_refl 0)) A2).
    rewrite Va, V'. set (x := Rabs (dval z) / rnd (sqrt 2)) in *. set (y := Rabs (dval z) / sqrt 2) in *.
    assert (Py : 0 <= y). { unfold y, Rdiv. apply Rmult_le_pos; [apply Rabs_pos|apply Rlt_le, Rinv_0_lt_compat; lra]. }
    assert (Px : 0 <= x). { unfold x, Rdiv. apply Rmult_le_pos; [apply Rabs_pos|apply Rlt_le, Rinv_0_lt_compat]. rewrite <- V'. pose proof sqrt_two as [_ B]. lra. }
    unfold approx in Aq. rewrite (Rabs_pos_eq y) in Aq by exact Py. pose proof (rnd_err_any x Px) as R1. apply Rabs_le_inv in Aq. apply Rabs_le_inv in R1. set (t := u) in *. clearbody t x y.
    assert (K : x <= y + 2 * t * y) by lra. assert (t * x <= t * (y + 2 * t * y)) by (apply Rmult_le_compat_l; lra). assert (t * t * y <= / 1000 * (t * y)) by nra. assert (0 <= t * y) by nra. apply Rabs_le. lra.
  - destruct (HE a Fa Pa) as [_ Be]. rewrite Vp. set (e := dval (erfc a)) in *. assert (P1 : 0 <= e / 2) by lra. pose proof (rnd_err_any (e / 2) P1) as R1. set (h := rnd (e / 2)) in *.
    assert (Ph : 0 <= h) by (unfold h; rewrite <- (rnd_id 0) by apply F64_0; apply rnd_mono; exact P1). assert (P2 : 0 <= 2 * h) by lra. pose proof (rnd_err_any (2 * h) P2) as R2.
    apply Rabs_le_inv in R1. apply Rabs_le_inv in R2. assert (E4 : bpow radix2 (-998) = 4 * bpow radix2 (-1000)) by (change (-998)%Z with (2 + -1000)%Z; rewrite bpow_plus; change (bpow radix2 2) with 4; reflexivity). rewrite E4.
    set (t := u) in *. set (b := bpow radix2 (-1000)) in *. set (p := rnd (2 * h)) in *. clearbody t b p h e. assert (t * (2 * h) <= t * (e + t * e + 2 * b)) by (apply Rmult_le_compat_l; lra).
    assert (0 <= t * e) by (apply Rmult_le_pos; lra). assert (t * t * e <= / 1000 * (t * e)) by (rewrite Rmult_assoc; apply Rmult_le_compat_r; lra). assert (t * b <= / 1000 * b) by nra. apply Rabs_le. lra.
Qed.

Lemma chi2_exact_sum observed expected threshold l : chi2_exact observed expected threshold l =
  rsum (map (fun i => (dval (observed i) - dval (expected i)) ^ 2 / dval (expected i)) (filter (fun i => negb (dle (expected i) threshold)) l)).
Proof.
  induction l as [|i l IH]; [reflexivity|]. cbn [chi2_exact fold_right filter]. fold (chi2_exact observed expected threshold l). rewrite IH.
  destruct (dle (expected i) threshold); cbn [negb]; [ring|]. cbn [map rsum fold_right]. unfold chi2_term, rsum. simpl (_ ^ 2). rewrite Rmult_1_r. reflexivity.
Qed.
Lemma exact_mean_sum w values : exact_mean w values = rsum (map (fun v => IZR (Z.of_N v) / IZR (2 ^ Z.of_N w - 1)) values) / INR (length values).
Proof. unfold exact_mean. f_equal. induction values as [|v l IH]; [reflexivity|]. cbn [fold_right map rsum]. rewrite IH. reflexivity. Qed.
