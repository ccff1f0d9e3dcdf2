(* The coefficient is never outside [-1, 1]; symmetry, constant and identical data. *)
From Coq Require Import Reals Lra Lia.
From Flocq Require Import Core BinarySingleNaN.
From Verif Require Import Base FloatModel FloatLemmas ResultModel ResultSpec CollectModel StatsModel RescaleProofs StatsProofs CouponFloatProofs StatFormulas CommandModel CorrModel CorrSpec CorrCount CorrKendall CorrProofs CorrPearson CorrPearson2 ErrorSpec.
Open Scope R_scope.

Lemma near_eps_low : / 2000000 <= dval (dconst 4722366482869645 (-72)).
Proof. destruct near_eps_val as [-> _]. change (bpow radix2 (-72)) with (/ 4722366482869645213696). lra. Qed.
Definition small_pairs (l : list (double * double)) : Prop := Forall (fun p => (fin (fst p) /\ Rabs (dval (fst p)) <= 2) /\ fin (snd p) /\ Rabs (dval (snd p)) <= 2) l.
Definition prodR (l : list (double * double)) : R := rsum (map (fun p => dval (fst p) * dval (snd p)) l).
Definition absR (l : list (double * double)) : R := rsum (map (fun p => Rabs (dval (fst p) * dval (snd p))) l).
Definition T900 : R := bpow radix2 (-900).
Definition e31 : R := bpow radix2 (-31).
Lemma abs_nonneg {A} (f : A -> R) l : 0 <= rsum (map (fun a => Rabs (f a)) l).
Proof. induction l as [|a l IH]; cbn; [lra|]. pose proof (Rabs_pos (f a)). unfold rsum in IH. lra. Qed.
Lemma product_ok p : fin (fst p) /\ Rabs (dval (fst p)) <= 2 -> fin (snd p) /\ Rabs (dval (snd p)) <= 2 -> 
  let t := dval (fst p) * dval (snd p) in fin (dmul (fst p) (snd p)) /\ Rabs (dval (dmul (fst p) (snd p)) - t) <= u * Rabs t + bpow radix2 (-1000) /\ Rabs t <= 4.
Proof.
  intros [Fa Ba] [Fb Bb] t. assert (Bt : Rabs t <= 4). { unfold t. rewrite Rabs_mult. pose proof (Rabs_pos (dval (fst p))). pose proof (Rabs_pos (dval (snd p))). nra. }
  destruct (dmul_ok (fst p) (snd p) Fa Fb) as [V F]; [apply small_bpow with 2%Z; [lia|exact Bt]|]. split; [exact F|]. split; [|exact Bt]. rewrite V. apply rnd_err_abs.
Qed.
Lemma dot_rel l : small_pairs l -> (Z.of_nat (length l) <= 1000000)%Z -> fin (dot l) /\ Rabs (dval (dot l) - prodR l) <= e31 * absR l + T900 /\ Rabs (dval (dot l)) <= 2 * absR l + T900.
Proof.
  intros H Hn. set (n := INR (length l)). assert (Bn : 0 <= n <= 1000000) by (split; [apply pos_INR|unfold n; rewrite INR_IZR_INZ; apply IZR_le, Hn]). pose proof u_pos as Pu. pose proof tiny_u as TU.
  unfold small_pairs in H. rewrite Forall_forall in H. set (f := fun p : double * double => dmul (fst p) (snd p)).
  destruct (sum_rel f l 0 d0 0 0 5) as (F & E).
  { intros p Hp. destruct (H p Hp) as [Ha Hb]. destruct (product_ok p Ha Hb) as (Ff & Ef & Bf). split; [exact Ff|]. apply Rabs_le_inv in Ef, Bf. 
    assert (u * Rabs (dval (fst p) * dval (snd p)) <= 4 * u) by (pose proof (Rabs_pos (dval (fst p) * dval (snd p))); apply Rabs_le in Bf; nra). apply Rabs_le. unfold f. rewrite u_val in *. lra. }
  { lra. } { apply d0_val. } { rewrite Rabs_R0. lra. } { cbn. lra. } { destruct d0_val as [-> _]. rewrite Rminus_0_r, Rabs_R0. lra. }
  { cbn [Nat.add]. fold n. change (bpow radix2 53) with 9007199254740992. lra. } { cbn [Nat.add]. fold n. rewrite u_val. lra. }
  cbn [Nat.add] in E. rewrite !Rplus_0_l in E. change (fold_left (fun s a => dadd s (f a)) l d0) with (dot l) in *. split; [exact F|].
  assert (Er : err (length l) <= 2 * n * u). { pose proof (err_bound (length l)) as K. fold n in K. rewrite Rmult_assoc. apply K. rewrite u_val. lra. } pose proof (err_pos (length l)) as Ep.
  assert (S1 : Rabs (rsum (map (fun a => dval (f a)) l) - prodR l) <= u * absR l + n * bpow radix2 (-1000)).
  { unfold prodR, absR, n. clear -H Pu. induction l as [|p l IH]; cbn [map rsum fold_right length]; [rewrite Rminus_0_r, Rabs_R0; cbn; lra|].
    destruct (H p (or_introl eq_refl)) as [Ha Hb]. destruct (product_ok p Ha Hb) as (_ & Ef & _). specialize (IH (fun q Hq => H q (or_intror Hq))). unfold rsum in IH. rewrite S_INR. unfold f at 1.
    set (X := fold_right Rplus 0 (map (fun a => dval (f a)) l)) in *. set (Y := fold_right Rplus 0 (map (fun p => dval (fst p) * dval (snd p)) l)) in *.
    replace (dval (dmul (fst p) (snd p)) + X - (dval (fst p) * dval (snd p) + Y)) with ((dval (dmul (fst p) (snd p)) - dval (fst p) * dval (snd p)) + (X - Y)) by ring.
    apply Rle_trans with (1 := Rabs_triang _ _). lra. }
  assert (S2 : rsum (map (fun a => Rabs (dval (f a))) l) <= (1 + u) * absR l + n * bpow radix2 (-1000)).
  { unfold absR, n. clear -H Pu. induction l as [|p l IH]; cbn [map rsum fold_right length]; [cbn; lra|].
    destruct (H p (or_introl eq_refl)) as [Ha Hb]. destruct (product_ok p Ha Hb) as (_ & Ef & _). specialize (IH (fun q Hq => H q (or_intror Hq))). unfold rsum in IH. rewrite S_INR. unfold f at 1.
    assert (Rabs (dval (dmul (fst p) (snd p))) <= Rabs (dval (fst p) * dval (snd p)) + (u * Rabs (dval (fst p) * dval (snd p)) + bpow radix2 (-1000))).
    { replace (dval (dmul (fst p) (snd p))) with (dval (fst p) * dval (snd p) + (dval (dmul (fst p) (snd p)) - dval (fst p) * dval (snd p))) at 1 by ring. apply Rle_trans with (1 := Rabs_triang _ _). lra. }
    lra. }
  assert (PC : 0 <= absR l) by apply abs_nonneg. assert (PY : Rabs (prodR l) <= absR l). { unfold prodR, absR. clear. induction l as [|p l IH]; cbn; [rewrite Rabs_R0; lra|]. apply Rle_trans with (1 := Rabs_triang _ _). unfold rsum in IH. lra. }
  pose proof (bpow_gt_0 radix2 (-1000)) as P0.
  assert (T1 : n * bpow radix2 (-1000) <= bpow radix2 (-980)). { change (-980)%Z with (20 + -1000)%Z. rewrite bpow_plus. apply Rmult_le_compat_r; [lra|]. change (bpow radix2 20) with 1048576. lra. }
  assert (T2 : 4 * bpow radix2 (-980) <= T900). { unfold T900. change 4 with (bpow radix2 2). rewrite <- bpow_plus. apply bpow_le. lia. }
  assert (E9 : e31 = / 2147483648) by reflexivity. pose proof (bpow_gt_0 radix2 (-980)) as P1.
  assert (B1 : err (length l) <= / 4000000000) by (rewrite u_val in Er; lra).
  assert (E' : err (length l) * rsum (map (fun a => Rabs (dval (f a))) l) <= / 4000000000 * ((1 + u) * absR l + n * bpow radix2 (-1000))).
  { apply Rmult_le_compat; try lra. apply abs_nonneg. }
  assert (G : Rabs (dval (dot l) - prodR l) <= e31 * absR l + T900).
  { replace (dval (dot l) - prodR l) with ((dval (dot l) - rsum (map (fun a => dval (f a)) l)) + (rsum (map (fun a => dval (f a)) l) - prodR l)) by ring. apply Rle_trans with (1 := Rabs_triang _ _).
    rewrite E9. rewrite u_val in *. lra. }
  split; [exact G|]. replace (dval (dot l)) with ((dval (dot l) - prodR l) + prodR l) by ring. apply Rle_trans with (1 := Rabs_triang _ _). rewrite E9 in *. lra.
Qed.

(* the computed sums satisfy the inequality of Cauchy and Schwarz up to rounding *)
Section CS.
Variable l : list (double * double).
Hypotheses (H : small_pairs l) (Hn : (Z.of_nat (length l) <= 1000000)%Z).
Let lx := map (fun p : double * double => (fst p, fst p)) l.
Let ly := map (fun p : double * double => (snd p, snd p)) l.
Hypotheses (Nx : is_near (dot lx) d0 = false) (Ny : is_near (dot ly) d0 = false).
Lemma square_ok (g : double * double -> double) : (forall p, In p l -> fin (g p) /\ Rabs (dval (g p)) <= 2) -> let m := map (fun p => (g p, g p)) l in is_near (dot m) d0 = false ->
  let A := rsum (map (fun p => dval (g p) * dval (g p)) l) in fin (dot m) /\ (1 - 2 * e31) * A <= dval (dot m) <= (1 + 2 * e31) * A /\ / 10000000 <= A.
Proof.
  intros Hg m Nm A. assert (Sm : small_pairs m) by (apply Forall_map, Forall_forall; intros p Hp; cbn; split; apply Hg, Hp).
  destruct (dot_rel m Sm) as (F & E & _); [unfold m; rewrite map_length; exact Hn|]. split; [exact F|].
  assert (EA : prodR m = A /\ absR m = A).
  { unfold prodR, absR, m, A. rewrite !map_map. cbn [fst snd]. split; [reflexivity|]. f_equal. apply map_ext. intros p. apply Rabs_pos_eq, Rle_0_sqr. }
  destruct EA as [E1 E2]. rewrite E1, E2 in E. apply is_near_0_false in Nm; [|exact F]. pose proof near_eps_low as NR.
  assert (PA : 0 <= A) by (rewrite <- E2; apply abs_nonneg). assert (Te : T900 <= e31 * / 10000000). { unfold T900, e31. apply Rle_trans with (bpow radix2 (-31) * bpow radix2 (-30)); [rewrite <- bpow_plus; apply bpow_le; lia|]. apply Rmult_le_compat_l; [apply bpow_ge_0|]. change (bpow radix2 (-30)) with (/ 1073741824). lra. }
  assert (E9 : e31 = / 2147483648) by reflexivity. apply Rabs_le_inv in E.
  assert (AA : / 10000000 <= A). { apply Rnot_lt_le. intros C. assert (Rabs (dval (dot m)) <= 2 * / 10000000) by (apply Rabs_le; rewrite E9 in *; lra). lra. }
  split; [|exact AA]. rewrite E9 in *. lra.
Qed.
Let A := rsum (map (fun p => dval (fst p) * dval (fst p)) l).
Let B := rsum (map (fun p => dval (snd p) * dval (snd p)) l).
Lemma abs_cs : absR l <= sqrt (A * B).
Proof.
  pose proof (cauchy_schwarz (fun p : double * double => Rabs (dval (fst p))) (fun p => Rabs (dval (snd p))) l) as (C & PA & PB).
  assert (EA : rsum (map (fun p : double * double => Rabs (dval (fst p)) * Rabs (dval (fst p))) l) = A) by (unfold A; f_equal; apply map_ext; intros p; rewrite <- Rabs_mult; apply Rabs_pos_eq, Rle_0_sqr).
  assert (EB : rsum (map (fun p : double * double => Rabs (dval (snd p)) * Rabs (dval (snd p))) l) = B) by (unfold B; f_equal; apply map_ext; intros p; rewrite <- Rabs_mult; apply Rabs_pos_eq, Rle_0_sqr).
  assert (EC : rsum (map (fun p : double * double => Rabs (dval (fst p)) * Rabs (dval (snd p))) l) = absR l) by (unfold absR; f_equal; apply map_ext; intros p; symmetry; apply Rabs_mult).
  rewrite EA in *. rewrite EB in *. rewrite EC in *. rewrite <- (Rabs_pos_eq (absR l)) by apply abs_nonneg. apply abs_le_sqrt; [apply Rmult_le_pos; assumption|exact C].
Qed.
Lemma root_low s S : fin s -> (1 - 2 * e31) * S <= dval s -> dval s <= (1 + 2 * e31) * S -> / 10000000 <= S <= 10000000 -> fin (dsqrt s) /\ (1 - 3 * e31) * sqrt S <= dval (dsqrt s) <= 2 * sqrt S /\ / 10000 <= sqrt S <= 10000.
Proof.
  intros F L1 L2 BS. assert (E9 : e31 = / 2147483648) by reflexivity. assert (P : 0 < dval s) by (rewrite E9 in *; lra). destruct (dsqrt_ok s F ltac:(lra)) as [F' V]. split; [exact F'|].
  assert (R1 : / 10000 <= sqrt S <= 10000). { split; [rewrite <- (sqrt_square (/ 10000)) by lra; apply sqrt_le_1_alt; lra|rewrite <- (sqrt_square 10000) by lra; apply sqrt_le_1_alt; lra]. }
  assert (Sq : sqrt S * sqrt S = S) by (apply sqrt_sqrt; lra).
  assert (Q1 : (1 - 2 * e31) * sqrt S <= sqrt (dval s)). { rewrite <- (sqrt_square ((1 - 2 * e31) * sqrt S)) by (apply Rmult_le_pos; rewrite ?E9; lra). apply sqrt_le_1_alt. apply Rle_trans with (2 := L1).
    replace ((1 - 2 * e31) * sqrt S * ((1 - 2 * e31) * sqrt S)) with ((1 - 2 * e31) * ((1 - 2 * e31) * (sqrt S * sqrt S))) by ring. rewrite Sq. rewrite E9. lra. }
  assert (Q2 : sqrt (dval s) <= (1 + 2 * e31) * sqrt S). { rewrite <- (sqrt_square ((1 + 2 * e31) * sqrt S)) by (apply Rmult_le_pos; rewrite ?E9; lra). apply sqrt_le_1_alt. apply Rle_trans with (1 := L2).
    replace ((1 + 2 * e31) * sqrt S * ((1 + 2 * e31) * sqrt S)) with ((1 + 2 * e31) * ((1 + 2 * e31) * (sqrt S * sqrt S))) by ring. rewrite Sq. rewrite E9. lra. }
  split; [|exact R1]. rewrite V. pose proof (rnd_err_abs (sqrt (dval s))) as E. rewrite (Rabs_pos_eq (sqrt _)) in E by apply sqrt_pos. apply Rabs_le_inv in E. pose proof tiny_u as TU. pose proof u_pos as Pu.
  assert (u * u <= u * / 10000) by (apply Rmult_le_compat_l; [lra|rewrite u_val; lra]). rewrite E9 in *. rewrite u_val in *. split; lra.
Qed.
Lemma sum_upper (g : double * double -> R) (m : list (double * double)) : (forall p, In p m -> 0 <= g p <= 4) -> rsum (map g m) <= 4 * INR (length m).
Proof. intros K. induction m as [|p m IH]; cbn [map rsum fold_right length]; [cbn; lra|]. rewrite S_INR. pose proof (K p (or_introl eq_refl)). specialize (IH (fun q Hq => K q (or_intror Hq))). unfold rsum in IH. lra. Qed.
Lemma ratio_bounded : let r := ddiv (dot l) (dmul (dsqrt (dot lx)) (dsqrt (dot ly))) in fin r /\ Rabs (dval r) <= 1 + / 2 ^ 20 /\
  dval (dmul (dsqrt (dot lx)) (dsqrt (dot ly))) <> 0.
Proof.
  intros r. unfold small_pairs in H. pose proof H as H'. rewrite Forall_forall in H'.
  destruct (square_ok fst (fun p Hp => proj1 (H' p Hp)) Nx) as (F1 & B1 & A1). destruct (square_ok snd (fun p Hp => proj2 (H' p Hp)) Ny) as (F2 & B2 & A2). fold lx A in F1, B1, A1. fold ly B in F2, B2, A2.
  assert (NB : INR (length l) <= 1000000) by (rewrite INR_IZR_INZ; apply IZR_le, Hn).
  assert (UA : A <= 10000000). { apply Rle_trans with (4 * INR (length l)); [|lra]. apply sum_upper. intros p Hp. destruct (H' p Hp) as [[_ K] _]. apply Rabs_le_inv in K. split; [apply Rle_0_sqr|nra]. }
  assert (UB : B <= 10000000). { apply Rle_trans with (4 * INR (length l)); [|lra]. apply sum_upper. intros p Hp. destruct (H' p Hp) as [_ [_ K]]. apply Rabs_le_inv in K. split; [apply Rle_0_sqr|nra]. }
  destruct (root_low _ A F1 (proj1 B1) (proj2 B1) (conj A1 UA)) as (Fa & Ra & Sa). destruct (root_low _ B F2 (proj1 B2) (proj2 B2) (conj A2 UB)) as (Fb & Rb & Sb).
  set (a := dsqrt (dot lx)) in *. set (b := dsqrt (dot ly)) in *. assert (ED : sqrt (A * B) = sqrt A * sqrt B) by (apply sqrt_mult; lra).
  pose proof abs_cs as CS. rewrite ED in CS. set (D := sqrt A * sqrt B) in *. assert (BD : / 100000000 <= D <= 100000000) by (unfold D; replace (/ 100000000) with (/ 10000 * / 10000) by lra; replace 100000000 with (10000 * 10000) by lra; split; apply Rmult_le_compat; lra).
  assert (E9 : e31 = / 2147483648) by reflexivity. pose proof u_pos as Pu. pose proof tiny_u as TU.
  assert (P1 : (1 - 7 * e31) * D <= dval a * dval b <= 4 * D).
  { split; [|unfold D; replace (4 * (sqrt A * sqrt B)) with (2 * sqrt A * (2 * sqrt B)) by ring; apply Rmult_le_compat; rewrite ?E9 in *; lra]. apply Rle_trans with (((1 - 3 * e31) * sqrt A) * ((1 - 3 * e31) * sqrt B)).
    - replace ((1 - 3 * e31) * sqrt A * ((1 - 3 * e31) * sqrt B)) with ((1 - 3 * e31) * ((1 - 3 * e31) * D)) by (unfold D; ring). rewrite E9. lra.
    - apply Rmult_le_compat; try (apply Rmult_le_pos; rewrite ?E9; lra); lra. }
  assert (P1' : Rabs (dval a * dval b) = dval a * dval b) by (apply Rabs_pos_eq; rewrite E9 in P1; lra).
  destruct (dmul_ok a b Fa Fb) as [Vp Fp]; [apply small_bpow with 50%Z; [lia|]; rewrite P1'; change (bpow radix2 50) with 1125899906842624; lra|].
  pose proof (rnd_err_abs (dval a * dval b)) as E1. rewrite P1', <- Vp in E1. set (p := dmul a b) in *. assert (TT : u * u <= u * / 100000000) by (apply Rmult_le_compat_l; [lra|rewrite u_val; lra]).
  assert (P2 : (1 - 8 * e31) * D <= dval p). { apply Rabs_le_inv in E1. rewrite E9 in *. rewrite u_val in *. lra. }
  assert (Pp : 0 < dval p) by (rewrite E9 in P2; lra).
  destruct (dot_rel l H Hn) as (Fs & Es & _).
  assert (PY : Rabs (prodR l) <= absR l). { unfold prodR, absR. clear. induction l as [|q m IH]; cbn; [rewrite Rabs_R0; lra|]. apply Rle_trans with (1 := Rabs_triang _ _). unfold rsum in IH. lra. }
  assert (T9 : T900 <= e31 * / 100000000). { unfold T900, e31. apply Rle_trans with (bpow radix2 (-31) * bpow radix2 (-30)); [rewrite <- bpow_plus; apply bpow_le; lia|]. apply Rmult_le_compat_l; [apply bpow_ge_0|]. change (bpow radix2 (-30)) with (/ 1073741824). lra. }
  assert (Bs : Rabs (dval (dot l)) <= (1 + 2 * e31) * D). { replace (dval (dot l)) with ((dval (dot l) - prodR l) + prodR l) by ring. apply Rle_trans with (1 := Rabs_triang _ _). rewrite E9 in *. lra. }
  assert (Q : Rabs (dval (dot l) / dval p) <= 1 + 20 * e31).
  { unfold Rdiv. rewrite Rabs_mult, (Rabs_pos_eq (/ _)) by (apply Rlt_le, Rinv_0_lt_compat, Pp). apply Rmult_le_reg_r with (dval p); [exact Pp|]. rewrite Rmult_assoc, Rinv_l, Rmult_1_r by lra. rewrite E9 in *. lra. }
  destruct (ddiv_ok (dot l) p Fs) as [V F]; [lra|apply small_bpow with 1%Z; [lia|change (bpow radix2 1) with 2; rewrite E9 in Q; lra]|]. fold r in V, F. split; [exact F|]. split; [|lra]. rewrite V.
  pose proof (rnd_err_abs (dval (dot l) / dval p)) as E2. set (q := dval (dot l) / dval p) in *. replace (rnd q) with ((rnd q - q) + q) by ring. apply Rle_trans with (1 := Rabs_triang _ _).
  assert (u * Rabs q <= 2 * u) by (rewrite E9 in Q; nra). replace (2 ^ 20) with 1048576 by (simpl; lra). rewrite E9 in *. rewrite u_val in *. lra.
Qed.
End CS.

(* ---- Fisher's transformation of a number in [-1, 1] ---- *)
Definition top : double := dconst 9007199254740991 (-53).
Lemma top_val : fin top /\ dval top = 1 - u.
Proof.
  assert (Bq : F2R (Float radix2 9007199254740991 (-53)) = 1 - u). { rewrite u_val. unfold F2R. cbn [Fnum Fexp]. change (bpow radix2 (-53)) with (/ 9007199254740992). lra. }
  destruct (dconst_ok 9007199254740991 (-53)) as [V F]; [rewrite Bq; apply (small_bpow _ 0); [lia|]; change (bpow radix2 0) with 1; rewrite u_val, Rabs_pos_eq; lra|]. split; [exact F|]. unfold top. rewrite V, rnd_id; [exact Bq|apply F64_F2R; lia].
Qed.
Lemma near_minus : dadd (dneg d1) (dconst 8112963841460668 (-106)) = dneg top.
Proof. apply B2SF_inj. vm_compute. reflexivity. Qed.
Lemma near_plus : dsub d1 (dconst 8112963841460668 (-106)) = top.
Proof. apply B2SF_inj. vm_compute. reflexivity. Qed.
Lemma near_one r : fin r -> Rabs (dval r) <= 1 -> 1 - u < dval r -> is_near r d1 = true.
Proof.
  intros F B H. destruct d1_val as [V1 F1]. apply Rabs_le_inv in B. apply is_near_val; [exact F|exact F1|apply Rabs_le; lra|rewrite V1, Rabs_R1; lra|]. rewrite V1.
  assert (W : - bpow radix2 (-20) <= rnd (dval r - 1) <= bpow radix2 (-20)). { apply rnd_between; [apply F64_opp, F64_bpow; lia|apply F64_bpow; lia|]. change (bpow radix2 (-20)) with (/ 1048576). rewrite u_val in H. lra. }
  change (bpow radix2 (-20)) with (/ 1048576) in W. replace (2 ^ 20) with 1048576 by (simpl; lra). apply Rabs_le. lra.
Qed.
Lemma near_mone r : fin r -> Rabs (dval r) <= 1 -> dval r < - (1 - u) -> is_near r (dneg d1) = true.
Proof.
  intros F B H. destruct d1_val as [V1 F1]. pose proof (dneg_fin _ F1) as Fm. pose proof (dneg_val d1) as Vm. rewrite V1 in Vm. apply Rabs_le_inv in B. apply is_near_val; [exact F|exact Fm|apply Rabs_le; lra|rewrite Vm, Rabs_Ropp, Rabs_R1; lra|]. rewrite Vm.
  assert (W : - bpow radix2 (-20) <= rnd (dval r - - (1)) <= bpow radix2 (-20)). { apply rnd_between; [apply F64_opp, F64_bpow; lia|apply F64_bpow; lia|]. change (bpow radix2 (-20)) with (/ 1048576). rewrite u_val in H. lra. }
  change (bpow radix2 (-20)) with (/ 1048576) in W. replace (2 ^ 20) with 1048576 by (simpl; lra). apply Rabs_le. lra.
Qed.
Lemma ln_2_le : ln 2 <= 1. Proof. pose proof (ln_le_sub 2 ltac:(lra)). lra. Qed.
Lemma artanh_bound x : Rabs x <= 1 - u -> Rabs (artanh x) <= 27.
Proof.
  intros H. apply Rabs_le_inv in H. unfold artanh. pose proof ln_2_le as L2. pose proof u_pos as Pu.
  assert (K : forall q, 0 < q -> q <= 2 ^ 54 -> ln q <= 54). { intros q P Q. apply Rle_trans with (ln (2 ^ 54)); [destruct (Rle_lt_or_eq_dec _ _ Q) as [C|C]; [left; apply ln_increasing; assumption|rewrite C; lra]|]. rewrite ln_pow by lra. replace (INR 54) with 54 by (cbn; lra). lra. }
  assert (P1 : forall x, - (1 - u) <= x <= 1 - u -> ln ((1 + x) / (1 - x)) <= 54).
  { clear -K Pu. intros x H. apply K; [apply Rdiv_lt_0_compat; lra|]. apply Rmult_le_reg_r with (1 - x); [lra|]. unfold Rdiv. rewrite Rmult_assoc, Rinv_l by lra. replace (2 ^ 54) with 18014398509481984 by (simpl; lra). rewrite u_val in H. lra. }
  pose proof (P1 x H) as A. pose proof (P1 (- x) ltac:(lra)) as B. rewrite ln_div in A by lra. rewrite ln_div in B by lra. rewrite ln_div by lra. replace (1 + - x) with (1 - x) in B by ring. replace (1 - - x) with (1 + x) in B by ring. apply Rabs_le. lra.
Qed.
Lemma fisher_ok atanh r : good_atanh atanh -> fin r -> Rabs (dval r) <= 1 -> let m := fishers_transformation_safe atanh r in fin m /\ Rabs (dval m) <= 28.
Proof.
  intros G F B. destruct top_val as [Ft Vt]. pose proof u_pos as Pu.
  assert (K : forall x, fin x -> Rabs (dval x) <= 1 - u -> fin (atanh x) /\ Rabs (dval (atanh x)) <= 28).
  { intros x Fx Bx. destruct (G x Fx Bx) as [Fa Ea]. split; [exact Fa|]. pose proof (artanh_bound _ Bx) as A. replace (dval (atanh x)) with ((dval (atanh x) - artanh (dval x)) + artanh (dval x)) by ring. apply Rle_trans with (1 := Rabs_triang _ _).
    change (bpow radix2 (-46)) with (/ 70368744177664) in Ea. lra. }
  unfold fishers_transformation_safe. cbv zeta. rewrite near_minus, near_plus.
  destruct (is_near r (dneg d1)) eqn:E1; [apply K; [apply dneg_fin, Ft|rewrite dneg_val, Rabs_Ropp, Vt, Rabs_pos_eq by (rewrite u_val; lra); lra]|].
  destruct (is_near r d1) eqn:E2; [apply K; [exact Ft|rewrite Vt, Rabs_pos_eq by (rewrite u_val; lra); lra]|].
  apply K; [exact F|]. apply Rabs_le. split.
  - apply Rnot_lt_le. intros C. rewrite near_mone in E1 by assumption. discriminate.
  - apply Rnot_lt_le. intros C. rewrite near_one in E2 by assumption. discriminate.
Qed.
Lemma clamp1_abs r : Rabs (clamp1 r) <= 1.
Proof. unfold clamp1. apply Rabs_le. split; [apply Rmax_l|apply Rmax_lub; [lra|apply Rmin_l]]. Qed.

(* ---- the statistic ---- *)
Definition x_devs (xs : list double) (n : nat) := deviations xs (mean_of xs n).
Lemma prods_fst xs ys : length xs = length ys -> map (fun p : double * double => (fst p, fst p)) (combine (x_devs xs (length xs)) (x_devs ys (length xs))) = combine (x_devs xs (length xs)) (x_devs xs (length xs)).
Proof.
  intros L. assert (E : length (x_devs xs (length xs)) = length (x_devs ys (length xs))) by (unfold x_devs, deviations; rewrite !map_length; exact L). revert E. generalize (x_devs xs (length xs)) (x_devs ys (length xs)).
  induction l as [|a l IH]; intros [|b l'] E; cbn in *; try discriminate; [reflexivity|]. f_equal. apply IH. lia.
Qed.
Lemma prods_snd xs ys : length xs = length ys -> map (fun p : double * double => (snd p, snd p)) (combine (x_devs xs (length xs)) (x_devs ys (length xs))) = combine (x_devs ys (length xs)) (x_devs ys (length xs)).
Proof.
  intros L. assert (E : length (x_devs xs (length xs)) = length (x_devs ys (length xs))) by (unfold x_devs, deviations; rewrite !map_length; exact L). revert E. generalize (x_devs xs (length xs)) (x_devs ys (length xs)).
  induction l as [|a l IH]; intros [|b l'] E; cbn in *; try discriminate; [reflexivity|]. f_equal. apply IH. lia.
Qed.
Definition sxx xs n := dot (combine (x_devs xs n) (x_devs xs n)).
Definition sxy xs ys n := dot (combine (x_devs xs n) (x_devs ys n)).
Definition zscore atanh (n : nat) adj r := dmul (fishers_transformation_safe atanh r) (dsqrt (ddiv (double_of_N (N.of_nat n - 3)) adj)).
Lemma pearson_form atanh erfc xs ys adj : length xs = length ys -> (3 <= length xs)%nat -> let n := length xs in
  pearson_correlation_stats atanh erfc xs ys adj = Ok (Some (
    if is_near (sxx xs n) d0 || is_near (sxx ys n) d0 then mkstat Z_score d0 d1 (double_of_N (N.of_nat n))
    else let z := zscore atanh n adj (adjust_correlation (ddiv (sxy xs ys n) (dmul (dsqrt (sxx xs n)) (dsqrt (sxx ys n))))) in mkstat Z_score z (normal_two_tailed_cdf erfc z) (double_of_N (N.of_nat n)))).
Proof.
  intros L H n. unfold pearson_correlation_stats, pearson_r. fold n. replace (n <? 3)%nat with false by (symmetry; apply Nat.ltb_ge, H). replace (length ys <? n)%nat with false by (symmetry; apply Nat.ltb_ge; unfold n; lia).
  replace (firstn n ys) with ys by (unfold n; rewrite L; symmetry; apply firstn_all). unfold sxx, sxy, zscore, x_devs. fold n.
  destruct (is_near _ d0 || is_near _ d0); reflexivity.
Qed.
Section Dat.
Variables xs ys : list double.
Hypotheses (Hx : unit_data xs) (Hy : unit_data ys) (L : length xs = length ys) (Hn : good_size (length xs)).
Let n := length xs.
Lemma small_devs : small_pairs (combine (x_devs xs n) (x_devs ys n)).
Proof.
  apply Forall_forall. intros [a b] Hp. cbn [fst snd]. pose proof (in_combine_l _ _ _ _ Hp) as Ia. pose proof (in_combine_r _ _ _ _ Hp) as Ib. unfold x_devs, deviations in Ia, Ib.
  apply in_map_iff in Ia as (x & <- & Ix). apply in_map_iff in Ib as (y & <- & Iy). unfold n in *. destruct (dev_ok xs x Hx Hn Ix) as (Fa & _ & _ & Ba). 
  assert (Hn' : good_size (length ys)) by (rewrite <- L; exact Hn). destruct (dev_ok ys y Hy Hn' Iy) as (Fb & _ & _ & Bb). rewrite <- L in Fb, Bb. repeat split; assumption.
Qed.
Lemma r_bounded : is_near (sxx xs n) d0 = false -> is_near (sxx ys n) d0 = false -> let r := adjust_correlation (ddiv (sxy xs ys n) (dmul (dsqrt (sxx xs n)) (dsqrt (sxx ys n)))) in fin r /\ Rabs (dval r) <= 1.
Proof.
  intros N1 N2. pose proof (ratio_bounded _ small_devs) as R. unfold n in *. rewrite prods_fst, prods_snd in R by exact L. 
  destruct R as (F & B & _); [rewrite combine_length; unfold x_devs, deviations; rewrite !map_length; destruct Hn; lia|exact N1|exact N2|].
  destruct (adjust_val _ F B) as [F' V]. split; [exact F'|]. cbv zeta. unfold sxy, sxx. rewrite V. apply clamp1_abs.
Qed.
Lemma pearson_valid atanh erfc adj : good_atanh atanh -> erfc_bounded erfc -> fin adj -> 1 <= dval adj <= 2 ->
  exists s, pearson_correlation_stats atanh erfc xs ys adj = Ok (Some s) /\ st_type s = Z_score /\ fin (st_value s) /\ Rabs (dval (st_value s)) <= 56000 /\ valid01 (st_p s).
Proof.
  intros G HE Fa Ba. rewrite pearson_form by (exact L || apply Hn). eexists. split; [reflexivity|]. fold n. destruct (is_near (sxx xs n) d0) eqn:N1; [|destruct (is_near (sxx ys n) d0) eqn:N2]; cbn [orb st_type st_value st_p].
  1,2: destruct d0_val as [V0 F0]; destruct d1_val as [V1 F1]; split; [reflexivity|]; split; [exact F0|]; split; [rewrite V0, Rabs_R0; lra|]; split; [exact F1|rewrite V1; lra].
  destruct (r_bounded N1 N2) as [Fr Br]. set (r := adjust_correlation _) in *. destruct (fisher_ok atanh r G Fr Br) as [Fm Bm]. 
  destruct (scale_ok (N.of_nat n - 3) adj) as (Ff & _ & Bf & _); [destruct Hn; unfold n; lia|exact Fa|exact Ba|]. split; [reflexivity|]. unfold zscore. set (m := fishers_transformation_safe atanh r) in *. set (f := dsqrt (ddiv (double_of_N (N.of_nat n - 3)) adj)) in *.
  assert (Bz : Rabs (dval m * dval f) <= 56000). { rewrite Rabs_mult, (Rabs_pos_eq (dval f)) by lra. replace 56000 with (28 * 2000) by lra. apply Rmult_le_compat; try apply Rabs_pos; lra. }
  destruct (dmul_ok m f Fm Ff) as [V F]; [apply small_bpow with 16%Z; [lia|change (bpow radix2 16) with 65536; lra]|]. split; [exact F|]. split.
  - rewrite V. apply Rabs_le_inv in Bz. apply Rabs_le, rnd_between; [apply F64_opp; apply (F64_Z 56000); lia|apply (F64_Z 56000); lia|exact Bz].
  - destruct (two_tailed_val erfc _ HE F) as (a & _ & _ & _ & Fp & _ & Bp). split; assumption.
Qed.
Lemma sxx_ok : crossR (map dval xs) (map dval xs) >= INR n / 32 -> is_near (sxx xs n) d0 = false.
Proof.
  intros H. destruct (cross_ok xs xs Hx Hx eq_refl Hn) as [F E]. change (dot (prods xs xs)) with (sxx xs (length xs)) in F, E. fold n in F, E.
  pose proof (size_R _ Hn) as Bn. fold n in Bn. apply is_near_0_false; [exact F|]. pose proof near_eps_range. apply Rabs_le_inv in E.
  assert (14 * INR n * INR n * u <= / 100 * INR n) by (rewrite u_val; nra). rewrite Rabs_pos_eq; lra.
Qed.
End Dat.
Lemma pearson_accurate atanh erfc xs ys adj : good_atanh atanh -> erfc_bounded erfc -> unit_data xs -> unit_data ys -> length xs = length ys -> good_size (length xs) -> fin adj -> 1 <= dval adj <= 2 ->
  let X := map dval xs in let Y := map dval ys in let n := INR (length xs) in
  n / 32 <= crossR X X -> n / 32 <= crossR Y Y -> Rabs (pearson X Y) <= / 2 ->
  exists s, pearson_correlation_stats atanh erfc xs ys adj = Ok (Some s) /\ st_type s = Z_score /\ fin (st_value s) /\
    Rabs (dval (st_value s) - artanh (pearson X Y) * sqrt ((n - 3) / dval adj)) <= 32 * rho n * sqrt ((n - 3) / dval adj) /\ st_p s = normal_two_tailed_cdf erfc (st_value s).
Proof.
  intros G HE Hx Hy L Hn Fa Ba X Y n Vx Vy BR. pose proof (size_R _ Hn) as Bn. fold n in Bn. assert (Hn' : good_size (length ys)) by (rewrite <- L; exact Hn).
  rewrite pearson_form by (exact L || apply Hn). eexists. split; [reflexivity|].
  rewrite (sxx_ok xs Hx Hn) by (apply Rle_ge; exact Vx). pose proof (sxx_ok ys Hy Hn') as Ny. rewrite <- L in Ny. rewrite Ny by (apply Rle_ge; exact Vy). cbn [orb st_type st_value st_p].
  destruct (cross_ok xs xs Hx Hx eq_refl Hn) as [F1 E1]. destruct (cross_ok ys ys Hy Hy eq_refl Hn') as [F2 E2]. destruct (cross_ok xs ys Hx Hy L Hn) as [F3 E3]. rewrite <- L in E2.
  assert (P2 : dot (prods ys ys) = sxx ys (length xs)) by (unfold prods, sxx, x_devs; rewrite <- L; reflexivity). rewrite P2 in F2, E2.
  change (dot (prods xs xs)) with (sxx xs (length xs)) in F1, E1. change (dot (prods xs ys)) with (sxy xs ys (length xs)) in F3, E3. fold X n in E1. fold Y n in E2. fold X Y n in E3.
  pose proof (cross_le_n xs Hx Hn) as U1. pose proof (cross_le_n ys Hy Hn') as U2. fold X n in U1. rewrite <- L in U2. fold Y n in U2. pose proof (cross_abs xs ys L) as CA. fold X Y in CA.
  assert (Up : 14 * n * n * u <= 16 * n * n * u) by (rewrite u_val; nra).
  destruct (r_ok n (sxx xs (length xs)) (sxx ys (length xs)) (sxy xs ys (length xs)) _ _ _ Bn F1 F2 F3 (Rle_trans _ _ _ E1 Up) (Rle_trans _ _ _ E2 Up) (Rle_trans _ _ _ E3 Up) (conj Vx U1) (conj Vy U2) CA) as [Fr Er]. unfold raw_r in Fr, Er. fold (pearson X Y) in Er.
  assert (Ek : IZR (Z.of_N (N.of_nat (length xs) - 3)) = n - 3). { unfold n. rewrite INR_IZR_INZ, <- minus_IZR. f_equal. destruct Hn. lia. }
  destruct (z_accurate atanh adj (N.of_nat (length xs) - 3) _ (pearson X Y) n G ltac:(destruct Hn; lia) Fa Ba Bn Fr Er BR) as [Fz Ez]. rewrite Ek in Ez.
  split; [reflexivity|]. split; [exact Fz|]. split; [exact Ez|]. reflexivity.
Qed.

(* ---- symmetry ---- *)
Lemma dot_comm l l' : dot (combine l l') = dot (combine l' l).
Proof. unfold dot. generalize d0. revert l'. induction l as [|a l IH]; intros [|b l'] z; cbn; try reflexivity. rewrite (dmul_comm b a). apply IH. Qed.
Lemma pearson_symmetric atanh erfc xs ys adj : length xs = length ys -> pearson_correlation_stats atanh erfc ys xs adj = pearson_correlation_stats atanh erfc xs ys adj.
Proof.
  intros L. destruct (Nat.lt_ge_cases (length xs) 3) as [H|H].
  - unfold pearson_correlation_stats. replace (length xs <? 3)%nat with true by (symmetry; apply Nat.ltb_lt, H). replace (length ys <? 3)%nat with true by (symmetry; apply Nat.ltb_lt; lia). reflexivity.
  - rewrite !pearson_form by (congruence || lia). rewrite <- L. rewrite orb_comm, (dmul_comm (dsqrt (sxx ys _))). unfold sxy. rewrite dot_comm. reflexivity.
Qed.

(* ---- constant data ---- *)
Lemma mean_equal xs x : all_equal xs -> In x xs -> meanR (map dval xs) = dval x.
Proof.
  intros H I. assert (E : forall l, (forall a, In a l -> dval a = dval x) -> rsum (map dval l) = INR (length l) * dval x).
  { induction l as [|a l IH]; intros K; cbn [map rsum fold_right length]; [cbn; ring|]. rewrite S_INR, (K a) by (left; reflexivity). unfold rsum in IH. rewrite IH by (intros b Hb; apply K; right; exact Hb). ring. }
  unfold meanR. rewrite map_length, E by (intros a Ha; apply H; assumption). field. destruct xs; [destruct I|]. apply not_0_INR. discriminate.
Qed.
Lemma constant_near xs : unit_data xs -> good_size (length xs) -> all_equal xs -> is_near (sxx xs (length xs)) d0 = true.
Proof.
  intros Hx Hn H. pose proof (size_R _ Hn) as Bn. pose proof u_pos as Pu.
  assert (D : forall d, In d (x_devs xs (length xs)) -> Rabs (dval d) <= / 1000000000).
  { intros d Hd. unfold x_devs, deviations in Hd. apply in_map_iff in Hd as (x & <- & Ix). destruct (dev_ok xs x Hx Hn Ix) as (_ & E & _ & _). rewrite (mean_equal xs x H Ix), (Rminus_diag_eq (dval x)), Rminus_0_r in E by reflexivity.
    apply Rle_trans with (1 := E). rewrite u_val. lra. }
  pose proof (small_devs xs xs Hx Hx eq_refl Hn) as Sm. destruct (dot_rel _ Sm) as (F & _ & B); [rewrite combine_length; unfold x_devs, deviations; rewrite !map_length; destruct Hn; lia|].
  unfold sxx. apply is_near_0; [exact F|]. apply Rle_trans with (1 := B). pose proof near_eps_low as NE.
  assert (A : absR (combine (x_devs xs (length xs)) (x_devs xs (length xs))) <= / 1000000000000000 * INR (length xs)).
  { unfold absR. replace (length xs) with (length (combine (x_devs xs (length xs)) (x_devs xs (length xs)))) at 3 by (rewrite combine_length; unfold x_devs, deviations; rewrite !map_length; lia).
    assert (K : forall p, In p (combine (x_devs xs (length xs)) (x_devs xs (length xs))) -> Rabs (dval (fst p) * dval (snd p)) <= / 1000000000000000).
    { intros [a b] Hp. cbn [fst snd]. pose proof (D a (in_combine_l _ _ _ _ Hp)). pose proof (D b (in_combine_r _ _ _ _ Hp)). rewrite Rabs_mult. pose proof (Rabs_pos (dval a)). pose proof (Rabs_pos (dval b)).
      apply Rle_trans with (/ 1000000000 * / 1000000000); [apply Rmult_le_compat; assumption|lra]. }
    revert K. generalize (combine (x_devs xs (length xs)) (x_devs xs (length xs))). clear. induction l as [|p l IH]; intros K; cbn [map rsum fold_right length]; [cbn; lra|]. rewrite S_INR. pose proof (K p (or_introl eq_refl)). specialize (IH (fun q Hq => K q (or_intror Hq))). unfold rsum in IH. lra. }
  assert (T900 <= / 100000000). { unfold T900. apply Rle_trans with (bpow radix2 (-30)); [apply bpow_le; lia|]. change (bpow radix2 (-30)) with (/ 1073741824). lra. }
  lra.
Qed.

(* ---- identical data ---- *)
Lemma self_ratio s : fin s -> / 2000000 <= dval s <= 100000000 -> let r := ddiv s (dmul (dsqrt s) (dsqrt s)) in fin r /\ Rabs (dval r - 1) <= 10 * u.
Proof.
  intros F B r. pose proof u_pos as Pu. pose proof tiny_u as TU. destruct (dsqrt_ok s F ltac:(lra)) as [Fq Vq]. set (q := sqrt (dval s)) in *. assert (Q2 : q * q = dval s) by (apply sqrt_sqrt; lra).
  assert (Bq : / 10000 <= q <= 10000). { unfold q. split; [rewrite <- (sqrt_square (/ 10000)) by lra; apply sqrt_le_1_alt; lra|rewrite <- (sqrt_square 10000) by lra; apply sqrt_le_1_alt; lra]. }
  assert (TT : u * u <= u * (/ 1000 * / 1000 * / 1000)) by (apply Rmult_le_compat_l; [lra|rewrite u_val; lra]).
  pose proof (rnd_err_abs q) as E1. rewrite (Rabs_pos_eq q), <- Vq in E1 by lra. set (t := dval (dsqrt s)) in *. apply Rabs_le_inv in E1.
  assert (Bt : (1 - 2 * u) * q <= t <= (1 + 2 * u) * q) by (rewrite u_val in *; lra).
  assert (Pt : (1 - 4 * u) * dval s <= t * t <= (1 + 5 * u) * dval s).
  { rewrite <- Q2. assert (0 < (1 - 2 * u) * q) by (rewrite u_val; lra). assert (M1 : ((1 - 2 * u) * q) * ((1 - 2 * u) * q) <= t * t) by (apply Rmult_le_compat; lra). assert (M2 : t * t <= ((1 + 2 * u) * q) * ((1 + 2 * u) * q)) by (apply Rmult_le_compat; lra).
    assert (0 < q * q) by lra. split.
    - apply Rle_trans with (2 := M1). replace ((1 - 2 * u) * q * ((1 - 2 * u) * q)) with ((1 - 2 * u) * ((1 - 2 * u) * (q * q))) by ring. rewrite u_val. lra.
    - apply Rle_trans with (1 := M2). replace ((1 + 2 * u) * q * ((1 + 2 * u) * q)) with ((1 + 2 * u) * ((1 + 2 * u) * (q * q))) by ring. rewrite u_val. lra. }
  assert (P0 : 0 < t * t) by (rewrite u_val in Pt; lra).
  destruct (dmul_ok (dsqrt s) (dsqrt s) Fq Fq) as [Vp Fp]; [fold t; apply small_bpow with 40%Z; [lia|]; rewrite Rabs_pos_eq by lra; change (bpow radix2 40) with 1099511627776; rewrite u_val in Pt; lra|]. fold t in Vp.
  pose proof (rnd_err_abs (t * t)) as E2. rewrite (Rabs_pos_eq (t * t)), <- Vp in E2 by lra. set (p := dmul (dsqrt s) (dsqrt s)) in *. apply Rabs_le_inv in E2.
  assert (Bp : (1 - 6 * u) * dval s <= dval p <= (1 + 7 * u) * dval s) by (rewrite u_val in *; lra). assert (Pp : 0 < dval p) by (rewrite u_val in Bp; lra).
  assert (BQ : 1 - 8 * u <= dval s / dval p <= 1 + 8 * u). { split; apply Rmult_le_reg_r with (dval p); try exact Pp; unfold Rdiv; rewrite Rmult_assoc, Rinv_l, Rmult_1_r by lra; rewrite u_val in *; lra. }
  destruct (ddiv_ok s p F) as [V Fr]; [lra|apply small_bpow with 1%Z; [lia|]; rewrite Rabs_pos_eq by (rewrite u_val in BQ; lra); change (bpow radix2 1) with 2; rewrite u_val in BQ; lra|]. fold r in V, Fr. split; [exact Fr|]. rewrite V.
  pose proof (rnd_err_abs (dval s / dval p)) as E3. set (x := dval s / dval p) in *. rewrite (Rabs_pos_eq x) in E3 by (rewrite u_val in BQ; lra). apply Rabs_le_inv in E3. apply Rabs_le. rewrite u_val in *. lra.
Qed.
Lemma fisher_one atanh r : fin r -> 1 - / 1000000000 <= dval r <= 1 -> fishers_transformation_safe atanh r = atanh top.
Proof.
  intros F B. destruct d1_val as [V1 F1]. pose proof (dneg_fin _ F1) as Fm. pose proof (dneg_val d1) as Vm. rewrite V1 in Vm. unfold fishers_transformation_safe. cbv zeta. rewrite near_minus, near_plus.
  rewrite (is_near_far2 r (dneg d1)); [|assumption|assumption|apply Rabs_le; lra|rewrite Vm, Rabs_Ropp, Rabs_R1; lra|rewrite Vm, Rabs_pos_eq; lra].
  rewrite is_near_val; [reflexivity|exact F|exact F1|apply Rabs_le; lra|rewrite V1, Rabs_R1; lra|]. rewrite V1.
  assert (W : - bpow radix2 (-20) <= rnd (dval r - 1) <= bpow radix2 (-20)). { apply rnd_between; [apply F64_opp, F64_bpow; lia|apply F64_bpow; lia|]. change (bpow radix2 (-20)) with (/ 1048576). lra. }
  change (bpow radix2 (-20)) with (/ 1048576) in W. replace (2 ^ 20) with 1048576 by (simpl; lra). apply Rabs_le. lra.
Qed.
Lemma identical_form atanh erfc xs adj : unit_data xs -> good_size (length xs) -> INR (length xs) / 32 <= crossR (map dval xs) (map dval xs) ->
  let z := dmul (atanh top) (dsqrt (ddiv (double_of_N (N.of_nat (length xs) - 3)) adj)) in
  pearson_correlation_stats atanh erfc xs xs adj = Ok (Some (mkstat Z_score z (normal_two_tailed_cdf erfc z) (double_of_N (N.of_nat (length xs))))).
Proof.
  intros Hx Hn V z. rewrite pearson_form by (reflexivity || apply Hn). rewrite (sxx_ok xs Hx Hn) by (apply Rle_ge, V). cbn [orb].
  pose proof (size_R _ Hn) as Bn. destruct (cross_ok xs xs Hx Hx eq_refl Hn) as [F E]. change (dot (prods xs xs)) with (sxx xs (length xs)) in F, E. change (sxy xs xs (length xs)) with (sxx xs (length xs)).
  pose proof (cross_le_n xs Hx Hn) as U. apply Rabs_le_inv in E. assert (14 * INR (length xs) * INR (length xs) * u <= / 100 * INR (length xs)) by (rewrite u_val; nra).
  destruct (self_ratio _ F ltac:(lra)) as [Fr Er]. apply Rabs_le_inv in Er. set (r := ddiv (sxx xs (length xs)) (dmul (dsqrt (sxx xs (length xs))) (dsqrt (sxx xs (length xs))))) in *. destruct (adjust_val r Fr) as [Fa Va]; [replace (2 ^ 20) with 1048576 by (simpl; lra); apply Rabs_le; rewrite u_val in Er; lra|].
  cbv zeta. unfold zscore. rewrite fisher_one; [reflexivity|exact Fa|]. rewrite Va. unfold clamp1. rewrite u_val in Er.
  destruct (Rle_or_lt (dval r) 1); [rewrite Rmin_right, Rmax_right by lra; lra|rewrite Rmin_left, Rmax_right by lra; lra].
Qed.
