(* Proofs about binomial_coefficient, z_test, runs_stats and get_median. *)
From Coq Require Import String Reals Lra.
From Flocq Require Import Core BinarySingleNaN Relative.
From Verif Require Import Base FloatModel FloatLemmas CollectModel CouponFloatProofs RescaleProofs ResultModel StatsModel StatsSpec.
Open Scope R_scope.

(* ---- Pascal's triangle ---- *)
Lemma choose_small n : forall k, (n < k)%nat -> choose n k = 0%N.
Proof. induction n as [|n IH]; intros [|k] H; try lia; [reflexivity|]. cbn [choose]. rewrite !IH by lia. reflexivity. Qed.
Lemma choose_diag n : choose n n = 1%N.
Proof. induction n as [|n IH]; [reflexivity|]. cbn [choose]. rewrite IH, choose_small by lia. reflexivity. Qed.
Lemma choose_0 n : choose n 0 = 1%N.
Proof. destruct n; reflexivity. Qed.
Lemma choose_absorb n : forall k, (N.of_nat (S k) * choose (S n) (S k) = N.of_nat (S n) * choose n k)%N.
Proof.
  induction n as [|n IH]; intros k.
  - destruct k; cbn [choose]; [reflexivity|]. destruct k; cbn [choose]; lia.
  - change (choose (S (S n)) (S k)) with (choose (S n) k + choose (S n) (S k))%N.
    destruct k as [|k].
    + rewrite N.mul_add_distr_l, IH, !choose_0. lia.
    + pose proof (IH (S k)) as A. pose proof (IH k) as B.
      change (choose (S n) (S k)) with (choose n k + choose n (S k))%N in *. nia.
Qed.
Lemma choose_pos n : forall k, (k <= n)%nat -> (1 <= choose n k)%N.
Proof. induction n as [|n IH]; intros [|k] H; try lia; cbn [choose]; try lia. specialize (IH k ltac:(lia)). lia. Qed.
Lemma choose_step_mono d k : (choose (d + k) k <= choose (d + S k) (S k))%N.
Proof. replace (d + S k)%nat with (S (d + k))%nat by lia. cbn [choose]. lia. Qed.
Lemma choose_mono d j k : (j <= k)%nat -> (choose (d + j) j <= choose (d + k) k)%N.
Proof. intro H. induction H as [|k H IH]; [lia|]. apply N.le_trans with (1 := IH). apply choose_step_mono. Qed.

Lemma filter_map_len {A B} (f : A -> B) (P : B -> bool) l : length (filter P (map f l)) = length (filter (fun a => P (f a)) l).
Proof. induction l as [|a l IH]; [reflexivity|]. cbn [map filter]. destruct (P (f a)); cbn [length]; rewrite IH; reflexivity. Qed.
Lemma choose_counts n : forall k, choose n k = N.of_nat (length (filter (fun s => Nat.eqb (count_occ Bool.bool_dec s true) k) (bit_words n))).
Proof.
  induction n as [|n IH]; intro k.
  - destruct k; reflexivity.
  - cbn [bit_words]. rewrite filter_app, app_length, !filter_map_len. rewrite Nat2N.inj_add.
    rewrite (filter_ext (fun a => Nat.eqb (count_occ Bool.bool_dec (false :: a) true) k) (fun s => Nat.eqb (count_occ Bool.bool_dec s true) k)) by (intro; rewrite count_occ_cons_neq by discriminate; reflexivity).
    rewrite <- IH. destruct k as [|k].
    + rewrite (filter_ext (fun a => Nat.eqb (count_occ Bool.bool_dec (true :: a) true) 0) (fun _ => false)) by (intro; rewrite count_occ_cons_eq by reflexivity; reflexivity).
      replace (filter (fun _ : list bool => false) (bit_words n)) with (@nil (list bool)) by (clear; induction (bit_words n) as [|x l IHl]; [reflexivity|exact IHl]). rewrite !choose_0. reflexivity.
    + rewrite (filter_ext (fun a => Nat.eqb (count_occ Bool.bool_dec (true :: a) true) (S k)) (fun s => Nat.eqb (count_occ Bool.bool_dec s true) k)) by (intro; rewrite count_occ_cons_eq by reflexivity; reflexivity).
      rewrite <- IH. cbn [choose]. apply N.add_comm.
Qed.

(* ---- the accumulated rounding error ---- *)
Notation u := (bpow radix2 (-53)).
Definition err (m : nat) : R := (1 + u) ^ m - 1.
Lemma u_val : u = / 9007199254740992. Proof. apply bpow_small_consts. Qed.
Lemma u_pos : 0 < u. Proof. apply bpow_gt_0. Qed.
Lemma err_add a b : err a + err b + err a * err b = err (a + b).
Proof. unfold err. rewrite pow_add. ring. Qed.
Lemma err_pos m : 0 <= err m.
Proof. unfold err. pose proof u_pos. pose proof (pow_R1_Rle (1 + u) m ltac:(lra)). lra. Qed.
Lemma err_mono a b : (a <= b)%nat -> err a <= err b.
Proof. intro H. unfold err. pose proof u_pos. pose proof (Rle_pow (1 + u) a b ltac:(lra) H). lra. Qed.
Lemma err_1 : err 1 = u. Proof. unfold err. ring. Qed.
Lemma err_bound m : INR m * u <= / 2 -> err m <= 2 * (INR m * u).
Proof.
  induction m as [|m IH]; intro H; [unfold err; simpl; lra|].
  rewrite S_INR in *. pose proof u_pos. pose proof (pos_INR m).
  assert (A : err m <= 2 * (INR m * u)) by (apply IH; nra).
  replace (S m) with (m + 1)%nat by lia. rewrite <- err_add, err_1. nra.
Qed.
Lemma approx_rnd m x y : bpow radix2 (-1000) <= x -> approx (err m) x y -> approx (err (S m)) (rnd x) y.
Proof.
  intros Hx H. replace (S m) with (m + 1)%nat by lia. rewrite <- err_add. apply approx_trans with x; [apply err_pos|exact H|].
  rewrite err_1. apply rnd_approx, Hx.
Qed.
Lemma tiny : bpow radix2 (-1000) <= / 4294967296.
Proof. change 4294967296 with (bpow radix2 32). rewrite <- bpow_opp. apply bpow_le. lia. Qed.
Lemma small_num x : 0 <= x <= bpow radix2 64 -> small x.
Proof. intros H. apply small_bpow with 64%Z; [lia|]. rewrite Rabs_pos_eq; lra. Qed.
Lemma two64 : 18446744073709551616 = bpow radix2 64. Proof. reflexivity. Qed.

Lemma factor_ok d i : (d < 2 ^ 32)%N -> (1 <= i < 2 ^ 32)%N ->
  let s := dadd (ddiv (double_of_N d) (double_of_N i)) d1 in
  fin s /\ 1 <= dval s <= 8589934592 /\ approx (err 2) (dval s) (IZR (Z.of_N d) / IZR (Z.of_N i) + 1).
Proof.
  intros Hd Hi s. destruct (double_of_N_exact d) as [Vd Fd]; [lia|]. destruct (double_of_N_exact i) as [Vi Fi]; [lia|].
  assert (Ri : 1 <= IZR (Z.of_N i) <= 4294967296) by (split; apply IZR_le; lia).
  assert (Rd : 0 <= IZR (Z.of_N d) <= 4294967295) by (split; apply IZR_le; lia).
  set (D := IZR (Z.of_N d)) in *. set (I := IZR (Z.of_N i)) in *.
  assert (Q : 0 <= D / I <= 4294967295).
  { split; [apply Rmult_le_pos; [lra|apply Rlt_le, Rinv_0_lt_compat; lra]|].
    apply Rmult_le_reg_r with I; [lra|]. unfold Rdiv. rewrite Rmult_assoc, Rinv_l by lra. nra. }
  destruct (ddiv_ok (double_of_N d) (double_of_N i)) as [Vq Fq]; [exact Fd|rewrite Vi; lra|rewrite Vd, Vi; apply small_num; rewrite <- two64; lra|].
  rewrite Vd, Vi in Vq.
  assert (A : approx (err 1) (dval (ddiv (double_of_N d) (double_of_N i))) (D / I)).
  { rewrite Vq. destruct (N.eq_dec d 0) as [E|E].
    - unfold D. rewrite E. replace (IZR (Z.of_N 0) / I) with 0 by (unfold Rdiv; simpl; ring). rewrite rnd_id by apply F64_0. unfold approx. rewrite Rminus_0_r, Rabs_R0. lra.
    - rewrite err_1. apply rnd_approx. apply Rle_trans with (1 := tiny). 
      assert (1 <= D) by (apply IZR_le; lia). apply Rmult_le_reg_r with I; [lra|]. unfold Rdiv. rewrite Rmult_assoc, Rinv_l by lra. lra. }
  assert (Bq : 0 <= dval (ddiv (double_of_N d) (double_of_N i)) <= 4294967295).
  { rewrite Vq. apply rnd_between; [apply F64_0|apply (F64_Z 4294967295); lia|exact Q]. }
  set (q := ddiv (double_of_N d) (double_of_N i)) in *.
  destruct d1_val as [V1 F1].
  destruct (dadd_ok q d1) as [Vs Fs]; [exact Fq|exact F1|rewrite V1; apply small_num; rewrite <- two64; lra|].
  fold s in Vs, Fs. rewrite V1 in Vs. split; [exact Fs|]. split.
  - rewrite Vs. apply rnd_between; [apply F64_1|apply (F64_Z 8589934592); lia|lra].
  - rewrite Vs. apply approx_rnd; [apply Rle_trans with (1 := tiny); lra|].
    unfold approx in *. replace (dval q + 1 - (D / I + 1)) with (dval q - D / I) by ring. apply Rle_trans with (1 := A).
    apply Rmult_le_compat_l; [apply err_pos|]. rewrite !Rabs_pos_eq by lra. lra.
Qed.

Lemma binomial_step c d i m C : (d < 2 ^ 32)%N -> (1 <= i < 2 ^ 32)%N -> fin c -> 1 <= C -> approx (err m) (dval c) C -> err (m + 3) <= 1 ->
  C * (IZR (Z.of_N d) / IZR (Z.of_N i) + 1) <= 9223372036854775808 ->
  let c' := dmul c (dadd (ddiv (double_of_N d) (double_of_N i)) d1) in
  fin c' /\ approx (err (m + 3)) (dval c') (C * (IZR (Z.of_N d) / IZR (Z.of_N i) + 1)).
Proof.
  intros Hd Hi Fc HC A He HB c'. destruct (factor_ok d i Hd Hi) as (Fs & Bs & As).
  set (s := dadd (ddiv (double_of_N d) (double_of_N i)) d1) in *. set (f := IZR (Z.of_N d) / IZR (Z.of_N i) + 1) in *.
  assert (AM : approx (err (m + 2)) (dval c * dval s) (C * f)).
  { rewrite <- err_add. apply approx_mult; [apply err_pos|apply err_pos|exact A|exact As]. }
  assert (Hf : 1 <= f). { unfold f. assert (0 <= IZR (Z.of_N d)) by (apply IZR_le; lia). assert (1 <= IZR (Z.of_N i)) by (apply IZR_le; lia).
    assert (0 <= IZR (Z.of_N d) / IZR (Z.of_N i)) by (apply Rmult_le_pos; [lra|apply Rlt_le, Rinv_0_lt_compat; lra]). lra. }
  assert (E2 : err (m + 2) + u <= 1). { replace (m + 3)%nat with ((m + 2) + 1)%nat in He by lia. rewrite <- err_add, err_1 in He. pose proof (err_pos (m + 2)). pose proof u_pos. nra. }
  assert (P : u <= dval c * dval s <= 18446744073709551616).
  { unfold approx in AM. rewrite (Rabs_pos_eq (C * f)) in AM by nra. apply Rabs_le_inv in AM.
    assert (err (m + 2) * (C * f) <= (1 - u) * (C * f)) by (apply Rmult_le_compat_r; [nra|lra]). assert (1 <= C * f) by nra. pose proof u_pos. split; nra. }
  destruct (dmul_ok c s) as [Vc' Fc']; [exact Fc|exact Fs|apply small_num; rewrite <- two64; pose proof u_pos; lra|].
  fold c' in Vc', Fc'. split; [exact Fc'|]. rewrite Vc'. replace (m + 3)%nat with (S (m + 2)) by lia. apply approx_rnd; [|exact AM].
  apply Rle_trans with (2 := proj1 P). apply bpow_le. lia.
Qed.

Lemma choose_real d i : IZR (Z.of_N (choose (N.to_nat d + S i) (S i))) = IZR (Z.of_N (choose (N.to_nat d + i) i)) * (IZR (Z.of_N d) / IZR (Z.of_N (N.of_nat (S i))) + 1).
Proof.
  pose proof (choose_absorb (N.to_nat d + i) i) as H. replace (S (N.to_nat d + i)) with (N.to_nat d + S i)%nat in H by lia.
  set (A := choose (N.to_nat d + S i) (S i)) in *. set (B := choose (N.to_nat d + i) i) in *.
  replace (N.of_nat (N.to_nat d + S i)) with (d + N.of_nat (S i))%N in H by lia.
  apply (f_equal Z.of_N) in H. rewrite !N2Z.inj_mul, N2Z.inj_add in H. apply (f_equal IZR) in H. rewrite !mult_IZR, plus_IZR in H.
  assert (1 <= IZR (Z.of_N (N.of_nat (S i)))) by (apply IZR_le; lia).
  apply Rmult_eq_reg_l with (IZR (Z.of_N (N.of_nat (S i)))); [|lra]. rewrite H. field. lra.
Qed.

Lemma binomial_loop_ok d k : (d < 2 ^ 32)%N -> (N.of_nat k < 2 ^ 32)%N -> (Z.of_N (choose (N.to_nat d + k) k) <= 9223372036854775808)%Z -> err (3 * k) <= 1 ->
  forall left j c, (j + left = k)%nat -> fin c -> approx (err (3 * j)) (dval c) (IZR (Z.of_N (choose (N.to_nat d + j) j))) ->
  let r := binomial_loop (double_of_N d) (N.of_nat j + 1) left c in fin r /\ approx (err (3 * k)) (dval r) (IZR (Z.of_N (choose (N.to_nat d + k) k))).
Proof.
  intros Hd Hk HB He. induction left as [|left IH]; intros j c Hj Fc A; cbn zeta; cbn [binomial_loop].
  - replace j with k in * by lia. split; assumption.
  - replace (N.of_nat j + 1)%N with (N.of_nat (S j)) by lia.
    destruct (binomial_step c d (N.of_nat (S j)) (3 * j) (IZR (Z.of_N (choose (N.to_nat d + j) j)))) as [F' A']; try assumption; try lia.
    + apply IZR_le. pose proof (choose_pos (N.to_nat d + j) j ltac:(lia)). lia.
    + apply Rle_trans with (2 := He). apply err_mono. lia.
    + rewrite <- choose_real. apply IZR_le. pose proof (choose_mono (N.to_nat d) (S j) k ltac:(lia)). lia.
    + replace (N.of_nat (S j) + 1)%N with (N.of_nat (S j) + 1)%N by lia. apply (IH (S j)); [lia|exact F'|].
      rewrite choose_real. replace (3 * S j)%nat with (3 * j + 3)%nat by lia. exact A'.
Qed.

Lemma dround_ok x : fin x -> fin (dround x) /\ dval (dround x) = IZR (ZnearestA (dval x)).
Proof.
  intro F. destruct (Bnearbyint_correct 53 1024 _ mode_NA x) as (V & Fi & _). unfold dround, dval, fin in *. split; [rewrite Fi; exact F|].
  rewrite V. unfold round, scaled_mantissa, cexp, F2R. simpl. rewrite !Rmult_1_r. reflexivity.
Qed.

Lemma binomial_raw n k : (n < 2 ^ 32)%N -> (k <= n)%N -> (k <> 0)%N -> (k < 2 ^ 32 - 1)%N -> (12 * k < 2 ^ 50)%N -> (choose (N.to_nat n) (N.to_nat k) <= 2 ^ 63)%N ->
  exists r, binomial_coefficient n k = N_of_double 64 (dround r) /\ fin r /\
    Rabs (dval r - IZR (Z.of_N (choose (N.to_nat n) (N.to_nat k)))) <= 6 * IZR (Z.of_N k) * bpow radix2 (-53) * IZR (Z.of_N (choose (N.to_nat n) (N.to_nat k))).
Proof.
  intros Hn Hk K0 Hk' HS HB. unfold binomial_coefficient. destruct (N.ltb_spec n k); [lia|]. destruct (N.eqb_spec k (2 ^ 32 - 1)); [lia|].
  eexists. split; [reflexivity|].
  set (C := choose (N.to_nat n) (N.to_nat k)) in *. assert (C1 : (1 <= C)%N) by (apply choose_pos; lia).
  assert (EC : C = choose (N.to_nat (n - k) + N.to_nat k) (N.to_nat k)) by (unfold C; f_equal; lia).
  set (kn := N.to_nat k) in *.
  assert (Kr : INR kn = IZR (Z.of_N k)). { rewrite INR_IZR_INZ. f_equal. unfold kn. lia. }
  assert (RB : 12 * IZR (Z.of_N k) <= 1125899906842624). { rewrite <- !mult_IZR. apply IZR_le. lia. }
  assert (C1r : 1 <= IZR (Z.of_N C)) by (apply IZR_le; lia). assert (K1r : 1 <= IZR (Z.of_N k)) by (apply IZR_le; lia).
  assert (S3 : INR (3 * kn) * u <= / 4). { rewrite mult_INR, Kr. change (INR 3) with (1 + 1 + 1). rewrite u_val. lra. }
  assert (EB : err (3 * kn) <= 2 * (INR (3 * kn) * u)) by (apply err_bound; lra).
  destruct (binomial_loop_ok (n - k) kn) with (left := kn) (j := O) (c := d1) as [Fr Ar]; try (unfold kn; lia).
  - rewrite <- EC. lia.
  - lra.
  - apply d1_val.
  - rewrite choose_0. rewrite (proj1 d1_val). unfold approx. replace (1 - IZR (Z.of_N 1)) with 0 by (simpl; ring). rewrite Rabs_R0. apply Rmult_le_pos; [apply err_pos|apply Rabs_pos].
  - change (N.of_nat 0 + 1)%N with 1%N in *. rewrite <- EC in Ar. split; [exact Fr|]. apply Rle_trans with (1 := Ar). rewrite (Rabs_pos_eq (IZR (Z.of_N C))) by lra.
    apply Rmult_le_compat_r; [lra|]. rewrite mult_INR, Kr in EB. change (INR 3) with (1 + 1 + 1) in EB. lra.
Qed.
Lemma binomial_k0 n : binomial_coefficient n 0 = Ok (choose (N.to_nat n) 0).
Proof. unfold binomial_coefficient. destruct (N.ltb_spec n 0); [lia|]. rewrite choose_0. vm_compute. reflexivity. Qed.
Theorem binomial_exact n k : (n < 2 ^ 32)%N -> (k < 2 ^ 32 - 1)%N -> (12 * k * choose (N.to_nat n) (N.to_nat k) < 2 ^ 53)%N ->
  binomial_coefficient n k = Ok (choose (N.to_nat n) (N.to_nat k)).
Proof.
  intros Hn Hk' HB. destruct (N.lt_ge_cases n k) as [Hk|Hk].
  { unfold binomial_coefficient. rewrite (proj2 (N.ltb_lt _ _) Hk). rewrite choose_small by lia. reflexivity. }
  destruct (N.eq_dec k 0) as [->|K0]; [apply binomial_k0|].
  assert (C1 : (1 <= choose (N.to_nat n) (N.to_nat k))%N) by (apply choose_pos; lia).
  destruct (binomial_raw n k) as (r & E & Fr & D); try lia; try nia. rewrite E. set (C := choose (N.to_nat n) (N.to_nat k)) in *.
  assert (RB : 12 * IZR (Z.of_N k) * IZR (Z.of_N C) < 9007199254740992). { rewrite <- !mult_IZR. apply IZR_lt. lia. }
  assert (D' : Rabs (dval r - IZR (Z.of_N C)) < / 2). { apply Rle_lt_trans with (1 := D). rewrite u_val. lra. }
  destruct (dround_ok r Fr) as [Fd Vd].
  assert (Z1 : ZnearestA (dval r) = Z.of_N C) by (apply Znearest_imp; exact D'). rewrite Z1 in Vd.
  assert (C1r : 1 <= IZR (Z.of_N C)) by (apply IZR_le; lia).
  rewrite N_of_double_trunc; [rewrite Vd, Zfloor_IZR; f_equal; lia|exact Fd|rewrite Vd; lra|rewrite Vd; apply IZR_lt; change (2 ^ Z.of_N 64)%Z with 18446744073709551616%Z; nia].
Qed.
Theorem binomial_accurate n k : (n < 2 ^ 32)%N -> (k < 2 ^ 32 - 1)%N -> (choose (N.to_nat n) (N.to_nat k) <= 2 ^ 63)%N ->
  exists r, binomial_coefficient n k = Ok r /\
    Rabs (IZR (Z.of_N r) - IZR (Z.of_N (choose (N.to_nat n) (N.to_nat k)))) <= / 2 + 6 * IZR (Z.of_N k) * bpow radix2 (-53) * IZR (Z.of_N (choose (N.to_nat n) (N.to_nat k))).
Proof.
  intros Hn Hk' HB. set (C := choose (N.to_nat n) (N.to_nat k)) in *.
  assert (C0 : 0 <= IZR (Z.of_N C) <= 9223372036854775808) by (split; apply IZR_le; lia). assert (K0r : 0 <= IZR (Z.of_N k) <= 4294967296) by (split; apply IZR_le; lia).
  assert (T : 0 <= 6 * IZR (Z.of_N k) * u * IZR (Z.of_N C)) by (pose proof u_pos; apply Rmult_le_pos; [apply Rmult_le_pos; lra|lra]).
  destruct (N.lt_ge_cases n k) as [Hk|Hk].
  { exists 0%N. split; [unfold binomial_coefficient; rewrite (proj2 (N.ltb_lt _ _) Hk); reflexivity|]. unfold C in *. rewrite choose_small in * by lia.
    replace (IZR (Z.of_N 0) - IZR (Z.of_N 0)) with 0 by ring. rewrite Rabs_R0. lra. }
  destruct (N.eq_dec k 0) as [->|K0].
  { exists C. split; [apply binomial_k0|]. replace (IZR (Z.of_N C) - IZR (Z.of_N C)) with 0 by ring. rewrite Rabs_R0. lra. }
  destruct (binomial_raw n k) as (r & E & Fr & D); try lia; try exact HB. rewrite E. fold C in D.
  destruct (dround_ok r Fr) as [Fd Vd]. pose proof (Znearest_half (Z.leb 0) (dval r)) as H2. change (Znearest (Z.leb 0) (dval r)) with (ZnearestA (dval r)) in H2.
  assert (SM : 6 * IZR (Z.of_N k) * u * IZR (Z.of_N C) <= / 64 * IZR (Z.of_N C)). { apply Rmult_le_compat_r; [lra|]. rewrite u_val. lra. }
  set (z := ZnearestA (dval r)) in *. pose proof (Rabs_le_inv _ _ D) as D'. pose proof (Rabs_le_inv _ _ H2) as H2'.
  assert (Z0 : (-1 < z)%Z). { apply lt_IZR. assert (1 <= IZR (Z.of_N C)); [|lra]. apply IZR_le. pose proof (choose_pos (N.to_nat n) (N.to_nat k) ltac:(lia)). fold C in H. lia. }
  exists (Z.to_N z). split.
  - rewrite N_of_double_trunc; [rewrite Vd, Zfloor_IZR; reflexivity|exact Fd|rewrite Vd; apply IZR_le; lia|rewrite Vd; change (IZR (2 ^ Z.of_N 64)) with 18446744073709551616; lra].
  - rewrite Z2N.id by lia. apply Rabs_le. lra.
Qed.
Lemma choose_le_pow n : forall k, (choose n k <= 2 ^ N.of_nat n)%N.
Proof.
  induction n as [|n IH]; intros [|k]; cbn [choose]; try (change (2 ^ N.of_nat 0)%N with 1%N; lia).
  - rewrite Nat2N.inj_succ, N.pow_succ_r'. pose proof (IH k). pose proof (IH (S k)). lia.
Qed.
Lemma binomial_small n k : (n <= 43)%N -> (k < 2 ^ 32 - 1)%N -> binomial_coefficient n k = Ok (choose (N.to_nat n) (N.to_nat k)).
Proof.
  intros Hn Hk. destruct (N.lt_ge_cases n k) as [H|H].
  - apply binomial_exact; [lia|exact Hk|]. rewrite choose_small by lia. lia.
  - apply binomial_exact; [lia|exact Hk|]. pose proof (choose_le_pow (N.to_nat n) (N.to_nat k)) as B. rewrite N2Nat.id in B.
    assert (2 ^ n <= 2 ^ 43)%N by (apply N.pow_le_mono_r; lia). apply N.le_lt_trans with (12 * 43 * 2 ^ 43)%N; [|reflexivity].
    apply N.mul_le_mono; [lia|]. lia.
Qed.

(* ---- computing rows of Pascal's triangle ---- *)
Fixpoint pascal_row (n : nat) : list N :=
  match n with O => [1%N] | S n' => let r := pascal_row n' in map (fun p => fst p + snd p)%N (combine (0%N :: r) (r ++ [0%N])) end.
Lemma pascal_len n : length (pascal_row n) = S n.
Proof. induction n as [|n IH]; [reflexivity|]. cbn [pascal_row]. rewrite map_length, combine_length, app_length. cbn [length]. rewrite IH. lia. Qed.
Lemma pascal_ok n : forall k, (k <= n)%nat -> nth k (pascal_row n) 0%N = choose n k.
Proof.
  induction n as [|n IH]; intros k Hk.
  - destruct k; [reflexivity|lia].
  - cbn [pascal_row]. pose proof (pascal_len n) as L. set (r := pascal_row n) in *.
    rewrite nth_indep with (d' := (fun p => fst p + snd p)%N (0%N, 0%N)) by (rewrite map_length, combine_length, app_length; cbn [length]; lia).
    rewrite (map_nth (fun p => fst p + snd p)%N), combine_nth by (rewrite app_length; cbn [length]; lia). cbn [fst snd]. destruct k as [|k].
    + cbn [nth choose]. rewrite app_nth1 by lia. rewrite IH by lia. rewrite choose_0. reflexivity.
    + cbn [nth choose]. rewrite IH by lia. f_equal. destruct (Nat.eq_dec k n) as [->|Hne].
      * rewrite app_nth2 by lia. rewrite L, Nat.sub_diag. cbn [nth]. rewrite choose_small by lia. reflexivity.
      * rewrite app_nth1 by lia. apply IH. lia.
Qed.

(* ---- square roots and two-tailed probabilities ---- *)
Lemma dsqrt_ok x : fin x -> 0 <= dval x -> fin (dsqrt x) /\ dval (dsqrt x) = rnd (sqrt (dval x)).
Proof.
  intros F P. destruct (Bsqrt_correct 53 1024 _ _ mode_NE x) as (V & Fi & _). unfold dsqrt, dval, fin, rnd in *. split; [|exact V].
  rewrite Fi. destruct x as [s|s| |s m e b]; try reflexivity; try discriminate. destruct s; [|reflexivity].
  exfalso. assert (Q := F2R_lt_0 radix2 (Float radix2 (Z.neg m) e) eq_refl). cbn [B2R SpecFloat.cond_Zopp Z.opp] in P. lra.
Qed.
Lemma sqrt_two : fin (dsqrt (double_of_N 2)) /\ 1 <= dval (dsqrt (double_of_N 2)) <= 2.
Proof.
  destruct (double_of_N_exact 2) as [V F]; [lia|]. destruct (dsqrt_ok (double_of_N 2) F) as [F' V']; [rewrite V; simpl; lra|]. split; [exact F'|].
  rewrite V', V. change (IZR (Z.of_N 2)) with 2. apply rnd_between; [apply F64_1|apply (F64_Z 2); lia|].
  split; [rewrite <- sqrt_1; apply sqrt_le_1_alt; lra|]. rewrite <- (sqrt_Rsqr 2) at 2 by lra. apply sqrt_le_1_alt. unfold Rsqr. lra.
Qed.
(* what is assumed of std::erfc *)
Definition erfc_bounded (erfc : double -> double) : Prop := forall x, fin x -> 0 <= dval x -> fin (erfc x) /\ 0 <= dval (erfc x) <= 1.
Definition erfc_decreasing (erfc : double -> double) : Prop := forall x y, fin x -> fin y -> 0 <= dval x <= dval y -> dval (erfc y) <= dval (erfc x).

Lemma two_tailed_val erfc z : erfc_bounded erfc -> fin z ->
  exists a, fin a /\ 0 <= dval a /\ dval a = rnd (Rabs (dval z) / dval (dsqrt (double_of_N 2))) /\
  let p := normal_two_tailed_cdf erfc z in fin p /\ dval p = rnd (2 * rnd (dval (erfc a) / 2)) /\ 0 <= dval p <= 1.
Proof.
  intros HE Fz. destruct sqrt_two as [F2 B2]. set (s2 := dsqrt (double_of_N 2)) in *.
  exists (ddiv (dabs z) s2). 
  assert (Q : 0 <= Rabs (dval z) / dval s2 <= Rabs (dval z)).
  { split; [apply Rmult_le_pos; [apply Rabs_pos|apply Rlt_le, Rinv_0_lt_compat; lra]|].
    apply Rmult_le_reg_r with (dval s2); [lra|]. unfold Rdiv. rewrite Rmult_assoc, Rinv_l by lra. pose proof (Rabs_pos (dval z)). nra. }
  assert (Bz : Rabs (dval z) < bpow radix2 1024) by apply abs_B2R_lt_emax.
  assert (DV : dval (ddiv (dabs z) s2) = rnd (Rabs (dval z) / dval s2) /\ fin (ddiv (dabs z) s2)).
  { pose proof (Bdiv_correct 53 1024 _ _ mode_NE (dabs z) s2 ltac:(change (B2R s2) with (dval s2); lra)) as H.
    change (B2R (dabs z)) with (dval (dabs z)) in H. change (B2R s2) with (dval s2) in H. rewrite dabs_val in H.
    change (round radix2 (SpecFloat.fexp 53 1024) (round_mode mode_NE) (Rabs (dval z) / dval s2)) with (rnd (Rabs (dval z) / dval s2)) in H.
    rewrite Rlt_bool_true in H.
    - destruct H as (V & Fi & _). split; [exact V|]. unfold fin, ddiv. rewrite Fi. apply dabs_fin, Fz.
    - apply Rle_lt_trans with (2 := Bz).
      assert (BB : 0 <= rnd (Rabs (dval z) / dval s2) <= Rabs (dval z)) by (apply rnd_between; [apply F64_0|rewrite <- dabs_val; apply dval_format|exact Q]).
      rewrite Rabs_pos_eq; apply BB. }
  destruct DV as [DV DF].
  assert (P0 : 0 <= dval (ddiv (dabs z) s2)). { rewrite DV. rewrite <- (rnd_id 0) by apply F64_0. apply rnd_mono, Q. }
  split; [exact DF|]. split; [exact P0|]. split; [exact DV|].
  destruct (HE _ DF P0) as [Fe Be]. 
  assert (EQ : normal_two_tailed_cdf erfc z = dmul (double_of_N 2) (ddiv (erfc (ddiv (dabs z) s2)) (double_of_N 2))).
  { unfold normal_two_tailed_cdf, normal_cdf. fold s2. unfold dneg. rewrite Bopp_involutive. reflexivity. }
  rewrite EQ. destruct (double_of_N_exact 2) as [V2 FF2]; [lia|]. change (IZR (Z.of_N 2)) with 2 in V2.
  set (e := erfc (ddiv (dabs z) s2)) in *.
  destruct (ddiv_ok e (double_of_N 2)) as [Vh Fh]; [exact Fe|rewrite V2; lra|rewrite V2; apply small_num; rewrite <- two64; lra|]. rewrite V2 in Vh.
  assert (Bh : 0 <= dval (ddiv e (double_of_N 2)) <= / 2). { rewrite Vh. apply rnd_between; [apply F64_0|replace (/ 2) with (dval dhalf) by apply dhalf_val; apply dval_format|lra]. }
  destruct (dmul_ok (double_of_N 2) (ddiv e (double_of_N 2))) as [Vp Fp]; [exact FF2|exact Fh|rewrite V2; apply small_num; rewrite <- two64; lra|].
  rewrite V2 in Vp. cbn zeta. split; [exact Fp|]. split; [rewrite Vp, Vh; reflexivity|].
  rewrite Vp. apply rnd_between; [apply F64_0|apply F64_1|lra].
Qed.

Lemma two_tailed_symmetric erfc z : normal_two_tailed_cdf erfc (dneg z) = normal_two_tailed_cdf erfc z.
Proof. unfold normal_two_tailed_cdf. do 3 f_equal. unfold dneg, dabs. destruct z; reflexivity. Qed.
Lemma two_tailed_mono erfc y z : erfc_bounded erfc -> erfc_decreasing erfc -> fin y -> fin z -> Rabs (dval y) <= Rabs (dval z) ->
  dval (normal_two_tailed_cdf erfc z) <= dval (normal_two_tailed_cdf erfc y).
Proof.
  intros HB HD Fy Fz H. destruct (two_tailed_val erfc y HB Fy) as (a & Fa & Pa & Va & _ & Vp & _). destruct (two_tailed_val erfc z HB Fz) as (b & Fb & Pb & Vb & _ & Vq & _).
  rewrite Vp, Vq. destruct sqrt_two as [_ B2].
  assert (AB : dval a <= dval b). { rewrite Va, Vb. apply rnd_mono. apply Rmult_le_compat_r; [apply Rlt_le, Rinv_0_lt_compat; lra|exact H]. }
  pose proof (HD a b Fa Fb (conj Pa AB)). apply rnd_mono. apply Rmult_le_compat_l; [lra|]. apply rnd_mono. lra.
Qed.

(* ---- is_near 0 ---- *)
Lemma near_eps_val : dval (dconst 4722366482869645 (-72)) = 4722366482869645 * bpow radix2 (-72) /\ fin (dconst 4722366482869645 (-72)).
Proof.
  assert (B : F2R (Float radix2 4722366482869645 (-72)) = 4722366482869645 * bpow radix2 (-72)) by reflexivity.
  destruct (dconst_ok 4722366482869645 (-72)) as [V F].
  - rewrite B. apply small_num. pose proof (bpow_gt_0 radix2 (-72)). assert (bpow radix2 (-72) <= 1) by (apply (bpow_le radix2 (-72) 0); lia). rewrite <- two64. lra.
  - split; [|exact F]. rewrite V, rnd_id; [exact B|]. apply F64_F2R; lia.
Qed.
Lemma near_eps_range : 0 < dval (dconst 4722366482869645 (-72)) < / 1000.
Proof.
  destruct near_eps_val as [V _]. rewrite V. pose proof (bpow_gt_0 radix2 (-72)). split; [lra|].
  assert (bpow radix2 (-72) = / 4722366482869645213696) by exact (bpow_opp radix2 72). lra.
Qed.
Lemma dsub_0 x : fin x -> fin (dsub x d0) /\ dval (dsub x d0) = dval x.
Proof.
  intro F. destruct d0_val as [V0 F0]. pose proof (abs_B2R_le_emax_minus_prec 53 1024 _ x) as B.
  assert (R0 : rnd (dval x - 0) = dval x) by (rewrite Rminus_0_r; apply rnd_id, dval_format).
  pose proof (Bminus_correct 53 1024 _ _ mode_NE x d0 F F0) as H. change (B2R d0) with (dval d0) in H. rewrite V0 in H. change (B2R x) with (dval x) in H.
  change (round radix2 (SpecFloat.fexp 53 1024) (round_mode mode_NE) (dval x - 0)) with (rnd (dval x - 0)) in H. rewrite R0 in H.
  rewrite Rlt_bool_true in H by apply abs_B2R_lt_emax. destruct H as (V & Fi & _). split; [exact Fi|exact V].
Qed.
Lemma is_near_0 x : fin x -> (is_near x d0 = true <-> Rabs (dval x) <= dval (dconst 4722366482869645 (-72))).
Proof.
  intro F. unfold is_near, is_near_eps. destruct (dsub_0 x F) as [F' V']. rewrite dle_iff; [|apply dabs_fin, F'|apply near_eps_val]. rewrite dabs_val, V'. reflexivity.
Qed.
Lemma is_near_0_false x : fin x -> (is_near x d0 = false <-> dval (dconst 4722366482869645 (-72)) < Rabs (dval x)).
Proof.
  intro F. pose proof (is_near_0 x F) as H. destruct (is_near x d0); split; intro K; try discriminate; try reflexivity.
  - apply proj1 in H. specialize (H eq_refl). lra.
  - apply Rnot_le_lt. intro L. apply H in L. discriminate.
Qed.

(* ---- z_test ---- *)
Lemma z_test_none erfc n mean pm pv : is_near pv d0 = true \/ is_near n d0 = true -> z_test erfc n mean pm pv = None.
Proof. intros H. unfold z_test. destruct (is_near pv d0); [reflexivity|]. destruct H as [H|H]; [discriminate|]. rewrite H. reflexivity. Qed.

(* se is positive, and z is finite, for moderate arguments *)
Lemma z_test_ok erfc n mean pm pv : erfc_bounded erfc -> fin n -> fin mean -> fin pm -> fin pv ->
  1 <= dval n <= bpow radix2 64 -> / 1000 <= dval pv <= bpow radix2 200 -> Rabs (dval mean) <= bpow radix2 200 -> Rabs (dval pm) <= bpow radix2 200 ->
  exists s, z_test erfc n mean pm pv = Some s /\ st_type s = Z_score /\ fin (st_value s) /\ fin (st_p s) /\ 0 <= dval (st_p s) <= 1 /\ st_df s = n /\
    dval (st_value s) = rnd (rnd (dval mean - dval pm) / rnd (sqrt (rnd (dval pv / dval n)))).
Proof.
  intros HE Fn Fm Fpm Fpv Bn Bpv Bm Bpm. pose proof near_eps_range as NE.
  assert (N1 : is_near pv d0 = false). { apply is_near_0_false; [exact Fpv|]. rewrite Rabs_pos_eq; lra. }
  assert (N2 : is_near n d0 = false). { apply is_near_0_false; [exact Fn|]. rewrite Rabs_pos_eq; lra. }
  unfold z_test. rewrite N1, N2. eexists. split; [reflexivity|]. cbn [st_type st_value st_p st_df].
  set (z := ddiv (dsub mean pm) (dsqrt (ddiv pv n))).
  assert (L : bpow radix2 (-100) <= dval pv / dval n).
  { apply Rmult_le_reg_r with (dval n); [lra|]. unfold Rdiv. rewrite Rmult_assoc, Rinv_l by lra. rewrite Rmult_1_r.
    apply Rle_trans with (bpow radix2 (-100) * bpow radix2 64); [apply Rmult_le_compat_l; [apply bpow_ge_0|lra]|]. rewrite <- bpow_plus.
    apply Rle_trans with (/ 1000); [|lra]. assert (E : bpow radix2 (-10) = / 1024) by exact (bpow_opp radix2 10).
    apply Rle_trans with (bpow radix2 (-10)); [apply bpow_le; lia|rewrite E; lra]. }
  assert (U : dval pv / dval n <= bpow radix2 200).
  { apply Rmult_le_reg_r with (dval n); [lra|]. unfold Rdiv. rewrite Rmult_assoc, Rinv_l by lra. pose proof (bpow_gt_0 radix2 200). nra. }
  pose proof (bpow_gt_0 radix2 (-100)) as P100.
  destruct (ddiv_ok pv n) as [Vq Fq]; [exact Fpv|lra|apply small_bpow with 200%Z; [lia|rewrite Rabs_pos_eq; lra]|].
  assert (Bq : bpow radix2 (-100) <= dval (ddiv pv n) <= bpow radix2 200). { rewrite Vq. apply rnd_between; [apply F64_bpow; lia|apply F64_bpow; lia|lra]. }
  destruct (dsqrt_ok (ddiv pv n) Fq) as [Fs Vs]; [lra|].
  assert (Bs : bpow radix2 (-50) <= dval (dsqrt (ddiv pv n))).
  { rewrite Vs. apply Rle_trans with (rnd (bpow radix2 (-50))); [rewrite rnd_id; [lra|apply F64_bpow; lia]|]. apply rnd_mono.
    rewrite <- (sqrt_Rsqr (bpow radix2 (-50))) by apply bpow_ge_0. apply sqrt_le_1_alt. unfold Rsqr. rewrite <- bpow_plus. apply Bq. }
  assert (D : Rabs (dval mean - dval pm) <= bpow radix2 201).
  { apply Rle_trans with (1 := Rabs_triang _ _). rewrite Rabs_Ropp. change 201%Z with (200 + 1)%Z. rewrite bpow_plus. change (bpow radix2 1) with 2. lra. }
  destruct (dsub_ok mean pm) as [Vd Fd]; [exact Fm|exact Fpm|apply small_bpow with 201%Z; [lia|exact D]|].
  assert (Bd : Rabs (dval (dsub mean pm)) <= bpow radix2 201).
  { apply Rabs_le_inv in D. rewrite Vd. apply Rabs_le. apply rnd_between; [apply F64_opp, F64_bpow; lia|apply F64_bpow; lia|exact D]. }
  pose proof (bpow_gt_0 radix2 (-50)) as P50.
  assert (Bz : Rabs (dval (dsub mean pm) / dval (dsqrt (ddiv pv n))) <= bpow radix2 251).
  { unfold Rdiv. rewrite Rabs_mult, Rabs_inv, (Rabs_pos_eq (dval (dsqrt (ddiv pv n)))) by lra.
    apply Rmult_le_reg_r with (dval (dsqrt (ddiv pv n))); [lra|]. rewrite Rmult_assoc, Rinv_l by lra. rewrite Rmult_1_r. apply Rle_trans with (1 := Bd).
    apply Rle_trans with (bpow radix2 251 * bpow radix2 (-50)); [rewrite <- bpow_plus; apply bpow_le; lia|]. apply Rmult_le_compat_l; [apply bpow_ge_0|exact Bs]. }
  destruct (ddiv_ok (dsub mean pm) (dsqrt (ddiv pv n))) as [Vz Fz]; [exact Fd|lra|apply small_bpow with 251%Z; [lia|exact Bz]|].
  fold z in Vz, Fz. destruct (two_tailed_val erfc z HE Fz) as (a & _ & _ & _ & Fp & _ & Bp).
  split; [reflexivity|]. split; [exact Fz|]. split; [exact Fp|]. split; [exact Bp|]. split; [reflexivity|]. rewrite Vz, Vd, Vs, Vq. reflexivity.
Qed.

(* ---- runs_stats ---- *)
Lemma F64_frac m e : (Z.abs m <= 2 ^ 53)%Z -> (-1074 <= e)%Z -> F64 (IZR m * bpow radix2 e).
Proof. intros H1 H2. apply (F64_F2R m e H1 H2). Qed.
Lemma runs_args plus minus : (1 <= plus)%N -> (1 <= minus)%N -> (3 <= plus + minus)%N -> (plus <= 2 ^ 26)%N -> (minus <= 2 ^ 26)%N ->
  let P := double_of_N plus in let M := double_of_N minus in
  let n := dadd P M in
  let mean := dadd (ddiv (dmul (dmul (double_of_N 2) P) M) n) d1 in
  let variance := dmul (dsub mean d1) (dsub mean (double_of_N 2)) in
  fin n /\ dval n = IZR (Z.of_N (plus + minus)) /\ fin mean /\ 0 <= dval mean <= bpow radix2 200 /\ fin variance /\ / 1000 <= dval variance <= bpow radix2 200.
Proof.
  intros Hp Hm Hpm Up Um P M n mean variance.
  assert (Rp : 1 <= IZR (Z.of_N plus) <= 67108864) by (split; apply IZR_le; lia).
  assert (Rm : 1 <= IZR (Z.of_N minus) <= 67108864) by (split; apply IZR_le; lia).
  assert (Rs : 3 <= IZR (Z.of_N plus) + IZR (Z.of_N minus)) by (rewrite <- plus_IZR; apply IZR_le; lia).
  assert (HF : 5 * (IZR (Z.of_N plus) + IZR (Z.of_N minus)) <= 8 * (IZR (Z.of_N plus) * IZR (Z.of_N minus))).
  { rewrite <- plus_IZR, <- mult_IZR, <- !mult_IZR. apply IZR_le. clear -Hp Hm Hpm. set (a := Z.of_N plus). set (b := Z.of_N minus).
    assert (1 <= a)%Z by (unfold a; lia). assert (1 <= b)%Z by (unfold b; lia). assert (3 <= a + b)%Z by (unfold a, b; lia).
    destruct (Z.le_gt_cases 2 a); nia. }
  destruct (double_of_N_exact plus) as [VP FP]; [lia|]. destruct (double_of_N_exact minus) as [VM FM]; [lia|]. fold P in VP, FP. fold M in VM, FM.
  destruct (double_of_N_exact 2) as [V2 F2]; [lia|]. change (IZR (Z.of_N 2)) with 2 in V2. destruct d1_val as [V1 F1].
  assert (T200 : bpow radix2 64 <= bpow radix2 200) by (apply bpow_le; lia). pose proof two64 as T64.
  destruct (dadd_ok P M) as [Vn Fn]; [exact FP|exact FM|rewrite VP, VM; apply small_num; lra|]. fold n in Vn, Fn.
  assert (En : dval n = IZR (Z.of_N plus) + IZR (Z.of_N minus)). { rewrite Vn, VP, VM, <- plus_IZR. apply rnd_id, F64_Z. lia. }
  destruct (dmul_ok (double_of_N 2) P) as [Vt Ft]; [exact F2|exact FP|rewrite V2, VP; apply small_num; lra|].
  assert (Et : dval (dmul (double_of_N 2) P) = 2 * IZR (Z.of_N plus)). { rewrite Vt, V2, VP, <- mult_IZR. apply rnd_id, F64_Z. lia. }
  destruct (dmul_ok (dmul (double_of_N 2) P) M) as [Vu Fu]; [exact Ft|exact FM|rewrite Et, VM; apply small_num; nra|].
  assert (Eu : dval (dmul (dmul (double_of_N 2) P) M) = 2 * IZR (Z.of_N plus) * IZR (Z.of_N minus)). { rewrite Vu, Et, VM, <- !mult_IZR. apply rnd_id, F64_Z. nia. }
  set (uu := dmul (dmul (double_of_N 2) P) M) in *.
  assert (Q : 5 * bpow radix2 (-2) <= dval uu / dval n <= 134217728).
  { change (bpow radix2 (-2)) with (/ 4). assert (X : dval uu / dval n * dval n = dval uu) by (field; lra).
    rewrite Eu, En in *. set (x := 2 * IZR (Z.of_N plus) * IZR (Z.of_N minus) / (IZR (Z.of_N plus) + IZR (Z.of_N minus))) in *.
    split; apply Rmult_le_reg_r with (IZR (Z.of_N plus) + IZR (Z.of_N minus)); try lra; rewrite X; nra. }
  change (bpow radix2 (-2)) with (/ 4) in Q.
  destruct (ddiv_ok uu n) as [Vq Fq]; [exact Fu|rewrite En; lra|apply small_num; lra|].
  assert (Bq : 5 / 4 <= dval (ddiv uu n) <= 134217728). { rewrite Vq. apply rnd_between; [apply (F64_frac 5 (-2)); lia|apply (F64_Z 134217728); lia|lra]. }
  destruct (dadd_ok (ddiv uu n) d1) as [Vm Fm]; [exact Fq|exact F1|rewrite V1; apply small_num; lra|]. fold mean in Vm, Fm. rewrite V1 in Vm.
  assert (Bm : 9 / 4 <= dval mean <= 134217729). { rewrite Vm. apply rnd_between; [apply (F64_frac 9 (-2)); lia|apply (F64_Z 134217729); lia|lra]. }
  destruct (dsub_ok mean d1) as [Va Fa]; [exact Fm|exact F1|rewrite V1; apply small_num; lra|]. rewrite V1 in Va.
  assert (Ba : 5 / 4 <= dval (dsub mean d1) <= 134217728). { rewrite Va. apply rnd_between; [apply (F64_frac 5 (-2)); lia|apply (F64_Z 134217728); lia|lra]. }
  destruct (dsub_ok mean (double_of_N 2)) as [Vb Fb]; [exact Fm|exact F2|rewrite V2; apply small_num; lra|]. rewrite V2 in Vb.
  assert (Bb : 1 / 4 <= dval (dsub mean (double_of_N 2)) <= 134217728). { rewrite Vb. apply rnd_between; [apply (F64_frac 1 (-2)); lia|apply (F64_Z 134217728); lia|lra]. }
  destruct (dmul_ok (dsub mean d1) (dsub mean (double_of_N 2))) as [Vv Fv]; [exact Fa|exact Fb|apply small_num; nra|]. fold variance in Vv, Fv.
  assert (Bv : 1 / 4 <= dval variance <= 18014398509481984).
  { rewrite Vv. apply rnd_between; [apply (F64_frac 1 (-2)); lia|exact (F64_bpow 54 ltac:(lia))|nra]. }
  split; [exact Fn|]. split; [rewrite En, N2Z.inj_add, plus_IZR; reflexivity|]. split; [exact Fm|]. split; [lra|]. split; [exact Fv|]. lra.
Qed.
Lemma runs_some erfc runs plus minus : erfc_bounded erfc -> (1 <= plus)%N -> (1 <= minus)%N -> (3 <= plus + minus)%N -> (plus <= 2 ^ 26)%N -> (minus <= 2 ^ 26)%N -> (runs <= 2 ^ 27)%N ->
  exists s, runs_stats erfc (mkruns runs plus minus) = Some s /\ st_type s = Z_score /\ fin (st_value s) /\ fin (st_p s) /\ 0 <= dval (st_p s) <= 1 /\
    dval (st_df s) = IZR (Z.of_N (plus + minus)).
Proof.
  intros HE Hp Hm Hpm Up Um Ur. destruct (runs_args plus minus Hp Hm Hpm Up Um) as (Fn & En & Fmean & Bmean & Fv & Bv).
  unfold runs_stats. cbn [rd_plus rd_minus rd_runs]. set (n := dadd (double_of_N plus) (double_of_N minus)) in *.
  assert (Rs : 3 <= dval n <= 134217728) by (rewrite En; split; apply IZR_le; lia).
  rewrite (proj2 (is_near_0_false n Fn)) by (rewrite Rabs_pos_eq by lra; pose proof near_eps_range; lra).
  destruct (double_of_N_exact runs) as [Vr Fr]; [lia|].
  assert (T200 : bpow radix2 64 <= bpow radix2 200) by (apply bpow_le; lia). pose proof two64 as T64.
  edestruct z_test_ok as (s & E & T & Fz & Fp & Bp & Ed & _); [exact HE|exact Fn|exact Fr|exact Fmean|exact Fv|lra|exact Bv| |rewrite Rabs_pos_eq by lra; lra|].
  - rewrite Vr. assert (0 <= IZR (Z.of_N runs) <= 134217728) by (split; apply IZR_le; lia). rewrite Rabs_pos_eq; lra.
  - exists s. split; [exact E|]. split; [exact T|]. split; [exact Fz|]. split; [exact Fp|]. split; [exact Bp|]. rewrite Ed. exact En.
Qed.
Lemma runs_none erfc runs n : (n <= 2 ^ 52)%N ->
  runs_stats erfc (mkruns runs n 0) = None /\ runs_stats erfc (mkruns runs 0 n) = None /\ runs_stats erfc (mkruns runs 1 1) = None.
Proof.
  intros Hn. assert (A : forall a b, (a + b <= 2 ^ 52)%N -> a = 0%N \/ b = 0%N -> runs_stats erfc (mkruns runs a b) = None).
  { intros a b Hab Z. destruct (N.eq_dec (a + b) 0) as [E0|E0]; [assert (a = 0%N) by lia; assert (b = 0%N) by lia; subst a b; vm_compute; reflexivity|].
    unfold runs_stats. cbn [rd_plus rd_minus rd_runs]. destruct (is_near _ d0); [reflexivity|]. apply z_test_none. left.
    destruct (double_of_N_exact a) as [Va Fa]; [lia|]. destruct (double_of_N_exact b) as [Vb Fb]; [lia|].
    set (P := double_of_N a) in *. set (M := double_of_N b) in *. destruct (double_of_N_exact 2) as [V2 F2]; [lia|]. change (IZR (Z.of_N 2)) with 2 in V2. destruct d1_val as [V1 F1].
    assert (Ra : 0 <= IZR (Z.of_N a) <= 4503599627370496) by (split; apply IZR_le; lia).
    assert (Rb : 0 <= IZR (Z.of_N b) <= 4503599627370496) by (split; apply IZR_le; lia).
    pose proof two64 as T64.
    - destruct (dadd_ok P M) as [Vn Fn]; [exact Fa|exact Fb|rewrite Va, Vb; apply small_num; lra|].
      assert (En : dval (dadd P M) = IZR (Z.of_N a) + IZR (Z.of_N b)). { rewrite Vn, Va, Vb, <- plus_IZR. apply rnd_id, F64_Z. lia. }
      assert (Pn : 1 <= dval (dadd P M)). { rewrite En, <- plus_IZR. apply IZR_le. lia. }
      destruct (dmul_ok (double_of_N 2) P) as [Vt Ft]; [exact F2|exact Fa|rewrite V2, Va; apply small_num; lra|].
      assert (Et : dval (dmul (double_of_N 2) P) = 2 * IZR (Z.of_N a)). { rewrite Vt, V2, Va, <- mult_IZR. apply rnd_id, F64_Z. lia. }
      assert (Z0 : dval (dmul (double_of_N 2) P) * dval M = 0). { rewrite Et, Vb. destruct Z as [Z|Z]; rewrite Z; simpl; ring. }
      destruct (dmul_ok (dmul (double_of_N 2) P) M) as [Vu Fu]; [exact Ft|exact Fb|rewrite Z0; apply small_num; lra|]. rewrite Z0, rnd_id in Vu by apply F64_0.
      set (uu := dmul (dmul (double_of_N 2) P) M) in *. set (n' := dadd P M) in *.
      assert (Q0 : dval uu / dval n' = 0) by (rewrite Vu; unfold Rdiv; ring).
      destruct (ddiv_ok uu n') as [Vq Fq]; [exact Fu|lra|rewrite Q0; apply small_num; lra|]. rewrite Q0, rnd_id in Vq by apply F64_0.
      destruct (dadd_ok (ddiv uu n') d1) as [Vm Fm]; [exact Fq|exact F1|rewrite Vq, V1; apply small_num; lra|]. rewrite Vq, V1, Rplus_0_l, rnd_id in Vm by apply F64_1.
      set (mean := dadd (ddiv uu n') d1) in *.
      destruct (dsub_ok mean d1) as [Vx Fx]; [exact Fm|exact F1|rewrite Vm, V1; apply small_num; lra|]. rewrite Vm, V1 in Vx. replace (1 - 1) with 0 in Vx by ring. rewrite rnd_id in Vx by apply F64_0.
      destruct (dsub_ok mean (double_of_N 2)) as [Vy Fy]; [exact Fm|exact F2|rewrite Vm, V2; apply small_bpow with 64%Z; [lia|]; rewrite <- T64; unfold Rabs; destruct (Rcase_abs (1 - 2)); lra|].
      assert (X0 : dval (dsub mean d1) * dval (dsub mean (double_of_N 2)) = 0) by (rewrite Vx; ring).
      destruct (dmul_ok (dsub mean d1) (dsub mean (double_of_N 2))) as [Vv Fv]; [exact Fx|exact Fy|rewrite X0; apply small_num; lra|]. rewrite X0, rnd_id in Vv by apply F64_0.
      apply is_near_0; [exact Fv|]. rewrite Vv, Rabs_R0. pose proof near_eps_range. lra. }
  split; [apply A; [lia|right; reflexivity]|]. split; [apply A; [lia|left; reflexivity]|]. vm_compute. reflexivity.
Qed.

(* ---- mean_test ---- *)
Lemma mean_sum w values : (0 < w <= 64)%N -> Forall (fun x => x < 2 ^ w)%N values -> forall s a, fin s -> 0 <= dval s <= IZR (Z.of_nat a) -> (Z.of_nat (a + length values) <= 2 ^ 53)%Z ->
  let r := fold_left (fun sum v => dadd sum (rescale_type_to_01 w v)) values s in fin r /\ 0 <= dval r <= IZR (Z.of_nat (a + length values)).
Proof.
  intros Hw. induction values as [|v values IH]; intros HF s a Fs Bs Hl; cbn zeta; cbn [fold_left length] in *.
  - rewrite Nat.add_0_r. split; assumption.
  - inversion HF as [|? ? Hv HF']; subst. destruct (rescale_range w v Hw Hv) as [Fv Bv].
    assert (R1 : IZR (Z.of_nat a) <= 9007199254740991) by (apply IZR_le; lia).
    assert (RS : IZR (Z.of_nat (a + 1)) = IZR (Z.of_nat a) + 1) by (rewrite Nat2Z.inj_add, plus_IZR; reflexivity).
    destruct (dadd_ok s (rescale_type_to_01 w v)) as [Va Fa]; [exact Fs|exact Fv|apply small_num; rewrite <- two64; lra|].
    replace (a + S (length values))%nat with ((a + 1) + length values)%nat by lia. apply IH; [exact HF'|exact Fa| |lia].
    rewrite Va. apply rnd_between; [apply F64_0|apply F64_Z; lia|]. rewrite RS. lra.
Qed.
Lemma mean_some erfc w values : erfc_bounded erfc -> (0 < w <= 64)%N -> Forall (fun x => x < 2 ^ w)%N values -> values <> [] -> (Z.of_nat (length values) <= 2 ^ 53)%Z ->
  exists s, mean_test erfc w values = Some s /\ st_type s = Z_score /\ fin (st_value s) /\ fin (st_p s) /\ 0 <= dval (st_p s) <= 1 /\
    dval (st_df s) = IZR (Z.of_nat (length values)) /\ 0 <= dval (get_mean_rescale_01 w values) <= 1.
Proof.
  intros HE Hw HF Hne Hl. assert (L1 : (1 <= length values)%nat) by (destruct values; [contradiction|cbn [length]; lia]).
  destruct (mean_sum w values Hw HF d0 0) as [Fs Bs]; [apply d0_val|rewrite (proj1 d0_val); simpl; lra|exact Hl|]. cbn [Nat.add] in Bs.
  destruct (double_of_N_exact (N.of_nat (length values))) as [Vn Fn]; [lia|]. rewrite nat_N_Z in Vn.
  assert (R1 : 1 <= IZR (Z.of_nat (length values)) <= 9007199254740992) by (split; apply IZR_le; lia).
  set (sum := fold_left (fun sum v => dadd sum (rescale_type_to_01 w v)) values d0) in *. set (L := IZR (Z.of_nat (length values))) in *. set (dn := double_of_N (N.of_nat (length values))) in *.
  assert (Q : 0 <= dval sum / dval dn <= 1).
  { rewrite Vn. split; [apply Rmult_le_pos; [lra|apply Rlt_le, Rinv_0_lt_compat; lra]|]. apply Rmult_le_reg_r with L; [lra|]. unfold Rdiv. rewrite Rmult_assoc, Rinv_l by lra. lra. }
  pose proof two64 as T64.
  destruct (ddiv_ok sum dn) as [Vm Fm]; [exact Fs|rewrite Vn; lra|apply small_num; lra|].
  assert (Bm : 0 <= dval (ddiv sum dn) <= 1) by (rewrite Vm; apply rnd_between; [apply F64_0|apply F64_1|exact Q]).
  destruct (double_of_N_exact 12) as [V12 F12]; [lia|]. change (IZR (Z.of_N 12)) with 12 in V12. destruct d1_val as [V1 F1].
  destruct (ddiv_ok d1 (double_of_N 12)) as [Vv Fv]; [exact F1|rewrite V12; lra|rewrite V1, V12; apply small_num; lra|].
  assert (Bv : / 16 <= dval (ddiv d1 (double_of_N 12)) <= 1). { rewrite Vv, V1, V12. apply rnd_between; [exact (F64_bpow (-4) ltac:(lia))|apply F64_1|lra]. }
  destruct dhalf_val as [Vh Fh].
  assert (T200 : bpow radix2 64 <= bpow radix2 200) by (apply bpow_le; lia).
  unfold mean_test, get_mean_rescale_01. fold sum. fold dn. change (dconst 1 (-1)) with dhalf.
  edestruct (z_test_ok erfc dn (ddiv sum dn) dhalf (ddiv d1 (double_of_N 12))) as (s & E & T & Fz & Fp & Bp & Ed & _); [exact HE|exact Fn|exact Fm|exact Fh|exact Fv|rewrite Vn; lra|lra|rewrite Rabs_pos_eq; lra|rewrite Vh, Rabs_pos_eq; lra|].
  exists s. split; [exact E|]. split; [exact T|]. split; [exact Fz|]. split; [exact Fp|]. split; [exact Bp|]. split; [rewrite Ed; exact Vn|exact Bm].
Qed.
Lemma mean_none erfc w : mean_test erfc w [] = None.
Proof. unfold mean_test. apply z_test_none. right. vm_compute. reflexivity. Qed.

(* ---- get_median ---- *)
Lemma median_even w l a b : (w <= 32)%N -> Nat.odd (length l) = false -> nth_error l (length l / 2 - 1) = Some a -> nth_error l (length l / 2) = Some b ->
  (a < 2 ^ w)%N -> (b < 2 ^ w)%N -> get_median w l = Ok ((a + b) / 2)%N.
Proof.
  intros Hw Ho Ha Hb La Lb. unfold get_median. rewrite Ho. destruct (Nat.eqb_spec (length l) 0) as [E|E].
  { exfalso. destruct l; [|discriminate]. discriminate. }
  assert (EV : exists h, (length l = 2 * S h)%nat). { assert (H := proj2 (Nat.even_spec (length l))). rewrite <- Nat.negb_odd, Ho in H. destruct (proj1 (Nat.even_spec (length l))) as [h Hh]; [rewrite <- Nat.negb_odd, Ho; reflexivity|]. exists (h - 1)%nat. lia. }
  destruct EV as [h Hh]. assert (D1 : ((length l - 1) / 2 = h)%nat). { rewrite Hh. replace (2 * S h - 1)%nat with (1 + h * 2)%nat by lia. rewrite Nat.div_add by lia. reflexivity. }
  assert (D2 : (length l / 2 = S h)%nat). { rewrite Hh, Nat.mul_comm, Nat.div_mul by lia. reflexivity. }
  rewrite D2 in Ha, Hb. replace (S h - 1)%nat with h in Ha by lia. rewrite D1. unfold at_. rewrite Ha. replace (h + 1)%nat with (S h) by lia. rewrite Hb. cbn [obind].
  assert (W : (2 ^ w <= 2 ^ 32)%N) by (apply N.pow_le_mono_r; lia).
  destruct (double_of_N_exact a) as [Va Fa]; [lia|]. destruct (double_of_N_exact b) as [Vb Fb]; [lia|]. destruct (double_of_N_exact 2) as [V2 F2]; [lia|]. change (IZR (Z.of_N 2)) with 2 in V2.
  assert (Ra : 0 <= IZR (Z.of_N a) <= 4294967296) by (split; apply IZR_le; lia). assert (Rb : 0 <= IZR (Z.of_N b) <= 4294967296) by (split; apply IZR_le; lia).
  pose proof two64 as T64.
  destruct (dadd_ok (double_of_N a) (double_of_N b)) as [Vs Fs]; [exact Fa|exact Fb|rewrite Va, Vb; apply small_num; lra|].
  assert (Es : dval (dadd (double_of_N a) (double_of_N b)) = IZR (Z.of_N (a + b))). { rewrite Vs, Va, Vb, <- plus_IZR, <- N2Z.inj_add. apply rnd_id, F64_Z. lia. }
  destruct (ddiv_ok (dadd (double_of_N a) (double_of_N b)) (double_of_N 2)) as [Vd Fd]; [exact Fs|rewrite V2; lra|rewrite Es, V2; apply small_num; rewrite N2Z.inj_add, plus_IZR; lra|].
  assert (Ed : dval (ddiv (dadd (double_of_N a) (double_of_N b)) (double_of_N 2)) = IZR (Z.of_N (a + b)) / 2).
  { rewrite Vd, Es, V2. apply rnd_id. apply (F64_frac (Z.of_N (a + b)) (-1)); lia. }
  assert (FL : Zfloor (IZR (Z.of_N (a + b)) / 2) = Z.of_N ((a + b) / 2)).
  { rewrite N2Z.inj_div. change (Z.of_N 2) with 2%Z. apply (Zfloor_div (Z.of_N (a + b)) 2). lia. }
  rewrite N_of_double_trunc; [rewrite Ed, FL; f_equal; lia|exact Fd|rewrite Ed; assert (0 <= IZR (Z.of_N (a + b))) by (apply IZR_le; lia); lra|].
  rewrite Ed. apply Rmult_lt_reg_r with 2; [lra|]. unfold Rdiv. rewrite Rmult_assoc, Rinv_l by lra. rewrite Rmult_1_r, <- mult_IZR. apply IZR_lt.
  rewrite N2Z.inj_add. assert (Z.of_N a < 2 ^ Z.of_N w)%Z by (change 2%Z with (Z.of_N 2); rewrite <- N2Z.inj_pow; lia). assert (Z.of_N b < 2 ^ Z.of_N w)%Z by (change 2%Z with (Z.of_N 2); rewrite <- N2Z.inj_pow; lia). lia.
Qed.

(* ---- serial avalanche results ---- *)
Section Serial.
Variables (pow : double -> double -> double) (cdf : double -> double -> double).
Definition serial_label (c : nat) : string := ("bit(" ++ to_string_N (N.of_nat c) ++ ")")%string.
Definition serial_entry (w n : N) (counts : list (list N)) (c : nat) : outcome (list (string * statistic)) :=
    p <- flip_coin_pdf pow w (N.of_nat c) ;;
    row <- at_ counts c ;;
    s <- serial_avalanche_stats pow cdf w row (dmul (double_of_N n) p) ;;
    Ok match s with Some s => [(serial_label c, s)] | None => [] end.
Lemma serial_results_eq w n counts : serial_results pow cdf w n counts = (r <- omapM (serial_entry w n counts) (seq 0 (N.to_nat w)) ;; Ok (concat r)).
Proof. reflexivity. Qed.
Lemma omapM_ext {A B} (f g : A -> outcome B) l : (forall a, In a l -> f a = g a) -> omapM f l = omapM g l.
Proof. induction l as [|a l IH]; intro H; [reflexivity|]. cbn [omapM]. rewrite H by (left; reflexivity). rewrite IH by (intros; apply H; right; assumption). reflexivity. Qed.
Lemma serial_ignores_last w n counts counts' : (forall c, (c < N.to_nat w)%nat -> nth_error counts c = nth_error counts' c) ->
  serial_results pow cdf w n counts = serial_results pow cdf w n counts'.
Proof.
  intros H. rewrite !serial_results_eq. rewrite (omapM_ext _ (serial_entry w n counts')); [reflexivity|]. intros c Hc. apply in_seq in Hc.
  unfold serial_entry, at_. rewrite H by lia. reflexivity.
Qed.
Lemma serial_labels_gen w n counts l : forall r, omapM (serial_entry w n counts) l = Ok r -> exists f, map fst (concat r) = map serial_label (filter f l).
Proof.
  intros r H. exists (fun c => match serial_entry w n counts c with Ok (_ :: _) => true | _ => false end). revert r H.
  induction l as [|c l IH]; intros r H; cbn [omapM] in H.
  - injection H as <-. reflexivity.
  - destruct (serial_entry w n counts c) as [e|] eqn:E; [|discriminate]. destruct (omapM (serial_entry w n counts) l) as [r'|] eqn:E'; [|discriminate].
    cbn [obind] in H. injection H as <-. cbn [concat filter]. rewrite map_app, (IH r' eq_refl), E.
    unfold serial_entry in E. destruct (flip_coin_pdf pow w (N.of_nat c)); [|discriminate]. cbn [obind] in E. destruct (at_ counts c); [|discriminate]. cbn [obind] in E.
    destruct (serial_avalanche_stats pow cdf w _ _) as [[s|]|]; try discriminate; cbn [obind] in E; injection E as <-; reflexivity.
Qed.
End Serial.
