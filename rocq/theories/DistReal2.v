(* Bounds for the sums that occur in the incomplete gamma functions, and for the Lanczos
   approximation of log gamma. *)
From Coq Require Import Reals Lra Lia Psatz QArith Qpower Qreals ZArith List Bool.
From Verif Require Import DistReal.
Import ListNotations.
Open Scope R_scope.

(* ---- 1 + s/(s+1) + s^2/((s+1)(s+2)) + ... <= 1 + sqrt (2 s) ---- *)
Definition wsum (s i : R) : R := sqrt (i * i + 2 * s) - i.
Lemma wsum_pos s i : 0 < s -> 0 <= i -> 0 < wsum s i.
Proof.
  intros Hs Hi. unfold wsum. assert (i < sqrt (i * i + 2 * s)); [|lra].
  rewrite <- (sqrt_square i Hi) at 1. apply sqrt_lt_1; nra.
Qed.
Lemma wsum_step s i : 0 < s -> 0 <= i -> 1 + s / (s + i + 1) * (1 + wsum s (i + 1)) <= 1 + wsum s i.
Proof.
  intros Hs Hi. apply Rplus_le_compat_l. apply Rmult_le_reg_r with (s + i + 1); [lra|].
  replace (s / (s + i + 1) * (1 + wsum s (i + 1)) * (s + i + 1)) with (s * (1 + wsum s (i + 1))) by (field; lra).
  pose proof (wsum_pos s i Hs Hi) as W. unfold wsum in *.
  set (R1 := sqrt (i * i + 2 * s)) in *. set (R2 := sqrt ((i + 1) * (i + 1) + 2 * s)).
  assert (E1 : R1 * R1 = i * i + 2 * s) by (apply sqrt_sqrt; nra).
  assert (E2 : R2 * R2 = (i + 1) * (i + 1) + 2 * s) by (apply sqrt_sqrt; nra).
  assert (P1 : 0 <= R1) by apply sqrt_pos. assert (P2 : 0 <= R2) by apply sqrt_pos.
  assert (L : i + 1 <= R2) by nra.
  clearbody R1 R2.
  assert (K : s * (R2 - R1) <= (i + 1) * (R1 - i)).
  { apply Rmult_le_reg_r with (R1 + R2); [lra|].
    replace (s * (R2 - R1) * (R1 + R2)) with (s * (2 * i + 1)) by (transitivity (s * (R2 * R2 - R1 * R1)); [rewrite E1, E2; ring|ring]).
    assert (Es : s = (R1 - i) * (R1 + i) / 2) by lra. rewrite Es at 1.
    replace ((R1 - i) * (R1 + i) / 2 * (2 * i + 1)) with ((R1 - i) * ((R1 + i) * (i + / 2))) by field.
    replace ((i + 1) * (R1 - i) * (R1 + R2)) with ((R1 - i) * ((i + 1) * (R1 + R2))) by ring.
    apply Rmult_le_compat_l; [lra|]. nra. }
  lra.
Qed.
Lemma wsum_0 s : wsum s 0 = sqrt (2 * s).
Proof. unfold wsum. rewrite Rmult_0_l, Rplus_0_l. ring. Qed.
Lemma fall_bound z s : s <= z -> forall J i, 0 < s -> 0 <= i -> INR J + i <= s -> fall J (s - i) z <= 1 + wsum s i.
Proof.
  intros Hz. induction J as [|J IH]; intros i Hs Hi HJ; [simpl; pose proof (wsum_pos s i Hs Hi); lra|].
  rewrite S_INR in HJ. pose proof (pos_INR J). cbn [fall].
  apply Rle_trans with (2 := wsum_step s i Hs Hi). apply Rplus_le_compat_l.
  replace (s - i - 1) with (s - (i + 1)) by ring.
  pose proof (IH (i + 1) Hs ltac:(lra) ltac:(lra)) as F. pose proof (fall_ge J (s - (i + 1)) z ltac:(lra) ltac:(lra)) as G.
  assert (0 <= (s - (i + 1)) / z) by (apply Rmult_le_pos; [lra|left; apply Rinv_0_lt_compat; lra]).
  assert ((s - (i + 1)) / z <= s / (s + i + 1)).
  { apply Rmult_le_reg_r with (z * (s + i + 1)); [nra|].
    replace ((s - (i + 1)) / z * (z * (s + i + 1))) with ((s - (i + 1)) * (s + i + 1)) by (field; lra).
    replace (s / (s + i + 1) * (z * (s + i + 1))) with (s * z) by (field; lra). nra. }
  apply Rmult_le_compat; lra.
Qed.
Lemma fall_le J s z : INR J <= s -> 0 < s -> s <= z -> fall J s z <= 1 + sqrt (2 * s).
Proof. intros H Hs Hz. rewrite <- wsum_0. replace s with (s - 0) at 1 by ring. apply fall_bound; lra. Qed.

(* ---- exponentials ---- *)
Lemma exp_pow n x : exp (INR n * x) = exp x ^ n.
Proof.
  induction n as [|n IH]; [simpl; rewrite Rmult_0_l; apply exp_0|].
  rewrite S_INR, <- tech_pow_Rmult, <- IH, <- exp_plus. f_equal. ring.
Qed.
(* ln y <= c if y <= (1 + c/n)^n *)
Lemma ln_le_pow n y c : (0 < n)%nat -> 0 < y -> 0 <= c -> y <= (1 + c / INR n) ^ n -> ln y <= c.
Proof.
  intros Hn Hy Hc H. apply lt_0_INR in Hn. rewrite <- (ln_exp c). apply ln_mono; [exact Hy|].
  apply Rle_trans with (1 := H). replace c with (INR n * (c / INR n)) at 2 by (field; lra). rewrite exp_pow.
  apply pow_incr. split; [|apply exp_ineq1_le]. assert (0 <= c / INR n) by (apply Rmult_le_pos; [lra|left; now apply Rinv_0_lt_compat]). lra.
Qed.
Lemma ln_pow n y : 0 < y -> ln (y ^ n) = INR n * ln y.
Proof.
  intros Hy. induction n as [|n IH]; [simpl; rewrite ln_1; ring|].
  rewrite S_INR, <- tech_pow_Rmult, ln_mult, IH; [ring|exact Hy|now apply pow_lt].
Qed.
(* c <= ln y if ((2n + c)/(2n - c))^n <= y *)
Lemma pow_le_ln n y c : (0 < n)%nat -> 0 <= c < 2 * INR n -> ((2 * INR n + c) / (2 * INR n - c)) ^ n <= y -> c <= ln y.
Proof.
  intros Hn Hc H. apply lt_0_INR in Hn.
  set (u := 2 * c / (2 * INR n - c)). assert (Hu : 0 <= u) by (apply Rmult_le_pos; [lra|left; apply Rinv_0_lt_compat; lra]).
  assert (E : (2 * INR n + c) / (2 * INR n - c) = 1 + u) by (unfold u; field; lra).
  rewrite E in H. apply Rle_trans with (ln ((1 + u) ^ n)); [|apply ln_mono; [apply pow_lt; lra|exact H]].
  rewrite ln_pow by lra. apply Rle_trans with (INR n * (2 * u / (2 + u))).
  - right. unfold u. field. repeat split; lra.
  - apply Rmult_le_compat_l; [lra|]. now apply ln_pade.
Qed.

(* ---- the sum that log_gamma takes the logarithm of; the numbers are the doubles nearest to the
   decimal constants of the code ---- *)
Definition lanczosQ (z : Q) : Q :=
  ((6269301113871304 # 37778931862957161709568) / (z + 7) + (5864551754530531 # 590295810358705651712) / (z + 6)
   - (4992547625336385 # 36028797018963968) / (z + 5) + (7041008294433342 # 562949953421312) / (z + 4)
   - (6214088902087831 # 35184372088832) / (z + 3) + (6784632629720077 # 8796093022208) / (z + 2)
   - (5537752839099686 # 4398046511104) / (z + 1) + (5950736089418487 # 8796093022208) / z + (9007199254736653 # 9007199254740992))%Q.
Definition lanczos (z : R) : R :=
  6269301113871304 / 37778931862957161709568 / (z + 7) + 5864551754530531 / 590295810358705651712 / (z + 6)
   - 4992547625336385 / 36028797018963968 / (z + 5) + 7041008294433342 / 562949953421312 / (z + 4)
   - 6214088902087831 / 35184372088832 / (z + 3) + 6784632629720077 / 8796093022208 / (z + 2)
   - 5537752839099686 / 4398046511104 / (z + 1) + 5950736089418487 / 8796093022208 / z + 9007199254736653 / 9007199254740992.
Definition lg_const : R := 6283716585547818 / 1125899906842624.
Definition log_gamma_R (z : R) : R := ln (lanczos z) - lg_const - z + (z - / 2) * ln (z + 13 / 2).

Lemma Q2R_half m : Q2R (m # 2) = IZR m / 2. Proof. reflexivity. Qed.
Lemma Qnz q : 0 < Q2R q -> ~ (q == 0)%Q.
Proof. intros H E. apply Qeq_eqR in E. rewrite E in H. unfold Q2R in H. simpl in H. lra. Qed.
Lemma lanczosQ_R z : 0 < Q2R z -> Q2R (lanczosQ z) = lanczos (Q2R z).
Proof.
  intros H. unfold lanczosQ, lanczos.
  assert (A : forall n, 0 <= Q2R n -> Q2R (z + n) = Q2R z + Q2R n /\ ~ (z + n == 0)%Q).
  { intros n Hn. rewrite Q2R_plus. split; [reflexivity|]. apply Qnz. rewrite Q2R_plus. lra. }
  assert (C : forall k : positive, 0 <= Q2R (Z.pos k # 1)) by (intros k; unfold Q2R; simpl; rewrite Rinv_1, Rmult_1_r; apply (IZR_le 0); lia).
  assert (V : forall k : positive, Q2R (Z.pos k # 1) = IZR (Z.pos k)) by (intros k; unfold Q2R; simpl; rewrite Rinv_1; ring).
  repeat first [rewrite Q2R_plus | rewrite Q2R_minus | rewrite Q2R_div by (first [apply (A 7%Q), C|apply (A 6%Q), C|apply (A 5%Q), C|apply (A 4%Q), C|apply (A 3%Q), C|apply (A 2%Q), C|apply (A 1%Q), C|now apply Qnz])].
  rewrite !V. generalize (Q2R z). intros r. unfold Q2R. cbn [Qnum Qden]. reflexivity.
Qed.
(* x^2 (1 + 13/m)^(m-1) *)
Definition lz_check (m : Z) : bool :=
  Qle_bool 442500 (lanczosQ (m # 2) * lanczosQ (m # 2) * Qpower ((m + 13) # (Z.to_pos m)) (m - 1))%Q && Qle_bool 1 (lanczosQ (m # 2)).
Lemma lz_checks : forallb lz_check (map Z.of_nat (seq 2 101)) = true.
Proof. vm_compute. reflexivity. Qed.
(* (p/q)^(2^k) against a/b, by k squarings rounded to multiples of 10^-18 *)
Definition scale : Z := 1000000000000000000.
Fixpoint sq_lo (k : nat) (v : Z) : Z := match k with O => v | S k => sq_lo k (v * v / scale) end.
Fixpoint sq_hi (k : nat) (v : Z) : Z := match k with O => v | S k => sq_hi k (v * v / scale + 1) end.
Fixpoint pow2n (k : nat) : nat := match k with O => 1%nat | S k => (pow2n k + pow2n k)%nat end.
Lemma pow_twice x n : x ^ (n + n) = (x * x) ^ n.
Proof. rewrite pow_add, Rpow_mult_distr. reflexivity. Qed.
Lemma scale_pos : 0 < IZR scale. Proof. apply (IZR_lt 0). reflexivity. Qed.
Lemma div_scale v : IZR (v / scale) * IZR scale <= IZR v < (IZR (v / scale) + 1) * IZR scale.
Proof.
  pose proof (Z.div_mod v scale ltac:(discriminate)) as E. pose proof (Z.mod_pos_bound v scale eq_refl) as B. rewrite <- !plus_IZR, <- !mult_IZR. split; [apply IZR_le|apply IZR_lt]; lia.
Qed.
Lemma sq_lo_ok k : forall v x, (0 <= v)%Z -> IZR v <= x * IZR scale -> IZR (sq_lo k v) <= x ^ pow2n k * IZR scale.
Proof.
  pose proof scale_pos as P. induction k as [|k IH]; intros v x Hv H; [cbn [sq_lo pow2n]; rewrite pow_1; exact H|].
  cbn [sq_lo pow2n]. rewrite pow_twice. apply IH; [apply Z.div_pos; [nia|reflexivity]|].
  apply (Rmult_le_reg_r (IZR scale)); [exact P|]. apply Rle_trans with (1 := proj1 (div_scale (v * v))). rewrite mult_IZR.
  apply IZR_le in Hv. replace (x * x * IZR scale * IZR scale) with ((x * IZR scale) * (x * IZR scale)) by ring. apply Rmult_le_compat; assumption.
Qed.
Lemma sq_hi_ok k : forall v x, 0 <= x -> x * IZR scale <= IZR v -> x ^ pow2n k * IZR scale <= IZR (sq_hi k v).
Proof.
  pose proof scale_pos as P. induction k as [|k IH]; intros v x Hx H; [cbn [sq_hi pow2n]; rewrite pow_1; exact H|].
  cbn [sq_hi pow2n]. rewrite pow_twice. apply IH; [apply Rmult_le_pos; exact Hx|].
  apply (Rmult_le_reg_r (IZR scale)); [exact P|]. rewrite plus_IZR. apply Rle_trans with (2 := Rlt_le _ _ (proj2 (div_scale (v * v)))). rewrite mult_IZR.
  replace (x * x * IZR scale * IZR scale) with ((x * IZR scale) * (x * IZR scale)) by ring. assert (0 <= x * IZR scale) by (apply Rmult_le_pos; lra). apply Rmult_le_compat; assumption.
Qed.
Lemma pow_ge (k n : nat) (a b p q : Z) : n = pow2n k -> (0 <= p)%Z -> (0 < q)%Z -> (0 < b)%Z -> (a * scale <=? b * sq_lo k (p * scale / q))%Z = true -> IZR a / IZR b <= (IZR p / IZR q) ^ n.
Proof.
  intros -> Hp Hq Hb H. apply Z.leb_le, IZR_le in H. rewrite !mult_IZR in H. pose proof scale_pos as P.
  pose proof (IZR_lt _ _ Hq) as Q. apply IZR_lt in Hb.
  assert (L : IZR (sq_lo k (p * scale / q)) <= (IZR p / IZR q) ^ pow2n k * IZR scale).
  { apply sq_lo_ok; [apply Z.div_pos; [unfold scale; lia|exact Hq]|]. apply (Rmult_le_reg_r (IZR q)); [exact Q|]. replace (IZR p / IZR q * IZR scale * IZR q) with (IZR (p * scale)) by (rewrite mult_IZR; field; lra).
    rewrite <- mult_IZR. apply IZR_le. rewrite (Z.mul_comm (_ / _) q). apply Z.mul_div_le, Hq. }
  set (X := (IZR p / IZR q) ^ pow2n k) in *. set (Y := IZR (sq_lo k (p * scale / q))) in *.
  apply (Rmult_le_reg_r (IZR b * IZR scale)); [apply Rmult_lt_0_compat; assumption|].
  replace (IZR a / IZR b * (IZR b * IZR scale)) with (IZR a * IZR scale) by (field; lra). apply Rle_trans with (1 := H).
  replace (X * (IZR b * IZR scale)) with (IZR b * (X * IZR scale)) by ring. apply Rmult_le_compat_l; lra.
Qed.
Lemma pow_le' (k n : nat) (a b p q : Z) : n = pow2n k -> (0 <= p)%Z -> (0 < q)%Z -> (0 < b)%Z -> (b * sq_hi k (p * scale / q + 1) <=? a * scale)%Z = true -> (IZR p / IZR q) ^ n <= IZR a / IZR b.
Proof.
  intros -> Hp Hq Hb H. apply Z.leb_le, IZR_le in H. rewrite !mult_IZR in H. pose proof scale_pos as P.
  pose proof (IZR_lt _ _ Hq) as Q. apply IZR_lt in Hb. apply IZR_le in Hp as Hp'.
  assert (L : (IZR p / IZR q) ^ pow2n k * IZR scale <= IZR (sq_hi k (p * scale / q + 1))).
  { apply sq_hi_ok; [apply Rmult_le_pos; [exact Hp'|left; apply Rinv_0_lt_compat, Q]|]. apply (Rmult_le_reg_r (IZR q)); [exact Q|]. replace (IZR p / IZR q * IZR scale * IZR q) with (IZR (p * scale)) by (rewrite mult_IZR; field; lra).
    rewrite <- mult_IZR. apply IZR_le. pose proof (Z.mul_succ_div_gt (p * scale) q Hq) as G. unfold Z.succ in G. apply Z.lt_le_incl. rewrite (Z.mul_comm (_ + 1) q). exact G. }
  set (X := (IZR p / IZR q) ^ pow2n k) in *. set (Y := IZR (sq_hi k (p * scale / q + 1))) in *.
  apply (Rmult_le_reg_r (IZR b * IZR scale)); [apply Rmult_lt_0_compat; assumption|].
  replace (IZR a / IZR b * (IZR b * IZR scale)) with (IZR a * IZR scale) by (field; lra). apply Rle_trans with (2 := H).
  replace (X * (IZR b * IZR scale)) with (IZR b * (X * IZR scale)) by ring. apply Rmult_le_compat_l; lra.
Qed.
Lemma e13 : 13 <= ln 442500.
Proof.
  apply (pow_le_ln (Z.to_nat 1024)); [lia| |].
  - rewrite INR_IZR_INZ, Z2Nat.id by lia. lra.
  - rewrite INR_IZR_INZ, Z2Nat.id by lia.
    replace ((2 * 1024 + 13) / (2 * 1024 - 13)) with (2061 / 2035) by lra. replace 442500 with (442500 / 1) by lra.
    apply (pow_le' 10); [reflexivity|lia|lia|lia|]. vm_compute. reflexivity.
Qed.

Lemma Q2R_pow (q : Q) (n : nat) : ~ (q == 0)%Q -> Q2R (Qpower q (Z.of_nat n)) = Q2R q ^ n.
Proof.
  intros Hq. induction n as [|n IH]; [simpl; unfold Q2R; simpl; field|].
  rewrite Nat2Z.inj_succ. unfold Z.succ.
  rewrite (Qeq_eqR _ _ (Qpower_plus q (Z.of_nat n) 1 Hq)), Q2R_mult, IH. simpl. ring.
Qed.
Local Opaque Qle_bool lanczosQ Qpower Qmult.
Lemma lz_check_spec m : lz_check m = true -> Qle_bool 442500 (lanczosQ (m # 2) * lanczosQ (m # 2) * Qpower ((m + 13) # (Z.to_pos m)) (m - 1))%Q = true /\ Qle_bool 1 (lanczosQ (m # 2)) = true.
Proof. intros H. unfold lz_check in H. now apply andb_true_iff in H. Qed.
(* up to z = 51 the approximation is not below Stirling's formula ... *)
Lemma lanczos_table m : (2 <= m <= 102)%Z -> 1 <= lanczos (IZR m / 2) /\ 13 / 2 <= ln (lanczos (IZR m / 2)) + (IZR m / 2 - / 2) * ln (1 + 13 / 2 / (IZR m / 2)).
Proof.
  intros Hm. pose proof lz_checks as H. rewrite forallb_forall in H. specialize (H m).
  assert (I : In m (map Z.of_nat (seq 2 101))) by (apply in_map_iff; exists (Z.to_nat m); split; [lia|apply in_seq; lia]).
  specialize (H I). apply lz_check_spec in H. destruct H as [H1 H2].
  assert (Pm : 0 < Q2R (m # 2)) by (rewrite Q2R_half; assert (0 < IZR m) by (apply IZR_lt; lia); lra).
  apply Qle_bool_imp_le, Qle_Rle in H2. rewrite lanczosQ_R, Q2R_half in H2 by exact Pm.
  replace (Q2R 1) with 1 in H2 by (unfold Q2R; simpl; field). split; [exact H2|].
  apply Qle_bool_imp_le, Qle_Rle in H1. rewrite !Q2R_mult, lanczosQ_R, Q2R_half in H1 by exact Pm.
  set (x := lanczos (IZR m / 2)) in *.
  assert (Mp : 0 < IZR m) by (apply IZR_lt; lia).
  assert (E : Q2R (Qpower (m + 13 # Z.to_pos m) (m - 1)) = (1 + 13 / IZR m) ^ Z.to_nat (m - 1)).
  { replace (m - 1)%Z with (Z.of_nat (Z.to_nat (m - 1))) at 1 by lia.
    rewrite Q2R_pow.
    - f_equal. unfold Q2R. cbn [Qnum Qden]. rewrite Z2Pos.id by lia. rewrite plus_IZR. field. lra.
    - intros Z0. unfold Qeq in Z0. simpl in Z0. lia. }
  rewrite E in H1. set (y := 1 + 13 / IZR m) in *.
  assert (Py : 0 < y) by (unfold y; assert (0 < 13 / IZR m) by (apply Rmult_lt_0_compat; [lra|now apply Rinv_0_lt_compat]); lra).
  assert (L : 13 <= ln (x * x * y ^ Z.to_nat (m - 1))).
  { apply Rle_trans with (1 := e13). apply ln_mono; [lra|]. apply Rle_trans with (2 := H1). right. unfold Q2R. simpl. field. }
  rewrite !ln_mult, ln_pow in L by (try lra; try (apply Rmult_lt_0_compat; lra); apply pow_lt; lra).
  replace (1 + 13 / 2 / (IZR m / 2)) with y by (unfold y; field; lra).
  rewrite INR_IZR_INZ, Z2Nat.id, minus_IZR in L by lia. lra.
Qed.
(* ... and for larger z not much *)
Lemma lanczos_large z : 51 <= z <= 1000000 -> 1 <= lanczos z /\ 13 / 2 - 45 / 100 <= ln (lanczos z) + (z - / 2) * ln (1 + 13 / 2 / z).
Proof.
  intros [Hz Hz2].
  assert (X : 1 <= lanczos z).
  { unfold lanczos.
    assert (P : forall a b, 0 < a -> 0 <= b -> 0 < a / (z + b)) by (intros a b Ha Hb; apply Rmult_lt_0_compat; [lra|apply Rinv_0_lt_compat; lra]).
    pose proof (P (6269301113871304 / 37778931862957161709568) 7 ltac:(lra) ltac:(lra)).
    pose proof (P (5864551754530531 / 590295810358705651712) 6 ltac:(lra) ltac:(lra)).
    assert (S : forall a k, 0 <= k -> a / (z + k) = a / z - a * k / (z * (z + k))) by (intros a k Hk; field; lra).
    rewrite (S (4992547625336385 / 36028797018963968) 5), (S (7041008294433342 / 562949953421312) 4), (S (6214088902087831 / 35184372088832) 3),
      (S (6784632629720077 / 8796093022208) 2), (S (5537752839099686 / 4398046511104) 1) by lra.
    set (v := / z). assert (Vz : v * z = 1) by (unfold v; field; lra). assert (Pv : 0 < v) by (unfold v; apply Rinv_0_lt_compat; lra).
    assert (T : forall k, 0 <= k -> 0 <= / (z * (z + k)) <= v * v).
    { intros k Hk. split; [left; apply Rinv_0_lt_compat; nra|]. unfold v. rewrite <- Rinv_mult. apply Rinv_le_contravar; nra. }
    assert (T1 : / (z * (z + 2)) <= / (z * (z + 1))) by (apply Rinv_le_contravar; nra).
    assert (T2 : / (z * (z + 4)) <= / (z * (z + 1))) by (apply Rinv_le_contravar; nra).
    pose proof (T 1 ltac:(lra)). pose proof (T 3 ltac:(lra)). pose proof (T 5 ltac:(lra)).
    unfold Rdiv in *. fold v. fold v in T1, T2.
    assert (V51 : 51 * v <= 1) by nra.
    assert (Vm : / 1000000 <= v) by (unfold v; apply Rinv_le_contravar; lra).
    assert (v * v * 51 <= v) by nra. lra. }
  split; [exact X|]. assert (L : 0 <= ln (lanczos z)) by (rewrite <- ln_1; apply ln_mono; lra).
  assert (U : 0 <= 13 / 2 / z) by (apply Rmult_le_pos; [lra|left; apply Rinv_0_lt_compat; lra]).
  pose proof (ln_pade _ U) as Q.
  assert (M : (z - / 2) * (2 * (13 / 2 / z) / (2 + 13 / 2 / z)) <= (z - / 2) * ln (1 + 13 / 2 / z)) by (apply Rmult_le_compat_l; lra).
  assert (E : (z - / 2) * (2 * (13 / 2 / z) / (2 + 13 / 2 / z)) = 13 / 2 - 195 / 8 / (z + 13 / 4)) by (field; lra).
  assert (195 / 8 / (z + 13 / 4) <= 45 / 100).
  { apply Rmult_le_reg_r with (z + 13 / 4); [lra|]. replace (195 / 8 / (z + 13 / 4) * (z + 13 / 4)) with (195 / 8) by (field; lra). lra. }
  lra.
Qed.

(* ---- log gamma is large enough ---- *)
Definition kappa : R := 13 / 2 - lg_const.
Lemma kappa_val : 9189 / 10000 <= kappa. Proof. unfold kappa, lg_const. lra. Qed.
Lemma log_gamma_stirling z d : 0 < z -> 13 / 2 - d <= ln (lanczos z) + (z - / 2) * ln (1 + 13 / 2 / z) -> (z - / 2) * ln z - z + kappa - d <= log_gamma_R z.
Proof.
  intros Hz H. unfold log_gamma_R, kappa.
  assert (E : ln (1 + 13 / 2 / z) = ln (z + 13 / 2) - ln z) by (rewrite <- ln_quot by lra; f_equal; field; lra).
  rewrite E in H. lra.
Qed.
(* s is a multiple of one half *)
Definition half_int (z : R) : Prop := exists m : Z, (0 < m)%Z /\ z = IZR m / 2.
Lemma half_ge z : half_int z -> / 2 < z -> 1 <= z.
Proof. intros (m & _ & ->) H. assert (1 < IZR m) by lra. apply (lt_IZR 1) in H0. assert (2 <= IZR m) by (apply IZR_le; lia). lra. Qed.
Lemma log_gamma_low z : half_int z -> 1 <= z <= 1000000 ->
  1 <= lanczos z /\ (z - / 2) * ln z - z + kappa - (if Rle_dec 51 z then 45 / 100 else 0) <= log_gamma_R z.
Proof.
  intros (m & Pm & ->) Hz. destruct (Rle_dec 51 (IZR m / 2)) as [L|L].
  - destruct (lanczos_large (IZR m / 2)) as [A B]; [lra|]. split; [exact A|]. apply log_gamma_stirling; [lra|exact B].
  - assert (R : (2 <= m <= 102)%Z) by (split; apply le_IZR; lra). destruct (lanczos_table m R) as [A B]. split; [exact A|].
    apply log_gamma_stirling; [lra|]. lra.
Qed.
Lemma INR256 : INR 256 = 256. Proof. rewrite INR_IZR_INZ. reflexivity. Qed.
Lemma INR1024 : INR (Z.to_nat 1024) = 1024. Proof. rewrite INR_IZR_INZ. reflexivity. Qed.
Lemma sqrt2_le : sqrt 2 <= 141422 / 100000.
Proof. rewrite <- (sqrt_square (141422 / 100000)) by lra. apply sqrt_le_1; lra. Qed.
Lemma ln_gap s c : 0 < s -> 0 < c -> 1 + sqrt (2 * s) <= c * sqrt s -> ln (1 + sqrt (2 * s)) <= / 2 * ln s + ln c.
Proof.
  intros Hs Hc H. pose proof (sqrt_lt_R0 s Hs) as P. pose proof (sqrt_pos (2 * s)).
  apply Rle_trans with (ln (c * sqrt s)); [apply ln_mono; lra|]. rewrite ln_mult by lra.
  assert (E : ln s = ln (sqrt s) + ln (sqrt s)) by (rewrite <- ln_mult by lra; f_equal; symmetry; apply sqrt_sqrt; lra). lra.
Qed.
Lemma gap_small s : 1 <= s -> ln (1 + sqrt (2 * s)) <= / 2 * ln s + 89 / 100.
Proof.
  intros Hs. assert (P : 1 <= sqrt s) by (rewrite <- sqrt_1; apply sqrt_le_1; lra).
  apply Rle_trans with (/ 2 * ln s + ln (241422 / 100000)).
  - apply ln_gap; [lra|lra|]. rewrite sqrt_mult by lra. pose proof sqrt2_le. nra.
  - apply Rplus_le_compat_l. apply (ln_le_pow 256); [lia|lra|lra|]. rewrite INR256. replace (1 + 89 / 100 / 256) with (25689 / 25600) by lra.
    apply (pow_ge 8); [reflexivity|lia|lia|lia|]. vm_compute. reflexivity.
Qed.
Lemma gap_large s : 50 <= s -> ln (1 + sqrt (2 * s)) <= / 2 * ln s + 4425 / 10000.
Proof.
  intros Hs. assert (P : 707 / 100 <= sqrt s) by (rewrite <- (sqrt_square (707 / 100)) by lra; apply sqrt_le_1; lra).
  apply Rle_trans with (/ 2 * ln s + ln (155567 / 100000)).
  - apply ln_gap; [lra|lra|]. rewrite sqrt_mult by lra. pose proof sqrt2_le. nra.
  - apply Rplus_le_compat_l. apply (ln_le_pow 256); [lia|lra|lra|]. rewrite INR256. replace (1 + 4425 / 10000 / 256) with (2564425 / 2560000) by lra.
    apply (pow_ge 8); [reflexivity|lia|lia|lia|]. vm_compute. reflexivity.
Qed.
Lemma ln2_up : ln 2 <= 694 / 1000.
Proof.
  apply (ln_le_pow (Z.to_nat 1024)); [lia|lra|lra|]. rewrite INR1024. replace (1 + 694 / 1000 / 1024) with (1024694 / 1024000) by lra.
  replace 2 with (2 / 1) by lra. apply (pow_ge 10); [reflexivity|lia|lia|lia|]. vm_compute. reflexivity.
Qed.
Lemma ln2_low : 2 / 3 <= ln 2.
Proof. pose proof (ln_pade 1 ltac:(lra)) as H. replace (1 + 1) with 2 in H by ring. lra. Qed.

(* ---- the exponents ---- *)
(* lower function, s >= 1 *)
Lemma exponent_p s z S : half_int s -> 1 <= s <= 900000 -> 0 < z <= s -> 0 < S <= (1 + / 1000) * (1 + sqrt (2 * s)) ->
  s * ln z - z - log_gamma_R (s + 1) + ln S <= - 20 / 1000.
Proof.
  intros Hh Hs Hz [HS1 HS2].
  assert (Z1 : s * ln z - z <= s * ln s - s).
  { assert (A : ln (z / s) <= z / s - 1) by (apply ln_upper, Rmult_lt_0_compat; [lra|apply Rinv_0_lt_compat; lra]).
    rewrite ln_quot in A by lra.
    assert (B : s * (ln z - ln s) <= s * (z / s - 1)) by (apply Rmult_le_compat_l; lra).
    replace (s * (z / s - 1)) with (z - s) in B by (field; lra). lra. }
  assert (LS : ln S <= / 1000 + ln (1 + sqrt (2 * s))).
  { pose proof (sqrt_pos (2 * s)). apply Rle_trans with (ln ((1 + / 1000) * (1 + sqrt (2 * s)))); [apply ln_mono; lra|].
    rewrite ln_mult by lra. pose proof (ln_upper (1 + / 1000) ltac:(lra)). lra. }
  assert (H1 : half_int (s + 1)) by (destruct Hh as (m & Pm & ->); exists (m + 2)%Z; split; [lia|rewrite plus_IZR; lra]).
  destruct (log_gamma_low (s + 1) H1 ltac:(lra)) as [_ G].
  assert (C : ln s + 1 / (s + / 2) <= ln (s + 1)).
  { assert (U : 0 <= / s) by (left; apply Rinv_0_lt_compat; lra). pose proof (ln_pade _ U) as Q.
    replace (1 + / s) with ((s + 1) / s) in Q by (field; lra). rewrite ln_quot in Q by lra.
    replace (2 * / s / (2 + / s)) with (1 / (s + / 2)) in Q by (field; lra). lra. }
  assert (C2 : (s + / 2) * ln s + 1 <= (s + 1 - / 2) * ln (s + 1)).
  { replace ((s + / 2) * ln s + 1) with ((s + / 2) * (ln s + 1 / (s + / 2))) by (field; lra).
    replace (s + 1 - / 2) with (s + / 2) by lra. apply Rmult_le_compat_l; lra. }
  pose proof kappa_val as K. destruct (Rle_dec 51 (s + 1)) as [L|L].
  - pose proof (gap_large s ltac:(lra)). lra.
  - pose proof (gap_small s ltac:(lra)). lra.
Qed.
(* upper function, s >= 1 *)
Lemma exponent_q_gen s z f J : half_int s -> 1 <= s <= 900000 -> s <= z -> INR J < s <= INR J + 1 -> (1 - / 1000) * (z / fall J s z) <= f ->
  s * ln z - z - log_gamma_R s - ln f <= - 20 / 1000 + ((s - 1) * ln z - z - ((s - 1) * ln s - s)).
Proof.
  intros Hh Hs Hz HJ Hf. pose proof (pos_INR J) as PJ.
  pose proof (fall_ge J s z ltac:(lra) ltac:(lra)) as F1. pose proof (fall_le J s z ltac:(lra) ltac:(lra) Hz) as F2.
  assert (Pq : 0 < z / fall J s z) by (apply Rmult_lt_0_compat; [lra|apply Rinv_0_lt_compat; lra]).
  assert (LF : ln z - ln (1 + sqrt (2 * s)) - 2 / 1000 <= ln f).
  { apply Rle_trans with (ln ((1 - / 1000) * (z / fall J s z))); [|apply ln_mono; nra].
    rewrite ln_mult, ln_quot by lra. assert (F0 : 0 < fall J s z) by lra. pose proof (ln_mono _ _ F0 F2).
    assert (U : - (2 / 1000) <= ln (1 - / 1000)).
    { pose proof (ln_upper (/ (1 - / 1000)) ltac:(apply Rinv_0_lt_compat; lra)) as Q. rewrite ln_Rinv in Q by lra. lra. }
    lra. }
  destruct (log_gamma_low s Hh ltac:(lra)) as [_ G]. pose proof kappa_val as K. destruct (Rle_dec 51 s) as [L|L].
  - pose proof (gap_large s ltac:(lra)). lra.
  - pose proof (gap_small s ltac:(lra)). lra.
Qed.
Lemma exponent_q s z f J : half_int s -> 1 <= s <= 900000 -> s <= z -> INR J < s <= INR J + 1 -> (1 - / 1000) * (z / fall J s z) <= f ->
  s * ln z - z - log_gamma_R s - ln f <= - 20 / 1000.
Proof.
  intros Hh Hs Hz HJ Hf. pose proof (exponent_q_gen s z f J Hh Hs Hz HJ Hf) as E.
  assert (Z1 : (s - 1) * ln z - z <= (s - 1) * ln s - s).
  { assert (A : ln (z / s) <= z / s - 1) by (apply ln_upper, Rmult_lt_0_compat; [lra|apply Rinv_0_lt_compat; lra]).
    rewrite ln_quot in A by lra.
    assert (B : (s - 1) * (ln z - ln s) <= (s - 1) * (z / s - 1)) by (apply Rmult_le_compat_l; lra).
    assert (D : (s - 1) * (z / s - 1) <= z - s).
    { replace (z - s) with (s * (z / s - 1)) by (field; lra). apply Rmult_le_compat_r; [|lra].
      assert (1 <= z / s); [|lra]. apply Rmult_le_reg_r with s; [lra|]. replace (z / s * s) with z by (field; lra). lra. }
    lra. }
  lra.
Qed.
(* far above s *)
Lemma exponent_q_far s z f J : half_int s -> 1 <= s <= 900000 -> 4 * s <= z -> INR J < s <= INR J + 1 -> (1 - / 1000) * (z / fall J s z) <= f ->
  s * ln z - z - log_gamma_R s - ln f <= - (4 / 10) * z.
Proof.
  intros Hh Hs Hz HJ Hf. pose proof (exponent_q_gen s z f J Hh Hs ltac:(lra) HJ Hf) as E.
  assert (Z4 : 0 < z / (4 * s)) by (apply Rmult_lt_0_compat; [lra|apply Rinv_0_lt_compat; lra]).
  pose proof (ln_upper _ Z4) as A. rewrite ln_quot, ln_mult in A by lra. replace (ln 4) with (ln (2 * 2)) in A by (f_equal; lra). rewrite ln_mult in A by lra. pose proof ln2_up as L2.
  assert (B : ln z - ln s <= z / (4 * s) + 388 / 1000) by lra.
  assert (C0 : 0 <= ln z - ln s) by (pose proof (ln_mono s z ltac:(lra) ltac:(lra)); lra).
  assert (C : s * (ln z - ln s) <= s * (z / (4 * s) + 388 / 1000)) by (apply Rmult_le_compat_l; lra).
  replace (s * (z / (4 * s) + 388 / 1000)) with (z / 4 + 388 / 1000 * s) in C by (field; lra). lra.
Qed.
(* s = 1/2 *)
Lemma lanczos_half : 700 <= lanczos (/ 2).
Proof. unfold lanczos. lra. Qed.
Lemma lanczos_3half : 1317 / 10 <= lanczos (3 / 2) .
Proof. unfold lanczos. lra. Qed.
Lemma exponent_p_half z S : 0 < z <= 1 -> 0 < S <= (1 + / 1000) * (20308 / 10000) -> / 2 * ln z - z - log_gamma_R (/ 2 + 1) + ln S <= - 10 / 1000.
Proof.
  intros Hz [HS1 HS2].
  assert (Z1 : / 2 * ln z - z <= - / 2 * ln 2 - / 2).
  { pose proof (ln_upper (2 * z) ltac:(lra)) as A. rewrite ln_mult in A by lra. lra. }
  assert (LS : ln S <= / 1000 + (ln 2 + 154 / 10000)).
  { apply Rle_trans with (ln ((1 + / 1000) * (2 * (10154 / 10000)))); [apply ln_mono; lra|].
    rewrite !ln_mult by lra. pose proof (ln_upper (1 + / 1000) ltac:(lra)). pose proof (ln_upper (10154 / 10000) ltac:(lra)). lra. }
  assert (G : - 1215 / 10000 <= log_gamma_R (/ 2 + 1)).
  { unfold log_gamma_R, lg_const. replace (/ 2 + 1) with (3 / 2) by lra. replace (3 / 2 - / 2) with 1 by lra. replace (3 / 2 + 13 / 2) with 8 by lra.
    assert (E : 6959562 / 1000000 <= ln (10536 / 10)).
    { apply (pow_le_ln (Z.to_nat 1024)); [lia|rewrite INR1024; lra|]. rewrite INR1024.
      replace ((2 * 1024 + 6959562 / 1000000) / (2 * 1024 - 6959562 / 1000000)) with (2054959562 / 2041040438) by lra.
      apply (pow_le' 10); [reflexivity|lia|lia|lia|]. vm_compute. reflexivity. }
    assert (ln (10536 / 10) <= ln (lanczos (3 / 2)) + ln 8); [|lra].
    pose proof lanczos_3half. rewrite <- ln_mult by lra. apply ln_mono; lra. }
  pose proof ln2_up. lra.
Qed.
Lemma exponent_q_half z f : 1 <= z -> (1 - / 1000) * z <= f -> / 2 * ln z - z - log_gamma_R (/ 2) - ln f <= - 20 / 1000.
Proof.
  intros Hz Hf.
  assert (LF : ln z - 2 / 1000 <= ln f).
  { apply Rle_trans with (ln ((1 - / 1000) * z)); [|apply ln_mono; nra]. rewrite ln_mult by lra.
    pose proof (ln_upper (/ (1 - / 1000)) ltac:(apply Rinv_0_lt_compat; lra)) as Q. rewrite ln_Rinv in Q by lra. lra. }
  assert (0 <= ln z) by (rewrite <- ln_1; apply ln_mono; lra).
  assert (G : - 75 / 100 <= log_gamma_R (/ 2)).
  { unfold log_gamma_R, lg_const. replace (/ 2 - / 2) with 0 by lra.
    assert (8 * (2 / 3) <= ln (lanczos (/ 2))); [|lra].
    apply Rle_trans with (ln (2 ^ 8)); [|apply ln_mono; [lra|pose proof lanczos_half; lra]].
    rewrite ln_pow by lra. pose proof ln2_low. simpl INR. lra. }
  lra.
Qed.
Lemma exponent_q_half_far z f : 1 <= z -> (1 - / 1000) * z <= f -> / 2 * ln z - z - log_gamma_R (/ 2) - ln f <= 1 - z.
Proof.
  intros Hz Hf.
  assert (LF : ln z - 2 / 1000 <= ln f).
  { apply Rle_trans with (ln ((1 - / 1000) * z)); [|apply ln_mono; nra]. rewrite ln_mult by lra.
    pose proof (ln_upper (/ (1 - / 1000)) ltac:(apply Rinv_0_lt_compat; lra)) as Q. rewrite ln_Rinv in Q by lra. lra. }
  assert (0 <= ln z) by (rewrite <- ln_1; apply ln_mono; lra).
  assert (G : - 75 / 100 <= log_gamma_R (/ 2)).
  { unfold log_gamma_R, lg_const. replace (/ 2 - / 2) with 0 by lra.
    assert (8 * (2 / 3) <= ln (lanczos (/ 2))); [|lra].
    apply Rle_trans with (ln (2 ^ 8)); [|apply ln_mono; [lra|pose proof lanczos_half; lra]].
    rewrite ln_pow by lra. pose proof ln2_low. simpl INR. lra. }
  lra.
Qed.
