(* The modified Lentz algorithm of _kf_gammaq in floating point against the exact scheme. *)
From Coq Require Import Reals Lra Lia Psatz ZArith List.
From Flocq Require Import Core BinarySingleNaN.
From Verif Require Import Base FloatModel FloatLemmas ResultModel CollectModel StatsModel StatsProofs CouponFloatProofs StatFormulas DistModel DistReal DistReal2 DistSeries.
Open Scope R_scope.

(* ---- bounds of the exact scheme ---- *)
Section Range.
Variables (s z : R) (J : nat).
Hypothesis HJ : INR J < s <= INR J + 1.
Hypothesis Hz : s <= z.
Hypothesis Hz1 : 1 <= z.
Lemma cf_range n : forall t, INR n <= s -> 1 <= t <= z + (s + 2) * (s + 2) -> 1 <= cf s z n t <= z + (s + 2) * (s + 2).
Proof.
  induction n as [|n IH]; intros t Hn Ht; [exact Ht|]. rewrite S_INR in Hn. cbn [cf]. apply IH; [lra|]. pose proof (pos_INR n) as Pn.
  assert (A : 0 <= cf_a s (S n) <= s * s).
  { unfold cf_a. rewrite S_INR. split; [apply Rmult_le_pos; lra|apply Rmult_le_compat; lra]. }
  assert (I : 0 < / t <= 1) by (split; [apply Rinv_0_lt_compat; lra|rewrite <- Rinv_1; apply Rinv_le_contravar; lra]).
  assert (Q : 0 <= cf_a s (S n) / t <= s * s).
  { unfold Rdiv. split; [apply Rmult_le_pos; lra|]. rewrite <- (Rmult_1_r (s * s)). apply Rmult_le_compat; lra. }
  unfold cf_b. lra.
Qed.
Lemma lz_f_range n : 1 <= lz_f s z n <= z + (s + 2) * (s + 2).
Proof.
  pose proof (pos_INR J) as PJ. assert (Ps : 0 < s) by lra. assert (SS : 0 <= s * s) by (apply Rmult_le_pos; lra).
  destruct (Nat.le_gt_cases J n) as [L|L].
  - replace n with (J + (n - J))%nat by lia. set (m := (n - J)%nat).
    assert (PK : INR J <= INR (J + m)) by (apply le_INR; lia).
    destruct (tail_range s z J HJ Hz1 m (cf_b s z (J + m))) as (t' & R1 & R2 & R3); [unfold cf_b; lra|].
    assert (T : tails s z J t') by (apply tails_low; lra).
    rewrite <- cf_convergent by (first [exact Ps|exact Hz|exact Hz1|exact (R3 T)]).
    rewrite R2. apply cf_range; [lra|]. lra.
  - assert (K : INR n <= INR J) by (apply le_INR; lia). pose proof (pos_INR n).
    rewrite <- cf_convergent by (first [exact Ps|exact Hz|exact Hz1|apply tails_low; unfold cf_b; lra]).
    apply cf_range; [lra|]. unfold cf_b. lra.
Qed.
(* the parts of b_n + a_n / C_{n-1} *)
Lemma part_C n : let P := cf_a s (S n) / lz_C s z n in let E := lz_C s z (S n) in
  E = cf_b s z (S n) + P /\ Rabs P <= E /\ 0 <= cf_b s z (S n) <= 2 * E /\ 1 <= E <= 2 * INR (S n) + 1 + z + s * INR (S n).
Proof.
  pose proof (pos_INR J) as PJ. assert (Ps : 0 < s) by lra. intros P E.
  pose proof (lz_C_ge s z Ps Hz n) as Cn. pose proof (lz_C_ge s z Ps Hz (S n)) as CS. fold E in CS. rewrite S_INR in *. pose proof (pos_INR n) as Pn.
  assert (HE : E = cf_b s z (S n) + P) by reflexivity.
  assert (HB : 2 * INR n + 3 <= cf_b s z (S n) <= 2 * INR n + 3 + z - s) by (unfold cf_b; rewrite S_INR; lra).
  assert (I : 0 < / lz_C s z n) by (apply Rinv_0_lt_compat; lra).
  assert (I1 : / lz_C s z n <= 1) by (rewrite <- Rinv_1; apply Rinv_le_contravar; lra).
  destruct (Rle_dec (INR n + 1) s) as [L|L].
  - assert (A : 0 <= cf_a s (S n)) by (unfold cf_a; rewrite S_INR; apply Rmult_le_pos; lra).
    assert (P0 : 0 <= P) by (unfold P, Rdiv; apply Rmult_le_pos; lra).
    assert (P1 : P <= s * (INR n + 1)).
    { unfold P, Rdiv. rewrite <- (Rmult_1_r (s * (INR n + 1))). apply Rmult_le_compat; try lra. unfold cf_a. rewrite S_INR, Rmult_comm. apply Rmult_le_compat_r; lra. }
    rewrite (Rabs_pos_eq P P0). repeat split; lra.
  - assert (A : cf_a s (S n) = - ((INR n + 1) * (INR n + 1 - s))) by (unfold cf_a; rewrite S_INR; ring).
    assert (K : 0 <= (INR n + 1) * (INR n + 1 - s)) by (apply Rmult_le_pos; lra).
    assert (I2 : / lz_C s z n <= / (INR n + 1)) by (apply Rinv_le_contravar; lra).
    assert (P0 : - (INR n + 1 - s) <= P <= 0).
    { unfold P, Rdiv. rewrite A. assert (Q : (INR n + 1) * (INR n + 1 - s) * / lz_C s z n <= (INR n + 1) * (INR n + 1 - s) * / (INR n + 1)) by (apply Rmult_le_compat_l; lra).
      replace ((INR n + 1) * (INR n + 1 - s) * / (INR n + 1)) with (INR n + 1 - s) in Q by (field; lra).
      assert (0 <= (INR n + 1) * (INR n + 1 - s) * / lz_C s z n) by (apply Rmult_le_pos; lra). lra. }
    assert (0 <= s * (INR n + 1)) by (apply Rmult_le_pos; lra).
    rewrite (Rabs_left1 P) by lra. repeat split; lra.
Qed.
(* the parts of b_n + a_n D_{n-1} *)
Definition lz_E (n : nat) : R := cf_b s z (S n) + cf_a s (S n) * lz_D s z n.
Lemma part_D n : let P := cf_a s (S n) * lz_D s z n in let E := lz_E n in
  lz_D s z (S n) = / E /\ E = cf_b s z (S n) + P /\ Rabs P <= E /\ 0 <= cf_b s z (S n) <= 2 * E /\ 1 <= E <= 2 * INR (S n) + 1 + z + s * INR (S n).
Proof.
  pose proof (pos_INR J) as PJ. assert (Ps : 0 < s) by lra. intros P E.
  destruct (lz_E_ge s z Ps Hz n) as [Dn En]. fold (lz_E n) in En. fold E in En. rewrite S_INR in *. pose proof (pos_INR n) as Pn.
  assert (HE : E = cf_b s z (S n) + P) by reflexivity.
  assert (HB : 2 * INR n + 3 <= cf_b s z (S n) <= 2 * INR n + 3 + z - s) by (unfold cf_b; rewrite S_INR; lra).
  assert (D1 : lz_D s z n <= / (INR n + 1)).
  { destruct n as [|n]; [simpl; rewrite Rplus_0_l, Rinv_1; lra|]. apply (lz_D_pos s z Ps Hz (S n)). lia. }
  assert (D2 : / (INR n + 1) <= 1) by (rewrite <- Rinv_1; apply Rinv_le_contravar; lra).
  split; [reflexivity|]. split; [exact HE|].
  destruct (Rle_dec (INR n + 1) s) as [L|L].
  - assert (A : 0 <= cf_a s (S n)) by (unfold cf_a; rewrite S_INR; apply Rmult_le_pos; lra).
    assert (P0 : 0 <= P) by (unfold P; apply Rmult_le_pos; lra).
    assert (P1 : P <= s * (INR n + 1)).
    { unfold P. rewrite <- (Rmult_1_r (s * (INR n + 1))). apply Rmult_le_compat; try lra. unfold cf_a. rewrite S_INR, Rmult_comm. apply Rmult_le_compat_r; lra. }
    rewrite (Rabs_pos_eq P P0). repeat split; lra.
  - assert (A : cf_a s (S n) = - ((INR n + 1) * (INR n + 1 - s))) by (unfold cf_a; rewrite S_INR; ring).
    assert (K : 0 <= (INR n + 1) * (INR n + 1 - s)) by (apply Rmult_le_pos; lra).
    assert (P0 : - (INR n + 1 - s) <= P <= 0).
    { unfold P. rewrite A. assert (Q : (INR n + 1) * (INR n + 1 - s) * lz_D s z n <= (INR n + 1) * (INR n + 1 - s) * / (INR n + 1)) by (apply Rmult_le_compat_l; lra).
      replace ((INR n + 1) * (INR n + 1 - s) * / (INR n + 1)) with (INR n + 1 - s) in Q by (field; lra).
      assert (0 <= (INR n + 1) * (INR n + 1 - s) * lz_D s z n) by (apply Rmult_le_pos; lra). lra. }
    assert (0 <= s * (INR n + 1)) by (apply Rmult_le_pos; lra).
    rewrite (Rabs_left1 P) by lra. repeat split; lra.
Qed.
End Range.

(* ---- relative errors ---- *)
Lemma approx_inv2 e x y : 0 <= e <= / 4 -> 0 < y -> approx e x y -> approx (e + 2 * (e * e)) (/ x) (/ y) /\ 0 < x.
Proof.
  intros He Hy A. unfold approx in *. rewrite (Rabs_pos_eq y) in A by lra. pose proof (Rabs_le_inv _ _ A) as A'.
  assert (Ey : e * y <= / 4 * y) by (apply Rmult_le_compat_r; lra).
  assert (Hx : 0 < x) by lra. split; [|exact Hx].
  assert (Px : 0 < / x) by now apply Rinv_0_lt_compat. assert (Py : 0 < / y) by now apply Rinv_0_lt_compat.
  rewrite (Rabs_pos_eq (/ y)) by lra.
  replace (/ x - / y) with (- ((x - y) * (/ x * / y))) by (field; lra). rewrite Rabs_Ropp, Rabs_mult, (Rabs_pos_eq (/ x * / y)) by (apply Rmult_le_pos; lra).
  apply Rle_trans with (e * y * (/ x * / y)); [apply Rmult_le_compat_r; [apply Rmult_le_pos; lra|exact A]|].
  replace (e * y * (/ x * / y)) with (e * / x) by (field; lra).
  assert (I : / x <= (1 + 2 * e) * / y).
  { apply Rmult_le_reg_r with (x * y); [now apply Rmult_lt_0_compat|].
    replace (/ x * (x * y)) with y by (field; lra). replace ((1 + 2 * e) * / y * (x * y)) with ((1 + 2 * e) * x) by (field; lra).
    apply Rle_trans with ((1 + 2 * e) * ((1 - e) * y)); [|apply Rmult_le_compat_l; lra].
    assert (0 <= (e * (1 - 2 * e)) * y) by (apply Rmult_le_pos; [apply Rmult_le_pos|]; lra). lra. }
  replace ((e + 2 * (e * e)) * / y) with (e * ((1 + 2 * e) * / y)) by ring. apply Rmult_le_compat_l; lra.
Qed.
Lemma approx_scale a e x y : approx e x y -> approx e (a * x) (a * y).
Proof.
  intros H. unfold approx in *. replace (a * x - a * y) with (a * (x - y)) by ring. rewrite !Rabs_mult.
  replace (e * (Rabs a * Rabs y)) with (Rabs a * (e * Rabs y)) by ring. apply Rmult_le_compat_l; [apply Rabs_pos|exact H].
Qed.
Lemma rnd_apx e x y : approx e x y -> x = 0 \/ tau <= Rabs x -> approx (e + u + e * u) (rnd x) y.
Proof. intros A H. apply approx_trans with x; [apply Rlt_le, u_pos|exact A|apply rnd_err, H]. Qed.
Lemma tau_le : tau <= / 1000000000000000000000000.
Proof. pose proof tau_small as T. rewrite u_val in T. lra. Qed.
(* the second-order terms are small *)
Lemma second_order e : 0 <= e <= / 500000000 -> 0 <= e * e <= u / 25 /\ 0 <= e * u <= u / 4.
Proof.
  intros He. pose proof u_pos as U. assert (e * e <= / 500000000 * / 500000000) by (apply Rmult_le_compat; lra).
  assert (0 <= e * e) by (apply Rmult_le_pos; lra). assert (0 <= e * u) by (apply Rmult_le_pos; lra).
  assert (e * u <= / 4 * u) by (apply Rmult_le_compat_r; lra).
  split; split; try lra. rewrite u_val. lra.
Qed.
(* the sum of b' and p', rounded *)
Lemma sum_err (E b P b' p' c e be v : R) : 0 < E -> E = b + P -> Rabs P <= E -> 0 <= b <= 2 * E -> 0 <= e -> 0 <= be -> e + 2 * be <= / 2 -> 0 <= v ->
  Rabs (b' - b) <= be * b -> Rabs (p' - P) <= e * Rabs P -> Rabs (c - (b' + p')) <= v * Rabs (b' + p') -> Rabs (c - E) <= (e + 2 * be + 2 * v) * E.
Proof.
  intros HE E1 HP Hb He Hbe H2 Hv A B C.
  assert (K1 : be * b <= be * (2 * E)) by (apply Rmult_le_compat_l; lra).
  assert (K2 : e * Rabs P <= e * E) by (apply Rmult_le_compat_l; lra).
  assert (D : Rabs (b' + p' - E) <= (e + 2 * be) * E).
  { replace (b' + p' - E) with ((b' - b) + (p' - P)) by (rewrite E1; ring). apply Rle_trans with (1 := Rabs_triang _ _). lra. }
  assert (K3 : (e + 2 * be) * E <= / 2 * E) by (apply Rmult_le_compat_r; lra).
  assert (G : Rabs (b' + p') <= 2 * E).
  { replace (b' + p') with ((b' + p' - E) + E) by ring. apply Rle_trans with (1 := Rabs_triang _ _). rewrite (Rabs_pos_eq E) by lra. lra. }
  assert (K4 : v * Rabs (b' + p') <= v * (2 * E)) by (apply Rmult_le_compat_l; lra).
  replace (c - E) with ((c - (b' + p')) + (b' + p' - E)) by ring. apply Rle_trans with (1 := Rabs_triang _ _). lra.
Qed.

(* 1/3 + 1/5 + ... + 1/(2 j + 1) *)
Fixpoint hsum (j : nat) : R := match j with O => 0 | S j' => hsum j' + / (2 * INR j + 1) end.
Lemma hsum_pos j : 0 <= hsum j.
Proof.
  induction j as [|j IH]; [simpl; lra|]. cbn [hsum]. pose proof (pos_INR (S j)).
  assert (0 < / (2 * INR (S j) + 1)) by (apply Rinv_0_lt_compat; lra). lra.
Qed.
Lemma hsum_ln j : hsum j <= / 2 * ln (2 * INR j + 1).
Proof.
  induction j as [|j IH]; [simpl; rewrite Rmult_0_r, Rplus_0_l, ln_1; lra|].
  cbn [hsum]. rewrite S_INR. pose proof (pos_INR j) as Pj. set (k := INR j) in *.
  assert (U : 0 <= 2 / (2 * k + 1)) by (apply Rmult_le_pos; [lra|left; apply Rinv_0_lt_compat; lra]).
  pose proof (ln_pade _ U) as Q.
  replace (1 + 2 / (2 * k + 1)) with ((2 * (k + 1) + 1) / (2 * k + 1)) in Q by (field; lra). rewrite ln_quot in Q by lra.
  replace (2 * (2 / (2 * k + 1)) / (2 + 2 / (2 * k + 1))) with (/ (k + 1)) in Q by (field; split; [|split]; lra).
  assert (/ (2 * (k + 1) + 1) <= / 2 * / (k + 1)). { rewrite <- Rinv_mult. apply Rinv_le_contravar; lra. }
  lra.
Qed.
Lemma hsum_le j : (Z.of_nat j <= 10000)%Z -> hsum j <= 521 / 100.
Proof.
  intros H. apply Rle_trans with (1 := hsum_ln j).
  assert (INR j <= 10000) by (rewrite INR_IZR_INZ; apply IZR_le; exact H). pose proof (pos_INR j).
  assert (L : ln (2 * INR j + 1) <= ln (2 ^ 15)) by (apply ln_mono; lra). rewrite ln_pow in L by lra.
  pose proof ln2_up. replace (INR 15) with 15 in L by (rewrite INR_IZR_INZ; reflexivity). lra.
Qed.

Section Lentz.
Variables (s z : double) (m : Z) (J : nat).
Hypothesis Fs : fin s.
Hypothesis Fz : fin z.
Hypothesis Hm : (1 <= m <= 1100000)%Z.
Hypothesis Vs : dval s = IZR m / 2.
Hypothesis Vz : dval z <= 17179869184.
Hypothesis HJ : INR J < dval s <= INR J + 1.
Hypothesis Hz : dval s <= dval z.
Hypothesis Hz1 : 1 <= dval z.
Notation sR := (dval s).
Notation zR := (dval z).

Lemma s_rng : / 2 <= sR <= 550000.
Proof. rewrite Vs. assert (1 <= IZR m <= 1100000) by (split; apply IZR_le; lia). lra. Qed.
(* the accumulated error *)
Definition eps (j : nat) : R := u * (sR + 3 + 2 * sR * hsum j + 12 * INR j).
Lemma eps_rng j : (Z.of_nat j <= 10000)%Z -> 0 <= eps j <= / 1000000000.
Proof.
  intros H. pose proof (hsum_pos j) as H0. pose proof (hsum_le j H) as H1. pose proof s_rng as S. pose proof u_pos as U.
  assert (INR j <= 10000) by (rewrite INR_IZR_INZ; apply IZR_le; exact H). pose proof (pos_INR j).
  assert (A : 0 <= 2 * sR * hsum j <= 2 * 550000 * (521 / 100)) by (split; [apply Rmult_le_pos; lra|apply Rmult_le_compat; lra]).
  unfold eps. split; [apply Rmult_le_pos; lra|]. apply Rle_trans with (u * 6500000); [apply Rmult_le_compat_l; lra|]. rewrite u_val. lra.
Qed.
Lemma eps_S j : eps (S j) = eps j + u * (2 * (sR * / (2 * INR (S j) + 1)) + 12).
Proof. unfold eps. cbn [hsum]. rewrite S_INR. ring. Qed.
Lemma eps_mono j : eps j <= eps (S j).
Proof.
  rewrite eps_S. pose proof u_pos. pose proof s_rng. pose proof (pos_INR (S j)). assert (0 < / (2 * INR (S j) + 1)) by (apply Rinv_0_lt_compat; lra).
  assert (0 <= sR * / (2 * INR (S j) + 1)) by (apply Rmult_le_pos; lra). assert (0 <= u * (2 * (sR * / (2 * INR (S j) + 1)) + 12)) by (apply Rmult_le_pos; lra). lra.
Qed.

(* b_j *)
Lemma b_ok j : (Z.of_nat j <= 10000)%Z -> let b := dsub (dadd (double_of_N (2 * N.of_nat j + 1)) z) s in
  fin b /\ Rabs (dval b - cf_b sR zR j) <= u * (sR * / (2 * INR j + 1) + 3) * cf_b sR zR j.
Proof.
  intros Hj b. destruct (double_of_N_INR (2 * N.of_nat j + 1)) as [Vk Fk]; [lia|]. pose proof s_rng as S. pose proof u_pos as U0.
  assert (Ek : IZR (Z.of_N (2 * N.of_nat j + 1)) = 2 * INR j + 1).
  { rewrite INR_IZR_INZ, <- mult_IZR, <- plus_IZR. f_equal. lia. }
  rewrite Ek in Vk. assert (INR j <= 10000) by (rewrite INR_IZR_INZ; apply IZR_le; exact Hj). pose proof (pos_INR j) as Pj.
  destruct (dadd_ok (double_of_N (2 * N.of_nat j + 1)) z Fk Fz) as [Vt Ft]; [rewrite Vk; apply (small_R _ 100000000000); [apply Rabs_le; lra|lra]|].
  pose proof (rnd_plus_err _ _ (dval_format (double_of_N (2 * N.of_nat j + 1))) (dval_format z)) as At. rewrite <- Vt in At.
  set (t := dadd (double_of_N (2 * N.of_nat j + 1)) z) in *. rewrite Vk in At. unfold approx in At.
  rewrite (Rabs_pos_eq (2 * INR j + 1 + zR)) in At by lra. set (T := 2 * INR j + 1 + zR) in *.
  assert (UT : u * T <= / 1000) by (apply Rle_trans with (u * 100000000000); [apply Rmult_le_compat_l; unfold T; lra|rewrite u_val; lra]).
  pose proof (Rabs_le_inv _ _ At) as At'.
  assert (T1 : 0 <= dval t - sR <= 100000000000) by (unfold T in *; lra).
  destruct (dsub_ok t s Ft Fs) as [Vb Fb]; [apply (small_R _ 100000000000); [apply Rabs_le; lra|lra]|]. fold b in Vb, Fb.
  split; [exact Fb|].
  pose proof (rnd_minus_err _ _ (dval_format t) (dval_format s)) as Ab. rewrite <- Vb in Ab. unfold approx in Ab.
  rewrite (Rabs_pos_eq (dval t - sR)) in Ab by lra.
  assert (B : cf_b sR zR j = T - sR) by (unfold cf_b, T; ring). rewrite B.
  assert (Bp : 2 * INR j + 1 <= T - sR) by (unfold T; lra).
  set (sg := sR * / (2 * INR j + 1)).
  assert (I0 : 0 < / (2 * INR j + 1)) by (apply Rinv_0_lt_compat; lra).
  assert (Sg : 0 <= sg <= 550000).
  { unfold sg. split; [apply Rmult_le_pos; lra|]. rewrite <- (Rmult_1_r 550000). apply Rmult_le_compat; try lra. rewrite <- Rinv_1. apply Rinv_le_contravar; lra. }
  assert (S1 : sR <= sg * (T - sR)).
  { replace sR with (sg * (2 * INR j + 1)) at 1 by (unfold sg; field; lra). apply Rmult_le_compat_l; lra. }
  replace (dval b - (T - sR)) with ((dval b - (dval t - sR)) + (dval t - T)) by ring. apply Rle_trans with (1 := Rabs_triang _ _).
  set (BB := T - sR) in *. assert (TT : T = BB + sR) by (unfold BB; ring).
  assert (Q1 : u * (dval t - sR) <= u * (BB + u * T)) by (apply Rmult_le_compat_l; lra).
  assert (Q2 : u * T <= u * ((1 + sg) * BB)) by (apply Rmult_le_compat_l; lra).
  assert (Q3 : u * (u * T) <= u * ((1 + sg) * u * BB)) by (apply Rmult_le_compat_l; lra).
  assert (Q4 : (1 + sg) * u * BB <= 1 * BB) by (apply Rmult_le_compat_r; [lra|]; apply Rle_trans with (600000 * u); [apply Rmult_le_compat_r; lra|rewrite u_val; lra]).
  assert (Q5 : u * ((1 + sg) * u * BB) <= u * (1 * BB)) by (apply Rmult_le_compat_l; lra).
  lra.
Qed.
(* a_j *)
Lemma a_ok j : (Z.of_nat j <= 10000)%Z -> let a := dmul (double_of_N (N.of_nat j)) (dsub s (double_of_N (N.of_nat j))) in
  fin a /\ dval a = cf_a sR j /\ (cf_a sR j = 0 \/ / 2 <= Rabs (cf_a sR j)) /\ Rabs (cf_a sR j) <= 10000000000.
Proof.
  intros Hj a. destruct (double_of_N_INR (N.of_nat j)) as [Vk Fk]; [lia|]. pose proof s_rng as S.
  assert (Ek : IZR (Z.of_N (N.of_nat j)) = INR j) by (rewrite INR_IZR_INZ; f_equal; lia). rewrite Ek in Vk.
  assert (Ij : INR j <= 10000) by (rewrite INR_IZR_INZ; apply IZR_le; exact Hj). pose proof (pos_INR j) as Pj.
  destruct (dsub_ok s (double_of_N (N.of_nat j)) Fs Fk) as [Vd Fd]; [rewrite Vk; apply (small_R _ 1000000); [apply Rabs_le; lra|lra]|].
  assert (E1 : sR - INR j = IZR (m - 2 * Z.of_nat j) / 2) by (rewrite Vs, minus_IZR, mult_IZR, <- INR_IZR_INZ; field).
  rewrite Vk, E1, rnd_id in Vd by (apply F64_half; lia).
  assert (E2 : cf_a sR j = IZR (Z.of_nat j * (m - 2 * Z.of_nat j)) / 2) by (unfold cf_a; rewrite E1, mult_IZR, <- INR_IZR_INZ; field).
  assert (Bz : (Z.abs (Z.of_nat j * (m - 2 * Z.of_nat j)) <= 20000000000)%Z) by nia.
  assert (Bs : Rabs (cf_a sR j) <= 10000000000).
  { rewrite E2. unfold Rdiv. rewrite Rabs_mult, <- abs_IZR, (Rabs_pos_eq (/ 2)) by lra. apply IZR_le in Bz. lra. }
  destruct (dmul_ok (double_of_N (N.of_nat j)) (dsub s (double_of_N (N.of_nat j))) Fk Fd) as [Va Fa].
  { rewrite Vk, Vd, <- E1. apply (small_R _ 10000000000); [exact Bs|lra]. }
  fold a in Va, Fa. split; [exact Fa|]. rewrite Vk, Vd, <- E1 in Va. fold (cf_a sR j) in Va. change (INR j * (sR - INR j)) with (cf_a sR j) in Va.
  split; [rewrite Va; rewrite E2; apply rnd_id, F64_half; lia|]. split; [|exact Bs].
  destruct (Z.eq_dec (Z.of_nat j * (m - 2 * Z.of_nat j)) 0) as [Z0|Z0]; [left; rewrite E2, Z0; lra|right].
  rewrite E2. unfold Rdiv. rewrite Rabs_mult, <- abs_IZR, (Rabs_pos_eq (/ 2)) by lra.
  assert (1 <= IZR (Z.abs (Z.of_nat j * (m - 2 * Z.of_nat j)))) by (apply IZR_le; lia). lra.
Qed.
Definition cmax : R := 30000000000.
Lemma C_rng j : (Z.of_nat j <= 10000)%Z -> 1 <= lz_C sR zR j <= cmax.
Proof.
  intros Hj. pose proof s_rng as S. unfold cmax. assert (Ij : INR j <= 10000) by (rewrite INR_IZR_INZ; apply IZR_le; exact Hj). destruct j as [|j].
  - simpl. unfold cf_b. simpl. lra.
  - destruct (part_C sR zR J HJ Hz j) as (_ & _ & _ & L). pose proof (pos_INR (Datatypes.S j)).
    assert (sR * INR (Datatypes.S j) <= 550000 * 10000) by (apply Rmult_le_compat; lra). lra.
Qed.
Lemma E_rng j : (Z.of_nat j < 10000)%Z -> 1 <= lz_E sR zR j <= cmax.
Proof.
  intros Hj. pose proof s_rng as S. unfold cmax. assert (Ij : INR (Datatypes.S j) <= 10000) by (rewrite INR_IZR_INZ; apply IZR_le; lia).
  destruct (part_D sR zR J HJ Hz j) as (_ & _ & _ & _ & L). pose proof (pos_INR (Datatypes.S j)).
  assert (sR * INR (Datatypes.S j) <= 550000 * 10000) by (apply Rmult_le_compat; lra). lra.
Qed.
Lemma sg_rng j : 0 <= sR * / (2 * INR j + 1) <= 550000.
Proof.
  pose proof s_rng as S. pose proof (pos_INR j). assert (0 < / (2 * INR j + 1)) by (apply Rinv_0_lt_compat; lra).
  split; [apply Rmult_le_pos; lra|]. rewrite <- (Rmult_1_r 550000). apply Rmult_le_compat; try lra. rewrite <- Rinv_1. apply Rinv_le_contravar; lra.
Qed.

(* C *)
Lemma C_step j C : (Z.of_nat j < 10000)%Z -> fin C -> approx (eps j) (dval C) (lz_C sR zR j) ->
  let a := dmul (double_of_N (N.of_nat (S j))) (dsub s (double_of_N (N.of_nat (S j)))) in
  let b := dsub (dadd (double_of_N (2 * N.of_nat (S j) + 1)) z) s in
  let C' := dadd b (ddiv a C) in fin C' /\ approx (eps (S j)) (dval C') (lz_C sR zR (S j)).
Proof.
  intros Hj FC AC a b C'. pose proof u_pos as U0. pose proof tau_le as T1.
  destruct (a_ok (S j) ltac:(lia)) as (Fa & Va & Za & Ba). fold a in Fa, Va. destruct (b_ok (S j) ltac:(lia)) as (Fb & Ab). fold b in Fb, Ab.
  destruct (eps_rng j ltac:(lia)) as [e0 e1]. pose proof (C_rng j ltac:(lia)) as CR. unfold cmax in CR. pose proof (sg_rng (S j)) as SG.
  destruct (approx_inv2 (eps j) (dval C) (lz_C sR zR j)) as [AI PC]; [lra|lra|exact AC|].
  assert (CB : / 2 <= dval C <= 2 * 30000000000).
  { unfold approx in AC. rewrite (Rabs_pos_eq (lz_C sR zR j)) in AC by lra. apply Rabs_le_inv in AC.
    assert (eps j * lz_C sR zR j <= / 2 * lz_C sR zR j) by (apply Rmult_le_compat_r; lra). lra. }
  apply (approx_scale (cf_a sR (S j))) in AI.
  assert (IC : / (2 * 30000000000) <= / dval C <= 2).
  { split; [apply Rinv_le_contravar; lra|]. rewrite <- (Rinv_inv 2). apply Rinv_le_contravar; lra. }
  assert (Q1 : Rabs (cf_a sR (S j) * / dval C) <= 20000000000).
  { rewrite Rabs_mult, (Rabs_pos_eq (/ dval C)) by lra. replace 20000000000 with (10000000000 * 2) by ring. apply Rmult_le_compat; try apply Rabs_pos; lra. }
  assert (Q2 : cf_a sR (S j) * / dval C = 0 \/ tau <= Rabs (cf_a sR (S j) * / dval C)).
  { destruct Za as [Za|Za]; [left; rewrite Za; ring|right]. rewrite Rabs_mult, (Rabs_pos_eq (/ dval C)) by lra.
    apply Rle_trans with (/ 2 * / (2 * 30000000000)); [lra|]. apply Rmult_le_compat; lra. }
  destruct (ddiv_ok a C Fa) as [Vq Fq]; [lra|rewrite Va; apply (small_R _ 20000000000); [exact Q1|lra]|].
  rewrite Va in Vq. change (cf_a sR (S j) / dval C) with (cf_a sR (S j) * / dval C) in Vq.
  pose proof (rnd_apx _ _ _ AI Q2) as Aq. rewrite <- Vq in Aq. set (q := ddiv a C) in *.
  destruct (second_order (eps j)) as [SO1 SO2]; [lra|].
  assert (Aq' : approx (eps j + 2 * u) (dval q) (cf_a sR (S j) * / lz_C sR zR j)).
  { eapply approx_le; [|exact Aq]. assert (2 * (eps j * eps j) * u <= / 4 * u) by (apply Rmult_le_compat_r; rewrite u_val in SO1; lra). lra. }
  destruct (part_C sR zR J HJ Hz j) as (E1 & E2 & E3 & E4). cbv zeta in *.
  assert (C1 : 1 <= lz_C sR zR (S j) <= 30000000000) by (apply C_rng; lia). change (cf_a sR (S j) / lz_C sR zR j) with (cf_a sR (S j) * / lz_C sR zR j) in *.
  set (E := lz_C sR zR (S j)) in *. set (P := cf_a sR (S j) * / lz_C sR zR j) in *. set (be := u * (sR * / (2 * INR (S j) + 1) + 3)) in *.
  assert (BE : 0 <= be <= / 1000000000).
  { unfold be. split; [apply Rmult_le_pos; lra|]. apply Rle_trans with (u * 600000); [apply Rmult_le_compat_l; lra|rewrite u_val; lra]. }
  assert (Uv : u <= / 1000000000) by (rewrite u_val; lra).
  assert (K1 : Rabs (dval b) <= 200000000000).
  { apply Rabs_le_inv in Ab. assert (be * cf_b sR zR (S j) <= / 1000000000 * cf_b sR zR (S j)) by (apply Rmult_le_compat_r; lra). apply Rabs_le. lra. }
  assert (K2 : Rabs (dval q) <= 200000000000).
  { unfold approx in Aq'. assert ((eps j + 2 * u) * Rabs P <= 1 * Rabs P) by (apply Rmult_le_compat_r; [apply Rabs_pos|lra]).
    replace (dval q) with ((dval q - P) + P) by ring. apply Rle_trans with (1 := Rabs_triang _ _). lra. }
  destruct (dadd_ok b q Fb Fq) as [Vc Fc]; [apply (small_R _ 400000000000); [apply Rle_trans with (1 := Rabs_triang _ _); lra|lra]|].
  fold C' in Vc, Fc. split; [exact Fc|].
  pose proof (rnd_plus_err _ _ (dval_format b) (dval_format q)) as Ac. rewrite <- Vc in Ac.
  unfold approx. rewrite (Rabs_pos_eq E) by lra.
  apply Rle_trans with ((eps j + 2 * u + 2 * be + 2 * u) * E).
  - apply (sum_err E (cf_b sR zR (S j)) P (dval b) (dval q)); try assumption; try lra.
  - apply Rmult_le_compat_r; [lra|]. rewrite eps_S. unfold be. lra.
Qed.

(* D *)
Lemma D_step j D : (Z.of_nat j < 10000)%Z -> fin D -> approx (eps j) (dval D) (lz_D sR zR j) ->
  let a := dmul (double_of_N (N.of_nat (S j))) (dsub s (double_of_N (N.of_nat (S j)))) in
  let b := dsub (dadd (double_of_N (2 * N.of_nat (S j) + 1)) z) s in
  let E' := dadd b (dmul a D) in fin E' /\ / 2 <= dval E' /\ fin (ddiv d1 E') /\ approx (eps (S j)) (dval (ddiv d1 E')) (lz_D sR zR (S j)).
Proof.
  intros Hj FD AD a b E'. pose proof u_pos as U0. pose proof tau_le as T1.
  destruct (a_ok (S j) ltac:(lia)) as (Fa & Va & Za & Ba). fold a in Fa, Va. destruct (b_ok (S j) ltac:(lia)) as (Fb & Ab). fold b in Fb, Ab.
  destruct (eps_rng j ltac:(lia)) as [e0 e1]. pose proof (sg_rng (S j)) as SG.
  assert (DR : lz_D sR zR j = 0 \/ / 30000000000 <= lz_D sR zR j <= 1).
  { destruct j as [|j]; [left; reflexivity|right]. destruct (part_D sR zR J HJ Hz j) as (E0 & _). rewrite E0.
    pose proof (E_rng j ltac:(lia)) as ER. unfold cmax in ER. split; [apply Rinv_le_contravar; lra|]. rewrite <- Rinv_1. apply Rinv_le_contravar; lra. }
  assert (DB : dval D = 0 \/ / 60000000000 <= dval D <= 2).
  { unfold approx in AD. destruct DR as [D0|DR].
    - left. rewrite D0, Rminus_0_r, Rabs_R0, Rmult_0_r in AD. pose proof (Rabs_pos (dval D)). destruct (Req_dec (dval D) 0) as [|N]; [assumption|]. apply Rabs_pos_lt in N. lra.
    - right. rewrite (Rabs_pos_eq (lz_D sR zR j)) in AD by lra. apply Rabs_le_inv in AD.
      assert (eps j * lz_D sR zR j <= / 2 * lz_D sR zR j) by (apply Rmult_le_compat_r; lra). lra. }
  apply (approx_scale (cf_a sR (S j))) in AD.
  assert (Q1 : Rabs (cf_a sR (S j) * dval D) <= 20000000000).
  { rewrite Rabs_mult. replace 20000000000 with (10000000000 * 2) by ring. apply Rmult_le_compat; try apply Rabs_pos; [lra|]. apply Rabs_le. lra. }
  assert (Q2 : cf_a sR (S j) * dval D = 0 \/ tau <= Rabs (cf_a sR (S j) * dval D)).
  { destruct Za as [Za|Za]; [left; rewrite Za; ring|]. destruct DB as [D0|DB]; [left; rewrite D0; ring|right]. rewrite Rabs_mult, (Rabs_pos_eq (dval D)) by lra.
    apply Rle_trans with (/ 2 * / 60000000000); [lra|]. apply Rmult_le_compat; lra. }
  destruct (dmul_ok a D Fa FD) as [Vq Fq]; [rewrite Va; apply (small_R _ 20000000000); [exact Q1|lra]|].
  rewrite Va in Vq.
  pose proof (rnd_apx _ _ _ AD Q2) as Aq. rewrite <- Vq in Aq. set (q := dmul a D) in *.
  destruct (second_order (eps j)) as [SO1 SO2]; [lra|].
  assert (Aq' : approx (eps j + 2 * u) (dval q) (cf_a sR (S j) * lz_D sR zR j)) by (eapply approx_le; [|exact Aq]; lra).
  destruct (part_D sR zR J HJ Hz j) as (E0 & E1 & E2 & E3 & E4). cbv zeta in *.
  assert (C1 : 1 <= lz_E sR zR j <= 30000000000) by (apply E_rng; lia).
  set (E := lz_E sR zR j) in *. set (P := cf_a sR (S j) * lz_D sR zR j) in *. set (be := u * (sR * / (2 * INR (S j) + 1) + 3)) in *.
  assert (BE : 0 <= be <= / 1000000000).
  { unfold be. split; [apply Rmult_le_pos; lra|]. apply Rle_trans with (u * 600000); [apply Rmult_le_compat_l; lra|rewrite u_val; lra]. }
  assert (Uv : u <= / 1000000000) by (rewrite u_val; lra).
  assert (K1 : Rabs (dval b) <= 200000000000).
  { apply Rabs_le_inv in Ab. assert (be * cf_b sR zR (S j) <= / 1000000000 * cf_b sR zR (S j)) by (apply Rmult_le_compat_r; lra). apply Rabs_le. lra. }
  assert (K2 : Rabs (dval q) <= 200000000000).
  { unfold approx in Aq'. assert ((eps j + 2 * u) * Rabs P <= 1 * Rabs P) by (apply Rmult_le_compat_r; [apply Rabs_pos|lra]).
    replace (dval q) with ((dval q - P) + P) by ring. apply Rle_trans with (1 := Rabs_triang _ _). lra. }
  destruct (dadd_ok b q Fb Fq) as [Vc Fc]; [apply (small_R _ 400000000000); [apply Rle_trans with (1 := Rabs_triang _ _); lra|lra]|].
  fold E' in Vc, Fc. split; [exact Fc|].
  pose proof (rnd_plus_err _ _ (dval_format b) (dval_format q)) as Ac. rewrite <- Vc in Ac.
  set (e2 := eps j + 2 * u + 2 * be + 2 * u).
  assert (AE : approx e2 (dval E') E).
  { unfold approx. rewrite (Rabs_pos_eq E) by lra. apply (sum_err E (cf_b sR zR (S j)) P (dval b) (dval q)); try assumption; try lra. }
  assert (S2 : eps (S j) = e2 + 2 * u) by (rewrite eps_S; unfold e2, be; ring).
  destruct (eps_rng (S j) ltac:(lia)) as [f0 f1].
  assert (e20 : 0 <= e2 <= / 1000000000) by (unfold e2 in *; lra).
  destruct (approx_inv2 e2 (dval E') E) as [AI PE]; [lra|lra|exact AE|].
  assert (EB : / 2 <= dval E' <= 2 * 30000000000).
  { unfold approx in AE. rewrite (Rabs_pos_eq E) in AE by lra. apply Rabs_le_inv in AE.
    assert (e2 * E <= / 2 * E) by (apply Rmult_le_compat_r; lra). lra. }
  split; [lra|].
  assert (IC : / (2 * 30000000000) <= / dval E' <= 2).
  { split; [apply Rinv_le_contravar; lra|]. rewrite <- (Rinv_inv 2). apply Rinv_le_contravar; lra. }
  destruct d1_val as [V1 F1].
  assert (W : dval d1 / dval E' = / dval E') by (rewrite V1; unfold Rdiv; ring).
  destruct (ddiv_ok d1 E' F1) as [Vi Fi]; [lra|rewrite W; apply (small_R _ 2); [apply Rabs_le; lra|lra]|]. rewrite W in Vi.
  split; [exact Fi|]. rewrite E0, Vi.
  eapply approx_le; [|apply (rnd_apx _ _ _ AI); right; rewrite Rabs_pos_eq by lra; lra].
  destruct (second_order e2) as [SO3 SO4]; [lra|]. assert (2 * (e2 * e2) * u <= / 4 * u) by (apply Rmult_le_compat_r; rewrite u_val in SO3; lra). lra.
Qed.

(* f *)
Definition del : R := / 300000000.
Definition errd (j : nat) : R := (1 + del) ^ j - 1.
Lemma errd_pos j : 0 <= errd j.
Proof. unfold errd, del. pose proof (pow_R1_Rle (1 + / 300000000) j ltac:(lra)). lra. Qed.
Lemma errd_le j : (Z.of_nat j <= 10001)%Z -> errd j <= / 10000.
Proof.
  intros H. unfold errd, del. assert ((1 + / 300000000) ^ j <= exp (/ 300000000) ^ j) by (apply pow_incr; split; [lra|apply exp_ineq1_le]).
  rewrite <- exp_pow in H0. assert (Ij : INR j <= 10001) by (rewrite INR_IZR_INZ; apply IZR_le; exact H). pose proof (pos_INR j).
  assert (E : INR j * / 300000000 <= ln (1 + / 10000)) by (pose proof (ln_pade (/ 10000) ltac:(lra)); lra).
  assert (exp (INR j * / 300000000) <= 1 + / 10000); [|lra].
  rewrite <- (exp_ln (1 + / 10000)) by lra. destruct (Rle_lt_or_eq_dec _ _ E) as [L|L]; [left; now apply exp_increasing|right; now rewrite L].
Qed.
Lemma F_rng j : 1 <= lz_f sR zR j <= 400000000000.
Proof.
  destruct (lz_f_range sR zR J HJ Hz Hz1 j) as [A B]. split; [exact A|]. pose proof s_rng as S.
  assert ((sR + 2) * (sR + 2) <= 550002 * 550002) by (apply Rmult_le_compat; lra). lra.
Qed.
Lemma f_step j C D f : (Z.of_nat j < 10000)%Z -> fin C -> fin D -> fin f -> approx (eps (S j)) (dval C) (lz_C sR zR (S j)) -> approx (eps (S j)) (dval D) (lz_D sR zR (S j)) ->
  approx (errd (S j)) (dval f) (lz_f sR zR j) ->
  let d := dmul C D in let f' := dmul f d in
  fin d /\ fin f' /\ approx (errd (S (S j))) (dval f') (lz_f sR zR (S j)) /\
  (dlt (dabs (dsub d d1)) kf_gamma_eps = true -> (1 - / 10000000) * lz_f sR zR j <= lz_f sR zR (S j)).
Proof.
  intros Hj FC FD Ff AC AD Af d f'. pose proof u_pos as U0. pose proof tau_le as T1. assert (Uv : u <= / 1000000000000) by (rewrite u_val; lra).
  destruct (eps_rng (S j) ltac:(lia)) as [e0 e1]. set (e := eps (S j)) in *.
  pose proof (C_rng (S j) ltac:(lia)) as CR. unfold cmax in CR.
  assert (DR : / 30000000000 <= lz_D sR zR (S j) <= 1).
  { destruct (part_D sR zR J HJ Hz j) as (E0 & _). rewrite E0. pose proof (E_rng j ltac:(lia)) as ER. unfold cmax in ER.
    split; [apply Rinv_le_contravar; lra|]. rewrite <- Rinv_1. apply Rinv_le_contravar; lra. }
  pose proof (F_rng j) as FR.
  set (c := lz_C sR zR (S j)) in *. set (dd := lz_D sR zR (S j)) in *. set (ff := lz_f sR zR j) in *.
  assert (EF : lz_f sR zR (S j) = ff * (c * dd)) by reflexivity.
  assert (CD : / 30000000000 <= c * dd <= 30000000000).
  { split; [apply Rle_trans with (1 * / 30000000000); [lra|apply Rmult_le_compat; lra]|apply Rle_trans with (30000000000 * 1); [apply Rmult_le_compat; lra|lra]]. }
  pose proof (approx_mult _ _ _ _ _ _ e0 e0 AC AD) as A1.
  destruct (second_order e) as [SO1 SO2]; [lra|].
  assert (A2 : approx (/ 490000000) (dval C * dval D) (c * dd)) by (eapply approx_le; [|exact A1]; lra).
  assert (B2 : c * dd / 2 <= dval C * dval D <= 2 * (c * dd)).
  { unfold approx in A2. rewrite (Rabs_pos_eq (c * dd)) in A2 by lra. apply Rabs_le_inv in A2. lra. }
  destruct (dmul_ok C D FC FD) as [Vd Fd]; [apply (small_R _ 100000000000); [apply Rabs_le; lra|lra]|]. fold d in Vd, Fd.
  assert (A3 : approx (/ 480000000) (dval d) (c * dd)).
  { rewrite Vd. eapply approx_le; [|apply (rnd_apx _ _ _ A2); right; rewrite Rabs_pos_eq; lra]. lra. }
  assert (B3 : c * dd / 2 <= dval d <= 2 * (c * dd)).
  { unfold approx in A3. rewrite (Rabs_pos_eq (c * dd)) in A3 by lra. apply Rabs_le_inv in A3. lra. }
  pose proof (errd_le (S j) ltac:(lia)) as EL. pose proof (errd_pos (S j)) as EP.
  assert (BF : ff / 2 <= dval f <= 2 * ff).
  { unfold approx in Af. rewrite (Rabs_pos_eq ff) in Af by lra. apply Rabs_le_inv in Af. assert (errd (S j) * ff <= / 2 * ff) by (apply Rmult_le_compat_r; lra). lra. }
  assert (F4 : 0 <= / 480000000) by lra.
  pose proof (approx_mult _ _ _ _ _ _ EP F4 Af A3) as A4.
  assert (B4 : / 240000000000 <= dval f * dval d <= 800000000000 * 60000000000).
  { split; [apply Rle_trans with (/ 2 * / 60000000000); [lra|apply Rmult_le_compat; lra]|apply Rmult_le_compat; lra]. }
  destruct (dmul_ok f d Ff Fd) as [Vf Ff']; [apply (small_R _ (800000000000 * 60000000000)); [apply Rabs_le; lra|lra]|]. fold f' in Vf, Ff'.
  split; [exact Fd|]. split; [exact Ff'|]. split.
  - rewrite EF, Vf. eapply approx_le; [|apply (rnd_apx _ _ _ A4); right; rewrite Rabs_pos_eq; lra].
    set (E := errd (S j)) in *.
    assert (X : errd (S (S j)) = (1 + E) * (1 + del) - 1) by (unfold E, errd; rewrite <- (tech_pow_Rmult (1 + del) (S j)); ring).
    rewrite X. unfold del.
    assert (Y : (1 + / 480000000) * (1 + u) <= 1 + / 300000000) by (rewrite u_val; lra).
    assert ((1 + E) * ((1 + / 480000000) * (1 + u)) <= (1 + E) * (1 + / 300000000)) by (apply Rmult_le_compat_l; lra). lra.
  - intros HT. destruct d1_val as [V1 F1].
    destruct (dsub_ok d d1 Fd F1) as [Vs1 Fs1]; [apply (small_R _ 100000000000); [rewrite V1; apply Rabs_le; lra|lra]|].
    assert (VK : dval kf_gamma_eps <= / 10000000000000 /\ fin kf_gamma_eps).
    { unfold kf_gamma_eps. assert (B : F2R (Float radix2 6338253001141147 (-99)) <= / 10000000000000) by (unfold F2R; cbn; lra).
      assert (B0 : 0 <= F2R (Float radix2 6338253001141147 (-99))) by (apply F2R_ge_0; cbn; lia).
      destruct (dconst_ok 6338253001141147 (-99)) as [V F]; [apply (small_R _ 1); [apply Rabs_le; lra|lra]|].
      split; [|exact F]. rewrite V, rnd_id; [exact B|]. apply F64_F2R; lia. }
    destruct VK as [VK FK]. apply dlt_iff in HT; [|apply dabs_fin; exact Fs1|exact FK]. rewrite dabs_val in HT.
    pose proof (rnd_minus_err _ _ (dval_format d) (dval_format d1)) as Am. rewrite <- Vs1, V1 in Am. unfold approx in Am.
    set (x := dval (dsub d d1)) in *.
    assert (X : Rabs (dval d - 1) <= / 1000000000000).
    { replace (dval d - 1) with (x - (x - (dval d - 1))) by ring. apply Rle_trans with (Rabs x + Rabs (x - (dval d - 1))); [unfold Rminus at 1; rewrite <- (Rabs_Ropp (x - (dval d - 1))); apply Rabs_triang|].
      assert (u * Rabs (dval d - 1) <= / 2 * Rabs (dval d - 1)) by (apply Rmult_le_compat_r; [apply Rabs_pos|lra]).
      assert (Z : Rabs (dval d - 1) <= Rabs x + Rabs (x - (dval d - 1))).
      { replace (dval d - 1) with (x + - (x - (dval d - 1))) at 1 by ring. apply Rle_trans with (1 := Rabs_triang _ _). rewrite Rabs_Ropp. lra. }
      pose proof (Rabs_pos (dval d - 1)). lra. }
    unfold approx in A3. rewrite (Rabs_pos_eq (c * dd)) in A3 by lra. apply Rabs_le_inv in A3, X.
    rewrite EF, Rmult_comm. apply Rmult_le_compat_l; lra.
Qed.
Lemma tiny_ok x : fin x -> / 2 <= dval x -> (if dlt x kf_tiny then kf_tiny else x) = x.
Proof.
  intros Fx Hx. assert (B : F2R (Float radix2 7022238808055922 (-1016)) <= / 4).
  { apply Rle_trans with (F2R (Float radix2 1 (-2))); [|unfold F2R; cbn; lra].
    replace (F2R (Float radix2 1 (-2))) with (bpow radix2 (-2)) by (unfold F2R; cbn; lra).
    apply Rle_trans with (bpow radix2 (53 + -1016)); [|apply bpow_le; lia].
    apply Rle_trans with (1 := RRle_abs _). apply Rlt_le, F2R_lt_bpow. cbn. lia. }
  assert (B0 : 0 <= F2R (Float radix2 7022238808055922 (-1016))) by (apply F2R_ge_0; cbn; lia).
  destruct (dconst_ok 7022238808055922 (-1016)) as [V F]; [apply (small_R _ 1); [apply Rabs_le; lra|lra]|].
  assert (X : dlt x kf_tiny = false).
  { apply dlt_false; [exact Fx|exact F|]. unfold kf_tiny. rewrite V, rnd_id by (apply F64_F2R; lia). lra. }
  now rewrite X.
Qed.
Lemma lentz_loop left : forall j C D f, (Z.of_nat (j + left) = 9999)%Z -> fin C -> fin D -> fin f ->
  approx (eps j) (dval C) (lz_C sR zR j) -> approx (eps j) (dval D) (lz_D sR zR j) -> approx (errd (S j)) (dval f) (lz_f sR zR j) ->
  let v := gammaq_loop s z left (N.of_nat (S j)) C D f in
  exists n, (Z.of_nat n <= 9999)%Z /\ fin v /\ approx (/ 10000) (dval v) (lz_f sR zR n) /\
    (Z.of_nat n = 9999%Z \/ exists n', n = S n' /\ (1 - / 10000000) * lz_f sR zR n' <= lz_f sR zR n).
Proof.
  induction left as [|left IH]; intros j C D f Hj FC FD Ff AC AD Af v.
  - exists j. rewrite Nat.add_0_r in Hj. split; [lia|]. split; [exact Ff|]. split; [|now left].
    eapply approx_le; [apply errd_le|exact Af]. lia.
  - destruct (C_step j C ltac:(lia) FC AC) as (FC' & AC'). destruct (D_step j D ltac:(lia) FD AD) as (FE' & E2 & FD' & AD').
    cbv zeta in *. unfold v. cbn [gammaq_loop].
    set (a := dmul (double_of_N (N.of_nat (S j))) (dsub s (double_of_N (N.of_nat (S j))))) in *.
    set (b := dsub (dadd (double_of_N (2 * N.of_nat (S j) + 1)) z) s) in *.
    set (E' := dadd b (dmul a D)) in *. set (C' := dadd b (ddiv a C)) in *.
    assert (C2 : / 2 <= dval C').
    { pose proof (C_rng (S j) ltac:(lia)) as CR. destruct (eps_rng (S j) ltac:(lia)) as [e0 e1]. unfold approx in AC'.
      rewrite (Rabs_pos_eq (lz_C sR zR (S j))) in AC' by lra. apply Rabs_le_inv in AC'.
      assert (eps (S j) * lz_C sR zR (S j) <= / 2 * lz_C sR zR (S j)) by (apply Rmult_le_compat_r; lra). lra. }
    rewrite (tiny_ok E' FE' E2), (tiny_ok C' FC' C2).
    destruct (f_step j C' (ddiv d1 E') f ltac:(lia) FC' FD' Ff AC' AD' Af) as (Fd & Ff' & Af' & HS). cbv zeta in *.
    set (D' := ddiv d1 E') in *. set (d := dmul C' D') in *. set (f' := dmul f d) in *.
    replace (N.of_nat (S j) + 1)%N with (N.of_nat (S (S j))) by lia.
    destruct (dlt (dabs (dsub d d1)) kf_gamma_eps).
    + exists (S j). split; [lia|]. split; [exact Ff'|]. split; [eapply approx_le; [apply errd_le|exact Af']; lia|].
      right. exists j. split; [reflexivity|apply HS; reflexivity].
    + apply IH; try assumption. lia.
Qed.
Theorem lentz_value : let v := gammaq_loop s z (N.to_nat (max_iterations - 1)) 1 (dsub (dadd d1 z) s) d0 (dsub (dadd d1 z) s) in
  fin v /\ (1 - / 1000) * (zR / fall J sR zR) <= dval v /\ / 2 <= dval v <= 1000000000000.
Proof.
  intros v. destruct (b_ok 0 ltac:(lia)) as [Fb Ab]. change (double_of_N (2 * N.of_nat 0 + 1)) with d1 in *. set (c0 := dsub (dadd d1 z) s) in *.
  pose proof s_rng as SR. pose proof u_pos as U0.
  assert (A0 : approx (eps 0) (dval c0) (lz_C sR zR 0)).
  { unfold approx. cbn [lz_C]. rewrite (Rabs_pos_eq (cf_b sR zR 0)) by (unfold cf_b; simpl; lra). apply Rle_trans with (1 := Ab). right.
    unfold eps. simpl hsum. simpl INR. rewrite !Rmult_0_r, Rplus_0_l, Rinv_1. ring. }
  destruct (lentz_loop (N.to_nat (max_iterations - 1)) 0 c0 d0 c0) as (n & Hn & Fv & Av & Stop); try assumption; try reflexivity.
  - apply approx_refl. destruct (eps_rng 0 ltac:(lia)). lra.
  - change (lz_f sR zR 0) with (lz_C sR zR 0). eapply approx_le; [|exact A0]. destruct (eps_rng 0 ltac:(lia)). unfold errd, del. lra.
  - change (N.of_nat 1) with 1%N in *. fold v in Fv, Av. split; [exact Fv|].
    pose proof (F_rng n) as FR. unfold approx in Av. rewrite (Rabs_pos_eq (lz_f sR zR n)) in Av by lra. apply Rabs_le_inv in Av.
    split; [|lra].
    assert (Pq : 0 < zR / fall J sR zR).
    { pose proof (fall_ge J sR zR ltac:(lra) ltac:(lra)). apply Rmult_lt_0_compat; [lra|apply Rinv_0_lt_compat; lra]. }
    set (q := zR / fall J sR zR) in *.
    assert (M : (1 - / 10000000) * q <= lz_f sR zR n); [|lra].
    destruct (Nat.le_gt_cases J n) as [L|L]; [destruct (lentz_above sR zR J HJ Hz Hz1 n L) as [_ K]; fold q in K; lra|].
    destruct (Nat.odd n) eqn:O; [pose proof (lentz_odd sR zR J HJ Hz n ltac:(lia) O) as K; fold q in K; lra|].
    destruct Stop as [S9|(n' & -> & S9)].
    + exfalso. assert (n = N.to_nat 9999) by lia. subst n. vm_compute in O. discriminate.
    + rewrite Nat.odd_succ, <- Nat.negb_odd in O. apply Bool.negb_false_iff in O.
      pose proof (lentz_odd sR zR J HJ Hz n' ltac:(lia) O) as K. fold q in K.
      apply Rle_trans with (2 := S9). apply Rmult_le_compat_l; lra.
Qed.
End Lentz.
