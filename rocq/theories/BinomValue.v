(* The binomial distribution: error bound. *)
From Coq Require Import Reals Lra Lia List.
From Flocq Require Import Core BinarySingleNaN.
From Verif Require Import Base FloatModel FloatLemmas ErrorSpec ResultModel ResultSpec CollectModel StatsModel StatsProofs CouponFloatProofs RescaleProofs LimitProofs TestsPerm DistModel DistSpec DistSeries CorrPearson CorrPearson2 OtherModel OtherSpec GProofs BinomProofs AndersonPoly.
Import ListNotations.
Open Scope R_scope.

Notation tiny := (bpow radix2 (-1000)).
Lemma tiny_le : 0 < tiny <= / 1237940039285380274899124224.
Proof. split; [apply bpow_gt_0|]. change (/ 1237940039285380274899124224) with (bpow radix2 (-90)). apply bpow_le. lia. Qed.
Lemma u_le : 0 < u /\ u = / 9007199254740992. Proof. split; [apply bpow_gt_0|reflexivity]. Qed.

Lemma add_near x y X Y ex ey B : fin x -> fin y -> Rabs (dval x - X) <= ex -> Rabs (dval y - Y) <= ey -> Rabs X + Rabs Y + ex + ey <= B -> B <= 1000000000 ->
  fin (dadd x y) /\ Rabs (dval (dadd x y) - (X + Y)) <= ex + ey + u * B + tiny.
Proof.
  intros Fx Fy Hx Hy HB B1. assert (S : Rabs (dval x + dval y) <= B).
  { replace (dval x + dval y) with ((dval x - X) + (dval y - Y) + (X + Y)) by ring. eapply Rle_trans; [apply Rabs_triang|]. pose proof (Rabs_triang X Y). pose proof (Rabs_triang (dval x - X) (dval y - Y)). lra. }
  destruct (dadd_ok x y Fx Fy) as [V F]; [apply small_R with B; lra|]. split; [exact F|]. rewrite V.
  pose proof (rnd_err_abs (dval x + dval y)) as E. destruct u_le as [U _].
  replace (rnd (dval x + dval y) - (X + Y)) with ((rnd (dval x + dval y) - (dval x + dval y)) + ((dval x - X) + (dval y - Y))) by ring.
  eapply Rle_trans; [apply Rabs_triang|]. pose proof (Rabs_triang (dval x - X) (dval y - Y)). assert (u * Rabs (dval x + dval y) <= u * B) by (apply Rmult_le_compat_l; lra). lra.
Qed.
Lemma sub_near x y X Y ex ey B : fin x -> fin y -> Rabs (dval x - X) <= ex -> Rabs (dval y - Y) <= ey -> Rabs X + Rabs Y + ex + ey <= B -> B <= 1000000000 ->
  fin (dsub x y) /\ Rabs (dval (dsub x y) - (X - Y)) <= ex + ey + u * B + tiny.
Proof.
  intros Fx Fy Hx Hy HB B1. assert (S : Rabs (dval x - dval y) <= B).
  { replace (dval x - dval y) with ((dval x - X) - (dval y - Y) + (X - Y)) by ring. eapply Rle_trans; [apply Rabs_triang|]. pose proof (Rabs_triang X (- Y)) as T. rewrite Rabs_Ropp in T. pose proof (Rabs_triang (dval x - X) (- (dval y - Y))) as T'. rewrite Rabs_Ropp in T'. unfold Rminus in *. lra. }
  destruct (dsub_ok x y Fx Fy) as [V F]; [apply small_R with B; lra|]. split; [exact F|]. rewrite V.
  pose proof (rnd_err_abs (dval x - dval y)) as E. destruct u_le as [U _].
  replace (rnd (dval x - dval y) - (X - Y)) with ((rnd (dval x - dval y) - (dval x - dval y)) + ((dval x - X) - (dval y - Y))) by ring.
  eapply Rle_trans; [apply Rabs_triang|]. pose proof (Rabs_triang (dval x - X) (- (dval y - Y))) as T'. rewrite Rabs_Ropp in T'. unfold Rminus in *. assert (u * Rabs (dval x + - dval y) <= u * B) by (apply Rmult_le_compat_l; lra). lra.
Qed.
Lemma mul_count k y Y ey B : (k <= 4096)%N -> fin y -> Rabs (dval y - Y) <= ey -> IZR (Z.of_N k) * (Rabs Y + ey) <= B -> B <= 1000000000 ->
  fin (dmul (double_of_N k) y) /\ Rabs (dval (dmul (double_of_N k) y) - IZR (Z.of_N k) * Y) <= IZR (Z.of_N k) * ey + u * B + tiny.
Proof.
  intros Hk Fy Hy HB B1. destruct (double_of_N_exact k ltac:(lia)) as [V F]. assert (K0 : 0 <= IZR (Z.of_N k)) by (apply IZR_le; lia).
  assert (Y1 : Rabs (dval y) <= Rabs Y + ey) by (replace (dval y) with ((dval y - Y) + Y) by ring; eapply Rle_trans; [apply Rabs_triang|]; lra).
  assert (S : Rabs (IZR (Z.of_N k) * dval y) <= B) by (rewrite Rabs_mult, (Rabs_pos_eq (IZR (Z.of_N k))) by exact K0; eapply Rle_trans; [apply Rmult_le_compat_l; [exact K0|exact Y1]|exact HB]).
  destruct (dmul_ok (double_of_N k) y F Fy) as [Vm Fm]; [rewrite V; apply small_R with B; lra|]. split; [exact Fm|]. rewrite Vm, V.
  pose proof (rnd_err_abs (IZR (Z.of_N k) * dval y)) as E. destruct u_le as [U _]. assert (u * Rabs (IZR (Z.of_N k) * dval y) <= u * B) by (apply Rmult_le_compat_l; lra).
  replace (rnd (IZR (Z.of_N k) * dval y) - IZR (Z.of_N k) * Y) with ((rnd (IZR (Z.of_N k) * dval y) - IZR (Z.of_N k) * dval y) + IZR (Z.of_N k) * (dval y - Y)) by ring.
  eapply Rle_trans; [apply Rabs_triang|]. rewrite (Rabs_mult (IZR (Z.of_N k)) (dval y - Y)), (Rabs_pos_eq (IZR (Z.of_N k))) by exact K0.
  assert (IZR (Z.of_N k) * Rabs (dval y - Y) <= IZR (Z.of_N k) * ey) by (apply Rmult_le_compat_l; assumption). lra.
Qed.
Lemma exp_m1 x : Rabs x <= 1 / 2 -> Rabs (exp x - 1) <= 2 * Rabs x.
Proof.
  intros H. apply Rabs_le_inv in H. pose proof (exp_ineq1_le x) as A. pose proof (exp_ineq1_le (- x)) as B. rewrite exp_Ropp in B. pose proof (exp_pos x) as P.
  assert (U : exp x * (1 - x) <= 1). { apply Rmult_le_reg_l with (/ exp x); [apply Rinv_0_lt_compat, P|]. rewrite <- Rmult_assoc, Rinv_l, Rmult_1_l, Rmult_1_r by lra. lra. }
  destruct (Rle_or_lt 0 x) as [X|X]; [rewrite (Rabs_pos_eq x X)|rewrite (Rabs_left x X)]; apply Rabs_le; split; try lra.
  - nra.
  - assert (exp x <= 1) by (rewrite <- exp_0; apply exp_le; lra). lra.
Qed.

(* binomial coefficients *)
Lemma C_n_0 n : C n 0 = 1.
Proof. unfold C. rewrite Nat.sub_0_r. cbn [fact]. change (INR 1) with 1. field. apply INR_fact_neq_0. Qed.
Lemma C_n_n n : C n n = 1.
Proof. unfold C. rewrite Nat.sub_diag. cbn [fact]. change (INR 1) with 1. field. apply INR_fact_neq_0. Qed.
Lemma C_ge_1 n : forall i, (i <= n)%nat -> 1 <= C n i.
Proof.
  induction n as [|n IH]; intros [|i] H; try lia; try (rewrite C_n_0; lra).
  destruct (Nat.eq_dec i n) as [->|NE]; [rewrite C_n_n; lra|]. rewrite <- pascal by lia. pose proof (IH i ltac:(lia)). pose proof (IH (S i) ltac:(lia)). lra.
Qed.
Lemma C_next n i : (i < n)%nat -> C n (S i) = C n i * INR (n - i) / INR (S i).
Proof.
  intros H. unfold C. replace (n - i)%nat with (S (n - S i)) by lia. set (m := (n - S i)%nat). rewrite !fact_simpl, !mult_INR.
  field. repeat split; try apply INR_fact_neq_0; apply not_0_INR; lia.
Qed.
Definition term (n : nat) (p : R) (i : nat) : R := C n i * p ^ i * (1 - p) ^ (n - i).
Lemma term_nonneg n p i : 0 <= p <= 1 -> (i <= n)%nat -> 0 <= term n p i.
Proof. intros H Hi. unfold term. pose proof (C_ge_1 n i Hi). apply Rmult_le_pos; [apply Rmult_le_pos; [lra|apply pow_le; lra]|apply pow_le; lra]. Qed.
Lemma sum_mono f n k : (forall i, (i <= n)%nat -> 0 <= f i) -> (k <= n)%nat -> 0 <= sum_f_R0 f k <= sum_f_R0 f n.
Proof.
  intros P H. assert (Z : forall j, (j <= n)%nat -> 0 <= sum_f_R0 f j).
  { induction j as [|j IH]; intros J; cbn [sum_f_R0]; [apply P; lia|]. pose proof (P (S j) J). specialize (IH ltac:(lia)). lra. }
  split; [apply Z, H|]. clear Z. induction H as [|m H IH]; [lra|]. cbn [sum_f_R0]. assert (0 <= f (S m)) by (apply P; lia). assert (sum_f_R0 f k <= sum_f_R0 f m) by (apply IH; intros; apply P; lia). lra.
Qed.
Lemma at_most_le_1 n k p : 0 <= p <= 1 -> (k <= n)%nat -> 0 <= at_most n k p <= 1.
Proof.
  intros H Hk. pose proof (sum_mono (term n p) n k (fun i Hi => term_nonneg n p i H Hi) Hk) as M.
  assert (E : sum_f_R0 (term n p) n = 1). { pose proof (binomial p (1 - p) n) as B. replace (p + (1 - p)) with 1 in B by ring. rewrite pow1 in B. symmetry. exact B. }
  rewrite E in M. exact M.
Qed.
Lemma at_most_S n k p : at_most n (S k) p = at_most n k p + term n p (S k). Proof. reflexivity. Qed.
Lemma at_most_0 n p : at_most n 0 p = (1 - p) ^ n.
Proof. unfold at_most. cbn [sum_f_R0]. rewrite C_n_0, Nat.sub_0_r. cbn [pow]. ring. Qed.
Lemma INR_N n : INR n = IZR (Z.of_N (N.of_nat n)).
Proof. rewrite nat_N_Z, <- INR_IZR_INZ. reflexivity. Qed.
Lemma ln_C n i : (i <= n)%nat -> (N.of_nat n <= 4096)%N -> 0 <= ln (C n i) <= 4096.
Proof.
  intros H Hn. pose proof (C_ge_1 n i H) as P. split; [rewrite <- ln_1; apply ln_le; lra|].
  pose proof (sum_mono (term n (/ 2)) n n (fun j Hj => term_nonneg n (/ 2) j ltac:(lra) Hj) (le_n n)) as _.
  assert (T : term n (/ 2) i <= 1).
  { destruct (at_most_le_1 n i (/ 2) ltac:(lra) H) as [A B]. destruct i as [|i]; [exact B|]. rewrite at_most_S in B. destruct (at_most_le_1 n i (/ 2) ltac:(lra) ltac:(lia)) as [A' _]. lra. }
  unfold term in T. replace (1 - / 2) with (/ 2) in T by field. rewrite Rmult_assoc, <- pow_add in T. replace (i + (n - i))%nat with n in T by lia.
  assert (E : C n i <= 2 ^ n). { assert (P2 : 0 < 2 ^ n) by (apply pow_lt; lra). rewrite pow_inv in T. apply Rmult_le_compat_r with (r := 2 ^ n) in T; [|lra]. rewrite Rmult_assoc, Rinv_l, Rmult_1_l, Rmult_1_r in T by lra. exact T. }
  apply Rle_trans with (ln (2 ^ n)); [apply ln_le; lra|]. rewrite ln_pow by lra. pose proof ln2_lt1. assert (0 < ln 2) by (rewrite <- ln_1; apply ln_increasing; lra).
  assert (INR n <= 4096) by (rewrite INR_N; apply IZR_le; lia). pose proof (pos_INR n). nra.
Qed.

Section Lib.
Variables (log exp erfc : double -> double).
Hypothesis G : good_dist log exp erfc.
Hypothesis X1 : exp_1 exp.
Variables (n : nat) (p lp lq : double).
Hypothesis Hn : (N.of_nat n <= 4096)%N.
Notation P := (dval p).
Notation Q := (1 - dval p).
Hypothesis HP : 0 < P < 1.
Hypothesis Hp : fin lp /\ Rabs (dval lp - ln P) <= / 1000000000000 /\ Rabs (ln P) <= 25.
Hypothesis Hq : fin lq /\ Rabs (dval lq - ln Q) <= / 1000000000000 /\ Rabs (ln Q) <= 25.
Notation nN := (N.of_nat n).
Notation loop := (binomial_cdf_loop log exp nN lp lq).

Lemma ln_count k : (1 <= k <= 4096)%N -> fin (log (double_of_N k)) /\ Rabs (dval (log (double_of_N k)) - ln (IZR (Z.of_N k))) <= bpow radix2 (-40) /\ Rabs (ln (IZR (Z.of_N k))) <= 12.
Proof.
  intros H. destruct (double_of_N_exact k ltac:(lia)) as [V F]. assert (J : 1 <= IZR (Z.of_N k) <= bpow radix2 12) by (change (bpow radix2 12) with 4096; split; apply IZR_le; lia).
  destruct (gd_log _ _ _ G _ F) as [Fl El]; [lra|]. split; [exact Fl|]. rewrite V in El. split; [exact El|].
  assert (0 <= ln (IZR (Z.of_N k))) by (rewrite <- ln_1; apply ln_le; lra). assert (ln (IZR (Z.of_N k)) <= ln (bpow radix2 12)) by (apply ln_le; lra). rewrite ln_pow2 in *. pose proof ln2_upper.
  apply Rabs_le. lra.
Qed.
Definition b_ok (i : nat) (b : double) : Prop := fin b /\ Rabs (dval b - ln (C n i)) <= INR i * / 274877906944.
Lemma b_next i b : (i < n)%nat -> b_ok i b -> b_ok (S i) (bnext log nN (N.of_nat (S i)) b).
Proof.
  intros Hi [F H]. unfold bnext. rewrite (wrap_le nN ltac:(lia)) by lia. replace (nN + 1 - N.of_nat (S i))%N with (N.of_nat (n - i)) by lia.
  destruct (ln_count (N.of_nat (n - i)) ltac:(lia)) as (F1 & E1 & B1). destruct (ln_count (N.of_nat (S i)) ltac:(lia)) as (F2 & E2 & B2). rewrite <- !INR_N in *.
  change (bpow radix2 (-40)) with (/ 1099511627776) in *. destruct tiny_le as [T0 T1]. destruct u_le as [U0 U1].
  destruct (sub_near _ _ _ _ _ _ 32 F1 F2 E1 E2) as [F3 E3]; [lra|lra|].
  destruct (ln_C n i ltac:(lia) Hn) as [L0 L1]. assert (I1 : INR i <= 4096) by (rewrite INR_N; apply IZR_le; lia). pose proof (pos_INR i) as I0.
  destruct (add_near _ _ _ _ _ _ 8192 F F3 H E3) as [F4 E4].
  { rewrite (Rabs_pos_eq (ln (C n i))) by exact L0. pose proof (Rabs_triang (ln (INR (n - i))) (- ln (INR (S i)))) as T. rewrite Rabs_Ropp in T. unfold Rminus in *. rewrite U1 in *. lra. }
  { lra. }
  split; [exact F4|]. pose proof (C_ge_1 n i ltac:(lia)) as C1. assert (N1 : 0 < INR (n - i)) by (apply lt_0_INR; lia). assert (N2 : 0 < INR (S i)) by (apply lt_0_INR; lia).
  rewrite C_next by exact Hi. rewrite ln_div by (try apply Rmult_lt_0_compat; lra). rewrite ln_mult by lra.
  replace (ln (C n i) + ln (INR (n - i)) - ln (INR (S i))) with (ln (C n i) + (ln (INR (n - i)) - ln (INR (S i)))) by ring.
  apply Rle_trans with (1 := E4). rewrite S_INR, U1. lra.
Qed.
Lemma arg_near i b : (1 <= i <= n)%nat -> b_ok i b -> fin (arg nN lp lq (N.of_nat i) b) /\ Rabs (dval (arg nN lp lq (N.of_nat i) b) - ln (term n P i)) <= / 33554432.
Proof.
  intros Hi [F H]. unfold arg. rewrite (wrap_le' nN ltac:(lia)) by lia. replace (nN - N.of_nat i)%N with (N.of_nat (n - i)) by lia.
  destruct Hp as (Fp & Ep & Bp). destruct Hq as (Fq & Eq & Bq). destruct tiny_le as [T0 T1]. destruct u_le as [U0 U1].
  assert (I1 : forall j, (j <= n)%nat -> INR j <= 4096) by (intros j Hj; rewrite INR_N; apply IZR_le; lia). pose proof (I1 i ltac:(lia)) as Ia. pose proof (I1 (n - i)%nat ltac:(lia)) as Ib.
  pose proof (pos_INR i) as Ja. pose proof (pos_INR (n - i)) as Jb.
  destruct (mul_count (N.of_nat i) lp (ln P) (/ 1000000000000) 110000 ltac:(lia) Fp Ep) as [F1 E1]; [rewrite <- INR_N; nra|lra|].
  destruct (mul_count (N.of_nat (n - i)) lq (ln Q) (/ 1000000000000) 110000 ltac:(lia) Fq Eq) as [F2 E2]; [rewrite <- INR_N; nra|lra|].
  rewrite <- INR_N in E1, E2. destruct (ln_C n i ltac:(lia) Hn) as [L0 L1].
  assert (M1 : Rabs (INR i * ln P) <= 110000) by (rewrite Rabs_mult, (Rabs_pos_eq (INR i)) by lra; nra).
  assert (M2 : Rabs (INR (n - i) * ln Q) <= 110000) by (rewrite Rabs_mult, (Rabs_pos_eq (INR (n - i))) by lra; nra).
  assert (H' : Rabs (dval b - ln (C n i)) <= / 60000000) by (apply Rle_trans with (1 := H); lra).
  assert (E1' : Rabs (dval (dmul (double_of_N (N.of_nat i)) lp) - INR i * ln P) <= / 240000000) by (apply Rle_trans with (1 := E1); rewrite U1; lra).
  assert (E2' : Rabs (dval (dmul (double_of_N (N.of_nat (n - i))) lq) - INR (n - i) * ln Q) <= / 240000000) by (apply Rle_trans with (1 := E2); rewrite U1; lra).
  destruct (add_near _ _ _ _ _ _ 200000 F F1 H' E1') as [F3 E3]; [rewrite (Rabs_pos_eq (ln (C n i))) by exact L0; lra|lra|].
  destruct (add_near _ _ _ _ _ _ 400000 F3 F2 E3 E2') as [F4 E4].
  { pose proof (Rabs_triang (ln (C n i)) (INR i * ln P)) as T. rewrite (Rabs_pos_eq (ln (C n i))) in T by exact L0. rewrite U1. lra. }
  { lra. }
  split; [exact F4|]. pose proof (C_ge_1 n i ltac:(lia)) as C1. unfold term.
  assert (P1 : 0 < P ^ i) by (apply pow_lt; lra). assert (P2 : 0 < Q ^ (n - i)) by (apply pow_lt; lra). assert (P3 : 0 < C n i * P ^ i) by (apply Rmult_lt_0_compat; lra).
  rewrite (ln_mult (C n i * P ^ i)), (ln_mult (C n i)), (ln_pow P), (ln_pow Q) by lra.
  apply Rle_trans with (1 := E4). rewrite U1. lra.
Qed.
Lemma term_near i b : (1 <= i <= n)%nat -> b_ok i b ->
  let x := exp (arg nN lp lq (N.of_nat i) b) in fin x /\ Rabs (dval x - term n P i) <= / 16777216 * term n P i + / 1099511627776.
Proof.
  intros Hi Hb. cbv zeta. destruct (arg_near i b Hi Hb) as [Fa Ea]. set (a := arg nN lp lq (N.of_nat i) b) in *.
  assert (T0 : 0 < term n P i). { unfold term. pose proof (C_ge_1 n i ltac:(lia)). apply Rmult_lt_0_compat; [apply Rmult_lt_0_compat; [lra|apply pow_lt; lra]|apply pow_lt; lra]. }
  assert (T1 : term n P i <= 1). { destruct i as [|i]; [lia|]. destruct (at_most_le_1 n (S i) P ltac:(lra) ltac:(lia)) as [_ B]. rewrite at_most_S in B. destruct (at_most_le_1 n i P ltac:(lra) ltac:(lia)) as [A _]. lra. }
  assert (LT : ln (term n P i) <= 0) by (rewrite <- ln_1; apply ln_le; lra).
  destruct (X1 a Fa) as [Fx Ex]; [apply Rabs_le_inv in Ea; lra|]. split; [exact Fx|].
  change (bpow radix2 (-40)) with (/ 1099511627776) in Ex.
  replace (dval (exp a) - term n P i) with ((dval (exp a) - Rtrigo_def.exp (dval a)) + (Rtrigo_def.exp (dval a) - term n P i)) by ring.
  eapply Rle_trans; [apply Rabs_triang|]. apply Rplus_le_compat_l with (r := / 16777216 * term n P i) in Ex. rewrite Rplus_comm. eapply Rle_trans; [apply Rplus_le_compat_r|exact Ex].
  replace (Rtrigo_def.exp (dval a)) with (term n P i * Rtrigo_def.exp (dval a - ln (term n P i))) by (unfold Rminus; rewrite exp_plus, exp_Ropp, exp_ln by exact T0; field; lra).
  replace (term n P i * Rtrigo_def.exp (dval a - ln (term n P i)) - term n P i) with (term n P i * (Rtrigo_def.exp (dval a - ln (term n P i)) - 1)) by ring.
  rewrite Rabs_mult, (Rabs_pos_eq (term n P i)) by lra. rewrite Rmult_comm. apply Rmult_le_compat_r; [lra|].
  eapply Rle_trans; [apply exp_m1; lra|]. lra.
Qed.
Definition cdf_err (i : nat) : R := / 16777216 * at_most n i P + INR (S i) * / 274877906944.
Lemma loop_near left : forall i b cdf, (i + left <= n)%nat -> b_ok i b -> fin cdf -> Rabs (dval cdf - at_most n i P) <= cdf_err i ->
  fin (loop (N.of_nat (S i)) left b cdf) /\ Rabs (dval (loop (N.of_nat (S i)) left b cdf) - at_most n (i + left) P) <= cdf_err (i + left).
Proof.
  induction left as [|left IH]; intros i b cdf Hl Hb Fc Hc; [rewrite Nat.add_0_r; split; assumption|].
  rewrite loop_S. replace (N.of_nat (S i) + 1)%N with (N.of_nat (S (S i))) by lia. replace (i + S left)%nat with (S i + left)%nat by lia.
  pose proof (b_next i b ltac:(lia) Hb) as Hb'. destruct (term_near (S i) _ ltac:(lia) Hb') as [Fx Ex]. cbv zeta in Fx, Ex.
  destruct (at_most_le_1 n i P ltac:(lra) ltac:(lia)) as [A0 A1]. destruct (at_most_le_1 n (S i) P ltac:(lra) ltac:(lia)) as [B0 B1]. pose proof (term_nonneg n P (S i) ltac:(lra) ltac:(lia)) as T0. rewrite at_most_S in B0, B1.
  assert (I1 : INR (S i) <= 4096) by (rewrite INR_N; apply IZR_le; lia). pose proof (pos_INR (S i)) as I0. destruct tiny_le as [Y0 Y1]. destruct u_le as [U0 U1].
  destruct (add_near cdf _ _ _ _ _ 4 Fc Fx Hc Ex) as [Fa Ea].
  { unfold cdf_err. rewrite !Rabs_pos_eq by lra. lra. }
  { lra. }
  apply (IH (S i)); [lia|exact Hb'|exact Fa|]. rewrite at_most_S. apply Rle_trans with (1 := Ea). unfold cdf_err. rewrite at_most_S, (S_INR (S i)), U1. lra.
Qed.
End Lib.
