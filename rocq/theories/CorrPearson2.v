(* Pearson's coefficient and its z score. *)
From Coq Require Import Reals Lra Lia.
From Flocq Require Import Core BinarySingleNaN.
From Verif Require Import Base FloatModel FloatLemmas ResultModel ResultSpec CollectModel StatsModel RescaleProofs StatsProofs CouponFloatProofs StatFormulas CommandModel CorrModel CorrSpec CorrCount CorrKendall CorrProofs CorrPearson ErrorSpec.
Open Scope R_scope.

(* ---- Cauchy-Schwarz ---- *)
Lemma cs_step A B C a b : 0 <= A -> 0 <= B -> C * C <= A * B -> (C + a * b) * (C + a * b) <= (A + a * a) * (B + b * b).
Proof.
  intros HA HB H. set (X := A * (b * b) + (a * a) * B). assert (PX : 0 <= X) by (unfold X; pose proof (Rle_0_sqr a); pose proof (Rle_0_sqr b); unfold Rsqr in *; apply Rplus_le_le_0_compat; apply Rmult_le_pos; assumption).
  assert (Q : (2 * (a * b * C)) * (2 * (a * b * C)) <= X * X).
  { assert (0 <= (A * (b * b) - (a * a) * B) * (A * (b * b) - (a * a) * B)) by apply Rle_0_sqr.
    assert (P : 0 <= (a * b) * (a * b)) by apply Rle_0_sqr.
    assert ((a * b) * (a * b) * (C * C) <= (a * b) * (a * b) * (A * B)) by (apply Rmult_le_compat_l; assumption). unfold X. lra. }
  assert (2 * (a * b * C) <= X) by (apply Rsqr_incr_0_var; [exact Q|exact PX]). unfold X in *. lra.
Qed.
Lemma cauchy_schwarz {A} (f g : A -> R) l : rsum (map (fun x => f x * g x) l) * rsum (map (fun x => f x * g x) l) <= rsum (map (fun x => f x * f x) l) * rsum (map (fun x => g x * g x) l) /\
  0 <= rsum (map (fun x => f x * f x) l) /\ 0 <= rsum (map (fun x => g x * g x) l).
Proof.
  induction l as [|a l (IH & IA & IB)]; unfold rsum in *; cbn [map fold_right]; [lra|]. pose proof (Rle_0_sqr (f a)). pose proof (Rle_0_sqr (g a)). unfold Rsqr in *. split; [|lra].
  rewrite !(Rplus_comm (_ a * _ a)). apply cs_step; assumption.
Qed.
Lemma abs_le_sqrt c p : 0 <= p -> c * c <= p -> Rabs c <= sqrt p.
Proof. intros P H. rewrite <- (sqrt_Rsqr (Rabs c)) by apply Rabs_pos. apply sqrt_le_1_alt. rewrite <- Rsqr_abs. exact H. Qed.

Lemma cross_pair l m : length l = length m -> crossR l m = rsum (map (fun p => (fst p - meanR l) * (snd p - meanR m)) (combine l m)). Proof. reflexivity. Qed.
Lemma cross_l (l m : list R) : length l = length m -> crossR l l = rsum (map (fun p => (fst p - meanR l) * (fst p - meanR l)) (combine l m)).
Proof.
  intros E. unfold crossR. f_equal. generalize (meanR l). intros a. revert m E. induction l as [|x l IH]; intros [|y m] E; cbn in *; try discriminate; [reflexivity|]. f_equal. apply IH. lia.
Qed.
Lemma cross_r (l m : list R) : length l = length m -> crossR m m = rsum (map (fun p => (snd p - meanR m) * (snd p - meanR m)) (combine l m)).
Proof.
  intros E. unfold crossR. f_equal. generalize (meanR m). intros a. revert m E. induction l as [|x l IH]; intros [|y m] E; cbn in *; try discriminate; [reflexivity|]. f_equal. apply IH. lia.
Qed.
Section XY.
Variables xs ys : list double.
Hypotheses (Hx : unit_data xs) (Hy : unit_data ys) (L : length xs = length ys) (Hn : good_size (length xs)).
Let n := INR (length xs).
Let X := map dval xs.
Let Y := map dval ys.
Lemma LXY : length X = length Y. Proof. unfold X, Y. rewrite !map_length. exact L. Qed.
Lemma cross_cs : crossR X Y * crossR X Y <= crossR X X * crossR Y Y /\ 0 <= crossR X X /\ 0 <= crossR Y Y.
Proof.
  rewrite (cross_l X Y LXY), (cross_r X Y LXY), (cross_pair X Y LXY).
  apply (cauchy_schwarz (fun p : R * R => fst p - meanR X) (fun p : R * R => snd p - meanR Y)).
Qed.
Lemma cross_abs : Rabs (crossR X Y) <= sqrt (crossR X X * crossR Y Y).
Proof. destruct cross_cs as (A & B & C). apply abs_le_sqrt; [apply Rmult_le_pos; assumption|exact A]. Qed.
End XY.
Lemma cross_upper l m : 0 <= m <= 1 -> Forall (fun x => 0 <= x <= 1) l -> rsum (map (fun p => (fst p - m) * (snd p - m)) (combine l l)) <= INR (length l).
Proof.
  intros M. induction 1 as [|x l Bx _ IH]; unfold rsum in *; cbn [map combine fold_right length fst snd]; [cbn; lra|]. rewrite S_INR. nra.
Qed.
Lemma cross_le_n xs : unit_data xs -> good_size (length xs) -> crossR (map dval xs) (map dval xs) <= INR (length xs).
Proof.
  intros H Hn. destruct (mean_ok xs H Hn) as (_ & _ & M). pose proof (cross_upper (map dval xs) _ M) as C. rewrite map_length in C. apply C.
  apply Forall_map. apply Forall_impl with (2 := H). intros a [_ K]. exact K.
Qed.

Definition rho (n : R) : R := 512 * n * u.
Lemma rho_small n : 3 <= n <= 1000000 -> 1536 * u <= rho n <= / 17000000.
Proof. intros H. unfold rho. rewrite u_val. lra. Qed.
(* the square root of a sum of squares *)
Lemma root_ok n s S : 3 <= n <= 1000000 -> fin s -> Rabs (dval s - S) <= 16 * n * n * u -> n / 32 <= S <= n ->
  fin (dsqrt s) /\ approx (2 * rho n) (dval (dsqrt s)) (sqrt S) /\ sqrt (n / 32) / 2 <= dval (dsqrt s) <= 2 * n /\ n / 33 <= dval s <= 2 * n.
Proof.
  intros Hn Fs Es BS. pose proof (rho_small n Hn) as Br. pose proof u_pos as Pu.
  assert (A : approx (rho n) (dval s) S).
  { unfold approx. apply Rle_trans with (1 := Es). rewrite Rabs_pos_eq by lra. unfold rho. assert (0 <= 512 * n * u) by (apply Rmult_le_pos; lra). apply Rle_trans with (512 * n * u * (n / 32)); [apply Req_le; field|apply Rmult_le_compat_l; lra]. }
  assert (Bs : n / 33 <= dval s <= 2 * n). { unfold approx in A. rewrite (Rabs_pos_eq S) in A by lra. apply Rabs_le_inv in A. assert (rho n * S <= / 17000000 * S) by nra. lra. }
  destruct (dsqrt_ok s Fs ltac:(lra)) as [F V]. split; [exact F|].
  assert (As : approx (rho n) (sqrt (dval s)) (sqrt S)) by (apply approx_sqrt; [lra|lra|exact A]).
  assert (P32 : 0 < sqrt (n / 32)) by (apply sqrt_lt_R0; lra). assert (S32 : sqrt (n / 32) <= sqrt S) by (apply sqrt_le_1_alt; lra).
  assert (Sn : sqrt S <= n). { rewrite <- (sqrt_square n) by lra. apply sqrt_le_1_alt. nra. }
  assert (Q1 : / 4 <= sqrt (n / 32)). { rewrite <- (sqrt_square (/ 4)) by lra. apply sqrt_le_1_alt. lra. }
  assert (Bq : sqrt (n / 32) * (9 / 10) <= sqrt (dval s)). { unfold approx in As. rewrite (Rabs_pos_eq (sqrt S)) in As by lra. apply Rabs_le_inv in As. assert (rho n * sqrt S <= / 10 * sqrt S) by nra. nra. }
  assert (AA : approx (2 * rho n) (dval (dsqrt s)) (sqrt S)).
  { rewrite V. assert (Rn : approx u (rnd (sqrt (dval s))) (sqrt (dval s))) by (apply rnd_approx; pose proof tiny; lra).
    pose proof (approx_trans (rho n) u _ _ _ ltac:(lra) As Rn) as T. eapply approx_le; [|exact T]. rewrite u_val in *. nra. }
  split; [exact AA|]. split; [|exact Bs]. unfold approx in AA. rewrite (Rabs_pos_eq (sqrt S)) in AA by lra. apply Rabs_le_inv in AA. assert (2 * rho n * sqrt S <= / 10 * sqrt S) by nra. lra.
Qed.

Section R.
Variables (n : R) (sx sy sxy : double) (Sx Sy Sxy : R).
Hypotheses (Hn : 3 <= n <= 1000000) (Fx : fin sx) (Fy : fin sy) (Fxy : fin sxy).
Hypotheses (Ex : Rabs (dval sx - Sx) <= 16 * n * n * u) (Ey : Rabs (dval sy - Sy) <= 16 * n * n * u) (Exy : Rabs (dval sxy - Sxy) <= 16 * n * n * u).
Hypotheses (Bx : n / 32 <= Sx <= n) (By : n / 32 <= Sy <= n) (C : Rabs Sxy <= sqrt (Sx * Sy)).
Definition raw_r : double := ddiv sxy (dmul (dsqrt sx) (dsqrt sy)).
Lemma raw_r_ok : fin raw_r /\ Rabs (dval raw_r - Sxy / sqrt (Sx * Sy)) <= 12 * rho n.
Proof.
  pose proof (rho_small n Hn) as Br. pose proof u_pos as Pu. pose proof tiny_u as TU.
  destruct (root_ok n sx Sx Hn Fx Ex Bx) as (F1 & A1 & B1 & _). destruct (root_ok n sy Sy Hn Fy Ey By) as (F2 & A2 & B2 & _).
  assert (P32 : sqrt (n / 32) * sqrt (n / 32) = n / 32) by (apply sqrt_sqrt; lra). assert (P0 : 0 < sqrt (n / 32)) by (apply sqrt_lt_R0; lra).
  set (a := dsqrt sx) in *. set (b := dsqrt sy) in *. assert (ED : sqrt (Sx * Sy) = sqrt Sx * sqrt Sy) by (apply sqrt_mult; lra). set (D := sqrt (Sx * Sy)) in *.
  assert (BD : n / 32 <= D). { unfold D. rewrite <- (sqrt_square (n / 32)) by lra. apply sqrt_le_1_alt. nra. }
  assert (Bp : n / 128 <= dval a * dval b <= 4 * (n * n)).
  { split; [|nra]. apply Rle_trans with ((sqrt (n / 32) / 2) * (sqrt (n / 32) / 2)); [lra|apply Rmult_le_compat; lra]. }
  assert (N2 : 4 * (n * n) <= bpow radix2 50). { change (bpow radix2 50) with 1125899906842624. nra. }
  destruct (dmul_ok a b F1 F2) as [Vp Fp]; [apply small_bpow with 50%Z; [lia|]; rewrite Rabs_pos_eq; lra|]. set (p := dmul a b) in *.
  assert (Ap : approx (5 * rho n) (dval p) D).
  { rewrite Vp, ED. pose proof (approx_mult (2 * rho n) (2 * rho n) _ _ _ _ ltac:(lra) ltac:(lra) A1 A2) as M.
    assert (Rn : approx u (rnd (dval a * dval b)) (dval a * dval b)) by (apply rnd_approx; pose proof tiny; lra).
    pose proof (approx_trans _ u _ _ _ ltac:(lra) M Rn) as T. eapply approx_le; [|exact T]. nra. }
  assert (D0 : 0 < D) by lra.
  destruct (approx_inv (5 * rho n) (dval p) D ltac:(lra) D0 Ap) as [Ai Pp]. 
  assert (ID : 0 < / D <= 32 / n). { split; [apply Rinv_0_lt_compat, D0|]. replace (32 / n) with (/ (n / 32)) by (field; lra). apply Rinv_le_contravar; lra. }
  unfold approx in Ai. rewrite (Rabs_pos_eq (/ D)) in Ai by lra.
  assert (Ip : 0 < / dval p <= 33 / n). { split; [apply Rinv_0_lt_compat, Pp|]. apply Rabs_le_inv in Ai. assert (2 * (5 * rho n) * / D <= / 100 * / D) by (apply Rmult_le_compat_r; lra). 
    assert (0 < / n) by (apply Rinv_0_lt_compat; lra). unfold Rdiv in *. lra. }
  assert (CR : Rabs (Sxy * / D) <= 1). { rewrite Rabs_mult, (Rabs_pos_eq (/ D)) by lra. apply Rmult_le_reg_r with D; [lra|]. rewrite Rmult_assoc, Rinv_l by lra. lra. }
  assert (In : n * / n = 1) by (apply Rinv_r; lra). assert (Ir : 0 < / n) by (apply Rinv_0_lt_compat; lra).
  assert (Q : Rabs (dval sxy / dval p - Sxy / D) <= 11 * rho n + rho n / 2).
  { unfold Rdiv. replace (dval sxy * / dval p - Sxy * / D) with ((dval sxy - Sxy) * / dval p + Sxy * (/ dval p - / D)) by ring. apply Rle_trans with (1 := Rabs_triang _ _). rewrite !Rabs_mult, (Rabs_pos_eq (/ dval p)) by lra.
    assert (T1 : Rabs (dval sxy - Sxy) * / dval p <= 16 * n * n * u * (33 / n)) by (apply Rmult_le_compat; try lra; apply Rabs_pos).
    assert (T1' : 16 * n * n * u * (33 / n) = 528 / 512 * rho n) by (unfold rho; field; lra).
    assert (T2 : Rabs Sxy * Rabs (/ dval p - / D) <= Rabs Sxy * (2 * (5 * rho n) * / D)) by (apply Rmult_le_compat_l; [apply Rabs_pos|exact Ai]).
    assert (T2' : Rabs Sxy * (2 * (5 * rho n) * / D) <= 10 * rho n). { rewrite Rabs_mult, (Rabs_pos_eq (/ D)) in CR by lra. replace (Rabs Sxy * (2 * (5 * rho n) * / D)) with (10 * rho n * (Rabs Sxy * / D)) by ring. nra. }
    lra. }
  assert (BQ : Rabs (dval sxy / dval p) <= 2). { apply Rabs_le_inv in Q, CR. unfold Rdiv in *. apply Rabs_le. lra. }
  destruct (ddiv_ok sxy p Fxy) as [V F]; [lra|apply small_bpow with 1%Z; [lia|exact BQ]|]. change (ddiv sxy p) with raw_r in V, F. split; [exact F|]. rewrite V.
  pose proof (rnd_err_abs (dval sxy / dval p)) as E. assert (u * Rabs (dval sxy / dval p) <= 2 * u) by nra.
  replace (rnd (dval sxy / dval p) - Sxy / D) with ((rnd (dval sxy / dval p) - dval sxy / dval p) + (dval sxy / dval p - Sxy / D)) by ring. apply Rle_trans with (1 := Rabs_triang _ _).
  rewrite u_val in *. lra.
Qed.
Lemma clamp1_near a b e : Rabs b <= 1 -> Rabs (a - b) <= e -> Rabs (clamp1 a - b) <= e.
Proof.
  intros B H. apply Rabs_le_inv in B, H. unfold clamp1. destruct (Rle_or_lt a (-1)); [rewrite Rmin_right, Rmax_left by lra; apply Rabs_le; lra|].
  destruct (Rle_or_lt a 1); [rewrite Rmin_right, Rmax_right by lra; apply Rabs_le; lra|]. rewrite Rmin_left, Rmax_right by lra. apply Rabs_le; lra.
Qed.
Lemma r_ok : fin (adjust_correlation raw_r) /\ Rabs (dval (adjust_correlation raw_r) - Sxy / sqrt (Sx * Sy)) <= 12 * rho n.
Proof.
  destruct raw_r_ok as [F E]. pose proof (rho_small n Hn) as Br. 
  assert (D : 0 < sqrt (Sx * Sy)) by (apply sqrt_lt_R0; nra).
  assert (CR : Rabs (Sxy / sqrt (Sx * Sy)) <= 1). { unfold Rdiv. rewrite Rabs_mult, (Rabs_pos_eq (/ _)) by (apply Rlt_le, Rinv_0_lt_compat, D). apply Rmult_le_reg_r with (sqrt (Sx * Sy)); [exact D|]. rewrite Rmult_assoc, Rinv_l by lra. lra. }
  destruct (adjust_val raw_r F) as [F' V']; [apply Rabs_le_inv in E, CR; apply Rabs_le; lra|]. split; [exact F'|]. rewrite V'. apply clamp1_near; [exact CR|exact E].
Qed.
End R.

(* ---- Fisher's transformation ---- *)
Lemma is_near_far2 a b : fin a -> fin b -> Rabs (dval a) <= 4 -> Rabs (dval b) <= 4 -> / 4 <= Rabs (dval a - dval b) -> is_near a b = false.
Proof.
  intros Fa Fb Ba Bb H. apply Rabs_le_inv in Ba, Bb. unfold is_near, is_near_eps.
  destruct (dsub_ok a b Fa Fb) as [V F]; [apply small_bpow with 3%Z; [lia|]; change (bpow radix2 3) with 8; apply Rabs_le; lra|].
  destruct near_eps_val as [Ve Fe]. apply dle_false; [apply dabs_fin, F|exact Fe|]. rewrite dabs_val, V. apply Rlt_le_trans with (/ 4); [pose proof near_eps_range; lra|].
  unfold rnd. rewrite <- round_NE_abs by typeclasses eauto. change (/ 4 <= rnd (Rabs (dval a - dval b))). change (/ 4) with (bpow radix2 (-2)). rewrite <- (rnd_id (bpow radix2 (-2))) by (apply F64_bpow; lia). apply rnd_mono, H.
Qed.
Lemma ln_le_sub x : 0 < x -> ln x <= x - 1.
Proof. intros H. pose proof (exp_ineq1_le (ln x)) as E. rewrite exp_ln in E by exact H. lra. Qed.
Lemma ln_div a b : 0 < a -> 0 < b -> ln (a / b) = ln a - ln b.
Proof. intros A B. unfold Rdiv. rewrite ln_mult by (try apply Rinv_0_lt_compat; assumption). rewrite ln_Rinv by assumption. ring. Qed.
Lemma ln_diff a b c : 0 < c -> c <= a -> c <= b -> Rabs (ln a - ln b) <= Rabs (a - b) / c.
Proof.
  intros Hc Ha Hb. assert (K : forall a b, c <= a -> c <= b -> ln a - ln b <= Rabs (a - b) / c).
  { clear a b Ha Hb. intros a b Ha Hb.
    rewrite <- ln_div by lra. apply Rle_trans with (a / b - 1); [apply ln_le_sub, Rdiv_lt_0_compat; lra|]. replace (a / b - 1) with ((a - b) * / b) by (field; lra).
    apply Rle_trans with (Rabs (a - b) * / b); [apply Rmult_le_compat_r; [apply Rlt_le, Rinv_0_lt_compat; lra|apply Rle_abs]|].
    apply Rmult_le_compat_l; [apply Rabs_pos|]. apply Rinv_le_contravar; lra. }
  apply Rabs_le. split; [|apply K; assumption]. pose proof (K b a Hb Ha) as H. rewrite Rabs_minus_sym in H. lra.
Qed.
Lemma artanh_diff a b : Rabs a <= 3 / 5 -> Rabs b <= 3 / 5 -> Rabs (artanh a - artanh b) <= 5 / 2 * Rabs (a - b).
Proof.
  intros Ha Hb. apply Rabs_le_inv in Ha, Hb. unfold artanh. rewrite !ln_div by lra.
  pose proof (ln_diff (1 + a) (1 + b) (2 / 5) ltac:(lra) ltac:(lra) ltac:(lra)) as H1. pose proof (ln_diff (1 - a) (1 - b) (2 / 5) ltac:(lra) ltac:(lra) ltac:(lra)) as H2.
  replace (1 + a - (1 + b)) with (a - b) in H1 by ring. replace (1 - a - (1 - b)) with (- (a - b)) in H2 by ring. rewrite Rabs_Ropp in H2.
  set (d := Rabs (a - b)) in *. clearbody d. apply Rabs_le_inv in H1, H2. apply Rabs_le. split; lra.
Qed.
Lemma artanh_small a : Rabs a <= 3 / 5 -> Rabs (artanh a) <= 3 / 2.
Proof.
  intros H. pose proof (artanh_diff a 0 H ltac:(rewrite Rabs_R0; lra)) as D. assert (Z : artanh 0 = 0) by (unfold artanh; replace ((1 + 0) / (1 - 0)) with 1 by field; rewrite ln_1; lra).
  rewrite Z, !Rminus_0_r in D. lra.
Qed.

(* sqrt((n - 3) / z_adjustment) *)
Lemma scale_ok k adj : (Z.of_N k <= 1000000)%Z -> fin adj -> 1 <= dval adj <= 2 ->
  let f := dsqrt (ddiv (double_of_N k) adj) in let F := sqrt (IZR (Z.of_N k) / dval adj) in
  fin f /\ approx (3 * u) (dval f) F /\ 0 <= dval f <= 2000 /\ (k = 0%N -> dval f = 0) /\ (k <> 0%N -> / 2 <= F <= 1000) /\ 0 <= F.
Proof.
  intros Hk Fa Ba f F. pose proof u_pos as Pu. destruct (double_of_N_exact k) as [Vk Fk]. { change (2 ^ 53)%N with 9007199254740992%N. lia. }
  assert (Rk : 0 <= IZR (Z.of_N k) <= 1000000) by (split; apply IZR_le; lia). assert (Ia : / 2 <= / dval adj <= 1) by (split; [apply Rinv_le_contravar; lra|rewrite <- Rinv_1; apply Rinv_le_contravar; lra]).
  assert (Bq : 0 <= IZR (Z.of_N k) / dval adj <= 1000000) by (unfold Rdiv; split; nra).
  destruct (ddiv_ok (double_of_N k) adj Fk) as [Vd Fd]; [lra|rewrite Vk; apply small_bpow with 20%Z; [lia|]; rewrite Rabs_pos_eq by lra; change (bpow radix2 20) with 1048576; lra|]. rewrite Vk in Vd.
  assert (Bd : 0 <= dval (ddiv (double_of_N k) adj) <= 1000000). { rewrite Vd. apply rnd_between; [apply F64_0|apply (F64_Z 1000000); lia|exact Bq]. }
  destruct (dsqrt_ok _ Fd (proj1 Bd)) as [Ff Vf]. fold f in Ff, Vf. split; [exact Ff|]. assert (PF : 0 <= F) by apply sqrt_pos.
  assert (Sd : 0 <= sqrt (dval (ddiv (double_of_N k) adj)) <= 1000). { split; [apply sqrt_pos|]. rewrite <- (sqrt_square 1000) by lra. apply sqrt_le_1_alt. lra. }
  assert (Bf : 0 <= dval f <= 2000). { rewrite Vf. assert (0 <= rnd (sqrt (dval (ddiv (double_of_N k) adj))) <= 1000) by (apply rnd_between; [apply F64_0|apply (F64_Z 1000); lia|exact Sd]). lra. }
  destruct (N.eq_dec k 0) as [E|E].
  - assert (Z0 : IZR (Z.of_N k) / dval adj = 0) by (rewrite E; unfold Rdiv; cbn; ring). assert (Zf : dval f = 0). { rewrite Vf, Vd, Z0, (rnd_id 0 F64_0), sqrt_0. apply rnd_id, F64_0. }
    assert (ZF : F = 0) by (unfold F; rewrite Z0; apply sqrt_0). rewrite Zf, ZF. split; [unfold approx; rewrite Rminus_0_r, Rabs_R0; lra|]. split; [lra|]. split; [reflexivity|]. split; [intros; lia|lra].
  - assert (K1 : 1 <= IZR (Z.of_N k)) by (apply IZR_le; lia). assert (Bq' : / 2 <= IZR (Z.of_N k) / dval adj) by (unfold Rdiv; nra).
    assert (Bd' : / 2 <= dval (ddiv (double_of_N k) adj)). { rewrite Vd. change (/ 2) with (bpow radix2 (-1)). rewrite <- (rnd_id (bpow radix2 (-1))) by (apply F64_bpow; lia). apply rnd_mono. exact Bq'. }
    assert (A1 : approx u (dval (ddiv (double_of_N k) adj)) (IZR (Z.of_N k) / dval adj)) by (rewrite Vd; apply rnd_approx; pose proof tiny; lra).
    assert (Pq : 0 < IZR (Z.of_N k) / dval adj) by lra. assert (A2 : approx u (sqrt (dval (ddiv (double_of_N k) adj))) F) by (apply approx_sqrt; [exact (proj1 Bd)|exact Pq|exact A1]).
    assert (Sl : / 2 <= sqrt (dval (ddiv (double_of_N k) adj))). { rewrite <- (sqrt_square (/ 2)) by lra. apply sqrt_le_1_alt. lra. }
    assert (A3 : approx u (dval f) (sqrt (dval (ddiv (double_of_N k) adj)))) by (rewrite Vf; apply rnd_approx; pose proof tiny; lra).
    split; [pose proof (approx_trans u u _ _ _ ltac:(lra) A2 A3) as T; eapply approx_le; [|exact T]; rewrite u_val; lra|]. split; [exact Bf|]. split; [intros; contradiction|].
    split; [|exact PF]. intros _. unfold F. split; [rewrite <- (sqrt_square (/ 2)) by lra; apply sqrt_le_1_alt; lra|rewrite <- (sqrt_square 1000) by lra; apply sqrt_le_1_alt; lra].
Qed.
Section Z.
Variables (atanh : double -> double) (adj : double) (k : N) (r : double) (R : R) (n : Rdefinitions.R).
Hypotheses (HA : good_atanh atanh) (Hk : (Z.of_N k <= 1000000)%Z) (Fa : fin adj) (Ba : 1 <= dval adj <= 2).
Hypotheses (Hn : 3 <= n <= 1000000) (Fr : fin r) (Er : Rabs (dval r - R) <= 12 * rho n) (BR : Rabs R <= / 2).
Lemma z_accurate : let z := dmul (fishers_transformation_safe atanh r) (dsqrt (ddiv (double_of_N k) adj)) in
  fin z /\ Rabs (dval z - artanh R * sqrt (IZR (Z.of_N k) / dval adj)) <= 32 * rho n * sqrt (IZR (Z.of_N k) / dval adj).
Proof.
  pose proof (rho_small n Hn) as Br. pose proof u_pos as Pu. pose proof tiny_u as TU. apply Rabs_le_inv in BR as BR'. apply Rabs_le_inv in Er as Er'.
  assert (B1 : Rabs (dval r) <= 3 / 5) by (apply Rabs_le; lra). apply Rabs_le_inv in B1 as B1'.
  destruct d1_val as [V1 F1]. pose proof (dneg_fin _ F1) as Fm. pose proof (dneg_val d1) as Vm. rewrite V1 in Vm.
  unfold fishers_transformation_safe. rewrite (is_near_far2 r (dneg d1)); [|assumption|assumption|apply Rabs_le; lra|rewrite Vm, Rabs_Ropp, Rabs_R1; lra|rewrite Vm, Rabs_pos_eq; lra].
  rewrite (is_near_far2 r d1); [|assumption|assumption|apply Rabs_le; lra|rewrite V1, Rabs_R1; lra|rewrite V1, Rabs_left1; lra].
  destruct (HA r Fr) as [Fm' Em']; [rewrite u_val; lra|]. set (m := atanh r) in *. destruct (scale_ok k adj Hk Fa Ba) as (Ff & Af & Bf & Z0 & BF & PF).
  set (f := dsqrt (ddiv (double_of_N k) adj)) in *. set (F := sqrt (IZR (Z.of_N k) / dval adj)) in *. cbn zeta.
  pose proof (artanh_diff (dval r) R B1 ltac:(lra)) as Ed. pose proof (artanh_small R ltac:(lra)) as Es.
  assert (U46 : bpow radix2 (-46) = 128 * u) by (change (-46)%Z with (7 + -53)%Z; rewrite bpow_plus; reflexivity). rewrite U46 in Em'.
  assert (Em : Rabs (dval m - artanh R) <= 31 * rho n).
  { replace (dval m - artanh R) with ((dval m - artanh (dval r)) + (artanh (dval r) - artanh R)) by ring. apply Rle_trans with (1 := Rabs_triang _ _). lra. }
  set (M := artanh R) in *. apply Rabs_le_inv in Es as Es'. apply Rabs_le_inv in Em as Em2. assert (Bm : Rabs (dval m) <= 2) by (apply Rabs_le; lra).
  assert (Bmf : Rabs (dval m * dval f) <= 4000). { rewrite Rabs_mult, (Rabs_pos_eq (dval f)) by lra. pose proof (Rabs_pos (dval m)). nra. }
  destruct (dmul_ok m f Fm' Ff) as [V Fz]; [apply small_bpow with 12%Z; [lia|change (bpow radix2 12) with 4096; lra]|]. split; [exact Fz|]. rewrite V.
  destruct (N.eq_dec k 0) as [E|E].
  - rewrite (Z0 E), Rmult_0_r, (rnd_id 0 F64_0). assert (ZF : F = 0) by (unfold F; rewrite E; unfold Rdiv; cbn; rewrite Rmult_0_l; apply sqrt_0). rewrite ZF, Rmult_0_r, Rminus_0_r, Rabs_R0, Rmult_0_r. lra.
  - specialize (BF E). unfold approx in Af. rewrite (Rabs_pos_eq F PF) in Af. pose proof (rnd_err_abs (dval m * dval f)) as Ee.
    assert (T : Rabs (dval m * dval f - M * F) <= 31 * rho n * F + 2 * (3 * u * F)).
    { replace (dval m * dval f - M * F) with ((dval m - M) * F + dval m * (dval f - F)) by ring. apply Rle_trans with (1 := Rabs_triang _ _). rewrite !Rabs_mult, (Rabs_pos_eq F PF).
      apply Rplus_le_compat; [apply Rmult_le_compat_r; lra|]. apply Rmult_le_compat; try apply Rabs_pos; lra. }
    assert (T2 : u * Rabs (dval m * dval f) <= 3 * u * F).
    { rewrite Rabs_mult, (Rabs_pos_eq (dval f)) by lra. apply Rabs_le_inv in Af. assert (dval f <= 11 / 10 * F) by (rewrite u_val in *; lra). pose proof (Rabs_pos (dval m)). assert (Rabs (dval m) * dval f <= 2 * (11 / 10 * F)) by (apply Rmult_le_compat; lra). nra. }
    replace (rnd (dval m * dval f) - M * F) with ((rnd (dval m * dval f) - dval m * dval f) + (dval m * dval f - M * F)) by ring. apply Rle_trans with (1 := Rabs_triang _ _).
    assert (T3 : u * u <= u * F) by (apply Rmult_le_compat_l; [lra|]; rewrite u_val; lra). assert (T4 : 1536 * u * F <= rho n * F) by (apply Rmult_le_compat_r; lra). assert (0 <= u * F) by (apply Rmult_le_pos; lra). lra.
Qed.
End Z.
