(* The Anderson-Darling statistic is positive for all numbers of [0,1]. *)
From Coq Require Import Reals Lra Lia List Permutation.
From Verif Require Import Base ErrorSpec CorrSpearman TestsMeaning TestsPerm OtherSpec CorrPearson2.
Import ListNotations.
Open Scope R_scope.

Lemma mono_pos (f f' : R -> R) b : 0 < b -> (forall c, 0 <= c <= b -> derivable_pt_lim f c (f' c)) -> (forall c, 0 < c < b -> 0 <= f' c) -> f 0 <= f b.
Proof. intros B D P. destruct (MVT_cor2 f f' 0 b B D) as (c & E & Hc). specialize (P c Hc). nra. Qed.
Lemma d_ylny y : 0 < y -> derivable_pt_lim (fun y => y * ln y) y (ln y + 1).
Proof.
  intros H. replace (ln y + 1) with (1 * ln y + id y * / y) by (unfold id; field; lra).
  apply (derivable_pt_lim_mult id ln); [apply derivable_pt_lim_id|apply derivable_pt_lim_ln, H].
Qed.
Lemma d_y2lny y : 0 < y -> derivable_pt_lim (fun y => y * (y * ln y)) y (2 * (y * ln y) + y).
Proof.
  intros H. replace (2 * (y * ln y) + y) with (1 * (y * ln y) + id y * (ln y + 1)) by (unfold id; ring).
  apply (derivable_pt_lim_mult id (fun y => y * ln y)); [apply derivable_pt_lim_id|apply d_ylny, H].
Qed.
Lemma d_plus (f : R -> R) (l s : R) : derivable_pt_lim f (1 + s) l -> derivable_pt_lim (fun s => f (1 + s)) s l.
Proof.
  intros H. replace l with (l * (0 + 1)) by ring. apply (derivable_pt_lim_comp (fun s => 1 + s) f); [|exact H].
  apply (derivable_pt_lim_plus (fun _ => 1) id); [apply derivable_pt_lim_const|apply derivable_pt_lim_id].
Qed.
Lemma d_minus (f : R -> R) (l s : R) : derivable_pt_lim f (1 - s) l -> derivable_pt_lim (fun s => f (1 - s)) s (- l).
Proof.
  intros H. replace (- l) with (l * (0 - 1)) by ring. apply (derivable_pt_lim_comp (fun s => 1 - s) f); [|exact H].
  apply (derivable_pt_lim_minus (fun _ => 1) id); [apply derivable_pt_lim_const|apply derivable_pt_lim_id].
Qed.
Lemma d_sq c s : derivable_pt_lim (fun s => c * (s * s)) s (c * (2 * s)).
Proof.
  apply (derivable_pt_lim_scal (fun s => s * s) c s). replace (2 * s) with (1 * s + s * 1) by ring. apply (derivable_pt_lim_mult id id); apply derivable_pt_lim_id.
Qed.
Lemma d_cube c s : derivable_pt_lim (fun s => c * (s * (s * s))) s (c * (3 * (s * s))).
Proof.
  apply (derivable_pt_lim_scal (fun s => s * (s * s)) c s). replace (3 * (s * s)) with (1 * (s * s) + s * (1 * s + s * 1)) by ring.
  apply (derivable_pt_lim_mult id (fun s => s * s)); [apply derivable_pt_lim_id|apply (derivable_pt_lim_mult id id); apply derivable_pt_lim_id].
Qed.
Lemma ln_ge x : 0 < x -> 1 - / x <= ln x.
Proof. intros H. pose proof (exp_ineq1_le (- ln x)) as E. rewrite <- ln_Rinv, exp_ln in E by (try apply Rinv_0_lt_compat; exact H). rewrite ln_Rinv in E by exact H. lra. Qed.
Definition h (s : R) : R := (1 + s) * ln (1 + s) + (1 - s) * ln (1 - s).
Lemma h_low s : 0 < s < 1 -> 3 / 4 * (s * s) <= h s.
Proof.
  intros H. assert (M : h 0 - 3 / 4 * (0 * 0) <= h s - 3 / 4 * (s * s)).
  { apply (mono_pos (fun s => h s - 3 / 4 * (s * s)) (fun s => (ln (1 + s) + 1 + - (ln (1 - s) + 1)) - 3 / 4 * (2 * s))); [lra| |].
    - intros c Hc. apply (derivable_pt_lim_minus h (fun s => 3 / 4 * (s * s))); [|apply d_sq].
      apply (derivable_pt_lim_plus (fun s => (1 + s) * ln (1 + s)) (fun s => (1 - s) * ln (1 - s))); [apply (d_plus (fun y => y * ln y)), d_ylny; lra|apply (d_minus (fun y => y * ln y)), d_ylny; lra].
    - intros c Hc. pose proof (ln_ge (1 + c) ltac:(lra)) as A.
      assert (B : ln (1 - c) <= - c) by (pose proof (exp_ineq1_le (ln (1 - c))) as E; rewrite exp_ln in E by lra; lra).
      assert (C : c / 2 <= 1 - / (1 + c)); [|lra]. apply Rmult_le_reg_r with (1 + c); [lra|]. rewrite Rmult_minus_distr_r, Rinv_l by lra. nra. }
  unfold h at 1 in M. rewrite Rplus_0_r, Rminus_0_r, ln_1 in M. lra.
Qed.
Lemma k_low s : 0 < s <= 1 -> s * s * s / 2 <= (1 + s) * ((1 + s) * ln (1 + s)) - (1 - s) * ((1 - s) * ln (1 - s)) - 2 * s.
Proof.
  intros H. destruct (Rle_lt_or_eq_dec s 1 (proj2 H)) as [L| ->].
  2: { replace (1 - 1) with 0 by ring. replace (1 + 1) with 2 by ring. rewrite !Rmult_0_l. pose proof ln2_lower. lra. }
  set (K := fun s => (1 + s) * ((1 + s) * ln (1 + s)) - (1 - s) * ((1 - s) * ln (1 - s)) - (2 * s + / 2 * (s * (s * s)))).
  assert (M : K 0 <= K s).
  { apply (mono_pos K (fun s => ((2 * ((1 + s) * ln (1 + s)) + (1 + s)) - - (2 * ((1 - s) * ln (1 - s)) + (1 - s))) - (2 * 1 + / 2 * (3 * (s * s))))); [lra| |].
    - intros c Hc. apply (derivable_pt_lim_minus (fun s => (1 + s) * ((1 + s) * ln (1 + s)) - (1 - s) * ((1 - s) * ln (1 - s))) (fun s => 2 * s + / 2 * (s * (s * s)))).
      + apply (derivable_pt_lim_minus (fun s => (1 + s) * ((1 + s) * ln (1 + s))) (fun s => (1 - s) * ((1 - s) * ln (1 - s)))); [apply (d_plus (fun y => y * (y * ln y))), d_y2lny; lra|apply (d_minus (fun y => y * (y * ln y))), d_y2lny; lra].
      + apply (derivable_pt_lim_plus (fun s => 2 * s) (fun s => / 2 * (s * (s * s)))); [apply (derivable_pt_lim_scal id 2 c 1), derivable_pt_lim_id|apply d_cube].
    - intros c Hc. pose proof (h_low c ltac:(lra)) as E. unfold h in E. lra. }
  unfold K in M. rewrite Rplus_0_r, Rminus_0_r, ln_1 in M. lra.
Qed.

(* one cell *)
Definition prim (x : R) : R := x * x / 4 - x * (x * ln x) / 2.
Lemma cell p t : 0 < t -> t <= p <= 1 -> prim (p + t) - prim (p - t) + t * t * t / 4 <= - (2 * t * (p * ln p)).
Proof.
  intros T H. set (s := t / p). assert (S : 0 < s <= 1).
  { unfold s. split; [apply Rdiv_lt_0_compat; lra|]. apply Rmult_le_reg_r with p; [lra|]. unfold Rdiv. rewrite Rmult_assoc, Rinv_l by lra. lra. }
  assert (E : t = p * s) by (unfold s; field; lra). pose proof (k_low s S) as K.
  assert (L1 : ln (p + t) = ln p + ln (1 + s)). { replace (p + t) with (p * (1 + s)) by (rewrite E; ring). apply ln_mult; lra. }
  assert (L2 : (p - t) * ((p - t) * ln (p - t)) = (p - t) * ((p - t) * (ln p + ln (1 - s)))).
  { destruct (Rle_lt_or_eq_dec s 1 (proj2 S)) as [Q|Q].
    - f_equal. f_equal. replace (p - t) with (p * (1 - s)) by (rewrite E; ring). apply ln_mult; lra.
    - replace (p - t) with 0 by (rewrite E, Q; ring). ring. }
  unfold prim. rewrite L1, L2.
  set (a := ln (1 + s)) in *. set (b := ln (1 - s)) in *. set (l := ln p) in *.
  replace ((p + t) * (p + t) / 4 - (p + t) * ((p + t) * (l + a)) / 2 - ((p - t) * (p - t) / 4 - (p - t) * ((p - t) * (l + b)) / 2))
     with (- (2 * t * (p * l)) - p * p / 2 * ((1 + s) * ((1 + s) * a) - (1 - s) * ((1 - s) * b) - 2 * s)) by (rewrite E; field).
  assert (M : t * t * t / 4 <= p * p / 2 * (s * s * s / 2)).
  { rewrite E. assert (0 < s * s * s) by (apply Rmult_lt_0_compat; [apply Rmult_lt_0_compat|]; lra). set (c := s * s * s) in *. replace (p * s * (p * s) * (p * s) / 4) with (p * p * p * (c / 4)) by (unfold c; field). replace (p * p / 2 * (c / 2)) with (p * p * 1 * (c / 4)) by field.
    apply Rmult_le_compat_r; [lra|]. apply Rmult_le_compat_l; [nra|lra]. }
  assert (M2 : p * p / 2 * (s * s * s / 2) <= p * p / 2 * ((1 + s) * ((1 + s) * a) - (1 - s) * ((1 - s) * b) - 2 * s)) by (apply Rmult_le_compat_l; [nra|exact K]).
  lra.
Qed.
Definition mid (n j : nat) : R := (2 * INR j + 1) / (2 * INR n).
Lemma mid_ok n j : (j < n)%nat -> 0 < mid n j < 1 /\ / (2 * INR n) <= mid n j /\ 0 < / (2 * INR n).
Proof.
  intros H. pose proof (pos_INR j) as J. assert (N : INR j + 1 <= INR n) by (rewrite <- S_INR; apply le_INR; lia). unfold mid.
  assert (I : 0 < / (2 * INR n)) by (apply Rinv_0_lt_compat; lra). split; [|split; [|exact I]].
  - split; [apply Rdiv_lt_0_compat; lra|]. apply Rmult_lt_reg_r with (2 * INR n); [lra|]. unfold Rdiv. rewrite Rmult_assoc, Rinv_l by lra. lra.
  - unfold Rdiv. rewrite <- (Rmult_1_l (/ (2 * INR n))) at 1. apply Rmult_le_compat_r; lra.
Qed.
Lemma cells n k : (1 <= n)%nat -> (k <= n)%nat ->
  prim (INR k / INR n) + INR k * (/ (2 * INR n) * / (2 * INR n) * / (2 * INR n) / 4) <= - (/ INR n) * rsum (map (fun j => mid n j * ln (mid n j)) (seq 0 k)).
Proof.
  intros N. assert (N1 : 1 <= INR n) by (apply (le_INR 1); exact N). induction k as [|k IH]; intros K.
  - cbn [seq map INR]. unfold rsum. cbn [fold_right]. unfold prim, Rdiv. rewrite !Rmult_0_l. lra.
  - rewrite seq_S, map_app, Nat.add_0_l. cbn [map]. rewrite rsum_snoc, S_INR. specialize (IH ltac:(lia)).
    destruct (mid_ok n k ltac:(lia)) as (A & B & C). pose proof (cell (mid n k) (/ (2 * INR n)) C ltac:(lra)) as E.
    replace (mid n k + / (2 * INR n)) with ((INR k + 1) / INR n) in E by (unfold mid; field; lra).
    replace (mid n k - / (2 * INR n)) with (INR k / INR n) in E by (unfold mid; field; lra).
    set (t := / (2 * INR n)) in *. assert (T : / INR n = 2 * t) by (unfold t; field; lra). rewrite T in *.
    set (S := rsum (map _ (seq 0 k))) in *. set (m := mid n k * ln (mid n k)) in *. lra.
Qed.
(* the largest possible sum *)
Lemma mids n : (1 <= n)%nat -> 4 * rsum (map (fun j => mid n j * ln (mid n j)) (seq 0 n)) <= - INR n - / (8 * INR n).
Proof.
  intros N. assert (N1 : 1 <= INR n) by (apply (le_INR 1); exact N). pose proof (cells n n N (Nat.le_refl n)) as E.
  replace (INR n / INR n) with 1 in E by (field; lra). unfold prim in E. rewrite ln_1 in E. set (S := rsum _) in *.
  apply Rmult_le_reg_r with (/ INR n); [apply Rinv_0_lt_compat; lra|].
  replace ((- INR n - / (8 * INR n)) * / INR n) with (- 4 * (1 / 4 + INR n * (/ (2 * INR n) * / (2 * INR n) * / (2 * INR n) / 4))) by (field; lra). lra.
Qed.
(* reversing *)
Lemma rsum_rev (f : nat -> R) n : rsum (map (fun j => f (n - 1 - j)%nat) (seq 0 n)) = rsum (map f (seq 0 n)).
Proof.
  replace (map (fun j => f (n - 1 - j)%nat) (seq 0 n)) with (map f (rev (seq 0 n))); [rewrite map_rev; apply rsum_perm; symmetry; apply Permutation_rev|].
  apply nth_ext with (d := f 0%nat) (d' := f (n - 1 - 0)%nat); [rewrite !map_length, rev_length; reflexivity|].
  intros i Hi. rewrite map_length, rev_length, seq_length in Hi. rewrite (map_nth f), (map_nth (fun j => f (n - 1 - j)%nat)). rewrite rev_nth by (rewrite seq_length; exact Hi). rewrite seq_length, !seq_nth by lia. f_equal. lia.
Qed.
Lemma rsum_plus {A} (f g : A -> R) l : rsum (map (fun a => f a + g a) l) = rsum (map f l) + rsum (map g l).
Proof. unfold rsum. induction l as [|a l IH]; cbn [map fold_right]; [ring|]. rewrite IH. ring. Qed.
Lemma rsum_le {A} (f g : A -> R) l : (forall a, In a l -> f a <= g a) -> rsum (map f l) <= rsum (map g l).
Proof. unfold rsum. induction l as [|a l IH]; intros H; cbn [map fold_right]; [lra|]. pose proof (H a (or_introl eq_refl)). specialize (IH (fun b Hb => H b (or_intror Hb))). lra. Qed.
Lemma rsum_const {A} c (l : list A) : rsum (map (fun _ => c) l) = INR (length l) * c.
Proof. unfold rsum. induction l as [|a l IH]; cbn [map fold_right length]; [cbn; ring|]. rewrite S_INR, IH. ring. Qed.
Lemma rsum_ext {A} (f g : A -> R) l : (forall a, In a l -> f a = g a) -> rsum (map f l) = rsum (map g l).
Proof. intros H. f_equal. apply map_ext_in. exact H. Qed.
(* Gibbs *)
Lemma gibbs n j u v e : (j < n)%nat -> 0 < u -> 0 < v -> u + v <= 1 + e ->
  (2 * INR j + 1) * ln u + (2 * INR (n - 1 - j) + 1) * ln v <= (2 * INR j + 1) * ln (mid n j) + (2 * INR (n - 1 - j) + 1) * ln (mid n (n - 1 - j)) + 2 * INR n * e.
Proof.
  intros H U V S. destruct (mid_ok n j H) as (A & _ & _). destruct (mid_ok n (n - 1 - j) ltac:(lia)) as (B & _ & _).
  assert (N : 0 < INR n) by (apply (lt_INR 0); lia).
  assert (K : forall p w, 0 < p -> 0 < w -> ln w <= ln p + (w / p - 1)).
  { intros p w P W. pose proof (exp_ineq1_le (ln (w / p))) as E. rewrite exp_ln in E by (apply Rdiv_lt_0_compat; assumption). rewrite ln_div in E by assumption. lra. }
  pose proof (K _ _ (proj1 A) U) as K1. pose proof (K _ _ (proj1 B) V) as K2. pose proof (pos_INR j) as J. pose proof (pos_INR (n - 1 - j)) as J'.
  set (a := 2 * INR j + 1) in *. set (b := 2 * INR (n - 1 - j) + 1) in *.
  assert (SUM : a + b = 2 * INR n). { unfold a, b. rewrite !minus_INR by lia. cbn [INR]. ring. }
  assert (M1 : a * ln u <= a * (ln (mid n j) + (u / mid n j - 1))) by (apply Rmult_le_compat_l; [unfold a; lra|exact K1]).
  assert (M2 : b * ln v <= b * (ln (mid n (n - 1 - j)) + (v / mid n (n - 1 - j) - 1))) by (apply Rmult_le_compat_l; [unfold b; lra|exact K2]).
  assert (E1 : a * (u / mid n j) = 2 * INR n * u) by (unfold mid; fold a; field; unfold a; lra).
  assert (E2 : b * (v / mid n (n - 1 - j)) = 2 * INR n * v) by (unfold mid; fold b; field; unfold b; lra).
  assert (M3 : 2 * INR n * (u + v) <= 2 * INR n * (1 + e)) by (apply Rmult_le_compat_l; lra).
  rewrite Rmult_plus_distr_l, Rmult_minus_distr_l in M1, M2. rewrite E1 in M1. rewrite E2 in M2. lra.
Qed.
Theorem ad_positive xs : xs <> [] -> Forall (fun x => 0 <= x <= 1) xs -> / (8 * INR (length xs)) - 2 * INR (length xs) * / 10 ^ 16 <= ad_value xs.
Proof.
  intros NE F. set (n := length xs) in *. assert (N : (1 <= n)%nat) by (subst n; destruct xs; [congruence|cbn [length]; lia]). assert (N1 : 1 <= INR n) by (apply (le_INR 1); exact N).
  assert (S : ad_sum xs <= 4 * INR n * rsum (map (fun j => mid n j * ln (mid n j)) (seq 0 n)) + INR n * (2 * INR n * / 10 ^ 16)).
  { unfold ad_sum. fold n.
    set (A := fun j => (2 * INR j + 1) * ln (floor16 (nth j xs 0))). set (B := fun j => (2 * INR (n - 1 - j) + 1) * ln (floor16 (1 - nth j xs 0))).
    replace (rsum (map (fun i => (2 * INR i + 1) * (ln (floor16 (nth i xs 0)) + ln (floor16 (1 - nth (n - 1 - i) xs 0)))) (seq 0 n))) with (rsum (map (fun j => A j + B j) (seq 0 n))).
    2: { rewrite rsum_plus, <- (rsum_rev B n), <- rsum_plus. apply rsum_ext. intros j Hj. apply in_seq in Hj. unfold A, B. replace (n - 1 - (n - 1 - j))%nat with j by lia. ring. }
    set (P := fun j => (2 * INR j + 1) * ln (mid n j)).
    apply Rle_trans with (rsum (map (fun j => P j + P (n - 1 - j)%nat + 2 * INR n * / 10 ^ 16) (seq 0 n))).
    - apply rsum_le. intros j Hj. apply in_seq in Hj. unfold A, B, P. apply gibbs; [lia| | |].
      + unfold floor16. apply Rlt_le_trans with (2 := Rmax_l _ _). lra.
      + unfold floor16. apply Rlt_le_trans with (2 := Rmax_l _ _). lra.
      + assert (Hx : 0 <= nth j xs 0 <= 1) by (rewrite Forall_forall in F; apply F, nth_In; fold n; lia). unfold floor16, Rmax. repeat destruct Rle_dec; lra.
    - rewrite (rsum_plus (fun j => P j + P (n - 1 - j)%nat) (fun _ => 2 * INR n * / 10 ^ 16)), rsum_const, seq_length. rewrite rsum_plus, (rsum_rev P n).
      replace (rsum (map P (seq 0 n))) with (2 * INR n * rsum (map (fun j => mid n j * ln (mid n j)) (seq 0 n))); [lra|].
      rewrite <- rsum_scale. apply rsum_ext. intros j Hj. unfold P, mid. field. lra. }
  pose proof (mids n N) as M. unfold ad_value. fold n. set (R := rsum _) in *.
  assert (D : ad_sum xs / INR n <= 4 * R + 2 * INR n * / 10 ^ 16).
  { apply Rmult_le_reg_r with (INR n); [lra|]. unfold Rdiv at 1. rewrite Rmult_assoc, Rinv_l by lra. lra. }
  lra.
Qed.
