(* Real analysis behind the chi-square probabilities: the continued fraction of the upper incomplete
   gamma function, the series of the lower one, and bounds of both. *)
From Coq Require Import Reals Lra Lia Psatz.
Open Scope R_scope.

(* ---- logarithm ---- *)
Lemma ln_pade u : 0 <= u -> 2 * u / (2 + u) <= ln (1 + u).
Proof.
  intros Hu. destruct (Req_dec u 0) as [->|Hn]; [replace (1 + 0) with 1 by ring; rewrite ln_1; lra|].
  assert (P : 0 < u) by lra.
  set (g := fun x => ln (1 + x) - 2 * x / (2 + x)).
  set (g' := fun x => / (1 + x) - (2 * (2 + x) - 2 * x) / ((2 + x) * (2 + x))).
  destruct (MVT_cor2 g g' 0 u P) as (c & E & Hc).
  - intros c Hc. unfold g, g'. apply derivable_pt_lim_minus.
    + replace (/ (1 + c)) with (/ (1 + c) * (0 + 1)) by ring.
      apply (derivable_pt_lim_comp (fun x => 1 + x) ln).
      * apply derivable_pt_lim_plus; [apply derivable_pt_lim_const|apply derivable_pt_lim_id].
      * apply derivable_pt_lim_ln. lra.
    + replace ((2 * (2 + c) - 2 * c) / ((2 + c) * (2 + c))) with (((2 * 1) * (2 + c) - (0 + 1) * (2 * c)) / Rsqr (2 + c)) by (unfold Rsqr; field; lra).
      apply (derivable_pt_lim_div (fun x => 2 * x) (fun x => 2 + x)).
      * apply (derivable_pt_lim_scal id 2 c 1). apply derivable_pt_lim_id.
      * apply derivable_pt_lim_plus; [apply derivable_pt_lim_const|apply derivable_pt_lim_id].
      * lra.
  - assert (G0 : g 0 = 0) by (unfold g; replace (1 + 0) with 1 by ring; rewrite ln_1; field).
    assert (D : 0 <= g' c).
    { unfold g'. replace (/ (1 + c) - (2 * (2 + c) - 2 * c) / ((2 + c) * (2 + c))) with (c * c / ((1 + c) * ((2 + c) * (2 + c)))) by (field; lra).
      apply Rmult_le_pos; [nra|]. apply Rlt_le, Rinv_0_lt_compat. repeat apply Rmult_lt_0_compat; lra. }
    assert (0 <= g' c * (u - 0)) by (apply Rmult_le_pos; lra). rewrite G0 in E. unfold g in E. lra.
Qed.
Lemma ln_upper x : 0 < x -> ln x <= x - 1.
Proof.
  intros H. pose proof (exp_ineq1_le (ln x)) as E. rewrite exp_ln in E by exact H. lra.
Qed.
Lemma ln_mono x y : 0 < x -> x <= y -> ln x <= ln y.
Proof. intros Hx [H|E]; [left; apply ln_increasing; assumption|right; now rewrite E]. Qed.
Lemma ln_quot x y : 0 < x -> 0 < y -> ln (x / y) = ln x - ln y.
Proof. intros Hx Hy. unfold Rdiv. rewrite ln_mult, ln_Rinv by (try assumption; now apply Rinv_0_lt_compat). ring. Qed.

(* ---- the continued fraction b_0 + a_1 / (b_1 + a_2 / (b_2 + ...)) with
   a_j = j (s - j), b_j = 2 j + 1 + z - s ---- *)
Definition cf_a (s : R) (j : nat) : R := INR j * (s - INR j).
Definition cf_b (s z : R) (j : nat) : R := 2 * INR j + 1 + z - s.
(* with the tail from b_n on replaced by t *)
Fixpoint cf (s z : R) (n : nat) (t : R) : R :=
  match n with O => t | S n' => cf s z n' (cf_b s z n' + cf_a s n / t) end.
(* the modified Lentz scheme without rounding *)
Fixpoint lz_C (s z : R) (n : nat) : R :=
  match n with O => cf_b s z 0 | S n' => cf_b s z n + cf_a s n / lz_C s z n' end.
Fixpoint lz_D (s z : R) (n : nat) : R :=
  match n with O => 0 | S n' => / (cf_b s z n + cf_a s n * lz_D s z n') end.
Fixpoint lz_f (s z : R) (n : nat) : R :=
  match n with O => cf_b s z 0 | S n' => lz_f s z n' * (lz_C s z n * lz_D s z n) end.

Section CF.
Variables (s z : R).
Hypothesis Hs : 0 < s.
Hypothesis Hz : s <= z.
Hypothesis Hz1 : 1 <= z.

Lemma lz_C_ge n : INR n + 1 <= lz_C s z n.
Proof.
  induction n as [|n IH].
  - simpl. unfold cf_b. simpl. lra.
  - rewrite S_INR. cbn [lz_C]. unfold cf_b, cf_a. rewrite S_INR. pose proof (pos_INR n) as Pn.
    set (k := INR n) in *. set (c := lz_C s z n) in *.
    destruct (Rle_dec (k + 1) s) as [L|L].
    + assert (0 <= (k + 1) * (s - (k + 1)) / c). { apply Rmult_le_pos; [nra|]. left. apply Rinv_0_lt_compat. lra. } lra.
    + assert ((k + 1) * ((k + 1) - s) / c <= (k + 1) - s).
      { apply Rmult_le_reg_r with c; [lra|]. unfold Rdiv. rewrite Rmult_assoc, Rinv_l by lra. nra. }
      replace ((k + 1) * (s - (k + 1)) / c) with (- ((k + 1) * ((k + 1) - s) / c)) by (field; lra). lra.
Qed.
Lemma lz_E_ge n : 0 <= lz_D s z n /\ INR n + 2 <= cf_b s z (S n) + cf_a s (S n) * lz_D s z n.
Proof.
  induction n as [|n [IH1 IH2]].
  - simpl lz_D. split; [lra|]. unfold cf_b. simpl. rewrite Rmult_0_r. lra.
  - assert (Dn : lz_D s z (S n) = / (cf_b s z (S n) + cf_a s (S n) * lz_D s z n)) by reflexivity.
    set (e := cf_b s z (S n) + cf_a s (S n) * lz_D s z n) in *. pose proof (pos_INR n) as Pn.
    assert (Pe : 0 < e) by lra. rewrite Dn. split; [left; now apply Rinv_0_lt_compat|].
    unfold cf_b, cf_a. rewrite !S_INR. set (k := INR n) in *.
    assert (Q : 0 < / e) by now apply Rinv_0_lt_compat.
    destruct (Rle_dec (k + 1 + 1) s) as [L|L].
    + assert (0 <= (k + 1 + 1) * (s - (k + 1 + 1)) * / e) by (apply Rmult_le_pos; [nra|lra]). lra.
    + assert ((k + 1 + 1) * ((k + 1 + 1) - s) * / e <= (k + 1 + 1) - s).
      { apply Rmult_le_reg_r with e; [lra|]. rewrite Rmult_assoc, Rinv_l by lra. nra. }
      replace ((k + 1 + 1) * (s - (k + 1 + 1)) * / e) with (- ((k + 1 + 1) * ((k + 1 + 1) - s) * / e)) by (field; lra). lra.
Qed.
Lemma lz_D_pos n : (0 < n)%nat -> 0 < lz_D s z n <= / (INR n + 1).
Proof.
  intros H. destruct n as [|n]; [lia|]. destruct (lz_E_ge n) as [_ E]. cbn [lz_D]. pose proof (pos_INR n).
  split; [apply Rinv_0_lt_compat; lra|]. rewrite S_INR. apply Rinv_le_contravar; lra.
Qed.

(* all tails positive *)
Fixpoint tails (n : nat) (t : R) : Prop :=
  0 < t /\ match n with O => True | S n' => tails n' (cf_b s z n' + cf_a s n / t) end.
Lemma tails_pos n t : tails n t -> 0 < t. Proof. destruct n; simpl; tauto. Qed.
(* the scheme computes the convergents *)
Lemma cf_moebius n : forall t, tails (S n) t -> 0 < t + cf_a s (S n) * lz_D s z n ->
  cf s z (S n) t = lz_f s z n * ((t + cf_a s (S n) / lz_C s z n) / (t + cf_a s (S n) * lz_D s z n)).
Proof.
  induction n as [|n IH]; intros t Ht Hd.
  - cbn [cf lz_f lz_C lz_D] in *. apply tails_pos in Ht. rewrite Rmult_0_r, Rplus_0_r in *. pose proof (lz_C_ge 0) as C0. simpl in C0. field. split; lra.
  - change (cf s z (S (S n)) t) with (cf s z (S n) (cf_b s z (S n) + cf_a s (S (S n)) / t)).
    destruct Ht as [Pt Ht]. pose proof (tails_pos _ _ Ht) as Pt'.
    destruct (lz_E_ge n) as [_ E]. pose proof (pos_INR n) as Pn.
    pose proof (lz_C_ge n) as Cn. pose proof (lz_C_ge (S n)) as CSn. rewrite S_INR in CSn.
    specialize (IH _ Ht).
    assert (DS : lz_D s z (S n) = / (cf_b s z (S n) + cf_a s (S n) * lz_D s z n)) by reflexivity.
    assert (CS : lz_C s z (S n) = cf_b s z (S n) + cf_a s (S n) / lz_C s z n) by reflexivity.
    assert (FS : lz_f s z (S n) = lz_f s z n * (lz_C s z (S n) * lz_D s z (S n))) by reflexivity.
    rewrite FS, DS. rewrite DS in Hd. clear FS DS.
    set (a2 := cf_a s (S (S n))) in *. set (a1 := cf_a s (S n)) in *. set (b := cf_b s z (S n)) in *.
    set (c := lz_C s z n) in *. set (d := lz_D s z n) in *. set (c' := lz_C s z (S n)) in *. set (f := lz_f s z n) in *.
    clearbody a1 a2 b c d c' f.
    assert (Q : 0 < t * (b + a1 * d) + a2).
    { replace (t * (b + a1 * d) + a2) with ((t + a2 * / (b + a1 * d)) * (b + a1 * d)) by (field; lra). apply Rmult_lt_0_compat; lra. }
    rewrite IH.
    + replace (b + a2 / t + a1 * d) with ((t * (b + a1 * d) + a2) / t) by (field; lra).
      replace (b + a2 / t + a1 / c) with (c' + a2 / t) by (rewrite CS; ring).
      replace (t + a2 * / (b + a1 * d)) with ((t * (b + a1 * d) + a2) / (b + a1 * d)) by (field; lra).
      field. repeat split; lra.
    + replace (b + a2 / t + a1 * d) with ((t * (b + a1 * d) + a2) / t) by (field; lra).
      apply Rmult_lt_0_compat; [exact Q|now apply Rinv_0_lt_compat].
Qed.
Lemma cf_convergent n : tails n (cf_b s z n) -> cf s z n (cf_b s z n) = lz_f s z n.
Proof.
  destruct n as [|n]; intros H; [reflexivity|]. destruct (lz_E_ge n) as [_ E]. pose proof (pos_INR n) as Pn.
  rewrite cf_moebius; [|exact H|lra]. cbn [lz_f lz_C lz_D].
  pose proof (lz_C_ge n) as Cn. field. repeat split; lra.
Qed.

(* while the a_j are positive the tails move the value up and down alternately *)
Lemma cf_mono n : forall t t', INR n <= s -> 0 < t <= t' -> if Nat.even n then cf s z n t <= cf s z n t' else cf s z n t' <= cf s z n t.
Proof.
  induction n as [|n IH]; intros t t' Hn Ht; [simpl; lra|].
  rewrite S_INR in Hn. cbn [cf]. pose proof (pos_INR n) as Pn.
  assert (A : 0 <= cf_a s (S n)) by (unfold cf_a; rewrite S_INR; nra).
  assert (B : 0 < cf_b s z n) by (unfold cf_b; lra).
  assert (I : cf_a s (S n) / t' <= cf_a s (S n) / t).
  { apply Rmult_le_compat_l; [exact A|]. apply Rinv_le_contravar; lra. }
  assert (I0 : 0 <= cf_a s (S n) / t') by (apply Rmult_le_pos; [exact A|left; apply Rinv_0_lt_compat; lra]).
  specialize (IH (cf_b s z n + cf_a s (S n) / t') (cf_b s z n + cf_a s (S n) / t) ltac:(lra) ltac:(lra)).
  rewrite Nat.even_succ, <- Nat.negb_even. destruct (Nat.even n); exact IH.
Qed.
Lemma tails_low n : forall t, INR n <= s -> 0 < t -> tails n t.
Proof.
  induction n as [|n IH]; intros t Hn Ht; [simpl; tauto|]. split; [exact Ht|]. rewrite S_INR in Hn. pose proof (pos_INR n) as Pn.
  apply IH; [lra|]. assert (0 <= cf_a s (S n) / t). { apply Rmult_le_pos; [unfold cf_a; rewrite S_INR; nra|left; now apply Rinv_0_lt_compat]. }
  unfold cf_b. lra.
Qed.
End CF.

(* going down from s to s - 1 *)
Lemma cf_contiguous z : forall n s t, s <= z -> 0 < z -> INR n + 1 < t -> INR n + 1 <= s ->
  cf s z (S n) t = z / (1 + (s - 1) / cf (s - 1) z n ((INR n + 1 + z - s) + (INR n + 1) * z / (t - (INR n + 1)))).
Proof.
  induction n as [|n IH]; intros s t Hz Pz Ht Hs.
  - simpl INR in *. simpl cf. unfold cf_b, cf_a. simpl INR.
    assert (Q : 0 < z / (t - (0 + 1))) by (apply Rmult_lt_0_compat; [lra|apply Rinv_0_lt_compat; lra]).
    assert (0 < (0 + 1 + z - s) * (t - (0 + 1)) + (0 + 1) * z) by nra.
    assert (0 < z + z / (t - (0 + 1))) by lra.
    replace (0 + 1 + z - s + (0 + 1) * z / (t - (0 + 1))) with (((0 + 1 + z - s) * (t - (0 + 1)) + (0 + 1) * z) / (t - (0 + 1))) by (field; lra).
    field. repeat split; try nra.
  - rewrite S_INR in *. set (k := INR n) in *. assert (Pk : 0 <= k) by apply pos_INR.
    change (cf s z (S (S n)) t) with (cf s z (S n) (cf_b s z (S n) + cf_a s (S (S n)) / t)).
    assert (A : 0 <= cf_a s (S (S n)) / t).
    { unfold cf_a. rewrite !S_INR. fold k. apply Rmult_le_pos; [nra|left; apply Rinv_0_lt_compat; lra]. }
    rewrite IH; [|exact Hz|exact Pz|unfold cf_b; rewrite S_INR; fold k; lra|lra].
    fold k. f_equal. f_equal. f_equal.
    change (cf (s - 1) z (S n) (k + 1 + 1 + z - s + (k + 1 + 1) * z / (t - (k + 1 + 1)))) with
      (cf (s - 1) z n (cf_b (s - 1) z n + cf_a (s - 1) (S n) / (k + 1 + 1 + z - s + (k + 1 + 1) * z / (t - (k + 1 + 1))))).
    f_equal. unfold cf_b, cf_a in *. rewrite !S_INR in *. fold k in A |- *.
    assert (P1 : 0 < k + 2 + z - s) by lra.
    assert (P2 : 0 < (k + 1 + 1 + z - s) * (t - (k + 1 + 1)) + (k + 1 + 1) * z) by nra.
    assert (P3 : 0 < (2 * (k + 1) + 1 + z - s - (k + 1)) * t + (k + 1 + 1) * (s - (k + 1 + 1))) by nra.
    replace (k + 1 + 1 + z - s + (k + 1 + 1) * z / (t - (k + 1 + 1))) with (((k + 1 + 1 + z - s) * (t - (k + 1 + 1)) + (k + 1 + 1) * z) / (t - (k + 1 + 1))) by (field; lra).
    replace (2 * (k + 1) + 1 + z - s + (k + 1 + 1) * (s - (k + 1 + 1)) / t - (k + 1)) with
      (((2 * (k + 1) + 1 + z - s - (k + 1)) * t + (k + 1 + 1) * (s - (k + 1 + 1))) / t) by (field; lra).
    field. repeat split; lra.
Qed.

(* 1 + (s-1)/z + (s-1)(s-2)/z^2 + ... *)
Fixpoint fall (J : nat) (s z : R) : R := match J with O => 1 | S J' => 1 + (s - 1) / z * fall J' (s - 1) z end.
Lemma fall_ge J : forall s z, INR J <= s -> 0 < z -> 1 <= fall J s z.
Proof.
  induction J as [|J IH]; intros s z Hs Hz; [simpl; lra|]. rewrite S_INR in Hs. pose proof (pos_INR J). cbn [fall].
  pose proof (IH (s - 1) z ltac:(lra) Hz). assert (0 <= (s - 1) / z) by (apply Rmult_le_pos; [lra|left; now apply Rinv_0_lt_compat]). nra.
Qed.
(* the continued fraction with a tail that may follow *)
Lemma cf_fall z : forall J s t, INR J < s <= INR J + 1 -> s <= z -> INR J + z <= t <= 2 * INR J + 1 + z - s ->
  0 < cf s z J t /\ z / fall J s z <= cf s z J t.
Proof.
  induction J as [|J IH]; intros s t Hs Hz Ht.
  - simpl in *. split; lra.
  - rewrite S_INR in *. pose proof (pos_INR J) as PJ. set (k := INR J) in *.
    assert (Pz : 0 < z) by lra. pose proof (fall_ge J (s - 1) z ltac:(fold k; lra) Pz) as F.
    rewrite cf_contiguous; [|exact Hz|exact Pz|fold k; lra|fold k; lra]. fold k.
    set (t' := k + 1 + z - s + (k + 1) * z / (t - (k + 1))).
    assert (T : k + z <= t' <= 2 * k + 1 + z - (s - 1)).
    { unfold t'. split.
      - apply Rmult_le_reg_r with (t - (k + 1)); [lra|].
        replace ((k + 1 + z - s + (k + 1) * z / (t - (k + 1))) * (t - (k + 1))) with ((k + 1 + z - s) * (t - (k + 1)) + (k + 1) * z) by (field; lra).
        nra.
      - assert ((k + 1) * z / (t - (k + 1)) <= k + 1); [|lra].
        apply Rmult_le_reg_r with (t - (k + 1)); [lra|].
        replace ((k + 1) * z / (t - (k + 1)) * (t - (k + 1))) with ((k + 1) * z) by (field; lra). nra. }
    destruct (IH (s - 1) t' ltac:(fold k; lra) ltac:(lra) T) as [P L]. cbn [fall].
    set (g := cf (s - 1) z J t') in *. set (F' := fall J (s - 1) z) in *.
    assert (I : (s - 1) / g <= (s - 1) / z * F').
    { unfold Rdiv. rewrite Rmult_assoc. apply Rmult_le_compat_l; [lra|].
      apply Rmult_le_reg_l with g; [exact P|]. rewrite Rinv_r by lra.
      apply Rmult_le_reg_l with (z / F'); [apply Rmult_lt_0_compat; [lra|apply Rinv_0_lt_compat; lra]|].
      replace (z / F' * (g * (/ z * F'))) with g by (field; lra). lra. }
    assert (I0 : 0 <= (s - 1) / g) by (apply Rmult_le_pos; [lra|left; now apply Rinv_0_lt_compat]).
    split.
    + apply Rmult_lt_0_compat; [exact Pz|apply Rinv_0_lt_compat; lra].
    + apply Rmult_le_compat_l; [lra|]. apply Rinv_le_contravar; lra.
Qed.

(* ---- the value of the scheme, wherever it is stopped ---- *)
Section Stop.
Variables (s z : R) (J : nat).
Hypothesis HJ : INR J < s <= INR J + 1.
Hypothesis Hz : s <= z.
Hypothesis Hz1 : 1 <= z.
Lemma s_pos : 0 < s. Proof. pose proof (pos_INR J). lra. Qed.

(* beyond J the tails stay in a small interval *)
Lemma tail_range m : forall t, INR (J + m) + z <= t <= 2 * INR (J + m) + 1 + z - s ->
  exists t', INR J + z <= t' <= 2 * INR J + 1 + z - s /\ cf s z (J + m) t = cf s z J t' /\ (tails s z J t' -> tails s z (J + m) t).
Proof.
  induction m as [|m IH]; intros t Ht.
  - rewrite Nat.add_0_r in *. exists t. tauto.
  - replace (J + S m)%nat with (S (J + m)) in * by lia. rewrite S_INR in Ht. set (k := INR (J + m)) in *.
    assert (Pk : INR J <= k) by (apply le_INR; lia). pose proof (pos_INR J).
    assert (A : k + 1 - s >= 0) by lra.
    assert (I : 0 <= (k + 1) * (k + 1 - s) / t <= k + 1 - s).
    { split; [apply Rmult_le_pos; [nra|left; apply Rinv_0_lt_compat; lra]|].
      apply Rmult_le_reg_r with t; [lra|]. unfold Rdiv. rewrite Rmult_assoc, Rinv_l by lra. nra. }
    destruct (IH (cf_b s z (J + m) + cf_a s (S (J + m)) / t)) as (t' & R1 & R2 & R3).
    { unfold cf_b, cf_a. rewrite S_INR. fold k. replace ((k + 1) * (s - (k + 1)) / t) with (- ((k + 1) * (k + 1 - s) / t)) by (field; lra). lra. }
    exists t'. split; [exact R1|]. split; [exact R2|]. intros T. split; [lra|]. apply R3, T.
Qed.
Theorem lentz_above n : (J <= n)%nat -> 0 < lz_f s z n /\ z / fall J s z <= lz_f s z n.
Proof.
  intros Hn. replace n with (J + (n - J))%nat by lia. set (m := (n - J)%nat).
  pose proof s_pos as Ps. pose proof (pos_INR J) as PJ. assert (PK : INR J <= INR (J + m)) by (apply le_INR; lia).
  destruct (tail_range m (cf_b s z (J + m))) as (t' & R1 & R2 & R3); [unfold cf_b; lra|].
  assert (T : tails s z J t') by (apply tails_low; lra).
  rewrite <- cf_convergent by (first [exact Ps|exact Hz|exact Hz1|exact (R3 T)]).
  rewrite R2. apply cf_fall; [exact HJ|exact Hz|exact R1].
Qed.
Theorem lentz_odd n : (n <= J)%nat -> Nat.odd n = true -> z / fall J s z <= lz_f s z n.
Proof.
  intros Hn Ho. pose proof s_pos as Ps. pose proof (pos_INR J) as PJ. pose proof (pos_INR n) as Pn.
  assert (Hi : INR n <= INR J) by (apply le_INR; exact Hn).
  assert (B : 0 < cf_b s z n) by (unfold cf_b; lra).
  rewrite <- cf_convergent by (first [exact Ps|exact Hz|exact Hz1|apply tails_low; lra]).
  assert (T : forall m, (n + m <= J)%nat -> forall t, 0 < t -> (m = 0%nat -> cf_b s z n <= t) -> exists t', cf_b s z n <= t' /\ cf s z (n + m) t = cf s z n t').
  { induction m as [|m IH]; intros Hm t Pt Ht.
    - rewrite Nat.add_0_r. exists t. split; [apply Ht; reflexivity|reflexivity].
    - replace (n + S m)%nat with (S (n + m)) by lia. cbn [cf].
      assert (K : INR (S (n + m)) <= INR J) by (apply le_INR; lia). rewrite S_INR in K. pose proof (pos_INR (n + m)).
      assert (A : 0 <= cf_a s (S (n + m)) / t).
      { unfold cf_a. rewrite S_INR. apply Rmult_le_pos; [nra|left; now apply Rinv_0_lt_compat]. }
      assert (Bm : 0 < cf_b s z (n + m)) by (unfold cf_b; lra).
      apply IH; [lia|lra|]. intros ->. rewrite Nat.add_0_r in *. lra. }
  destruct (T (J - n)%nat ltac:(lia) (cf_b s z J)) as (t' & T1 & T2).
  { unfold cf_b. lra. }
  { intros E. replace J with n by lia. lra. }
  replace (n + (J - n))%nat with J in T2 by lia.
  destruct (cf_fall z J s (cf_b s z J) HJ Hz) as [_ L]; [unfold cf_b; lra|].
  rewrite T2 in L. apply Rle_trans with (1 := L).
  pose proof (cf_mono s z Hz n (cf_b s z n) t' ltac:(lra) ltac:(lra)) as M.
  unfold Nat.odd in Ho. destruct (Nat.even n); [discriminate|exact M].
Qed.
End Stop.
