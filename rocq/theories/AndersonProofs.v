(* The Anderson-Darling test: range of its sum, bounds for its p-value polynomials. *)
From Coq Require Import Reals Lra Lia List Permutation Sorted.
From Flocq Require Import Core BinarySingleNaN.
From Verif Require Import Base FloatModel FloatLemmas ErrorSpec ResultModel ResultSpec AnalysisProofs StatsModel StatsProofs CouponFloatProofs DistModel DistSpec DistSeries CorrPearson OtherModel OtherSpec FisherProofs LibInst.
Import ListNotations.
Open Scope R_scope.

(* ---- equal values, equal results ---- *)
Lemma same_value x y : fin x -> fin y -> dval x = dval y -> x = y \/ dval x = 0 /\ dval y = 0.
Proof.
  intros Fx Fy E. destruct (Req_dec (dval x) 0) as [Z|Z]; [right; split; [exact Z|congruence]|]. left.
  apply (B2R_inj 53 1024); [| |exact E].
  - apply is_finite_strict_B2R. exact Z.
  - apply is_finite_strict_B2R. fold (dval y). congruence.
Qed.
Lemma log_safe_ext log x y : fin x -> fin y -> dval x = dval y -> log_safe log x = log_safe log y.
Proof.
  intros Fx Fy E. destruct (same_value x y Fx Fy E) as [->|[X Y]]; [reflexivity|]. unfold log_safe. destruct min_p_val as (F0 & _ & B0).
  assert (P54 : 0 < bpow radix2 (-54)) by apply bpow_gt_0.
  unfold dmax. replace (dlt min_p x) with false by (symmetry; apply dlt_false; try assumption; lra). replace (dlt min_p y) with false by (symmetry; apply dlt_false; try assumption; lra). reflexivity.
Qed.
Lemma small_2 x : Rabs x <= 2 -> small x.
Proof. intros H. apply small_R with 2; [exact H|lra]. Qed.
Lemma one_minus x : valid01 x -> valid01 (dsub d1 x).
Proof.
  intros [F B]. destruct d1_val as [V1 F1]. destruct (dsub_ok d1 x F1 F) as [V Fs]; [rewrite V1; apply small_2, Rabs_le; lra|].
  split; [exact Fs|]. rewrite V, V1. apply rnd_between; [apply F64_0|apply F64_1|lra].
Qed.
Lemma one_minus_ext x y : valid01 x -> valid01 y -> dval x = dval y -> dval (dsub d1 x) = dval (dsub d1 y).
Proof.
  intros [Fx Bx] [Fy By] E. destruct d1_val as [V1 F1].
  destruct (dsub_ok d1 x F1 Fx) as [V _]; [rewrite V1; apply small_2, Rabs_le; lra|]. destruct (dsub_ok d1 y F1 Fy) as [V' _]; [rewrite V1; apply small_2, Rabs_le; lra|]. congruence.
Qed.
Lemma sum_ext log l : forall l' m m' i s, Forall valid01 l -> Forall valid01 l' -> Forall valid01 m -> Forall valid01 m' -> map dval l = map dval l' -> map dval m = map dval m' ->
  anderson_darling_sum log i l m s = anderson_darling_sum log i l' m' s.
Proof.
  induction l as [|a l IH]; intros [|a' l'] [|b m] [|b' m'] i s Vl Vl' Vm Vm' El Em; try discriminate El; try discriminate Em; try reflexivity.
  apply (f_equal (fun l => match l with [] => (0, []) | x :: t => (x, t) end)) in El, Em. cbn [map] in El, Em.
  pose proof (f_equal fst El) as Ea. pose proof (f_equal snd El) as El'. pose proof (f_equal fst Em) as Eb. pose proof (f_equal snd Em) as Em'. cbn [fst snd] in *.
  pose proof (Forall_inv Vl) as A1. pose proof (Forall_inv Vl') as A2. pose proof (Forall_inv Vm) as B1. pose proof (Forall_inv Vm') as B2.
  cbn [anderson_darling_sum]. rewrite (log_safe_ext log a a' (proj1 A1) (proj1 A2) Ea).
  rewrite (log_safe_ext log (dsub d1 b) (dsub d1 b') (proj1 (one_minus _ B1)) (proj1 (one_minus _ B2)) (one_minus_ext _ _ B1 B2 Eb)).
  apply IH; try (eapply Forall_inv_tail; eassumption); assumption.
Qed.
Lemma valid_fin l : Forall valid01 l -> Forall fin l.
Proof. apply Forall_impl. intros a [F _]. exact F. Qed.
Lemma sorted_data sort l : sorts finite_double dlt sort -> Forall valid01 l -> length (sort l) = length l /\ Forall valid01 (sort l) /\ StronglySorted Rle (map dval (sort l)) /\ Permutation l (sort l).
Proof.
  intros H V. destruct (sort_vals sort l H (valid_fin l V)) as (S1 & P1 & _). split; [symmetry; apply Permutation_length, P1|]. split; [eapply Permutation_Forall; eassumption|]. split; assumption.
Qed.
Lemma anderson_perm log exp sort sort' l l' : sorts finite_double dlt sort -> sorts finite_double dlt sort' -> Permutation l l' -> Forall valid01 l ->
  anderson_darling_stats log exp sort l = anderson_darling_stats log exp sort' l'.
Proof.
  intros H H' P V. assert (V' : Forall valid01 l') by (eapply Permutation_Forall; eassumption).
  destruct (sorted_data sort l H V) as (L1 & V1 & S1 & P1). destruct (sorted_data sort' l' H' V') as (L2 & V2 & S2 & P2).
  assert (E : map dval (sort l) = map dval (sort' l')) by (apply sorted_perm_unique; [apply Permutation_map; rewrite <- P1, P; exact P2|exact S1|exact S2]).
  pose proof (Permutation_length P) as L. unfold anderson_darling_stats. destruct l as [|x l]; destruct l' as [|y l']; try discriminate L; [reflexivity|]. cbv zeta.
  rewrite L1, L2, L.
  rewrite (sum_ext log (sort (x :: l)) (sort' (y :: l')) (rev (sort (x :: l))) (rev (sort' (y :: l'))) 0 d0 V1 V2 (Forall_rev V1) (Forall_rev V2) E); [reflexivity|].
  rewrite !map_rev, E. reflexivity.
Qed.

(* ---- the sum ---- *)
Section Log.
Variables (log exp erfc : double -> double).
Hypothesis G : good_dist log exp erfc.
Hypothesis S : log_sign log.
Definition aterm (i : N) (a b : double) : double := dmul (dadd (dmul two_ (double_of_N i)) d1) (dadd (log_safe log a) (log_safe log (dsub d1 b))).
Lemma odd_ok i : (i < 2 ^ 23)%N -> fin (dadd (dmul two_ (double_of_N i)) d1) /\ dval (dadd (dmul two_ (double_of_N i)) d1) = IZR (2 * Z.of_N i + 1).
Proof.
  intros H. destruct (double_of_N_exact 2 ltac:(lia)) as [V2 F2]. destruct (double_of_N_exact i) as [Vi Fi]; [apply N.le_trans with (2 ^ 23)%N; lia|]. destruct d1_val as [V1 F1].
  assert (B : (0 <= Z.of_N i <= 8388607)%Z) by lia.
  assert (Q : IZR (Z.of_N i) <= 8388607) by (apply (IZR_le _ 8388607); lia). assert (Q0 : 0 <= IZR (Z.of_N i)) by (apply (IZR_le 0); lia).
  assert (E : dval two_ * dval (double_of_N i) = IZR (2 * Z.of_N i)) by (unfold two_; rewrite V2, Vi, mult_IZR; reflexivity).
  destruct (dmul_ok two_ (double_of_N i) F2 Fi) as [V F].
  { rewrite E, mult_IZR. apply small_R with 16777216; [apply Rabs_le; lra|lra]. }
  rewrite E, rnd_id in V by (apply F64_Z; lia).
  assert (E' : dval (dmul two_ (double_of_N i)) + dval d1 = IZR (2 * Z.of_N i + 1)) by (rewrite V, V1, (plus_IZR (2 * Z.of_N i)); reflexivity).
  destruct (dadd_ok _ d1 F F1) as [V' F'].
  { rewrite E', plus_IZR, mult_IZR. apply small_R with 16777216; [apply Rabs_le; lra|lra]. }
  split; [exact F'|]. rewrite V', E'. apply rnd_id, F64_Z. lia.
Qed.
Lemma aterm_ok i a b : (i < 2 ^ 23)%N -> valid01 a -> valid01 b -> fin (aterm i a b) /\ - (76 * IZR (2 * Z.of_N i + 1)) <= dval (aterm i a b) <= 0.
Proof.
  intros H A B. destruct (odd_ok i H) as [Fo Vo]. destruct (log_safe_ok log exp erfc G S a A) as (Fa & Ra & _). destruct (log_safe_ok log exp erfc G S _ (one_minus b B)) as (Fb & Rb & _).
  destruct (dadd_ok _ _ Fa Fb) as [Vs Fs]; [apply small_R with 76; [apply Rabs_le; lra|lra]|].
  assert (Bs : -76 <= dval (dadd (log_safe log a) (log_safe log (dsub d1 b))) <= 0).
  { rewrite Vs. apply rnd_between; [apply (F64_Z (-76)); lia|apply F64_0|lra]. }
  assert (Q : IZR (2 * Z.of_N i + 1) <= 16777215) by (apply (IZR_le _ 16777215); lia). assert (Q0 : 1 <= IZR (2 * Z.of_N i + 1)) by (apply (IZR_le 1); lia).
  unfold aterm. set (o := dadd (dmul two_ (double_of_N i)) d1) in *. set (s := dadd (log_safe log a) (log_safe log (dsub d1 b))) in *.
  assert (P : - (76 * IZR (2 * Z.of_N i + 1)) <= dval o * dval s <= 0) by (rewrite Vo; nra).
  destruct (dmul_ok o s Fo Fs) as [V F]; [apply small_R with (76 * 16777215); [apply Rabs_le; lra|lra]|]. split; [exact F|]. rewrite V.
  replace (76 * IZR (2 * Z.of_N i + 1)) with (IZR (76 * (2 * Z.of_N i + 1))) in * by (rewrite (mult_IZR 76); reflexivity). rewrite <- opp_IZR in *.
  apply rnd_between; [apply F64_Z; lia|apply F64_0|exact P].
Qed.
Lemma asum_ok l : forall m i s, Forall valid01 l -> Forall valid01 m -> (i + N.of_nat (length l) <= 2 ^ 23)%N -> fin s -> - (76 * (IZR (Z.of_N i) * IZR (Z.of_N i))) <= dval s <= 0 ->
  let k := IZR (Z.of_N (i + N.of_nat (length l))) in
  fin (anderson_darling_sum log i l m s) /\ - (76 * (k * k)) <= dval (anderson_darling_sum log i l m s) <= 0.
Proof.
  induction l as [|a l IH]; intros m i s Vl Vm L F B; cbv zeta.
  - cbn [anderson_darling_sum length]. replace (i + N.of_nat 0)%N with i by lia. split; assumption.
  - assert (I0 : 0 <= IZR (Z.of_N i)) by (apply (IZR_le 0); lia).
    destruct m as [|b m].
    { cbn [anderson_darling_sum]. split; [exact F|]. assert (IZR (Z.of_N i) <= IZR (Z.of_N (i + N.of_nat (length (a :: l))))) by (apply IZR_le; lia). nra. }
    cbn [length] in L. destruct (aterm_ok i a b ltac:(lia) (Forall_inv Vl) (Forall_inv Vm)) as [Ft Bt].
    change (anderson_darling_sum log i (a :: l) (b :: m) s) with (anderson_darling_sum log (i + 1) l m (dadd s (aterm i a b))).
    replace (i + N.of_nat (length (a :: l)))%N with (i + 1 + N.of_nat (length l))%N by (cbn [length]; lia).
    assert (I1 : IZR (Z.of_N i) <= 8388608) by (apply (IZR_le _ 8388608); lia).
    assert (T : - (76 * (IZR (Z.of_N (i + 1)) * IZR (Z.of_N (i + 1)))) <= dval s + dval (aterm i a b) <= 0).
    { rewrite N2Z.inj_add, plus_IZR. rewrite plus_IZR, mult_IZR in Bt. change (IZR (Z.of_N 1)) with 1. nra. }
    destruct (dadd_ok s _ F Ft) as [V Fs].
    { apply small_R with (76 * (8388609 * 8388609)); [|lra]. rewrite N2Z.inj_add, plus_IZR in T. change (IZR (Z.of_N 1)) with 1 in T. rewrite Rabs_left1 by lra.
      assert ((IZR (Z.of_N i) + 1) * (IZR (Z.of_N i) + 1) <= 8388609 * 8388609) by (apply Rmult_le_compat; lra). lra. }
    apply IH; [eapply Forall_inv_tail; eassumption|eapply Forall_inv_tail; eassumption|lia|exact Fs|]. rewrite V.
    replace (76 * (IZR (Z.of_N (i + 1)) * IZR (Z.of_N (i + 1)))) with (IZR (76 * (Z.of_N (i + 1) * Z.of_N (i + 1)))) in * by (rewrite !mult_IZR; reflexivity). rewrite <- opp_IZR in *.
    apply rnd_between; [apply F64_Z|apply F64_0|exact T]. rewrite Z.abs_opp, Z.abs_eq by lia.
    assert (Z.of_N (i + 1) <= 8388608)%Z by lia. assert (0 <= Z.of_N (i + 1))%Z by lia. nia.
Qed.
(* the statistic *)
Definition a2 (l : list double) : double := dsub (dneg (double_of_N (N.of_nat (length l)))) (ddiv (anderson_darling_sum log 0 l (rev l) d0) (double_of_N (N.of_nat (length l)))).
Lemma neg_ok x : fin x -> fin (dneg x) /\ dval (dneg x) = - dval x.
Proof. intros F. split; [unfold fin, dneg; rewrite is_finite_Bopp; exact F|apply B2R_Bopp]. Qed.
Lemma a2_ok l : Forall valid01 l -> l <> [] -> (N.of_nat (length l) <= 2 ^ 23)%N -> let n := IZR (Z.of_N (N.of_nat (length l))) in
  let q := ddiv (anderson_darling_sum log 0 l (rev l) d0) (double_of_N (N.of_nat (length l))) in
  fin (a2 l) /\ dval (a2 l) = rnd (- n - dval q) /\ fin q /\ dval q = rnd (dval (anderson_darling_sum log 0 l (rev l) d0) / n) /\ - (76 * n) <= dval q <= 0 /\ - n <= dval (a2 l) <= 75 * n /\ fin (anderson_darling_sum log 0 l (rev l) d0) /\ 1 <= n <= 8388608.
Proof.
  intros V NE L. cbv zeta. set (k := N.of_nat (length l)) in *. assert (K : (1 <= k)%N) by (subst k; destruct l; [congruence|cbn [length]; lia]).
  destruct (double_of_N_exact k) as [Vk Fk]; [apply N.le_trans with (1 := L); lia|].
  destruct (asum_ok l (rev l) 0 d0 V (Forall_rev V)) as [Fs Bs]; [fold k; lia|reflexivity|change (dval d0) with 0; change (IZR (Z.of_N 0)) with 0; lra|]. fold k in Bs. rewrite N.add_0_l in Bs.
  set (n := IZR (Z.of_N k)) in *. assert (N1 : 1 <= n) by (apply (IZR_le 1); lia). assert (N2 : n <= 8388608) by (apply (IZR_le _ 8388608); lia).
  set (s := anderson_darling_sum log 0 l (rev l) d0) in *.
  assert (Q : - (76 * n) <= dval s / n <= 0).
  { split; [apply Rmult_le_reg_r with n; [lra|]; unfold Rdiv; rewrite Rmult_assoc, Rinv_l by lra; lra|apply Rmult_le_reg_r with n; [lra|]; unfold Rdiv; rewrite Rmult_assoc, Rinv_l by lra; lra]. }
  destruct (ddiv_ok s (double_of_N k) Fs) as [Vq Fq]; [rewrite Vk; fold n; lra|rewrite Vk; fold n; apply small_R with (76 * 8388608); [apply Rabs_le; lra|lra]|].
  rewrite Vk in Vq. fold n in Vq.
  assert (Bq : - (76 * n) <= dval (ddiv s (double_of_N k)) <= 0).
  { rewrite Vq. replace (76 * n) with (IZR (76 * Z.of_N k)) in * by (rewrite mult_IZR; reflexivity). rewrite <- opp_IZR in *. apply rnd_between; [apply F64_Z; lia|apply F64_0|exact Q]. }
  destruct (neg_ok _ Fk) as [Fn Vn]. rewrite Vk in Vn. fold n in Vn.
  destruct (dsub_ok (dneg (double_of_N k)) _ Fn Fq) as [Va Fa]; [rewrite Vn; apply small_R with (76 * 8388608); [apply Rabs_le; lra|lra]|].
  unfold a2. fold k. fold s. split; [exact Fa|]. rewrite Va, Vn. split; [reflexivity|]. split; [exact Fq|]. split; [exact Vq|]. split; [exact Bq|]. split; [|split; [exact Fs|lra]].
  assert (T : - n <= - n - dval (ddiv s (double_of_N k)) <= 75 * n) by lra. unfold n in T |- *.
  replace (75 * IZR (Z.of_N k)) with (IZR (75 * Z.of_N k)) in * by (rewrite mult_IZR; reflexivity). rewrite <- opp_IZR in *. apply rnd_between; [apply F64_Z; lia|apply F64_Z; lia|exact T].
Qed.
Lemma stats_eq sort l : l <> [] -> length (sort l) = length l -> anderson_darling_stats log exp sort l =
  (p <- anderson_darling_cdf exp (a2 (sort l)) (double_of_N (N.of_nat (length l))) ;; Ok (Some (mkstat Anderson_darling_A2 (a2 (sort l)) p (double_of_N (N.of_nat (length l)))))).
Proof. intros NE L. unfold anderson_darling_stats, a2. destruct l; [congruence|]. cbv zeta. rewrite L. reflexivity. Qed.
End Log.
