(* A concrete library meeting the requirements of ResultSpec: correctly rounded exp and log10, and
   insertion sort.  It shows that those requirements are satisfiable (by what a good C library does). *)
From Coq Require Import Reals Lra Permutation Sorted.
From Verif Require Import Base FloatModel FloatLemmas ResultModel ResultSpec AnalysisProofs EvalProofs StrengthProofs.
Open Scope R_scope.

(* the double nearest to a real *)
Definition double_of_R (r : R) : double :=
  dconst (ZnearestE (scaled_mantissa radix2 (SpecFloat.fexp 53 1024) r)) (cexp radix2 (SpecFloat.fexp 53 1024) r).
Lemma double_of_R_ok r : small r -> dval (double_of_R r) = rnd r /\ fin (double_of_R r).
Proof.
  intros Hs. assert (E : F2R (Float radix2 (ZnearestE (scaled_mantissa radix2 (SpecFloat.fexp 53 1024) r)) (cexp radix2 (SpecFloat.fexp 53 1024) r)) = rnd r) by reflexivity.
  destruct (dconst_ok (ZnearestE (scaled_mantissa radix2 (SpecFloat.fexp 53 1024) r)) (cexp radix2 (SpecFloat.fexp 53 1024) r)) as [V F].
  { rewrite E. unfold small in *. apply Rabs_le_inv in Hs. apply Rabs_le.
    apply rnd_between; [apply F64_opp, F64_bpow; lia|apply F64_bpow; lia|exact Hs]. }
  split; [|exact F]. unfold double_of_R. rewrite V, E. apply rnd_id, rnd_format.
Qed.

Definition exact_exp (x : double) : double := double_of_R (exp (dval x)).
Lemma exact_exp_good : good_exp exact_exp.
Proof.
  intros x _ Hx. assert (B : 0 <= exp (dval x) <= 1).
  { split; [apply Rlt_le, exp_pos|]. rewrite <- exp_0. destruct (Req_dec (dval x) 0) as [->|]; [lra|apply Rlt_le, exp_increasing; lra]. }
  destruct (double_of_R_ok (exp (dval x))) as [V F]; [apply small_1, Rabs_le; lra|].
  split; [exact F|]. unfold exact_exp. rewrite V. apply rnd_between; [apply F64_0|apply F64_1|exact B].
Qed.

Lemma bpow_nat n : bpow radix2 (Z.of_nat n) = 2 ^ n.
Proof. induction n as [|n IH]; [reflexivity|]. rewrite Nat2Z.inj_succ, <- Z.add_1_r, bpow_plus_1, IH. reflexivity. Qed.
Lemma bpow_neg n : bpow radix2 (- Z.of_nat n) = / 2 ^ n.
Proof. rewrite bpow_opp, bpow_nat. reflexivity. Qed.

Definition exact_log10 (x : double) : double := double_of_R (ln (dval x) / ln 10).
Lemma lg_dbl x : 0 < dval x <= 1 -> -1100 <= lg (dval x) <= 0.
Proof.
  intros Hx. split.
  - assert (H : bpow radix2 (-1074) <= dval x).
    { destruct (Rle_or_lt (bpow radix2 (-1074)) (dval x)) as [|Hlt]; [assumption|exfalso].
      pose proof (abs_B2R_ge_emin 53 1024 x) as A. 
      destruct x as [sx|sx| |sx mx ex Hb]; cbn in Hx; try lra. cbn in A. specialize (A eq_refl).
      change (SpecFloat.emin 53 1024) with (-1074)%Z in A. rewrite Rabs_right in A by lra. unfold dval in Hlt. cbn in Hlt. lra. }
    assert (P : 0 < bpow radix2 (-1074)) by apply bpow_gt_0.
    eapply Rle_trans; [|apply lg_mono; [exact P|exact H]].
    assert (E : bpow radix2 (-1074) = / 2 ^ 1074).
    { apply (bpow_neg 1074). }
    rewrite E.
    assert (Q : / 10 ^ 1100 <= / 2 ^ 1074).
    { apply Rinv_le_contravar; [apply pow_lt; lra|]. eapply Rle_trans; [apply (pow_incr 2 10); lra|]. apply Rle_pow; [lra|lia]. }
    eapply Rle_trans; [|apply lg_mono; [apply inv_pow10_pos|exact Q]]. rewrite lg_pow. rewrite INR_IZR_INZ. change (Z.of_nat 1100) with 1100%Z. lra.
  - replace 0 with (lg 1) by (unfold lg; rewrite ln_1; unfold Rdiv; ring). apply lg_mono; lra.
Qed.
Lemma rnd_err_11 a : Rabs a <= 2048 -> Rabs (rnd a - a) <= bpow radix2 (-43).
Proof.
  intros Ha. destruct (Req_dec a 0) as [->|Hz].
  { rewrite (rnd_id 0 F64_0). replace (0 - 0) with 0 by ring. rewrite Rabs_R0. apply bpow_ge_0. }
  destruct (Req_dec (Rabs a) 2048) as [E|Hne].
  { assert (F : F64 a).
    { unfold Rabs in E. destruct (Rcase_abs a); [replace a with (- (2048)) by lra; apply (F64_opp 2048), (F64_Z 2048); lia|rewrite E; apply (F64_Z 2048); lia]. }
    rewrite (rnd_id a F). replace (a - a) with 0 by ring. rewrite Rabs_R0. apply bpow_ge_0. }
  eapply Rle_trans; [apply error_le_half_ulp; typeclasses eauto|].
  rewrite ulp_neq_0 by exact Hz.
  assert (Hc : (cexp radix2 (SpecFloat.fexp 53 1024) a <= -42)%Z).
  { unfold cexp, SpecFloat.fexp, SpecFloat.emin. assert (mag radix2 a <= 11)%Z; [|lia].
    apply mag_le_bpow; [exact Hz|]. change (bpow radix2 11) with 2048. lra. }
  apply (bpow_le radix2) in Hc. change (-43)%Z with (-42 + -1)%Z. rewrite bpow_plus. change (bpow radix2 (-1)) with (/ 2). lra.
Qed.
Lemma exact_log10_good : good_log10 exact_log10.
Proof.
  assert (K : forall x, 0 < dval x <= 1 -> dval (exact_log10 x) = rnd (lg (dval x)) /\ fin (exact_log10 x)).
  { intros x Hx. pose proof (lg_dbl x Hx). apply double_of_R_ok. apply (small_pow2 _ 11); [lia|].
    change (bpow radix2 11) with 2048. fold (lg (dval x)). apply Rabs_le. lra. }
  split.
  - intros x _ Hx. destruct (K x Hx) as [V F]. pose proof (lg_dbl x Hx). split; [exact F|]. rewrite V. split.
    + rewrite <- (rnd_id 0 F64_0). apply rnd_mono. lra.
    + fold (lg (dval x)). eapply Rle_trans; [apply rnd_err_11, Rabs_le; lra|].
      replace (/ 2 ^ 40) with (bpow radix2 (-40)) by (apply (bpow_neg 40)).
      apply bpow_le. lia.
  - intros x y _ _ Hx Hxy Hy. destruct (K x ltac:(lra)) as [-> _]. destruct (K y ltac:(lra)) as [-> _].
    apply rnd_mono, lg_mono; assumption.
Qed.

(* insertion sort *)
Section Sort.
Context {B : Type} (lt : B -> B -> bool).
Fixpoint ins (a : B) (l : list B) : list B :=
  match l with [] => [a] | b :: l' => if lt a b then a :: l else b :: ins a l' end.
Definition isort (l : list B) : list B := fold_right ins [] l.
Lemma ins_perm a l : Permutation (a :: l) (ins a l).
Proof. induction l as [|b l IH]; cbn; [constructor; constructor|]. destruct (lt a b); [reflexivity|]. rewrite perm_swap. constructor. exact IH. Qed.
Lemma isort_perm l : Permutation l (isort l).
Proof. induction l as [|a l IH]; cbn; [constructor|]. rewrite <- ins_perm. constructor. exact IH. Qed.
Variable ok : B -> Prop.
Hypothesis asym : forall a b, ok a -> ok b -> lt a b = true -> lt b a = false.
Hypothesis negtrans : forall a b c, ok a -> ok b -> ok c -> lt b a = false -> lt c b = false -> lt c a = false.
Lemma ins_sorted a l : ok a -> Forall ok l -> StronglySorted (fun x y => lt y x = false) l -> StronglySorted (fun x y => lt y x = false) (ins a l).
Proof.
  intros Ha Hl S. induction S as [|b l S IH Hb]; cbn; [constructor; [constructor|constructor]|].
  pose proof (Forall_inv Hl) as Ob. apply Forall_inv_tail in Hl. destruct (lt a b) eqn:D.
  - constructor; [constructor; assumption|]. constructor; [apply asym; assumption|].
    rewrite Forall_forall in *. intros c Hc. eapply (negtrans a b c); eauto.
  - constructor; [apply IH, Hl|]. rewrite Forall_forall in *. intros c Hc.
    apply (Permutation_in _ (Permutation_sym (ins_perm a l))) in Hc. destruct Hc as [<-|Hc]; [exact D|apply Hb, Hc].
Qed.
Lemma isort_sorts : sorts ok lt isort.
Proof.
  intros l Hl. split; [apply isort_perm|]. induction Hl as [|a l Ha Hl IH]; [constructor|]. cbn. apply ins_sorted; [exact Ha| |exact IH].
  eapply Permutation_Forall; [apply isort_perm|exact Hl].
Qed.
End Sort.

Lemma dlt_sorts : sorts finite_double dlt (isort dlt).
Proof.
  apply isort_sorts.
  - intros a b Fa Fb H. apply dlt_iff in H; [|assumption|assumption]. apply dlt_false; [assumption|assumption|lra].
  - intros a b c Fa Fb Fc H1 H2. apply dlt_false in H1; [|assumption|assumption]. apply dlt_false in H2; [|assumption|assumption].
    apply dlt_false; [assumption|assumption|lra].
Qed.
Lemma ra_sorts : sorts (fun ra => valid_stat (ra_stat ra)) ra_lt (isort ra_lt).
Proof.
  unfold ra_lt, ra_p. apply isort_sorts.
  - intros a b Va Vb H. pose proof (comparable_fin _ Va). pose proof (comparable_fin _ Vb).
    apply dlt_iff in H; [|assumption|assumption]. apply dlt_false; [assumption|assumption|lra].
  - intros a b c Va Vb Vc H1 H2. pose proof (comparable_fin _ Va). pose proof (comparable_fin _ Vb). pose proof (comparable_fin _ Vc).
    apply dlt_false in H1; [|assumption|assumption]. apply dlt_false in H2; [|assumption|assumption].
    apply dlt_false; [assumption|assumption|lra].
Qed.

Definition exact_libs : libs := mklibs exact_exp exact_log10 (isort dlt) (isort ra_lt).
Lemma exact_libs_good : good_sorts exact_libs /\ good_exp (l_exp exact_libs) /\ good_log10 (l_log10 exact_libs).
Proof. split; [split; [apply dlt_sorts|apply ra_sorts]|]. split; [apply exact_exp_good|apply exact_log10_good]. Qed.
