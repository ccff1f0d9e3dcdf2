(* A C library that meets all requirements at once: correctly rounded log and exp, log 0 and exp of - infinity as in C. *)
From Coq Require Import Reals Lra Lia.
From Flocq Require Import Core BinarySingleNaN.
From Verif Require Import Base FloatModel FloatLemmas ResultModel ResultSpec StatFormulas DistReal DistReal2 DistSeries DistGamma DistLarge LibInst TestsModel TestsSpec LimitProofs TestsUniform TestsInst StatsModel DistModel DistSpec DistProofs.
Open Scope R_scope.

Definition lib_log (x : double) : double := if Req_EM_T (dval x) 0 then B754_infinity true else exact_log x.
Definition lib_exp (x : double) : double := match x with B754_infinity true => d0 | _ => exact_exp x end.
Definition lib_erfc (x : double) : double :=
  match x with B754_infinity true => double_of_N 2 | B754_infinity false => d0 | _ => if Rle_dec 0 (dval x) then some_erfc x else dsub (double_of_N 2) (some_erfc (dneg x)) end.
Definition lib_math : mathlib := mkmath exact_pow lib_log exact_log2 exact_tgamma lib_erfc.

Lemma some_erfc_ok x : fin x -> 0 <= dval x -> fin (some_erfc x) /\ 0 <= dval (some_erfc x) <= 1.
Proof. exact (gm_erfc _ exact_math_good x). Qed.
Lemma lib_math_good : good_math lib_math.
Proof.
  pose proof exact_math_good as G. constructor; cbn [m_pow m_log m_log2 m_tgamma m_erfc lib_math]; try apply G.
  - intros x F H. pose proof (gm_log _ G x F H) as Q. cbn [m_log exact_math] in Q. unfold lib_log. destruct (Req_EM_T (dval x) 0); [lra|exact Q].
  - intros x F H. assert (E : lib_erfc x = some_erfc x) by (destruct x; try discriminate F; unfold lib_erfc; destruct (Rle_dec 0 _); try reflexivity; contradiction). rewrite E. apply some_erfc_ok; assumption.
Qed.
Lemma exact_exp_near x : fin x -> dval x <= 0 -> Rabs (dval (exact_exp x) - exp (dval x)) <= bpow radix2 (-50).
Proof.
  intros F H. assert (B : 0 <= exp (dval x) <= 1).
  { split; [apply Rlt_le, exp_pos|]. rewrite <- exp_0. destruct (Req_dec (dval x) 0) as [->|]; [lra|apply Rlt_le, exp_increasing; lra]. }
  destruct (double_of_R_ok (exp (dval x))) as [V F']; [apply (small_bpow _ 0); [lia|apply Rabs_le; simpl; lra]|]. unfold exact_exp. rewrite V.
  pose proof (rnd_abs (exp (dval x))) as E. rewrite (Rabs_right (exp (dval x))) in E by lra. apply Rle_trans with (1 := E). 
  pose proof DistLentz.tau_le. rewrite StatsProofs.u_val. change (bpow radix2 (-50)) with (/ 1125899906842624). lra.
Qed.
Lemma lib_dist_good : good_dist lib_log lib_exp lib_erfc.
Proof.
  constructor.
  - intros x F H. unfold lib_log. destruct (Req_EM_T (dval x) 0); [lra|]. unfold exact_log.
    assert (B : Rabs (ln (dval x)) <= 2048).
    { pose proof (ln_low x H). pose proof (abs_B2R_lt_emax 53 1024 x) as L. fold (dval x) in L. rewrite Rabs_right in L by lra.
      assert (ln (dval x) <= ln (bpow radix2 1024)) by (apply ln_mono; lra). rewrite ln_bpow in H1 by lia. pose proof ln2_up. apply Rabs_le. lra. }
    destruct (double_of_R_ok (ln (dval x))) as [V F']; [apply (small_bpow _ 11); [lia|exact B]|]. split; [exact F'|]. rewrite V. apply Rle_trans with (1 := rnd_err_11 _ B). apply bpow_le. lia.
  - intros x F H. unfold lib_log. destruct (Req_EM_T (dval x) 0); [reflexivity|contradiction].
  - intros x F H. assert (E : lib_exp x = exact_exp x) by (destruct x; try discriminate F; reflexivity). rewrite E. apply exact_exp_good; assumption.
  - split; reflexivity.
  - assert (FIN : forall x, fin x -> let v := if Rle_dec 0 (dval x) then some_erfc x else dsub (double_of_N 2) (some_erfc (dneg x)) in fin v /\ 0 <= dval v <= 2).
    { intros x F. cbv zeta. destruct (Rle_dec 0 (dval x)) as [H|H].
      - destruct (some_erfc_ok x F H). split; [assumption|lra].
      - assert (Fn : fin (dneg x)) by (unfold fin, dneg; rewrite is_finite_Bopp; exact F). assert (Vn : dval (dneg x) = - dval x) by (apply B2R_Bopp).
        destruct (some_erfc_ok (dneg x) Fn) as [FE BE]; [lra|]. destruct (double_of_N_exact 2) as [V2 F2]; [lia|]. change (IZR (Z.of_N 2)) with 2 in V2.
        destruct (dsub_ok (double_of_N 2) _ F2 FE) as [V F']; [rewrite V2; apply (small_R _ vast); [apply Rabs_le; unfold vast; lra|unfold vast; lra]|]. split; [exact F'|]. rewrite V, V2.
        apply rnd_between; [exact F64_0|apply (F64_Z 2); lia|lra]. }
    intros x N. destruct x as [b|b| |b mx ex Hb]; try discriminate N; unfold lib_erfc.
    + apply (FIN (B754_zero b)). reflexivity.
    + destruct b.
      * destruct (double_of_N_exact 2) as [V2 F2]; [lia|]. change (IZR (Z.of_N 2)) with 2 in V2. split; [exact F2|]. rewrite V2. lra.
      * split; [reflexivity|]. change (dval d0) with 0. lra.
    + apply (FIN (B754_finite b mx ex Hb)). reflexivity.
Qed.
Lemma lib_exp_accurate : accurate_exp lib_exp.
Proof. intros x F H. assert (E : lib_exp x = exact_exp x) by (destruct x; try discriminate F; reflexivity). rewrite E. apply exact_exp_near; assumption. Qed.
