(* A correctly rounded library meets the requirements of TestsSpec.good_math. *)
From Coq Require Import Reals Lra.
From Flocq Require Import Core BinarySingleNaN.
From Verif Require Import Base FloatModel FloatLemmas ErrorSpec ResultModel ResultSpec EvaluateSpec LibInst LimitProofs RescaleProofs CouponProofs CouponFloatProofs RankModel StatFormulas TestsModel TestsSpec TestsUniform.
Open Scope R_scope.

(* correctly rounded logarithms; the factorial at integers; for erfc any function with values in [0,1] serves *)
Definition exact_log (x : double) : double := double_of_R (ln (dval x)).
Definition exact_log2 (x : double) : double := double_of_R (ln (dval x) / ln 2).
Definition exact_tgamma (x : double) : double := double_of_R (IZR (Z.of_N (fact (Z.to_nat (Zfloor (dval x) - 1))))).
Definition some_erfc (x : double) : double := exact_exp (dneg x).
Definition exact_math : mathlib := mkmath exact_pow exact_log exact_log2 exact_tgamma some_erfc.

Lemma exact_pow_val x y : 0 < dval x -> small (Rpower (dval x) (dval y)) -> fin (exact_pow x y) /\ dval (exact_pow x y) = rnd (Rpower (dval x) (dval y)).
Proof. intros Hx Hs. unfold exact_pow. destruct (Req_EM_T (dval x) 0); [lra|]. destruct (double_of_R_ok _ Hs) as [V F]. split; assumption. Qed.
Lemma Rpower_two z : Rpower 2 (IZR z) = bpow radix2 z.
Proof.
  unfold Rpower. destruct (Z.le_gt_cases 0 z) as [H|H].
  - rewrite <- (ln_bpow z H), exp_ln by apply bpow_gt_0. reflexivity.
  - rewrite <- (Z.opp_involutive z) at 1. rewrite opp_IZR, <- Ropp_mult_distr_l, <- (ln_bpow (- z)) by lia. rewrite <- ln_Rinv by apply bpow_gt_0. rewrite exp_ln by apply Rinv_0_lt_compat, bpow_gt_0.
    rewrite bpow_opp, Rinv_inv. reflexivity.
Qed.
Lemma rel_within k x : (k <= 53)%Z -> 1 <= x -> within k (rnd x) x.
Proof.
  intros Hk Hx. unfold within. rewrite (Rabs_pos_eq x) by lra. apply Rle_trans with (1 := rnd_rel x Hx). apply Rmult_le_compat_r; [lra|]. replace (/ 2 ^ 53) with (bpow radix2 (-53)) by (apply (bpow_neg 53)). apply bpow_le. lia.
Qed.
Lemma pow_bound b n : (1 <= b <= 29)%N -> (n <= 29)%N -> (1 <= b ^ n <= 2 ^ 145)%N.
Proof.
  intros Hb Hn. split; [pose proof (N.pow_nonzero b n ltac:(lia)); lia|]. apply N.le_trans with (32 ^ 29)%N; [|discriminate].
  apply N.le_trans with (32 ^ n)%N; [apply N.pow_le_mono_l; lia|apply N.pow_le_mono_r; lia].
Qed.
Lemma small_145 n : (n <= 2 ^ 145)%N -> small (IZR (Z.of_N n)).
Proof.
  intros H. apply (small_bpow _ 145); [lia|]. rewrite Rabs_pos_eq by (apply IZR_le; lia). rewrite <- IZR_pow2 by lia. apply IZR_le. change (2 ^ 145)%Z with (Z.of_N (2 ^ 145)). apply N2Z.inj_le, H.
Qed.
Lemma fact_small : forall n, (n <= 29)%nat -> (1 <= fact n <= 2 ^ 145)%N.
Proof.
  intros n Hn. assert (A : forallb (fun n => (1 <=? fact n)%N && (fact n <=? 2 ^ 145)%N) (seq 0 30) = true) by (vm_compute; reflexivity).
  rewrite forallb_forall in A. specialize (A n). rewrite in_seq in A. specialize (A ltac:(lia)). apply andb_prop in A. destruct A as [A B]. apply N.leb_le in A, B. lia.
Qed.
Lemma ln_range x : / 2 <= x <= bpow radix2 64 -> Rabs (ln x) <= 64.
Proof.
  intros [H1 H2]. pose proof ln2_lt1. pose proof ln2_pos.
  assert (U : ln x <= 64 * ln 2) by (change 64 with (IZR 64); rewrite <- (ln_bpow 64) by lia; apply LimitProofs.ln_le; lra).
  assert (L : - ln 2 <= ln x) by (rewrite <- ln_Rinv by lra; apply LimitProofs.ln_le; lra). apply Rabs_le. lra.
Qed.
Lemma rnd_128 x : Rabs x <= 1024 -> Rabs (rnd x - x) <= bpow radix2 (-40) /\ small x.
Proof.
  intros H. split; [|apply (small_bpow _ 10); [lia|exact H]].
  pose proof (error_le_half_ulp radix2 (SpecFloat.fexp 53 1024) (fun x => negb (Z.even x)) x) as E. unfold rnd. eapply Rle_trans; [exact E|].
  destruct (Req_dec x 0) as [->|N]; [change (SpecFloat.fexp 53 1024) with (FLT_exp (-1074) 53); rewrite ulp_FLT_0 by reflexivity|].
  - apply Rle_trans with (1 * bpow radix2 (-1074)); [apply Rmult_le_compat_r; [apply bpow_ge_0|lra]|]. rewrite Rmult_1_l. apply bpow_le. lia.
  - rewrite ulp_neq_0 by exact N. unfold cexp. apply Rle_trans with (1 * bpow radix2 (-42)); [|rewrite Rmult_1_l; apply bpow_le; lia].
    apply Rmult_le_compat; [lra|apply bpow_ge_0|lra|]. apply bpow_le. unfold SpecFloat.fexp, SpecFloat.emin. assert (M : (mag radix2 x <= 11)%Z).
    { apply mag_le_bpow; [exact N|]. apply Rle_lt_trans with (1 := H). change (bpow radix2 11) with 2048. lra. } lia.
Qed.

Theorem exact_math_good : good_math exact_math.
Proof.
  constructor; cbn [m_pow m_log m_log2 m_tgamma m_erfc exact_math].
  - exact exact_pow_good.
  - intros b n Hb Hn. destruct (double_of_N_exact b) as [Vb Fb]; [lia|]. destruct (double_of_N_exact n) as [Vn Fn]; [lia|]. pose proof (pow_bound b n Hb Hn) as B.
    assert (P : 1 <= IZR (Z.of_N b)) by (apply (IZR_le 1); lia).
    assert (E : Rpower (dval (double_of_N b)) (dval (double_of_N n)) = IZR (Z.of_N (b ^ n))).
    { rewrite Vb, Vn. replace (IZR (Z.of_N n)) with (INR (N.to_nat n)) by (rewrite INR_IZR_INZ, N_nat_Z; reflexivity). rewrite Rpower_pow by lra. rewrite pow_IZR, N2Z.inj_pow. do 2 f_equal. lia. }
    destruct (exact_pow_val (double_of_N b) (double_of_N n)) as [F V]; [rewrite Vb; lra|rewrite E; apply small_145, B|]. split; [exact F|]. rewrite V, E. apply rel_within; [lia|]. apply (IZR_le 1). lia.
  - intros i Hi. destruct (double_of_N_exact i) as [Vi Fi]; [lia|]. assert (Vh : dval (dconst 1 (-1)) = bpow radix2 (-1)) by (rewrite (proj1 (dconst_ok 1 (-1) ltac:(apply (small_bpow _ 0); [lia|]; unfold F2R; cbn; rewrite Rabs_pos_eq; lra))); rewrite rnd_id; [unfold F2R; cbn; lra|]; replace (F2R _) with (bpow radix2 (-1)) by (unfold F2R; cbn; lra); apply F64_bpow; lia).
    assert (E : Rpower (dval (dconst 1 (-1))) (dval (double_of_N i)) = bpow radix2 (- Z.of_N i)).
    { rewrite Vh, Vi, <- (Rpower_two (-1)), Rpower_mult, <- mult_IZR, Rpower_two. f_equal; lia. }
    destruct (exact_pow_val (dconst 1 (-1)) (double_of_N i)) as [F V]; [rewrite Vh; apply bpow_gt_0|rewrite E; apply (small_bpow _ 0); [lia|rewrite Rabs_pos_eq by apply bpow_ge_0; apply bpow_le; lia]|]. split; [exact F|]. rewrite V, E. apply rnd_id, F64_bpow. lia.
  - intros w Hw. destruct (double_of_N_exact w) as [Vw Fw]; [lia|]. destruct (double_of_N_exact 2) as [V2 F2]; [lia|].
    assert (E : Rpower (dval (double_of_N 2)) (dval (double_of_N w)) = bpow radix2 (Z.of_N w)) by (rewrite V2, Vw; apply Rpower_two).
    destruct (exact_pow_val (double_of_N 2) (double_of_N w)) as [F V]; [rewrite V2; cbn; lra|rewrite E; apply (small_bpow _ 64); [lia|rewrite Rabs_pos_eq by apply bpow_ge_0; apply bpow_le; lia]|]. split; [exact F|]. rewrite V, E. apply rnd_id, F64_bpow. lia.
  - intros z Hz. destruct (double_of_N_exact 2) as [V2 F2]; [lia|].
    assert (Vz : dval (double_of_Z z) = IZR z).
    { unfold double_of_Z. assert (Ez : F2R (Float radix2 z 0) = IZR z) by (unfold F2R; cbn; ring). assert (Sz : small (IZR z)) by (apply (small_bpow _ 53); [lia|]; rewrite <- abs_IZR, <- IZR_pow2 by lia; apply IZR_le; lia).
      rewrite (proj1 (dconst_ok z 0 ltac:(rewrite Ez; exact Sz))), Ez. apply rnd_id, F64_Z. lia. }
    assert (E : Rpower (dval (double_of_N 2)) (dval (double_of_Z z)) = bpow radix2 z) by (rewrite V2, Vz; apply Rpower_two).
    destruct (exact_pow_val (double_of_N 2) (double_of_Z z)) as [F V]; [rewrite V2; cbn; lra|rewrite E; apply (small_bpow _ 0); [lia|rewrite Rabs_pos_eq by apply bpow_ge_0; apply bpow_le; lia]|]. split; [exact F|]. rewrite V, E.
    destruct (Z.ltb_spec z (-1074)); [|apply rnd_id, F64_bpow; lia]. apply rnd_between; [apply F64_0|apply F64_bpow; lia|]. split; [apply bpow_ge_0|apply bpow_le; lia].
  - intros n Hn. destruct (double_of_N_exact (N.of_nat n + 1)) as [V F]; [lia|]. pose proof (fact_small n ltac:(lia)) as B.
    assert (E : Z.to_nat (Zfloor (dval (double_of_N (N.of_nat n + 1))) - 1) = n) by (rewrite V, Zfloor_IZR; lia).
    unfold exact_tgamma. rewrite E. destruct (double_of_R_ok _ (small_145 _ (proj2 B))) as [V' F']. split; [exact F'|]. rewrite V'. apply rel_within; [lia|]. apply (IZR_le 1). lia.
  - intros x F H. pose proof (ln_range _ H) as L. destruct (rnd_128 (ln (dval x)) ltac:(lra)) as [A S]. destruct (double_of_R_ok _ S) as [V' F']. split; [exact F'|]. unfold exact_log. rewrite V'. exact A.
  - intros x F H. assert (H' : / 2 <= dval x <= bpow radix2 64) by (split; [lra|apply Rle_trans with (1 := proj2 H); apply bpow_le; lia]). pose proof (ln_range _ H') as L. pose proof ln2_pos as P2.
    assert (B : Rabs (ln (dval x) / ln 2) <= 1024).
    { assert (0 <= ln (dval x)) by (rewrite <- ln_1; apply LimitProofs.ln_le; lra). assert (ln (dval x) <= IZR 53 * ln 2) by (rewrite <- ln_bpow by lia; apply LimitProofs.ln_le; lra).
      rewrite Rabs_pos_eq by (apply Rmult_le_pos; [lra|apply Rlt_le, Rinv_0_lt_compat; lra]). apply (Rmult_le_reg_r (ln 2)); [lra|]. unfold Rdiv. rewrite Rmult_assoc, Rinv_l, Rmult_1_r by lra. lra. }
    destruct (rnd_128 _ B) as [A S]. destruct (double_of_R_ok _ S) as [V' F']. split; [exact F'|]. unfold exact_log2. rewrite V'. exact A.
  - intros k Hk. destruct (double_of_N_exact (2 ^ k)) as [V F]; [apply N.pow_le_mono_r; lia|]. pose proof ln2_pos as P2.
    assert (E : ln (dval (double_of_N (2 ^ k))) / ln 2 = IZR (Z.of_N k)).
    { rewrite V, N2Z.inj_pow, IZR_pow2 by lia. rewrite ln_bpow by lia. field. lra. }
    assert (S : small (IZR (Z.of_N k))) by (apply small_145; apply N.le_trans with (1 := Hk); discriminate).
    unfold exact_log2. rewrite E. destruct (double_of_R_ok _ S) as [V' F']. split; [exact F'|]. rewrite V'. apply rnd_id, F64_Z. lia.
  - intros x F H. destruct (exact_exp_good (dneg x)) as [A B].
    + rewrite <- F. apply is_finite_Bopp.
    + unfold dval, dneg. rewrite B2R_Bopp. fold (dval x). lra.
    + split; [exact A|exact B].
Qed.
