(* Library functions meeting the requirements of OtherSpec, and examples of data. *)
From Coq Require Import Reals Lra Lia List.
From Flocq Require Import Core BinarySingleNaN.
From Verif Require Import Base FloatModel FloatLemmas ResultModel ResultSpec StatsProofs DistModel DistSpec DistSeries DistInst LibInst TestsInst OtherModel OtherSpec BinomProofs.
Import ListNotations.
Open Scope R_scope.

(* exp, rounded; infinite above 700 *)
Definition other_exp (x : double) : double := match x with B754_infinity b => if b then d0 else B754_infinity false | _ => if Rle_dec (dval x) 700 then exact_exp x else B754_infinity false end.
Lemma other_exp_low x : fin x -> dval x <= 700 -> other_exp x = exact_exp x.
Proof. intros F H. destruct x as [b|b| |b m e p]; try discriminate F; unfold other_exp; destruct (Rle_dec _ _) as [_|N]; try reflexivity; contradiction. Qed.
Lemma other_dist_good : good_dist lib_log other_exp lib_erfc.
Proof.
  destruct lib_dist_good as [A B C D E]. constructor; [exact A|exact B| |split; reflexivity|exact E].
  intros x F H. rewrite other_exp_low by (try exact F; lra). specialize (C x F H). assert (Q : lib_exp x = exact_exp x) by (destruct x; try discriminate F; reflexivity). rewrite Q in C. exact C.
Qed.
Lemma other_exp_accurate : accurate_exp other_exp.
Proof. intros x F H. rewrite other_exp_low by (try exact F; lra). apply exact_exp_near; assumption. Qed.
Lemma exp_700 : exp 700 <= bpow radix2 1021.
Proof. rewrite (bpow_exp radix2). replace (IZR radix2) with 2 by reflexivity. pose proof TestsPerm.ln2_lower. apply Rlt_le, exp_increasing. lra. Qed.
Lemma other_exp_nonneg : exp_nonneg other_exp.
Proof.
  assert (K : forall x, fin x -> is_nan (other_exp x) = false /\ dle d0 (other_exp x) = true).
  { intros x F. destruct (Rle_or_lt (dval x) 700) as [H|H].
    - rewrite other_exp_low by assumption. destruct (double_of_R_ok (exp (dval x))) as [V Fe].
      { apply (small_bpow _ 1021); [lia|]. pose proof (exp_pos (dval x)). rewrite Rabs_pos_eq by lra. apply Rle_trans with (2 := exp_700).
        destruct (Req_dec (dval x) 700) as [->|]; [lra|apply Rlt_le, exp_increasing; lra]. }
      unfold exact_exp. apply nonneg_fin; [exact Fe|]. rewrite V, <- (rnd_id 0 F64_0). apply rnd_mono, Rlt_le, exp_pos.
    - assert (E : other_exp x = B754_infinity false) by (destruct x as [b|b| |b m e p]; try discriminate F; unfold other_exp; destruct (Rle_dec _ _) as [L|_]; try reflexivity; exfalso; apply (Rlt_irrefl 700), Rlt_le_trans with (1 := H), L).
      rewrite E. split; reflexivity. }
  intros x N. destruct x as [b|b| |b m e p]; [apply K; reflexivity| |discriminate N|apply K; reflexivity].
  destruct b; split; reflexivity.
Qed.
(* pow of numbers in [0,1] *)
Definition other_pow (x y : double) : double := if Rle_dec (dval x) 0 then (if Rle_dec (dval y) 0 then d1 else d0) else double_of_R (Rpower (dval x) (dval y)).
Lemma rnd_01 r : 0 <= r <= 1 -> fin (double_of_R r) /\ 0 <= dval (double_of_R r) <= 1.
Proof.
  intros H. destruct (double_of_R_ok r) as [V F]; [apply small_R with 1; [apply Rabs_le; lra|lra]|]. split; [exact F|]. rewrite V. apply rnd_between; [apply F64_0|apply F64_1|exact H].
Qed.
Lemma other_pow01 : pow01 other_pow.
Proof.
  intros x y Fx Bx Fy By. destruct d0_val as [V0 F0]. destruct d1_val as [V1 F1]. unfold other_pow. destruct (Rle_dec (dval x) 0) as [H|H]; [destruct (Rle_dec (dval y) 0); [split; [exact F1|lra]|split; [exact F0|lra]]|].
  apply rnd_01. unfold Rpower. split; [apply Rlt_le, exp_pos|]. rewrite <- exp_0. 
  assert (L : ln (dval x) <= 0) by (rewrite <- ln_1; apply LimitProofs.ln_le; lra).
  assert (M : dval y * ln (dval x) <= 0) by nra. destruct (Req_dec (dval y * ln (dval x)) 0) as [->|]; [lra|apply Rlt_le, exp_increasing; lra].
Qed.
