(* What the chi-square distribution needs of the C library. *)
From Coq Require Import Reals.
From Flocq Require Import Core BinarySingleNaN.
From Verif Require Import Base FloatModel ResultSpec.
Open Scope R_scope.

(* log of positive numbers accurate to 2^-40 (correctly rounded values are accurate to 2^-44), log 0 = -infinity;
   exp of numbers up to 0 in [0,1], exp -infinity = 0; erfc of anything but NaN in [0,2]. *)
Record good_dist (log exp erfc : double -> double) : Prop := mkdist {
  gd_log : forall x, is_finite x = true -> 0 < dval x -> is_finite (log x) = true /\ Rabs (dval (log x) - ln (dval x)) <= bpow radix2 (-40);
  gd_log_0 : forall x, is_finite x = true -> dval x = 0 -> log x = B754_infinity true;
  gd_exp : forall x, is_finite x = true -> dval x <= 0 -> is_finite (exp x) = true /\ 0 <= dval (exp x) <= 1;
  gd_exp_inf : is_finite (exp (B754_infinity true)) = true /\ dval (exp (B754_infinity true)) = 0;
  gd_erfc : forall x, is_nan x = false -> is_finite (erfc x) = true /\ 0 <= dval (erfc x) <= 2
}.
(* A number of degrees of freedom. *)
Definition whole_df (k : double) : Prop := is_finite k = true /\ exists m : Z, (1 <= m <= 2 ^ 53)%Z /\ dval k = IZR m.
(* exp of numbers up to 0 accurate to 2^-50 (correctly rounded values are accurate to 2^-54). *)
Definition accurate_exp (exp : double -> double) : Prop := forall x, is_finite x = true -> dval x <= 0 -> Rabs (dval (exp x) - Rtrigo_def.exp (dval x)) <= bpow radix2 (-50).
