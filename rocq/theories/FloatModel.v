(* C++ double: IEEE-754 binary64 with round to nearest even (Flocq, single NaN payload). *)
From Coq Require Import Reals.
From Flocq Require Export Core BinarySingleNaN.
From Verif Require Import Base.

Definition double : Type := binary_float 53 1024.
Global Instance prec53 : Prec_gt_0 53 := eq_refl.
Global Instance prec53lt : Prec_lt_emax 53 1024 := eq_refl.

(* m * 2^e as a double *)
Definition dconst (m e : Z) : double := binary_normalize 53 1024 _ _ mode_NE m e false.
(* static_cast<double>(unsigned) *)
Definition double_of_N (n : N) : double := dconst (Z.of_N n) 0.
Definition d0 : double := B754_zero false.
Definition d1 : double := double_of_N 1.

Definition dadd : double -> double -> double := Bplus mode_NE.
Definition dsub : double -> double -> double := Bminus mode_NE.
Definition dmul : double -> double -> double := Bmult mode_NE.
Definition ddiv : double -> double -> double := Bdiv mode_NE.
Definition dabs : double -> double := Babs.
(* operator<, <= : false when an operand is NaN *)
Definition dlt (x y : double) : bool := Bltb x y.
Definition dle (x y : double) : bool := Bleb x y.
(* std::min(a, b) returns b if b < a, else a; std::max(a, b) returns b if a < b, else a *)
Definition dmin (a b : double) : double := if dlt b a then b else a.
Definition dmax (a b : double) : double := if dlt a b then b else a.
(* static_cast<uintw_t>(double): truncation, undefined unless the truncated value is representable *)
Definition N_of_double (w : N) (x : double) : outcome N :=
  if is_finite x then
    let z := Btrunc x in
    if ((0 <=? z) && (z <? 2 ^ Z.of_N w))%Z then Ok (Z.to_N z) else UB
  else UB.

(* The real number denoted by a finite double. *)
Definition dval (x : double) : R := B2R x.
