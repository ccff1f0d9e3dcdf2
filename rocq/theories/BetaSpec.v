(* Specification of the arguments of the incomplete beta function. *)
From Coq Require Import Reals.
From Flocq Require Import Core BinarySingleNaN.
From Verif Require Import Base FloatModel.
Open Scope R_scope.

(* [x] is k/2 *)
Definition halves (x : double) (k : Z) : Prop := is_finite x = true /\ dval x = IZR k / 2.
(* [x] is the whole number n *)
Definition whole (x : double) (n : Z) : Prop := is_finite x = true /\ dval x = IZR n.
