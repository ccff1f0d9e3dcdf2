(* Vocabulary for accuracy statements: x has relative error at most 2^-k as an approximation of y. *)
From Coq Require Import Reals List.
From Flocq Require Import Core.
Definition within (k : Z) (x y : R) : Prop := (Rabs (x - y) <= bpow radix2 (- k) * Rabs y)%R.
Definition rsum (l : list R) : R := fold_right Rplus 0%R l.
