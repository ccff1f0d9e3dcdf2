(* Specification of the rank correlation of Kendall and the correlation of Pearson, in terms of real numbers. *)
From Coq Require Import Reals Permutation Sorted.
From Flocq Require Import Core BinarySingleNaN.
From Verif Require Import Base FloatModel ErrorSpec.
Open Scope R_scope.

(* Finite, not larger than 2^500, and a multiple of 2^-500: all numbers of usual size, in particular 0 and
   the quotients of two 64-bit words. *)
Definition usual (x : double) : Prop := is_finite x = true /\ Rabs (dval x) <= bpow radix2 500 /\ exists m : Z, dval x = IZR m * bpow radix2 (-500).
(* All values are the same. *)
Definition all_equal (xs : list double) : Prop := forall a b, In a xs -> In b xs -> dval a = dval b.
(* The points (x, y). *)
Definition points (xs ys : list double) : list (R * R) := combine (map dval xs) (map dval ys).
(* The number of pairs of different positions of a list with a symmetric property. *)
Fixpoint count_pairs {A : Type} (f : A -> A -> bool) (l : list A) : nat :=
  match l with [] => 0 | a :: rest => length (filter (f a) rest) + count_pairs f rest end.
(* Both coordinates change in the same, in opposite directions. *)
Definition concordant (p q : R * R) : bool := Rlt_bool 0 ((fst p - fst q) * (snd p - snd q)).
Definition discordant (p q : R * R) : bool := Rlt_bool ((fst p - fst q) * (snd p - snd q)) 0.
Definition differ (g : R * R -> R) (p q : R * R) : bool := negb (Req_bool (g p) (g q)).
(* Kendall's tau-b, and the z score of the test with n points. *)
Definition kendall_tau (l : list (R * R)) : R :=
  (INR (count_pairs concordant l) - INR (count_pairs discordant l)) / sqrt (INR (count_pairs (differ fst) l) * INR (count_pairs (differ snd) l)).
Definition kendall_z (l : list (R * R)) : R :=
  let n := INR (length l) in kendall_tau l / sqrt ((4 * n + 10) / (9 * n * (n - 1))).
(* The same order of the values at all positions. *)
Definition same_order (xs xs' : list double) : Prop := length xs = length xs' /\
  forall i j, (i < length xs)%nat -> (j < length xs)%nat -> (dval (nth i xs d0) < dval (nth j xs d0) <-> dval (nth i xs' d0) < dval (nth j xs' d0)).
Definition reversed_order (xs xs' : list double) : Prop := length xs = length xs' /\
  forall i j, (i < length xs)%nat -> (j < length xs)%nat -> (dval (nth i xs d0) < dval (nth j xs d0) <-> dval (nth j xs' d0) < dval (nth i xs' d0)).

(* Numbers from 0 to 1. *)
Definition unit_data (xs : list double) : Prop := Forall (fun x => is_finite x = true /\ 0 <= dval x <= 1) xs.
(* Mean, sums of squares and products of the deviations from the mean, Pearson's coefficient. *)
Definition meanR (l : list R) : R := rsum l / INR (length l).
Definition crossR (l m : list R) : R := rsum (map (fun p => (fst p - meanR l) * (snd p - meanR m)) (combine l m)).
Definition pearson (l m : list R) : R := crossR l m / sqrt (crossR l l * crossR m m).
(* The inverse hyperbolic tangent, and what is required of std::atanh. *)
Definition artanh (x : R) : R := ln ((1 + x) / (1 - x)) / 2.
Definition good_atanh (atanh : double -> double) : Prop := forall x, is_finite x = true -> Rabs (dval x) <= 1 - bpow radix2 (-53) ->
  is_finite (atanh x) = true /\ Rabs (dval (atanh x) - artanh (dval x)) <= bpow radix2 (-46).

(* ---- Spearman ---- *)
(* What is required of std::sort for get_ranks: a permutation of the indices in which no value is less than an earlier one. *)
Definition good_index_sort (sort : (nat -> nat -> bool) -> list nat -> list nat) : Prop := forall vec : list double, Forall (fun x => is_finite x = true) vec ->
  let lt := fun i j => dlt (nth i vec d0) (nth j vec d0) in
  Permutation (seq 0 (length vec)) (sort lt (seq 0 (length vec))) /\ StronglySorted (fun i j => lt j i = false) (sort lt (seq 0 (length vec))).
(* Finite and pairwise different numbers. *)
Definition distinct (xs : list double) : Prop := Forall (fun x => is_finite x = true) xs /\ NoDup (map dval xs).
(* [p] lists the positions of the smallest, the second smallest, ... of [xs]. *)
Definition sorts_positions (xs : list double) (p : list nat) : Prop := Permutation p (seq 0 (length xs)) /\ StronglySorted (fun i j => dval (nth i xs d0) < dval (nth j xs d0)) p.
(* [r] lists the ranks (from 0) of the elements of [xs]. *)
Definition ranks (xs : list double) : list nat := map (fun x => length (filter (fun y => Rlt_bool (dval y) (dval x)) xs)) xs.
Definition spearman (xs ys : list double) : R := pearson (map INR (ranks xs)) (map INR (ranks ys)).
(* The double nearest to 1.06. *)
Definition adjustment : R := 4773815605012726 * bpow radix2 (-52).
