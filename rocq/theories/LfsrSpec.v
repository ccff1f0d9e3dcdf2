(* Specification: linear feedback shift registers over the bits. *)
From Verif Require Import Base.
(* exclusive or of f 0 .. f (k-1) *)
Fixpoint xsum (f : nat -> bool) (k : nat) : bool := match k with O => false | S k' => xorb (xsum f k') (f k') end.
(* The register of length L with taps [taps 1 .. taps L] generates the sequence u: every bit after
   the first L is the sum of the tapped earlier ones. *)
Definition generates (L : nat) (taps : nat -> bool) (u : list bool) : Prop :=
  forall i, (L <= i < length u)%nat -> nth i u false = xsum (fun j => taps (S j) && nth (i - S j) u false) L.
(* L is the length of the shortest such register. *)
Definition linear_complexity (u : list bool) (L : nat) : Prop :=
  (exists taps, generates L taps u) /\ forall L' taps, generates L' taps u -> (L <= L')%nat.
