(* Counting words: the independent meaning of the Stirling numbers and of the coupon expectation. *)
From Verif Require Import Base CollectSpec.
Open Scope N_scope.

(* All words of length n over the letters 0 .. d-1. *)
Fixpoint words (d n : nat) : list (list nat) :=
  match n with
  | O => [[]]
  | S n' => flat_map (fun s => map (fun x => s ++ [x]) (seq 0 d)) (words d n')
  end.
(* Every letter below d occurs. *)
Definition onto (d : nat) (s : list nat) : Prop := forall x, (x < d)%nat -> In x s.
Definition ontob (d : nat) (s : list nat) : bool := forallb (fun x => existsb (Nat.eqb x) s) (seq 0 d).
(* The collector holding d different coupons finishes exactly at the last letter. *)
Definition finishes (d : nat) (s : list nat) : bool := ontob d s && negb (ontob d (removelast s)).
