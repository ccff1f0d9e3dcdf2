(* Partitions of n numbered elements into blocks.  The elements are put into blocks one after the other; l lists the number of the block
   of each element, blocks are numbered in the order in which they are opened.  So the next element goes into one of the m blocks
   that exist, or opens block m; every partition is listed exactly once. *)
From Verif Require Import Base.
Fixpoint blocks (m : nat) (l : list nat) : option nat :=
  match l with
  | [] => Some m
  | b :: l => if Nat.ltb b m then blocks m l else if Nat.eqb b m then blocks (S m) l else None
  end.
(* l is a partition of n elements into k blocks *)
Definition partition (n k : nat) (l : list nat) : Prop := length l = n /\ blocks 0 l = Some k.
(* c is the number of things with property P *)
Definition number_of {A} (P : A -> Prop) (c : nat) : Prop := exists L, NoDup L /\ (forall l, In l L <-> P l) /\ length L = c.
