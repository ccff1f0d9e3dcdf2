(* Independent vocabulary for the collectors. *)
From Coq Require Import Reals.
From Verif Require Import Base FloatModel.
Open Scope N_scope.

(* [seg] is complete and none of its proper prefixes is. *)
Definition just_complete {A : Type} (complete : list A -> Prop) (seg : list A) : Prop :=
  complete seg /\ forall p s, seg = p ++ s -> s <> [] -> ~ complete p.
(* [data] is cut into consecutive segments, each ending as soon as it is complete; the remaining
   values do not complete another one. *)
Definition cut_into {A : Type} (complete : list A -> Prop) (data : list A) (segs : list (list A)) (rest : list A) : Prop :=
  data = concat segs ++ rest /\ Forall (just_complete complete) segs /\ (forall p s, rest = p ++ s -> ~ complete p).
(* Bin i of [h] counts the segments of length offset + i, the last bin also all longer ones. *)
Definition tallies {A : Type} (h : list N) (offset : nat) (segs : list (list A)) : Prop :=
  forall i, (i < length h)%nat ->
    nth i h 0 = N.of_nat (length (filter (fun s => Nat.eqb (Nat.min (length s - offset) (length h - 1)) i) segs)).

(* Number of elements satisfying a predicate; the sum of a list. *)
Definition count {A : Type} (p : A -> bool) (l : list A) : N := N.of_nat (length (filter p l)).
Definition total (l : list N) : N := fold_right N.add 0 l.

(* The number of maximal runs of equal elements. *)
Fixpoint run_count (l : list bool) : N :=
  match l with
  | [] => 0
  | a :: l' => match l' with
               | [] => 1
               | b :: _ => (if Bool.eqb a b then 0 else 1) + run_count l'
               end
  end.

(* The output bits that change when input bit j of the sample (already mixed once) is flipped. *)
Definition output_change (mix : N -> N) (s : N) (j : nat) : N :=
  N.lxor (mix (mix s)) (mix (N.lxor (mix s) (2 ^ N.of_nat j))).
(* All (sample, flipped bit) pairs. *)
Definition flips (w : N) (data : list N) : list (N * nat) := list_prod data (seq 0 (N.to_nat w)).
(* The consecutive non-overlapping pairs. *)
Fixpoint pairs (data : list N) : list (N * N) :=
  match data with x :: y :: rest => (x, y) :: pairs rest | _ => [] end.

(* A bin: observed count and expected count.  The counts of a group of bins, the expected ones
   added from left to right. *)
Definition group_observed (g : list (N * double)) : N := total (map fst g).
Definition group_expected (g : list (N * double)) : double := fold_left dadd (map snd g) d0.
Definition reaches (threshold : double) (g : list (N * double)) : Prop := dle threshold (group_expected g) = true.
