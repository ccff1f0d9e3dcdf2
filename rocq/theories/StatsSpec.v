(* Specification of the binomial coefficient (Pascal's rule), independent of the code. *)
From Verif Require Import Base.
Open Scope N_scope.
Fixpoint choose (n k : nat) : N :=
  match n, k with
  | _, O => 1
  | O, S _ => 0
  | S n', S k' => choose n' k' + choose n' k
  end.
(* all bit strings of length n *)
Fixpoint bit_words (n : nat) : list (list bool) :=
  match n with O => [[]] | S n' => map (cons false) (bit_words n') ++ map (cons true) (bit_words n') end.
