(* Specification vocabulary for streams. *)
From Verif Require Import Base StreamModel.
Open Scope N_scope.

(* [delivers s f]: however often it is called, the stream [s] returns f 0, f 1, f 2, ...
   and, at each call, neither depends on nor changes anything shared. *)
Fixpoint delivers_n {S T : Type} (n : nat) (step : S -> world -> outcome (T * S * world))
  (c : S) (f : nat -> T) : Prop :=
  match n with
  | O => True
  | S k => exists c', (forall g, step c g = Ok (f O, c', g)) /\ delivers_n k step c' (fun i => f (Datatypes.S i))
  end.
Definition delivers {T} (s : stream T) (f : nat -> T) : Prop :=
  forall n, delivers_n n (sstep s) (scur s) f.

(* the word with the bits b 0, ..., b (n-1) *)
Fixpoint word_of_bits (n : nat) (b : nat -> bool) : N :=
  match n with
  | O => 0
  | S k => word_of_bits k b + (if b k then 2 ^ N.of_nat k else 0)
  end.

(* Left-to-right accumulation x_{i+1} = c x_i (f i). *)
Fixpoint acc_seq (c : N -> N -> N) (seed : N) (f : nat -> N) (i : nat) : N :=
  match i with
  | O => c seed (f O)
  | S k => c (acc_seq c seed f k) (f (S k))
  end.

(* Does the rrc kind mirror / complement? *)
Definition mirrors (t : rrc_type) : bool :=
  match t with Reverse | ReverseComplement => true | _ => false end.
Definition complements (t : rrc_type) : bool :=
  match t with Complement | ReverseComplement => true | _ => false end.
