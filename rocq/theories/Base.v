(* Common vocabulary of the models: machine words, undefined behaviour. *)
From Coq Require Export List Arith NArith ZArith Bool Lia.
From Coq Require Export ZifyBool ZifyNat ZifyN.
Export ListNotations.

(* Outcome of a C++ expression or call: a value, or undefined behaviour. *)
Inductive outcome (A : Type) : Type :=
| Ok (a : A)
| UB.
Arguments Ok {A} a.
Arguments UB {A}.

Definition obind {A B : Type} (m : outcome A) (f : A -> outcome B) : outcome B :=
  match m with
  | Ok a => f a
  | UB => UB
  end.

Notation "x <- m ;; k" := (obind m (fun x => k))
  (at level 61, m at next level, right associativity).

(* [omapM f l] runs [f] on the elements from left to right, UB as soon as one is UB. *)
Fixpoint omapM {A B : Type} (f : A -> outcome B) (l : list A) : outcome (list B) :=
  match l with
  | [] => Ok []
  | a :: l' => b <- f a ;; bs <- omapM f l' ;; Ok (b :: bs)
  end.

(* Left fold whose step may be UB (a C++ loop over a range). *)
Fixpoint ofold {S A : Type} (f : S -> A -> outcome S) (l : list A) (s : S) : outcome S :=
  match l with
  | [] => Ok s
  | a :: l' => s' <- f s a ;; ofold f l' s'
  end.

(* Access to a std::vector / array through operator[]: out of range is UB. *)
Definition at_ {A : Type} (l : list A) (i : nat) : outcome A :=
  match nth_error l i with
  | Some a => Ok a
  | None => UB
  end.

(* A [w]-bit unsigned word is a number below [2^w]. *)
Definition is_word (w x : N) : Prop := (x < 2 ^ w)%N.

(* Conversion to a [w]-bit unsigned type: reduction modulo [2^w]. *)
Definition wrap (w x : N) : N := (x mod 2 ^ w)%N.

(* The widths of uint8_t, uint16_t, uint32_t, uint64_t. *)
Definition widths : list N := [8; 16; 32; 64]%N.

(* Integer promotion: operands narrower than int (32 bits) are computed as int. *)
Definition promoted (w : N) : N := N.max w 32.

(* Overwrite position [i] of a list ([l[i] = a] with [i] in range). *)
Fixpoint upd {A : Type} (l : list A) (i : nat) (a : A) : list A :=
  match l, i with
  | [], _ => []
  | _ :: t, O => a :: t
  | h :: t, S j => h :: upd t j a
  end.
