(* Independent vocabulary for the bit manipulation properties. *)
From Verif Require Import Base.
Open Scope N_scope.

(* [y] is the [w]-bit word whose bit [i] is bit [src i] of [x]. *)
Definition moves_bits (w : N) (src : N -> N) (x y : N) : Prop :=
  is_word w y /\ forall i, i < w -> N.testbit y i = N.testbit x (src i).

(* The bits of a word, least significant first. *)
Definition bits_lsb (w : nat) (v : N) : list bool :=
  map (fun i => N.testbit v (N.of_nat i)) (seq 0 w).

(* The number with the given bits, least significant first. *)
Fixpoint value_lsb (l : list bool) : N :=
  match l with
  | [] => 0
  | b :: r => (if b then 1 else 0) + 2 * value_lsb r
  end.

(* [blocks] cuts [l] into consecutive blocks of length [n], dropping only an incomplete tail. *)
Definition chopped {A : Type} (n : nat) (l : list A) (blocks : list (list A)) : Prop :=
  Forall (fun b => length b = n) blocks /\
  exists tail, l = concat blocks ++ tail /\ (length tail < n)%nat.

(* [p] is a power of two that fits in a [w]-bit word. *)
Definition word_pow2 (w p : N) : Prop := exists k, k < w /\ p = 2 ^ k.

(* Number of true entries. *)
Definition count_true (l : list bool) : nat := length (filter (fun b => b) l).

(* Bit index with the byte position mirrored and the position inside the byte kept. *)
Definition byte_mirror (w i : N) : N := 8 * (w / 8 - 1 - i / 8) + i mod 8.

(* A bijection on w-bit words. *)
Definition word_bijection (w : N) (f : N -> N) : Prop :=
  (forall x, is_word w x -> is_word w (f x)) /\
  (forall x y, is_word w x -> is_word w y -> f x = f y -> x = y) /\
  (forall y, is_word w y -> exists x, is_word w x /\ f x = y).
