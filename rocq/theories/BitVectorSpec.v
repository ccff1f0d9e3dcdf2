(* Abstract view of bit_vector: a list of bits. *)
From Coq Require Import String Ascii.
From Verif Require Import Base BitwiseSpec BitVectorModel.
Open Scope Z_scope.

(* Effect of an operation on the abstract bit sequence. *)
Definition spec_step (l : list bool) (o : bv_op) : list bool :=
  match o with
  | OpAdd v c =>
      if c <? 0 then firstn (Z.to_nat (Z.of_nat (length l) + c)) l
      else l ++ bits_lsb (Z.to_nat c) v
  | OpSet i b => upd l (N.to_nat i) b
  end.

(* What a caller must respect. *)
Definition op_ok (l : list bool) (o : bv_op) : Prop :=
  match o with
  | OpAdd _ c => c <= 64 /\ 0 <= Z.of_nat (length l) + c <= int_max
  | OpSet i _ => (i < N.of_nat (length l))%N
  end.

Fixpoint ops_ok (l : list bool) (os : list bv_op) : Prop :=
  match os with
  | [] => True
  | o :: os' => op_ok l o /\ ops_ok (spec_step l o) os'
  end.

Fixpoint string_of_bits (l : list bool) : string :=
  match l with
  | [] => EmptyString
  | b :: r => String (if b then "1" else "0")%char (string_of_bits r)
  end.

(* Observational equality of a bit_vector with a bit sequence, through the public API only. *)
Definition observes (bv : bit_vector) (l : list bool) : Prop :=
  bv_size bv = Z.of_nat (length l) /\
  (forall i, (i < length l)%nat -> get_bit bv (Z.of_nat i) = Ok (nth i l false)) /\
  bv_count bv = Ok (Z.of_nat (count_true l)) /\
  bv_to_string bv = Ok (string_of_bits l) /\
  (forall w from count, In w widths -> (count <= N.to_nat w)%nat -> (from + count <= length l)%nat ->
     bv_get w bv (Z.of_nat from) (Z.of_nat count) = Ok (value_lsb (firstn count (skipn from l)))).
