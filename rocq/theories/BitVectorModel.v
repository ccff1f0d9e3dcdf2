(* Model of core/src/util/bitvector.h *)
From Coq Require Import String Ascii.
From Verif Require Import Base BitwiseModel.
Open Scope Z_scope.

(* bitvector.h:70-72 members: int bits, std::vector<unsigned char> data *)
Record bit_vector : Type := mkbv { bv_bits : Z; bv_data : list N }.

Definition int_max : Z := 2147483647.

(* static_cast<size_t>(std::ceil(b / 8.)) (lines 15, 63): exact for int b; a value <= -1
   cannot be converted to size_t (UB); -7..0 give 0. *)
Definition byte_size (b : Z) : outcome nat :=
  if b <=? -8 then UB else Ok (Z.to_nat ((b + 7) / 8)).

(* std::vector::resize *)
Definition resize (l : list N) (n : nat) : list N :=
  firstn n l ++ repeat 0%N (n - length l).

(* bitvector.h:12 default constructor *)
Definition bv_empty : bit_vector := mkbv 0 [].

(* bitvector.h:14-16 *)
Definition bv_new (bits : Z) : outcome bit_vector :=
  n <- byte_size bits ;; Ok (mkbv bits (resize [] n)).

(* bitvector.h:18-23 get_bit(int): a negative index gives a negative shift or an
   out-of-range byte, both UB; otherwise index = bit / 8, shift = bit % 8. *)
Definition get_bit (bv : bit_vector) (bit : Z) : outcome bool :=
  if bit <? 0 then UB
  else
    byte <- at_ (bv_data bv) (Z.to_nat (bit / 8)) ;;
    let shift := Z.to_N (bit - 8 * (bit / 8)) in
    Ok (N.land (N.shiftr byte shift) 1 =? 1)%N.

(* bitvector.h:25-35 set_bit(size_t, bool) *)
Definition set_bit (bv : bit_vector) (bit : N) (value : bool) : outcome bit_vector :=
  let index := N.to_nat (bit / 8) in
  let shift := (bit - 8 * (bit / 8))%N in
  byte <- at_ (bv_data bv) index ;;
  let byte' :=
    if value then wrap 8 (N.lor byte (N.shiftl 1 shift))
    else wrap 8 (N.ldiff byte (N.shiftl 1 shift)) in
  Ok (mkbv (bv_bits bv) (upd (bv_data bv) index byte')).

(* bitvector.h:37 size *)
Definition bv_size (bv : bit_vector) : Z := bv_bits bv.

(* the int values lo, lo+1, ..., hi-1 *)
Definition zrange (lo hi : Z) : list Z := map (fun k => lo + Z.of_nat k) (seq 0 (Z.to_nat (hi - lo))).

(* bitvector.h:39-45 count *)
Definition bv_count (bv : bit_vector) : outcome Z :=
  ofold (fun sum i => b <- get_bit bv i ;; Ok (if b : bool then sum + 1 else sum))
        (zrange 0 (bv_bits bv)) 0.

(* bitvector.h:47-58 get<T>(from_bit, count); T has w bits.  The shift static_cast<T>(1) << s
   is only evaluated for set bits; it is UB when s reaches the promoted width. *)
Definition bv_get (w : N) (bv : bit_vector) (from_bit count : Z) : outcome N :=
  let to_bit := from_bit + count in
  if int_max <? to_bit then UB
  else
    ofold (fun v i =>
             b <- get_bit bv i ;;
             if b : bool then
               let s := Z.to_N (i - from_bit) in
               if (promoted w <=? s)%N then UB
               else Ok (wrap w (N.lor v (N.shiftl 1 s)))
             else Ok v)
          (zrange from_bit to_bit) 0%N.

(* bitvector.h:60-67 add; v >> i is UB for i >= 64, int overflow of bits is UB.
   A negative count shrinks the vector (resize) and adds nothing. *)
Definition bv_add (bv : bit_vector) (v : N) (count : Z) : outcome bit_vector :=
  let old_bits := bv_bits bv in
  let bits := old_bits + count in
  if int_max <? bits then UB
  else
    n <- byte_size bits ;;
    ofold (fun bv i =>
             if 64 <=? i then UB
             else set_bit bv (Z.to_N (old_bits + i)) (N.land (N.shiftr v (Z.to_N i)) 1 =? 1)%N)
          (zrange 0 count) (mkbv bits (resize (bv_data bv) n)).

(* bitvector.h:75-81 to_string *)
Definition bv_to_string (bv : bit_vector) : outcome string :=
  ofold (fun s i => b <- get_bit bv i ;; Ok (s ++ (if b : bool then "1" else "0"))%string)
        (zrange 0 (bv_bits bv)) ""%string.

(* Mutating operations offered to a user. *)
Inductive bv_op : Type :=
| OpAdd (v : N) (count : Z)
| OpSet (bit : N) (value : bool).

Definition bv_step (bv : bit_vector) (o : bv_op) : outcome bit_vector :=
  match o with
  | OpAdd v c => bv_add bv v c
  | OpSet i b => set_bit bv i b
  end.
