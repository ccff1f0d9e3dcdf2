(* Model of core/src/util/bitwise.h *)
From Verif Require Import Base.
Open Scope N_scope.

(* std::rotl / std::rotr for 0 < r < w, as specified by the C++20 standard
   ([bit.rotate]): (x << r) | (x >> (N - r)), computed in the type of x. *)
Definition rotl_pos (w x r : N) : N :=
  N.lor (wrap w (N.shiftl x r)) (N.shiftr x (w - r)).
Definition rotr_pos (w x r : N) : N :=
  N.lor (N.shiftr x r) (wrap w (N.shiftl x (w - r))).

(* std::rotl(x, s), std::rotr(x, s): [s] is an int, reduced with C++ '%' (truncation);
   a negative amount rotates the other way. *)
Definition std_rotl (w x : N) (s : Z) : N :=
  let r := Z.rem s (Z.of_N w) in
  if (r =? 0)%Z then x
  else if (0 <? r)%Z then rotl_pos w x (Z.to_N r)
  else rotr_pos w x (Z.to_N (- r)).
Definition std_rotr (w x : N) (s : Z) : N :=
  let r := Z.rem s (Z.of_N w) in
  if (r =? 0)%Z then x
  else if (0 <? r)%Z then rotr_pos w x (Z.to_N r)
  else rotl_pos w x (Z.to_N (- r)).

(* bitwise.h:30-34 rol (the assertion never aborts) *)
Definition rol (w v : N) (r : Z) : N := std_rotl w v r.
(* bitwise.h:36-40 ror *)
Definition ror (w v : N) (r : Z) : N := std_rotr w v r.

(* bitwise.h:42-46 flip_bit: v ^ (1ull << bit), converted back to T.
   Shifting a 64-bit value by a negative amount or by >= 64 is UB. *)
Definition flip_bit (w v : N) (bit : Z) : outcome N :=
  if ((bit <? 0) || (64 <=? bit))%Z then UB
  else Ok (wrap w (N.lxor v (N.shiftl 1 (Z.to_N bit)))).

(* bitwise.h:48-52 is_bit_set: (v >> bit) & 1, v promoted to at least 32 bits. *)
Definition is_bit_set (w v : N) (bit : Z) : outcome bool :=
  if ((bit <? 0) || (Z.of_N (promoted w) <=? bit))%Z then UB
  else Ok (N.land (N.shiftr v (Z.to_N bit)) 1 =? 1).

(* bitwise.h:54-57 bit_count = std::popcount *)
Fixpoint popcount_pos (p : positive) : N :=
  match p with
  | xH => 1
  | xO q => popcount_pos q
  | xI q => N.succ (popcount_pos q)
  end.
Definition bit_count (x : N) : N :=
  match x with
  | 0 => 0
  | Npos p => popcount_pos p
  end.

(* bitwise.h:59-68 byte_swap(uint64_t) *)
Definition byte_swap (val : N) : N :=
  N.lor (N.lor (N.lor (N.lor (N.lor (N.lor (N.lor
    (N.shiftr (N.land val 0xff00000000000000) 56)
    (N.shiftr (N.land val 0x00ff000000000000) 40))
    (N.shiftr (N.land val 0x0000ff0000000000) 24))
    (N.shiftr (N.land val 0x000000ff00000000) 8))
    (wrap 64 (N.shiftl (N.land val 0x00000000ff000000) 8)))
    (wrap 64 (N.shiftl (N.land val 0x0000000000ff0000) 24)))
    (wrap 64 (N.shiftl (N.land val 0x000000000000ff00) 40)))
    (wrap 64 (N.shiftl (N.land val 0x00000000000000ff) 56)).

(* bitwise.h:74 lookup *)
Definition rev_lookup : list N :=
  [0x0; 0x8; 0x4; 0xc; 0x2; 0xa; 0x6; 0xe; 0x1; 0x9; 0x5; 0xd; 0x3; 0xb; 0x7; 0xf].

(* bitwise.h:72-76 reverse_bits(uint8_t); the index x >> 4 is in range because x < 256. *)
Definition reverse_bits8 (x : N) : N :=
  wrap 8 (N.lor (N.shiftl (nth (N.to_nat (N.land x 15)) rev_lookup 0) 4)
                (nth (N.to_nat (N.shiftr x 4)) rev_lookup 0)).

(* bitwise.h:78-84 reverse_bits(uint16_t): computed in int, converted at each assignment. *)
Definition reverse_bits16 (x0 : N) : N :=
  let x1 := wrap 16 (N.lor (N.land (N.shiftr x0 1) 0x5555) (N.shiftl (N.land x0 0x5555) 1)) in
  let x2 := wrap 16 (N.lor (N.land (N.shiftr x1 2) 0x3333) (N.shiftl (N.land x1 0x3333) 2)) in
  let x3 := wrap 16 (N.lor (N.land (N.shiftr x2 4) 0x0F0F) (N.shiftl (N.land x2 0x0F0F) 4)) in
  wrap 16 (N.lor (N.shiftr x3 8) (N.shiftl x3 8)).

(* bitwise.h:86-93 reverse_bits(uint32_t) *)
Definition reverse_bits32 (x0 : N) : N :=
  let x1 := N.lor (N.land (N.shiftr x0 1) 0x55555555) (wrap 32 (N.shiftl (N.land x0 0x55555555) 1)) in
  let x2 := N.lor (N.land (N.shiftr x1 2) 0x33333333) (wrap 32 (N.shiftl (N.land x1 0x33333333) 2)) in
  let x3 := N.lor (N.land (N.shiftr x2 4) 0x0F0F0F0F) (wrap 32 (N.shiftl (N.land x2 0x0F0F0F0F) 4)) in
  let x4 := N.lor (N.land (N.shiftr x3 8) 0x00FF00FF) (wrap 32 (N.shiftl (N.land x3 0x00FF00FF) 8)) in
  N.lor (N.shiftr x4 16) (wrap 32 (N.shiftl x4 16)).

(* bitwise.h:95-103 reverse_bits(uint64_t) *)
Definition reverse_bits64 (x0 : N) : N :=
  let x1 := N.lor (N.shiftr (N.land x0 0xaaaaaaaaaaaaaaaa) 1) (wrap 64 (N.shiftl (N.land x0 0x5555555555555555) 1)) in
  let x2 := N.lor (N.shiftr (N.land x1 0xcccccccccccccccc) 2) (wrap 64 (N.shiftl (N.land x1 0x3333333333333333) 2)) in
  let x3 := N.lor (N.shiftr (N.land x2 0xf0f0f0f0f0f0f0f0) 4) (wrap 64 (N.shiftl (N.land x2 0x0f0f0f0f0f0f0f0f) 4)) in
  let x4 := N.lor (N.shiftr (N.land x3 0xff00ff00ff00ff00) 8) (wrap 64 (N.shiftl (N.land x3 0x00ff00ff00ff00ff) 8)) in
  let x5 := N.lor (N.shiftr (N.land x4 0xffff0000ffff0000) 16) (wrap 64 (N.shiftl (N.land x4 0x0000ffff0000ffff) 16)) in
  N.lor (N.shiftr x5 32) (wrap 64 (N.shiftl x5 32)).

(* Overload selection of reverse_bits<T>, bitwise.h:70-103.  Other widths do not link. *)
Definition reverse_bits (w x : N) : N :=
  if w =? 8 then reverse_bits8 x
  else if w =? 16 then reverse_bits16 x
  else if w =? 32 then reverse_bits32 x
  else reverse_bits64 x.

(* std::countl_zero *)
Definition countl_zero (w x : N) : N := w - N.size x.

(* bitwise.h:105-108 bit_width (returned as T) *)
Definition bit_width (w x : N) : N := wrap w (w - countl_zero w x).

(* 'T(1) << k' converted to T: the left operand is promoted, over-wide shifts are UB. *)
Definition one_shl (w k : N) : outcome N :=
  if promoted w <=? k then UB else Ok (wrap w (wrap (promoted w) (N.shiftl 1 k))).

(* bitwise.h:110-115 bit_floor.  bit_width(x)-1 cannot be negative since x <> 0. *)
Definition bit_floor (w x : N) : outcome N :=
  if x =? 0 then Ok 0 else one_shl w (bit_width w x - 1).

(* bitwise.h:117-123 bit_ceil.  T(x - 1) does not wrap since x <> 0. *)
Definition bit_ceil (w x : N) : outcome N :=
  if x =? 0 then Ok 0 else one_shl w (bit_width w (x - 1)).

(* bitwise.h:125-133 for_each_bit: the successive arguments of the callback. *)
Definition word_bits (w v : N) : outcome (list bool) :=
  omapM (fun b => is_bit_set w v (Z.of_nat b)) (seq 0 (N.to_nat w)).
Fixpoint for_each_bit (w : N) (data : list N) : outcome (list bool) :=
  match data with
  | [] => Ok []
  | v :: vs => b <- word_bits w v ;; bs <- for_each_bit w vs ;; Ok (b ++ bs)
  end.

(* bitwise.h:135-145 for_each_bit_block.  State of the lambda: (i, block), and the blocks
   handed to the callback so far (in reverse order).  block[i] beyond the block is UB. *)
Definition block_step (st : nat * list bool * list (list bool)) (bit : bool)
  : outcome (nat * list bool * list (list bool)) :=
  let '(i, block, out) := st in
  if Nat.ltb i (length block) then
    let block' := upd block i bit in
    if Nat.eqb (S i) (length block') then Ok (O, block', block' :: out)
    else Ok (S i, block', out)
  else UB.
Definition for_each_bit_block (w : N) (data : list N) (block_size : nat)
  : outcome (list (list bool)) :=
  bits <- for_each_bit w data ;;
  st <- ofold block_step bits (O, repeat false block_size, []) ;;
  Ok (rev (snd st)).

(* bitwise.h:147-164 sliding_bit_window.  State of the lambda: (c, v) and the values handed
   to the callback so far (in reverse order).  Shifting 1ull/0ull by c >= 64 is UB. *)
Definition window_step (window_size : Z) (st : Z * N * list N) (is_set : bool)
  : outcome (Z * N * list N) :=
  let '(c, v, out) := st in
  if (64 <=? c)%Z then UB
  else
    let v' := N.lor v (N.shiftl (if is_set then 1 else 0) (Z.to_N c)) in
    let c' := (c + 1)%Z in
    if (c' =? window_size)%Z then Ok (0%Z, 0, v' :: out) else Ok (c', v', out).
Definition sliding_bit_window (w : N) (data : list N) (window_size : Z) : outcome (list N) :=
  bits <- for_each_bit w data ;;
  st <- ofold (window_step window_size) bits (0%Z, 0, []) ;;
  Ok (rev (snd st)).

(* bitwise.h:166-179 bit_cast to an array of bytes (little endian; reversing makes the
   result independent of the endianness) and back; 181-187 byteswap. *)
Fixpoint to_bytes (n : nat) (v : N) : list N :=
  match n with
  | O => []
  | S k => v mod 256 :: to_bytes k (v / 256)
  end.
Fixpoint of_bytes (bs : list N) : N :=
  match bs with
  | [] => 0
  | b :: r => b + 256 * of_bytes r
  end.
Definition byteswap (w v : N) : N := of_bytes (rev (to_bytes (N.to_nat (w / 8)) v)).
