(* Model of impl/src/external/aes/aes.cpp and the generators of impl/src/prngs32.h:171-189 that use it.
   The instruction _mm_aesenc_si128 (AESENC) is modelled as FIPS-197 and the processor manuals define it: ShiftRows,
   SubBytes, MixColumns, then the key is added.  A 128-bit register is its four 32-bit lanes, lowest first; lane j is
   column j of the AES state, its lowest byte is row 0. *)
From Verif Require Import Base StreamModel PrngModel.
Open Scope N_scope.

Definition byte (r x : N) : N := N.land (N.shiftr x (8 * r)) 255.
Definition word4 (a b c d : N) : N := N.lxor a (N.lxor (N.shiftl b 8) (N.lxor (N.shiftl c 16) (N.shiftl d 24))).
(* multiplication by x in GF(2)[x]/(x^8+x^4+x^3+x+1) *)
Definition xtime (a : N) : N := N.lxor (N.land (N.shiftl a 1) 255) (if N.testbit a 7 then 27 else 0).
Fixpoint gf_mul_bits (n : nat) (a b : N) : N :=
  match n with O => 0 | S n => N.lxor (if N.testbit b 0 then a else 0) (gf_mul_bits n (xtime a) (N.div2 b)) end.
Definition gf_mul (a b : N) : N := gf_mul_bits 8 a b.
(* the inverse, 0 for 0: a^254 = a^2 a^4 ... a^128 *)
Fixpoint gf_inv_loop (n : nat) (t r : N) : N := match n with O => r | S n => let t := gf_mul t t in gf_inv_loop n t (gf_mul r t) end.
Definition gf_inv (a : N) : N := gf_inv_loop 7 a 1.
Definition rol8 (a k : N) : N := N.land (N.lor (N.shiftl a k) (N.shiftr a (8 - k))) 255.
(* SubBytes: inverse, then the affine map *)
Definition sub_byte (a : N) : N :=
  let b := gf_inv a in N.lxor b (N.lxor (rol8 b 1) (N.lxor (rol8 b 2) (N.lxor (rol8 b 3) (N.lxor (rol8 b 4) 99)))).
(* MixColumns of one column: rows 2311, 1231, 1123, 3112 *)
Definition mix_row (a b c d : N) : N := N.lxor (xtime a) (N.lxor (N.lxor (xtime b) b) (N.lxor c d)).
Definition mix_column (x : N) : N :=
  let a := byte 0 x in let b := byte 1 x in let c := byte 2 x in let d := byte 3 x in
  word4 (mix_row a b c d) (mix_row b c d a) (mix_row c d a b) (mix_row d a b c).
(* ShiftRows moves row r by r columns, so column j gets its bytes from the columns j, j+1, j+2, j+3 *)
Definition shift_sub (a b c d : N) : N := word4 (sub_byte (byte 0 a)) (sub_byte (byte 1 b)) (sub_byte (byte 2 c)) (sub_byte (byte 3 d)).
Definition aesenc (s k : N * N * N * N) : N * N * N * N :=
  let '(a, b, c, d) := s in let '(k0, k1, k2, k3) := k in
  (N.lxor (mix_column (shift_sub a b c d)) k0, N.lxor (mix_column (shift_sub b c d a)) k1,
   N.lxor (mix_column (shift_sub c d a b)) k2, N.lxor (mix_column (shift_sub d a b c)) k3).
(* _mm_add_epi64: two 64-bit lanes *)
Definition add64 (a b k : N) : N * N := let x := wrap 64 (a + 2 ^ 32 * b + k) in (wrap 32 x, N.shiftr x 32).
Definition add_epi64 (s : N * N * N * N) (lo hi : N) : N * N * N * N :=
  let '(a, b, c, d) := s in let '(a', b') := add64 a b lo in let '(c', d') := add64 c d hi in (a', b', c', d').

(* aes.cpp:8-15 aes_mix *)
Definition aes_key : N := 2471660141.
Definition aes_mix (x : N) : N := let '(r, _, _, _) := aesenc (x, x, x, x) (aes_key, aes_key, aes_key, aes_key) in r.
(* aes.cpp:17-27 aes_prng128: the new state; the result is its lowest lane *)
Definition aes_inc_lo : N := 0x110D0B0705030201.
Definition aes_inc_hi : N := 0x2f2b29251f1d1713.
Definition aes_inc : N * N * N * N := (0x05030201, 0x110D0B07, 0x1f1d1713, 0x2f2b2925).
Definition aes_step (s : N * N * N * N) : N * N * N * N := aesenc (add_epi64 s aes_inc_lo aes_inc_hi) aes_inc.
(* prngs32.h:171-180 aes, 182-189 aes_128 *)
Definition rng32_aes : gen := mkgen N (fun sd => s32 sd 0) (fun x => let x' := aes_mix x in (x', x')).
Definition rng32_aes_128 : gen :=
  mkgen (N * N * N * N) quad (fun s => let s' := aes_step s in ((let '(a, _, _, _) := s' in a), s')).
