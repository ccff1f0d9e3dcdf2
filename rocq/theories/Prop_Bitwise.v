(* Properties C01-C06: bit manipulation (core/src/util/bitwise.h). *)
From Verif Require Import Base BitwiseModel BitwiseSpec BitwiseProofs.
Open Scope N_scope.

(* ---- C01 ---- *)
Theorem C01_rol_moves_bits : forall w v r, 0 < w -> is_word w v ->
  moves_bits w (fun i => Z.to_N ((Z.of_N i - r) mod Z.of_N w)) v (rol w v r).
Proof. exact rol_moves. Qed.
Print Assumptions C01_rol_moves_bits.

Theorem C01_ror_moves_bits : forall w v r, 0 < w -> is_word w v ->
  moves_bits w (fun i => Z.to_N ((Z.of_N i + r) mod Z.of_N w)) v (ror w v r).
Proof. exact ror_moves. Qed.
Print Assumptions C01_ror_moves_bits.

Theorem C01_ror_undoes_rol : forall w v r, 0 < w -> is_word w v -> ror w (rol w v r) r = v.
Proof. exact ror_rol_id. Qed.
Print Assumptions C01_ror_undoes_rol.

Theorem C01_rol_undoes_ror : forall w v r, 0 < w -> is_word w v -> rol w (ror w v r) r = v.
Proof. exact rol_ror_id. Qed.
Print Assumptions C01_rol_undoes_ror.

Theorem C01_rotations_add : forall w v a b, 0 < w -> is_word w v ->
  rol w (rol w v a) b = rol w v (a + b).
Proof. exact rol_rol. Qed.
Print Assumptions C01_rotations_add.

Theorem C01_full_turns_are_identity : forall w v q, 0 < w -> rol w v (q * Z.of_N w) = v.
Proof. exact rol_width. Qed.
Print Assumptions C01_full_turns_are_identity.

Example C01_instance : is_word 8 0x96 /\ rol 8 0x96 3 = 0xb4 /\ ror 8 0x96 3 = 0xd2
  /\ rol 8 0x96 (-3) = 0xd2 /\ rol 64 1 63 = 2 ^ 63.
Proof. vm_compute. repeat split; reflexivity. Qed.

(* ---- C02 ---- *)
Theorem C02_reverse_bits_mirrors : forall w x, In w widths -> is_word w x ->
  moves_bits w (fun i => w - 1 - i) x (reverse_bits w x).
Proof. exact reverse_bits_moves. Qed.
Print Assumptions C02_reverse_bits_mirrors.

Theorem C02_reverse_bits_involutive : forall w x, In w widths -> is_word w x ->
  reverse_bits w (reverse_bits w x) = x.
Proof. exact reverse_bits_involutive. Qed.
Print Assumptions C02_reverse_bits_involutive.

Example C02_instance : In 64 widths /\ is_word 64 0x123456789abcdef0
  /\ reverse_bits 64 0x123456789abcdef0 = 0x0f7b3d591e6a2c48 /\ reverse_bits 16 0x0001 = 0x8000.
Proof. vm_compute. repeat split; try reflexivity. tauto. Qed.

(* ---- C03 ---- *)
Theorem C03_byteswap_mirrors_bytes : forall w x, In w widths -> is_word w x ->
  moves_bits w (byte_mirror w) x (byteswap w x).
Proof. exact byteswap_moves_w. Qed.
Print Assumptions C03_byteswap_mirrors_bytes.

Theorem C03_byteswap_involutive : forall w x, In w widths -> is_word w x ->
  byteswap w (byteswap w x) = x.
Proof. exact byteswap_involutive. Qed.
Print Assumptions C03_byteswap_involutive.

Theorem C03_byte_swap_is_byteswap : forall x, is_word 64 x -> byte_swap x = byteswap 64 x.
Proof. exact byte_swap_byteswap. Qed.
Print Assumptions C03_byte_swap_is_byteswap.

Example C03_instance : byteswap 32 0x12345678 = 0x78563412
  /\ byte_swap 0x0123456789abcdef = 0xefcdab8967452301.
Proof. vm_compute. repeat split; reflexivity. Qed.

(* ---- C04 ---- *)
Theorem C04_bit_width_least : forall w x, is_word w x ->
  x < 2 ^ bit_width w x /\ forall b, x < 2 ^ b -> bit_width w x <= b.
Proof. exact bit_width_least. Qed.
Print Assumptions C04_bit_width_least.

Theorem C04_bit_floor : forall w x, is_word w x -> x <> 0 ->
  exists p, bit_floor w x = Ok p /\ word_pow2 w p /\ p <= x /\
            forall q, word_pow2 w q -> q <= x -> q <= p.
Proof. exact bit_floor_spec. Qed.
Print Assumptions C04_bit_floor.

Theorem C04_bit_floor_zero : forall w, bit_floor w 0 = Ok 0.
Proof. exact bit_floor_0. Qed.
Print Assumptions C04_bit_floor_zero.

Theorem C04_bit_ceil : forall w x, 0 < w -> x <> 0 -> x <= 2 ^ (w - 1) ->
  exists p, bit_ceil w x = Ok p /\ word_pow2 w p /\ x <= p /\
            forall q, word_pow2 w q -> x <= q -> p <= q.
Proof. exact bit_ceil_spec. Qed.
Print Assumptions C04_bit_ceil.

(* Above the largest representable power of two: 0 for 8/16 bits, UB for 32/64 bits. *)
Theorem C04_bit_ceil_unrepresentable : forall w x, In w widths -> is_word w x -> 2 ^ (w - 1) < x ->
  bit_ceil w x = if w <? 32 then Ok 0 else UB.
Proof. exact bit_ceil_over. Qed.
Print Assumptions C04_bit_ceil_unrepresentable.

Example C04_instance : bit_floor 32 1000 = Ok 512 /\ bit_ceil 32 1000 = Ok 1024
  /\ bit_width 32 1000 = 10 /\ bit_ceil 16 0x8001 = Ok 0 /\ bit_ceil 64 (2 ^ 63 + 1) = UB.
Proof. vm_compute. repeat split; reflexivity. Qed.

(* ---- C05 ---- *)
Theorem C05_flip_bit : forall w v b, 0 < w <= 64 -> is_word w v -> b < w ->
  exists v', flip_bit w v (Z.of_N b) = Ok v' /\ is_word w v' /\
    (forall i, N.testbit v' i = if i =? b then negb (N.testbit v i) else N.testbit v i).
Proof. exact flip_bit_spec. Qed.
Print Assumptions C05_flip_bit.

Theorem C05_flip_bit_involutive : forall w v b v', 0 < w <= 64 -> is_word w v -> b < w ->
  flip_bit w v (Z.of_N b) = Ok v' -> flip_bit w v' (Z.of_N b) = Ok v.
Proof. exact flip_bit_involutive. Qed.
Print Assumptions C05_flip_bit_involutive.

Theorem C05_flip_bit_ub : forall w v b, (b < 0 \/ 64 <= b)%Z <-> flip_bit w v b = UB.
Proof. exact flip_bit_ub. Qed.
Print Assumptions C05_flip_bit_ub.

Theorem C05_is_bit_set : forall w v b, b < promoted w ->
  is_bit_set w v (Z.of_N b) = Ok (N.testbit v b).
Proof. exact is_bit_set_spec. Qed.
Print Assumptions C05_is_bit_set.

Theorem C05_is_bit_set_ub : forall w v b,
  (b < 0 \/ Z.of_N (promoted w) <= b)%Z <-> is_bit_set w v b = UB.
Proof. exact is_bit_set_ub. Qed.
Print Assumptions C05_is_bit_set_ub.

Theorem C05_bit_count : forall w x, is_word w x ->
  N.to_nat (bit_count x) = count_true (bits_lsb (N.to_nat w) x).
Proof. exact bit_count_spec. Qed.
Print Assumptions C05_bit_count.

Example C05_instance : flip_bit 8 0x96 7 = Ok 0x16 /\ is_bit_set 8 0x96 7 = Ok true
  /\ bit_count 0x96 = 4 /\ is_bit_set 8 0x96 32 = UB.
Proof. vm_compute. repeat split; reflexivity. Qed.

(* ---- C06 ---- *)
Theorem C06_for_each_bit : forall w data,
  for_each_bit w data = Ok (flat_map (bits_lsb (N.to_nat w)) data).
Proof. exact for_each_bit_ok. Qed.
Print Assumptions C06_for_each_bit.

Theorem C06_for_each_bit_block : forall w data n, (0 < n)%nat ->
  exists blocks, for_each_bit_block w data n = Ok blocks /\
    chopped n (flat_map (bits_lsb (N.to_nat w)) data) blocks.
Proof. exact for_each_bit_block_ok. Qed.
Print Assumptions C06_for_each_bit_block.

Theorem C06_for_each_bit_block_zero_is_ub : forall w data, 0 < w -> data <> [] ->
  for_each_bit_block w data 0 = UB.
Proof. exact for_each_bit_block_0. Qed.
Print Assumptions C06_for_each_bit_block_zero_is_ub.

Theorem C06_sliding_bit_window : forall w data n, (0 < n <= 64)%nat ->
  exists blocks, sliding_bit_window w data (Z.of_nat n) = Ok (map value_lsb blocks) /\
    chopped n (flat_map (bits_lsb (N.to_nat w)) data) blocks.
Proof. exact sliding_bit_window_ok. Qed.
Print Assumptions C06_sliding_bit_window.

(* Chopping determines the blocks. *)
Theorem C06_chopping_is_unique : forall (A : Type) n (l : list A) b1 b2,
  chopped n l b1 -> chopped n l b2 -> b1 = b2.
Proof. exact @chopped_unique. Qed.
Print Assumptions C06_chopping_is_unique.

Example C06_instance :
  sliding_bit_window 8 [0x96; 0x0f] 6 = Ok [0x16; 0x3e] /\
  for_each_bit_block 8 [0x05] 3 = Ok [[true; false; true]; [false; false; false]].
Proof. vm_compute. repeat split; reflexivity. Qed.
