(* Property C111: the AES generators. *)
From Coq Require Import Lia.
From Verif Require Import Base BitwiseSpec StreamModel PrngModel PrngSpec PrngProofs AesModel AesProofs.
Open Scope N_scope.

(* aes_mix is a bijection of the 32-bit words. *)
Theorem C111_mix : word_bijection 32 aes_mix.
Proof. exact aes_mix_bij. Qed.
Print Assumptions C111_mix.
(* If two words differ in one byte only, their images differ in every byte. *)
Theorem C111_spread : forall x y r q, r < 4 -> q < 4 ->
  (forall p, p < 4 -> ((x / 2 ^ (8 * p)) mod 256 = (y / 2 ^ (8 * p)) mod 256 <-> p <> r)) ->
  (aes_mix x / 2 ^ (8 * q)) mod 256 <> (aes_mix y / 2 ^ (8 * q)) mod 256.
Proof.
  intros x y r q Hr Hq D.
  assert (B : forall p z, byte p z = (z / 2 ^ (8 * p)) mod 256) by (intros p z; unfold byte; change 255 with (N.ones 8); rewrite N.land_ones, N.shiftr_div_pow2; reflexivity).
  rewrite <- !B. apply (aes_mix_spread x y r q Hr Hq). intros p Hp. rewrite !B. exact (D p Hp).
Qed.
Print Assumptions C111_spread.
(* The outputs of rng32::aes repeat from the first on, whatever the seed. *)
Theorem C111_periodic : forall sd, exists p, 0 < p /\ p <= 2 ^ 32 /\ periodic p (output rng32_aes sd).
Proof. exact aes_periodic. Qed.
Print Assumptions C111_periodic.
(* A call of rng32::aes_128 loses nothing of the state of 128 bits. *)
Theorem C111_reversible : reversible (words4 32) aes_step /\ forall sd i, state_at rng32_aes_128 sd i = Nat.iter (N.to_nat i) aes_step (quad sd).
Proof. split; [exact aes_reversible|exact aes128_state]. Qed.
Print Assumptions C111_reversible.
Theorem C111_periodic_128 : forall sd, exists p, 0 < p /\ p <= 2 ^ 128 /\ periodic p (output rng32_aes_128 sd).
Proof. exact aes128_periodic. Qed.
Print Assumptions C111_periodic_128.
(* The first round of the example of FIPS-197, appendix B. *)
Example C111_instance : aesenc (0xbee33d19, 0x2be2f4a0, 0x2a8dc69a, 0x0848f8e9) (0x17fefaa0, 0xb12c5488, 0x3939a323, 0x05766c2a) =
  (0xf27f9ca4, 0x2b359f68, 0x43ea5b6b, 0x49506a02) /\
  words4 32 (0xbee33d19, 0x2be2f4a0, 0x2a8dc69a, 0x0848f8e9) /\
  (forall p, p < 4 -> ((7 / 2 ^ (8 * p)) mod 256 = (8 / 2 ^ (8 * p)) mod 256 <-> p <> 0)) /\ map (fun x => (aes_mix x / 256) mod 256) [7; 8] = [79; 186].
Proof.
  split; [vm_compute; reflexivity|]. split; [repeat split|]. split.
  - intros p Hp. assert (R : p = 0 \/ p = 1 \/ p = 2 \/ p = 3) by lia. destruct R as [R|[R|[R|R]]]; subst p; cbn; split; congruence.
  - vm_compute. reflexivity.
Qed.
