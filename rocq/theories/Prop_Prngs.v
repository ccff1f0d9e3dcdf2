(* Properties C11, C18-C21, C64: pseudo random generators. *)
From Verif Require Import Base BitwiseModel BitwiseSpec StreamModel StreamSpec StreamProofs MixerModel PrngModel PrngSpec PrngProofs Period128Use WordLemmas PeriodProofs.
Open Scope N_scope.

(* Every modelled generator is a stream delivering [output]. *)
Theorem C11_generators_are_streams : forall g sd,
  delivers (stream_of_gen g sd) (fun i => output g sd (N.of_nat i)).
Proof. exact stream_of_gen_delivers. Qed.
Print Assumptions C11_generators_are_streams.

(* ---- C11 ---- *)
Theorem C11_any_counter_generator_full_period : forall w inc init mix sd,
  N.odd inc = true -> word_bijection w mix ->
  periodic (2 ^ w) (output (counter_gen w inc init mix) sd) /\
  equidistributed w (2 ^ w) 1 (output (counter_gen w inc init mix) sd).
Proof. exact counter_gen_full. Qed.
Print Assumptions C11_any_counter_generator_full_period.

Theorem C11_counter_generators_64 : forall g sd,
  In g [rng64_mx1; rng64_mx2; rng64_mx3; rng64_splitmix] ->
  periodic (2 ^ 64) (output g sd) /\ equidistributed 64 (2 ^ 64) 1 (output g sd).
Proof. exact counters64. Qed.
Print Assumptions C11_counter_generators_64.

Theorem C11_counter_generators_32 : forall g sd,
  In g [rng32_mx1; rng32_mx2; rng32_mx3] ->
  periodic (2 ^ 32) (output g sd) /\ equidistributed 32 (2 ^ 32) 1 (output g sd).
Proof. exact counters32. Qed.
Print Assumptions C11_counter_generators_32.

Theorem C11_truncations_32 : forall g sd,
  In g [rng32_mx1_64; rng32_mx2_64; rng32_mx3_64; rng32_splitmix_64] ->
  periodic (2 ^ 64) (output g sd) /\ equidistributed 32 (2 ^ 64) (2 ^ 32) (output g sd).
Proof. exact counters32_64. Qed.
Print Assumptions C11_truncations_32.

Theorem C11_truncation_16 : forall sd, periodic (2 ^ 64) (output rng16_splitmix_64 sd) /\
  equidistributed 16 (2 ^ 64) (2 ^ 48) (output rng16_splitmix_64 sd).
Proof. exact splitmix_16. Qed.
Print Assumptions C11_truncation_16.

Theorem C11_truncation_8 : forall sd, periodic (2 ^ 64) (output rng8_splitmix_64 sd) /\
  equidistributed 8 (2 ^ 64) (2 ^ 56) (output rng8_splitmix_64 sd).
Proof. exact splitmix_8. Qed.
Print Assumptions C11_truncation_8.

(* splitmix64 with seed 0 starts with 0xe220a8397b1dcdaf, 0x6e789e6aa1b965f4 *)
Example C11_instance : output rng64_splitmix (fun _ => 0) 0 = 0xe220a8397b1dcdaf
  /\ output rng64_splitmix (fun _ => 0) 1 = 0x6e789e6aa1b965f4
  /\ output rng8_splitmix_64 (fun _ => 0) 0 = 0xe2.
Proof. vm_compute. repeat split; reflexivity. Qed.

(* ---- C18 ---- *)
Theorem C18_pcg_state_full_period : forall out sd,
  periodic (2 ^ 64) (state_at (pcg_gen out) sd) /\
  equidistributed 64 (2 ^ 64) 1 (state_at (pcg_gen out) sd).
Proof. exact pcg_state_full. Qed.
Print Assumptions C18_pcg_state_full_period.

Theorem C18_pcg64_every_value_once : forall sd,
  periodic (2 ^ 64) (output rng64_pcg sd) /\ equidistributed 64 (2 ^ 64) 1 (output rng64_pcg sd).
Proof. exact pcg64_full. Qed.
Print Assumptions C18_pcg64_every_value_once.

Theorem C18_pcg32_equidistributed : forall sd,
  periodic (2 ^ 64) (output rng32_pcg_64 sd) /\ equidistributed 32 (2 ^ 64) (2 ^ 32) (output rng32_pcg_64 sd).
Proof. exact pcg32_full. Qed.
Print Assumptions C18_pcg32_equidistributed.

Theorem C18_pcg16_equidistributed : forall sd,
  periodic (2 ^ 64) (output rng16_pcg_64 sd) /\ equidistributed 16 (2 ^ 64) (2 ^ 48) (output rng16_pcg_64 sd).
Proof. exact pcg16_full. Qed.
Print Assumptions C18_pcg16_equidistributed.

Theorem C18_pcg8_equidistributed : forall sd,
  periodic (2 ^ 64) (output rng8_pcg_64 sd) /\ equidistributed 8 (2 ^ 64) (2 ^ 56) (output rng8_pcg_64 sd).
Proof. exact pcg8_full. Qed.
Print Assumptions C18_pcg8_equidistributed.

Example C18_instance : output rng32_pcg_64 (fun _ => 42) 0 <> output rng32_pcg_64 (fun _ => 42) 1
  /\ state_at rng64_pcg (fun _ => 0) 0 <> state_at rng64_pcg (fun _ => 0) 1.
Proof. vm_compute. split; discriminate. Qed.

(* ---- C19 ---- *)
(* the three instantiations used: (width, p, q, r) *)
Theorem C19_sfc_reversible : forall w p q r,
  In (w, p, q, r) [(64, 24, 11, 3); (32, 21, 9, 3); (16, 6, 5, 3)] ->
  reversible (words4 w) (fun s => snd (sfc_next w p q r s)).
Proof. exact sfc_all_reversible. Qed.
Print Assumptions C19_sfc_reversible.

Theorem C19_sfc64_period : forall sd, valid_seed sd ->
  (forall i j, i <= j -> state_at rng64_sfc_256 sd i = state_at rng64_sfc_256 sd j -> (j - i) mod 2 ^ 64 = 0) /\
  (exists k, 0 < k /\ forall i, state_at rng64_sfc_256 sd (i + k * 2 ^ 64) = state_at rng64_sfc_256 sd i).
Proof. exact sfc64_period. Qed.
Print Assumptions C19_sfc64_period.

Theorem C19_sfc32_period : forall sd, valid_seed sd ->
  (forall i j, i <= j -> state_at rng32_sfc_128 sd i = state_at rng32_sfc_128 sd j -> (j - i) mod 2 ^ 32 = 0) /\
  (exists k, 0 < k /\ forall i, state_at rng32_sfc_128 sd (i + k * 2 ^ 32) = state_at rng32_sfc_128 sd i).
Proof. exact sfc32_period. Qed.
Print Assumptions C19_sfc32_period.

Theorem C19_sfc16_period : forall sd, valid_seed sd ->
  (forall i j, i <= j -> state_at rng16_sfc_64 sd i = state_at rng16_sfc_64 sd j -> (j - i) mod 2 ^ 16 = 0) /\
  (exists k, 0 < k /\ forall i, state_at rng16_sfc_64 sd (i + k * 2 ^ 16) = state_at rng16_sfc_64 sd i).
Proof. exact sfc16_period. Qed.
Print Assumptions C19_sfc16_period.

Example C19_instance : valid_seed (fun _ => 7) /\ output rng16_sfc_64 (fun _ => 7) 0 <> output rng16_sfc_64 (fun _ => 7) 1.
Proof. split; [intro; reflexivity|]. vm_compute. discriminate. Qed.

(* ---- C20 ---- *)
Theorem C20_xorshift_invertible_and_linear :
  (word_bijection 32 xorshift32_step /\ forall x y, xorshift32_step (N.lxor x y) = N.lxor (xorshift32_step x) (xorshift32_step y)) /\
  (word_bijection 64 xorshift64_step /\ forall x y, xorshift64_step (N.lxor x y) = N.lxor (xorshift64_step x) (xorshift64_step y)).
Proof. exact xorshift_bij_lin. Qed.
Print Assumptions C20_xorshift_invertible_and_linear.

Theorem C20_xorshift64_maximal_period : forall sd, valid_seed sd -> s64 sd 0 <> 0 ->
  (forall i, output rng64_xorshift sd i <> 0) /\ periodic (2 ^ 64 - 1) (output rng64_xorshift sd) /\
  (forall v, is_word 64 v -> v <> 0 -> exists! i, i < 2 ^ 64 - 1 /\ output rng64_xorshift sd i = v).
Proof. exact xorshift64_gen_valid. Qed.
Print Assumptions C20_xorshift64_maximal_period.

Theorem C20_xorshift32_maximal_period : forall sd, s32 sd 0 <> 0 ->
  (forall i, output rng32_xorshift sd i <> 0) /\ periodic (2 ^ 32 - 1) (output rng32_xorshift sd) /\
  (forall v, is_word 32 v -> v <> 0 -> exists! i, i < 2 ^ 32 - 1 /\ output rng32_xorshift sd i = v).
Proof. exact xorshift32_gen. Qed.
Print Assumptions C20_xorshift32_maximal_period.

(* Finding: the 32-bit generator only uses the low half of the seed; a non-zero 64-bit seed with a
   zero low half makes it return 0 for ever. *)
Theorem C20_nonzero_seed_suffices_refuted : exists sd, valid_seed sd /\ s64 sd 0 <> 0 /\
  forall i, output rng32_xorshift sd i = 0.
Proof. exact xorshift32_stuck. Qed.
Print Assumptions C20_nonzero_seed_suffices_refuted.

Example C20_instance : output rng32_xorshift (fun _ => 1) 0 = 270369 /\ output rng32_xorshift (fun _ => 1) 1 = 67634689
  /\ valid_seed (fun _ => 1).
Proof. split; [vm_compute; reflexivity|]. split; [vm_compute; reflexivity|]. intro; reflexivity. Qed.

(* ---- C21 ---- *)
Theorem C21_xorshift128_reversible : reversible (words2 64) xorshift128_step.
Proof. exact xorshift128_reversible. Qed.
Print Assumptions C21_xorshift128_reversible.

Theorem C21_xoroshiro128_reversible : reversible (words2 64) xoroshiro128_step.
Proof. exact xoroshiro128_reversible. Qed.
Print Assumptions C21_xoroshiro128_reversible.

Theorem C21_xoshiro128_reversible : reversible (words4 32) xoshiro128_step.
Proof. exact xoshiro128_reversible. Qed.
Print Assumptions C21_xoshiro128_reversible.

(* A non-zero state never becomes zero, and every state recurs (in at most 2^128 calls). *)
Theorem C21_xorshift128plus : forall sd, valid_seed sd ->
  ((s64 sd 0, s64 sd 1) <> (0, 0) -> forall i, state_at rng64_xorshift128plus sd i <> (0, 0)) /\
  exists p, 0 < p /\ p <= 2 ^ 128 /\ forall i, state_at rng64_xorshift128plus sd (i + p) = state_at rng64_xorshift128plus sd i.
Proof. exact xorshift128plus_orbit. Qed.
Print Assumptions C21_xorshift128plus.

Theorem C21_xoroshiro128plus : forall sd, valid_seed sd ->
  ((s64 sd 0, s64 sd 1) <> (0, 0) -> forall i, state_at rng64_xoroshiro128plus sd i <> (0, 0)) /\
  exists p, 0 < p /\ p <= 2 ^ 128 /\ forall i, state_at rng64_xoroshiro128plus sd (i + p) = state_at rng64_xoroshiro128plus sd i.
Proof. exact xoroshiro128plus_orbit. Qed.
Print Assumptions C21_xoroshiro128plus.

Theorem C21_xoshiro128plus : forall sd,
  ((s32 sd 0, s32 sd 1, s32 sd 2, s32 sd 3) <> (0, 0, 0, 0) -> forall i, state_at rng32_xoshiro128plus sd i <> (0, 0, 0, 0)) /\
  exists p, 0 < p /\ p <= 2 ^ 128 /\ forall i, state_at rng32_xoshiro128plus sd (i + p) = state_at rng32_xoshiro128plus sd i.
Proof. exact xoshiro128plus_orbit. Qed.
Print Assumptions C21_xoshiro128plus.

Theorem C21_xoshiro128plusplus : forall sd,
  ((s32 sd 0, s32 sd 1, s32 sd 2, s32 sd 3) <> (0, 0, 0, 0) -> forall i, state_at rng32_xoshiro128plusplus sd i <> (0, 0, 0, 0)) /\
  exists p, 0 < p /\ p <= 2 ^ 128 /\ forall i, state_at rng32_xoshiro128plusplus sd (i + p) = state_at rng32_xoshiro128plusplus sd i.
Proof. exact xoshiro128plusplus_orbit. Qed.
Print Assumptions C21_xoshiro128plusplus.

Example C21_instance : (s64 (fun _ => 7) 0, s64 (fun _ => 7) 1) <> (0, 0)
  /\ state_at rng64_xoroshiro128plus (fun _ => 7) 0 <> state_at rng64_xoroshiro128plus (fun _ => 7) 1
  /\ output rng32_xoshiro128plus (fun i => N.of_nat i) 0 = 3.
Proof. vm_compute. repeat split; discriminate. Qed.

(* ---- C64 ---- *)
Theorem C64_mixer_prng_purely_periodic : forall w mix init sd,
  word_bijection w mix -> is_word w (init sd) ->
  exists p, 0 < p /\ p <= 2 ^ w /\ periodic p (output (mixer_gen mix init) sd).
Proof. exact mixer_gen_cycles. Qed.
Print Assumptions C64_mixer_prng_purely_periodic.

(* For the stream itself: it returns mix seed, mix (mix seed), ..., and comes round to the seed. *)
Theorem C64_stream_cycles : forall w mix seed, word_bijection w mix -> is_word w seed ->
  exists p, (0 < p)%nat /\ N.of_nat p <= 2 ^ w /\ delivers (prng_from_mixer mix seed) (fun i => Nat.iter (S i) mix seed) /\
    Nat.iter p mix seed = seed /\ (forall i, Nat.iter (S (i + p)) mix seed = Nat.iter (S i) mix seed) /\
    forall i j, (i < j < p)%nat -> Nat.iter i mix seed <> Nat.iter j mix seed.
Proof.
  intros w mix seed B Hs. pose proof B as (Hw & Hi & _).
  assert (Q : exists p, (0 < p)%nat /\ Nat.iter p mix seed = seed /\ forall q, (0 < q < p)%nat -> Nat.iter q mix seed <> seed).
  { destruct (orbit_cycles (is_word w) mix Hw Hi (fun x => x) (2 ^ w) ltac:(auto) ltac:(auto) seed Hs) as (p & Hp & _ & E). clear - Hp E. revert Hp E. induction p as [p IH] using lt_wf_ind. intros Hp E.
    destruct (existsb (fun q => Nat.iter q mix seed =? seed) (seq 1 (p - 1))) eqn:X.
    - apply existsb_exists in X. destruct X as (q & Iq & Eq). apply in_seq in Iq. apply N.eqb_eq in Eq. apply (IH q); [lia|lia|exact Eq].
    - exists p. split; [exact Hp|]. split; [exact E|]. intros q Hq Eq. assert (Y : existsb (fun q => Nat.iter q mix seed =? seed) (seq 1 (p - 1)) = true); [|congruence].
      apply existsb_exists. exists q. split; [apply in_seq; lia|]. apply N.eqb_eq, Eq. }
  destruct Q as (p & Hp & E & M).
  assert (D : forall i j, (i < j < p)%nat -> Nat.iter i mix seed <> Nat.iter j mix seed).
  { intros i j Hij C. replace j with (i + (j - i))%nat in C by lia. rewrite iter_add in C. apply (iter_inj (is_word w) mix Hw Hi i) in C; [|exact Hs|].
    - apply (M (j - i)%nat); [lia|symmetry; exact C].
    - clear - Hw Hs. induction (j - i)%nat as [|k IH]; [exact Hs|apply Hw, IH]. }
  exists p. split; [exact Hp|]. split.
  { assert (IN : incl (map (fun i => Nat.iter i mix seed) (seq 0 p)) (map N.of_nat (seq 0 (N.to_nat (2 ^ w))))).
    { intros v Hv. apply in_map_iff in Hv. destruct Hv as (i & <- & _). assert (Wi : is_word w (Nat.iter i mix seed)) by (clear - Hw Hs; induction i as [|k IH]; [exact Hs|apply Hw, IH]).
      apply in_map_iff. exists (N.to_nat (Nat.iter i mix seed)). split; [apply N2Nat.id|]. apply in_seq. unfold is_word in Wi. lia. }
    assert (ND : NoDup (map (fun i => Nat.iter i mix seed) (seq 0 p))).
    { apply NoDup_nth_error. intros i j Hl C. rewrite map_length, seq_length in Hl. assert (J : (j < p)%nat). { assert (X : nth_error (map (fun i => Nat.iter i mix seed) (seq 0 p)) j <> None) by (rewrite <- C; apply nth_error_Some; rewrite map_length, seq_length; exact Hl). apply nth_error_Some in X. rewrite map_length, seq_length in X. exact X. }
      rewrite !nth_error_map, !(nth_error_nth' (seq 0 p) 0%nat) in C by (rewrite seq_length; assumption). cbn [option_map] in C. injection C as C. rewrite !seq_nth in C by assumption. cbn [Nat.add] in C.
      destruct (Nat.lt_trichotomy i j) as [T|[T|T]]; [exfalso; apply (D i j); [lia|exact C]|exact T|exfalso; apply (D j i); [lia|symmetry; exact C]]. }
    pose proof (NoDup_incl_length ND IN) as L. rewrite !map_length, !seq_length in L. lia. }
  split; [apply prng_from_mixer_delivers|]. split; [exact E|]. split; [|exact D]. intro i. change (S (i + p)) with (S i + p)%nat. rewrite iter_add, E. reflexivity.
Qed.
Print Assumptions C64_stream_cycles.

Example C64_instance : word_bijection 64 mix64_mx3 /\ is_word 64 (s64 (fun _ => 7) 0).
Proof. split; [apply mx64_3|reflexivity]. Qed.

(* ---- C69 ---- *)

Theorem C69_xorshift128plus : forall sd, valid_seed sd -> (s64 sd 0, s64 sd 1) <> (0, 0) ->
  one_cycle (2 ^ 128 - 1) (words2 64) (0, 0) (state_at rng64_xorshift128plus sd) /\
  (forall v, is_word 64 v -> occurs (2 ^ 128 - 1) (if v =? 0 then 2 ^ 64 - 1 else 2 ^ 64) (output rng64_xorshift128plus sd) v) /\
  least_period (2 ^ 128 - 1) (output rng64_xorshift128plus sd).
Proof. exact xorshift128plus_max. Qed.
Print Assumptions C69_xorshift128plus.

Theorem C69_xoroshiro128plus : forall sd, valid_seed sd -> (s64 sd 0, s64 sd 1) <> (0, 0) ->
  one_cycle (2 ^ 128 - 1) (words2 64) (0, 0) (state_at rng64_xoroshiro128plus sd) /\
  (forall v, is_word 64 v -> occurs (2 ^ 128 - 1) (if v =? 0 then 2 ^ 64 - 1 else 2 ^ 64) (output rng64_xoroshiro128plus sd) v) /\
  least_period (2 ^ 128 - 1) (output rng64_xoroshiro128plus sd).
Proof. exact xoroshiro128plus_max. Qed.
Print Assumptions C69_xoroshiro128plus.

Theorem C69_xoshiro128plus : forall sd, (s32 sd 0, s32 sd 1, s32 sd 2, s32 sd 3) <> (0, 0, 0, 0) ->
  one_cycle (2 ^ 128 - 1) (words4 32) (0, 0, 0, 0) (state_at rng32_xoshiro128plus sd) /\
  (forall v, is_word 32 v -> occurs (2 ^ 128 - 1) (if v =? 0 then 2 ^ 96 - 1 else 2 ^ 96) (output rng32_xoshiro128plus sd) v) /\
  least_period (2 ^ 128 - 1) (output rng32_xoshiro128plus sd).
Proof. exact xoshiro128plus_max. Qed.
Print Assumptions C69_xoshiro128plus.

Theorem C69_xoshiro128plusplus : forall sd, (s32 sd 0, s32 sd 1, s32 sd 2, s32 sd 3) <> (0, 0, 0, 0) ->
  one_cycle (2 ^ 128 - 1) (words4 32) (0, 0, 0, 0) (state_at rng32_xoshiro128plusplus sd) /\
  (forall v, is_word 32 v -> occurs (2 ^ 128 - 1) (if v =? 0 then 2 ^ 96 - 1 else 2 ^ 96) (output rng32_xoshiro128plusplus sd) v) /\
  least_period (2 ^ 128 - 1) (output rng32_xoshiro128plusplus sd).
Proof. exact xoshiro128plusplus_max. Qed.
Print Assumptions C69_xoshiro128plusplus.

Example C69_instance : valid_seed (fun i => N.of_nat i mod 2) /\ (s64 (fun i => N.of_nat i mod 2) 0, s64 (fun i => N.of_nat i mod 2) 1) = (0, 1) /\
  (s32 (fun i => N.of_nat i) 0, s32 (fun i => N.of_nat i) 1, s32 (fun i => N.of_nat i) 2, s32 (fun i => N.of_nat i) 3) = (0, 1, 2, 3) /\
  state_at rng64_xorshift128plus (fun i => N.of_nat i mod 2) 2 = (1, 8388640) /\
  output rng32_xoshiro128plusplus (fun i => N.of_nat i) 1 = 524546.
Proof.
  split; [intro i; unfold is_word; apply (N.lt_trans _ 2); [apply N.mod_lt; discriminate|reflexivity]|]. vm_compute. repeat split; reflexivity.
Qed.
