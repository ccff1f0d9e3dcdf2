(* Model of core/src/prng.h, impl/src/prngs64.h, prngs32.h, prngs16.h, prngs8.h and the parts of
   impl/src/external/pcg/pcg_random.hpp and impl/src/external/sfc/sfc64.h they instantiate.
   std::mt19937 and std::minstd_rand are modelled in EngineModel.  Not modelled: rdrand (hardware; not
   in the get_prngs lists). *)
From Coq Require Import String.
From Verif Require Import Base BitwiseModel StreamModel MixerModel.
Open Scope N_scope.

(* prng.h:7-20 seed_data: data[0..3], 64-bit words *)
Definition seed_data : Type := nat -> N.
Definition s64 (sd : seed_data) (i : nat) : N := sd i.
Definition s32 (sd : seed_data) (i : nat) : N := wrap 32 (sd i).
Definition s16 (sd : seed_data) (i : nat) : N := wrap 16 (sd i).

(* A prng factory: captured state from the seed, and the mutable lambda's step. *)
Record gen : Type := mkgen {
  gst : Type;
  ginit : seed_data -> gst;
  gnext : gst -> N * gst
}.

(* prng<T> is stream<T> (prng.h:22): a stream capturing the state by value. *)
Definition stream_of_gen (g : gen) (sd : seed_data) : stream N :=
  mkstream (gst g) (ginit g sd) (fun s w => let '(v, s') := gnext g s in Ok (v, s', w)).

(* ---------- counter based generators: state += inc; return mixer(state) ---------- *)
Definition counter_gen (w inc : N) (init : seed_data -> N) (mix : N -> N) : gen :=
  mkgen N init (fun s => let s' := wrap w (s + inc) in (mix s', s')).

(* prngs64.h:13-20, 22-29, 31-38 *)
Definition rng64_mx1 := counter_gen 64 0xe9846af9b1a615d (fun sd => s64 sd 0) mix64_mx1.
Definition rng64_mx2 := counter_gen 64 0x7574708ca19c768b (fun sd => s64 sd 0) mix64_mx2.
Definition rng64_mx3 := counter_gen 64 0xbea225f9eb34556d (fun sd => s64 sd 0) mix64_mx3.
(* prngs64.h:40-54; the inlined mixer is xorshift-multiply with shifts 30, 27, 31 *)
Definition rng64_splitmix := counter_gen 64 0x9E3779B97F4A7C15 (fun sd => s64 sd 0)
  (fun x => let x := xshr 30 x in let x := mulw 64 0xBF58476D1CE4E5B9 x in
            let x := xshr 27 x in let x := mulw 64 0x94D049BB133111EB x in xshr 31 x).
(* prngs32.h:22-29, 31-38, 40-47 *)
Definition rng32_mx1 := counter_gen 32 2471660141 (fun sd => s32 sd 0) mix32_mx1.
Definition rng32_mx2 := counter_gen 32 1159349557 (fun sd => s32 sd 0) mix32_mx2.
Definition rng32_mx3 := counter_gen 32 1159349557 (fun sd => s32 sd 0) mix32_mx3.

(* a generator returning static_cast<uintw_t>(rng() >> shift) of another generator *)
Definition truncated_gen (w shift : N) (g : gen) : gen :=
  mkgen (gst g) (ginit g) (fun s => let '(v, s') := gnext g s in (wrap w (N.shiftr v shift), s')).

(* prngs32.h:49-79 *)
Definition rng32_mx1_64 := truncated_gen 32 0 rng64_mx1.
Definition rng32_mx2_64 := truncated_gen 32 0 rng64_mx2.
Definition rng32_mx3_64 := truncated_gen 32 0 rng64_mx3.
Definition rng32_splitmix_64 := truncated_gen 32 0 rng64_splitmix.
(* prngs16.h:8-14, prngs8.h:8-14 *)
Definition rng16_splitmix_64 := truncated_gen 16 48 rng64_splitmix.
Definition rng8_splitmix_64 := truncated_gen 8 56 rng64_splitmix.

(* ---------- pcg ---------- *)
(* pcg_random.hpp:146-147 default multiplier and increment for uint64_t (set 295 by specific_stream) *)
Definition pcg_mult : N := 6364136223846793005.
Definition pcg_inc : N := 1442695040888963407.
(* pcg_random.hpp:387-390 bump *)
Definition pcg_bump (s : N) : N := wrap 64 (s * pcg_mult + pcg_inc).
(* pcg_random.hpp:458-463 constructor (not an mcg), 397-411 operator() with output_previous = true *)
Definition pcg_gen (output : N -> N) : gen :=
  mkgen N (fun sd => pcg_bump (wrap 64 (s64 sd 0 + pcg_inc))) (fun s => (output s, pcg_bump s)).
(* pcg_random.hpp:895-914 rxs_m_xs_mixin<uint64_t,uint64_t>::output: opbits 5, mask 31, shift 0,
   last xor-shift (2*64+2)/3 = 43 *)
Definition pcg_rxs_m_xs_64 (x : N) : N :=
  let rshift := N.land (N.shiftr x (64 - 5)) 31 in
  let x := N.lxor x (N.shiftr x (5 + rshift)) in
  let x := mulw 64 12605985483714917081 x in
  N.lxor x (N.shiftr x 43).
(* pcg_random.hpp:794-823 xsh_rr_mixin<uint32_t,uint64_t>::output: sparebits 32, opbits 5,
   amplifier 0, bottomspare 27, xshift (5+32)/2 = 18; rotr is a 32-bit rotation *)
Definition pcg_xsh_rr_64_32 (x : N) : N :=
  let rot := N.land (N.shiftr x (64 - 5)) 31 in
  let x := N.lxor x (N.shiftr x 18) in
  let result := wrap 32 (N.shiftr x 27) in
  ror 32 result (Z.of_N rot).
(* prngs64.h:56-63 (pcg64_once_insecure = setseq_rxs_m_xs_64_64), prngs32.h:81-87 (pcg32) *)
Definition rng64_pcg := pcg_gen pcg_rxs_m_xs_64.
Definition rng32_pcg_64 := pcg_gen pcg_xsh_rr_64_32.
(* prngs16.h:16-22, prngs8.h:16-22 *)
Definition rng16_pcg_64 := truncated_gen 16 0 rng64_pcg.
Definition rng8_pcg_64 := truncated_gen 8 0 rng64_pcg.

(* ---------- xorshift ---------- *)
(* 'x ^= x << k' *)
Definition xshl (w k x : N) : N := N.lxor x (wrap w (N.shiftl x k)).
(* prngs64.h:65-74 *)
Definition xorshift64_step (x : N) : N :=
  let x := xshl 64 13 x in let x := xshr 7 x in xshl 64 17 x.
Definition rng64_xorshift : gen :=
  mkgen N (fun sd => s64 sd 0) (fun x => let x' := xorshift64_step x in (x', x')).
(* prngs32.h:127-137 *)
Definition xorshift32_step (x : N) : N :=
  let x := xshl 32 13 x in let x := xshr 17 x in xshl 32 5 x.
Definition rng32_xorshift : gen :=
  mkgen N (fun sd => s32 sd 0) (fun x => let x' := xorshift32_step x in (x', x')).
(* prngs32.h:139-145 *)
Definition rng32_xorshift_64 := truncated_gen 32 32 rng64_xorshift.

(* prngs64.h:76-89 xorshift128+: state (s[0], s[1]) *)
Definition xorshift128_step (s : N * N) : N * N :=
  let s1 := fst s in
  let s0 := snd s in
  let s1 := xshl 64 23 s1 in
  (s0, N.lxor (N.lxor (N.lxor s1 s0) (N.shiftr s1 18)) (N.shiftr s0 5)).
Definition rng64_xorshift128plus : gen :=
  mkgen (N * N) (fun sd => (s64 sd 0, s64 sd 1))
    (fun s => (wrap 64 (snd s + fst s), xorshift128_step s)).

(* prngs64.h:91-105 xoroshiro128+ *)
Definition xoroshiro128_step (s : N * N) : N * N :=
  let s0 := fst s in
  let s1 := N.lxor (snd s) s0 in
  (N.lxor (N.lxor (rol 64 s0 55) s1) (wrap 64 (N.shiftl s1 14)), rol 64 s1 36).
Definition rng64_xoroshiro128plus : gen :=
  mkgen (N * N) (fun sd => (s64 sd 0, s64 sd 1))
    (fun s => (wrap 64 (fst s + snd s), xoroshiro128_step s)).

(* prngs32.h:89-104 and 106-125: the common state update of xoshiro128+ and xoshiro128++ *)
Definition xoshiro128_step (s : N * N * N * N) : N * N * N * N :=
  let '(a, b, c, d) := s in
  let t := wrap 32 (N.shiftl b 9) in
  let c := N.lxor c a in
  let d := N.lxor d b in
  let b := N.lxor b c in
  let a := N.lxor a d in
  let c := N.lxor c t in
  let d := rol 32 d 11 in
  (a, b, c, d).
Definition quad (sd : seed_data) : N * N * N * N := (s32 sd 0, s32 sd 1, s32 sd 2, s32 sd 3).
Definition rng32_xoshiro128plus : gen :=
  mkgen (N * N * N * N) quad
    (fun s => let '(a, _, _, d) := s in (wrap 32 (a + d), xoshiro128_step s)).
Definition rng32_xoshiro128plusplus : gen :=
  mkgen (N * N * N * N) quad
    (fun s => let '(a, _, _, d) := s in
              (wrap 32 (rol 32 (wrap 32 (a + d)) 7 + a), xoshiro128_step s)).

(* ---------- sfc ---------- *)
(* sfc64.h:48-51 rotate *)
Definition sfc_rotate (w x k : N) : N := wrap w (N.lor (N.shiftl x k) (N.shiftr x (w - k))).
(* sfc64.h:77-84 operator(); narrow operands are computed as int (no overflow possible) and
   converted back *)
Definition sfc_next (w p q r : N) (s : N * N * N * N) : N * (N * N * N * N) :=
  let '(a, b, c, d) := s in
  let tmp := wrap w (a + b + d) in
  (tmp, (N.lxor b (N.shiftr b q), wrap w (c + N.shiftl c r), wrap w (sfc_rotate w c p + tmp), wrap w (d + 1))).
(* sfc64.h:60-71 constructors: a = b = c = seed, d = 1, 12 warm-up calls *)
Definition sfc_gen (w p q r : N) (seed : seed_data -> N) : gen :=
  mkgen (N * N * N * N)
    (fun sd => Nat.iter 12 (fun s => snd (sfc_next w p q r s)) (seed sd, seed sd, seed sd, 1))
    (sfc_next w p q r).
(* prngs64.h:107-113 (sfc64a 24,11,3), prngs32.h:190-196 (sfc32a 21,9,3), prngs16.h:24-30 (sfc16d 6,5,3) *)
Definition rng64_sfc_256 := sfc_gen 64 24 11 3 (fun sd => s64 sd 0).
Definition rng32_sfc_128 := sfc_gen 32 21 9 3 (fun sd => s32 sd 0).
Definition rng16_sfc_64 := sfc_gen 16 6 5 3 (fun sd => s16 sd 0).

(* prng.h:28-36 create_prng_from_mixer: return state = mixer(state) *)
Definition mixer_gen (mix : N -> N) (init : seed_data -> N) : gen :=
  mkgen N init (fun s => let s' := mix s in (s', s')).
