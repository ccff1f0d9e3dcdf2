(* What it means that a test raises an alarm, and the defects the tests are shown to detect. *)
From Coq Require Import String Reals.
From Flocq Require Import Core BinarySingleNaN.
From Verif Require Import Base BitwiseSpec FloatModel ResultModel ResultSpec LfsrSpec EvaluateModel CommandModel StreamModel StreamSpec PrngModel TestsModel TestsSpec BatterySpec DistModel DistSpec.
Open Scope R_scope.

(* The C library, as far as the tests and the chi-square distribution need it. *)
Definition good_lib (M : mathlib) (exp : double -> double) : Prop := good_math M /\ good_dist (m_log M) exp (m_erfc M) /\ accurate_exp exp.
(* chi2_distribution_cdf with this library *)
Definition chi2_cdf (M : mathlib) (exp : double -> double) : double -> double -> double := chi2_distribution_cdf (m_log M) exp (m_erfc M).
(* A chi-square result with a p-value of at most 10^-14; the default tests fail below 10^-9. *)
Definition alarming (s : statistic) : Prop := st_type s = Chi2 /\ valid_stat s /\ dval (st_p s) <= / 10 ^ 14.
(* One of the results is. *)
Definition alarm (o : outcome (list sub_test)) : Prop := exists l name s, o = Ok l /\ In (mksub name (Some s)) l /\ alarming s.

(* The highest bit of all words is the same. *)
Definition stuck_top (w : N) (stream : nat -> N) : Prop := exists b, forall i, N.testbit (stream i) (w - 1) = b.
(* The first n words have at most n^0.4 different values (and at most half of all values): a short period, for example. *)
Definition few_values (w n : N) (stream : nat -> N) : Prop := exists vs, (forall i, (N.of_nat i < n)%N -> In (stream i) vs) /\
  INR (length vs) <= Rpower (IZR (Z.of_N n)) (2 / 5) /\ (N.of_nat (length vs) <= 2 ^ (w - 1))%N.
(* A mixer that is affine over GF(2): shifts, rotations, xors and constants, as in any xorshift. *)
Definition affine (w : N) (mix : N -> N) : Prop := forall x y, is_word w x -> is_word w y -> mix (N.lxor x y) = N.lxor (N.lxor (mix x) (mix y)) (mix 0%N).
(* A mixer made of additions, subtractions, multiplications, left shifts and bitwise operations with constants: the
   lowest k bits of the output depend on the lowest k bits of the input only. *)
Definition low_to_high (w : N) (mix : N -> N) : Prop := forall x y k, is_word w x -> is_word w y -> (x mod 2 ^ k = y mod 2 ^ k)%N -> (mix x mod 2 ^ k = mix y mod 2 ^ k)%N.
(* From number r on each bit is the sum of the earlier ones that a feedback register of length r taps. *)
Definition lfsr_bits (r : nat) (b : nat -> bool) : Prop := exists taps, forall i, (r <= i)%nat -> b i = xsum (fun j => taps (S j) && b (i - S j)%nat) r.

(* The words a stream test sees: mixed, if there is a mixer. *)
Definition tested (setup : test_setup) (f : nat -> N) : nat -> N := fun i => match ts_mix setup with Some m => m (f i) | None => f i end.
(* What the analysis needs of the C and C++ libraries. *)
Definition good_libs (L : libs) : Prop := good_sorts L /\ good_exp (l_exp L) /\ good_log10 (l_log10 L).
(* Sources and a mixer of w-bit words, at least one thread, and not more than 2^24 pairs of tests and sources. *)
Definition good_battery (w : N) (setup : test_setup) : Prop := Forall (word_source w) (ts_sources setup) /\ (forall m, ts_mix setup = Some m -> word_mixer w m) /\
  (1 <= ts_max_threads setup)%N /\ (N.of_nat (length (ts_tests setup)) * N.of_nat (length (ts_sources setup)) < 2 ^ 24)%N.

(* The lowest bit of all words is the same. *)
Definition stuck_low (stream : nat -> N) : Prop := exists b, forall i, N.testbit (stream i) 0 = b.

(* Generators of impl/src/prngs64.h and prngs32.h that are linear up to an addition of two words: width, generator, and
   the power of two from which on the battery is shown to reject them. *)
Definition linear_generators : list (N * gen * N) :=
  [(64%N, rng64_xorshift, 24%N); (64%N, rng64_xorshift128plus, 26%N); (64%N, rng64_xoroshiro128plus, 26%N);
   (32%N, rng32_xorshift, 23%N); (32%N, rng32_xorshift_64, 24%N); (32%N, rng32_xoshiro128plus, 26%N)].
