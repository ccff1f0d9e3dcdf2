(* The default tests of core/src/test_definitions.h:25-45 with the test functions of core/src/statistics. *)
From Coq Require Import String.
From Verif Require Import Base FloatModel StreamModel ResultModel EvaluateModel TestsModel.
Open Scope N_scope.

(* stream.h:24-27, 71-98: the k-th value a copy of the stream gives.  The world argument is the counter
   shared between streams of streams.h:84-92, which the sources of a test do not use. *)
Definition value_at (s : stream N) (k : nat) : N :=
  match draw (S k) s 0 with Ok (vs, _, _) => nth k vs 0 | UB => 0 end.
(* types.h:130-134: a test function as the evaluation calls it.  A test whose behaviour is undefined
   gives no results here; C86_defined shows when that does not happen. *)
Definition run_test (t : N -> (nat -> N) -> outcome (list sub_test)) : stream_test :=
  fun n src => match t n (value_at (src_stream src)) with Ok l => l | UB => [] end.
Definition run_mixer_test (t : N -> (nat -> N) -> (N -> N) -> outcome (list sub_test)) : mixer_test :=
  fun n src mix => match t n (value_at (src_stream src)) mix with Ok l => l | UB => [] end.
(* test_definitions.h:25-45 for words of w bits *)
Definition battery_tests (M : mathlib) (cdf : double -> double -> double) (w : N) : raw_tests :=
  mkraw (run_test (mean_sub_test M w)) (run_test (uniform_test M cdf w)) (run_test (runs_sub_test M w)) (run_test (serial_avalanche_test M cdf w))
    (run_test (gap_test M cdf w)) (run_test (coupon_test M cdf w)) (run_test (divisibility_test M cdf w)) (run_test (permutation_test M cdf w))
    (run_test (binary_rank_test M cdf w)) (run_test (linear_complexity_sub_test M cdf w))
    (run_mixer_test (sac_test M cdf w)) (run_mixer_test (bic_test cdf w)).
Definition default_tests (M : mathlib) (cdf : double -> double -> double) (w : N) : list test_definition :=
  get_tests (m_pow M) (battery_tests M cdf w).
