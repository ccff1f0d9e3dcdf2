(* Model of the complete test functions of core/src/statistics that core/src/test_definitions.h:25-45 lists.
   A stream is the function giving its k-th value; a test draws from a copy of it (C08), so that every
   test starts at value 0. *)
From Coq Require Import String.
From Flocq Require Import Core BinarySingleNaN.
From Verif Require Import Base BitwiseModel FloatModel ResultModel CollectModel CouponModel StatsModel RankModel LfsrModel EvaluateModel.
Open Scope N_scope.

(* the functions of <cmath> the tests use *)
Record mathlib : Type := mkmath {
  m_pow : double -> double -> double; m_log : double -> double; m_log2 : double -> double;
  m_tgamma : double -> double; m_erfc : double -> double
}.
(* std::ceil *)
Definition dceil (x : double) : double := Bnearbyint mode_UP x.
(* std::floor *)
Definition dfloor (x : double) : double := Bnearbyint mode_DN x.

(* the n values a ranged_stream(source, n) runs through (stream.h:71-98) *)
Definition values (stream : nat -> N) (n : N) : list N := map stream (seq 0 (N.to_nat n)).
(* types.h:216-229 to_data of a vector of integers *)
Definition to_data (l : list N) (i : nat) : double := double_of_N (nth i l 0).

Section Lib.
Variable M : mathlib.
(* chi2_distribution_cdf *)
Variable cdf : double -> double -> double.

(* ---------- chi2.h ---------- *)
(* 11-13: 2 * pow(n, .4); .4 is 7205759403792794 * 2^-54 *)
Definition get_bin_count_mathematica (n : N) : outcome N :=
  N_of_double 64 (dceil (dmul (double_of_N 2) (m_pow M (double_of_N n) (dconst 7205759403792794 (-54))))).
(* 15-26; the shift by 64 or more is undefined *)
Definition bin_count_pow2 (w n : N) : outcome N :=
  mma_bins <- get_bin_count_mathematica n ;;
  bins_log2 <- N_of_double 64 (dceil (m_log2 M (double_of_N mma_bins))) ;;
  if 64 <=? bins_log2 then UB
  else if w =? 64 then Ok (2 ^ bins_log2) else Ok (N.min (2 ^ bins_log2) (2 ^ w)).
(* 62-71 *)
Definition chi2_uniform_stats (w n : N) (data : list N) : outcome (option statistic) :=
  bin_count <- bin_count_pow2 w n ;;
  bins <- bin_data_for_chi2 w bin_count data ;;
  let expected_count := ddiv (double_of_N n) (double_of_N bin_count) in
  Ok (chi2_stats cdf (length bins) (to_data bins) (fun _ => expected_count) d0).
(* ---------- uniform.h:6-12 ---------- *)
Definition uniform_test (w n : N) (stream : nat -> N) : outcome (list sub_test) :=
  s <- chi2_uniform_stats w n (values stream n) ;; Ok (main_sub_test s).

(* ---------- basic.h:67-73, run.h:54-60 ---------- *)
Definition mean_sub_test (w n : N) (stream : nat -> N) : outcome (list sub_test) :=
  Ok (main_sub_test (mean_test (m_erfc M) w (values stream n))).
Definition runs_sub_test (w n : N) (stream : nat -> N) : outcome (list sub_test) :=
  Ok (main_sub_test (runs_test (m_erfc M) w (values stream n))).
(* ---------- serial_avalanche.h:41-52; n pairs of values ---------- *)
Definition serial_avalanche_test (w n : N) (stream : nat -> N) : outcome (list sub_test) :=
  r <- serial_avalanche (m_pow M) cdf w n (values stream (2 * n)) ;; Ok (map (fun x => mksub (fst x) (Some (snd x))) r).

(* ---------- gap.h:46-67 ---------- *)
(* math.h:59-64 *)
Definition snap_to_01 (x : double) : double :=
  if dlt x d0 && is_near x d0 then d0
  else if dlt d1 x && is_near x d1 then d1
  else x.
(* one iteration of the loop over gi; a probability loop that does not end is reported as UB *)
Definition gap_sub_test (w n : N) (stream : nat -> N) (wanted_gaps gi : N) : outcome (list sub_test) :=
  let gap_size := ddiv d1 (double_of_N wanted_gaps) in
  let expected_total_count := n / wanted_gaps in
  let a := snap_to_01 (dmul (double_of_N gi) gap_size) in
  let b := snap_to_01 (dadd a gap_size) in
  match generate_gap_probabilities (m_pow M) a b 100 with
  | None => UB
  | Some ps =>
    gaps <- generate_gaps w (length ps) a b (values stream n) ;;
    Ok match chi2_stats cdf (length gaps) (to_data gaps) (fun i => dmul (nth i ps d0) (double_of_N expected_total_count)) (double_of_N 5) with
       | Some s => [mksub (to_string_N (gi + 1) ++ "/" ++ to_string_N wanted_gaps) (Some s)]
       | None => []
       end
  end.
Definition gap_test (w n : N) (stream : nat -> N) : outcome (list sub_test) :=
  r <- omapM (gap_sub_test w n stream 2) [0; 1] ;; Ok (concat r).

(* ---------- coupon.h ---------- *)
(* math.h:80-86 *)
Definition harmonic (n : N) : double :=
  fold_left (fun h i => dadd h (ddiv d1 (double_of_N (N.of_nat i)))) (seq 1 (N.to_nat n)) d0.
(* math.h:76-78; EulerGamma is 5199096506725913 * 2^-53 *)
Definition harmonic_asymptotic (n : double) : double :=
  dadd (dadd (m_log M n) (dconst 5199096506725913 (-53))) (ddiv d1 (dmul (double_of_N 2) n)).
(* 53-59 *)
Definition expected_draws_per_coupon (wanted : N) : double :=
  if wanted <? 1024 then dmul (double_of_N wanted) (harmonic wanted)
  else dmul (double_of_N wanted) (harmonic_asymptotic (double_of_N wanted)).
(* 61-70 *)
Definition coupon_stats (w n : N) (data : list N) : outcome (option statistic) :=
  ps <- expected_probabilities (m_tgamma M) (m_pow M) 5 ;;
  cc <- collect_coupons w 5 (length ps) data ;;
  let expected_total_count := ddiv (double_of_N n) (expected_draws_per_coupon 5) in
  Ok (chi2_stats cdf (length cc) (to_data cc) (fun i => dmul (nth i ps d0) expected_total_count) d1).
(* 72-75 *)
Definition coupon_test (w n : N) (stream : nat -> N) : outcome (list sub_test) :=
  s <- coupon_stats w n (values stream n) ;; Ok (main_sub_test s).

(* ---------- divisibility.h ---------- *)
(* distributions.h:76-81; uint32_t arithmetic *)
Definition negative_binomial_pdf (successes : N) (p : double) (failures : N) : outcome double :=
  c <- binomial_coefficient (wrap 32 (failures + successes + (2 ^ 32 - 1))) (wrap 32 (successes + (2 ^ 32 - 1))) ;;
  Ok (dmul (dmul (double_of_N c) (m_pow M (dsub d1 p) (double_of_N failures))) (m_pow M p (double_of_N successes))).
(* 35-47; a loop that does not end within [fuel] iterations is reported as UB *)
Fixpoint divisible_loop (divisor wanted : N) (fuel : nat) (k : N) (sum : double) : outcome (list double) :=
  match fuel with
  | O => UB
  | S fuel' =>
      if dlt sum (dconst 8917127262193582 (-53)) then (* 0.99 *)
        p <- negative_binomial_pdf wanted (ddiv d1 (double_of_N divisor)) k ;;
        rest <- divisible_loop divisor wanted fuel' (wrap 32 (k + 1)) (dadd sum p) ;; Ok (p :: rest)
      else Ok [dsub d1 sum]
  end.
Definition divisible_expected_probabilities (divisor wanted : N) (fuel : nat) : outcome (list double) :=
  divisible_loop divisor wanted fuel 0 d0.
(* 49-67 *)
Definition divisibility_test (w n : N) (stream : nat -> N) : outcome (list sub_test) :=
  ps <- divisible_expected_probabilities 2 5 100 ;;
  collected <- collect_divisible 2 5 (length ps) (values stream n) ;;
  let expected_total_count := n / 10 in
  if expected_total_count <? 100 then Ok []
  else Ok match chi2_stats cdf (length collected) (to_data collected) (fun i => dmul (nth i ps d0) (double_of_N expected_total_count)) (double_of_N 5) with
          | Some s => [mksub ("d" ++ to_string_N 2) (Some s)]
          | None => []
          end.

(* ---------- permutation.h ---------- *)
(* math.h:93-102; 0.56 is 5044031582654956 * 2^-53 *)
Definition lambert_w_approximation (x : double) : double :=
  if is_near x d1 then dconst 5044031582654956 (-53)
  else
    let l1 := m_log M x in
    let l2 := m_log M l1 in
    dadd (dadd (dsub l1 l2) (ddiv l2 l1)) (ddiv (dmul l2 (dsub l2 (double_of_N 2))) (dmul (dmul (double_of_N 2) l1) l1)).
(* 28-36 *)
Definition get_permutation_size (w n : N) : outcome N :=
  let log2 := m_log M (double_of_N 2) in
  let total_bits := wrap 64 (n * w) in
  let y := ddiv (double_of_N total_bits) (double_of_N 32) in
  N_of_double 64 (ddiv (lambert_w_approximation (dmul y log2)) log2).
(* 20-26: integer division; by zero undefined *)
Definition permutation_stat (w n : N) (stream : nat -> N) (permutation_size : N) : outcome (option statistic) :=
  let total_bits := wrap 64 (n * w) in
  histogram <- get_permutation_histogram w (values stream n) permutation_size ;;
  if permutation_size =? 0 then UB
  else
    let expected_count := ddiv (dfloor (double_of_N (total_bits / permutation_size))) (double_of_N (N.of_nat (length histogram))) in
    Ok (chi2_stats cdf (length histogram) (to_data histogram) (fun _ => expected_count) d0).
(* 38-44 *)
Definition permutation_test (w n : N) (stream : nat -> N) : outcome (list sub_test) :=
  size <- get_permutation_size w n ;;
  s <- permutation_stat w n stream size ;;
  Ok [mksub (to_string_N size) s].

(* ---------- binary_rank.h:127-134 ---------- *)
Definition binary_rank_test (w n : N) (stream : nat -> N) : outcome (list sub_test) :=
  size <- get_matrix_size w n ;;
  a <- binary_rank_stats (m_pow M) cdf w (values stream n) (N.to_nat size) ;;
  b <- binary_rank_isolated_bit_stats (m_pow M) cdf w n stream (N.to_nat size) 0 ;;
  Ok [mksub (to_string_N size) a; mksub (to_string_N size ++ ":bit(0)") b].
(* ---------- linear_complexity.h:84-93 ---------- *)
Definition linear_complexity_sub_test (w n : N) (stream : nat -> N) : outcome (list sub_test) :=
  r <- linear_complexity_test (m_pow M) cdf w n stream ;;
  Ok (map (mksub (to_string_N (n / 1024) ++ ":bit(0)")) r).

(* ---------- avalanche.h:45-69 ---------- *)
Definition avalanche_sac_stats (w n : N) (bit_counts : list N) : outcome (option statistic) :=
  let total_count := dmul (double_of_N n) (double_of_N w) in
  ps <- omapM (fun i => p <- flip_coin_pdf (m_pow M) w (N.of_nat i) ;; Ok (dmul total_count p)) (seq 0 (length bit_counts)) ;;
  Ok (chi2_stats cdf (length bit_counts) (to_data bit_counts) (fun i => nth i ps d0) (double_of_N 5)).
Definition avalanche_bic_stats (n : N) (bit_counts : list N) : option statistic :=
  chi2_stats cdf (length bit_counts) (fun i => dmul (to_data bit_counts i) (double_of_N 2)) (fun _ => double_of_N n) d0.
Definition sac_test (w n : N) (stream : nat -> N) (mix : N -> N) : outcome (list sub_test) :=
  counts <- avalanche_generate_sac w mix (values stream n) ;;
  s <- avalanche_sac_stats w n counts ;; Ok (main_sub_test s).
Definition bic_test (w n : N) (stream : nat -> N) (mix : N -> N) : outcome (list sub_test) :=
  counts <- avalanche_generate_bic w mix (values stream n) ;;
  Ok (main_sub_test (avalanche_bic_stats n counts)).
End Lib.
