(* Model of core/src/statistics/distributions.h:12-19, 57-95 (parts), tests.h:26-36, run.h:41-60,
   basic.h:9-19, serial_avalanche.h:25-52. *)
From Coq Require Import String.
From Flocq Require Import Core BinarySingleNaN.
From Verif Require Import Base FloatModel ResultModel CollectModel.
Open Scope N_scope.

(* std::round of a double (halves away from zero); std::sqrt is correctly rounded *)
Definition dround (x : double) : double := Bnearbyint mode_NA x.
Definition dsqrt (x : double) : double := Bsqrt mode_NE x.
Definition dneg (x : double) : double := Bopp x.

(* distributions.h:57-67; uint32_t n, k. For k = 2^32 - 1 the condition i <= k never fails, so the
   loop runs forever without side effects, which is undefined. *)
Fixpoint binomial_loop (diff : double) (i : N) (left : nat) (c : double) : double :=
  match left with
  | O => c
  | S left' => binomial_loop diff (i + 1) left' (dmul c (dadd (ddiv diff (double_of_N i)) d1))
  end.
Definition binomial_coefficient (n k : N) : outcome N :=
  if n <? k then Ok 0
  else if k =? 2 ^ 32 - 1 then UB
  else N_of_double 64 (dround (binomial_loop (double_of_N (n - k)) 1 (N.to_nat k) d1)).

Section Lib.
(* std::erfc, std::pow, and the chi-square distribution *)
Variables (erfc : double -> double) (pow : double -> double -> double) (cdf : double -> double -> double).
(* distributions.h:12-15 *)
Definition normal_cdf (z : double) : double := ddiv (erfc (ddiv (dneg z) (dsqrt (double_of_N 2)))) (double_of_N 2).
(* 17-19 *)
Definition normal_two_tailed_cdf (z : double) : double := dmul (double_of_N 2) (normal_cdf (dneg (dabs z))).
(* tests.h:26-36 *)
Definition z_test (n mean population_mean population_variance : double) : option statistic :=
  if is_near population_variance d0 then None
  else if is_near n d0 then None
  else
    let se := dsqrt (ddiv population_variance n) in
    let z := ddiv (dsub mean population_mean) se in
    Some (mkstat Z_score z (normal_two_tailed_cdf z) n).
(* basic.h:31-38 *)
Definition get_mean_rescale_01 (w : N) (values : list N) : double :=
  ddiv (fold_left (fun sum v => dadd sum (rescale_type_to_01 w v)) values d0) (double_of_N (N.of_nat (length values))).
(* basic.h:67-73; the range has n values *)
Definition mean_test (w : N) (values : list N) : option statistic :=
  z_test (double_of_N (N.of_nat (length values))) (get_mean_rescale_01 w values) (dconst 1 (-1)) (ddiv d1 (double_of_N 12)).
(* run.h:41-52; the counts are converted to double at run.h:33-38 *)
Definition runs_stats (s : runs_data) : option statistic :=
  let plus := double_of_N (rd_plus s) in
  let minus := double_of_N (rd_minus s) in
  let n := dadd plus minus in
  if is_near n d0 then None
  else
    let mean := dadd (ddiv (dmul (dmul (double_of_N 2) plus) minus) n) d1 in
    let variance := dmul (dsub mean d1) (dsub mean (double_of_N 2)) in
    z_test n (double_of_N (rd_runs s)) mean variance.
(* run.h:54-60 *)
Definition runs_test (w : N) (data : list N) : option statistic := runs_stats (generate_runs_data data (runs_cutoff w)).
(* distributions.h:91-95: std::pow(2, n) *)
Definition flip_coin_pdf (n k : N) : outcome double :=
  c <- binomial_coefficient n k ;; Ok (ddiv (double_of_N c) (pow (double_of_N 2) (double_of_N n))).
(* serial_avalanche.h:25-39 *)
Definition serial_expected (w : N) (expected_total : double) (size : nat) : outcome (list double) :=
  omapM (fun k => p <- flip_coin_pdf w (N.of_nat k) ;; Ok (dmul expected_total p)) (seq 0 size).
Definition serial_avalanche_stats (w : N) (bit_counts : list N) (expected_total : double) : outcome (option statistic) :=
  expected <- serial_expected w expected_total (length bit_counts) ;;
  merged <- merge_bins bit_counts expected (double_of_N 5) ;;
  let '(o, e) := merged in
  if dlt (ddiv (double_of_N (N.of_nat (length o))) (double_of_N (N.of_nat (length bit_counts)))) (dconst 6305039478318694 (-54)) (* 0.35 *)
  then Ok None
  else Ok (chi2_stats cdf (length o) (fun i => double_of_N (nth i o 0)) (fun i => nth i e d0) d0).
(* serial_avalanche.h:41-52; the loop runs over count < bit_sizeof<T>() *)
Definition serial_results (w n : N) (counts : list (list N)) : outcome (list (string * statistic)) :=
  r <- omapM (fun c =>
    p <- flip_coin_pdf w (N.of_nat c) ;;
    row <- at_ counts c ;;
    s <- serial_avalanche_stats w row (dmul (double_of_N n) p) ;;
    Ok match s with Some s => [(("bit(" ++ to_string_N (N.of_nat c) ++ ")")%string, s)] | None => [] end) (seq 0 (N.to_nat w)) ;;
  Ok (concat r).
Definition serial_avalanche (w n : N) (data : list N) : outcome (list (string * statistic)) :=
  counts <- serial_avalanche_count w data ;; serial_results w n counts.
End Lib.

(* basic.h:9-19, for words of width w; sorted[(s - 1) / 2] with s = 0 is out of range *)
Definition get_median (w : N) (sorted : list N) : outcome N :=
  let s := length sorted in
  if Nat.odd s then at_ sorted (s / 2)
  else if (s =? 0)%nat then UB
  else
    a <- at_ sorted ((s - 1) / 2) ;;
    b <- at_ sorted ((s - 1) / 2 + 1) ;;
    N_of_double w (ddiv (dadd (double_of_N a) (double_of_N b)) (double_of_N 2)).
