(* Model of the statistics that the unit tests use but the tool does not: core/src/statistics/fishersmethod.h,
   g_test.h, andersondarling.h, distributions.cpp:134-218, core/src/util/math.h:40-45,88-91.
   Every operation is rounded to double on its own; assertions have no effect. *)
From Flocq Require Import Core BinarySingleNaN.
From Verif Require Import Base FloatModel ResultModel CollectModel StatsModel.
Open Scope N_scope.

Section Lib.
(* std::log, std::exp, std::pow, std::sort on doubles; the chi-square distribution *)
Variables (log exp : double -> double) (pow : double -> double -> double) (sort : list double -> list double).
Variable chi2_cdf : double -> double -> double.

Definition two_ : double := double_of_N 2.

(* math.h:40-45 *)
Definition min_p : double := dconst 8112963841460668 (-106). (* 1e-16 *)
Definition log_safe (x : double) : double := log (dmax min_p x).
(* math.h:88-91 *)
Definition to_one_sided (p : double) : double := dsub d1 (dmul two_ (dabs (dsub p (dconst 1 (-1))))).

(* fishersmethod.h:8-17 *)
Definition fishers_combined_probabilities (p_values : list double) : double :=
  let sum := fold_left (fun sum p => dadd sum (log_safe p)) p_values d0 in
  chi2_cdf (dmul (dconst (-2) 0) sum) (dmul two_ (double_of_N (N.of_nat (length p_values)))).

(* g_test.h:11-37; a bin is its observed count (converted to double) and its expected count *)
Record g_state : Type := mkg { gs_g : double; gs_observed : double; gs_expected : double; gs_df : double }.
Definition g_step (threshold : double) (s : g_state) (bin : double * double) : g_state :=
  let '(observed_count, expected_count) := bin in
  if dlt expected_count threshold then s
  else if dle observed_count (dconst 6490371073168535 (-109)) then s  (* 1e-17 *)
  else mkg (dadd (gs_g s) (dmul observed_count (log (ddiv observed_count expected_count))))
           (dadd (gs_observed s) observed_count) (dadd (gs_expected s) expected_count) (dadd (gs_df s) d1).
Definition g_test_stats (bins : list (double * double)) (threshold : double) : option statistic :=
  let s := fold_left (g_step threshold) bins (mkg d0 d0 d0 d0) in
  let df := dmax (dsub (gs_df s) d1) d0 in
  if is_near df d0 then None
  else
    let g := dsub (gs_g s) (dmul (gs_observed s) (log (ddiv (gs_observed s) (gs_expected s)))) in
    let g := dmul g two_ in
    Some (mkstat Chi2 g (chi2_cdf g df) df).
(* g_test.h:40-42 *)
Definition g_test_bins (bins : list N) (expected_count threshold : double) : option statistic :=
  g_test_stats (map (fun c => (double_of_N c, expected_count)) bins) threshold.

(* distributions.cpp:144-149: int i from 1 on, compared as unsigned; log(n - i + 1) and (n - i) are of uint32_t *)
Fixpoint binomial_cdf_loop (n : N) (log_p log_1_p : double) (i : N) (left : nat) (b cdf : double) : double :=
  match left with
  | O => cdf
  | S left' =>
    let b := dadd b (dsub (log (double_of_N (wrap 32 (n + 2 ^ 32 - i + 1)))) (log (double_of_N i))) in
    let cdf := dadd cdf (exp (dadd (dadd b (dmul (double_of_N i) log_p)) (dmul (double_of_N (wrap 32 (n + 2 ^ 32 - i))) log_1_p))) in
    binomial_cdf_loop n log_p log_1_p (i + 1) left' b cdf
  end.
(* distributions.cpp:134-152; uint32_t n, k; ++i overflows the int i if k >= 2^31 - 1 *)
Definition binomial_cdf (n : N) (p : double) (k : N) : outcome double :=
  if is_near_eps p d0 (dconst 7737125245533627 (-86)) then Ok d1          (* 1e-10 *)
  else if is_near_eps p d1 (dconst 7737125245533627 (-86)) then Ok d0
  else if 2 ^ 31 - 1 <=? k then UB
  else
    let log_p := log p in
    let log_1_p := log (dsub d1 p) in
    Ok (dclamp (binomial_cdf_loop n log_p log_1_p 1 (N.to_nat k) d0 (pow (dsub d1 p) (double_of_N n))) d0 d1).

(* distributions.cpp:165-179 *)
Definition AndersonDarlingInf (z : double) : double :=
  if dlt z two_ then
    let q := dsub (dconst 6728449900885559 (-59)) (dmul (dconst 7779499261345345 (-62)) z) in  (* 0.011672 - 0.00168691 z *)
    let q := dsub (dconst 5014660907325096 (-57)) (dmul q z) in                                (* 0.0347962 *)
    let q := dsub (dconst 4682453781532037 (-56)) (dmul q z) in                                (* 0.0649821 *)
    let q := dsub (dconst 8902895887371091 (-55)) (dmul q z) in                                (* 0.247105 *)
    let q := dadd (dconst 4503869843348138 (-51)) (dmul q z) in                                (* 2.00012 *)
    dmul (ddiv (exp (ddiv (dconst (-5556154361041727) (-52)) z)) (dsqrt z)) q                  (* -1.2337141 *)
  else
    let q := dsub (dconst 4643967820556380 (-59)) (dmul (dconst 5803345685589025 (-64)) z) in  (* 0.008056 - 0.0003146 z *)
    let q := dsub (dconst 5939923649328514 (-56)) (dmul q z) in                                (* 0.082433 *)
    let q := dsub (dconst 7822572408757457 (-54)) (dmul q z) in                                (* 0.43424 *)
    let q := dsub (dconst 5194789580181183 (-51)) (dmul q z) in                                (* 2.30695 *)
    let q := dsub (dconst 4853078958454446 (-52)) (dmul q z) in                                (* 1.0776 *)
    exp (dneg (exp q)).
(* distributions.cpp:184-204; int n >= 1 *)
Definition AndersonDarlingErrFix (n : N) (x : double) : outcome double :=
  let nd := double_of_N n in
  if dlt (dconst 7205759403792794 (-53)) x then                                                (* 0.8 *)
    let q := dsub (dconst 4909803203136061 (-42)) (dmul (dconst 8999613504118640 (-45)) x) in  (* 1116.360 - 255.7844 x *)
    let q := dsub (dconst 8579031834698973 (-42)) (dmul q x) in                                (* 1950.646 *)
    let q := dsub (dconst 7499069523664830 (-42)) (dmul q x) in                                (* 1705.091 *)
    let q := dsub (dconst 6555144948484250 (-43)) (dmul q x) in                                (* 745.2337 *)
    let q := dadd (dconst (-4581487271863543) (-45)) (dmul q x) in                             (* -130.2137 *)
    Ok (ddiv q nd)
  else
    let cutoff := dadd (dconst 7292228516638307 (-59)) (ddiv (dconst 6330259636231969 (-55)) nd) in   (* 0.01265 + 0.1757 / n *)
    if dlt x cutoff then
      let t := ddiv x cutoff in
      let t := dmul (dmul (dsqrt t) (dsub d1 t)) (dsub (dmul (double_of_N 49) t) (double_of_N 102)) in
      if 2 ^ 31 <=? n * n then UB                                                              (* the int n * n overflows *)
      else Ok (ddiv (dmul t (dadd (dadd (ddiv (dconst 8531619134090668 (-61)) (double_of_N (n * n)))   (* 0.0037 *)
                                        (ddiv (dconst 7194230188746725 (-63)) nd))              (* 0.00078 *)
                                  (dconst 8854437155380585 (-67)))) nd)                         (* 0.00006 *)
    else
      let t := ddiv (dsub x cutoff) (dsub (dconst 7205759403792794 (-53)) cutoff) in
      let q := dsub (dconst 4649403665306616 (-49)) (dmul (dconst 8640786389058128 (-52)) t) in (* 8.259 - 1.91864 t *)
      let q := dsub (dconst 8139130426565329 (-49)) (dmul q t) in                               (* 14.458 *)
      let q := dsub (dconst 8249356027445222 (-49)) (dmul q t) in                               (* 14.6538 *)
      let q := dsub (dconst 7363768196719087 (-50)) (dmul q t) in                               (* 6.54034 *)
      let t := dadd (dconst (-8350103172405366) (-65)) (dmul q t) in                            (* -0.00022633 *)
      Ok (ddiv (dmul t (dadd (dconst 6071572873635808 (-57)) (ddiv (dconst 7868689268941731 (-59)) nd))) nd). (* 0.04213 + 0.01365 / n *)
(* distributions.cpp:207-211 *)
Definition AndersonDarlingPValue (n : N) (z : double) : outcome double :=
  let ad := AndersonDarlingInf z in
  errfix <- AndersonDarlingErrFix n ad ;; Ok (dadd ad errfix).
(* distributions.cpp:213-217; df is converted to int *)
Definition anderson_darling_cdf (A2 df : double) : outcome double :=
  n <- N_of_double 31 df ;;
  p <- AndersonDarlingPValue n A2 ;;
  Ok (dsub d1 (dclamp p d0 d1)).
(* andersondarling.h:15-21: sum over (i, data[i], data[size - 1 - i]) *)
Fixpoint anderson_darling_sum (i : N) (data reversed : list double) (sum : double) : double :=
  match data, reversed with
  | a :: data', b :: reversed' =>
    anderson_darling_sum (i + 1) data' reversed'
      (dadd sum (dmul (dadd (dmul two_ (double_of_N i)) d1) (dadd (log_safe a) (log_safe (dsub d1 b)))))
  | _, _ => sum
  end.
(* andersondarling.h:11-27 *)
Definition anderson_darling_stats (data01 : list double) : outcome (option statistic) :=
  match data01 with
  | [] => Ok None
  | _ :: _ =>
    let data := sort data01 in
    let sum := anderson_darling_sum 0 data (rev data) d0 in
    let n := double_of_N (N.of_nat (length data)) in
    let A2 := dsub (dneg n) (ddiv sum n) in
    p <- anderson_darling_cdf A2 n ;;
    Ok (Some (mkstat Anderson_darling_A2 A2 p n))
  end.
End Lib.
