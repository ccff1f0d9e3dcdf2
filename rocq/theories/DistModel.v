(* Model of the chi-square distribution: core/src/util/math.cpp:5-22, core/src/statistics/distributions.cpp:65-116,
   distributions.h:33-47.  Every operation is rounded to double on its own (no fused multiply-add, no wider
   intermediate results). *)
From Flocq Require Import Core BinarySingleNaN.
From Verif Require Import Base FloatModel ResultModel CollectModel StatsModel.
Open Scope N_scope.

Section Lib.
(* std::log, std::exp, std::erfc *)
Variables (log exp erfc : double -> double).

(* math.cpp:9-18: the sum; the constants are the doubles nearest to the decimals of the code *)
Definition lanczos_sum (z : double) : double :=
  let x := dadd d0 (ddiv (dconst 6269301113871304 (-75)) (dadd z (double_of_N 7))) in  (* 0.1659470187408462e-06 *)
  let x := dadd x (ddiv (dconst 5864551754530531 (-69)) (dadd z (double_of_N 6))) in   (* 0.9934937113930748e-05 *)
  let x := dsub x (ddiv (dconst 4992547625336385 (-55)) (dadd z (double_of_N 5))) in   (* 0.1385710331296526 *)
  let x := dadd x (ddiv (dconst 7041008294433342 (-49)) (dadd z (double_of_N 4))) in   (* 12.50734324009056 *)
  let x := dsub x (ddiv (dconst 6214088902087831 (-45)) (dadd z (double_of_N 3))) in   (* 176.6150291498386 *)
  let x := dadd x (ddiv (dconst 6784632629720077 (-43)) (dadd z (double_of_N 2))) in   (* 771.3234287757674 *)
  let x := dsub x (ddiv (dconst 5537752839099686 (-42)) (dadd z (double_of_N 1))) in   (* 1259.139216722289 *)
  let x := dadd x (ddiv (dconst 5950736089418487 (-43)) z) in                          (* 676.5203681218835 *)
  dadd x (dconst 9007199254736653 (-53)).                                              (* 0.9999999999995183 *)
(* math.cpp:5-20 *)
Definition log_gamma (z : double) : double :=
  dadd (dsub (dsub (log (lanczos_sum z)) (dconst 6283716585547818 (-50))) z)           (* 5.58106146679532777 *)
       (dmul (dsub z (dconst 1 (-1))) (log (dadd z (dconst 13 (-1))))).

(* distributions.cpp:65-67 *)
Definition kf_gamma_eps : double := dconst 6338253001141147 (-99).  (* 1e-14 *)
Definition kf_tiny : double := dconst 7022238808055922 (-1016).     (* 1e-290 *)
Definition max_iterations : N := 10000.

(* distributions.cpp:73-76: [left] more rounds; ends with sum *)
Fixpoint gammap_loop (s z : double) (left : nat) (k : N) (sum x : double) : double :=
  match left with
  | O => sum
  | S left' =>
    let x := dmul x (ddiv z (dadd s (double_of_N k))) in
    let sum := dadd sum x in
    if dlt (ddiv x sum) kf_gamma_eps then sum else gammap_loop s z left' (k + 1) sum x
  end.
(* 70-78 *)
Definition kf_gammap_series (s z : double) : double :=
  let sum := gammap_loop s z (N.to_nat (max_iterations - 1)) 1 d1 d1 in
  exp (dadd (dsub (dsub (dmul s (log z)) z) (log_gamma (dadd s d1))) (log sum)).

(* 89-99: the modified Lentz algorithm; ends with f *)
Fixpoint gammaq_loop (s z : double) (left : nat) (j : N) (C D f : double) : double :=
  match left with
  | O => f
  | S left' =>
    let a := dmul (double_of_N j) (dsub s (double_of_N j)) in
    let b := dsub (dadd (double_of_N (2 * j + 1)) z) s in
    let D := dadd b (dmul a D) in
    let D := if dlt D kf_tiny then kf_tiny else D in
    let C := dadd b (ddiv a C) in
    let C := if dlt C kf_tiny then kf_tiny else C in
    let D := ddiv d1 D in
    let d := dmul C D in
    let f := dmul f d in
    if dlt (dabs (dsub d d1)) kf_gamma_eps then f else gammaq_loop s z left' (j + 1) C D f
  end.
(* 81-101 *)
Definition kf_gammaq_cf (s z : double) : double :=
  let f := dsub (dadd d1 z) s in
  let f := gammaq_loop s z (N.to_nat (max_iterations - 1)) 1 f d0 f in
  exp (dsub (dsub (dsub (dmul s (log z)) z) (log_gamma s)) (log f)).

(* 103-105 *)
Definition kf_gammap (s z : double) : double :=
  if dle z d1 || dlt z s then kf_gammap_series s z else dsub d1 (kf_gammaq_cf s z).
(* 107-109; not called *)
Definition kf_gammaq (s z : double) : double :=
  if dle z d1 || dlt z s then dsub d1 (kf_gammap_series s z) else kf_gammaq_cf s z.
(* 111-116 *)
Definition gamma_regularized (s z : double) : double :=
  if is_near s d0 && is_near z d0 then d0 else dsub d1 (kf_gammap s z).

(* distributions.h:33-35 *)
Definition chi2_distribution_normal_approximation_cdf (chi2 df : double) : double :=
  dsub d1 (normal_cdf erfc (dsub (dsqrt (dmul (double_of_N 2) chi2)) (dsqrt (dsub (dmul (double_of_N 2) df) d1)))).
(* 37-47 *)
Definition chi2_distribution_cdf (chi2 df : double) : double :=
  if is_near df d0 then d0
  else if dle (double_of_N 1100000) df then chi2_distribution_normal_approximation_cdf chi2 df
  else gamma_regularized (dmul (dconst 1 (-1)) df) (dmul (dconst 1 (-1)) chi2).
End Lib.
