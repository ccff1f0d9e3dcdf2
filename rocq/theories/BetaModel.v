(* Model of core/src/statistics/distributions.cpp:10-63, distributions.h:21-31 and tests.h:12-25, 39-54.
   Every operation is rounded to double on its own; the assertion of line 15 only prints. *)
From Flocq Require Import Core BinarySingleNaN.
From Verif Require Import Base FloatModel ResultModel CollectModel StatsModel DistModel.
Open Scope N_scope.

Section Lib.
(* std::log, std::exp *)
Variables (log exp : double -> double).

Definition infinity : double := B754_infinity false.
Definition beta_stop : double := dconst 6044629098073146 (-79).  (* 1.0e-8 *)
Definition beta_tiny : double := dconst 5708990770823840 (-152). (* 1.0e-30 *)
Definition two : double := double_of_N 2.

(* distributions.cpp:34-45: the numerator of round i *)
Definition beta_numerator (a b x : double) (i : N) : double :=
  let m := double_of_N (i / 2) in
  if i =? 0 then d1
  else if i mod 2 =? 0 then
    ddiv (dmul (dmul m (dsub b m)) x) (dmul (dsub (dadd a (dmul two m)) d1) (dadd a (dmul two m)))
  else
    ddiv (dneg (dmul (dmul (dadd a m) (dadd (dadd a b) m)) x)) (dmul (dadd a (dmul two m)) (dadd (dadd a (dmul two m)) d1)).
(* 48-52 *)
Definition beta_guard (v : double) : double := if dlt (dabs v) beta_tiny then beta_tiny else v.
(* 31-62: [left] more rounds *)
Fixpoint beta_loop (a b x front : double) (left : nat) (i : N) (f c d : double) : double :=
  match left with
  | O => infinity
  | S left' =>
    let numerator := beta_numerator a b x i in
    let d := ddiv d1 (beta_guard (dadd d1 (dmul numerator d))) in
    let c := beta_guard (dadd d1 (ddiv numerator c)) in
    let cd := dmul c d in
    let f := dmul f cd in
    if dlt (dabs (dsub d1 cd)) beta_stop then dmul front (dsub f d1) else beta_loop a b x front left' (i + 1) f c d
  end.
(* 24-26 *)
Definition beta_front (a b x : double) : double :=
  let lbeta_ab := dsub (dadd (log_gamma log a) (log_gamma log b)) (log_gamma log (dadd a b)) in
  ddiv (exp (dsub (dadd (dmul (log x) a) (dmul (log (dsub d1 x)) b)) lbeta_ab)) a.
(* 19 *)
Definition beta_threshold (a b : double) : double := ddiv (dadd a d1) (dadd (dadd a b) two).
(* 10-63: None if more than [depth] calls are nested *)
Fixpoint beta_regularized (depth : nat) (a b x : double) : option double :=
  match depth with
  | O => None
  | S depth' =>
    if dlt x d0 || dlt d1 x then Some infinity
    else if dlt (beta_threshold a b) x then option_map (dsub d1) (beta_regularized depth' b a (dsub d1 x))
    else Some (beta_loop a b x (beta_front a b x) 201 0 d1 d1 d0)
  end.

Definition half : double := dconst 1 (-1).
(* distributions.h:21-25 *)
Definition student_t_cdf (depth : nat) (t df : double) : option double :=
  beta_regularized depth (dmul half df) half (ddiv df (dadd df (dmul t t))).
(* distributions.h:27-31 *)
Definition f_distribution_cdf (depth : nat) (f df1 df2 : double) : option double :=
  beta_regularized depth (dmul half df1) (dmul half df2) (ddiv (dmul df1 f) (dadd (dmul df1 f) df2)).
(* tests.h:12-19 *)
Definition t_test (depth : nat) (a_n a_mean a_variance b_n b_mean b_variance : double) : option double :=
  let df := dsub (dadd a_n b_n) two in
  let var := ddiv (dadd (dmul (dsub a_n d1) a_variance) (dmul (dsub b_n d1) b_variance)) df in
  let t := ddiv (dsub a_mean b_mean) (dsqrt (dmul var (dadd (ddiv d1 a_n) (ddiv d1 b_n)))) in
  student_t_cdf depth t df.
(* tests.h:21-25 *)
Definition t_test_same (depth : nat) (n a_mean a_variance b_mean b_variance : double) : option double := t_test depth n a_mean a_variance n b_mean b_variance.
(* tests.h:39-46 *)
Definition f_test (depth : nat) (a_n a_variance b_n b_variance : double) : option double :=
  let a_nom := dlt b_variance a_variance in
  let f := if a_nom then ddiv a_variance b_variance else ddiv b_variance a_variance in
  let df1 := dsub (if a_nom then a_n else b_n) d1 in
  let df2 := dsub (if a_nom then b_n else a_n) d1 in
  let x := ddiv df2 (dadd df2 (dmul df1 f)) in
  option_map (dmul two) (beta_regularized depth (dmul half df2) (dmul half df1) x).
(* tests.h:48-50 *)
Definition f_test_same (depth : nat) (n a_variance b_variance : double) : option double := f_test depth n a_variance n b_variance.
End Lib.
