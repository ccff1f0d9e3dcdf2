(* Model of core/src/statistics/correlation.h:16-22, 29-107, 110-134, util/math.h:47-57 and util/algo.h:20-27, 59-76, 99-107.
   Every operation is rounded to double on its own.  The assertions print a message and go on, so they are left out. *)
From Flocq Require Import Core BinarySingleNaN.
From Verif Require Import Base FloatModel ResultModel EvaluateModel CollectModel StatsModel CommandModel.
Open Scope N_scope.

(* operator!= with zero (true for NaN) and > *)
Definition dnonzero (x : double) : bool := negb (Beqb x d0).

(* correlation.h:16-22 *)
Definition adjust_correlation (d : double) : double :=
  if dle (dneg d1) d && dle d d1 then d
  else if is_near d (dneg d1) then dneg d1
  else if is_near d d1 then d1
  else d.

(* math.h:47-57 with std::atanh *)
Definition fishers_transformation_safe (atanh : double -> double) (x : double) : double :=
  let a := dconst 8112963841460668 (-106) in (* 1e-16 *)
  let x := if is_near x (dneg d1) then dadd (dneg d1) a else if is_near x d1 then dsub d1 a else x in
  atanh x.

(* correlation.h:82-96: the body of the inner loop; n1, n2 and is *)
Definition kendall_pair (p q : double * double) (s : N * N * Z) : N * N * Z :=
  let '(n1, n2, is) := s in
  let diff_x := dsub (fst p) (fst q) in
  let diff_y := dsub (snd p) (snd q) in
  let xy := dmul diff_x diff_y in
  if dnonzero xy then (wrap 64 (n1 + 1), wrap 64 (n2 + 1), if dlt d0 xy then (is + 1)%Z else (is - 1)%Z)
  else (if dnonzero diff_x then wrap 64 (n1 + 1) else n1, if dnonzero diff_y then wrap 64 (n2 + 1) else n2, is).
(* correlation.h:80-98: for each j the pairs with all later k *)
Fixpoint kendall_loop (points : list (double * double)) (s : N * N * Z) : N * N * Z :=
  match points with
  | [] => s
  | p :: rest => kendall_loop rest (fold_left (fun s q => kendall_pair p q s) rest s)
  end.
(* correlation.h:99-106, after the loops; n is the number of points *)
Definition kendall_finish (erfc : double -> double) (n : nat) (s : N * N * Z) : option statistic :=
  let '(n1, n2, is) := s in
  if (n1 =? 0) || (n2 =? 0) then None
  else
    let tau := adjust_correlation (ddiv (double_of_Z is) (dmul (dsqrt (double_of_N n1)) (dsqrt (double_of_N n2)))) in
    let dn := double_of_N (N.of_nat n) in
    let var := ddiv (dadd (dmul (double_of_N 4) dn) (double_of_N 10)) (dmul (dmul (double_of_N 9) dn) (dsub dn d1)) in
    let z := ddiv tau (dsqrt var) in
    Some (mkstat Z_score z (normal_two_tailed_cdf erfc z) dn).
(* correlation.h:73-107; ys[k] out of range if ys is shorter than xs *)
Definition kendall_correlation_stats (erfc : double -> double) (xs ys : list double) : outcome (option statistic) :=
  if (length xs <? 2)%nat then Ok None
  else if (length ys <? length xs)%nat then UB
  else Ok (kendall_finish erfc (length xs) (kendall_loop (combine xs ys) (0, 0, 0%Z))).

(* correlation.h:29-63, the sum of the first and the mean *)
Definition mean_of (xs : list double) (n : nat) : double := ddiv (fold_left dadd xs d0) (double_of_N (N.of_nat n)).
(* correlation.h:43-52: sums of squares and products of the deviations *)
Definition dot (l : list (double * double)) : double := fold_left (fun s p => dadd s (dmul (fst p) (snd p))) l d0.
Definition deviations (xs : list double) (mean : double) : list double := map (fun x => dsub x mean) xs.
Definition pearson_r (xs ys : list double) : double * double * double :=
  let x_dev := deviations xs (mean_of xs (length xs)) in
  let y_dev := deviations ys (mean_of ys (length xs)) in
  (dot (combine x_dev x_dev), dot (combine y_dev y_dev), dot (combine x_dev y_dev)).
(* correlation.h:29-63.  Only the first xs.size() elements of ys are used; a shorter ys is read out of range. *)
Definition pearson_correlation_stats (atanh erfc : double -> double) (xs ys : list double) (z_adjustment : double) : outcome (option statistic) :=
  let n := length xs in
  if (n <? 3)%nat then Ok None
  else if (length ys <? n)%nat then UB
  else
    let '(sum_xs, sum_ys, sum_xy) := pearson_r xs (firstn n ys) in
    let dn := double_of_N (N.of_nat n) in
    if is_near sum_xs d0 || is_near sum_ys d0 then Ok (Some (mkstat Z_score d0 d1 dn))
    else
      let r := adjust_correlation (ddiv sum_xy (dmul (dsqrt sum_xs) (dsqrt sum_ys))) in
      let mean := fishers_transformation_safe atanh r in
      let z := dmul mean (dsqrt (ddiv (double_of_N (N.of_nat n - 3)) z_adjustment)) in
      Ok (Some (mkstat Z_score z (normal_two_tailed_cdf erfc z) dn)).

(* algo.h:20-27 with std::sort: the indices 0..size-1, sorted by the values they point to *)
Definition get_ranks (sort : (nat -> nat -> bool) -> list nat -> list nat) (vec : list double) : list nat :=
  sort (fun i j => dlt (nth i vec d0) (nth j vec d0)) (seq 0 (length vec)).
(* math.h:28-32 *)
Definition rescale_to_01 (x x_min x_max : double) : double :=
  if is_near x_min x_max then dconst 1 (-1) else ddiv (dsub x x_min) (dsub x_max x_min).
(* algo.h:59-76 on indices *)
Definition rescale_ranks (data : list nat) : list double :=
  match data with
  | [] => []
  | d :: rest =>
    let lo := fold_left Nat.min rest d in
    let hi := fold_left Nat.max rest d in
    map (fun v => rescale_to_01 (double_of_N (N.of_nat v)) (double_of_N (N.of_nat lo)) (double_of_N (N.of_nat hi))) data
  end.
(* correlation.h:65-71 *)
Definition spearman_correlation_stats (sort : (nat -> nat -> bool) -> list nat -> list nat) (atanh erfc : double -> double) (xs ys : list double) : outcome (option statistic) :=
  pearson_correlation_stats atanh erfc (rescale_ranks (get_ranks sort xs)) (rescale_ranks (get_ranks sort ys)) (dconst 4773815605012726 (-52)). (* 1.06 *)

(* algo.h:99-107: pairs of the next words of a stream, of which the first [pos] have been used *)
Definition create_serial_xy (w : N) (stream : nat -> N) (pos size : nat) : list double * list double :=
  (map (fun i => rescale_type_to_01 w (stream (pos + 2 * i)%nat)) (seq 0 size), map (fun i => rescale_type_to_01 w (stream (pos + 2 * i + 1)%nat)) (seq 0 size)).
(* correlation.h:110-134, for the three statistics.  The vectors have the same length, so that the statistic is never
   undefined (UB is mapped to no result here). *)
Definition correlation_test (stats : list double -> list double -> outcome (option statistic)) (max_size w n : N) (stream : nat -> N) : outcome (list sub_test) :=
  r <- split_test n max_size (fun size pos =>
    let '(xs, ys) := create_serial_xy w stream pos (N.to_nat size) in
    (match stats xs ys with Ok r => r | UB => None end, (pos + 2 * N.to_nat size)%nat)) 0%nat ;;
  Ok (fst r).
Definition pearson_correlation_test atanh erfc := correlation_test (fun xs ys => pearson_correlation_stats atanh erfc xs ys d1) 1000000.
Definition spearman_correlation_test sort atanh erfc := correlation_test (spearman_correlation_stats sort atanh erfc) 1000000.
Definition kendall_correlation_test erfc := correlation_test (kendall_correlation_stats erfc) 10000.
