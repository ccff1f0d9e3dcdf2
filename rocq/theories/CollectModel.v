(* Model of the counting parts of core/src/statistics: run.h, gap.h, coupon.h, divisibility.h,
   permutation.h, avalanche.h, serial_avalanche.h, chi2.h and merge_bins of core/src/util/algo.h.
   The argument 'data' is the list of the values visited by the range-for loop over the data (for a
   ranged_stream: its first n values, see StreamModel).
   Simplification: 64-bit counters of visited elements are unbounded here (they count elements of a
   range, of which there are fewer than 2^64). *)
From Verif Require Import Base BitwiseModel FloatModel ResultModel.
Open Scope N_scope.

(* math.h:16-18 *)
Definition is_near_eps (a b eps : double) : bool := dle (dabs (dsub a b)) eps.
Definition is_near (a b : double) : bool := is_near_eps a b (dconst 4722366482869645 (-72)). (* 1e-6 *)
(* math.h:34-38 *)
Definition rescale_type_to_01 (w x : N) : double := ddiv (double_of_N x) (double_of_N (2 ^ w - 1)).
(* v[i]++ for std::vector *)
Definition vec_inc (h : list N) (i : nat) : outcome (list N) := c <- at_ h i ;; Ok (upd h i (c + 1)).

(* ---------- run.h:7-39 ---------- *)
Record runs_data : Type := mkruns { rd_runs : N; rd_plus : N; rd_minus : N }.
Definition runs_step (cutoff : N) (s : runs_data * bool) (v : N) : runs_data * bool :=
  let '(mkruns r p m, cur) := s in
  if v =? cutoff then s
  else
    let g := cutoff <? v in
    let '(p, m) := if g then (p + 1, m) else (p, m + 1) in
    if xorb g cur then (mkruns (r + 1) p m, negb cur) else (mkruns r p m, cur).
Definition generate_runs_data (data : list N) (cutoff : N) : runs_data :=
  match data with
  | [] => mkruns 0 0 0
  | v :: _ => fst (fold_left (runs_step cutoff) data (mkruns 1 0 0, cutoff <? v))
  end.
(* 57: numeric_limits<T>::max() / 2 *)
Definition runs_cutoff (w : N) : N := (2 ^ w - 1) / 2.

(* ---------- gap.h:12-30 ---------- *)
(* 23: the membership test of one value; 16-18 replace b by 2 when it is near 1 *)
Definition in_gap (w : N) (a b : double) (x : N) : bool :=
  let b := if is_near_eps b d1 (dconst 6338253001141147 (-99)) then double_of_N 2 else b in
  let v := rescale_type_to_01 w x in dle a v && dlt v b.
(* 24: gaps[min(current_gap, gaps.size() - 1)]; an empty vector is accessed out of range *)
Definition gap_step (hit : N -> bool) (s : list N * nat) (x : N) : outcome (list N * nat) :=
  let '(gaps, current_gap) := s in
  if hit x then g <- vec_inc gaps (Nat.min current_gap (length gaps - 1)) ;; Ok (g, O)
  else Ok (gaps, S current_gap).
Definition generate_gaps (w : N) (max_gap_size : nat) (a b : double) (data : list N) : outcome (list N) :=
  s <- ofold (gap_step (in_gap w a b)) data (repeat 0 max_gap_size, O) ;; Ok (fst s).

(* ---------- coupon.h:12-34 ---------- *)
(* 18-19 *)
Definition coupon_id (w wanted x : N) : outcome N :=
  i <- N_of_double 64 (dmul (double_of_N wanted) (rescale_type_to_01 w x)) ;;
  Ok (N.min i (wrap 64 (wanted + (2 ^ 64 - 1)))).
(* 21-32; the std::set is a list without repetitions *)
Definition coupon_step (w wanted : N) (s : list N * list N * N) (x : N) : outcome (list N * list N * N) :=
  let '(collected, h, draw_count) := s in
  i <- coupon_id w wanted x ;;
  let draw_count := draw_count + 1 in
  if existsb (N.eqb i) collected then Ok (collected, h, draw_count)
  else
    let collected := i :: collected in
    if N.of_nat (length collected) =? wanted then
      let index := N.to_nat (wrap 64 (draw_count + (2 ^ 64 - wanted))) in
      h <- vec_inc h (Nat.min (length h - 1) index) ;; Ok ([], h, 0)
    else Ok (collected, h, draw_count).
Definition collect_coupons (w wanted : N) (tracked : nat) (data : list N) : outcome (list N) :=
  s <- ofold (coupon_step w wanted) data ([], repeat 0 tracked, 0) ;; Ok (snd (fst s)).

(* ---------- divisibility.h:12-33 ---------- *)
Definition divisible_step (divisor wanted : N) (s : list N * N * N) (x : N) : outcome (list N * N * N) :=
  let '(h, draw_count, collected) := s in
  if divisor =? 0 then UB
  else
    let draw_count := draw_count + 1 in
    if negb (x mod divisor =? 0) then Ok (h, draw_count, collected)
    else
      let collected := collected + 1 in
      if collected <? wanted then Ok (h, draw_count, collected)
      else
        let index := N.to_nat (wrap 64 (draw_count + (2 ^ 64 - wanted))) in
        h <- vec_inc h (Nat.min (length h - 1) index) ;; Ok (h, 0, 0).
Definition collect_divisible (divisor wanted : N) (tracked : nat) (data : list N) : outcome (list N) :=
  s <- ofold (divisible_step divisor wanted) data (repeat 0 tracked, 0, 0) ;; Ok (fst (fst s)).

(* ---------- permutation.h:7-18 ---------- *)
(* uint8_t counters; sliding_bit_window hands over the windows (bitwise.h:147-164) *)
Definition permutation_step (h : list N) (v : N) : outcome (list N) :=
  c <- at_ h (N.to_nat v) ;; Ok (if c <? 255 then upd h (N.to_nat v) (c + 1) else h).
Definition get_permutation_histogram (w : N) (data : list N) (window_size : N) : outcome (list N) :=
  if 64 <=? window_size then UB
  else
    windows <- sliding_bit_window w data (Z.of_N window_size) ;;
    ofold permutation_step windows (repeat 0 (N.to_nat (2 ^ window_size))).

(* ---------- avalanche.h:8-43 ---------- *)
Definition sac_sample (w : N) (mix : N -> N) (sac : list N) (s : N) : outcome (list N) :=
  let x := mix s in
  let h0 := mix x in
  ofold (fun sac j =>
    y <- flip_bit w x (Z.of_nat j) ;;
    vec_inc sac (N.to_nat (bit_count (N.lxor h0 (mix y))))) (seq 0 (N.to_nat w)) sac.
Definition avalanche_generate_sac (w : N) (mix : N -> N) (data : list N) : outcome (list N) :=
  ofold (sac_sample w mix) data (repeat 0 (S (N.to_nat w))).
Definition vec_add (h : list N) (i : nat) (d : N) : outcome (list N) := c <- at_ h i ;; Ok (upd h i (c + d)).
Definition bic_sample (w : N) (mix : N -> N) (bic : list N) (s : N) : outcome (list N) :=
  let x := mix s in
  let h0 := mix x in
  let bits := N.to_nat w in
  ofold (fun bic j =>
    y <- flip_bit w x (Z.of_nat j) ;;
    let change := N.lxor h0 (mix y) in
    ofold (fun bic k => vec_add bic (j * bits + k) (N.land (N.shiftr change (N.of_nat k)) 1)) (seq 0 bits) bic)
    (seq 0 bits) bic.
Definition avalanche_generate_bic (w : N) (mix : N -> N) (data : list N) : outcome (list N) :=
  ofold (bic_sample w mix) data (repeat 0 (N.to_nat w * N.to_nat w)).

(* ---------- serial_avalanche.h:13-23 ---------- *)
(* data: the first 2n values of the stream, taken in pairs *)
Definition matrix_inc (m : list (list N)) (i j : nat) : outcome (list (list N)) :=
  row <- at_ m i ;; row <- vec_inc row j ;; Ok (upd m i row).
Fixpoint serial_count_loop (data : list N) (m : list (list N)) : outcome (list (list N)) :=
  match data with
  | x :: y :: rest =>
      m <- matrix_inc m (N.to_nat (bit_count x)) (N.to_nat (bit_count y)) ;; serial_count_loop rest m
  | _ => Ok m
  end.
Definition serial_avalanche_count (w : N) (data : list N) : outcome (list (list N)) :=
  let size := S (N.to_nat w) in serial_count_loop data (repeat (repeat 0 size) size).

(* ---------- algo.h:150-180 merge_bins ---------- *)
(* state: reversed observed and expected results and the running sums *)
Definition merge_step (threshold : double) (s : list N * list double * N * double) (oe : N * double)
  : list N * list double * N * double :=
  let '(ro, re, os, es) := s in
  let es := dadd es (snd oe) in
  let os := wrap 64 (os + fst oe) in
  if dle threshold es then (os :: ro, es :: re, 0, d0) else (ro, re, os, es).
Definition merge_bins (observed : list N) (expected : list double) (threshold : double)
  : outcome (list N * list double) :=
  if (length expected <? length observed)%nat then UB
  else
    let '(ro, re, os, es) := fold_left (merge_step threshold) (combine observed expected) ([], [], 0, d0) in
    Ok match ro, re with
       | o :: ro, e :: re => (rev (wrap 64 (o + os) :: ro), rev (dadd e es :: re))
       | _, _ => ([], [])
       end.

(* ---------- chi2.h:30-41 bin_data_for_chi2 ---------- *)
Definition bin_index (w : N) (bins : N) (x : N) : outcome N :=
  i <- N_of_double 64 (dmul (double_of_N bins) (rescale_type_to_01 w x)) ;;
  Ok (N.min (wrap 64 (bins + (2 ^ 64 - 1))) i).
Definition bin_data_for_chi2 (w : N) (bin_count : N) (data : list N) : outcome (list N) :=
  ofold (fun bins x => i <- bin_index w bin_count x ;; vec_inc bins (N.to_nat i)) data (repeat 0 (N.to_nat bin_count)).

(* ---------- chi2.h:43-60 chi2_stats ---------- *)
(* cdf models chi2_distribution_cdf; observed and expected are functions of the index (types.h:216-235) *)
Definition chi2_step (observed expected : nat -> double) (threshold : double) (s : double * double) (i : nat) : double * double :=
  let '(chi2, df) := s in
  let e := expected i in
  if dle e threshold then s
  else let diff := dsub (observed i) e in (dadd chi2 (ddiv (dmul diff diff) e), dadd df d1).
Definition chi2_stats (cdf : double -> double -> double) (n : nat) (observed expected : nat -> double) (threshold : double)
  : option statistic :=
  let '(chi2, df) := fold_left (chi2_step observed expected threshold) (seq 0 n) (d0, d0) in
  let df := dmax (dsub df d1) d0 in
  if is_near df d0 then None else Some (mkstat Chi2 chi2 (cdf chi2 df) df).
