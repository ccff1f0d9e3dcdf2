(* Model of core/src/types.h:241-273 (binary_square_matrix) and core/src/statistics/binary_rank.h.
   A matrix of size n is its _data vector (row-major, one uint8_t per cell). *)
From Coq Require Import String.
From Verif Require Import Base BitwiseModel FloatModel ResultModel CollectModel.
Open Scope N_scope.

(* types.h:254-264 get / set; the vector access is unchecked *)
Definition mget (n : nat) (d : list N) (row col : nat) : outcome N := at_ d (row * n + col).
Definition mset (n : nat) (d : list N) (row col : nat) (v : N) : outcome (list N) :=
  if (row * n + col <? length d)%nat then Ok (upd d (row * n + col) v) else UB.
(* types.h:243 *)
Definition mnew (n : nat) : list N := repeat 0 (n * n).

(* binary_rank.h:17-20 *)
Fixpoint find_col (n : nat) (d : list N) (row col left : nat) : outcome nat :=
  match left with
  | O => Ok col
  | S left' => x <- mget n d row col ;; if x =? 0 then find_col n d row (S col) left' else Ok col
  end.
(* 27-29: the ^= of one cell *)
Definition xor_cell (n row r : nat) (d : list N) (c : nat) : outcome (list N) :=
  a <- mget n d r c ;; b <- mget n d row c ;; mset n d r c (N.lxor a b).
(* 26-30 *)
Definition eliminate (n row col : nat) (d : list N) (r : nat) : outcome (list N) :=
  x <- mget n d r col ;;
  if x =? 1 then ofold (xor_cell n row r) (seq col (n - col)) d else Ok d.
(* 16-33 *)
Definition reduce_row (n : nat) (s : list N * N) (row : nat) : outcome (list N * N) :=
  let '(d, rank) := s in
  col <- find_col n d row 0 n ;;
  if (col <? n)%nat then
    d <- ofold (eliminate n row col) (seq (S row) (n - S row)) d ;; Ok (d, rank + 1)
  else Ok (d, rank).
(* 11-36: the reduced matrix and the rank *)
Definition row_reduce_and_rank (n : nat) (d : list N) : outcome (list N * N) :=
  if (n =? 0)%nat then Ok (d, 0) else ofold (reduce_row n) (seq 0 n) (d, 0).

(* 38-53.  The callback gets the matrix by reference and may change it: [callback s d] is the new
   state of the caller and the matrix left behind. *)
Definition matrix_step {A : Type} (callback : A -> list N -> outcome (A * list N)) (n : nat)
    (st : nat * nat * list N * A) (bit : bool) : outcome (nat * nat * list N * A) :=
  let '(c, r, d, s) := st in
  d <- mset n d r c (if bit then 1 else 0) ;;
  let '(c, r) := if (S c =? n)%nat then (O, S r) else (S c, r) in
  if (c =? 0)%nat && (r =? n)%nat then x <- callback s d ;; Ok (c, O, snd x, fst x)
  else Ok (c, r, d, s).
Definition for_each_matrix {A : Type} (callback : A -> list N -> outcome (A * list N)) (w : N) (data : list N) (n : nat) (s : A) : outcome A :=
  bits <- for_each_bit w data ;;
  st <- ofold (matrix_step callback n) bits (O, O, mnew n, s) ;; Ok (snd st).

Section Lib.
(* std::pow and the chi-square distribution *)
Variables (pow : double -> double -> double) (cdf : double -> double -> double).
Definition double_of_Z (z : Z) : double := dconst z 0.
(* 55-67; n, r < 2^31 so that the integer products do not overflow *)
Definition rank_factor (n r : nat) (p : double) (i : nat) : double :=
  let numerator := dsub d1 (pow (double_of_N 2) (double_of_Z (Z.of_nat i - Z.of_nat n))) in
  let numerator := dmul numerator numerator in
  dmul p (ddiv numerator (dsub d1 (pow (double_of_N 2) (double_of_Z (Z.of_nat i - Z.of_nat r))))).
Definition get_rank_probability (n r : nat) : double :=
  let c := pow (double_of_N 2) (double_of_Z (- (Z.of_nat n - Z.of_nat r) * (Z.of_nat n - Z.of_nat r))) in
  dmul c (fold_left (rank_factor n r) (seq 0 r) d1).
(* 69-81: pushed to the front *)
Definition get_rank_probabilities (n : nat) : list double := rev (map (get_rank_probability n) (seq 0 (S n))).
(* 88-94: the callback; the state is rank_counts and blocks *)
Definition rank_callback (n : nat) (s : list N * N) (d : list N) : outcome ((list N * N) * list N) :=
  let '(rank_counts, blocks) := s in
  x <- row_reduce_and_rank n d ;;
  let '(d, r) := x in
  rank_counts <- vec_inc rank_counts (N.to_nat (wrap 64 (N.of_nat n + (2 ^ 64 - r)))) ;;
  Ok ((rank_counts, blocks + 1), d).
Definition rank_chi2 (ps : list double) (rank_counts : list N) (blocks : N) : option statistic :=
  chi2_stats cdf (length rank_counts) (fun i => double_of_N (nth i rank_counts 0)) (fun i => dmul (nth i ps d0) (double_of_N blocks)) (double_of_N 5).
(* 83-97; data are the n values of the range *)
Definition binary_rank_stats (w : N) (data : list N) (n : nat) : outcome (option statistic) :=
  let ps := get_rank_probabilities n in
  s <- for_each_matrix (rank_callback n) w data n (repeat 0 (length ps), 0) ;;
  Ok (rank_chi2 ps (fst s) (snd s)).
(* 106-109: the cells of one block, row by row *)
Definition fill_block (w : N) (n : nat) (bit : Z) (values : list N) : outcome (list N) :=
  ofold (fun d k => v <- at_ values k ;; b <- is_bit_set w v bit ;; mset n d (k / n) (k mod n) (if b then 1 else 0)) (seq 0 (n * n)) (mnew n).
(* 99-117; [stream k] is the k-th value drawn. Division by zero is undefined. *)
Definition binary_rank_isolated_bit_stats (w : N) (count : N) (stream : nat -> N) (n : nat) (bit : Z) : outcome (option statistic) :=
  if (n =? 0)%nat then UB
  else
    let blocks := wrap 64 (w * count) / N.of_nat (n * n) in
    let ps := get_rank_probabilities n in
    counts <- ofold (fun h b =>
      d <- fill_block w n bit (map stream (seq (b * (n * n)) (n * n))) ;;
      x <- row_reduce_and_rank n d ;;
      vec_inc h (N.to_nat (wrap 64 (N.of_nat n + (2 ^ 64 - snd x))))) (seq 0 (N.to_nat blocks)) (repeat 0 (length ps)) ;;
    Ok (rank_chi2 ps counts blocks).
End Lib.
(* 120-125; bit_sizeof<T>() / (5. / 0.0052387863054258942636) is rounded at compile time.
   0.0052387863054258942636 is the double 6039909389565367 * 2^-60. *)
Definition rank_multiplier (w : N) : double := ddiv (double_of_N w) (ddiv (double_of_N 5) (dconst 6039909389565367 (-60))).
Definition get_matrix_size (w n : N) : outcome N :=
  x <- N_of_double 64 (Bsqrt mode_NE (dmul (double_of_N n) (rank_multiplier w))) ;; bit_floor 64 x.
