(* Model of core/src/statistics/linear_complexity.h *)
From Coq Require Import String.
From Verif Require Import Base BitwiseModel FloatModel ResultModel CollectModel RankModel.
Open Scope N_scope.

(* 31-35: s ^= c[j] & u[n-j-1] for j = 1..l.  The elements of the vectors are non-negative ints;
   a negative index is undefined. *)
Definition bm_s (u c : list N) (n l : nat) : outcome N :=
  s <- at_ u (n - 1) ;;
  ofold (fun s j => cj <- at_ c j ;; if (n <? j + 1)%nat then UB else (uj <- at_ u (n - j - 1) ;; Ok (N.lxor s (N.land cj uj)))) (seq 1 l) s.
Record bm_state : Type := mkbm { bm_b : list N; bm_c : list N; bm_tmp : list N; bm_l : nat; bm_m : nat }.
(* 40 std::copy(cbegin(b), cbegin(b) + k, begin(b_tmp)) *)
Definition vec_copy (from : list N) (k : nat) (to : list N) : outcome (list N) :=
  if (k <=? length from)%nat && (k <=? length to)%nat then Ok (firstn k from ++ skipn k to) else UB.
(* 46-48 *)
Definition bm_add (tmp : list N) (from to : nat) (c : list N) : outcome (list N) :=
  ofold (fun c j => cj <- at_ c j ;; bj <- at_ tmp (j - from) ;; Ok (upd c j (N.lxor cj bj))) (seq from (to - from)) c.
(* 30-50: one iteration; n - m is the int difference (negative would index out of range) *)
Definition bm_step (u : list N) (st : bm_state) (n : nat) : outcome bm_state :=
  let len := length u in
  let l := bm_l st in
  s <- bm_s u (bm_c st) n l ;;
  if s =? 0 then Ok st
  else if (n <? bm_m st)%nat then UB
  else
    let from := (n - bm_m st)%nat in
    let to := Nat.min len (from + l + 1) in
    tmp <- vec_copy (bm_b st) (l + 1) (bm_tmp st) ;;
    let '(l', m', b') := if (2 * l <=? n)%nat then ((n - l)%nat, n, bm_c st) else (l, bm_m st, bm_b st) in
    c' <- bm_add tmp from to (bm_c st) ;;
    Ok (mkbm b' c' tmp l' m').
(* 23-54; b[0] = c[0] = 1 is undefined for an empty vector; u.size() < 2^31 *)
Definition berlekamp_massey (u : list N) : outcome nat :=
  match u with
  | [] => UB
  | _ :: r =>
    let one := 1 :: repeat 0 (length r) in
    st <- ofold (bm_step u) (seq 1 (length u)) (mkbm one one (repeat 0 (length u)) O O) ;;
    Ok (bm_l st)
  end.

(* conversion uint64_t -> int64_t *)
Definition int64_of (x : N) : Z := if x <? 2 ^ 63 then Z.of_N x else (Z.of_N x - 2 ^ 64)%Z.
(* 10-20; the arithmetic is modulo 2^64 *)
Definition lfsr_log2_probability (block_size lfsr_length : N) : Z :=
  int64_of
    (if lfsr_length =? 0 then wrap 64 (2 ^ 64 - wrap 64 block_size)
     else if lfsr_length <=? block_size / 2 then wrap 64 (wrap 64 (2 * lfsr_length) + (2 ^ 64 - block_size) + (2 ^ 64 - 1))
     else wrap 64 (block_size + (2 ^ 64 - wrap 64 (2 * lfsr_length)))).
Section Lib.
Variables (pow : double -> double -> double) (cdf : double -> double -> double).
(* 56-64: sum is only used in an assertion that is compiled out *)
Definition get_expected_probabilities (block_size : nat) : list double :=
  map (fun l => pow (double_of_N 2) (double_of_Z (lfsr_log2_probability (N.of_nat block_size) (N.of_nat l)))) (seq 0 (S block_size)).
(* 66-84; [stream k] is the k-th value drawn *)
Definition linear_complexity_stats (w n : N) (stream : nat -> N) (block_size : nat) (bit : Z) : outcome (option statistic) :=
  if (block_size =? 0)%nat then UB
  else
    let ps := get_expected_probabilities block_size in
    let blocks := n / N.of_nat block_size in
    counts <- ofold (fun counts b =>
      bits <- omapM (fun i => x <- is_bit_set w (stream i) bit ;; Ok (if x : bool then 1 else 0)) (seq (b * block_size) block_size) ;;
      l <- berlekamp_massey bits ;;
      vec_inc counts l) (seq 0 (N.to_nat blocks)) (repeat 0 (length ps)) ;;
    Ok (rank_chi2 cdf ps counts blocks).
(* 86-95: each call takes a fresh copy of the stream; the results with their names *)
Definition linear_complexity_test (w n : N) (stream : nat -> N) : outcome (list (option statistic)) :=
  let block_size := n / 1024 in
  if block_size <? 8 then Ok []
  else (s <- linear_complexity_stats w n stream (N.to_nat block_size) 0 ;; Ok [s]).
End Lib.
