(* Properties C37-C39: ranks of bit matrices and the binary rank test.
   Specifications: gf2_matrix, gf2_rank, gf2_count (RankTop.v, mathcomp's \rank over 'F_2),
   chopped and bits_lsb (BitwiseSpec.v), count (CollectSpec.v). *)
From Coq Require Import String Reals Lra.
From Flocq Require Import Core BinarySingleNaN.
From Verif Require Import Base BitwiseModel BitwiseSpec FloatModel FloatLemmas ResultModel CollectModel CollectSpec RankModel RankProofs RankCount RankBridge RankProb RankStats.
From Verif Require RankTop.
Open Scope N_scope.
Notation gf2_count := RankTop.gf2_count.

(* ---- C37 ---- *)
(* For every size and every matrix of zeros and ones: no out-of-range access and the rank over GF(2). *)
Theorem C37_rank : forall n d, length d = (n * n)%nat -> Forall (fun x => x = 0 \/ x = 1) d ->
  exists d', row_reduce_and_rank n d = Ok (d', N.of_nat (gf2_rank n d)).
Proof. intros n d L F. destruct (row_reduce_rank n d (conj L F)) as (d' & E & _). exists d'. exact E. Qed.
Print Assumptions C37_rank.
Theorem C37_at_most_n : forall n d, (gf2_rank n d <= n)%nat.
Proof. exact RankTop.gf2_rank_le. Qed.
Print Assumptions C37_at_most_n.
(* The matrix it is given is left reduced, still of zeros and ones and of the same size. *)
Theorem C37_reduced_matrix : forall n d d' r, length d = (n * n)%nat -> Forall (fun x => x = 0 \/ x = 1) d -> row_reduce_and_rank n d = Ok (d', r) ->
  length d' = (n * n)%nat /\ Forall (fun x => x = 0 \/ x = 1) d'.
Proof. intros n d d' r L F E. destruct (row_reduce_rank n d (conj L F)) as (d2 & E2 & W). rewrite E in E2. inversion E2; subst. exact W. Qed.
Print Assumptions C37_reduced_matrix.
(* A cell that is neither 0 nor 1 (set takes any uint8_t) breaks the elimination: two equal rows of rank 2. *)
Theorem C37_cells_beyond_one_refuted : exists d', row_reduce_and_rank 2 [2; 0; 2; 0] = Ok (d', 2).
Proof. eexists. vm_compute. reflexivity. Qed.
Print Assumptions C37_cells_beyond_one_refuted.
Example C37_instance : map (fun d => match row_reduce_and_rank 3 d with Ok (_, r) => r | UB => 9 end)
  [[1;0;0; 0;1;0; 0;0;1]; [1;1;0; 0;1;1; 1;0;1]; [0;0;0; 0;0;1; 0;0;1]; [0;0;0; 0;0;0; 0;0;0]; [0;1;1; 1;0;1; 1;1;1]] = [3; 2; 1; 0; 3].
Proof. vm_compute. reflexivity. Qed.

(* ---- C38 ---- *)
(* For every callback that may read and overwrite the matrix it gets (but cannot resize it): the
   callback sees exactly the consecutive n*n-bit pieces of the bits of the data, in order, whatever
   it left behind in the matrix; the incomplete last piece is dropped. *)
Theorem C38_matrices : forall (A : Type) (callback : A -> list N -> outcome (A * list N)) n, (0 < n)%nat ->
  (forall s d s' d', length d = (n * n)%nat -> callback s d = Ok (s', d') -> length d' = (n * n)%nat) ->
  forall w data s, exists blocks, chopped (n * n) (flat_map (bits_lsb (N.to_nat w)) data) blocks /\
    for_each_matrix callback w data n s = ofold (fun s b => x <- callback s (map (fun x : bool => if x then 1 else 0) b) ;; Ok (fst x)) blocks s.
Proof.
  intros A cb n Hn Hl w data s. destruct (for_each_matrix_ok cb n Hn Hl w data s) as (bl & C & E). exists bl. split; [exact C|]. rewrite E.
  clear. revert s. induction bl as [|b bl IH]; intro s; [reflexivity|]. cbn [map ofold]. unfold visit at 1. fold (bit_cells b).
  destruct (cb s (bit_cells b)) as [x|]; [|reflexivity]. cbn [obind]. apply IH.
Qed.
Print Assumptions C38_matrices.
(* The binary rank test counts, for each s, the matrices of rank n - s ... *)
Theorem C38_rank_test_counts : forall pow cdf w data n, (0 < n)%nat -> N.of_nat n < 2 ^ 64 -> exists blocks,
  chopped (n * n) (flat_map (bits_lsb (N.to_nat w)) data) blocks /\
  binary_rank_stats pow cdf w data n =
  Ok (rank_chi2 cdf (get_rank_probabilities pow n)
        (map (fun s => count (fun d => Nat.eqb (n - gf2_rank n d) s) (map (map (fun x : bool => if x then 1 else 0)) blocks)) (seq 0 (S n)))
        (N.of_nat (length blocks))).
Proof. exact rank_stats_ok. Qed.
Print Assumptions C38_rank_test_counts.
(* ... and compares bin s with the probability of rank n - s. *)
Theorem C38_rank_test_probabilities : forall pow n s d, (s <= n)%nat ->
  length (get_rank_probabilities pow n) = S n /\ nth s (get_rank_probabilities pow n) d = get_rank_probability pow n (n - s).
Proof. intros. split; [apply probs_length|apply probs_nth; assumption]. Qed.
Print Assumptions C38_rank_test_probabilities.
(* The isolated-bit variant: cell i of matrix k is the chosen bit of draw number k*n*n + i, for
   floor(w*count/n^2) matrices. *)
Theorem C38_isolated_bit : forall pow cdf w cnt stream n b, (0 < n)%nat -> N.of_nat n < 2 ^ 64 -> b < promoted w -> w * cnt < 2 ^ 64 ->
  let blocks := w * cnt / N.of_nat (n * n) in
  binary_rank_isolated_bit_stats pow cdf w cnt stream n (Z.of_N b) =
  Ok (rank_chi2 cdf (get_rank_probabilities pow n)
        (map (fun s => count (fun k => Nat.eqb (n - gf2_rank n (map (fun i => N.b2n (N.testbit (stream i) b)) (seq (k * (n * n)) (n * n)))) s)
                             (seq 0 (N.to_nat blocks))) (seq 0 (S n))) blocks).
Proof.
  intros pow cdf w cnt stream n b H0 Hn Hb Hc blocks. unfold blocks. rewrite isolated_ok by assumption. f_equal. unfold rank_chi2 at 1.
  rewrite !map_length. unfold rank_chi2. rewrite map_length. do 2 f_equal.
  assert (E : map (rank_count n (map (drawn stream n b) (seq 0 (N.to_nat (w * cnt / N.of_nat (n * n)))))) (seq 0 (S n)) =
    map (fun s => count (fun k => Nat.eqb (n - gf2_rank n (map (fun i => N.b2n (N.testbit (stream i) b)) (seq (k * (n * n)) (n * n)))) s)
                             (seq 0 (N.to_nat (w * cnt / N.of_nat (n * n))))) (seq 0 (S n))); [|rewrite E; reflexivity].
  apply map_ext. intro s. unfold rank_count, count. f_equal. generalize (seq 0 (N.to_nat (w * cnt / N.of_nat (n * n)))) as l.
  induction l as [|k l IH]; [reflexivity|]. cbn [map filter]. unfold drawn at 1. destruct (Nat.eqb _ s); cbn [length]; rewrite IH; reflexivity.
Qed.
Print Assumptions C38_isolated_bit.
(* Finding: a test of count values draws up to w times as many from the stream in that variant. *)
Theorem C38_isolated_draws_refuted : forall w cnt n, 0 < w -> (0 < n)%nat -> let blocks := w * cnt / N.of_nat (n * n) in
  w * cnt < blocks * N.of_nat (n * n) + N.of_nat (n * n) /\ blocks * N.of_nat (n * n) <= w * cnt.
Proof. intros w cnt n Hw Hn b. pose proof (N.div_mod (w * cnt) (N.of_nat (n * n)) ltac:(nia)) as D. pose proof (N.mod_lt (w * cnt) (N.of_nat (n * n)) ltac:(nia)). fold b in D. nia. Qed.
Print Assumptions C38_isolated_draws_refuted.
(* The matrix size chosen: zero, or the power of two p with about 954.42 * p^2 <= w*n < 954.42 * (2p)^2. *)
Theorem C38_matrix_size : forall w n, (w = 8 \/ w = 16 \/ w = 32 \/ w = 64) -> n <= 2 ^ 53 -> exists p, get_matrix_size w n = Ok p /\
  (p = 0 /\ 10 * (w * n) < 9545 \/ (exists k, p = 2 ^ k) /\ 9544 * (p * p) <= 10 * (w * n) < 9545 * (2 * p * (2 * p))).
Proof. exact matrix_size_ok. Qed.
Print Assumptions C38_matrix_size.
(* Finding: with fewer than about 955 bits the size is zero, and the test then writes out of range. *)
Theorem C38_small_samples_refuted : forall pow cdf w data, (w = 8 \/ w = 16 \/ w = 32 \/ w = 64) -> data <> [] -> 10 * (w * N.of_nat (length data)) < 9544 ->
  exists p, get_matrix_size w (N.of_nat (length data)) = Ok p /\ binary_rank_stats pow cdf w data (N.to_nat p) = UB.
Proof.
  intros pow cdf w data Hw Hd Hs. destruct (matrix_size_ok w (N.of_nat (length data)) Hw) as (p & E & [[-> _]|[[k Hk] [L _]]]); [lia| |].
  - exists 0. split; [exact E|]. change (N.to_nat 0) with 0%nat. unfold binary_rank_stats. rewrite for_each_matrix_0; [reflexivity|lia|exact Hd].
  - exfalso. assert (p <> 0) by (rewrite Hk; apply N.pow_nonzero; discriminate). nia.
Qed.
Print Assumptions C38_small_samples_refuted.
Example C38_instance : let cb := fun (s : list (list N)) d => Ok (s ++ [d], [9; 9; 9; 9]) in
  for_each_matrix cb 8 [179; 5] 2 [] = Ok [[1; 1; 0; 0]; [1; 1; 0; 1]; [1; 0; 1; 0]; [0; 0; 0; 0]] /\
  for_each_matrix (fun (s : list (list N)) d => Ok (s ++ [d], [9; 9; 9; 9; 9; 9; 9; 9; 9])) 8 [179] 3 [] = Ok [] /\
  map (get_matrix_size 8) [0; 119; 120; 1000; 10000] = [Ok 0; Ok 0; Ok 1; Ok 2; Ok 8].
Proof. repeat split; vm_compute; reflexivity. Qed.

(* ---- C39 ---- *)
(* The formula of the source, computed exactly, is the fraction of the 2^(n*n) matrices that have rank r ... *)
Theorem C39_formula : forall n r, (r <= n)%nat ->
  (bpow radix2 (- (Z.of_nat n - Z.of_nat r) * (Z.of_nat n - Z.of_nat r)) *
   fold_left (fun p i => p * ((1 - bpow radix2 (Z.of_nat i - Z.of_nat n)) ^ 2 / (1 - bpow radix2 (Z.of_nat i - Z.of_nat r)))) (seq 0 r) 1
   = INR (gf2_count n r) / IZR (2 ^ Z.of_nat (n * n)))%R.
Proof.
  intros n r H. rewrite RankTop.gf2_countE, <- rank_formula by exact H. f_equal.
  assert (E : forall j, fold_left (fun p i => (p * ((1 - bpow radix2 (Z.of_nat i - Z.of_nat n)) ^ 2 / (1 - bpow radix2 (Z.of_nat i - Z.of_nat r)))))%R (seq 0 j) 1%R = G n r j); [|apply E].
  induction j as [|j IH]; [reflexivity|]. rewrite seq_S, fold_left_app. cbn [fold_left Nat.add]. rewrite IH. cbn [G]. f_equal. unfold two. unfold Rdiv. f_equal. ring.
Qed.
Print Assumptions C39_formula.
(* ... and every matrix has exactly one rank from 0 to n, so that these fractions add up to 1. *)
Theorem C39_counts_add_up : forall n, Z.of_nat (list_sum (map (gf2_count n) (seq 0 (S n)))) = (2 ^ Z.of_nat (n * n))%Z.
Proof. exact count_rank_all. Qed.
Print Assumptions C39_counts_add_up.
(* The double returned is that fraction within relative error (14r+2)/2^53 while n - r <= 31 (and with a
   negligible absolute error beyond), given that std::pow is exact on the powers of two it is used for. *)
Theorem C39_accuracy : forall pow n r, pow2_exact pow -> (r <= n)%nat -> (Z.of_nat n <= 2 ^ 26)%Z ->
  let p := get_rank_probability pow n r in let q := (INR (gf2_count n r) / IZR (2 ^ Z.of_nat (n * n)))%R in
  fin p /\ ((n - r <= 31)%nat -> (Rabs (dval p - q) <= INR (14 * r + 2) * bpow radix2 (-53) * q)%R) /\
  (Rabs (dval p - q) <= INR (14 * r + 2) * bpow radix2 (-53) * q + bpow radix2 (-900))%R.
Proof. exact rank_probability_ok. Qed.
Print Assumptions C39_accuracy.

(* A correct pow meets the hypothesis. *)
Definition exact_pow (_ y : double) : double := Bldexp mode_NE d1 (Btrunc y).
Example C39_hypothesis_met : pow2_exact exact_pow.
Proof.
  intros z Hz v. assert (E : Btrunc (double_of_Z z) = z).
  { apply eq_IZR. rewrite Btrunc_correct by reflexivity. assert (F0 : F2R (Float radix2 z 0) = IZR z) by (unfold F2R; cbn [Fnum Fexp bpow]; ring).
    destruct (dconst_ok z 0) as [V _]; [rewrite F0; apply (small_bpow _ 64); [lia|]; rewrite <- abs_IZR; change (bpow radix2 64) with (IZR (2 ^ 64)); apply IZR_le; lia|].
    rewrite F0, rnd_id in V by (apply F64_Z; lia). unfold double_of_Z. unfold dval in V. rewrite V. rewrite round_generic; [reflexivity|apply valid_rnd_ZR|].
    apply generic_format_FIX. exists (Float radix2 z 0); [unfold F2R; cbn; ring|reflexivity]. }
  unfold v, exact_pow. rewrite E. pose proof (Bldexp_correct 53 1024 _ _ mode_NE d1 z) as C. destruct d1_val as [V1 F1]. fold (dval d1) in C. rewrite V1 in C. rewrite Rmult_1_l in C.
  assert (LE : (bpow radix2 z <= 1)%R) by (apply (bpow_le radix2 z 0); lia). pose proof (bpow_gt_0 radix2 z) as GT.
  assert (RB : (0 <= rnd (bpow radix2 z) <= 1)%R) by (apply rnd_between; [apply (F64_Z 0); lia|apply F64_1|lra]).
  rewrite Rlt_bool_true in C.
  - destruct C as (C1 & C2 & _). unfold fin, dval in *. rewrite C2. split; [exact F1|].
    assert (C1' : B2R (Bldexp mode_NE d1 z) = rnd (bpow radix2 z)) by exact C1. clear C1. rewrite C1'. destruct (Z.ltb_spec z (-1074)).
    + split; [lra|]. apply Rle_trans with (rnd (bpow radix2 (-1074))); [apply rnd_mono, bpow_le; lia|]. rewrite rnd_id; [apply Rle_refl|apply F64_bpow; lia].
    + apply rnd_id, F64_bpow. lia.
  - apply Rle_lt_trans with 1%R; [change (Rabs (rnd (bpow radix2 z)) <= 1)%R; rewrite Rabs_pos_eq; lra|]. apply (bpow_lt radix2 0 1024). lia.
Qed.
Example C39_instance : fin (get_rank_probability exact_pow 2 1) /\ dval (get_rank_probability exact_pow 2 1) = (9 / 16)%R.
Proof.
  assert (E : B2SF (get_rank_probability exact_pow 2 1) = SpecFloat.S754_finite false 5066549580791808 (-53)) by (vm_compute; reflexivity).
  split; [unfold fin; rewrite <- is_finite_SF_B2SF, E; reflexivity|]. unfold dval. rewrite <- SF2R_B2SF, E. unfold SF2R, F2R. cbn [Fnum Fexp SpecFloat.cond_Zopp].
  change (bpow radix2 (-53)) with (/ 9007199254740992)%R. lra.
Qed.
