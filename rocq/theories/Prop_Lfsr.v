(* Properties C40, C41: linear complexity.  Specification: LfsrSpec.v. *)
From Coq Require Import String Reals Lra.
From Flocq Require Import Core BinarySingleNaN.
From Verif Require Import Base BitwiseModel FloatModel FloatLemmas ResultModel CollectModel CollectSpec RankModel RankProb LfsrModel LfsrSpec LfsrProofs LfsrCount LfsrStats.
Open Scope N_scope.

(* ---- C40 ---- *)
(* No out-of-range access, and the length of the shortest register that generates the sequence. *)
Theorem C40_shortest_register : forall u : list bool, u <> [] ->
  exists L, berlekamp_massey (map (fun b : bool => if b then 1 else 0) u) = Ok L /\ linear_complexity u L.
Proof. exact bm_lc. Qed.
Print Assumptions C40_shortest_register.
Theorem C40_unique : forall u L L', linear_complexity u L -> linear_complexity u L' -> L = L'.
Proof. exact lc_unique. Qed.
Print Assumptions C40_unique.
(* An empty sequence is undefined behaviour (b[0] of an empty vector). *)
Theorem C40_empty_refuted : berlekamp_massey [] = UB /\ linear_complexity [] 0.
Proof. split; [reflexivity|exact (lcf_ok [])]. Qed.
Print Assumptions C40_empty_refuted.
Example C40_instance : map (fun u => berlekamp_massey u) [[0;0;0;0]; [0;0;0;1]; [1;1;1;1]; [1;0;1;0;1]; [0;0;1;1;0;1;1;1;0]; [1;1;0;1;0;1;1;0;0;1;0;0;0;1;1;1;1;0]]
  = [Ok 0%nat; Ok 4%nat; Ok 1%nat; Ok 2%nat; Ok 5%nat; Ok 4%nat].
Proof. vm_compute. reflexivity. Qed.

(* ---- C41 ---- *)
(* Of the sequences of n bits exactly 2^(n + lfsr_log2_probability(n, L)) have linear complexity L. *)
Theorem C41_counts : forall n L, (0 < n)%nat -> N.of_nat n < 2 ^ 62 -> (L <= n)%nat -> exists l,
  NoDup l /\ (forall u, In u l <-> length u = n /\ linear_complexity u L) /\
  let e := lfsr_log2_probability (N.of_nat n) (N.of_nat L) in (- Z.of_nat n <= e < 0)%Z /\ Z.of_nat (length l) = (2 ^ (Z.of_nat n + e))%Z.
Proof.
  intros n L H0 Hn HL. destruct (lc_counts n L) as (l & ND & M & C). exists l. split; [exact ND|]. split; [exact M|]. rewrite C. apply log2_prob_count; assumption.
Qed.
Print Assumptions C41_counts.
(* The numbers of sequences by complexity, in closed form; none beyond n, and they add up to 2^n. *)
Theorem C41_closed_form : forall n L, exists l, NoDup l /\ (forall u, In u l <-> length u = n /\ linear_complexity u L) /\
  length l = if (L =? 0)%nat then 1%nat else if (n <? L)%nat then 0%nat else if (2 * L <=? n)%nat then (2 ^ (2 * L - 1))%nat else (2 ^ (2 * n - 2 * L))%nat.
Proof. exact lc_counts. Qed.
Print Assumptions C41_closed_form.
Theorem C41_add_up : forall n, list_sum (map (fun L => if (L =? 0)%nat then 1%nat else if (n <? L)%nat then 0%nat else if (2 * L <=? n)%nat then (2 ^ (2 * L - 1))%nat else (2 ^ (2 * n - 2 * L))%nat) (seq 0 (S n))) = (2 ^ n)%nat.
Proof. exact lc_count_total. Qed.
Print Assumptions C41_add_up.
(* The doubles used are these fractions exactly (as long as they are not below the smallest double). *)
Theorem C41_probabilities : forall pow n L d, pow2_exact pow -> (0 < n)%nat -> (Z.of_nat n <= 2 ^ 53)%Z -> (L <= n)%nat -> exists l,
  NoDup l /\ (forall u, In u l <-> length u = n /\ linear_complexity u L) /\
  let p := nth L (get_expected_probabilities pow n) d in let q := (INR (length l) / IZR (2 ^ Z.of_nat n))%R in
  fin p /\ ((bpow radix2 (-1074) <= q)%R -> dval p = q) /\ (Rabs (dval p - q) <= bpow radix2 (-1074))%R.
Proof.
  intros pow n L d HP H0 Hn HL. destruct (lc_counts n L) as (l & ND & M & C). exists l. split; [exact ND|]. split; [exact M|]. rewrite C. apply lc_prob_ok; assumption.
Qed.
Print Assumptions C41_probabilities.
(* The test: bin L counts the blocks of linear complexity L; block k is the chosen bit of the draws
   k*bs .. k*bs + bs - 1, for floor(n/bs) blocks. *)
Theorem C41_test_counts : forall pow cdf w n stream bs b, (0 < bs)%nat -> b < promoted w -> exists lc : list bool -> nat,
  (forall u, linear_complexity u (lc u)) /\
  linear_complexity_stats pow cdf w n stream bs (Z.of_N b) =
  Ok (rank_chi2 cdf (get_expected_probabilities pow bs)
        (map (fun L => count (fun k => Nat.eqb (lc (map (fun i => N.testbit (stream i) b) (seq (k * bs) bs))) L) (seq 0 (N.to_nat (n / N.of_nat bs)))) (seq 0 (S bs)))
        (n / N.of_nat bs)).
Proof. intros. exists lcf. split; [exact lcf_ok|]. apply lc_stats_ok; assumption. Qed.
Print Assumptions C41_test_counts.
(* The test is skipped below 8192 values, and otherwise uses blocks of floor(n/1024) >= 8 bits. *)
Theorem C41_test_size : forall pow cdf w n stream,
  (n < 8192 -> linear_complexity_test pow cdf w n stream = Ok []) /\
  (8192 <= n -> linear_complexity_test pow cdf w n stream = (s <- linear_complexity_stats pow cdf w n stream (N.to_nat (n / 1024)) 0 ;; Ok [s])).
Proof. split; [apply lc_test_small|apply lc_test_ok]. Qed.
Print Assumptions C41_test_size.
Example C41_instance : map (fun L => lfsr_log2_probability 6 L) [0; 1; 2; 3; 4; 5; 6] = [-6; -5; -3; -1; -2; -4; -6]%Z /\
  linear_complexity_stats (fun _ _ => d1) (fun _ _ => d1) 8 7 (fun i => N.of_nat i) 3 0 <> UB.
Proof. split; [vm_compute; reflexivity|]. change 0%Z with (Z.of_N 0). rewrite lc_stats_ok; [discriminate|lia|reflexivity]. Qed.
