(* Properties C44 (results), C61, C66, C67: binomial coefficients, z tests, runs and mean test, medians. *)
From Coq Require Import String Reals Lra.
From Flocq Require Import Core BinarySingleNaN.
From Verif Require Import Base FloatModel FloatLemmas ResultModel CollectModel RescaleProofs StatsModel StatsSpec StatsProofs ErrorSpec StatFormulas SerialProofs.
Open Scope N_scope.

(* ---- C66: binomial coefficients ---- *)
(* The floating-point loop returns the exact coefficient whenever 12 * k * C(n,k) < 2^53 ... *)
Theorem C66_exact : forall n k, n < 2 ^ 32 -> k < 2 ^ 32 - 1 -> 12 * k * choose (N.to_nat n) (N.to_nat k) < 2 ^ 53 ->
  binomial_coefficient n k = Ok (choose (N.to_nat n) (N.to_nat k)).
Proof. exact binomial_exact. Qed.
Print Assumptions C66_exact.
(* ... in particular for every row up to 43, which covers the 8, 16 and 32 bit words ... *)
Theorem C66_exact_rows : forall n k, n <= 43 -> k < 2 ^ 32 - 1 -> binomial_coefficient n k = Ok (choose (N.to_nat n) (N.to_nat k)).
Proof. exact binomial_small. Qed.
Print Assumptions C66_exact_rows.
(* ... and otherwise, as long as the coefficient is at most 2^63, within 6k/2^53 relative error plus the final rounding. *)
Theorem C66_accurate : forall n k, n < 2 ^ 32 -> k < 2 ^ 32 - 1 -> choose (N.to_nat n) (N.to_nat k) <= 2 ^ 63 ->
  exists r, binomial_coefficient n k = Ok r /\
    (Rabs (IZR (Z.of_N r) - IZR (Z.of_N (choose (N.to_nat n) (N.to_nat k)))) <=
     / 2 + 6 * IZR (Z.of_N k) * bpow radix2 (-53) * IZR (Z.of_N (choose (N.to_nat n) (N.to_nat k))))%R.
Proof. exact binomial_accurate. Qed.
Print Assumptions C66_accurate.
(* [choose] counts the n-bit words (bit strings of length n) with k bits set. *)
Theorem C66_choose_meaning : forall n k, choose n k = N.of_nat (length (filter (fun s => Nat.eqb (count_occ Bool.bool_dec s true) k) (bit_words n))).
Proof. exact choose_counts. Qed.
Print Assumptions C66_choose_meaning.
(* Exactness fails for 64-bit words: C(64,17) is one too small. *)
Theorem C66_row_64_refuted : binomial_coefficient 64 17 = Ok (choose 64 17 - 1) /\ choose 64 17 = 1379370175283520.
Proof. rewrite <- (pascal_ok 64 17) by lia. vm_compute. split; reflexivity. Qed.
Print Assumptions C66_row_64_refuted.
Example C66_row_64_wrong_at : filter (fun k => negb match binomial_coefficient 64 (N.of_nat k) with Ok r => r =? nth k (pascal_row 64) 0 | UB => false end) (seq 0 65) =
  [17; 18; 20; 22; 23; 24; 26; 27; 28; 29; 30; 31; 32; 33; 34; 35; 36; 37; 38; 39; 40; 42; 43; 44; 47]%nat.
Proof. vm_compute. reflexivity. Qed.
Example C66_instance : binomial_coefficient 32 16 = Ok 601080390.
Proof. vm_compute. reflexivity. Qed.

(* ---- C67: z tests ---- *)
(* Two-tailed probabilities are probabilities, do not depend on the sign of z and do not grow with |z|,
   given that erfc maps non-negative arguments into [0,1] (and decreases). *)
Theorem C67_two_tailed : forall erfc z, erfc_bounded erfc -> fin z ->
  fin (normal_two_tailed_cdf erfc z) /\ (0 <= dval (normal_two_tailed_cdf erfc z) <= 1)%R /\
  normal_two_tailed_cdf erfc (dneg z) = normal_two_tailed_cdf erfc z.
Proof.
  intros erfc z H F. destruct (two_tailed_val erfc z H F) as (a & _ & _ & _ & Fp & _ & Bp). split; [exact Fp|]. split; [exact Bp|apply two_tailed_symmetric].
Qed.
Print Assumptions C67_two_tailed.
Theorem C67_monotone : forall erfc y z, erfc_bounded erfc -> erfc_decreasing erfc -> fin y -> fin z -> (Rabs (dval y) <= Rabs (dval z))%R ->
  (dval (normal_two_tailed_cdf erfc z) <= dval (normal_two_tailed_cdf erfc y))%R.
Proof. exact two_tailed_mono. Qed.
Print Assumptions C67_monotone.
(* The runs statistic exists exactly if both kinds of values occur and there are at least three values. *)
Theorem C67_runs : forall erfc runs plus minus, erfc_bounded erfc -> plus <= 2 ^ 26 -> minus <= 2 ^ 26 -> runs <= 2 ^ 27 ->
  (runs_stats erfc (mkruns runs plus minus) = None <-> plus = 0 \/ minus = 0 \/ (plus = 1 /\ minus = 1)) /\
  (forall s, runs_stats erfc (mkruns runs plus minus) = Some s ->
     st_type s = Z_score /\ fin (st_value s) /\ fin (st_p s) /\ (0 <= dval (st_p s) <= 1)%R /\ dval (st_df s) = IZR (Z.of_N (plus + minus))).
Proof.
  intros erfc runs plus minus HE Hp Hm Hr.
  assert (D : (plus = 0 \/ minus = 0 \/ (plus = 1 /\ minus = 1)) \/ (1 <= plus /\ 1 <= minus /\ 3 <= plus + minus)) by lia.
  destruct D as [D|(A & B & C)].
  - assert (E : runs_stats erfc (mkruns runs plus minus) = None).
    { destruct D as [->|[->|[-> ->]]]; [apply (runs_none erfc runs minus); lia|apply (runs_none erfc runs plus); lia|apply (runs_none erfc runs 0); lia]. }
    split; [split; [intros _; exact D|intros _; exact E]|]. intros s Hs. rewrite E in Hs. discriminate.
  - destruct (runs_some erfc runs plus minus HE A B C Hp Hm Hr) as (s & E & R). rewrite E. split; [split; [discriminate|lia]|]. intros s' Hs. injection Hs as <-. exact R.
Qed.
Print Assumptions C67_runs.
(* The mean test exists exactly for non-empty data; its mean lies in [0,1]. *)
Theorem C67_mean : forall erfc w values, erfc_bounded erfc -> 0 < w <= 64 -> Forall (is_word w) values -> (Z.of_nat (length values) <= 2 ^ 53)%Z ->
  (mean_test erfc w values = None <-> values = []) /\
  (forall s, mean_test erfc w values = Some s -> st_type s = Z_score /\ fin (st_value s) /\ fin (st_p s) /\ (0 <= dval (st_p s) <= 1)%R /\
     dval (st_df s) = IZR (Z.of_nat (length values)) /\ (0 <= dval (get_mean_rescale_01 w values) <= 1)%R).
Proof.
  intros erfc w values HE Hw HF Hl. destruct values as [|v values].
  - rewrite mean_none. split; [split; reflexivity|discriminate].
  - destruct (mean_some erfc w (v :: values) HE Hw HF) as (s & E & R); [discriminate|exact Hl|]. rewrite E. split; [split; discriminate|]. intros s' Hs. injection Hs as <-. exact R.
Qed.
Print Assumptions C67_mean.
(* The z score is (mean - population mean) / sqrt (variance / n), up to a relative 2^-50 ... *)
Theorem C67_z_score : forall erfc n mean pm pv s, fin n -> fin mean -> fin pm -> fin pv ->
  (1 <= dval n <= bpow radix2 64)%R -> (/ 1000 <= dval pv <= bpow radix2 200)%R -> (Rabs (dval mean) <= bpow radix2 200)%R -> (bpow radix2 (-100) <= Rabs (dval pm) <= bpow radix2 200)%R ->
  z_test erfc n mean pm pv = Some s -> within 50 (dval (st_value s)) ((dval mean - dval pm) / sqrt (dval pv / dval n))%R /\ st_p s = normal_two_tailed_cdf erfc (st_value s).
Proof.
  intros erfc n mean pm pv s H1 H2 H3 H4 H5 H6 H7 H8 H. split; [exact (z_test_formula erfc n mean pm pv s H1 H2 H3 H4 H5 H6 H7 H8 H)|].
  unfold z_test in H. destruct (is_near pv d0); [discriminate|]. destruct (is_near n d0); [discriminate|]. injection H as <-. reflexivity.
Qed.
Print Assumptions C67_z_score.
(* ... and the p-value is erfc (|z| / sqrt 2). *)
Theorem C67_p_value : forall erfc z, erfc_bounded erfc -> fin z ->
  exists a, fin a /\ (0 <= dval a)%R /\ (Rabs (dval a - Rabs (dval z) / sqrt 2) <= bpow radix2 (-51) * (Rabs (dval z) / sqrt 2) + bpow radix2 (-1000))%R /\
    (Rabs (dval (normal_two_tailed_cdf erfc z) - dval (erfc a)) <= bpow radix2 (-51) * dval (erfc a) + bpow radix2 (-998))%R.
Proof. exact two_tailed_formula. Qed.
Print Assumptions C67_p_value.
(* The runs test, with P values above and M below: expected number of runs K + 1 with K = 2PM/(P+M),
   z = (runs - (K + 1)) / sqrt (K (K - 1) / (P + M)). *)
Theorem C67_runs_formula : forall erfc runs plus minus s, 1 <= plus <= 2 ^ 26 -> 1 <= minus <= 2 ^ 26 -> 3 <= plus + minus -> runs <= 2 ^ 27 ->
  runs_stats erfc (mkruns runs plus minus) = Some s ->
  let P := IZR (Z.of_N plus) in let M := IZR (Z.of_N minus) in let K := (2 * P * M / (P + M))%R in
  exists mean variance, within 50 mean (K + 1)%R /\ within 48 variance (K * (K - 1))%R /\
    within 50 (dval (st_value s)) ((IZR (Z.of_N runs) - mean) / sqrt (variance / (P + M)))%R.
Proof. intros erfc runs plus minus s [H1 H2] [H3 H4] H5 H6. apply runs_formula; assumption. Qed.
Print Assumptions C67_runs_formula.
(* The mean test: the mean of the values divided by the largest word, minus 1/2, over sqrt (1/12 / n). *)
Theorem C67_mean_formula : forall erfc w values s, 0 < w <= 64 -> Forall (is_word w) values -> (Z.of_nat (length values) <= 2 ^ 50)%Z -> mean_test erfc w values = Some s ->
  let m := (rsum (map (fun v => IZR (Z.of_N v) / IZR (2 ^ Z.of_N w - 1)) values) / INR (length values))%R in
  exists mean variance, (Rabs (mean - m) <= 2 * (INR (length values) + 5) * bpow radix2 (-53) * m)%R /\ within 53 variance (/ 12)%R /\
    within 50 (dval (st_value s)) ((mean - / 2) / sqrt (variance / INR (length values)))%R.
Proof. intros erfc w values s H1 H2 H3 H4 m. unfold m. rewrite <- exact_mean_sum. exact (mean_formula erfc w values s H1 H2 H3 H4). Qed.
Print Assumptions C67_mean_formula.
(* A constant erfc meets the assumption; the real one does as well. *)
Example C67_hyp : erfc_bounded (fun _ => d1) /\ erfc_decreasing (fun _ => d1).
Proof. split; [intros x _ _; split; [apply d1_val|rewrite (proj1 d1_val); lra]|intros x y _ _ _; lra]. Qed.
Example C67_instance : exists s, runs_stats (fun _ => d1) (generate_runs_data [200; 130; 127; 3; 255; 255] (runs_cutoff 8)) = Some s /\ dval (st_df s) = 5%R.
Proof.
  replace (generate_runs_data [200; 130; 127; 3; 255; 255] (runs_cutoff 8)) with (mkruns 3 4 1) by (vm_compute; reflexivity).
  destruct (runs_some (fun _ => d1) 3 4 1) as (s & E & _ & _ & _ & _ & D); try lia; [apply C67_hyp|]. exists s. split; [exact E|exact D].
Qed.

(* ---- C44: the results of the serial avalanche test ---- *)
(* One result per bit count c in 0 .. w-1 at most, in that order, named bit(0) .. bit(w-1).  The expected
   numbers of pairs with c and k bits set are n C(w,c)/2^w C(w,k)/2^w; the row's bins are merged with
   threshold 5 (C45), and the chi-square statistic (C47) is reported if at least 35% of them are left. *)
Theorem C44_results : forall pow cdf w n data, In w [8; 16; 32; 64] -> 1 <= n <= 2 ^ 53 -> pow (double_of_N 2) (double_of_N w) = dconst 1 (Z.of_N w) -> Forall (is_word w) data ->
  exists counts (result : nat -> option statistic), serial_avalanche_count w data = Ok counts /\
    serial_avalanche pow cdf w n data = Ok (flat_map (fun c => match result c with Some s => [(("bit(" ++ to_string_N (N.of_nat c) ++ ")")%string, s)] | None => [] end) (seq 0 (N.to_nat w))) /\
    forall c, (c < N.to_nat w)%nat -> exists expected os es,
      length expected = S (N.to_nat w) /\
      (forall k, (k <= N.to_nat w)%nat -> within 40 (dval (nth k expected d0))
         (IZR (Z.of_N n) * (IZR (Z.of_N (choose (N.to_nat w) c)) / 2 ^ N.to_nat w) * (IZR (Z.of_N (choose (N.to_nat w) k)) / 2 ^ N.to_nat w))%R) /\
      merge_bins (nth c counts []) expected (double_of_N 5) = Ok (os, es) /\
      result c = if (20 * length os <? 7 * S (N.to_nat w))%nat then None
                 else chi2_stats cdf (length os) (fun i => double_of_N (nth i os 0)) (fun i => nth i es d0) d0.
Proof.
  intros pow cdf w n data Hw Hn HP HD. destruct (serial_rows pow cdf w n data Hw Hn HP HD) as (counts & result & H1 & H2 & H3). exists counts, result. split; [exact H1|]. split; [exact H2|].
  intros c Hc. destruct (H3 c Hc) as (e & os & es & G1 & _ & G2 & G3 & G4). exists e, os, es. split; [exact G1|]. split; [|split; assumption]. intros k Hk.
  replace ((2 ^ N.to_nat w)%R) with (bpow radix2 (Z.of_N w)); [exact (G2 k Hk)|]. rewrite <- IZR_pow2 by lia. rewrite <- (N2Nat.id w) at 1. rewrite nat_N_Z, pow_IZR. reflexivity.
Qed.
Print Assumptions C44_results.
(* Pairs of bytes with 4 bits set each: row 4 is tested, the rows without pairs as well. *)
Example C44_results_instance : In 8 [8; 16; 32; 64] /\
  (r <- serial_avalanche (fun _ _ => dconst 1 8) (fun _ _ => d1) 8 1000 (repeat 15 2000) ;; Ok (map fst r)) = Ok ["bit(2)"; "bit(3)"; "bit(4)"; "bit(5)"; "bit(6)"]%string.
Proof. split; [left; reflexivity|]. vm_compute. reflexivity. Qed.
(* The last row (pairs whose first word has all w bits set) is collected but never tested. *)
Theorem C44_last_row_ignored : forall pw cdf w n rows last last', length rows = N.to_nat w ->
  serial_results pw cdf w n (rows ++ [last]) = serial_results pw cdf w n (rows ++ [last']).
Proof. intros pw cdf w n rows last last' L. apply serial_ignores_last. intros c Hc. rewrite !nth_error_app1 by lia. reflexivity. Qed.
Print Assumptions C44_last_row_ignored.

(* ---- C61: median ---- *)
Theorem C61_odd : forall w l, Nat.odd (length l) = true -> exists m, nth_error l (length l / 2) = Some m /\ get_median w l = Ok m.
Proof.
  intros w l H. unfold get_median. rewrite H. unfold at_. destruct (nth_error l (length l / 2)) as [m|] eqn:E; [exists m; split; reflexivity|].
  apply nth_error_None in E. destruct l as [|a l]; [discriminate|]. cbn [length] in *. pose proof (Nat.div_lt (S (length l)) 2 ltac:(lia) ltac:(lia)). lia.
Qed.
Print Assumptions C61_odd.
Theorem C61_even : forall w l a b, w <= 32 -> Nat.odd (length l) = false ->
  nth_error l (length l / 2 - 1) = Some a -> nth_error l (length l / 2) = Some b -> is_word w a -> is_word w b -> get_median w l = Ok ((a + b) / 2).
Proof. exact median_even. Qed.
Print Assumptions C61_even.
Theorem C61_empty : forall w, get_median w [] = UB.
Proof. reflexivity. Qed.
Print Assumptions C61_empty.
(* For 64-bit words the mean of the middle elements is rounded, and may leave the range of the type. *)
Theorem C61_64_refuted : get_median 64 [2 ^ 64 - 1; 2 ^ 64 - 1] = UB /\ get_median 64 [2 ^ 53 + 1; 2 ^ 53 + 1] = Ok (2 ^ 53).
Proof. split; vm_compute; reflexivity. Qed.
Print Assumptions C61_64_refuted.
Example C61_instance : get_median 8 [3; 7; 8; 200] = Ok 7 /\ get_median 8 [3; 7; 200] = Ok 7.
Proof. split; vm_compute; reflexivity. Qed.
