(* Properties C32-C36, C42-C49, C65: the counting parts of the statistics. *)
From Coq Require Import Reals Lra Permutation.
From Flocq Require Import Core BinarySingleNaN.
From Verif Require Import Base BitwiseModel BitwiseSpec WordLemmas WordBij MixerModel FloatModel FloatLemmas ResultModel
  CollectModel CollectSpec CollectProofs Collect2Proofs RescaleProofs Collect3Proofs CouponModel CouponSpec CouponProofs CouponFloatProofs ErrorSpec StatFormulas.
Open Scope N_scope.

(* ---- C32: runs ---- *)
(* The counts above and below the cutoff are exact; the runs are the maximal blocks of equal side
   of the values different from the cutoff, preceded by the side of the very first value. *)
Theorem C32_counts : forall cutoff v data,
  let s := map (fun v => cutoff <? v) (filter (fun v => negb (v =? cutoff)) (v :: data)) in
  generate_runs_data (v :: data) cutoff =
  mkruns (run_count ((cutoff <? v) :: s)) (count (fun v => cutoff <? v) (v :: data)) (count (fun v => v <? cutoff) (v :: data)).
Proof. exact runs_ok. Qed.
Print Assumptions C32_counts.
Theorem C32_empty : forall cutoff, generate_runs_data [] cutoff = mkruns 0 0 0.
Proof. reflexivity. Qed.
Print Assumptions C32_empty.
(* If the first value differs from the cutoff: exactly the maximal runs, ignoring equal values. *)
Theorem C32_runs : forall cutoff v data, v <> cutoff ->
  rd_runs (generate_runs_data (v :: data) cutoff) = run_count (map (fun v => cutoff <? v) (filter (fun v => negb (v =? cutoff)) (v :: data))).
Proof. exact runs_first_unequal. Qed.
Print Assumptions C32_runs.
(* run_count really is the number of blocks of any split into alternating non-empty blocks, and there is one. *)
Theorem C32_run_count_meaning : (forall lengths b, Forall (fun n => 1 <= n)%nat lengths -> run_count (blocks_of b lengths) = N.of_nat (length lengths)) /\
  (forall l : list bool, exists b lengths, l = blocks_of b lengths /\ Forall (fun n => 1 <= n)%nat lengths).
Proof. exact (conj run_count_blocks blocks_exist). Qed.
Print Assumptions C32_run_count_meaning.
(* The cutoff used splits the words by their highest bit, except that the middle value itself is skipped. *)
Theorem C32_cutoff : forall w x, 0 < w -> is_word w x -> (runs_cutoff w <? x) = N.testbit x (w - 1).
Proof. exact runs_cutoff_bit. Qed.
Print Assumptions C32_cutoff.
(* A leading value equal to the cutoff is counted as a run of its own: one run too many. *)
Theorem C32_first_equal_refuted : forall cutoff, rd_runs (generate_runs_data [cutoff; cutoff + 1] cutoff) = 2 /\
  run_count (map (fun v => cutoff <? v) (filter (fun v => negb (v =? cutoff)) [cutoff; cutoff + 1])) = 1.
Proof.
  intros c. rewrite runs_ok. cbn [rd_runs]. unfold sides. cbn [filter]. rewrite N.eqb_refl. destruct (N.eqb_spec (c + 1) c); [lia|]. cbn [negb map].
  rewrite N.ltb_irrefl. destruct (N.ltb_spec c (c + 1)); [|lia]. split; reflexivity.
Qed.
Print Assumptions C32_first_equal_refuted.
Example C32_instance : generate_runs_data [200; 130; 127; 3; 255; 255] (runs_cutoff 8) = mkruns 3 4 1.
Proof. reflexivity. Qed.

(* ---- C33: gaps ---- *)
(* The values are cut into segments ending at each visit of the interval; bin i counts the segments
   with i misses before the hit, the last bin also all longer ones. *)
Theorem C33_gaps : forall w max a b data, (1 <= max)%nat ->
  exists segs rest h, cut_into (fun l => existsb (in_gap w a b) l = true) data segs rest /\
    generate_gaps w max a b data = Ok h /\ length h = max /\ tallies h 1 segs.
Proof. exact gaps_ok. Qed.
Print Assumptions C33_gaps.
Theorem C33_cut_is_determined : forall (A : Type) (c : list A -> Prop) segs data segs' rest rest',
  cut_into c data segs rest -> cut_into c data segs' rest' -> segs = segs' /\ rest = rest'.
Proof. exact @cut_into_unique. Qed.
Print Assumptions C33_cut_is_determined.
(* The tallies add up to the number of gaps. *)
Theorem C33_total : forall (A : Type) offset (segs : list (list A)) h, (1 <= length h)%nat -> tallies h offset segs -> total h = N.of_nat (length segs).
Proof. exact @total_tallies. Qed.
Print Assumptions C33_total.
(* The two intervals of the test split all values; up to 32 bits by the highest bit. *)
Theorem C33_halves : forall w x, 0 < w <= 64 -> is_word w x ->
  in_gap w dhalf d1 x = negb (in_gap w d0 dhalf x) /\ (w <= 52 -> in_gap w dhalf d1 x = N.testbit x (w - 1)).
Proof. intros w x Hw Hx. split; [apply halves_complement; assumption|]. intro H. apply upper_half; [lia|exact Hx]. Qed.
Print Assumptions C33_halves.
(* For 64 bits the 512 values just below the middle are rounded into the upper half. *)
Theorem C33_halves_64_refuted : forall x, 2 ^ 63 - 512 <= x < 2 ^ 63 -> in_gap 64 dhalf d1 x = true /\ N.testbit x 63 = false.
Proof. exact upper_half_64. Qed.
Print Assumptions C33_halves_64_refuted.
Theorem C33_no_bins_undefined : forall w a b data, existsb (in_gap w a b) data = true -> generate_gaps w 0 a b data = UB.
Proof. exact gaps_empty. Qed.
Print Assumptions C33_no_bins_undefined.
Example C33_instance : generate_gaps 8 3 dhalf d1 [200; 1; 255; 3; 4; 5; 128; 7] = Ok [1; 1; 1].
Proof. vm_compute. reflexivity. Qed.

(* ---- C34: coupons ---- *)
Theorem C34_coupons : forall w wanted tracked data, 0 < w <= 64 -> 1 <= wanted <= 2 ^ 53 -> (1 <= tracked)%nat -> N.of_nat (length data) < 2 ^ 64 -> Forall (is_word w) data ->
  exists segs rest h,
    cut_into (fun l => forall k, k < wanted -> exists x, In x l /\ coupon_id w wanted x = Ok k) data segs rest /\
    collect_coupons w wanted tracked data = Ok h /\ length h = tracked /\ tallies h (N.to_nat wanted) segs.
Proof.
  intros w wanted tracked data Hw Hd Ht Hl HW. apply coupons_ok; [|exact Ht|exact Hl|].
  - split; [apply Hd|]. eapply N.le_lt_trans; [apply Hd|reflexivity].
  - eapply Forall_impl; [|exact HW]. intros x Hx. rewrite coupon_id_bin. apply bin_index_lt; assumption.
Qed.
Print Assumptions C34_coupons.
(* Every word is one of the wanted coupons; for the five coupons of the test the coupon is the
   fifth of the range the word lies in (the last fifth has the one extra value). *)
Theorem C34_coupon_total : forall w wanted x, 0 < w <= 64 -> 1 <= wanted <= 2 ^ 53 -> is_word w x -> exists k, coupon_id w wanted x = Ok k /\ k < wanted.
Proof. intros. rewrite coupon_id_bin. apply bin_index_lt; assumption. Qed.
Print Assumptions C34_coupon_total.
Theorem C34_coupon_fifths : forall w x, w = 8 \/ w = 16 \/ w = 32 -> is_word w x -> coupon_id w 5 x = Ok (N.min 4 (x / ((2 ^ w - 1) / 5))).
Proof. exact coupon_five. Qed.
Print Assumptions C34_coupon_fifths.
Example C34_instance : collect_coupons 8 5 3 [0; 60; 110; 160; 255;  0; 0; 51; 102; 254; 1; 153; 1] = Ok [1; 0; 1].
Proof. vm_compute. reflexivity. Qed.

(* ---- C35: divisibility ---- *)
Theorem C35_divisible : forall divisor wanted tracked data, 1 <= divisor -> 1 <= wanted -> (1 <= tracked)%nat -> N.of_nat (length data) < 2 ^ 64 ->
  exists segs rest h, cut_into (fun l => wanted <= count (fun v => v mod divisor =? 0) l) data segs rest /\
    collect_divisible divisor wanted tracked data = Ok h /\ length h = tracked /\ tallies h (N.to_nat wanted) segs.
Proof. exact divisible_ok. Qed.
Print Assumptions C35_divisible.
Theorem C35_divisor_zero_undefined : forall wanted tracked data, data <> [] -> collect_divisible 0 wanted tracked data = UB.
Proof. exact divisible_zero. Qed.
Print Assumptions C35_divisor_zero_undefined.
Example C35_instance : collect_divisible 2 2 3 [2; 4; 1; 6; 8; 1; 1; 1; 2; 2; 6] = Ok [1; 1; 1].
Proof. vm_compute. reflexivity. Qed.

(* ---- C36: permutation histogram ---- *)
(* Bin v counts (up to 255) the complete windows of [size] consecutive bits with value v. *)
Theorem C36_histogram : forall w data size, 0 < size < 64 ->
  exists blocks, chopped (N.to_nat size) (flat_map (bits_lsb (N.to_nat w)) data) blocks /\
    exists h, get_permutation_histogram w data size = Ok h /\ N.of_nat (length h) = 2 ^ size /\
      forall v, v < 2 ^ size -> nth (N.to_nat v) h 0 = N.min 255 (count (fun b => value_lsb b =? v) blocks).
Proof. exact permutation_ok. Qed.
Print Assumptions C36_histogram.
(* Hence only the multiset of windows matters. *)
Theorem C36_order_irrelevant : forall w size data data' blocks blocks' h h', 0 < size < 64 ->
  chopped (N.to_nat size) (flat_map (bits_lsb (N.to_nat w)) data) blocks -> chopped (N.to_nat size) (flat_map (bits_lsb (N.to_nat w)) data') blocks' ->
  Permutation blocks blocks' ->
  get_permutation_histogram w data size = Ok h -> get_permutation_histogram w data' size = Ok h' -> h = h'.
Proof.
  assert (U : forall k (bits : list bool) bs bs', (0 < k)%nat -> chopped k bits bs -> chopped k bits bs' -> bs = bs').
  { intros k bits bs. revert bits. induction bs as [|b bs IH]; intros bits bs' Hk [F1 (r1 & E1 & L1)] [F2 (r2 & E2 & L2)].
    - destruct bs' as [|b' bs']; [reflexivity|]. exfalso. cbn in E1. subst r1. rewrite E2 in L1. cbn [concat] in L1. rewrite !app_length, (Forall_inv F2) in L1. lia.
    - destruct bs' as [|b' bs'].
      + exfalso. cbn in E2. subst r2. rewrite E1 in L2. cbn [concat] in L2. rewrite !app_length, (Forall_inv F1) in L2. lia.
      + cbn [concat] in E1, E2. rewrite <- app_assoc in E1, E2. rewrite E1 in E2.
        pose proof (Forall_inv F1) as N1. pose proof (Forall_inv F2) as N2. cbn in N1, N2.
        assert (Eb : b = b' /\ concat bs ++ r1 = concat bs' ++ r2).
        { clear - E2 N1 N2. rewrite <- N1 in N2. clear N1. revert b' N2 E2. induction b as [|c b IHb]; intros [|c' b'] N2 E2; try discriminate; [auto|].
          injection E2 as -> E2. destruct (IHb b' ltac:(cbn in N2; lia) E2) as [-> ->]. auto. }
        destruct Eb as [<- Ec]. f_equal. apply (IH (concat bs ++ r1)); [exact Hk|split; [exact (Forall_inv_tail F1)|exists r1; auto]|split; [exact (Forall_inv_tail F2)|exists r2; auto]]. }
  intros w size data data' blocks blocks' h h' Hs C C' P E E'.
  destruct (permutation_ok w data size Hs) as (b & Cb & g & Eg & Lg & Hg). destruct (permutation_ok w data' size Hs) as (b' & Cb' & g' & Eg' & Lg' & Hg').
  rewrite E in Eg. injection Eg as <-. rewrite E' in Eg'. injection Eg' as <-. assert (b = blocks) by (apply (U (N.to_nat size) (flat_map (bits_lsb (N.to_nat w)) data)); [lia|assumption|assumption]). assert (b' = blocks') by (apply (U (N.to_nat size) (flat_map (bits_lsb (N.to_nat w)) data')); [lia|assumption|assumption]). subst b b'.
  apply nth_ext with 0 0; [lia|]. intros i Hi. specialize (Hg (N.of_nat i) ltac:(lia)). specialize (Hg' (N.of_nat i) ltac:(lia)). rewrite Nat2N.id in Hg, Hg'. rewrite Hg, Hg'. f_equal.
  unfold count. f_equal. clear - P. induction P as [|x l l' P IH|x y l|l l' l'' P1 IH1 P2 IH2]; cbn [filter]; [reflexivity| | |congruence].
  - destruct (value_lsb x =? N.of_nat i); cbn [length]; rewrite IH; reflexivity.
  - destruct (value_lsb x =? N.of_nat i), (value_lsb y =? N.of_nat i); reflexivity.
Qed.
Print Assumptions C36_order_irrelevant.
Theorem C36_wide_window_undefined : forall w data size, 64 <= size -> get_permutation_histogram w data size = UB.
Proof. exact permutation_ub. Qed.
Print Assumptions C36_wide_window_undefined.
Example C36_instance : get_permutation_histogram 8 [0xE4; 0xFF] 2 = Ok [1; 1; 1; 5].
Proof. vm_compute. reflexivity. Qed.

(* ---- C42: strict avalanche ---- *)
Theorem C42_histogram : forall w mix data, 0 < w <= 64 -> (forall x, is_word w x -> is_word w (mix x)) -> Forall (is_word w) data ->
  exists h, avalanche_generate_sac w mix data = Ok h /\ length h = S (N.to_nat w) /\
    (forall c, (c <= N.to_nat w)%nat -> nth c h 0 = count (fun p => bit_count (output_change mix (fst p) (snd p)) =? N.of_nat c) (flips w data)) /\
    total h = N.of_nat (length data) * w.
Proof. exact sac_ok. Qed.
Print Assumptions C42_histogram.
Theorem C42_bijective_never_zero : forall w mix data h, 0 < w <= 64 -> word_bijection w mix -> Forall (is_word w) data ->
  avalanche_generate_sac w mix data = Ok h -> nth 0 h 0 = 0.
Proof. exact sac_bijective. Qed.
Print Assumptions C42_bijective_never_zero.
Example C42_instance : avalanche_generate_sac 4 (fun x => (x * 3 + 1) mod 16) [3; 7] = Ok [0; 4; 2; 2; 0].
Proof. vm_compute. reflexivity. Qed.

(* ---- C43: bit independence ---- *)
Theorem C43_cells : forall w mix data, 0 < w <= 64 -> (forall x, is_word w x -> is_word w (mix x)) -> Forall (is_word w) data ->
  exists h, avalanche_generate_bic w mix data = Ok h /\ length h = (N.to_nat w * N.to_nat w)%nat /\
    forall j k, (j < N.to_nat w)%nat -> (k < N.to_nat w)%nat ->
      nth (j * N.to_nat w + k) h 0 = count (fun s => N.testbit (output_change mix s j) (N.of_nat k)) data.
Proof. exact bic_ok. Qed.
Print Assumptions C43_cells.
Theorem C43_total : forall w mix data hs hb, 0 < w <= 64 -> (forall x, is_word w x -> is_word w (mix x)) -> Forall (is_word w) data ->
  avalanche_generate_sac w mix data = Ok hs -> avalanche_generate_bic w mix data = Ok hb ->
  total hb = total (map (fun c => N.of_nat c * nth c hs 0) (seq 0 (S (N.to_nat w)))).
Proof. exact bic_total. Qed.
Print Assumptions C43_total.
Example C43_instance : avalanche_generate_bic 4 (fun x => (x * 3 + 1) mod 16) [3; 7] = Ok [2; 0; 2; 1; 0; 2; 2; 1; 0; 0; 2; 0; 0; 0; 0; 2].
Proof. vm_compute. reflexivity. Qed.

(* ---- C44: serial avalanche ---- *)
(* Cell (i, j) counts the consecutive non-overlapping pairs whose words have i and j bits set. *)
Theorem C44_counts : forall w data, Forall (is_word w) data ->
  exists m, serial_avalanche_count w data = Ok m /\ length m = S (N.to_nat w) /\ Forall (fun row => length row = S (N.to_nat w)) m /\
    (forall i j, i <= w -> j <= w -> nth (N.to_nat j) (nth (N.to_nat i) m []) 0 =
       count (fun p => (bit_count (fst p) =? i) && (bit_count (snd p) =? j)) (pairs data)) /\
    total (map total m) = N.of_nat (length data / 2).
Proof. exact serial_ok. Qed.
Print Assumptions C44_counts.
Example C44_instance : serial_avalanche_count 2 [3; 1; 0; 2; 3; 2; 1] = Ok [[0; 1; 0]; [0; 0; 0]; [0; 2; 0]].
Proof. vm_compute. reflexivity. Qed.

(* ---- C45: merging bins ---- *)
(* The bins are cut into groups, each closed as soon as its expected count reaches the threshold;
   a remaining incomplete group is added to the last one. *)
Theorem C45_groups : forall observed expected t, length observed = length expected -> dlt d0 t = true ->
  exists segs rest, cut_into (reaches t) (combine observed expected) segs rest /\
    (segs = [] -> merge_bins observed expected t = Ok ([], [])) /\
    (forall init last, segs = init ++ [last] ->
      merge_bins observed expected t = Ok (map (fun g => wrap 64 (group_observed g)) init ++ [wrap 64 (group_observed last + group_observed rest)],
                                           map group_expected init ++ [dadd (group_expected last) (group_expected rest)])).
Proof. exact merge_ok. Qed.
Print Assumptions C45_groups.
Theorem C45_mass : forall observed expected t, length observed = length expected -> dlt d0 t = true -> Forall nonneg expected ->
  exists os es, merge_bins observed expected t = Ok (os, es) /\ length os = length es /\ Forall (fun e => dle t e = true) es /\
    (os <> [] -> wrap 64 (total os) = wrap 64 (total observed)) /\
    (os = [] <-> forall p s, combine observed expected = p ++ s -> ~ reaches t p).
Proof. exact merge_totals. Qed.
Print Assumptions C45_mass.
(* The expected mass is kept exactly when it is a sum of multiples of a unit 2^e within 53 bits. *)
Theorem C45_expected_mass : forall observed expected t e ns, length observed = length expected -> dlt d0 t = true -> (-1074 <= e <= 960)%Z ->
  Forall2 (units e) expected ns -> total ns <= 2 ^ 53 ->
  forall os es, merge_bins observed expected t = Ok (os, es) -> os <> [] -> dsum_exact es = dsum_exact expected.
Proof. exact merge_mass. Qed.
Print Assumptions C45_expected_mass.
Theorem C45_missing_expected_undefined : forall observed expected t, (length expected < length observed)%nat -> merge_bins observed expected t = UB.
Proof. intros o e t H. unfold merge_bins. apply Nat.ltb_lt in H. rewrite H. reflexivity. Qed.
Print Assumptions C45_missing_expected_undefined.
Example C45_instance : exists os es, merge_bins [1; 2; 3; 4; 5] (map double_of_N [2; 4; 7; 1; 1]) (double_of_N 5) = Ok (os, es) /\
  os = [3; 12] /\ map B2SF es = map B2SF (map double_of_N [6; 9]).
Proof. eexists _, _. split; [reflexivity|]. split; vm_compute; reflexivity. Qed.

(* ---- C46: chi-square bins ---- *)
Theorem C46_bins : forall w m data, 0 < w <= 64 -> 1 <= m <= 2 ^ 53 -> Forall (is_word w) data ->
  exists h, bin_data_for_chi2 w m data = Ok h /\ N.of_nat (length h) = m /\ total h = N.of_nat (length data) /\
    forall i, i < m -> nth (N.to_nat i) h 0 = count (fun x => match bin_index w m x with Ok j => (j =? i)%N | UB => false end) data.
Proof. exact bins_ok. Qed.
Print Assumptions C46_bins.
Theorem C46_top_bits : forall w k x, 0 < w -> k <= w -> k + w <= 52 -> is_word w x -> bin_index w (2 ^ k) x = Ok (x / 2 ^ (w - k)).
Proof. exact bin_top_bits. Qed.
Print Assumptions C46_top_bits.
Theorem C46_top_bits_64 : forall k x, k <= 53 -> is_word 64 x -> x mod 2 ^ (64 - k) + 2048 <= 2 ^ (64 - k) ->
  bin_index 64 (2 ^ k) x = Ok (x / 2 ^ (64 - k)).
Proof. exact bin_top_bits_64. Qed.
Print Assumptions C46_top_bits_64.
(* At the upper ends of the bins 64-bit words move to the next bin. *)
Theorem C46_top_bits_64_refuted : bin_index 64 (2 ^ 1) (2 ^ 63 - 1) = Ok 1 /\ (2 ^ 63 - 1) / 2 ^ (64 - 1) = 0.
Proof. split; vm_compute; reflexivity. Qed.
Print Assumptions C46_top_bits_64_refuted.
Example C46_instance : bin_data_for_chi2 8 4 [0; 63; 64; 255; 128; 200] = Ok [2; 1; 1; 2].
Proof. vm_compute. reflexivity. Qed.

(* ---- C47: degrees of freedom ---- *)
Theorem C47_df : forall cdf observed expected threshold n, N.of_nat n <= 2 ^ 53 ->
  let k := count (fun i => negb (dle (expected i) threshold)) (seq 0 n) in
  (k <= 1 -> chi2_stats cdf n observed expected threshold = None) /\
  (2 <= k -> exists v df, chi2_stats cdf n observed expected threshold = Some (mkstat Chi2 v (cdf v df) df) /\
     v = fst (fold_left (chi2_step observed expected threshold) (seq 0 n) (d0, d0)) /\ fin df /\ dval df = IZR (Z.of_N (k - 1))).
Proof.
  intros cdf observed expected threshold n Hn. destruct (chi2_stats_ok cdf observed expected threshold n Hn) as [A B]. split; [exact A|].
  intro Hk. destruct (B Hk) as (v & df & E & Ev & F & D). exists v, df. repeat split; auto. rewrite D. change (bpow radix2 0) with 1%R. rewrite Rmult_1_r. reflexivity.
Qed.
Print Assumptions C47_df.
(* A perfect fit has the value zero. *)
Theorem C47_perfect_fit : forall cdf observed expected threshold n s, N.of_nat n <= 2 ^ 53 ->
  (forall i, fin (expected i)) -> (forall i, dlt d0 (expected i) = true) -> (forall i, observed i = expected i) ->
  chi2_stats cdf n observed expected threshold = Some s -> st_value s = d0.
Proof.
  intros cdf observed expected threshold n s Hn Fe Pe Eq E. destruct (chi2_stats_ok cdf observed expected threshold n Hn) as [A B].
  destruct (N.le_gt_cases (count (included expected threshold) (seq 0 n)) 1) as [H|H]; [rewrite (A H) in E; discriminate|].
  destruct (B ltac:(lia)) as (v & df & E' & Ev & _). rewrite E in E'. injection E' as ->. cbn [st_value]. rewrite Ev. apply chi2_perfect; assumption.
Qed.
Print Assumptions C47_perfect_fit.
(* The value is the sum of (observed - expected)^2 / expected over the included bins, up to rounding. *)
Theorem C47_value : forall cdf n observed expected threshold s,
  (forall i, (i < n)%nat -> fin (observed i) /\ (0 <= dval (observed i) <= bpow radix2 64)%R) ->
  (forall i, (i < n)%nat -> dle (expected i) threshold = false -> fin (expected i) /\ (bpow radix2 (-64) <= dval (expected i) <= bpow radix2 64)%R) ->
  (Z.of_nat n <= 2 ^ 50)%Z -> chi2_stats cdf n observed expected threshold = Some s ->
  let X := rsum (map (fun i => (dval (observed i) - dval (expected i)) ^ 2 / dval (expected i))%R (filter (fun i => negb (dle (expected i) threshold)) (seq 0 n))) in
  fin (st_value s) /\ (Rabs (dval (st_value s) - X) <= 2 * (INR n + 4) * bpow radix2 (-53) * X)%R.
Proof. intros cdf n observed expected threshold s H1 H2 H3 H4 X. unfold X. rewrite <- chi2_exact_sum. apply (chi2_value_accurate cdf); assumption. Qed.
Print Assumptions C47_value.
(* Three bins, the second one not included: (1-5)^2/5 + (3-5)^2/5 = 4. *)
Example C47_value_instance : option_map (fun s => B2SF (st_value s)) (chi2_stats (fun _ _ => d0) 3 (fun i => double_of_N (nth i [1; 9; 3] 0)) (fun i => double_of_N (nth i [5; 2; 5] 0)) (double_of_N 3)) = Some (B2SF (double_of_N 4)).
Proof. vm_compute. reflexivity. Qed.
Example C47_instance : option_map (fun s => B2SF (st_df s)) (chi2_stats (fun _ _ => d0) 3 (fun i => double_of_N (N.of_nat i)) (fun _ => double_of_N 5) d0) = Some (B2SF (double_of_N 2)).
Proof. vm_compute. reflexivity. Qed.

(* ---- C48: coupon expectation ---- *)
(* The number of words over d letters that complete the collection exactly at their last letter. *)
Theorem C48_finishing_words : forall d i, (1 <= d)%nat -> (1 <= i)%nat ->
  count (finishes d) (words d i) = fact d * S2 (i - 1) (d - 1) /\ N.of_nat (length (words d i)) = N.of_nat d ^ N.of_nat i.
Proof. intros d i Hd Hi. split; [apply finishing; assumption|]. rewrite words_length. rewrite Nat2N.inj_pow. reflexivity. Qed.
Print Assumptions C48_finishing_words.
Theorem C48_words : forall d n, NoDup (words d n) /\ forall s, In s (words d n) <-> length s = n /\ Forall (fun x => x < d)%nat s.
Proof. intros d n. split; [apply words_nodup|]. intro s. apply words_in. Qed.
Print Assumptions C48_words.
Theorem C48_finishes : forall d s, finishes d s = true <-> (onto d s /\ ~ onto d (removelast s)).
Proof.
  intros d s. unfold finishes. rewrite andb_true_iff, negb_true_iff, <- !ontob_iff. destruct (ontob d (removelast s)); split; intros [H1 H2]; split; auto; try discriminate; try congruence.
Qed.
Print Assumptions C48_finishes.
(* Each probability is that count over d^i, with relative error at most 2^-48, as long as the count
   fits: i = d, d+1, ... *)
Theorem C48_expectation : forall tgamma pow d, good_tgamma tgamma -> good_pow pow -> (1 <= d <= 29)%nat ->
  exists ps last, expected_probabilities tgamma pow (N.of_nat d) = Ok (ps ++ [last]) /\ (length ps <= 30 - d)%nat /\
    forall k, (k < length ps)%nat -> 1 <= S2 (d + k - 1) (d - 1) < 2 ^ 64 ->
      fin (nth k ps d0) /\
      (Rabs (dval (nth k ps d0) - IZR (Z.of_N (count (finishes d) (words d (d + k)))) / IZR (Z.of_nat (length (words d (d + k)))))
       <= bpow radix2 (-48) * (IZR (Z.of_N (count (finishes d) (words d (d + k)))) / IZR (Z.of_nat (length (words d (d + k))))))%R.
Proof.
  intros tg pw d GT GP Hd. unfold expected_probabilities. replace (N.to_nat (30 - N.of_nat d)) with (30 - d)%nat by lia.
  destruct (coupon_loop_ok tg pw d GT GP Hd (30 - d) d d0 ltac:(lia) ltac:(lia)) as (ps & last & E & L & H). exists ps, last. split; [exact E|]. split; [exact L|].
  intros k Hk HS. destruct (H k Hk HS) as [F A]. split; [exact F|]. rewrite finishing, words_length by lia.
  replace (Z.of_nat (d ^ (d + k))) with (Z.of_N (N.of_nat d ^ N.of_nat (d + k))) by (rewrite <- Nat2N.inj_pow; apply nat_N_Z).
  unfold approx in A. rewrite (Rabs_pos_eq (IZR (Z.of_N (fact d * _)) / _)) in A; [exact A|].
  apply Rmult_le_pos; [apply IZR_le; lia|]. apply Rlt_le, Rinv_0_lt_compat, IZR_lt. assert (N.of_nat d ^ N.of_nat (d + k) <> 0) by (apply N.pow_nonzero; lia). lia.
Qed.
Print Assumptions C48_expectation.
(* For the five coupons of the test no entry overflows. *)
Theorem C48_five_no_overflow : forall k, (k < 25)%nat -> 1 <= S2 (5 + k - 1) (5 - 1) < 2 ^ 64.
Proof.
  intros k Hk. do 25 (destruct k as [|k]; [vm_compute; split; [discriminate|reflexivity]|]). lia.
Qed.
Print Assumptions C48_five_no_overflow.
Example C48_instance : count (finishes 2) (words 2 3) = 2 /\ words 2 2 = [[0;0]; [0;1]; [1;0]; [1;1]]%nat.
Proof. vm_compute. split; reflexivity. Qed.

(* ---- C49: Stirling numbers ---- *)
(* k! times the number of partitions of n elements into k blocks is the number of words of length n
   that use each of k letters. *)
Theorem C49_stirling : forall n k, (Z.of_nat k < 2 ^ 31)%Z -> exists s, stirling_second_kind (Z.of_nat n) (Z.of_nat k) = Ok (s mod 2 ^ 64) /\
  count (ontob k) (words k n) = fact k * s.
Proof.
  intros n k Hk. exists (S2 n k). split; [|apply surjections]. unfold stirling_second_kind. destruct (Z.ltb_spec (Z.of_nat n) 0); [lia|]. rewrite Nat2Z.id, stirling_nat_pos by exact Hk. reflexivity.
Qed.
Print Assumptions C49_stirling.
Theorem C49_ontob : forall d s, ontob d s = true <-> onto d s.
Proof. exact ontob_iff. Qed.
Print Assumptions C49_ontob.
Theorem C49_negative : (forall n k, (0 <= n)%Z -> (k < 0)%Z -> stirling_second_kind n k = Ok 0) /\
  (forall n, (n < 0)%Z -> stirling_second_kind n 0 = Ok 0) /\ (forall n k, (n < 0)%Z -> k <> 0%Z -> stirling_second_kind n k = UB).
Proof.
  unfold stirling_second_kind. split; [|split].
  - intros n k Hn Hk. destruct (Z.ltb_spec n 0); [lia|]. rewrite stirling_nat_neg by exact Hk. reflexivity.
  - intros n Hn. rewrite (proj2 (Z.ltb_lt _ _) Hn). reflexivity.
  - intros n k Hn Hk. rewrite (proj2 (Z.ltb_lt _ _) Hn). destruct (Z.eqb_spec k 0); [contradiction|reflexivity].
Qed.
Print Assumptions C49_negative.
Example C49_instance : stirling_second_kind 10 4 = Ok 34105.
Proof. vm_compute. reflexivity. Qed.
(* The smallest n for which some Stirling number does not fit 64 bits is 27. *)
Fixpoint stirling_row (width n : nat) : list N :=
  match n with
  | O => map (fun k => S2 0 k) (seq 0 width)
  | S n' => let r := stirling_row width n' in
    map (fun k => match k with O => 0 | S j => N.of_nat k * nth k r 0 + nth j r 0 end) (seq 0 width)
  end.
Lemma stirling_row_ok width n : forall k, (k < width)%nat -> nth k (stirling_row width n) 0 = S2 n k.
Proof.
  assert (NM : forall (f : nat -> N) k, (k < width)%nat -> nth k (map f (seq 0 width)) 0 = f k).
  { intros f k Hk. rewrite nth_indep with (d' := f O) by (rewrite map_length, seq_length; exact Hk). rewrite map_nth, seq_nth by exact Hk. reflexivity. }
  induction n as [|n IH]; intros k Hk; cbn [stirling_row]; rewrite NM by exact Hk; [reflexivity|].
  destruct k as [|k]; [reflexivity|]. rewrite !IH by lia. reflexivity.
Qed.
Example C49_overflow : (forall k, (k < 27)%nat -> S2 26 k < 2 ^ 64) /\ 2 ^ 64 <= S2 27 10.
Proof.
  split.
  - intros k Hk. rewrite <- (stirling_row_ok 27 26 k Hk). revert k Hk. 
    assert (E : forallb (fun k => nth k (stirling_row 27 26) 0 <? 2 ^ 64) (seq 0 27) = true) by (vm_compute; reflexivity).
    intros k Hk. rewrite forallb_forall in E. apply N.ltb_lt, E, in_seq. lia.
  - rewrite <- (stirling_row_ok 28 27 10) by lia. vm_compute. discriminate.
Qed.

(* ---- C65: gap probabilities ---- *)
(* For both halves: 1/2, 1/4, ..., 1/128 and the remaining 1/128, which is exact. *)
Theorem C65_gap_probabilities : forall pw fuel, exact_half_pow pw -> (8 <= fuel)%nat ->
  exists ps, generate_gap_probabilities pw d0 dhalf fuel = Some ps /\ generate_gap_probabilities pw dhalf d1 fuel = Some ps /\ length ps = 8%nat /\
    (forall i, (i < 7)%nat -> dval (nth i ps d0) = / 2 ^ (S i))%R /\ dval (nth 7 ps d0) = (/ 2 ^ 7)%R /\ dsum_exact ps = 1%R.
Proof.
  intros pw fuel H Hf. eexists. split; [apply gap_probs_lower; assumption|]. split; [apply gap_probs_upper; assumption|]. split; [reflexivity|].
  assert (V : forall i, i <= 7 -> dval (half_pow i) = (/ 2 ^ (N.to_nat i))%R).
  { intros i Hi. destruct (half_pow_val i) as [_ E]; [lia|]. rewrite E. f_equal. rewrite IZR_pow2 by lia. rewrite <- (N_nat_Z i). generalize (N.to_nat i). intro n. 
    induction n as [|n IH]; [reflexivity|]. rewrite Nat2Z.inj_succ. unfold Z.succ. rewrite bpow_plus, IH. cbn [pow]. change (bpow radix2 1) with 2%R. ring. }
  split; [|split].
  - intros i Hi. do 7 (destruct i as [|i]; [cbn [map nth]; rewrite V by lia; reflexivity|]). lia.
  - cbn [map nth]. rewrite V by lia. reflexivity.
  - cbn [map dsum_exact fold_right]. rewrite !V by lia. replace (N.to_nat 1) with 1%nat by reflexivity. replace (N.to_nat 2) with 2%nat by reflexivity. replace (N.to_nat 3) with 3%nat by reflexivity. replace (N.to_nat 4) with 4%nat by reflexivity. replace (N.to_nat 5) with 5%nat by reflexivity. replace (N.to_nat 6) with 6%nat by reflexivity. replace (N.to_nat 7) with 7%nat by reflexivity. cbn [pow]. lra.
Qed.
Print Assumptions C65_gap_probabilities.
(* An empty interval makes the loop run forever. *)
Theorem C65_empty_interval_diverges : forall pow a, fin a -> (forall x y, fin (pow x y) /\ (0 <= dval (pow x y))%R) -> forall fuel, generate_gap_probabilities pow a a fuel = None.
Proof. exact gap_probs_empty. Qed.
Print Assumptions C65_empty_interval_diverges.
