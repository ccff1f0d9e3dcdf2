(* Properties C76-C87: the complete tests and the battery. *)
From Coq Require Import String Reals Lra Permutation.
From Flocq Require Import Core BinarySingleNaN.
From Verif Require Import Base BitwiseModel BitwiseSpec FloatModel FloatLemmas StreamModel StreamSpec StreamProofs ResultModel ResultSpec CollectModel CollectSpec CouponSpec CouponProofs StatsModel StatsSpec ErrorSpec RescaleProofs
  RankModel RankTop LfsrSpec LfsrCount LfsrStats EvaluateModel EvaluateSpec CommandModel CommandSpec InspectProofs2 LibInst
  TestsModel TestsSpec TestsProofs TestsUniform TestsGap TestsCoupon TestsDiv TestsPerm TestsAval TestsRank TestsSerial TestsInst TestsMeaning BatteryModel BatterySpec BatteryProofs
  MixerModel PrngModel PrngSpec SeedModel BatteryUse Prop_Collect Prop_Evaluate Prop_Commands Prop_Mixers Prop_Streams Prop_Seeds.
Open Scope R_scope.

(* ---- a C library, a distribution and words for the examples ---- *)
Definition demo_cdf (x k : double) : double := exact_exp (Bopp x).
Lemma demo_cdf_good : good_cdf demo_cdf.
Proof. intros x k F H _. apply exact_exp_good; [rewrite is_finite_Bopp; exact F|]. unfold dval in *. rewrite B2R_Bopp. lra. Qed.
Definition demo_words (i : nat) : N := (167 * N.of_nat i mod 256)%N.
Lemma demo_words_ok : forall i, is_word 8 (demo_words i).
Proof. intro i. apply N.mod_lt. discriminate. Qed.

(* ---- C76: uniform ---- *)
(* 2^k bins with k = min(K,w), 2^K between 2 n^0.4 and twice that (rounded up); each word is counted in one bin, and the
   chi-square test expects the same count n / 2^k in each. *)
Theorem C76_uniform : forall M cdf w n stream, good_math M -> In w widths -> (1 <= n <= 2 ^ 53)%N -> (forall i, is_word w (stream i)) ->
  exists K os s, (1 <= K <= 28)%N /\
    2 * Rpower (IZR (Z.of_N n)) (2 / 5) * (1 - / 2 ^ 38) <= bpow radix2 (Z.of_N K) < 4 * Rpower (IZR (Z.of_N n)) (2 / 5) * (1 + / 2 ^ 38) + 2 /\
    let k := N.min K w in
    uniform_test M cdf w n stream = Ok [mksub "" (Some s)] /\
    N.of_nat (length os) = (2 ^ k)%N /\ total os = n /\
    (forall i, (i < 2 ^ k)%N -> nth (N.to_nat i) os 0%N = count (fun x => match bin_index w (2 ^ k) x with Ok j => (j =? i)%N | UB => false end) (values stream n)) /\
    chi2_test cdf 0 os (repeat (IZR (Z.of_N n) / IZR (Z.of_N (2 ^ k))) (length os)) (Some s).
Proof. exact uniform_ok. Qed.
Print Assumptions C76_uniform.
(* Up to 32 bits (and 2^40 values) the bin of a word is given by its k highest bits. *)
Theorem C76_highest_bits : forall M cdf w n stream, good_math M -> In w [8; 16; 32]%N -> (1 <= n <= 2 ^ 40)%N -> (forall i, is_word w (stream i)) ->
  exists k os s, (1 <= k <= w)%N /\
    uniform_test M cdf w n stream = Ok [mksub "" (Some s)] /\
    N.of_nat (length os) = (2 ^ k)%N /\
    (forall i, (i < 2 ^ k)%N -> nth (N.to_nat i) os 0%N = count (fun x => (x / 2 ^ (w - k) =? i)%N) (values stream n)) /\
    chi2_test cdf 0 os (repeat (IZR (Z.of_N n) / IZR (Z.of_N (2 ^ k))) (length os)) (Some s).
Proof.
  intros M cdf w n stream G Hw Hn Hs.
  assert (Hw' : In w widths) by (destruct Hw as [<-|[<-|[<-|[]]]]; cbn; auto).
  assert (W : (8 <= w <= 32)%N) by (destruct Hw as [<-|[<-|[<-|[]]]]; lia).
  destruct (uniform_ok M cdf w n stream G Hw' ltac:(lia) Hs) as (K & os & s & BK & [_ BP] & E & L & _ & C & T).
  pose proof (bin_log_small n K Hn BP) as K18.
  exists (N.min K w), os, s. split; [lia|]. split; [exact E|]. split; [exact L|]. split; [|exact T].
  intros i Hi. rewrite (C i Hi). unfold count. f_equal. f_equal. apply filter_ext_in. intros x Hx.
  rewrite C46_top_bits; [reflexivity|lia|lia|lia|]. pose proof (values_words w stream n Hs) as F. rewrite Forall_forall in F. exact (F x Hx).
Qed.
Print Assumptions C76_highest_bits.
Example C76_instance : exists k os s, uniform_test exact_math demo_cdf 8 1024 demo_words = Ok [mksub "" (Some s)] /\ length os = N.to_nat (2 ^ k) /\
  chi2_test demo_cdf 0 os (repeat (1024 / IZR (Z.of_N (2 ^ k))) (length os)) (Some s).
Proof.
  destruct (C76_highest_bits exact_math demo_cdf 8 1024 demo_words exact_math_good ltac:(cbn; auto) ltac:(lia) demo_words_ok) as (k & os & s & _ & E & L & _ & T).
  exists k, os, s. split; [exact E|]. split; [rewrite <- L; lia|exact T].
Qed.

(* ---- C77: gap ---- *)
(* The lengths of the gaps between values in the lower half, and between values in the upper half, each against
   n/2 gaps of which half have length 1, a quarter length 2 and so on; the last bin has all gaps of 8 and more. *)
Theorem C77_gap : forall M cdf w n stream, good_math M -> (0 < w <= 64)%N -> (n <= 2 ^ 53)%N ->
  exists lo_segs lo_rest lo r_lo hi_segs hi_rest hi r_hi,
    cut_into (fun l => existsb (in_gap w d0 dhalf) l = true) (values stream n) lo_segs lo_rest /\ length lo = 8%nat /\ tallies lo 1 lo_segs /\
    cut_into (fun l => existsb (in_gap w dhalf d1) l = true) (values stream n) hi_segs hi_rest /\ length hi = 8%nat /\ tallies hi 1 hi_segs /\
    chi2_test cdf 5 lo (gap_expected (n / 2)) r_lo /\ chi2_test cdf 5 hi (gap_expected (n / 2)) r_hi /\
    gap_test M cdf w n stream = Ok (reported "1/2" r_lo ++ reported "2/2" r_hi).
Proof. exact gap_ok. Qed.
Print Assumptions C77_gap.
(* The halves are told apart by the highest bit, up to 32 bits. *)
Theorem C77_highest_bit : forall M cdf w n stream, good_math M -> In w [8; 16; 32]%N -> (n <= 2 ^ 53)%N -> (forall i, is_word w (stream i)) ->
  exists lo_segs lo_rest lo r_lo hi_segs hi_rest hi r_hi,
    let high x := N.testbit x (w - 1) in
    cut_into (fun l => existsb (fun x => negb (high x)) l = true) (values stream n) lo_segs lo_rest /\ length lo = 8%nat /\ tallies lo 1 lo_segs /\
    cut_into (fun l => existsb high l = true) (values stream n) hi_segs hi_rest /\ length hi = 8%nat /\ tallies hi 1 hi_segs /\
    chi2_test cdf 5 lo (gap_expected (n / 2)) r_lo /\ chi2_test cdf 5 hi (gap_expected (n / 2)) r_hi /\
    gap_test M cdf w n stream = Ok (reported "1/2" r_lo ++ reported "2/2" r_hi).
Proof.
  intros M cdf w n stream G Hw Hn Hs.
  assert (W : (8 <= w <= 32)%N) by (destruct Hw as [<-|[<-|[<-|[]]]]; lia).
  destruct (gap_ok M cdf w n stream G ltac:(lia) Hn) as (a1 & a2 & lo & r1 & b1 & b2 & hi & r2 & A & L1 & T1 & B & L2 & T2 & X1 & X2 & E).
  exists a1, a2, lo, r1, b1, b2, hi, r2. cbn zeta.
  pose proof (values_words w stream n Hs) as F. rewrite Forall_forall in F.
  assert (H1 : forall x, In x (values stream n) -> in_gap w d0 dhalf x = negb (N.testbit x (w - 1))).
  { intros x Hx. destruct (C33_halves w x ltac:(lia) (F x Hx)) as [P Q]. rewrite <- (Q ltac:(lia)), P, Bool.negb_involutive. reflexivity. }
  assert (H2 : forall x, In x (values stream n) -> in_gap w dhalf d1 x = N.testbit x (w - 1)).
  { intros x Hx. destruct (C33_halves w x ltac:(lia) (F x Hx)) as [_ Q]. apply Q. lia. }
  split; [apply (cut_into_ext _ _ _ _ _ (fun l Hl => existsb_ext_in _ _ l (fun x Hx => H1 x (Hl x Hx))) A)|]. split; [exact L1|]. split; [exact T1|].
  split; [apply (cut_into_ext _ _ _ _ _ (fun l Hl => existsb_ext_in _ _ l (fun x Hx => H2 x (Hl x Hx))) B)|]. split; [exact L2|]. split; [exact T2|]. split; [exact X1|]. split; [exact X2|exact E].
Qed.
Print Assumptions C77_highest_bit.
(* Both results are there from 42 values on; below that the test has no result. *)
Theorem C77_present : forall M cdf w n stream, good_math M -> (0 < w <= 64)%N -> (n <= 2 ^ 53)%N ->
  exists l, gap_test M cdf w n stream = Ok l /\ map sub_name l = (if (42 <=? n)%N then ["1/2"; "2/2"]%string else []).
Proof.
  intros M cdf w n stream G Hw Hn. destruct (gap_ok M cdf w n stream G Hw Hn) as (a1 & a2 & lo & r1 & b1 & b2 & hi & r2 & _ & L1 & _ & _ & L2 & _ & X1 & X2 & E).
  eexists. split; [exact E|]. pose proof (gap_present cdf n lo r1 L1 X1) as P1. pose proof (gap_present cdf n hi r2 L2 X2) as P2.
  destruct (N.leb_spec 42 n) as [H|H].
  - destruct r1; [|exfalso; apply (proj2 P1); [exact H|reflexivity]]. destruct r2; [reflexivity|exfalso; apply (proj2 P2); [exact H|reflexivity]].
  - destruct r1; [exfalso; assert (42 <= n)%N by (apply P1; discriminate); lia|]. destruct r2; [exfalso; assert (42 <= n)%N by (apply P2; discriminate); lia|reflexivity].
Qed.
Print Assumptions C77_present.
Example C77_instance : exists l, gap_test exact_math demo_cdf 8 1024 demo_words = Ok l /\ map sub_name l = ["1/2"; "2/2"]%string.
Proof. apply (C77_present exact_math demo_cdf 8 1024 demo_words exact_math_good); lia. Qed.

(* ---- C78: coupon collector ---- *)
(* Segments that collect all five coupons, by their length 5, 6, ... , 28 and longer, against n * 12 / 137 segments
   (137/12 = 5 (1 + 1/2 + 1/3 + 1/4 + 1/5) is the mean length) with the ideal shares. *)
Theorem C78_coupon : forall M cdf w n stream, good_math M -> (0 < w <= 64)%N -> (1 <= n <= 2 ^ 53)%N -> (forall i, is_word w (stream i)) ->
  exists segs rest os es r,
    cut_into (fun l => forall k, (k < 5)%N -> exists x, In x l /\ coupon_id w 5 x = Ok k) (values stream n) segs rest /\
    length os = 25%nat /\ tallies os 5 segs /\
    length es = 25%nat /\ (forall k, (k < 25)%nat -> within 34 (nth k es 0) (coupon_share k * (IZR (Z.of_N n) * 12 / 137))) /\
    chi2_test cdf 1 os es r /\ coupon_test M cdf w n stream = Ok [mksub "" r] /\ ((110 <= n)%N -> r <> None).
Proof.
  intros M cdf w n stream G Hw Hn Hs. destruct (coupon_ok M cdf w n stream G Hw Hn Hs) as (segs & rest & os & es & r & C & L & T & Le & W & X & E).
  exists segs, rest, os, es, r. repeat (split; [assumption|]). split; [|split; [exact X|split; [exact E|intros H; exact (coupon_present cdf n os es r H Le W X)]]].
  intros k Hk. rewrite <- coupon_share_ok by exact Hk. specialize (W k Hk). destruct (k <? 24)%nat; [|exact W]. unfold within in *. eapply Rle_trans; [exact W|].
  apply Rmult_le_compat_r; [apply Rabs_pos|apply bpow_le; lia].
Qed.
Print Assumptions C78_coupon.
(* The shares are probabilities. *)
Theorem C78_shares : rsum (map coupon_share (seq 0 25)) = 1.
Proof. exact coupon_shares_total. Qed.
Print Assumptions C78_shares.
Example C78_instance : exists s, coupon_test exact_math demo_cdf 8 1024 demo_words = Ok [mksub "" (Some s)].
Proof.
  destruct (C78_coupon exact_math demo_cdf 8 1024 demo_words exact_math_good ltac:(lia) ltac:(lia) demo_words_ok) as (a & b & os & es & r & _ & _ & _ & _ & _ & _ & E & P).
  destruct r as [s|]; [exists s; exact E|destruct P; [lia|reflexivity]].
Qed.

(* ---- C79: divisibility ---- *)
(* Segments that end with the fifth even number, by their length 5, ..., 19 and longer, against floor(n/10) segments with the
   negative binomial distribution; nothing is reported below 1000 values. *)
Theorem C79_divisibility : forall M cdf w n stream, good_math M -> (n <= 2 ^ 44)%N ->
  exists segs rest os r,
    cut_into (fun l => (5 <= count (fun v => (v mod 2 =? 0)%N) l)%N) (values stream n) segs rest /\
    length os = 16%nat /\ tallies os 5 segs /\
    chi2_test cdf 5 os (map (fun k => fifth_share k * IZR (Z.of_N (n / 10))) (seq 0 16)) r /\
    divisibility_test M cdf w n stream = Ok (if (n <? 1000)%N then [] else reported "d2" r) /\ ((1000 <= n)%N -> r <> None).
Proof.
  intros M cdf w n stream G Hn. destruct (div_ok M cdf w n stream G Hn) as (segs & rest & os & r & C & L & T & X & E). exists segs, rest, os, r. rewrite <- div_expected_ok.
  repeat (split; [assumption|]). intros H. exact (div_present cdf n os r H X).
Qed.
Print Assumptions C79_divisibility.
(* The shares count bit sequences: those of length k + 5 with the fifth one at the end. *)
Theorem C79_shares : forall k, (k < 15)%nat ->
  fifth_share k = INR (length (filter (fun s => Nat.eqb (count_occ Bool.bool_dec s true) 5 && last s false) (bit_words (k + 5)))) / INR (length (bit_words (k + 5))).
Proof. exact fifth_share_words. Qed.
Print Assumptions C79_shares.
Example C79_instance : exists s, divisibility_test exact_math demo_cdf 8 1024 demo_words = Ok [mksub "d2" (Some s)].
Proof.
  destruct (C79_divisibility exact_math demo_cdf 8 1024 demo_words exact_math_good ltac:(lia)) as (a & b & os & r & _ & _ & _ & _ & E & P).
  destruct r as [s|]; [exists s; exact E|destruct P; [lia|reflexivity]].
Qed.

(* ---- C80: permutation ---- *)
(* The bits of the values, in order, are cut into windows of [size] bits; each of the 2^size windows is expected
   floor(n w / size) / 2^size times, which is between 28 and 95.  The counters are bytes that stop at 255. *)
Theorem C80_permutation : forall M cdf w n stream, good_math M -> (8192 <= n * w <= 2 ^ 53)%N ->
  exists size blocks os s,
    (3 <= size <= 43)%N /\
    chopped (N.to_nat size) (flat_map (bits_lsb (N.to_nat w)) (values stream n)) blocks /\
    N.of_nat (length os) = (2 ^ size)%N /\ (forall v, (v < 2 ^ size)%N -> nth (N.to_nat v) os 0%N = N.min 255 (count (fun b => (value_lsb b =? v)%N) blocks)) /\
    28 <= IZR (Z.of_N (n * w / size)) / IZR (Z.of_N (2 ^ size)) <= 95 /\
    chi2_test cdf 0 os (repeat (IZR (Z.of_N (n * w / size)) / IZR (Z.of_N (2 ^ size))) (length os)) (Some s) /\
    permutation_test M cdf w n stream = Ok [mksub (to_string_N size) (Some s)].
Proof. exact perm_ok. Qed.
Print Assumptions C80_permutation.
Example C80_instance : exists size s, permutation_test exact_math demo_cdf 8 1024 demo_words = Ok [mksub (to_string_N size) (Some s)].
Proof.
  destruct (C80_permutation exact_math demo_cdf 8 1024 demo_words exact_math_good ltac:(lia)) as (size & a & b & s & _ & _ & _ & _ & _ & _ & E). eauto.
Qed.

(* ---- C81: strict avalanche criterion ---- *)
(* For every value and every input bit: the number of output bits that change, against w fair coins. *)
Theorem C81_sac : forall M cdf w n stream mix, good_math M -> (0 < w <= 64)%N -> (1 <= n)%N -> (n * w <= 2 ^ 53)%N -> (forall i, is_word w (stream i)) -> word_mixer w mix ->
  exists os es r, length os = S (N.to_nat w) /\ length es = S (N.to_nat w) /\ total os = (n * w)%N /\
    (forall c, (c <= N.to_nat w)%nat -> nth c os 0%N = count (fun p => (bit_count (output_change mix (fst p) (snd p)) =? N.of_nat c)%N) (flips w (values stream n)) /\
       within 40 (nth c es 0) (sac_expected w n c)) /\
    chi2_test cdf 5 os es r /\ sac_test M cdf w n stream mix = Ok [mksub "" r] /\ (In w [8; 16; 32; 64]%N -> (8 * w <= n)%N -> r <> None).
Proof.
  intros M cdf w n stream mix G Hw H1 H2 Hs Hm. destruct (sac_ok' M cdf w n stream mix G Hw H1 H2 Hs Hm) as (os & es & r & L & Le & T & C & X & E). exists os, es, r.
  repeat (split; [assumption|]). intros W N8. apply (sac_present cdf w n os es r W N8 Le); [intros c Hc; apply C, Hc|exact X].
Qed.
Print Assumptions C81_sac.
Example C81_instance : exists s, sac_test exact_math demo_cdf 8 1024 demo_words (fun x => (5 * x mod 256)%N) = Ok [mksub "" (Some s)].
Proof.
  destruct (C81_sac exact_math demo_cdf 8 1024 demo_words (fun x => (5 * x mod 256)%N) exact_math_good ltac:(lia) ltac:(lia) ltac:(lia) demo_words_ok) as (os & es & r & _ & _ & _ & _ & _ & E & P);
    [intros x _; apply N.mod_lt; discriminate|]. destruct r as [s|]; [exists s; exact E|destruct P; [cbn; auto|lia|reflexivity]].
Qed.

(* ---- C82: bit independence ---- *)
(* Cell (j,k): twice the number of values for which flipping input bit j changes output bit k, against n. *)
Theorem C82_bic : forall cdf w n stream mix, (2 <= w <= 64)%N -> (1 <= n <= 2 ^ 52)%N -> (forall i, is_word w (stream i)) -> word_mixer w mix ->
  exists os s, length os = (N.to_nat w * N.to_nat w)%nat /\
    (forall j k, (j < N.to_nat w)%nat -> (k < N.to_nat w)%nat -> nth (j * N.to_nat w + k) os 0%N = (2 * count (fun s => N.testbit (output_change mix s j) (N.of_nat k)) (values stream n))%N) /\
    chi2_test cdf 0 os (repeat (IZR (Z.of_N n)) (N.to_nat w * N.to_nat w)) (Some s) /\ bic_test cdf w n stream mix = Ok [mksub "" (Some s)].
Proof. exact bic_ok'. Qed.
Print Assumptions C82_bic.
(* A perfect avalanche - every cell exactly n/2 - has the value zero. *)
Theorem C82_perfect : forall cdf w n stream mix s, (2 <= w <= 64)%N -> (1 <= n <= 2 ^ 52)%N -> (forall i, is_word w (stream i)) -> word_mixer w mix ->
  (forall j k, (j < N.to_nat w)%nat -> (k < N.to_nat w)%nat -> (2 * count (fun s => N.testbit (output_change mix s j) (N.of_nat k)) (values stream n) = n)%N) ->
  bic_test cdf w n stream mix = Ok [mksub "" (Some s)] -> dval (st_value s) = 0.
Proof.
  intros cdf w n stream mix s Hw Hn Hs Hm P E. destruct (bic_ok' cdf w n stream mix Hw Hn Hs Hm) as (os & s' & L & C & X & E'). rewrite E' in E. injection E as ->.
  assert (Eo : os = repeat n (N.to_nat w * N.to_nat w)).
  { apply (nth_ext _ _ 0%N 0%N); [rewrite repeat_length; exact L|]. intros i Hi. rewrite L in Hi.
    assert (W : N.to_nat w <> 0%nat) by lia. pose proof (Nat.div_mod i (N.to_nat w) W) as D. pose proof (Nat.mod_upper_bound i (N.to_nat w) W) as U.
    assert (Q : (i / N.to_nat w < N.to_nat w)%nat) by (apply Nat.div_lt_upper_bound; [exact W|exact Hi]).
    rewrite nth_repeat_lt by exact Hi. rewrite <- (P _ _ Q U), <- C by assumption. f_equal. lia. }
  apply (chi2_exact_fit cdf 0 os (Some s)). rewrite Eo in X |- *. rewrite map_repeat. exact X.
Qed.
Print Assumptions C82_perfect.
Example C82_instance : exists s, bic_test demo_cdf 8 1024 demo_words (fun x => (5 * x mod 256)%N) = Ok [mksub "" (Some s)].
Proof.
  destruct (C82_bic demo_cdf 8 1024 demo_words (fun x => (5 * x mod 256)%N) ltac:(lia) ltac:(lia) demo_words_ok) as (os & s & _ & _ & _ & E); [intros x _; apply N.mod_lt; discriminate|]. eauto.
Qed.

(* ---- C83: binary rank ---- *)
(* p x p matrices with p a power of two, the largest that gives about 954 matrices; the ranks of the matrices filled with all
   bits, and of those filled with the lowest bits, against the numbers of matrices over GF(2) by rank. *)
Theorem C83_binary_rank : forall M cdf w n stream, good_math M -> In w [8; 16; 32; 64]%N -> (9545 <= 10 * (w * n))%N -> (w * n <= 2 ^ 53)%N ->
  exists k p blocks es s0 s1, p = (2 ^ k)%nat /\ (9544 * N.of_nat (p * p) <= 10 * (w * n) < 9545 * N.of_nat (2 * p * (2 * p)))%N /\
    chopped (p * p) (flat_map (bits_lsb (N.to_nat w)) (values stream n)) blocks /\ N.of_nat (length blocks) = (w * n / N.of_nat (p * p))%N /\
    near_expected p (N.of_nat (length blocks)) es /\
    chi2_test cdf 5 (map (fun s => count (fun d => Nat.eqb (p - gf2_rank p d) s) (map (map (fun x : bool => if x then 1%N else 0%N)) blocks)) (seq 0 (S p))) es (Some s0) /\
    chi2_test cdf 5 (map (fun s => count (fun k => Nat.eqb (p - gf2_rank p (map (fun i => N.b2n (N.testbit (stream i) 0)) (seq (k * (p * p)) (p * p)))) s) (seq 0 (length blocks))) (seq 0 (S p))) es (Some s1) /\
    binary_rank_test M cdf w n stream = Ok [mksub (to_string_N (N.of_nat p)) (Some s0); mksub (to_string_N (N.of_nat p) ++ ":bit(0)") (Some s1)].
Proof. exact rank_test_ok. Qed.
Print Assumptions C83_binary_rank.
Example C83_instance : exists p s0 s1, binary_rank_test exact_math demo_cdf 8 1024 demo_words = Ok [mksub (to_string_N (N.of_nat p)) (Some s0); mksub (to_string_N (N.of_nat p) ++ ":bit(0)") (Some s1)].
Proof.
  destruct (C83_binary_rank exact_math demo_cdf 8 1024 demo_words exact_math_good ltac:(cbn; auto) ltac:(lia) ltac:(lia)) as (k & p & b & es & s0 & s1 & _ & _ & _ & _ & _ & _ & _ & E). eauto.
Qed.

(* ---- C84: linear complexity ---- *)
(* Below 8192 values there is no result; otherwise b = 1024 or somewhat more blocks of bs = floor(n/1024) lowest bits, by linear
   complexity, against the numbers of bit sequences by linear complexity (shares below 2^-1000 count as next to nothing). *)
Theorem C84_linear_complexity : forall M cdf w n stream, good_math M -> In w [8; 16; 32; 64]%N -> (n <= 2 ^ 53)%N ->
  ((n < 8192)%N -> linear_complexity_sub_test M cdf w n stream = Ok []) /\
  ((8192 <= n)%N -> exists bs b lc es s, bs = N.to_nat (n / 1024) /\ b = (n / (n / 1024))%N /\ (1024 <= b <= 1151)%N /\ (forall u, linear_complexity u (lc u)) /\ length es = S bs /\
     (forall L, (L <= bs)%nat -> if Rle_bool (bpow radix2 (-1000)) (lc_prob bs L) then nth L es 0 = IZR (Z.of_N b) * lc_prob bs L else 0 <= nth L es 0 <= bpow radix2 (-900)) /\
     chi2_test cdf 5 (map (fun L => count (fun k => Nat.eqb (lc (map (fun i => N.testbit (stream i) 0) (seq (k * bs) bs))) L) (seq 0 (N.to_nat b))) (seq 0 (S bs))) es (Some s) /\
     linear_complexity_sub_test M cdf w n stream = Ok [mksub (to_string_N (N.of_nat bs) ++ ":bit(0)") (Some s)]).
Proof. exact lc_test_ok'. Qed.
Print Assumptions C84_linear_complexity.
Theorem C84_lc_prob : forall bs L, exists l, NoDup l /\ (forall u, In u l <-> length u = bs /\ linear_complexity u L) /\ lc_prob bs L = INR (length l) / IZR (2 ^ Z.of_nat bs).
Proof. intros bs L. destruct (lc_counts bs L) as (l & ND & I & C). exists l. split; [exact ND|]. split; [exact I|]. unfold lc_prob. rewrite C. reflexivity. Qed.
Print Assumptions C84_lc_prob.
Example C84_instance : exists s, linear_complexity_sub_test exact_math demo_cdf 8 8192 demo_words = Ok [mksub "8:bit(0)" (Some s)].
Proof.
  destruct (C84_linear_complexity exact_math demo_cdf 8 8192 demo_words exact_math_good ltac:(cbn; auto) ltac:(lia)) as [_ B]. destruct (B ltac:(lia)) as (bs & b & lc & es & s & -> & _ & _ & _ & _ & _ & _ & E).
  exists s. exact E.
Qed.

(* ---- C85: serial avalanche ---- *)
(* The n consecutive pairs of values.  Row c: the pairs whose first value has c ones, by the ones of the second value, against
   two times w fair coins; neighbouring bins are merged until at least 5 pairs are expected (C45), and a row is dropped
   when fewer than 35% of its bins remain. *)
Theorem C85_serial_avalanche : forall M cdf w n stream, good_math M -> In w [8; 16; 32; 64]%N -> (1 <= n <= 2 ^ 53)%N -> (forall i, is_word w (stream i)) ->
  exists (result : nat -> option statistic),
    serial_avalanche_test M cdf w n stream = Ok (flat_map (fun c => reported ("bit(" ++ to_string_N (N.of_nat c) ++ ")") (result c)) (seq 0 (N.to_nat w))) /\
    forall c, (c < N.to_nat w)%nat -> exists observed expected os es,
      length observed = S (N.to_nat w) /\ length expected = S (N.to_nat w) /\
      (forall k, (k <= N.to_nat w)%nat ->
         nth k observed 0%N = count (fun p => (bit_count (fst p) =? N.of_nat c)%N && (bit_count (snd p) =? N.of_nat k)%N) (pairs (values stream (2 * n))) /\
         within 40 (dval (nth k expected d0)) (pairs_expected w n c k)) /\
      merge_bins observed expected (double_of_N 5) = Ok (os, es) /\
      if (20 * length os <? 7 * S (N.to_nat w))%nat then result c = None else chi2_test cdf 0 os (map dval es) (result c).
Proof. exact serial_test_ok. Qed.
Print Assumptions C85_serial_avalanche.
Example C85_instance : exists result, serial_avalanche_test exact_math demo_cdf 8 1024 demo_words = Ok (flat_map (fun c => reported ("bit(" ++ to_string_N (N.of_nat c) ++ ")") (result c)) (seq 0 8)).
Proof. destruct (C85_serial_avalanche exact_math demo_cdf 8 1024 demo_words exact_math_good ltac:(cbn; auto) ltac:(lia) demo_words_ok) as (r & E & _). exists r. exact E. Qed.

(* ---- C86: no test runs into undefined behaviour, all p-values are in [0,1] ---- *)
Theorem C86_defined : forall M cdf w stream mix n, good_math M -> good_cdf cdf -> In w [8; 16; 32; 64]%N -> (forall i, is_word w (stream i)) -> word_mixer w mix -> samples n ->
  Forall (defined_valid 64)
    [mean_sub_test M w n stream; uniform_test M cdf w n stream; runs_sub_test M w n stream; serial_avalanche_test M cdf w n stream; gap_test M cdf w n stream;
     coupon_test M cdf w n stream; divisibility_test M cdf w n stream; permutation_test M cdf w n stream; binary_rank_test M cdf w n stream;
     linear_complexity_sub_test M cdf w n stream; sac_test M cdf w n stream mix; bic_test cdf w n stream mix].
Proof.
  intros M cdf w stream mix n G C W Hs Hm [N1 N2].
  assert (B : forall k o, (k <= 64)%nat -> defined_valid k o -> defined_valid 64 o) by (intros k o Hk (l & E & V); exists l; split; [exact E|apply (valid_more k); assumption]).
  repeat (apply Forall_cons); [..|apply Forall_nil].
  - apply (B 1%nat); [lia|]. apply mean_dv; assumption.
  - apply (B 1%nat); [lia|]. apply uniform_dv; try assumption; lia.
  - apply (B 1%nat); [lia|]. apply runs_dv; assumption.
  - apply serial_dv; try assumption; lia.
  - apply (B 2%nat); [lia|]. apply gap_dv; assumption.
  - apply (B 1%nat); [lia|]. apply coupon_dv; try assumption; lia.
  - apply (B 1%nat); [lia|]. apply div_dv; assumption.
  - apply (B 1%nat); [lia|]. apply perm_dv; try assumption; lia.
  - apply (B 2%nat); [lia|]. apply rank_dv; try assumption; lia.
  - apply (B 1%nat); [lia|]. apply lc_dv; assumption.
  - apply (B 1%nat); [lia|]. apply sac_dv; try assumption; lia.
  - apply (B 1%nat); [lia|]. apply bic_dv; try assumption; lia.
Qed.
Print Assumptions C86_defined.
Example C86_instance : good_math exact_math /\ good_cdf demo_cdf /\ (forall i, is_word 8 (demo_words i)) /\ word_mixer 8 (fun x => (5 * x mod 256)%N) /\ samples 4096.
Proof.
  split; [exact exact_math_good|]. split; [exact demo_cdf_good|]. split; [exact demo_words_ok|]. split; [intros x _; apply N.mod_lt; discriminate|]. split; discriminate.
Qed.

(* ---- C87: the battery of the default tests ---- *)
(* Sources of words, a mixer of words, powers of two from 2^10 to 2^26: the hypotheses of the results about
   evaluations (C23-C25) and commands (C70-C75) hold. *)
Theorem C87_sound : forall M cdf w mixed E setup, good_math M -> good_cdf cdf -> In w [8; 16; 32; 64]%N -> e_defs E = default_tests M cdf w ->
  Forall (word_source w) (ts_sources setup) -> (forall m, ts_mix setup = Some m -> word_mixer w m) ->
  (1 <= ts_max_threads setup)%N -> (10 <= ts_start setup <= ts_stop setup)%Z -> (ts_stop setup <= 26)%Z ->
  (N.of_nat (length (ts_tests setup)) * N.of_nat (length (ts_sources setup)) < 2 ^ 24)%N ->
  sound_setup mixed E setup.
Proof. exact default_sound. Qed.
Print Assumptions C87_sound.
(* The verdict at 2^p is defined, and it is the same for all numbers of threads and all schedules. *)
Theorem C87_verdict : forall M cdf w mixed L setup p t t' br br', good_math M -> good_cdf cdf -> In w [8; 16; 32; 64]%N ->
  good_sorts L -> good_exp (l_exp L) -> good_log10 (l_log10 L) ->
  Forall (word_source w) (ts_sources setup) -> (forall m, ts_mix setup = Some m -> word_mixer w m) ->
  (1 <= t)%N -> (1 <= t')%N -> (10 <= p <= 26)%N ->
  (N.of_nat (length (ts_tests setup)) * N.of_nat (length (ts_sources setup)) < 2 ^ 24)%N ->
  evaluate mixed (default_tests M cdf w) w (2 ^ p) (with_threads t setup) br ->
  evaluate mixed (default_tests M cdf w) w (2 ^ p) (with_threads t' setup) br' ->
  exists v, battery_verdict L br = Ok v /\ battery_verdict L br' = Ok v.
Proof.
  intros M cdf w mixed L setup p t t' br br' G C W S X G10 HS HM Ht Ht' Hp Hc He He'.
  assert (A : sound_setup mixed (mkenv L demo_log2 (default_tests M cdf w) 1) (mksetup (ts_name setup) (ts_sources setup) (ts_tests setup) (ts_mix setup) t (Z.of_N p) (Z.of_N p))).
  { apply (default_sound M cdf w); try assumption; cbn [ts_max_threads ts_start ts_stop]; try lia. reflexivity. }
  destruct A as (_ & J & _ & _ & _ & A). destruct (A p) as [V Ln]; [cbn [ts_start ts_stop]; lia|].
  destruct (C25_verdict_defined L mixed (default_tests M cdf w) w (2 ^ p) (with_threads t setup) br S X G10 Ht J V Ln He) as (v & Ev).
  destruct (C23_verdict_schedule_independent L L mixed (default_tests M cdf w) w (2 ^ p) setup t t' br br' S S X eq_refl eq_refl Ht Ht' J V Ln He He') as (_ & a & a' & _ & _ & _ & Eq).
  exists v. split; [exact Ev|]. rewrite <- Eq. exact Ev.
Qed.
Print Assumptions C87_verdict.
(* The test report on sources and mixers of words: the command always can complete, never runs into undefined behaviour,
   and writes the header and one row for each subject, in order. *)
Theorem C87_report : forall M cdf w E debug root s, good_math M -> good_cdf cdf -> In w [8; 16; 32; 64]%N ->
  good_env E (m_pow M) (BatteryModel.battery_tests M cdf w) -> word_subjects w s ->
  (exists ops, test_command E debug root w s (Ok ops)) /\ ~ test_command E debug root w s UB /\
  forall ops, test_command E false root w s (Ok ops) ->
    let path := (root ++ "result_" ++ to_string_N w ++ ".md")%string in
    exists rows, ops = Write path (report_header w) :: map (Append path) rows /\ Forall2 (report_row E w) (test_setups E w s) rows.
Proof.
  intros M cdf w E debug root s G C W GE WS. pose proof GE as (_ & _ & _ & _ & DE & HT).
  assert (F : Forall (fun x => sound_setup (mixed_name (ts_name x)) E x) (test_setups E w s)) by (apply (subjects_sound M cdf w); assumption).
  destruct (C70_defined E _ _ debug root w s GE F) as [A B]. split; [exact A|]. split; [exact B|]. intros ops R. exact (C70_report E _ _ root w s ops GE F R).
Qed.
Print Assumptions C87_report.
(* The subjects of the tool are such: the sources of the mixers are the 4w permuted counters, those of a generator are the 4w
   seeded and rotated ones, those of a combiner the 3 + 12w of create_combiner_sources, and the data are cut into k streams. *)
Theorem C87_sources : forall w names, In w widths ->
  word_sources w (map (fun x => mksrc (fst x) (snd x)) (combine names (create_sources w))) /\
  (forall c, (forall x y, is_word w x -> is_word w y -> is_word w (c x y)) -> word_sources w (map (fun x => mksrc (fst x) (snd x)) (combine names (create_combiner_sources w c)))) /\
  (forall create_prng value fuel streams, (forall sd, delivers (create_prng sd) (value sd)) -> (forall sd i, is_word w (value sd i)) -> (1024 <= fuel)%nat ->
     create_prng_test_setup w create_prng fuel = Ok (Some streams) -> word_sources w (map (fun x => mksrc (fst x) (snd x)) (combine names streams))) /\
  (forall data k streams, Forall (is_word w) data -> data <> [] -> (N.of_nat (length data) < 2 ^ 64)%N -> (0 < k <= 1048576)%Z -> create_evenly_seeded_stream data k = Ok streams ->
     word_sources w (map (fun x => mksrc (fst x) (snd x)) (combine names streams))).
Proof.
  intros w names W. assert (B : forall l, Forall (word_stream w) l -> (N.of_nat (length l) <= 1048576)%N -> word_sources w (map (fun x => mksrc (fst x) (snd x)) (combine names l))).
  { intros l F L. split; [|rewrite map_length, combine_length; lia]. apply Forall_map, Forall_forall. intros [nm s] Hx. apply in_combine_r in Hx. rewrite Forall_forall in F. exact (F s Hx). }
  assert (Wb : (8 <= w <= 64)%N) by (destruct W as [<-|[<-|[<-|[<-|[]]]]]; lia).
  split; [|split; [|split]].
  - apply B; [apply sources_words, W|]. rewrite (proj1 (C68_sources w W)). lia.
  - intros c Hc. apply B; [apply combiner_words; assumption|]. rewrite (proj1 (C68_combiner_first w c W)). lia.
  - intros cp value fuel streams D V Hf E. destruct (prng_words w cp value fuel streams W D V Hf E) as [F L]. apply B; [exact F|lia].
  - intros data k streams F Hd Hl Hk E. destruct (data_words w data k streams F Hd Hl ltac:(lia) E) as [F' L]. apply B; [exact F'|lia].
Qed.
Print Assumptions C87_sources.
(* All 32 bit and 64 bit mixers of the project on the project's sources. *)
Theorem C87_mixer_catalogue : forall names w mixers, (w = 32%N /\ mixers = mixers32) \/ (w = 64%N /\ mixers = mixers64) ->
  word_subjects w (mksubjects None None (map (fun x => mksrc (fst x) (snd x)) (combine names (create_sources w))) mixers [] []).
Proof.
  intros names w mixers H. assert (W : In w widths) by (destruct H as [[-> _]|[-> _]]; cbn; auto). destruct (C87_sources w names W) as (A & _).
  split; [discriminate|]. split; [discriminate|]. split; [exact A|]. split; [|split; constructor]. cbn [s_mixers].
  destruct H as [[-> ->]|[-> ->]]; [eapply Forall_impl; [|exact C15_mixers32_bijective]|eapply Forall_impl; [|exact C15_mixers64_bijective]]; intros m (Hm & _); exact Hm.
Qed.
Print Assumptions C87_mixer_catalogue.
Definition tests_env (w : N) : env := mkenv exact_libs demo_log2 (default_tests exact_math demo_cdf w) 4.
Example C87_instance : good_env (tests_env 64) (m_pow exact_math) (BatteryModel.battery_tests exact_math demo_cdf 64) /\
  exists ops, test_command (tests_env 64) false "" 64 (mksubjects None None (map (fun x => mksrc (fst x) (snd x)) (combine ["c"%string] (create_sources 64))) mixers64 [] []) (Ok ops).
Proof.
  assert (GE : good_env (tests_env 64) (m_pow exact_math) (BatteryModel.battery_tests exact_math demo_cdf 64)).
  { destruct exact_libs_good as (A & B & C). split; [exact A|]. split; [exact B|]. split; [exact C|]. split; [exact demo_log2_good|]. split; [reflexivity|discriminate]. }
  split; [exact GE|]. destruct (C87_report exact_math demo_cdf 64 (tests_env 64) false "" _ exact_math_good demo_cdf_good ltac:(cbn; auto) GE (C87_mixer_catalogue ["c"%string] 64 mixers64 (or_intror (conj eq_refl eq_refl)))) as [A _]. exact A.
Qed.
