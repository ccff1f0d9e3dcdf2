(* The binary rank and linear complexity tests. *)
From Coq Require Import Reals Lra String.
From Flocq Require Import Core BinarySingleNaN.
From Verif Require Import Base BitwiseModel BitwiseSpec FloatModel FloatLemmas ResultModel CollectModel CollectSpec CollectProofs Collect2Proofs RescaleProofs Collect3Proofs CouponProofs CouponFloatProofs StatsModel StatsProofs ErrorSpec StatFormulas EvaluateModel EvaluateSpec RankModel RankProofs RankCount RankBridge RankProb RankStats LfsrModel LfsrSpec LfsrProofs LfsrCount LfsrStats TestsModel TestsSpec TestsProofs TestsUniform TestsGap TestsCoupon TestsAval Prop_Rank.
From Verif Require RankTop.
Open Scope R_scope.

Lemma rnd_err_abs x : Rabs (rnd x - x) <= u * Rabs x + bpow radix2 (-1000).
Proof.
  destruct (Rle_or_lt 0 x) as [P|P]; [rewrite (Rabs_pos_eq x) by exact P; apply rnd_err_any, P|].
  rewrite (Rabs_left x) by exact P. pose proof (rnd_err_any (- x) ltac:(lra)) as A. unfold rnd in *. rewrite round_NE_opp in A.
  rewrite <- Rabs_Ropp. replace (- (round radix2 (SpecFloat.fexp 53 1024) ZnearestE x - x)) with (- round radix2 (SpecFloat.fexp 53 1024) ZnearestE x - - x) by ring. exact A.
Qed.

Definition rank_expected (ps : list double) (b : N) (i : nat) : double := dmul (nth i ps d0) (double_of_N b).
Lemma rank_chi2_ok cdf ps cs b : length ps = length cs -> (Z.of_nat (length cs) <= 2 ^ 50)%Z -> (b <= 2 ^ 53)%N -> Forall (fun c => c <= b)%N cs ->
  (forall i, (i < length cs)%nat -> fin (nth i ps d0) /\ Rabs (dval (nth i ps d0)) <= 16) ->
  (forall i, (i < length cs)%nat -> fin (rank_expected ps b i) /\ dval (rank_expected ps b i) = rnd (dval (nth i ps d0) * IZR (Z.of_N b))) /\
  chi2_test cdf 5 cs (map (fun i => dval (rank_expected ps b i)) (seq 0 (length cs))) (rank_chi2 cdf ps cs b).
Proof.
  intros Hl Hc Hb HB HP. destruct (double_of_N_exact b Hb) as [Vb Fb]. destruct (double_of_N_exact 5 ltac:(discriminate)) as [V5 F5].
  assert (Rb : 0 <= IZR (Z.of_N b) <= 9007199254740992) by (split; apply IZR_le; lia).
  assert (E : forall i, (i < length cs)%nat -> fin (rank_expected ps b i) /\ dval (rank_expected ps b i) = rnd (dval (nth i ps d0) * IZR (Z.of_N b)) /\ dval (rank_expected ps b i) <= bpow radix2 64).
  { intros i Hi. destruct (HP i Hi) as [Fp Bp]. apply Rabs_le_inv in Bp. destruct (dmul_ok (nth i ps d0) (double_of_N b) Fp Fb) as [V F].
    - rewrite Vb. apply (small_bpow _ 64); [lia|]. change (bpow radix2 64) with 18446744073709551616. apply Rabs_le. nra.
    - split; [exact F|]. rewrite Vb in V. split; [exact V|]. unfold rank_expected. rewrite V. rewrite <- (rnd_id (bpow radix2 64)) by (apply F64_bpow; lia). apply rnd_mono. change (bpow radix2 64) with 18446744073709551616. nra. }
  split; [intros i Hi; split; apply E, Hi|].
  unfold rank_chi2. replace 5 with (dval (double_of_N 5)) by exact V5. apply (chi2_is_test cdf cs (fun i => double_of_N (nth i cs 0%N)) (rank_expected ps b)); [exact Hc|exact F5|reflexivity| | |].
  - intros i Hi. apply (to_data_ok cs i Hi). apply Forall_forall. intros x Hx. rewrite Forall_forall in HB. specialize (HB x Hx). lia.
  - intros i Hi. apply E, Hi.
  - intros i Hi L. rewrite V5 in L. change (IZR (Z.of_N 5)) with 5 in L. split; [|apply E, Hi]. apply Rle_trans with 1; [change 1 with (bpow radix2 0); apply bpow_le; lia|lra].
Qed.

(* ---- binary rank ---- *)
(* the probability that a random p x p bit matrix has rank p - s *)
Lemma rank_prob_bounds p s : (s <= p)%nat -> 0 <= rank_prob p s <= 4 /\ ((s <= 1)%nat -> / 8 <= rank_prob p s).
Proof.
  intros Hs. unfold rank_prob. rewrite RankTop.gf2_countE, <- rank_formula by lia. replace (Z.of_nat p - Z.of_nat (p - s))%Z with (Z.of_nat s) by lia.
  destruct (G_bounds p (p - s) (p - s) (le_n _) ltac:(lia)) as [G1 G2]. set (g := G p (p - s) (p - s)) in *. clearbody g.
  assert (B : 0 < bpow radix2 (- Z.of_nat s * Z.of_nat s) <= 1) by (split; [apply bpow_gt_0|change 1 with (bpow radix2 0); apply bpow_le; nia]).
  split; [split; nra|]. intros H. assert (/ 2 <= bpow radix2 (- Z.of_nat s * Z.of_nat s)); [|nra].
  change (/ 2) with (bpow radix2 (-1)). apply bpow_le. destruct s as [|[|s]]; lia.
Qed.

(* expected number, and how close the program's is *)
Lemma near_algebra p q B a t d e x : 0 <= q -> 0 <= B <= bpow radix2 53 -> 0 <= a <= 1 -> 0 < t <= / 4 -> 0 <= d -> Rabs (p - q) <= a * q + d -> x = p * B -> Rabs (e - x) <= t * Rabs x + bpow radix2 (-1000) ->
  Rabs (e - B * q) <= (a + 2 * t) * (B * q) + 2 * bpow radix2 53 * d + bpow radix2 (-1000).
Proof.
  intros Hq HB Ha Ht Hd Hp -> He. 
  assert (X : Rabs (p * B - B * q) <= B * (a * q + d)). { replace (p * B - B * q) with (B * (p - q)) by ring. rewrite Rabs_mult, (Rabs_pos_eq B) by lra. apply Rmult_le_compat_l; lra. }
  assert (Y : Rabs (p * B) <= B * q + B * (a * q + d)). { replace (p * B) with (B * q + (p * B - B * q)) by ring. apply Rle_trans with (1 := Rabs_triang _ _). rewrite (Rabs_pos_eq (B * q)) by (apply Rmult_le_pos; lra). lra. }
  replace (e - B * q) with ((e - p * B) + (p * B - B * q)) by ring. apply Rle_trans with (1 := Rabs_triang _ _).
  set (z := B * q) in *. assert (Z0 : 0 <= z) by (apply Rmult_le_pos; lra). assert (D0 : 0 <= B * d <= bpow radix2 53 * d) by (split; [apply Rmult_le_pos; lra|apply Rmult_le_compat_r; lra]).
  replace (B * (a * q + d)) with (a * z + B * d) in X, Y by (unfold z; ring).
  set (Bd := B * d) in *. set (W := bpow radix2 53 * d) in *. replace (2 * bpow radix2 53 * d) with (2 * W) by (unfold W; ring). set (ee := bpow radix2 (-1000)) in *. clearbody ee W Bd z.
  set (ax := Rabs (p * B)) in *. set (ay := Rabs (p * B - B * q)) in *. set (az := Rabs (e - p * B)) in *. clearbody ax ay az. clear - X Y He Z0 D0 Ha Ht.
  assert (t * ax <= t * (z + (a * z + Bd))) by (apply Rmult_le_compat_l; lra).
  assert (az0 : a * z <= z) by (rewrite <- (Rmult_1_l z) at 2; apply Rmult_le_compat_r; lra).
  assert (t * (a * z) <= t * z) by (apply Rmult_le_compat_l; lra). assert (t * Bd <= Bd) by (rewrite <- (Rmult_1_l Bd) at 2; apply Rmult_le_compat_r; lra).
  lra.
Qed.
Lemma small_400 : 2 * bpow radix2 53 * bpow radix2 (-900) + bpow radix2 (-1000) <= bpow radix2 (-800).
Proof.
  assert (A : 2 * bpow radix2 53 * bpow radix2 (-900) = bpow radix2 (-846)) by (change 2 with (bpow radix2 1); rewrite <- !bpow_plus; reflexivity).
  rewrite A. assert (B : bpow radix2 (-846) <= bpow radix2 (-801)) by (apply bpow_le; lia). assert (C : bpow radix2 (-1000) <= bpow radix2 (-801)) by (apply bpow_le; lia).
  assert (D : bpow radix2 (-800) = 2 * bpow radix2 (-801)) by (change (-800)%Z with (1 + -801)%Z; rewrite bpow_plus; reflexivity). lra.
Qed.

Lemma rank_stat_ok M cdf p b cs : good_math M -> (1 <= p)%nat -> (Z.of_nat p <= 2 ^ 26)%Z -> (b <= 2 ^ 53)%N -> length cs = S p -> Forall (fun c => c <= b)%N cs ->
  near_expected p b (map (fun i => dval (rank_expected (get_rank_probabilities (m_pow M) p) b i)) (seq 0 (S p))) /\
  chi2_test cdf 5 cs (map (fun i => dval (rank_expected (get_rank_probabilities (m_pow M) p) b i)) (seq 0 (S p))) (rank_chi2 cdf (get_rank_probabilities (m_pow M) p) cs b).
Proof.
  intros G Hp0 Hp Hb Hl Hc. set (ps := get_rank_probabilities (m_pow M) p).
  assert (HPW : pow2_exact (m_pow M)) by exact (gm_pow_two_neg M G).
  assert (A14 : forall r, (r <= p)%nat -> 0 <= INR (14 * r + 2) * bpow radix2 (-53) <= / 2).
  { intros r Hr. rewrite INR_IZR_INZ. change (bpow radix2 (-53)) with (/ 9007199254740992). assert (0 <= IZR (Z.of_nat (14 * r + 2)) <= 4503599627370496) by (split; apply IZR_le; lia). lra. }
  assert (P : forall i, (i <= p)%nat -> fin (nth i ps d0) /\ Rabs (dval (nth i ps d0) - rank_prob p i) <= INR (14 * p + 2) * bpow radix2 (-53) * rank_prob p i + bpow radix2 (-900)).
  { intros i Hi. unfold ps. rewrite (probs_nth _ cdf) by exact Hi. destruct (rank_probability_ok (m_pow M) p (p - i) HPW ltac:(lia) Hp) as (F & _ & A). split; [exact F|].
    unfold rank_prob. rewrite RankTop.gf2_countE. apply Rle_trans with (1 := A). apply Rplus_le_compat_r.
    destruct (rank_prob_bounds p i Hi) as [[Q _] _]. unfold rank_prob in Q. rewrite RankTop.gf2_countE in Q. apply Rmult_le_compat_r; [exact Q|]. apply Rmult_le_compat_r; [apply bpow_ge_0|]. apply le_INR. lia. }
  assert (T900 : 0 <= bpow radix2 (-900) <= 1) by (split; [apply bpow_ge_0|change 1 with (bpow radix2 0); apply bpow_le; lia]).
  destruct (rank_chi2_ok cdf ps cs b) as [E T].
  - unfold ps. rewrite probs_length. lia.
  - rewrite Hl. lia.
  - exact Hb.
  - exact Hc.
  - intros i Hi. rewrite Hl in Hi. destruct (P i ltac:(lia)) as [F A]. split; [exact F|]. destruct (rank_prob_bounds p i ltac:(lia)) as [Q _]. specialize (A14 p (le_n _)).
    set (q := rank_prob p i) in *. set (a := INR (14 * p + 2) * bpow radix2 (-53)) in *. replace (dval (nth i ps d0)) with (q + (dval (nth i ps d0) - q)) by ring.
    apply Rle_trans with (1 := Rabs_triang _ _). rewrite (Rabs_pos_eq q) by lra. assert (a * q <= / 2 * 4) by (apply Rmult_le_compat; lra). lra.
  - rewrite Hl in T, E. split; [|exact T]. split; [rewrite map_length, seq_length; reflexivity|]. intros s Hs.
    rewrite (nth_indep _ 0 (dval (rank_expected ps b 0))) by (rewrite map_length, seq_length; lia). rewrite (map_nth (fun i => dval (rank_expected ps b i))), seq_nth by lia. cbn [plus].
    destruct (E s ltac:(lia)) as [_ V]. destruct (P s Hs) as [_ A]. destruct (rank_prob_bounds p s Hs) as [Q _]. rewrite V.
    assert (RB : 0 <= IZR (Z.of_N b) <= bpow radix2 53) by (split; [apply IZR_le; lia|rewrite <- IZR_pow2 by lia; apply IZR_le; lia]).
    assert (HT : 0 < u <= / 4) by (rewrite u_val; lra).
    specialize (A14 p (le_n _)). assert (HA : 0 <= INR (14 * p + 2) * bpow radix2 (-53) <= 1) by lra.
    pose proof (near_algebra _ _ _ _ _ _ _ _ (proj1 Q) RB HA HT (proj1 T900) A eq_refl (rnd_err_abs (dval (nth s ps d0) * IZR (Z.of_N b)))) as N.
    apply Rle_trans with (1 := N). pose proof small_400 as S4. rewrite Rplus_assoc. apply Rplus_le_compat; [|exact S4].
    apply Rmult_le_compat_r; [apply Rmult_le_pos; lra|]. change u with (bpow radix2 (-53)).
    replace (14 * p + 5)%nat with (14 * p + 2 + 3)%nat by lia. rewrite (plus_INR (14 * p + 2) 3). change (INR 3) with (2 + 1). pose proof (bpow_gt_0 radix2 (-53)). nra.
Qed.
Lemma count_le {A} (f : A -> bool) l : (count f l <= N.of_nat (length l))%N.
Proof. unfold count. pose proof (filter_len_le f l). lia. Qed.
Lemma chopped_len {A} k (l : list A) bs : (0 < k)%nat -> chopped k l bs -> (length l / k = length bs)%nat.
Proof.
  intros Hk (F & tail & E & L). rewrite E, app_length.
  assert (C : length (concat bs) = (length bs * k)%nat). { clear - F. induction F as [|b bs Hb F IH]; [reflexivity|]. cbn [concat length]. rewrite app_length, Hb, IH. lia. }
  rewrite C, Nat.add_comm, Nat.div_add by lia. rewrite Nat.div_small by exact L. reflexivity.
Qed.
Lemma bits_len w data : length (flat_map (bits_lsb w) data) = (length data * w)%nat.
Proof. induction data as [|x l IH]; [reflexivity|]. cbn [flat_map length]. rewrite app_length, IH. unfold bits_lsb. rewrite map_length, seq_length. lia. Qed.

Theorem rank_test_ok M cdf w n stream : good_math M -> In w [8; 16; 32; 64]%N -> (9545 <= 10 * (w * n))%N -> (w * n <= 2 ^ 53)%N ->
  exists k p blocks es s0 s1, p = (2 ^ k)%nat /\ (9544 * N.of_nat (p * p) <= 10 * (w * n) < 9545 * N.of_nat (2 * p * (2 * p)))%N /\
    chopped (p * p) (flat_map (bits_lsb (N.to_nat w)) (values stream n)) blocks /\ N.of_nat (length blocks) = (w * n / N.of_nat (p * p))%N /\
    near_expected p (N.of_nat (length blocks)) es /\
    chi2_test cdf 5 (map (fun s => count (fun d => Nat.eqb (p - gf2_rank p d) s) (map (map (fun x : bool => if x then 1%N else 0%N)) blocks)) (seq 0 (S p))) es (Some s0) /\
    chi2_test cdf 5 (map (fun s => count (fun k => Nat.eqb (p - gf2_rank p (map (fun i => N.b2n (N.testbit (stream i) 0)) (seq (k * (p * p)) (p * p)))) s) (seq 0 (length blocks))) (seq 0 (S p))) es (Some s1) /\
    binary_rank_test M cdf w n stream = Ok [mksub (to_string_N (N.of_nat p)) (Some s0); mksub (to_string_N (N.of_nat p) ++ ":bit(0)") (Some s1)].
Proof.
  intros G Hw Hn Hm.
  assert (Hw' : (w = 8 \/ w = 16 \/ w = 32 \/ w = 64)%N) by (destruct Hw as [<-|[<-|[<-|[<-|[]]]]]; tauto).
  assert (Hw1 : (8 <= w <= 64)%N) by (destruct Hw' as [->|[->|[->| ->]]]; lia).
  assert (Hn53 : (n <= 2 ^ 53)%N) by (apply N.le_trans with (2 := Hm); clear - Hw1; nia).
  destruct (matrix_size_ok w n Hw' Hn53) as (P & EP & [[_ H]|[[kk Hk] HB]]); [lia|].
  assert (Hp1 : (1 <= P)%N) by (rewrite Hk; apply (N.pow_le_mono_r 2 0 kk); lia).
  set (p := N.to_nat P). assert (EPp : P = N.of_nat p) by (unfold p; lia). assert (p1 : (1 <= p)%nat) by (unfold p; lia).
  assert (HB' : (9544 * N.of_nat (p * p) <= 10 * (w * n) < 9545 * N.of_nat (2 * p * (2 * p)))%N) by (rewrite !Nat2N.inj_mul, <- EPp; exact HB).
  assert (p26 : (Z.of_nat p <= 2 ^ 26)%Z).
  { assert ((9544 * (P * P) <= 10 * 2 ^ 53)%N) by lia. assert (P <= 2 ^ 26)%N; [|lia]. destruct (N.le_gt_cases P (2 ^ 26)); [assumption|]. exfalso. assert ((2 ^ 26 * 2 ^ 26 <= P * P)%N) by (apply N.mul_le_mono; lia). lia. }
  assert (P64 : (N.of_nat p < 2 ^ 64)%N) by lia.
  destruct (rank_stats_ok (m_pow M) cdf w (values stream n) p ltac:(lia) P64) as (blocks & CH & E0).
  assert (PP : (0 < p * p)%nat) by (clear - p1; nia).
  assert (LB : N.of_nat (length blocks) = (w * n / N.of_nat (p * p))%N).
  { rewrite <- (chopped_len _ _ _ PP CH), bits_len, values_len. rewrite Nat2N.inj_div, (Nat2N.inj_mul (N.to_nat n)), !N2Nat.id, (N.mul_comm n w). reflexivity. }
  pose proof (C38_isolated_bit (m_pow M) cdf w n stream p 0%N ltac:(lia) P64) as E1. cbn zeta in E1.
  assert (W64 : (w * n < 2 ^ 64)%N) by lia.
  specialize (E1 ltac:(destruct Hw' as [->|[->|[->| ->]]]; reflexivity) W64). change (Z.of_N 0) with 0%Z in E1.
  rewrite <- LB in E1. rewrite Nat2N.id in E1. set (b := N.of_nat (length blocks)) in *.
  assert (Hb : (954 <= b <= 2 ^ 53)%N).
  { rewrite LB. assert (NZ : N.of_nat (p * p) <> 0%N) by (clear - PP; lia). split; [apply N.div_le_lower_bound; [exact NZ|lia]|]. apply N.le_trans with (2 := Hm). apply N.div_le_upper_bound; [exact NZ|]. clear - NZ. nia. }
  set (c0 := map (rank_count p (map bit_cells blocks)) (seq 0 (S p))) in E0. set (c1 := map _ (seq 0 (S p))) in E1.
  assert (L0 : length c0 = S p) by (unfold c0; rewrite map_length, seq_length; reflexivity). assert (L1 : length c1 = S p) by (unfold c1; rewrite map_length, seq_length; reflexivity).
  assert (F0 : Forall (fun c => c <= b)%N c0). { unfold c0, rank_count. apply Forall_forall. intros x Hx. apply in_map_iff in Hx. destruct Hx as (s & <- & _). eapply N.le_trans; [apply count_le|]. rewrite map_length. reflexivity. }
  assert (F1 : Forall (fun c => c <= b)%N c1). { unfold c1; unfold rank_count. apply Forall_forall. intros x Hx. apply in_map_iff in Hx. destruct Hx as (s & <- & _). eapply N.le_trans; [apply count_le|]. rewrite ?map_length, seq_length. unfold b. reflexivity. }
  destruct (rank_stat_ok M cdf p b c0 G p1 p26 (proj2 Hb) L0 F0) as [NE T0]. destruct (rank_stat_ok M cdf p b c1 G p1 p26 (proj2 Hb) L1 F1) as [_ T1].
  set (es := map (fun i => dval (rank_expected (get_rank_probabilities (m_pow M) p) b i)) (seq 0 (S p))) in *.
  assert (BIG : forall s, (s <= 1)%nat -> 5 < nth s es 0).
  { intros s Hs. destruct NE as [_ NE]. specialize (NE s ltac:(lia)). destruct (rank_prob_bounds p s ltac:(lia)) as [Q1 Q2]. specialize (Q2 Hs).
    assert (Rb : 954 <= IZR (Z.of_N b)) by (apply (IZR_le 954); lia). assert (X : 119 <= IZR (Z.of_N b) * rank_prob p s) by nra. set (x := IZR (Z.of_N b) * rank_prob p s) in *.
    assert (A : 0 <= INR (14 * p + 5) * bpow radix2 (-53) <= / 2). { rewrite INR_IZR_INZ. change (bpow radix2 (-53)) with (/ 9007199254740992). assert (0 <= IZR (Z.of_nat (14 * p + 5)) <= 4503599627370496) by (split; apply IZR_le; lia). lra. }
    assert (B8 : bpow radix2 (-800) <= 1) by (change 1 with (bpow radix2 0); apply bpow_le; lia).
    set (a := INR (14 * p + 5) * bpow radix2 (-53)) in *. assert (a * x <= / 2 * x) by (apply Rmult_le_compat_r; lra). apply Rabs_le_inv in NE. lra. }
  assert (LE : length es = S p) by apply NE.
  pose proof (two_bins cdf 5 c0 es _ 0 1 T0 ltac:(lia) (BIG O ltac:(lia)) (BIG 1%nat ltac:(lia))) as S0.
  pose proof (two_bins cdf 5 c1 es _ 0 1 T1 ltac:(lia) (BIG O ltac:(lia)) (BIG 1%nat ltac:(lia))) as S1.
  destruct (rank_chi2 cdf (get_rank_probabilities (m_pow M) p) c0 b) as [s0|] eqn:R0; [|contradiction].
  destruct (rank_chi2 cdf (get_rank_probabilities (m_pow M) p) c1 b) as [s1|] eqn:R1; [|contradiction].
  exists (N.to_nat kk), p, blocks, es, s0, s1.
  split; [unfold p; rewrite Hk, N2Nat.inj_pow; reflexivity|]. split; [exact HB'|]. split; [exact CH|]. split; [exact LB|]. split; [exact NE|]. split; [exact T0|]. split; [exact T1|].
  unfold binary_rank_test. rewrite EP. cbn [obind]. fold p. rewrite E0. cbn [obind]. rewrite E1. cbn [obind]. rewrite EPp. reflexivity.
Qed.

(* ---- linear complexity ---- *)
(* the fraction of the sequences of bs bits that have linear complexity L (lc_counts: LfsrCount.v) *)
Lemma lc_prob_pow bs L : (0 < bs)%nat -> (Z.of_nat bs <= 2 ^ 53)%Z -> (L <= bs)%nat -> exists e, (- Z.of_nat bs <= e < 0)%Z /\ lc_prob bs L = bpow radix2 e.
Proof.
  intros H0 Hbs HL. assert (Hn : (N.of_nat bs < 2 ^ 62)%N) by lia. destruct (log2_prob_count bs L H0 Hn HL) as [B E].
  exists (lfsr_log2_probability (N.of_nat bs) (N.of_nat L)). split; [exact B|].
  unfold lc_prob. rewrite INR_IZR_INZ, E. rewrite !IZR_pow2 by lia. unfold Rdiv. rewrite <- bpow_opp, <- bpow_plus. f_equal. lia.
Qed.
Lemma lc_middle bs L : (4 <= bs)%nat -> (L = bs / 2 \/ L = bs / 2 + 1)%nat -> (/ 8 <= lc_prob bs L).
Proof.
  intros H0 HL. unfold lc_prob, lc_count. assert (Hd := Nat.div_mod bs 2 ltac:(lia)). assert (Hm := Nat.mod_upper_bound bs 2 ltac:(lia)). set (h := (bs / 2)%nat) in *. set (m := (bs mod 2)%nat) in *.
  assert (K : exists k, (if (L =? 0)%nat then 1%nat else if (bs <? L)%nat then 0%nat else if (2 * L <=? bs)%nat then (2 ^ (2 * L - 1))%nat else (2 ^ (2 * bs - 2 * L))%nat) = (2 ^ k)%nat /\ (bs <= k + 3)%nat).
  { destruct (Nat.eqb_spec L 0); [lia|]. destruct (Nat.ltb_spec bs L); [lia|]. destruct (Nat.leb_spec (2 * L) bs); eexists; (split; [reflexivity|]); lia. }
  destruct K as (k & -> & Hk). rewrite INR_IZR_INZ. rewrite Nat2Z.inj_pow. change (Z.of_nat 2) with 2%Z. rewrite !IZR_pow2 by lia. unfold Rdiv. rewrite <- bpow_opp, <- bpow_plus. change (/ 8) with (bpow radix2 (-3)). apply bpow_le. lia.
Qed.

Theorem lc_test_ok' M cdf w n stream : good_math M -> In w [8; 16; 32; 64]%N -> (n <= 2 ^ 53)%N ->
  ((n < 8192)%N -> linear_complexity_sub_test M cdf w n stream = Ok []) /\
  ((8192 <= n)%N -> exists bs b lc es s, bs = N.to_nat (n / 1024) /\ b = (n / (n / 1024))%N /\ (1024 <= b <= 1151)%N /\ (forall u, linear_complexity u (lc u)) /\ length es = S bs /\
     (forall L, (L <= bs)%nat -> if Rle_bool (bpow radix2 (-1000)) (lc_prob bs L) then nth L es 0 = IZR (Z.of_N b) * lc_prob bs L else 0 <= nth L es 0 <= bpow radix2 (-900)) /\
     chi2_test cdf 5 (map (fun L => count (fun k => Nat.eqb (lc (map (fun i => N.testbit (stream i) 0) (seq (k * bs) bs))) L) (seq 0 (N.to_nat b))) (seq 0 (S bs))) es (Some s) /\
     linear_complexity_sub_test M cdf w n stream = Ok [mksub (to_string_N (N.of_nat bs) ++ ":bit(0)") (Some s)]).
Proof.
  intros G Hw Hn. split; [intros H; unfold linear_complexity_sub_test; rewrite lc_test_small by exact H; reflexivity|]. intros H8.
  set (B := (n / 1024)%N). assert (HB : (8 <= B)%N) by (apply N.div_le_lower_bound; lia). assert (HBn : (B * 1024 <= n < (B + 1) * 1024)%N).
  { unfold B. pose proof (N.div_mod n 1024 ltac:(discriminate)). pose proof (N.mod_upper_bound n 1024 ltac:(discriminate)). lia. }
  set (bs := N.to_nat B). assert (EB : N.of_nat bs = B) by (unfold bs; lia). assert (bs8 : (8 <= bs)%nat) by (unfold bs; lia). assert (bsz : (Z.of_nat bs <= 2 ^ 43)%Z) by (unfold bs; lia).
  set (b := (n / B)%N). assert (Hb : (1024 <= b <= 1151)%N).
  { unfold b. split; [apply N.div_le_lower_bound; lia|]. assert (n / B < 1152)%N; [|lia]. apply N.div_lt_upper_bound; lia. }
  assert (HPW : pow2_exact (m_pow M)) by exact (gm_pow_two_neg M G).
  pose proof (lc_stats_ok (m_pow M) cdf w n stream bs 0%N ltac:(lia) ltac:(destruct Hw as [<-|[<-|[<-|[<-|[]]]]]; reflexivity)) as E. change (Z.of_N 0) with 0%Z in E. rewrite EB in E. fold b in E.
  set (ps := get_expected_probabilities (m_pow M) bs) in *. set (cs := map _ (seq 0 (S bs))) in E.
  assert (Lc : length cs = S bs) by (unfold cs; rewrite map_length, seq_length; reflexivity).
  assert (Lp : length ps = S bs) by (unfold ps, get_expected_probabilities; rewrite map_length, seq_length; reflexivity).
  assert (PR : forall L, (L <= bs)%nat -> fin (nth L ps d0) /\ (bpow radix2 (-1074) <= lc_prob bs L -> dval (nth L ps d0) = lc_prob bs L) /\ Rabs (dval (nth L ps d0) - lc_prob bs L) <= bpow radix2 (-1074)).
  { intros L HL. apply (lc_prob_ok (m_pow M) cdf bs L d0 HPW); [lia|lia|exact HL]. }
  assert (T74 : 0 < bpow radix2 (-1074) <= 1) by (split; [apply bpow_gt_0|change 1 with (bpow radix2 0); apply bpow_le; lia]).
  assert (Q1 : forall L, (L <= bs)%nat -> 0 < lc_prob bs L <= 1).
  { intros L HL. destruct (lc_prob_pow bs L ltac:(lia) ltac:(lia) HL) as (e & He & ->). split; [apply bpow_gt_0|change 1 with (bpow radix2 0); apply bpow_le; lia]. }
  destruct (rank_chi2_ok cdf ps cs b) as [EX T].
  - rewrite Lp, Lc. reflexivity.
  - rewrite Lc. lia.
  - lia.
  - unfold cs. apply Forall_forall. intros x Hx. apply in_map_iff in Hx. destruct Hx as (L & <- & _). eapply N.le_trans; [apply count_le|]. rewrite seq_length, N2Nat.id. reflexivity.
  - intros i Hi. rewrite Lc in Hi. destruct (PR i ltac:(lia)) as (F & _ & A). split; [exact F|]. specialize (Q1 i ltac:(lia)). apply Rabs_le_inv in A. apply Rabs_le. lra.
  - rewrite Lc in EX, T. set (es := map (fun i => dval (rank_expected ps b i)) (seq 0 (S bs))) in *.
    assert (Rb : 1024 <= IZR (Z.of_N b) <= 1151) by (split; apply IZR_le; lia).
    assert (NES : forall L, (L <= bs)%nat -> nth L es 0 = rnd (dval (nth L ps d0) * IZR (Z.of_N b))).
    { intros L HL. unfold es. rewrite (nth_indep _ 0 (dval (rank_expected ps b 0))) by (rewrite map_length, seq_length; lia). rewrite (map_nth (fun i => dval (rank_expected ps b i))), seq_nth by lia. cbn [plus]. apply EX. lia. }
    assert (SP : forall L, (L <= bs)%nat -> if Rle_bool (bpow radix2 (-1000)) (lc_prob bs L) then nth L es 0 = IZR (Z.of_N b) * lc_prob bs L else 0 <= nth L es 0 <= bpow radix2 (-900)).
    { intros L HL. rewrite NES by exact HL. destruct (PR L HL) as (F & A1 & A2). destruct (Rle_bool_spec (bpow radix2 (-1000)) (lc_prob bs L)) as [C|C].
      - assert (bpow radix2 (-1074) <= bpow radix2 (-1000)) by (apply bpow_le; lia). rewrite A1 by lra. rewrite Rmult_comm. apply rnd_id. destruct (lc_prob_pow bs L ltac:(lia) ltac:(lia) HL) as (e & He & Ee). rewrite Ee in *. apply le_bpow in C.
        change (IZR (Z.of_N b) * bpow radix2 e) with (F2R (Float radix2 (Z.of_N b) e)). apply F64_F2R; [lia|lia].
      - assert (P0 : 0 <= dval (nth L ps d0)).
        { destruct (lc_prob_pow bs L ltac:(lia) ltac:(lia) HL) as (e & He & Ee). destruct (Rle_or_lt (bpow radix2 (-1074)) (lc_prob bs L)) as [D|D]; [rewrite A1 by exact D; apply Rlt_le, Q1, HL|].
          destruct (Rle_or_lt 0 (dval (nth L ps d0))) as [|D2]; [assumption|]. exfalso.
          assert (EP : nth L ps d0 = m_pow M (double_of_N 2) (double_of_Z (lfsr_log2_probability (N.of_nat bs) (N.of_nat L)))).
          { unfold ps, get_expected_probabilities. set (g := fun l => m_pow M (double_of_N 2) (double_of_Z (lfsr_log2_probability (N.of_nat bs) (N.of_nat l)))).
            rewrite (nth_indep _ d0 (g O)) by (rewrite map_length, seq_length; lia). rewrite map_nth, seq_nth by lia. reflexivity. }
          assert (Hn62 : (N.of_nat bs < 2 ^ 62)%N) by lia. destruct (log2_prob_count bs L ltac:(lia) Hn62 HL) as [BB _].
          destruct (gm_pow_two_neg M G (lfsr_log2_probability (N.of_nat bs) (N.of_nat L)) ltac:(lia)) as [_ V]. rewrite <- EP in V. destruct (_ <? -1074)%Z in V; [lra|]. rewrite V in D2. pose proof (bpow_gt_0 radix2 (lfsr_log2_probability (N.of_nat bs) (N.of_nat L))). lra. }
        assert (P1 : dval (nth L ps d0) <= bpow radix2 (-999)).
        { apply Rabs_le_inv in A2. assert (bpow radix2 (-1074) <= bpow radix2 (-1000)) by (apply bpow_le; lia). change (-999)%Z with (1 + -1000)%Z. rewrite bpow_plus. change (bpow radix2 1) with 2. lra. }
        apply rnd_between; [apply F64_0|apply F64_bpow; lia|]. split; [apply Rmult_le_pos; lra|]. apply Rle_trans with (bpow radix2 (-999) * bpow radix2 11); [apply Rmult_le_compat; [exact P0|lra|exact P1|change (bpow radix2 11) with 2048; lra]|]. rewrite <- bpow_plus. apply bpow_le. lia. }
    assert (BIG : forall L, (L = bs / 2 \/ L = bs / 2 + 1)%nat -> (L <= bs)%nat -> 5 < nth L es 0).
    { intros L HL HL2. pose proof (lc_middle bs L ltac:(lia) HL) as MM. specialize (SP L HL2). rewrite Rle_bool_true in SP; [rewrite SP; nra|]. apply Rle_trans with (2 := MM). change (/ 8) with (bpow radix2 (-3)). apply bpow_le. lia. }
    assert (HH : (bs / 2 + 1 <= bs)%nat) by (assert (Hd := Nat.div_mod bs 2 ltac:(lia)); lia).
    assert (LE : length es = S bs) by (unfold es; rewrite map_length, seq_length; reflexivity).
    pose proof (two_bins cdf 5 cs es _ (bs / 2) (bs / 2 + 1) T ltac:(lia) (BIG _ (or_introl eq_refl) ltac:(lia)) (BIG _ (or_intror eq_refl) HH)) as NN.
    destruct (rank_chi2 cdf ps cs b) as [s|] eqn:R; [|contradiction].
    exists bs, b, lcf, es, s. split; [reflexivity|]. split; [reflexivity|]. split; [exact Hb|]. split; [exact lcf_ok|]. split; [exact LE|]. split; [exact SP|]. split; [exact T|].
    unfold linear_complexity_sub_test. rewrite lc_test_ok by exact H8. fold B. fold bs. rewrite E. cbn [obind]. rewrite EB. reflexivity.
Qed.
