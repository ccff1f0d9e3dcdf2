(* The default tests are defined and give valid p-values. *)
From Coq Require Import String Reals Lra.
From Flocq Require Import Core BinarySingleNaN.
From Verif Require Import Base BitwiseModel BitwiseSpec FloatModel FloatLemmas StreamModel StreamSpec StreamProofs ResultModel ResultSpec EvaluateModel EvaluateSpec
  CollectModel CollectSpec Collect2Proofs CouponModel StatsModel StatsProofs ErrorSpec LimitProofs CommandModel CommandSpec InspectProofs2
  TestsModel TestsSpec TestsProofs TestsUniform TestsGap TestsCoupon TestsDiv TestsPerm TestsAval TestsRank TestsSerial SerialProofs BatteryModel BatterySpec.
Open Scope R_scope.


Lemma value_delivers s f k : delivers s f -> value_at s k = f k.
Proof.
  intros H. unfold value_at. destruct (delivers_draw (S k) s f 0%N H) as (s' & E & _). rewrite E.
  rewrite (nth_indep _ _ (f O)) by (rewrite map_length, seq_length; lia). rewrite map_nth, seq_nth by lia. reflexivity.
Qed.
Lemma value_words w src : word_source w src -> forall i, is_word w (value_at (src_stream src) i).
Proof. intros (f & D & H) i. rewrite (value_delivers _ f i D). apply H. Qed.
Lemma mixed_source w src nm m : (forall x, is_word w x -> is_word w (m x)) -> word_source w src -> word_source w (mksrc nm (stream_from_mixer (src_stream src) m)).
Proof. intros Hm (f & D & H). exists (fun i => m (f i)). split; [apply map_delivers, D|]. intros i. apply Hm, H. Qed.

Lemma rsum_nonneg l : Forall (fun x => 0 <= x) l -> 0 <= rsum l.
Proof. induction 1 as [|x l H _ IH]; [apply Rle_refl|]. change (rsum (x :: l)) with (x + rsum l). lra. Qed.
Lemma chi2_sum_nonneg t os es : 0 <= t -> 0 <= chi2_sum t os es.
Proof.
  intros Ht. unfold chi2_sum. apply rsum_nonneg. apply Forall_forall. intros x Hx. apply in_map_iff in Hx. destruct Hx as ([o e] & <- & _). cbn [fst snd].
  destruct (Rlt_bool_spec t e); [|lra]. apply Rmult_le_pos; [apply pow2_ge_0|apply Rlt_le, Rinv_0_lt_compat; lra].
Qed.
Definition valid_result (r : option statistic) : Prop := match r with Some s => valid_stat s | None => True end.
Lemma chi2_valid cdf t os es r : good_cdf cdf -> 0 <= t -> (Z.of_nat (length os) <= 2 ^ 50)%Z -> chi2_test cdf t os es r -> valid_result r.
Proof.
  intros G Ht Hl [LE H]. destruct r as [s|]; [|exact I]. cbn zeta in H. destruct H as (K & _ & F1 & V1 & F2 & V2 & P). cbn [valid_result]. unfold valid_stat. rewrite P. apply G; [exact F2| |].
  - pose proof (chi2_sum_nonneg t os es Ht) as S0. set (q := chi2_sum t os es) in *. apply Rabs_le_inv in V2.
    assert (C : 2 * (INR (length os) + 4) * bpow radix2 (-53) <= 1).
    { apply (Rmult_le_reg_r (bpow radix2 53)); [apply bpow_gt_0|]. rewrite Rmult_assoc, <- bpow_plus. change (bpow radix2 (-53 + 53)) with 1. change (bpow radix2 53) with 9007199254740992.
      rewrite INR_IZR_INZ. apply IZR_le in Hl. change (2 ^ 50)%Z with 1125899906842624%Z in Hl. lra. }
    assert (2 * (INR (length os) + 4) * bpow radix2 (-53) * q <= 1 * q) by (apply Rmult_le_compat_r; lra). lra.
  - split; [exact F1|]. set (k := length (filter (Rlt_bool t) es)) in *.
    assert (KL : (k <= length os)%nat) by (rewrite LE; subst k; clear; induction es as [|e es IH]; cbn; [lia|destruct (Rlt_bool t e); cbn; lia]).
    exists (Z.of_nat k - 1)%Z. split; [change (2 ^ 50)%Z with 1125899906842624%Z in Hl; change (2 ^ 53)%Z with 9007199254740992%Z; lia|]. rewrite V1, INR_IZR_INZ. f_equal. lia.
Qed.

Lemma valid_one k name r : (1 <= k)%nat -> valid_result r -> valid_subs k [mksub name r].
Proof. intros Hk H. split; [cbn; exact Hk|]. constructor; [|constructor]. destruct r; exact H. Qed.
Lemma valid_app a b l l' : valid_subs a l -> valid_subs b l' -> valid_subs (a + b) (l ++ l').
Proof. intros [A1 A2] [B1 B2]. split; [rewrite app_length; lia|apply Forall_app; split; assumption]. Qed.
Lemma valid_more a b l : (a <= b)%nat -> valid_subs a l -> valid_subs b l.
Proof. intros H [A B]. split; [lia|exact B]. Qed.
Lemma valid_reported name r : valid_result r -> valid_subs 1 (reported name r).
Proof. intros H. destruct r; [apply valid_one; [lia|exact H]|apply valid_nil]. Qed.

Lemma run_count_le l : (run_count l <= N.of_nat (length l))%N.
Proof.
  induction l as [|b l IH]; [cbn; lia|]. destruct l as [|c l]; [cbn; lia|]. cbn [run_count] in *. destruct (Bool.eqb b c); cbn [length] in *; lia.
Qed.
Lemma runs_valid erfc w data : erfc_bounded erfc -> (N.of_nat (length data) <= 2 ^ 26)%N -> valid_result (runs_test erfc w data).
Proof.
  intros HE Hl. unfold runs_test. destruct data as [|v data]; [destruct (runs_none erfc 0 0 ltac:(discriminate)) as (E & _); change (generate_runs_data [] (runs_cutoff w)) with (mkruns 0 0 0); rewrite E; exact I|].
  rewrite runs_ok. set (c := runs_cutoff w).
  assert (B1 := count_le (fun v => (c <? v)%N) (v :: data)). assert (B2 := count_le (fun v => (v <? c)%N) (v :: data)).
  set (P := count (fun v => (c <? v)%N) (v :: data)) in *. set (M := count (fun v => (v <? c)%N) (v :: data)) in *.
  match goal with |- context [mkruns ?r _ _] => set (R := r) end.
  assert (B3 : (R <= 2 ^ 27)%N).
  { unfold R. eapply N.le_trans; [apply run_count_le|]. unfold sides. cbn [length]. rewrite map_length.
    pose proof (filter_len_le (fun v => negb (v =? c)%N) (v :: data)) as FL. set (q := length (filter _ (v :: data))) in *. clearbody q. clear - FL Hl. cbn [length] in Hl, FL. lia. }
  assert (D : (P = 0 \/ M = 0 \/ (P = 1 /\ M = 1) \/ (1 <= P /\ 1 <= M /\ 3 <= P + M))%N) by lia.
  destruct D as [D|[D|[[D1 D2]|(D1 & D2 & D3)]]].
  - rewrite D. destruct (runs_none erfc R M ltac:(lia)) as (_ & E & _). rewrite E. exact I.
  - rewrite D. destruct (runs_none erfc R P ltac:(lia)) as (E & _). rewrite E. exact I.
  - rewrite D1, D2. destruct (runs_none erfc R 0 ltac:(discriminate)) as (_ & _ & E). rewrite E. exact I.
  - destruct (runs_some erfc R P M HE D1 D2 D3 ltac:(lia) ltac:(lia) B3) as (s & E & _ & _ & F & V & _). rewrite E. split; assumption.
Qed.

Section Tests.
Variables (M : mathlib) (cdf : double -> double -> double) (w : N) (stream : nat -> N).
Hypothesis GM : good_math M.
Hypothesis GC : good_cdf cdf.
Hypothesis Hw : In w [8; 16; 32; 64]%N.
Hypothesis Hs : forall i, is_word w (stream i).
Local Lemma w_range : (8 <= w <= 64)%N.
Proof. destruct Hw as [<-|[<-|[<-|[<-|[]]]]]; lia. Qed.
Local Lemma bounded : erfc_bounded (m_erfc M).
Proof. exact (gm_erfc M GM). Qed.
Local Lemma nw n : (1024 <= n <= 2 ^ 26)%N -> (8192 <= n * w <= 2 ^ 32)%N.
Proof. intros Hn. pose proof w_range. change (2 ^ 26)%N with 67108864%N in Hn. change (2 ^ 32)%N with 4294967296%N. nia. Qed.

Lemma mean_dv n : (n <= 2 ^ 26)%N -> defined_valid 1 (mean_sub_test M w n stream).
Proof.
  intros Hn. eexists. split; [reflexivity|]. apply valid_one; [lia|]. pose proof w_range. destruct (values stream n) as [|v l] eqn:E; [rewrite mean_none; exact I|]. rewrite <- E.
  destruct (mean_some (m_erfc M) w (values stream n) bounded ltac:(lia) (values_words w stream n Hs)) as (s & Es & _ & _ & F & V & _); [rewrite E; discriminate|rewrite values_len; lia|]. rewrite Es. split; assumption.
Qed.
Lemma uniform_dv n : (1 <= n <= 2 ^ 26)%N -> defined_valid 1 (uniform_test M cdf w n stream).
Proof.
  intros Hn. destruct (uniform_ok M cdf w n stream GM Hw ltac:(lia) Hs) as (K & os & s & HK & _ & E & L & _ & _ & T). eexists. split; [exact E|]. apply valid_one; [lia|].
  eapply chi2_valid; [exact GC|apply Rle_refl| |exact T]. rewrite <- nat_N_Z, L. apply Z.le_trans with (Z.of_N (2 ^ 28)); [|discriminate]. apply N2Z.inj_le, N.pow_le_mono_r; lia.
Qed.
Lemma runs_dv n : (n <= 2 ^ 26)%N -> defined_valid 1 (runs_sub_test M w n stream).
Proof. intros Hn. eexists. split; [reflexivity|]. apply valid_one; [lia|]. apply runs_valid; [exact bounded|rewrite values_len; lia]. Qed.
Lemma serial_dv n : (1 <= n <= 2 ^ 26)%N -> defined_valid 64 (serial_avalanche_test M cdf w n stream).
Proof.
  intros Hn. destruct (serial_test_ok M cdf w n stream GM Hw ltac:(lia) Hs) as (result & E & H). eexists. split; [exact E|]. pose proof w_range as W.
  apply valid_more with (N.to_nat w); [lia|].
  assert (G : forall m k, (m + k <= N.to_nat w)%nat -> valid_subs m (flat_map (fun c => reported ("bit(" ++ to_string_N (N.of_nat c) ++ ")") (result c)) (seq k m))).
  { induction m as [|m IH]; intros k Hk; [apply valid_nil|]. cbn [seq flat_map]. apply (valid_app 1 m); [|apply IH; lia]. apply valid_reported.
    destruct (H k ltac:(lia)) as (ob & ex & os & es & L1 & L2 & _ & EM & R).
    destruct (20 * length os <? 7 * S (N.to_nat w))%nat; [rewrite R; exact I|]. eapply chi2_valid; [exact GC|apply Rle_refl| |exact R].
    pose proof (merge_len_le cdf cdf ob ex (double_of_N 5) os es ltac:(lia) eq_refl EM) as ML. lia. }
  apply (G _ O). lia.
Qed.
Lemma gap_dv n : (n <= 2 ^ 26)%N -> defined_valid 2 (gap_test M cdf w n stream).
Proof.
  intros Hn. pose proof w_range. destruct (gap_ok M cdf w n stream GM ltac:(lia) ltac:(lia)) as (a1 & a2 & lo & r1 & b1 & b2 & hi & r2 & _ & L1 & _ & _ & L2 & _ & T1 & T2 & E).
  eexists. split; [exact E|]. apply (valid_app 1 1); apply valid_reported; (eapply chi2_valid; [exact GC| | |eassumption]; [lra|lia]).
Qed.
Lemma coupon_dv n : (1 <= n <= 2 ^ 26)%N -> defined_valid 1 (coupon_test M cdf w n stream).
Proof.
  intros Hn. pose proof w_range. destruct (coupon_ok M cdf w n stream GM ltac:(lia) ltac:(lia) Hs) as (a1 & a2 & os & es & r & _ & L & _ & _ & _ & T & E).
  eexists. split; [exact E|]. apply valid_one; [lia|]. eapply chi2_valid; [exact GC| | |eassumption]; [lra|lia].
Qed.
Lemma div_dv n : (n <= 2 ^ 26)%N -> defined_valid 1 (divisibility_test M cdf w n stream).
Proof.
  intros Hn. destruct (div_ok M cdf w n stream GM ltac:(lia)) as (a1 & a2 & os & r & _ & L & _ & T & E).
  eexists. split; [exact E|]. destruct (n <? 1000)%N; [apply valid_nil|]. apply valid_reported. eapply chi2_valid; [exact GC| | |eassumption]; [lra|lia].
Qed.
Lemma perm_dv n : (1024 <= n <= 2 ^ 26)%N -> defined_valid 1 (permutation_test M cdf w n stream).
Proof.
  intros Hn. pose proof (nw n Hn). destruct (perm_ok M cdf w n stream GM ltac:(lia)) as (size & bl & os & s & B & _ & L & _ & _ & T & E).
  eexists. split; [exact E|]. apply valid_one; [lia|]. eapply chi2_valid; [exact GC|apply Rle_refl| |exact T].
  rewrite <- nat_N_Z, L. apply Z.le_trans with (Z.of_N (2 ^ 43)); [|discriminate]. apply N2Z.inj_le, N.pow_le_mono_r; lia.
Qed.
Lemma rank_dv n : (1024 <= n <= 2 ^ 26)%N -> defined_valid 2 (binary_rank_test M cdf w n stream).
Proof.
  intros Hn. pose proof (nw n Hn). rewrite N.mul_comm in H. destruct (rank_test_ok M cdf w n stream GM Hw ltac:(lia) ltac:(lia)) as (k & p & bl & es & s0 & s1 & _ & B & _ & _ & _ & T0 & T1 & E).
  assert (Hp : (Z.of_nat p <= 2 ^ 30)%Z) by (clear - B H; change (2 ^ 32)%N with 4294967296%N in H; nia).
  eexists. split; [exact E|]. apply (valid_app 1 1 [_] [_]); (apply valid_one; [lia|]); (eapply chi2_valid; [exact GC| | |eassumption]; [lra|rewrite map_length, seq_length; lia]).
Qed.
Lemma lc_dv n : (n <= 2 ^ 26)%N -> defined_valid 1 (linear_complexity_sub_test M cdf w n stream).
Proof.
  intros Hn. destruct (lc_test_ok' M cdf w n stream GM Hw ltac:(lia)) as [A B]. destruct (N.lt_ge_cases n 8192) as [L|L]; [eexists; split; [exact (A L)|apply valid_nil]|].
  destruct (B L) as (bs & b & lc & es & s & Eb & _ & _ & _ & _ & _ & T & E). eexists. split; [exact E|]. apply valid_one; [lia|]. eapply chi2_valid; [exact GC| | |exact T]; [lra|].
  rewrite map_length, seq_length, Eb. assert (n / 1024 <= 2 ^ 16)%N by (apply N.div_le_upper_bound; [discriminate|exact Hn]). lia.
Qed.
Variable mix : N -> N.
Hypothesis Hm : forall x, is_word w x -> is_word w (mix x).
Lemma sac_dv n : (1024 <= n <= 2 ^ 26)%N -> defined_valid 1 (sac_test M cdf w n stream mix).
Proof.
  intros Hn. pose proof (nw n Hn). pose proof w_range. destruct (sac_ok' M cdf w n stream mix GM ltac:(lia) ltac:(lia) ltac:(lia) Hs Hm) as (os & es & r & L & _ & _ & _ & T & E).
  eexists. split; [exact E|]. apply valid_one; [lia|]. eapply chi2_valid; [exact GC| | |exact T]; [lra|lia].
Qed.
Lemma bic_dv n : (1 <= n <= 2 ^ 26)%N -> defined_valid 1 (bic_test cdf w n stream mix).
Proof.
  intros Hn. pose proof w_range. destruct (bic_ok' cdf w n stream mix ltac:(lia) ltac:(lia) Hs Hm) as (os & s & L & _ & T & E).
  eexists. split; [exact E|]. apply valid_one; [lia|]. eapply chi2_valid; [exact GC|apply Rle_refl| |exact T]. rewrite L. nia.
Qed.
End Tests.

Lemma run_valid k t n src : defined_valid k (t n (value_at (src_stream src))) -> valid_subs k (run_test t n src).
Proof. intros (l & E & V). unfold run_test. rewrite E. exact V. Qed.
Lemma run_mixer_valid k t n src mix : defined_valid k (t n (value_at (src_stream src)) mix) -> valid_subs k (run_mixer_test t n src mix).
Proof. intros (l & E & V). unfold run_mixer_test. rewrite E. exact V. Qed.
Lemma limit_at pow k n : (k = 5 \/ k = 6)%N -> good_pow pow -> (n <= 2 ^ 26)%N -> exists o, limit_k pow k n = Ok o /\ match o with Some m => (1024 <= m <= 2 ^ 26)%N | None => True end.
Proof.
  intros Hk G Hn. destruct (limit_spec pow k n Hk G) as (o & E & H); [apply N.le_lt_trans with (1 := Hn); reflexivity|]. exists o. split; [exact E|]. destruct o as [m|]; [|exact I]. destruct H as [H _]. lia.
Qed.
Lemma default_valid M cdf w : good_math M -> good_cdf cdf -> In w [8; 16; 32; 64]%N ->
  Forall (valid_def 64 samples (word_source w) (word_mixer w)) (default_tests M cdf w).
Proof.
  intros G C Hw.
  assert (LS : forall k t, (k = 5 \/ k = 6)%N -> (forall m src, samples m -> word_source w src -> valid_subs 64 (t m src)) ->
    forall n src, samples n -> word_source w src -> valid_subs 64 (limit_stream (limit_k (m_pow M) k) t n src)).
  { intros k t Hk H n src [_ Hn] Hs. unfold limit_stream. destruct (limit_at _ k n Hk (gm_pow M G) Hn) as (o & -> & B). destruct o; [apply H; assumption|apply valid_nil]. }
  assert (LM : forall k t, (k = 5 \/ k = 6)%N -> (forall m src mix, samples m -> word_source w src -> word_mixer w mix -> valid_subs 64 (t m src mix)) ->
    forall n src mix, samples n -> word_source w src -> word_mixer w mix -> valid_subs 64 (limit_mixer (limit_k (m_pow M) k) t n src mix)).
  { intros k t Hk H n src mix [_ Hn] Hs Hm. unfold limit_mixer. destruct (limit_at _ k n Hk (gm_pow M G) Hn) as (o & -> & B). destruct o; [apply H; assumption|apply valid_nil]. }
  assert (R : forall k t, (k <= 64)%nat -> (forall n stream, samples n -> (forall i, is_word w (stream i)) -> defined_valid k (t n stream)) -> forall n src, samples n -> word_source w src -> valid_subs 64 (run_test t n src)).
  { intros k t Hk H n src Hn Hs. apply (valid_more k); [exact Hk|]. apply run_valid, H; [exact Hn|apply value_words, Hs]. }
  assert (RM : forall k t, (k <= 64)%nat -> (forall n stream mix, samples n -> (forall i, is_word w (stream i)) -> word_mixer w mix -> defined_valid k (t n stream mix)) -> forall n src mix, samples n -> word_source w src -> word_mixer w mix -> valid_subs 64 (run_mixer_test t n src mix)).
  { intros k t Hk H n src mix Hn Hs Hm. apply (valid_more k); [exact Hk|]. apply run_mixer_valid, H; [exact Hn|apply value_words, Hs|exact Hm]. }
  unfold default_tests, get_tests, samples in *. cbn zeta. cbn [rt_mean rt_uniform rt_runs rt_serial_avalanche rt_gap rt_coupon rt_divisibility rt_permutation rt_binary_rank rt_linear_complexity rt_sac rt_bic battery_tests].
  repeat (apply Forall_cons); [..|apply Forall_nil]; (split; cbn [td_stream td_mixer]; intros t E; [|]; try discriminate; injection E as <-).
  - intros n src Hn Hs. unfold limit_stream, limit_to. match goal with |- context [if ?b then _ else _] => destruct b end; [|apply valid_nil]. apply (R 1%nat _ ltac:(lia)); [|exact Hn|exact Hs]. intros. apply mean_dv; try assumption; lia.
  - apply (R 1%nat); [lia|]. intros. apply uniform_dv; try assumption; lia.
  - apply (R 1%nat); [lia|]. intros. apply runs_dv; try assumption; lia.
  - apply (R 64%nat); [lia|]. intros. apply serial_dv; try assumption; lia.
  - apply (LS 6%N); [lia|]. apply (R 2%nat); [lia|]. intros. apply gap_dv; try assumption; lia.
  - apply (LS 5%N); [lia|]. apply (R 1%nat); [lia|]. intros. apply coupon_dv; try assumption; lia.
  - apply (LS 6%N); [lia|]. apply (R 1%nat); [lia|]. intros. apply div_dv; try assumption; lia.
  - apply (LS 6%N); [lia|]. apply (R 1%nat); [lia|]. intros. apply perm_dv; try assumption; lia.
  - apply (LS 5%N); [lia|]. apply (R 2%nat); [lia|]. intros. apply rank_dv; try assumption; lia.
  - apply (LS 5%N); [lia|]. apply (R 1%nat); [lia|]. intros. apply lc_dv; try assumption; lia.
  - apply (LM 6%N); [lia|]. apply (RM 1%nat); [lia|]. intros. apply sac_dv; try assumption; lia.
  - apply (LM 5%N); [lia|]. apply (RM 1%nat); [lia|]. intros. apply bic_dv; try assumption; lia.
Qed.
Lemma default_sound M cdf w mixed E setup : good_math M -> good_cdf cdf -> In w [8; 16; 32; 64]%N -> e_defs E = default_tests M cdf w ->
  Forall (word_source w) (ts_sources setup) -> (forall m, ts_mix setup = Some m -> word_mixer w m) ->
  (1 <= ts_max_threads setup)%N -> (10 <= ts_start setup <= ts_stop setup)%Z -> (ts_stop setup <= 26)%Z ->
  (N.of_nat (length (ts_tests setup)) * N.of_nat (length (ts_sources setup)) < 2 ^ 24)%N ->
  sound_setup mixed E setup.
Proof.
  intros G C Hw DE HS HM Ht Hp Hp' Hc. apply (sound_of_defs 64 samples (word_source w) (word_mixer w)); try assumption; try (clear - Ht Hp Hp'; lia).
  - rewrite DE. apply default_valid; assumption.
  - intros p Hr. split; [change 1024%N with (2 ^ 10)%N|]; apply N.pow_le_mono_r; lia.
  - intros m Em. split; [exact (HM m Em)|]. intros src nm Hs. apply mixed_source; [exact (HM m Em)|exact Hs].
  - change (N.of_nat 64) with 64%N. change (2 ^ 32)%N with 4294967296%N. change (2 ^ 24)%N with 16777216%N in Hc. nia.
Qed.
