(* An alarming result makes the battery fail. *)
From Coq Require Import String Reals Lra Lia Permutation.
From Flocq Require Import Core BinarySingleNaN.
From Verif Require Import Base WordLemmas BitwiseModel BitwiseSpec FloatModel FloatLemmas StreamModel StreamSpec StreamProofs ResultModel ResultSpec ResultProofs EvaluateModel EvaluateSpec EvalProofs AnalysisProofs StrengthProofs ProtocolProofs CommandModel CommandSpec InspectProofs2 LimitProofs
  TestsModel TestsSpec TestsUniform BatteryModel BatterySpec BatteryProofs DistModel DistSpec DistReal DistReal2 DistProofs LfsrSpec DetectSpec DetectProofs DetectDiv Prop_Commands Prop_Evaluate Prop_Tests Prop_Dist.
Open Scope R_scope.

Lemma alarming_two_sided s : alarming s -> two_sided s <= / 10 ^ 14.
Proof. intros (T & V & P). unfold two_sided. rewrite T. eapply Rle_trans; [apply Rmin_l|exact P]. Qed.
Lemma map_get_entry m k r : In r (map_get m k) -> exists k0, In (k0, map_get m k) m.
Proof. induction m as [|[k0 v] m IH]; intros H; [destruct H|]. cbn [map_get] in *. destruct (negb (key_lt k k0) && negb (key_lt k0 k)); [exists k0; left; reflexivity|]. destruct (IH H) as (k1 & H1). exists k1. right. exact H1. Qed.
Lemma alarm_fails L mixed defs w n setup br r : good_sorts L -> good_exp (l_exp L) -> good_log10 (l_log10 L) ->
  (1 <= ts_max_threads setup)%N -> (job_count defs setup < 2 ^ 32)%N ->
  Forall (fun r => valid_stat (tr_stats r)) (sequential_results mixed defs n setup) ->
  (N.of_nat (length (sequential_results mixed defs n setup)) < 2 ^ 64)%N ->
  evaluate mixed defs w n setup br -> In r (sequential_results mixed defs n setup) -> alarming (tr_stats r) -> battery_verdict L br = Ok (Some false).
Proof.
  intros S X G H1 H2 Hv Hl He Hr A.
  assert (O : ok_map (br_results br)).
  { destruct (evaluate_multiset _ _ _ _ _ _ He H1 H2) as (h & E & P). rewrite E. apply add_all_ok; [rewrite (Permutation_length P); exact Hl|]. eapply Permutation_Forall; [apply Permutation_sym, P|exact Hv]. }
  destruct (C29_battery_passes_iff_all_pass L br S X G O) as (v & Ev & Iff). rewrite Ev. f_equal.
  destruct v as [[|]|]; [exfalso| |exfalso]; [|reflexivity|].
  all: assert (NF : forall s, analysed L (br_results br) s -> pass (l_log10 L) s = Ok true) by (apply Iff; discriminate).
  all: destruct (C23_results_multiset _ _ _ _ _ _ H1 H2 He) as (PM & KM & _).
  all: assert (I : In r (map_get (br_results br) (tr_key r))) by (eapply Permutation_in; [apply Permutation_sym, PM|]; apply filter_In; split; [exact Hr|apply key_eqb_iff; reflexivity]).
  all: assert (AN : analysed L (br_results br) (tr_stats r)).
  1,3: destruct (map_get_entry _ _ _ I) as (k0 & I0); exists k0; eexists; split; [exact I0|left; exists r; split; [exact I|reflexivity]].
  all: specialize (NF _ AN); destruct (C29_thresholds (l_log10 L) (tr_stats r) G (proj1 (proj2 A))) as (p & q & Ep & _ & F & _).
  all: rewrite Ep in NF; injection NF as ->; assert (true = false); [|discriminate]; apply F; apply Rle_trans with (1 := alarming_two_sided _ A).
  all: replace (/ 2 ^ 37) with (/ 137438953472) by (f_equal; cbn; lra); replace (10 ^ 14) with 100000000000000 by (cbn; lra); replace (10 ^ 9) with 1000000000 by (cbn; lra); lra.
Qed.

Lemma attributed_in sn nm n t name s l : In (mksub name (Some s)) l -> In (mktr sn nm n (mkkey t name) s) (attributed sn nm n t l).
Proof.
  induction l as [|[nm' [s'|]] l IH]; intros H; [destruct H| |]; cbn [attributed]; destruct H as [E|H]; try discriminate E.
  - injection E as -> ->. left. reflexivity.
  - right. apply IH, H.
  - apply IH, H.
Qed.
(* the words a stream test sees *)
Lemma tested_delivers setup mixed f src : delivers (src_stream src) f -> delivers (src_stream (create_stream mixed (ts_mix setup) src)) (tested setup f).
Proof. intros D. unfold create_stream, tested. destruct (ts_mix setup); [apply map_delivers, D|exact D]. Qed.
Lemma stream_result mixed defs n setup t d test src name s : In t (ts_tests setup) -> In src (ts_sources setup) -> registered defs t = Some d -> td_stream d = Some test ->
  In (mksub name (Some s)) (test n (create_stream mixed (ts_mix setup) src)) -> exists r, In r (sequential_results mixed defs n setup) /\ tr_stats r = s.
Proof.
  intros Ht Hs Hd Et Hi. exists (mktr (src_name (create_stream mixed (ts_mix setup) src)) (ts_name setup) n (mkkey t name) s). split; [|reflexivity].
  apply in_flat_map. exists t. split; [exact Ht|]. rewrite Hd. apply in_flat_map. exists src. split; [exact Hs|]. apply in_or_app. right. rewrite Et. unfold create_stream in *. destruct (ts_mix setup); cbv zeta; apply attributed_in; exact Hi.
Qed.
Lemma mixer_result mixed defs n setup t d test m src name s : In t (ts_tests setup) -> In src (ts_sources setup) -> registered defs t = Some d -> td_mixer d = Some test -> ts_mix setup = Some m ->
  In (mksub name (Some s)) (test n src m) -> exists r, In r (sequential_results mixed defs n setup) /\ tr_stats r = s.
Proof.
  intros Ht Hs Hd Et Em Hi. exists (mktr (src_name src) (ts_name setup) n (mkkey t name) s). split; [|reflexivity].
  apply in_flat_map. exists t. split; [exact Ht|]. rewrite Hd. apply in_flat_map. exists src. split; [exact Hs|]. apply in_or_app. left. rewrite Et, Em. apply attributed_in; exact Hi.
Qed.
Lemma run_alarm t n src : alarm (t n (value_at (src_stream src))) -> exists name s, In (mksub name (Some s)) (run_test t n src) /\ alarming s.
Proof. intros (l & name & s & E & Hi & A). exists name, s. unfold run_test. rewrite E. split; assumption. Qed.
Lemma run_mixer_alarm t n src m : alarm (t n (value_at (src_stream src)) m) -> exists name s, In (mksub name (Some s)) (run_mixer_test t n src m) /\ alarming s.
Proof. intros (l & name & s & E & Hi & A). exists name, s. unfold run_mixer_test. rewrite E. split; assumption. Qed.

Lemma result_fails M exp w mixed L setup p br r : good_lib M exp -> In w widths -> good_libs L -> good_battery w setup -> (10 <= p <= 26)%N ->
  evaluate mixed (default_tests M (chi2_cdf M exp) w) w (2 ^ p) setup br ->
  In r (sequential_results mixed (default_tests M (chi2_cdf M exp) w) (2 ^ p) setup) -> alarming (tr_stats r) -> battery_verdict L br = Ok (Some false).
Proof.
  intros G W (S & X & G10) (HS & HM & Ht & Hc) Hp He Hr A.
  assert (SS : sound_setup mixed (mkenv L demo_log2 (default_tests M (chi2_cdf M exp) w) 1) (mksetup (ts_name setup) (ts_sources setup) (ts_tests setup) (ts_mix setup) (ts_max_threads setup) (Z.of_N p) (Z.of_N p))).
  { apply (default_sound M (chi2_cdf M exp) w); try assumption; cbn [ts_max_threads ts_start ts_stop]; try lia; [apply G|apply chi2_good_cdf, G|reflexivity]. }
  destruct SS as (_ & J & _ & _ & _ & SS). destruct (SS p) as [V Ln]; [cbn [ts_start ts_stop]; lia|].
  exact (alarm_fails L mixed _ w (2 ^ p) setup br r S X G10 Ht J V Ln He Hr A).
Qed.

(* the limits at powers of two *)
Lemma limit_pow2 pow k p c : (k = 5 \/ k = 6)%N -> good_pow pow -> (10 <= p <= 26)%N -> (1025 <= c)%N -> (Z.of_N c ^ 7 <= 2 ^ (Z.of_N k * Z.of_N p))%Z ->
  exists m, limit_k pow k (2 ^ p) = Ok (Some m) /\ (c - 1 <= m)%N /\ samples m.
Proof.
  intros Hk G Hp Hc HP.
  assert (B26 : (2 ^ p <= 67108864)%N) by (change 67108864%N with (2 ^ 26)%N; apply N.pow_le_mono_r; lia).
  assert (P0 : (0 < 2 ^ p)%N) by (apply N.neq_0_lt_0, N.pow_nonzero; discriminate).
  assert (LN : ln (IZR (Z.of_N (2 ^ p))) = IZR (Z.of_N p) * ln 2).
  { rewrite N2Z.inj_pow. change (Z.of_N 2) with 2%Z. rewrite <- (N_nat_Z p). rewrite <- pow_IZR, ln_pow by lra. rewrite <- INR_IZR_INZ. reflexivity. }
  assert (C0 : 0 < IZR (Z.of_N c)) by (apply IZR_lt; lia).
  assert (R : IZR (Z.of_N c) <= Rpower (IZR (Z.of_N (2 ^ p))) (IZR (Z.of_N k) / 7)).
  { rewrite <- (exp_ln _ C0) at 1. unfold Rpower. apply exp_le. rewrite LN.
    assert (Q : 7 * ln (IZR (Z.of_N c)) <= IZR (Z.of_N k) * IZR (Z.of_N p) * ln 2).
    { replace (7 * ln (IZR (Z.of_N c))) with (ln (IZR (Z.of_N c) ^ 7)) by (rewrite ln_pow by exact C0; f_equal; cbn; lra).
      replace (IZR (Z.of_N k) * IZR (Z.of_N p) * ln 2) with (ln (2 ^ (N.to_nat (k * p)))).
      - apply ln_mono; [apply pow_lt; exact C0|]. rewrite !pow_IZR. apply IZR_le. change (Z.of_nat 7) with 7%Z. rewrite N_nat_Z, N2Z.inj_mul. exact HP.
      - rewrite ln_pow by lra. f_equal. rewrite INR_IZR_INZ, N_nat_Z, N2Z.inj_mul, mult_IZR. reflexivity. }
    lra. }
  set (T := Rpower (IZR (Z.of_N (2 ^ p))) (IZR (Z.of_N k) / 7)) in *.
  assert (U : T <= 67108864).
  { apply Rle_trans with (exp (ln (IZR (Z.of_N (2 ^ p))))).
    - unfold T, Rpower. apply exp_le. rewrite LN. assert (0 <= IZR (Z.of_N p) * ln 2) by (apply Rmult_le_pos; [apply IZR_le; lia|apply Rlt_le; pose proof ln2_pos; lra]).
      assert (IZR (Z.of_N k) <= 6) by (apply IZR_le; lia). assert (IZR (Z.of_N k) / 7 * (IZR (Z.of_N p) * ln 2) <= 1 * (IZR (Z.of_N p) * ln 2)) by (apply Rmult_le_compat_r; lra). lra.
    - rewrite exp_ln by (apply IZR_lt; lia). apply IZR_le; lia. }
  assert (C1 : 1025 <= IZR (Z.of_N c)) by (apply IZR_le; lia).
  assert (E39 : / 2 ^ 39 = / 549755813888) by (f_equal; cbn; lra).
  destruct (limit_spec pow k (2 ^ p) Hk G) as (o & E & H); [apply N.le_lt_trans with (1 := B26); reflexivity|]. destruct o as [m|].
  - exists m. split; [exact E|]. destruct H as [B [H _]]. fold T in H. rewrite E39 in H. split; [|split; [lia|change (2 ^ 26)%N with 67108864%N; lia]].
    assert (IZR (Z.of_N c) < IZR (Z.of_N m + 2)) by (rewrite plus_IZR; lra). apply lt_IZR in H0. lia.
  - exfalso. destruct H as [H|H]; [|lia]. fold T in H. rewrite E39 in H. lra.
Qed.

(* ---- verdicts ---- *)
Lemma value_ext s f : delivers s f -> forall i, value_at s i = f i.
Proof. intros D i. apply value_delivers, D. Qed.
Lemma few_ext w n f g : (forall i, g i = f i) -> few_values w n f -> few_values w n g.
Proof. intros E (vs & A & B). exists vs. split; [|exact B]. intros i Hi. rewrite E. apply A, Hi. Qed.
Lemma lfsr_ext r f g : (forall i, g i = f i) -> lfsr_bits r f -> lfsr_bits r g.
Proof. intros E (t & A). exists t. intros i Hi. rewrite E, (A i Hi). apply LfsrProofs.xsum_ext. intros j _. rewrite E. reflexivity. Qed.

Lemma uniform_verdict M exp w mixed L setup p br src f : good_lib M exp -> In w widths -> good_libs L -> good_battery w setup -> (10 <= p <= 26)%N ->
  evaluate mixed (default_tests M (chi2_cdf M exp) w) w (2 ^ p) setup br -> In T_uniform (ts_tests setup) -> In src (ts_sources setup) -> delivers (src_stream src) f ->
  stuck_top w (tested setup f) \/ few_values w (2 ^ p) (tested setup f) -> battery_verdict L br = Ok (Some false).
Proof.
  intros G W GL GB Hp He Ht Hs D Bad. set (src' := create_stream mixed (ts_mix setup) src). pose proof (tested_delivers setup mixed f src D) as D'. fold src' in D'.
  assert (Sm : samples (2 ^ p)) by (split; [change 1024%N with (2 ^ 10)%N|]; apply N.pow_le_mono_r; lia).
  assert (WS : word_source w src').
  { pose proof GB as (HS & HM & _). rewrite Forall_forall in HS. specialize (HS src Hs). unfold src', create_stream. destruct (ts_mix setup) as [m|] eqn:Em; [apply mixed_source; [exact (HM m eq_refl)|exact HS]|exact HS]. }
  assert (A : alarm (uniform_test M (chi2_cdf M exp) w (2 ^ p) (value_at (src_stream src')))).
  { destruct Bad as [[b Bad]|Bad]; [apply uniform_stuck|apply uniform_few]; try assumption; try (apply value_words, WS).
    - exists b. intros i. rewrite (value_ext _ _ D' i). apply Bad.
    - eapply few_ext; [exact (value_ext _ _ D')|exact Bad]. }
  apply run_alarm in A. destruct A as (name & s & Hi & A).
  destruct (stream_result mixed (default_tests M (chi2_cdf M exp) w) (2 ^ p) setup T_uniform _ _ src name s Ht Hs eq_refl eq_refl Hi) as (r & Hr & Er).
  apply (result_fails M exp w mixed L setup p br r); try assumption. rewrite Er. exact A.
Qed.
Lemma bic_verdict M exp w mixed L setup p br m : good_lib M exp -> In w widths -> good_libs L -> good_battery w setup -> (15 <= p <= 26)%N ->
  evaluate mixed (default_tests M (chi2_cdf M exp) w) w (2 ^ p) setup br -> In T_bic (ts_tests setup) -> ts_sources setup <> [] -> ts_mix setup = Some m ->
  affine w m \/ low_to_high w m -> battery_verdict L br = Ok (Some false).
Proof.
  intros G W GL GB Hp He Ht Hs Em Bad. destruct (ts_sources setup) as [|src rest] eqn:ES; [contradiction|]. assert (Hsrc : In src (ts_sources setup)) by (rewrite ES; left; reflexivity).
  pose proof GB as (HS & HM & _). rewrite Forall_forall in HS. specialize (HS src Hsrc). specialize (HM m Em).
  destruct (limit_pow2 (m_pow M) 5 p 1025 ltac:(auto) (gm_pow M (proj1 G)) ltac:(lia) ltac:(lia)) as (n & En & _ & Sn).
  { apply Z.le_trans with (2 ^ 75)%Z; [vm_compute; discriminate|apply Z.pow_le_mono_r; lia]. }
  assert (A : alarm (bic_test (chi2_cdf M exp) w n (value_at (src_stream src)) m)).
  { destruct Bad; [apply bic_affine|apply bic_low]; try assumption; apply value_words, HS. }
  apply run_mixer_alarm in A. destruct A as (name & s & Hi & A).
  assert (Hi' : In (mksub name (Some s)) (limit_mixer (limit_slower (m_pow M)) (run_mixer_test (bic_test (chi2_cdf M exp) w)) (2 ^ p)%N src m)).
  { unfold limit_mixer. change (limit_slower (m_pow M) (2 ^ p)) with (limit_k (m_pow M) 5 (2 ^ p)). rewrite En. exact Hi. }
  destruct (mixer_result mixed (default_tests M (chi2_cdf M exp) w) (2 ^ p) setup T_bic _ _ m src name s Ht Hsrc eq_refl eq_refl Em Hi') as (r & Hr & Er).
  apply (result_fails M exp w mixed L setup p br r); try assumption; [lia|]. rewrite Er. exact A.
Qed.
Lemma lc_verdict M exp w mixed L setup p br src f r : good_lib M exp -> In w widths -> good_libs L -> good_battery w setup -> (19 <= p <= 26)%N ->
  (Z.of_nat r <= 4 \/ (2048 * Z.of_nat r + 1025) ^ 7 <= 2 ^ (5 * Z.of_N p))%Z ->
  evaluate mixed (default_tests M (chi2_cdf M exp) w) w (2 ^ p) setup br -> In T_linear_complexity (ts_tests setup) -> In src (ts_sources setup) -> delivers (src_stream src) f ->
  lfsr_bits r (fun i => N.testbit (tested setup f i) 0) -> battery_verdict L br = Ok (Some false).
Proof.
  intros G W GL GB Hp HR He Ht Hs D Bad. set (src' := create_stream mixed (ts_mix setup) src). pose proof (tested_delivers setup mixed f src D) as D'. fold src' in D'.
  set (c := N.max 10241 (2048 * N.of_nat r + 1025)).
  destruct (limit_pow2 (m_pow M) 5 p c ltac:(auto) (gm_pow M (proj1 G)) ltac:(lia) ltac:(lia)) as (n & En & Cn & Sn).
  { assert (Q : (10241 ^ 7 <= 2 ^ (5 * Z.of_N p))%Z) by (apply Z.le_trans with (2 ^ 95)%Z; [vm_compute; discriminate|apply Z.pow_le_mono_r; lia]).
    change (Z.of_N 5) with 5%Z. destruct HR as [HR|HR]; [replace (Z.of_N c) with 10241%Z by lia; exact Q|].
    destruct (Z.max_spec 10241 (2048 * Z.of_nat r + 1025)) as [[_ E]|[_ E]]; replace (Z.of_N c) with (Z.max 10241 (2048 * Z.of_nat r + 1025)) by lia; rewrite E; assumption. }
  assert (A : alarm (linear_complexity_sub_test M (chi2_cdf M exp) w n (value_at (src_stream src')))).
  { apply (lc_lfsr M exp w n _ r); try assumption; [lia| |].
    - eapply lfsr_ext; [|exact Bad]. intros i. cbn beta. rewrite (value_ext _ _ D' i). reflexivity.
    - apply N.lt_le_trans with (2 * N.of_nat r + 1)%N; [lia|]. apply N.div_le_lower_bound; lia. }
  apply run_alarm in A. destruct A as (name & s & Hi & A).
  assert (Hi' : In (mksub name (Some s)) (limit_stream (limit_slower (m_pow M)) (run_test (linear_complexity_sub_test M (chi2_cdf M exp) w)) (2 ^ p)%N src')).
  { unfold limit_stream. change (limit_slower (m_pow M) (2 ^ p)) with (limit_k (m_pow M) 5 (2 ^ p)). rewrite En. exact Hi. }
  destruct (stream_result mixed (default_tests M (chi2_cdf M exp) w) (2 ^ p) setup T_linear_complexity _ _ src name s Ht Hs eq_refl eq_refl Hi') as (x & Hr & Er).
  apply (result_fails M exp w mixed L setup p br x); try assumption; [lia|]. rewrite Er. exact A.
Qed.
Lemma div_verdict M exp w mixed L setup p br src f : good_lib M exp -> In w widths -> good_libs L -> good_battery w setup -> (15 <= p <= 26)%N ->
  evaluate mixed (default_tests M (chi2_cdf M exp) w) w (2 ^ p) setup br -> In T_divisibility (ts_tests setup) -> In src (ts_sources setup) -> delivers (src_stream src) f ->
  stuck_low (tested setup f) -> battery_verdict L br = Ok (Some false).
Proof.
  intros G W GL GB Hp He Ht Hs D [b Bad]. set (src' := create_stream mixed (ts_mix setup) src). pose proof (tested_delivers setup mixed f src D) as D'. fold src' in D'.
  destruct (limit_pow2 (m_pow M) 6 p 4097 ltac:(auto) (gm_pow M (proj1 G)) ltac:(lia) ltac:(lia)) as (n & En & Cn & Sn).
  { apply Z.le_trans with (2 ^ 90)%Z; [vm_compute; discriminate|apply Z.pow_le_mono_r; lia]. }
  assert (A : alarm (divisibility_test M (chi2_cdf M exp) w n (value_at (src_stream src')))).
  { apply div_stuck; try assumption. exists b. intros i. rewrite (value_ext _ _ D' i). apply Bad. }
  apply run_alarm in A. destruct A as (name & s & Hi & A).
  assert (Hi' : In (mksub name (Some s)) (limit_stream (limit_slow (m_pow M)) (run_test (divisibility_test M (chi2_cdf M exp) w)) (2 ^ p)%N src')).
  { unfold limit_stream. change (limit_slow (m_pow M) (2 ^ p)) with (limit_k (m_pow M) 6 (2 ^ p)). rewrite En. exact Hi. }
  destruct (stream_result mixed (default_tests M (chi2_cdf M exp) w) (2 ^ p) setup T_divisibility _ _ src name s Ht Hs eq_refl eq_refl Hi') as (x & Hr & Er).
  apply (result_fails M exp w mixed L setup p br x); try assumption; [lia|]. rewrite Er. exact A.
Qed.
(* a bit with a period *)
Lemma period_lfsr r b : (1 <= r)%nat -> (forall i, b (i + r)%nat = b i) -> lfsr_bits r b.
Proof.
  intros Hr H. exists (fun j => Nat.eqb j r). intros i Hi.
  assert (G : forall k, (k <= r)%nat -> xsum (fun j => Nat.eqb (S j) r && b (i - S j)%nat) k = if Nat.eqb k r then b i else false).
  { induction k as [|k IH]; intros Hk; [destruct r; [lia|reflexivity]|]. cbn [xsum]. rewrite IH by lia. replace (Nat.eqb k r) with false by (symmetry; apply Nat.eqb_neq; lia).
    destruct (Nat.eqb_spec (S k) r) as [E|E]; [|destruct (b (i - S k)%nat); reflexivity]. replace (b i) with (b (i - S k + r)%nat) by (f_equal; lia). rewrite H. destruct (b (i - S k)%nat); reflexivity. }
  rewrite G by lia. rewrite Nat.eqb_refl. reflexivity.
Qed.
