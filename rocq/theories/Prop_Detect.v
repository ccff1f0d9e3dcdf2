(* Properties C92-C97: defects that the tests are certain to find. *)
From Coq Require Import String Reals Lra Lia.
From Flocq Require Import Core BinarySingleNaN.
From Verif Require Import Base WordLemmas BitwiseModel BitwiseSpec WordBij FloatModel FloatLemmas StreamModel StreamSpec StreamProofs ResultModel ResultSpec EvaluateModel EvaluateSpec LfsrSpec LibInst
  MixerModel MixerProofs PrngModel PrngSpec PrngProofs SeedModel TestsModel TestsSpec BatteryModel BatterySpec BatteryUse DistModel DistSpec DistInst
  DetectSpec DetectProofs DetectDiv DetectGens DetectVerdict DetectTool Prop_Evaluate Prop_Seeds.
Open Scope R_scope.

Lemma lib_good : good_lib lib_math lib_exp.
Proof. split; [exact lib_math_good|]. split; [exact lib_dist_good|exact lib_exp_accurate]. Qed.

(* ---- C92: uniform ---- *)
(* If the highest bit never changes, or if there are at most n^0.4 different values (and no more than half of all words
   of that width), the p-value is at most 10^-14. *)
Theorem C92_stuck_bit : forall M exp w n stream, good_lib M exp -> In w widths -> samples n -> (forall i, is_word w (stream i)) -> stuck_top w stream ->
  alarm (uniform_test M (chi2_cdf M exp) w n stream).
Proof. exact uniform_stuck. Qed.
Print Assumptions C92_stuck_bit.
Theorem C92_few_values : forall M exp w n stream, good_lib M exp -> In w widths -> samples n -> (forall i, is_word w (stream i)) -> few_values w n stream ->
  alarm (uniform_test M (chi2_cdf M exp) w n stream).
Proof. exact uniform_few. Qed.
Print Assumptions C92_few_values.
(* A generator with a period of at most n^0.4, for example. *)
Theorem C92_short_period : forall M exp w n stream r, good_lib M exp -> In w widths -> samples n -> (forall i, is_word w (stream i)) ->
  (1 <= r)%nat -> (forall i, stream (i + r)%nat = stream i) -> INR r <= Rpower (IZR (Z.of_N n)) (2 / 5) -> (N.of_nat r <= 2 ^ (w - 1))%N ->
  alarm (uniform_test M (chi2_cdf M exp) w n stream).
Proof.
  intros M exp w n stream r G W Hn Hs Hr Hp L1 L2. apply uniform_few; try assumption. exists (map stream (seq 0 r)). rewrite map_length, seq_length. split; [|split; assumption].
  intros i _. assert (E : stream i = stream (i mod r)%nat).
  { rewrite (Nat.div_mod i r) at 1 by lia. rewrite Nat.add_comm, Nat.mul_comm. generalize (i mod r)%nat. induction (i / r)%nat as [|q IH]; intro a; [f_equal; lia|].
    cbn [Nat.mul]. rewrite (Nat.add_comm r), Nat.add_assoc, Hp. apply IH. }
  rewrite E. apply in_map, in_seq. pose proof (Nat.mod_upper_bound i r). lia.
Qed.
Print Assumptions C92_short_period.
Definition half_words (i : nat) : N := (N.of_nat i mod 128)%N.
Definition sixteen (i : nat) : N := (17 * (N.of_nat i mod 15))%N.
Lemma Rpower_1024 : 15 <= Rpower (IZR (Z.of_N 1024)) (2 / 5).
Proof.
  replace (IZR (Z.of_N 1024)) with (2 ^ 10) by (cbn; lra). rewrite <- (Rpower_pow 10) by lra. rewrite Rpower_mult. replace (INR 10 * (2 / 5)) with (INR 4) by (cbn; lra).
  rewrite Rpower_pow by lra. cbn; lra.
Qed.
Example C92_instance : alarm (uniform_test lib_math (chi2_cdf lib_math lib_exp) 8 1024 half_words) /\ alarm (uniform_test lib_math (chi2_cdf lib_math lib_exp) 8 1024 sixteen).
Proof.
  assert (S : samples 1024) by (split; discriminate). assert (W : In 8%N widths) by (cbn; auto).
  split.
  - apply C92_stuck_bit; [exact lib_good|exact W|exact S| |].
    + intro i. apply N.lt_trans with 128%N; [apply N.mod_lt; discriminate|reflexivity].
    + exists false. intro i. apply (word_high 7); [apply (N.mod_lt (N.of_nat i) 128); discriminate|discriminate].
  - apply (C92_short_period _ _ _ _ _ 15); [exact lib_good|exact W|exact S| |lia| |replace (INR 15) with 15 by (cbn; lra); exact Rpower_1024|discriminate].
    + intro i. unfold sixteen, is_word. pose proof (N.mod_lt (N.of_nat i) 15 ltac:(discriminate)). change (2 ^ 8)%N with 256%N. lia.
    + intro i. unfold sixteen. f_equal. rewrite Nat2N.inj_add. change (N.of_nat 15) with (1 * 15)%N. apply N.mod_add. discriminate.
Qed.

(* ---- C93: bit independence ---- *)
(* Mixers that are affine over GF(2) (xors, shifts and rotations), and mixers whose lowest k output bits depend on the
   lowest k input bits only (additions, multiplications, left shifts), whatever the input stream is. *)
Theorem C93_affine : forall M exp w n stream mix, good_lib M exp -> In w widths -> samples n -> (forall i, is_word w (stream i)) -> word_mixer w mix -> affine w mix ->
  alarm (bic_test (chi2_cdf M exp) w n stream mix).
Proof. exact bic_affine. Qed.
Print Assumptions C93_affine.
Theorem C93_low_to_high : forall M exp w n stream mix, good_lib M exp -> In w widths -> samples n -> (forall i, is_word w (stream i)) -> word_mixer w mix -> low_to_high w mix ->
  alarm (bic_test (chi2_cdf M exp) w n stream mix).
Proof. exact bic_low. Qed.
Print Assumptions C93_low_to_high.
(* One output bit k that always, or never, changes with one input bit j is enough, with 4 w^2 + 200 samples. *)
Theorem C93_one_pair : forall M exp w n stream mix j k b, good_lib M exp -> In w widths -> samples n -> (forall i, is_word w (stream i)) -> word_mixer w mix ->
  (4 * (w * w) + 200 <= n)%N -> (j < N.to_nat w)%nat -> (k < N.to_nat w)%nat ->
  (forall x, is_word w x -> N.testbit (N.lxor (mix x) (mix (N.lxor x (2 ^ N.of_nat j)))) (N.of_nat k) = b) ->
  alarm (bic_test (chi2_cdf M exp) w n stream mix).
Proof. intros M exp w n stream mix j k b G W Hn Hs Hm L Hj Hk Hb. apply (bic_cell M exp w n stream mix j k b G W Hn Hs Hm L Hj Hk). intros s Hx. exact (Hb (mix s) (Hm s Hx)). Qed.
Print Assumptions C93_one_pair.
(* A linear congruential step is a mixer of the second kind, an xorshift step one of the first. *)
Theorem C93_kinds : (forall w a c, low_to_high w (fun x => wrap w (a * x + c))) /\ affine 64 xorshift64_step /\ affine 32 xorshift32_step.
Proof.
  split; [|split].
  - intros w a c x y k _ _ H. unfold wrap.
    assert (P : forall z, (z mod 2 ^ w mod 2 ^ k = (z mod 2 ^ k) mod 2 ^ N.min w k)%N).
    { intro z. assert (B : forall a z i, N.testbit (z mod 2 ^ a) i = ((i <? a)%N && N.testbit z i)%bool) by (intros; apply wrap_testbit).
      apply N.bits_inj. intro i. rewrite !B. destruct (N.ltb_spec i k), (N.ltb_spec i w), (N.ltb_spec i (N.min w k)); try lia; reflexivity. }
    rewrite !P. f_equal. assert (N0 : (2 ^ k <> 0)%N) by (apply N.pow_nonzero; discriminate).
    rewrite (N.add_mod (a * x)), (N.add_mod (a * y)) by exact N0. rewrite (N.mul_mod a x), (N.mul_mod a y) by exact N0. rewrite H. reflexivity.
  - intros x y _ _. rewrite xorshift64_lin. change (xorshift64_step 0) with 0%N. rewrite N.lxor_0_r. reflexivity.
  - intros x y _ _. rewrite xorshift32_lin. change (xorshift32_step 0) with 0%N. rewrite N.lxor_0_r. reflexivity.
Qed.
Print Assumptions C93_kinds.
Example C93_instance : alarm (bic_test (chi2_cdf lib_math lib_exp) 8 1024 half_words (fun x => wrap 8 (5 * x + 3))) /\
  alarm (bic_test (chi2_cdf lib_math lib_exp) 64 1024 half_words xorshift64_step).
Proof.
  assert (S : samples 1024) by (split; discriminate). destruct C93_kinds as (A & B & _). split.
  - apply C93_low_to_high; [exact lib_good|cbn; auto|exact S| |intros x _; apply wrap_word|apply A].
    intro i. apply N.lt_trans with 128%N; [apply N.mod_lt; discriminate|reflexivity].
  - apply C93_affine; [exact lib_good|cbn; auto|exact S| |exact (proj1 xorshift64_bij)|exact B].
    intro i. apply N.lt_trans with 128%N; [apply N.mod_lt; discriminate|reflexivity].
Qed.

(* ---- C94: linear complexity ---- *)
(* If the lowest bits come from a feedback register shorter than half the length of a block, n/1024 / 2. *)
Theorem C94_feedback_register : forall M exp w n stream r, good_lib M exp -> In w widths -> samples n -> (8192 <= n)%N ->
  lfsr_bits r (fun i => N.testbit (stream i) 0) -> (2 * N.of_nat r < n / 1024)%N ->
  alarm (linear_complexity_sub_test M (chi2_cdf M exp) w n stream).
Proof. exact lc_lfsr. Qed.
Print Assumptions C94_feedback_register.
(* If they have a short period, for example. *)
Theorem C94_period : forall M exp w n stream r, good_lib M exp -> In w widths -> samples n -> (8192 <= n)%N ->
  (1 <= r)%nat -> (forall i, N.testbit (stream (i + r)%nat) 0 = N.testbit (stream i) 0) -> (2 * N.of_nat r < n / 1024)%N ->
  alarm (linear_complexity_sub_test M (chi2_cdf M exp) w n stream).
Proof. intros M exp w n stream r G W Hn H8 Hr Hp L. apply (lc_lfsr M exp w n stream r); try assumption. apply period_lfsr; assumption. Qed.
Print Assumptions C94_period.
(* The lowest bits of a linear congruential generator with an odd multiplier and an odd increment, or of a counter. *)
Theorem C94_congruential : forall M exp w n stream a c, good_lib M exp -> In w widths -> samples n -> (8192 <= n)%N ->
  N.odd a = true -> N.odd c = true -> (forall i, stream (S i) = wrap w (a * stream i + c)) ->
  alarm (linear_complexity_sub_test M (chi2_cdf M exp) w n stream).
Proof.
  intros M exp w n stream a c G W Hn H8 Ha Hc Hs. assert (W0 : (0 < w)%N) by (cbn in W; intuition lia). apply (C94_period M exp w n stream 2); try assumption; [lia| |].
  - assert (E : forall i, N.testbit (stream (S i)) 0 = negb (N.testbit (stream i) 0)).
    { intro i. rewrite Hs. rewrite add_bit0 by exact W0. rewrite !N.bit0_odd. rewrite N.odd_mul, Ha, Hc. cbn [andb]. apply Bool.xorb_true_r. }
    intro i. replace (i + 2)%nat with (S (S i)) by lia. rewrite !E. apply Bool.negb_involutive.
  - apply N.lt_le_trans with (8192 / 1024)%N; [reflexivity|apply N.div_le_mono; [discriminate|exact H8]].
Qed.
Print Assumptions C94_congruential.
Example C94_instance : alarm (linear_complexity_sub_test lib_math (chi2_cdf lib_math lib_exp) 8 8192 (fun i => wrap 8 (N.of_nat i))).
Proof.
  apply (C94_congruential _ _ _ _ _ 1 1); [exact lib_good|cbn; auto|split; discriminate|discriminate|reflexivity|reflexivity|].
  intro i. unfold wrap. rewrite N.mul_1_l, Nat2N.inj_succ, <- N.add_1_r. symmetry. apply N.add_mod_idemp_l. discriminate.
Qed.

(* ---- C95: divisibility ---- *)
(* If the lowest bit never changes: all words even, or all words odd. *)
Theorem C95_stuck_bit : forall M exp w n stream, good_lib M exp -> samples n -> (4096 <= n)%N -> stuck_low stream ->
  alarm (divisibility_test M (chi2_cdf M exp) w n stream).
Proof. exact div_stuck. Qed.
Print Assumptions C95_stuck_bit.
Example C95_instance : alarm (divisibility_test lib_math (chi2_cdf lib_math lib_exp) 8 4096 (fun i => wrap 8 (2 * N.of_nat i))) /\
  alarm (divisibility_test lib_math (chi2_cdf lib_math lib_exp) 8 4096 (fun i => wrap 8 (2 * N.of_nat i + 1))).
Proof.
  assert (S : samples 4096) by (split; discriminate). split; (apply C95_stuck_bit; [exact lib_good|exact S|discriminate|]).
  - exists false. intro i. unfold wrap. rewrite N.mod_pow2_bits_low by reflexivity. rewrite N.bit0_odd, N.odd_mul. reflexivity.
  - exists true. intro i. unfold wrap. rewrite N.mod_pow2_bits_low by reflexivity. rewrite N.bit0_odd, N.add_comm, N.odd_add_mul_2. reflexivity.
Qed.

(* ---- C96: the verdict ---- *)
(* Each of these defects makes the battery fail: on one source among many, for all numbers of threads and all schedules.
   With a mixer the tests of streams see the mixed words. *)
Theorem C96_uniform : forall M exp w mixed L setup p br src f, good_lib M exp -> In w widths -> good_libs L -> good_battery w setup -> (10 <= p <= 26)%N ->
  evaluate mixed (default_tests M (chi2_cdf M exp) w) w (2 ^ p) setup br -> In T_uniform (ts_tests setup) -> In src (ts_sources setup) -> delivers (src_stream src) f ->
  stuck_top w (tested setup f) \/ few_values w (2 ^ p) (tested setup f) -> battery_verdict L br = Ok (Some false).
Proof. exact uniform_verdict. Qed.
Print Assumptions C96_uniform.
Theorem C96_divisibility : forall M exp w mixed L setup p br src f, good_lib M exp -> In w widths -> good_libs L -> good_battery w setup -> (15 <= p <= 26)%N ->
  evaluate mixed (default_tests M (chi2_cdf M exp) w) w (2 ^ p) setup br -> In T_divisibility (ts_tests setup) -> In src (ts_sources setup) -> delivers (src_stream src) f ->
  stuck_low (tested setup f) -> battery_verdict L br = Ok (Some false).
Proof. exact div_verdict. Qed.
Print Assumptions C96_divisibility.
Theorem C96_bit_independence : forall M exp w mixed L setup p br m, good_lib M exp -> In w widths -> good_libs L -> good_battery w setup -> (15 <= p <= 26)%N ->
  evaluate mixed (default_tests M (chi2_cdf M exp) w) w (2 ^ p) setup br -> In T_bic (ts_tests setup) -> ts_sources setup <> [] -> ts_mix setup = Some m ->
  affine w m \/ low_to_high w m -> battery_verdict L br = Ok (Some false).
Proof. exact bic_verdict. Qed.
Print Assumptions C96_bit_independence.
(* The test runs on n^(5/7) of the n = 2^p samples, in blocks of a 1024-th of that. *)
Theorem C96_linear_complexity : forall M exp w mixed L setup p br src f r, good_lib M exp -> In w widths -> good_libs L -> good_battery w setup -> (19 <= p <= 26)%N ->
  (Z.of_nat r <= 4 \/ (2048 * Z.of_nat r + 1025) ^ 7 <= 2 ^ (5 * Z.of_N p))%Z ->
  evaluate mixed (default_tests M (chi2_cdf M exp) w) w (2 ^ p) setup br -> In T_linear_complexity (ts_tests setup) -> In src (ts_sources setup) -> delivers (src_stream src) f ->
  lfsr_bits r (fun i => N.testbit (tested setup f i) 0) -> battery_verdict L br = Ok (Some false).
Proof. exact lc_verdict. Qed.
Print Assumptions C96_linear_complexity.
Definition all_types : list test_type := [T_uniform; T_divisibility; T_linear_complexity; T_bic].
Definition counter8 : source := mksrc "c" (stream_of_gen (counter_gen 8 1 (fun _ => 0%N) (fun x => x)) (fun _ => 0%N)).
Definition counter_setup : test_setup := mksetup "counter" [counter8] all_types (Some (fun x => wrap 8 (5 * x + 3))) 4 10 20.
Lemma counter_words sd i : is_word 8 (output (counter_gen 8 1 (fun _ => 0%N) (fun x => x)) sd i).
Proof. unfold output. cbn [counter_gen gnext fst]. apply wrap_word. Qed.
Lemma counter_good : good_battery 8 counter_setup.
Proof.
  split; [|split; [intros m E; injection E as <-; intros x _; apply wrap_word|split; [discriminate|reflexivity]]].
  constructor; [|constructor]. eexists. split; [apply stream_of_gen_delivers|]. intro i. apply counter_words.
Qed.
Example C96_instance : good_battery 8 counter_setup /\
  exists br, evaluate (fun x => x) (default_tests lib_math (chi2_cdf lib_math lib_exp) 8) 8 (2 ^ 20) counter_setup br /\ battery_verdict exact_libs br = Ok (Some false).
Proof.
  split; [exact counter_good|]. destruct (C23_evaluate_returns (fun x => x) (default_tests lib_math (chi2_cdf lib_math lib_exp) 8) 8 (2 ^ 20) counter_setup) as (br & E). exists br. split; [exact E|].
  apply (C96_bit_independence lib_math lib_exp 8 (fun x => x) exact_libs counter_setup 20 br (fun x => wrap 8 (5 * x + 3))); try assumption.
  - exact lib_good.
  - cbn; auto.
  - exact exact_libs_good.
  - exact counter_good.
  - lia.
  - cbn; auto.
  - discriminate.
  - reflexivity.
  - right. apply C93_kinds.
Qed.

(* ---- C97: the linear generators ---- *)
(* The lowest bits of these generators come from feedback registers of 32, 64 or 128 bits. *)
Theorem C97_registers : forall sd, (forall i, (i <= 3)%nat -> is_word 64 (sd i)) ->
  lfsr_bits 64 (fun i => N.testbit (output rng64_xorshift sd (N.of_nat i)) 0) /\ lfsr_bits 32 (fun i => N.testbit (output rng32_xorshift sd (N.of_nat i)) 0) /\
  lfsr_bits 64 (fun i => N.testbit (output rng32_xorshift_64 sd (N.of_nat i)) 0) /\ lfsr_bits 128 (fun i => N.testbit (output rng64_xorshift128plus sd (N.of_nat i)) 0) /\
  lfsr_bits 128 (fun i => N.testbit (output rng64_xoroshiro128plus sd (N.of_nat i)) 0) /\ lfsr_bits 128 (fun i => N.testbit (output rng32_xoshiro128plus sd (N.of_nat i)) 0).
Proof.
  intros sd G. assert (G0 := G O ltac:(lia)). assert (G1 := G 1%nat ltac:(lia)).
  split; [apply xorshift64_lfsr, G0|]. split; [apply xorshift32_lfsr|]. split; [apply xorshift32_64_lfsr, G0|]. split; [apply xorshift128plus_lfsr; assumption|].
  split; [apply xoroshiro128plus_lfsr; assumption|apply xoshiro128plus_lfsr].
Qed.
Print Assumptions C97_registers.
(* All bits of the xorshift generators do. *)
Theorem C97_xorshift_all_bits : forall sd k, (is_word 64 (sd 0%nat) -> lfsr_bits 64 (fun i => N.testbit (output rng64_xorshift sd (N.of_nat i)) k)) /\
  lfsr_bits 32 (fun i => N.testbit (output rng32_xorshift sd (N.of_nat i)) k).
Proof. intros sd k. split; [intros H; apply xorshift64_lfsr, H|apply xorshift32_lfsr]. Qed.
Print Assumptions C97_xorshift_all_bits.
(* With the seeds and streams of the tool they fail, with 2^23 to 2^26 samples. *)
Theorem C97_fail : forall M exp mixed L w g p0 p names fuel streams setup br, good_lib M exp -> good_libs L -> In (w, g, p0) linear_generators -> (p0 <= p <= 26)%N ->
  (1024 <= fuel)%nat -> create_prng_test_setup w (stream_of_gen g) fuel = Ok (Some streams) -> (length streams <= length names)%nat ->
  ts_sources setup = map (fun x => mksrc (fst x) (snd x)) (combine names streams) -> ts_mix setup = None -> (1 <= ts_max_threads setup)%N -> (length (ts_tests setup) <= 1000)%nat ->
  In T_linear_complexity (ts_tests setup) -> evaluate mixed (default_tests M (chi2_cdf M exp) w) w (2 ^ p) setup br -> battery_verdict L br = Ok (Some false).
Proof. exact tool_fails. Qed.
Print Assumptions C97_fail.
Example C97_instance : exists streams br, create_prng_test_setup 64 (stream_of_gen rng64_xoroshiro128plus) 1024 = Ok (Some streams) /\
  let setup := mksetup "xoroshiro128plus" (map (fun x => mksrc (fst x) (snd x)) (combine (repeat ""%string 256) streams)) all_types None 8 10 26 in
  evaluate (fun x => x) (default_tests lib_math (chi2_cdf lib_math lib_exp) 64) 64 (2 ^ 26) setup br /\ battery_verdict exact_libs br = Ok (Some false).
Proof.
  destruct (C58_prng_setup 64) as (seeds & _ & _ & _ & S); [cbn; auto|]. destruct (S (stream_of_gen rng64_xoroshiro128plus) _ 1024%nat (stream_of_gen_delivers _)) as (streams & E & L & _); [lia|].
  exists streams. set (setup := mksetup _ _ _ _ _ _ _). destruct (C23_evaluate_returns (fun x => x) (default_tests lib_math (chi2_cdf lib_math lib_exp) 64) 64 (2 ^ 26) setup) as (br & B).
  exists br. split; [exact E|]. split; [exact B|].
  assert (LN : (length streams <= length (repeat ""%string 256))%nat) by (rewrite L, repeat_length; vm_compute; lia).
  refine (C97_fail lib_math lib_exp (fun x => x) exact_libs 64 rng64_xoroshiro128plus 26 26 (repeat ""%string 256) 1024 streams setup br lib_good exact_libs_good _ _ (le_n _) E LN eq_refl eq_refl _ _ _ B).
  - cbn; auto.
  - split; discriminate.
  - discriminate.
  - cbn; lia.
  - cbn; auto.
Qed.
