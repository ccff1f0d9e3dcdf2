(* Properties C109, C110: the generators of the C++ standard library. *)
From Coq Require Import String Reals Lra Lia.
From Flocq Require Import Core BinarySingleNaN.
From Verif Require Import Base WordLemmas BitwiseModel BitwiseSpec WordBij FloatModel FloatLemmas StreamModel StreamSpec StreamProofs ResultModel ResultSpec EvaluateModel EvaluateSpec LfsrSpec LibInst
  MixerModel MixerProofs PrngModel PrngSpec PrngProofs SeedModel TestsModel TestsSpec BatteryModel BatterySpec BatteryUse DistModel DistSpec DistInst
  DetectSpec DetectProofs DetectDiv DetectGens DetectVerdict DetectTool Prop_Evaluate Prop_Seeds Prop_Detect EngineModel MinstdProofs EngineTool MtProofs.
Open Scope N_scope.

(* ---- C109: minstd_rand ---- *)
(* From every seed: every value from 1 to 2^31-2 exactly once in 2^31-2 calls, then the same again. *)
Theorem C109_full_period : forall sd, (forall i, 0 < output rng32_minstd_rand sd i < 2 ^ 31 - 1) /\ least_period (2 ^ 31 - 2) (output rng32_minstd_rand sd) /\
  (forall v, 0 < v < 2 ^ 31 - 1 -> exists! i, i < 2 ^ 31 - 2 /\ output rng32_minstd_rand sd i = v).
Proof. exact minstd_gen. Qed.
Print Assumptions C109_full_period.
(* As 32-bit words they are no random words: the highest bit is always 0, and the uniform test finds it. *)
Theorem C109_found : forall M exp n sd, good_lib M exp -> samples n -> alarm (uniform_test M (chi2_cdf M exp) 32 n (fun i => output rng32_minstd_rand sd (N.of_nat i))).
Proof. intros M exp n sd G H. apply uniform_stuck; [exact G|cbn; auto|exact H|intro i; apply minstd_word|apply minstd_stuck]. Qed.
Print Assumptions C109_found.
(* With the seeds and streams of the tool it fails from 2^10 samples on. *)
Theorem C109_fail : forall M exp mixed L p names fuel streams setup br, good_lib M exp -> good_libs L -> 10 <= p <= 26 ->
  (1024 <= fuel)%nat -> create_prng_test_setup 32 (stream_of_gen rng32_minstd_rand) fuel = Ok (Some streams) -> (length streams <= length names)%nat ->
  ts_sources setup = map (fun x => mksrc (fst x) (snd x)) (combine names streams) -> ts_mix setup = None -> 1 <= ts_max_threads setup -> (length (ts_tests setup) <= 1000)%nat ->
  In T_uniform (ts_tests setup) -> evaluate mixed (default_tests M (chi2_cdf M exp) 32) 32 (2 ^ p) setup br -> battery_verdict L br = Ok (Some false).
Proof. exact minstd_fails. Qed.
Print Assumptions C109_fail.
(* The ten thousandth value for seed 1 is the one the C++ standard requires. *)
Example C109_instance : output rng32_minstd_rand (fun _ => 1) 9999 = 399268537 /\ output rng32_minstd_rand (fun _ => 0) 0 = 48271 /\ samples 1024 /\
  exists streams br, create_prng_test_setup 32 (stream_of_gen rng32_minstd_rand) 1024 = Ok (Some streams) /\
  let setup := mksetup "minstd" (map (fun x => mksrc (fst x) (snd x)) (combine (repeat ""%string 128) streams)) all_types None 8 10 26 in
  evaluate (fun x => x) (default_tests lib_math (chi2_cdf lib_math lib_exp) 32) 32 (2 ^ 10) setup br /\ battery_verdict exact_libs br = Ok (Some false).
Proof.
  split; [vm_compute; reflexivity|]. split; [reflexivity|]. split; [split; discriminate|].
  destruct (C58_prng_setup 32) as (seeds & _ & _ & _ & S); [cbn; auto|]. destruct (S (stream_of_gen rng32_minstd_rand) _ 1024%nat (stream_of_gen_delivers _)) as (streams & E & L & _); [lia|].
  exists streams. set (setup := mksetup _ _ _ _ _ _ _). destruct (C23_evaluate_returns (fun x => x) (default_tests lib_math (chi2_cdf lib_math lib_exp) 32) 32 (2 ^ 10) setup) as (br & B).
  exists br. split; [exact E|]. split; [exact B|].
  assert (LN : (length streams <= length (repeat ""%string 128))%nat) by (rewrite L, repeat_length; vm_compute; lia).
  refine (C109_fail lib_math lib_exp (fun x => x) exact_libs 10 (repeat ""%string 128) 1024 streams setup br lib_good exact_libs_good _ (le_n _) E LN eq_refl eq_refl _ _ _ B).
  - split; discriminate.
  - discriminate.
  - cbn; lia.
  - cbn; auto.
Qed.

(* ---- C110: mt19937 ---- *)
(* A state is 624 words, of the first of them only the highest bit: 19937 bits.  mt_core is the transition followed by clearing the
   bits that have no influence. *)
Theorem C110_reversible : reversible mt_canonical mt_core /\ (forall s, mt_words 624 s -> mt_core (mt_clear s) = mt_clear (mt_step s)) /\
  forall sd i, output rng32_mt19937 sd i = mt_temper (last (Nat.iter (S (N.to_nat i)) mt_core (mt_clear (mt_seed (s32 sd 0)))) 0).
Proof.
  split; [exact mt_reversible|]. split.
  - intros s _. unfold mt_core. rewrite step_clear. reflexivity.
  - intros sd i. rewrite mt_output_core, <- iter_S_r. set (t := Nat.iter _ _ _). assert (T : length t = 624%nat).
    { unfold t. rewrite iter_core. apply clear_words, iter_words, seed_words, wrap_word. }
    clearbody t. destruct (exists_last (l := t)) as (a & b & ->); [intros ->; discriminate T|]. rewrite last_last. rewrite app_length in T. cbn [length] in T. rewrite app_nth2 by (unfold mt_n; lia). replace (mt_n - 1 - length a)%nat with O by (unfold mt_n; lia). reflexivity.
Qed.
Print Assumptions C110_reversible.
(* The outputs repeat from the first on, after at most 2^19937 calls, whatever the seed; they are never all zero. *)
Theorem C110_periodic : forall sd, exists p, 0 < p /\ p <= 2 ^ 19937 /\ periodic p (output rng32_mt19937 sd).
Proof. exact mt_periodic. Qed.
Print Assumptions C110_periodic.
Theorem C110_not_zero : forall sd i, exists j, i <= j < i + 624 /\ output rng32_mt19937 sd j <> 0.
Proof. exact mt_not_zero. Qed.
Print Assumptions C110_not_zero.
(* The tempering loses nothing. *)
Theorem C110_tempering : word_bijection 32 mt_temper.
Proof. exact temper_bij. Qed.
Print Assumptions C110_tempering.
(* Every bit of the words comes from a feedback register of at most 19968 bits, and the linear complexity test finds it. *)
Theorem C110_register : forall sd k, lfsr_bits (624 * 32) (fun i => N.testbit (output rng32_mt19937 sd (N.of_nat i)) k).
Proof. exact mt_lfsr. Qed.
Print Assumptions C110_register.
Theorem C110_found : forall M exp n sd, good_lib M exp -> samples n -> 40895488 <= n ->
  alarm (linear_complexity_sub_test M (chi2_cdf M exp) 32 n (fun i => output rng32_mt19937 sd (N.of_nat i))).
Proof.
  intros M exp n sd G H Hn. apply (lc_lfsr M exp 32 n _ (mt_n * 32)).
  - exact G.
  - cbn; auto.
  - exact H.
  - lia.
  - apply mt_lfsr.
  - rewrite Nat2N.inj_mul. apply N.lt_le_trans with (40895488 / 1024); [vm_compute; reflexivity|]. apply N.div_le_mono; [discriminate|exact Hn].
Qed.
Print Assumptions C110_found.
(* The first value for the default seed of the standard. *)
Example C110_instance : output rng32_mt19937 (fun _ => 5489) 0 = 3499211612 /\ mt_canonical (mt_clear (mt_seed 5489)) /\ good_lib lib_math lib_exp /\ samples (2 ^ 26) /\ 40895488 <= 2 ^ 26.
Proof.
  split; [vm_compute; reflexivity|]. split; [apply clear_canonical, seed_words; reflexivity|]. split; [exact lib_good|]. split; [split; discriminate|discriminate].
Qed.
