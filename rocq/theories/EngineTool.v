(* minstd_rand fails the test of the tool. *)
From Coq Require Import String Reals Lra Lia.
From Verif Require Import Base WordLemmas BitwiseModel BitwiseSpec BitwiseProofs FloatModel StreamModel StreamSpec StreamProofs ResultModel ResultSpec EvaluateModel EvaluateSpec
  WordBij MixerModel MixerProofs PrngModel PrngSpec PrngProofs SeedModel TestsModel BatteryModel BatterySpec DetectSpec DetectProofs DetectVerdict DetectTool Prop_Seeds BatteryUse EngineModel MinstdProofs.
Open Scope N_scope.

Lemma minstd_word sd i : is_word 32 (output rng32_minstd_rand sd i).
Proof. destruct (minstd_gen sd) as [A _]. specialize (A i). unfold is_word. change (2 ^ 32) with 4294967296. lia. Qed.
Lemma minstd_stuck sd : stuck_top 32 (fun i => output rng32_minstd_rand sd (N.of_nat i)).
Proof.
  exists false. intro i. destruct (minstd_gen sd) as [A _]. specialize (A (N.of_nat i)). apply (word_high 31); [|reflexivity]. unfold is_word. change (2 ^ 31) with 2147483648. lia.
Qed.
Lemma minstd_fails M exp mixed L p names fuel streams setup br : good_lib M exp -> good_libs L -> 10 <= p <= 26 ->
  (1024 <= fuel)%nat -> create_prng_test_setup 32 (stream_of_gen rng32_minstd_rand) fuel = Ok (Some streams) -> (length streams <= length names)%nat ->
  ts_sources setup = map (fun x => mksrc (fst x) (snd x)) (combine names streams) -> ts_mix setup = None -> 1 <= ts_max_threads setup -> (length (ts_tests setup) <= 1000)%nat ->
  In T_uniform (ts_tests setup) -> evaluate mixed (default_tests M (chi2_cdf M exp) 32) 32 (2 ^ p) setup br -> battery_verdict L br = Ok (Some false).
Proof.
  intros G GL Hp Hf E Ln ES EM Ht Hl HT He. assert (W : In 32 widths) by (cbn; auto).
  destruct (C58_prng_setup 32 W) as (seeds & LS & _ & F & S). destruct (S (stream_of_gen rng32_minstd_rand) (fun sd i => output rng32_minstd_rand sd (N.of_nat i)) fuel (stream_of_gen_delivers rng32_minstd_rand) Hf) as (streams' & E' & L' & N').
  rewrite E' in E. injection E as ->.
  assert (GB : good_battery 32 setup).
  { split; [|split; [intros m Q; rewrite EM in Q; discriminate Q|split; [exact Ht|]]].
    - rewrite ES. apply Forall_map, Forall_forall. intros [nm s] Hx. apply in_combine_r in Hx. apply In_nth_error in Hx. destruct Hx as [m Hm].
      assert (B : (m < length seeds)%nat) by (rewrite LS, <- L'; apply nth_error_Some; congruence).
      destruct (nth_error seeds m) as [sd|] eqn:Es; [|apply nth_error_None in Es; lia]. eexists. split; [exact (N' m s sd Hm Es)|]. intros i. apply ror_word; [reflexivity|]. apply minstd_word.
    - rewrite ES, map_length, combine_length. change (2 ^ 24) with 16777216. nia. }
  set (m := 31%nat). assert (Bm : (m < length streams)%nat) by (rewrite L'; unfold m; lia).
  destruct (nth_error streams m) as [s|] eqn:Em; [|apply nth_error_None in Em; lia].
  destruct (nth_error seeds m) as [sd|] eqn:Es; [|apply nth_error_None in Es; lia].
  destruct (nth_error names m) as [nm|] eqn:En; [|apply nth_error_None in En; lia].
  assert (Hin : In (nm, s) (combine names streams)).
  { clear - En Em. clearbody m. revert m streams En Em. induction names as [|a names IH]; intros m streams En Em; [destruct m; discriminate|]. destruct streams as [|b streams]; [destruct m; discriminate|].
    destruct m as [|m]; cbn in En, Em; [injection En as ->; injection Em as ->; left; reflexivity|right; exact (IH m streams En Em)]. }
  specialize (N' m s sd Em Es). change (Nat.ltb (Datatypes.S m) (N.to_nat 32)) with false in N'. cbn iota in N'.
  apply (uniform_verdict M exp 32 mixed L setup p br (mksrc nm s) (fun j => ror 32 (output rng32_minstd_rand sd (N.of_nat j)) 0)); try assumption.
  - rewrite ES. apply (in_map (fun x => mksrc (fst x) (snd x)) _ _ Hin).
  - left. unfold tested. rewrite EM. destruct (minstd_stuck sd) as [b B]. exists b. intros i. rewrite ror_0; [apply B|reflexivity|apply minstd_word].
Qed.
