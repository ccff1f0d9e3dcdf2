(* The linear generators fail the test of the tool. *)
From Coq Require Import String Reals Lra Lia.
From Verif Require Import Base WordLemmas BitwiseModel BitwiseSpec BitwiseProofs FloatModel StreamModel StreamSpec StreamProofs ResultModel ResultSpec EvaluateModel EvaluateSpec
  WordBij MixerModel MixerProofs PrngModel PrngSpec PrngProofs Period128Gens SeedModel TestsModel BatteryModel BatterySpec DetectSpec DetectProofs DetectVerdict DetectGens Prop_Seeds BatteryUse.
Open Scope N_scope.

Lemma ror_0 w v : 0 < w -> is_word w v -> ror w v 0 = v.
Proof.
  intros Hw Hv. destruct (ror_moves w v 0 Hw Hv) as [H1 H2]. apply N.bits_inj. intro i. destruct (N.lt_ge_cases i w) as [L|L].
  - rewrite (H2 i L). f_equal. rewrite Z.add_0_r, Z.mod_small by lia. apply N2Z.id.
  - rewrite (word_high w v i Hv L). apply (word_high w); assumption.
Qed.
Definition good_seed (sd : seed_data) : Prop := forall i, (i <= 3)%nat -> is_word 64 (sd i).
Lemma iter_word {S} (V : S -> Prop) (step : S -> S) s k : (forall x, V x -> V (step x)) -> V s -> V (Nat.iter k step s).
Proof. intros H Hs. induction k as [|k IH]; [exact Hs|]. apply H, IH. Qed.
Lemma linear_words w g p sd i : In (w, g, p) linear_generators -> good_seed sd -> is_word w (output g sd i).
Proof.
  intros H G. assert (G0 := G O ltac:(lia)). assert (G1 := G 1%nat ltac:(lia)).
  repeat (destruct H as [H|H]; [injection H as <- <- <-|]); [| | | | | |destruct H].
  - unfold rng64_xorshift. rewrite xorshift_output. apply iter_word; [apply xorshift64_bij|apply xorshift64_bij, G0].
  - unfold output. apply wrap_word.
  - unfold output. apply wrap_word.
  - unfold rng32_xorshift. rewrite xorshift_output. apply iter_word; [apply xorshift32_bij|apply xorshift32_bij, wrap_word].
  - unfold rng32_xorshift_64. rewrite truncated_output. apply wrap_word.
  - unfold output. destruct (state_at rng32_xoshiro128plus sd i) as [[[a b] c] d]. apply wrap_word.
Qed.
Lemma linear_lfsr w g p : In (w, g, p) linear_generators -> exists r, ((2048 * Z.of_nat r + 1025) ^ 7 <= 2 ^ (5 * Z.of_N p))%Z /\ 19 <= p <= 26 /\ In w widths /\
  forall sd, good_seed sd -> lfsr_bits r (fun i => N.testbit (output g sd (N.of_nat i)) 0).
Proof.
  intros H. assert (W32 : In 32 widths) by (cbn; auto). assert (W64 : In 64 widths) by (cbn; auto).
  repeat (destruct H as [H|H]; [injection H as <- <- <-|]); [| | | | | |destruct H].
  - exists 64%nat. repeat (split; [first [vm_compute; discriminate|lia|assumption|split; lia]|]). intros sd G. apply xorshift64_lfsr, (G O). lia.
  - exists 128%nat. repeat (split; [first [vm_compute; discriminate|lia|assumption|split; lia]|]). intros sd G. apply xorshift128plus_lfsr; apply G; lia.
  - exists 128%nat. repeat (split; [first [vm_compute; discriminate|lia|assumption|split; lia]|]). intros sd G. apply xoroshiro128plus_lfsr; apply G; lia.
  - exists 32%nat. repeat (split; [first [vm_compute; discriminate|lia|assumption|split; lia]|]). intros sd G. apply xorshift32_lfsr.
  - exists 64%nat. repeat (split; [first [vm_compute; discriminate|lia|assumption|split; lia]|]). intros sd G. apply xorshift32_64_lfsr, (G O). lia.
  - exists 128%nat. repeat (split; [first [vm_compute; discriminate|lia|assumption|split; lia]|]). intros sd G. apply xoshiro128plus_lfsr.
Qed.

Lemma tool_fails M exp mixed L w g p0 p names fuel streams setup br : good_lib M exp -> good_libs L -> In (w, g, p0) linear_generators -> p0 <= p <= 26 ->
  (1024 <= fuel)%nat -> create_prng_test_setup w (stream_of_gen g) fuel = Ok (Some streams) -> (length streams <= length names)%nat ->
  ts_sources setup = map (fun x => mksrc (fst x) (snd x)) (combine names streams) -> ts_mix setup = None -> 1 <= ts_max_threads setup -> (length (ts_tests setup) <= 1000)%nat ->
  In T_linear_complexity (ts_tests setup) -> evaluate mixed (default_tests M (chi2_cdf M exp) w) w (2 ^ p) setup br -> battery_verdict L br = Ok (Some false).
Proof.
  intros G GL Hg Hp Hf E Ln ES EM Ht Hl HT He. destruct (linear_lfsr w g p0 Hg) as (r & Hr & P0 & W & LF).
  assert (Wb : 8 <= w <= 64) by (cbn in W; intuition lia).
  destruct (C58_prng_setup w W) as (seeds & LS & _ & F & S). destruct (S (stream_of_gen g) (fun sd i => output g sd (N.of_nat i)) fuel (stream_of_gen_delivers g) Hf) as (streams' & E' & L' & N').
  rewrite E' in E. injection E as ->.
  assert (GS : forall sd, In sd seeds -> good_seed sd).
  { intros sd Hs i Hi. rewrite Forall_forall in F. destruct (F sd Hs) as (_ & A & B). destruct i as [|i]; [|apply B; lia]. apply N.lt_le_trans with (1 := A). apply N.pow_le_mono_r; lia. }
  assert (GB : good_battery w setup).
  { split; [|split; [intros m Q; rewrite EM in Q; discriminate Q|split; [exact Ht|]]].
    - rewrite ES. apply Forall_map, Forall_forall. intros [nm s] Hx. apply in_combine_r in Hx. apply In_nth_error in Hx. destruct Hx as [m Hm].
      assert (B : (m < length seeds)%nat) by (rewrite LS, <- L'; apply nth_error_Some; congruence).
      destruct (nth_error seeds m) as [sd|] eqn:Es; [|apply nth_error_None in Es; lia]. eexists. split; [exact (N' m s sd Hm Es)|]. intros i. apply ror_word; [apply widths_pos, W|]. apply (linear_words w g p0); [exact Hg|]. apply GS. eapply nth_error_In, Es.
    - rewrite ES, map_length, combine_length. change (2 ^ 24) with 16777216. nia. }
  set (m := (N.to_nat w - 1)%nat). assert (Bm : (m < length streams)%nat) by (rewrite L'; lia).
  destruct (nth_error streams m) as [s|] eqn:Em; [|apply nth_error_None in Em; lia].
  destruct (nth_error seeds m) as [sd|] eqn:Es; [|apply nth_error_None in Es; lia].
  destruct (nth_error names m) as [nm|] eqn:En; [|apply nth_error_None in En; lia].
  assert (Hin : In (nm, s) (combine names streams)).
  { clear - En Em. clearbody m. revert m streams En Em. induction names as [|a names IH]; intros m streams En Em; [destruct m; discriminate|]. destruct streams as [|b streams]; [destruct m; discriminate|].
    destruct m as [|m]; cbn in En, Em; [injection En as ->; injection Em as ->; left; reflexivity|right; exact (IH m streams En Em)]. }
  specialize (N' m s sd Em Es). replace (Nat.ltb (Datatypes.S m) (N.to_nat w)) with false in N' by (symmetry; apply Nat.ltb_ge; lia).
  assert (Gsd : good_seed sd) by (apply GS; eapply nth_error_In, Es).
  apply (lc_verdict M exp w mixed L setup p br (mksrc nm s) (fun j => ror w (output g sd (N.of_nat j)) 0) r); try assumption.
  - lia.
  - right. apply Z.le_trans with (1 := Hr). apply Z.pow_le_mono_r; lia.
  - rewrite ES. apply (in_map (fun x => mksrc (fst x) (snd x)) _ _ Hin).
  - unfold tested. rewrite EM. eapply lfsr_ext; [|exact (LF sd Gsd)]. intros i. cbn beta. rewrite ror_0; [reflexivity|apply widths_pos, W|]. apply (linear_words w g p0); assumption.
Qed.
