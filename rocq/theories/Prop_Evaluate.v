(* Properties C23-C26, C29, C30, C50: evaluation, results, verdicts
   (core/src/evaluate.h, types.h, util/statistic_analysis.h, statistics/kolmogorov.h, tool test_command.h). *)
From Coq Require Import Reals Lra Permutation Sorted String.
From Verif Require Import Base FloatModel FloatLemmas StreamModel JobsModel JobsProofs ResultModel ResultSpec ResultProofs
  AnalysisProofs KsProofs EvaluateModel EvaluateSpec EvalProofs StrengthProofs ProtocolProofs LibInst.

(* ---- C23 ---- *)
(* Whatever the schedule and the number of threads, the results filed under a key are, as a
   multiset, those the sequential run produces for it, and the keys present are exactly theirs. *)
Theorem C23_results_multiset : forall mixed_name defs w n setup br,
  (1 <= ts_max_threads setup)%N -> (job_count defs setup < 2 ^ 32)%N ->
  evaluate mixed_name defs w n setup br ->
  (forall k, Permutation (map_get (br_results br) k)
     (filter (fun r => key_eqb k (tr_key r)) (sequential_results mixed_name defs n setup))) /\
  (forall k, In k (map fst (br_results br)) <-> In k (map tr_key (sequential_results mixed_name defs n setup))) /\
  StronglySorted (fun a b => key_lt a b = true) (map fst (br_results br)) /\
  br_name br = ts_name setup /\ br_n br = n /\ br_bits br = w /\ br_samples br = N.of_nat (length (ts_sources setup)).
Proof.
  intros mixed defs w n setup br H1 H2 He.
  destruct (evaluate_multiset _ _ _ _ _ _ He H1 H2) as (h & E & P).
  split; [intro k; rewrite E, add_all_get; apply filter_Perm, P|].
  split.
  { intro k. rewrite E, add_all_keys. split; apply Permutation_in; [apply Permutation_map, P|apply Permutation_map, Permutation_sym, P]. }
  split.
  { rewrite E. destruct (add_all_good h) as [S _]. unfold ksorted in S. clear - S.
    induction S as [|a l S IH H]; constructor; [exact IH|]. eapply Forall_impl; [|exact H]. intros b. apply key_lt_iff. }
  destruct He as (s & _ & _ & ->). cbn. auto.
Qed.
Print Assumptions C23_results_multiset.

(* Two evaluations of the same setup, with any thread counts, schedules and correct sorts, agree on
   the worst p-value and on the verdict. *)
Theorem C23_verdict_schedule_independent : forall L L' mixed_name defs w n setup t t' br br',
  good_sorts L -> good_sorts L' -> good_exp (l_exp L) -> l_exp L = l_exp L' -> l_log10 L = l_log10 L' ->
  (1 <= t)%N -> (1 <= t')%N -> (job_count defs setup < 2 ^ 32)%N ->
  Forall (fun r => valid_stat (tr_stats r)) (sequential_results mixed_name defs n setup) ->
  (N.of_nat (length (sequential_results mixed_name defs n setup)) < 2 ^ 64)%N ->
  evaluate mixed_name defs w n (with_threads t setup) br ->
  evaluate mixed_name defs w n (with_threads t' setup) br' ->
  (forall k, Permutation (map_get (br_results br) k) (map_get (br_results br') k)) /\
  exists a a', get_worst_statistic_analysis L br = Ok a /\ get_worst_statistic_analysis L' br' = Ok a' /\
    option_map two_sided a = option_map two_sided a' /\ battery_verdict L br = battery_verdict L' br'.
Proof.
  intros L L' mixed defs w n setup t t' br br' S S' X E1 E2 H1 H1' H2 Hv Hl He He'.
  destruct (evaluate_multiset _ _ _ _ _ _ He H1 H2) as (h & E & P). destruct (evaluate_multiset _ _ _ _ _ _ He' H1' H2) as (h' & E' & P').
  change (sequential_results mixed defs n (with_threads t setup)) with (sequential_results mixed defs n setup) in P.
  change (sequential_results mixed defs n (with_threads t' setup)) with (sequential_results mixed defs n setup) in P'.
  assert (PK : forall k, Permutation (map_get (br_results br) k) (map_get (br_results br') k)).
  { intro k. rewrite E, E', !add_all_get. apply filter_Perm. rewrite P, P'. reflexivity. }
  split; [exact PK|]. apply verdict_perm; try assumption.
  - rewrite E. apply add_all_good.
  - rewrite E'. apply add_all_good.
  - rewrite E. apply add_all_ok; [rewrite (Permutation_length P); exact Hl|]. eapply Permutation_Forall; [apply Permutation_sym, P|exact Hv].
Qed.
Print Assumptions C23_verdict_schedule_independent.

(* evaluate always has an outcome. *)
Theorem C23_evaluate_returns : forall mixed_name defs w n setup, exists br, evaluate mixed_name defs w n setup br.
Proof. exact evaluate_exists. Qed.
Print Assumptions C23_evaluate_returns.

(* Two sources, one stream test with a result of p = 1/2 or 1/4: the hypotheses hold. *)
Definition demo_test : stream_test := fun n src =>
  main_sub_test (Some (mkstat Z_score d0 (if String.eqb (src_name src) "a" then dconst 1 (-1) else dconst 1 (-2)) d0)).
Definition demo_defs : list test_definition := [mkdef T_runs (Some demo_test) None "runs"].
Definition demo_setup : test_setup :=
  mksetup "demo" [mksrc "a" (counter_stream 64 1 0); mksrc "b" (counter_stream 64 1 5)] [T_runs] None 2 10 12.
Lemma valid_half : valid01 (dconst 1 (-1)) /\ valid01 (dconst 1 (-2)).
Proof.
  split; (split; [reflexivity|]); unfold dval; cbn.
  - change (B2R _) with (F2R (Float radix2 4503599627370496 (-53))). unfold F2R; cbn. lra.
  - change (B2R _) with (F2R (Float radix2 4503599627370496 (-54))). unfold F2R; cbn. lra.
Qed.
Example C23_instance :
  good_sorts exact_libs /\ good_exp (l_exp exact_libs) /\ job_count demo_defs demo_setup = 2%N /\
  length (sequential_results (fun s => s) demo_defs 1024 demo_setup) = 2%nat /\
  Forall (fun r => valid_stat (tr_stats r)) (sequential_results (fun s => s) demo_defs 1024 demo_setup).
Proof.
  destruct exact_libs_good as (H1 & H2 & _). split; [exact H1|]. split; [exact H2|]. split; [reflexivity|]. split; [reflexivity|].
  destruct valid_half as [A B]. constructor; [exact A|]. constructor; [exact B|constructor].
Qed.

(* ---- C24 ---- *)
(* The i-th callback call reports an evaluation at 2^(start+i), flagged last exactly at stop; every
   call but possibly the final one returned true; the returned value is the last result computed;
   and either all powers were run or the final call returned false. *)
Theorem C24_protocol : forall S mixed_name defs w (cb : S -> test_battery_result -> bool -> outcome (S * bool)) setup st calls r st',
  evaluate_multi_pass mixed_name defs w cb setup st calls (Ok (r, st')) ->
  let start := ts_start setup in let stop := ts_stop setup in
  replays cb st calls st' /\
  (forall i c, nth_error calls i = Some c ->
     (0 <= start + Z.of_nat i <= stop)%Z /\
     evaluate mixed_name defs w (2 ^ Z.to_N (start + Z.of_nat i))%N setup (cc_result c) /\
     cc_last c = (start + Z.of_nat i =? stop)%Z /\
     (cc_returned c = true \/ Datatypes.S i = length calls)) /\
  r = last (map cc_result calls) empty_result /\
  (Z.of_nat (length calls) = Z.max 0 (stop - start + 1) \/
   exists c, nth_error calls (length calls - 1) = Some c /\ cc_returned c = false) /\
  ((start <= stop)%Z -> calls <> []).
Proof. intros S mixed defs w cb setup st calls r st' H. exact (multi_pass_spec _ _ _ _ _ _ _ _ H r st' eq_refl). Qed.
Print Assumptions C24_protocol.

(* It is defined for powers within 0..63 when the callback is, and always has an execution. *)
Theorem C24_defined : forall S mixed_name defs w (cb : S -> test_battery_result -> bool -> outcome (S * bool)) setup st,
  (0 <= ts_start setup)%Z -> (ts_stop setup < 64)%Z ->
  (forall st r b, (exists n, evaluate mixed_name defs w n setup r) -> exists st' x, cb st r b = Ok (st', x)) ->
  (exists calls out, evaluate_multi_pass mixed_name defs w cb setup st calls out) /\
  forall calls out, evaluate_multi_pass mixed_name defs w cb setup st calls out -> exists r st', out = Ok (r, st').
Proof.
  intros S mixed defs w cb setup st H0 H64 Ht. split.
  - eapply multi_pass_exists; [intro n; apply evaluate_exists|reflexivity].
  - intros calls out H. eapply multi_pass_defined; [exact H|exact H0|exact H64|exact Ht].
Qed.
Print Assumptions C24_defined.

Theorem C24_power_out_of_range_ub : forall S mixed_name defs w (cb : S -> test_battery_result -> bool -> outcome (S * bool)) setup st calls out,
  (ts_start setup <= ts_stop setup)%Z -> (ts_start setup < 0 \/ 64 <= ts_start setup)%Z ->
  evaluate_multi_pass mixed_name defs w cb setup st calls out -> out = UB /\ calls = [].
Proof. intros S mixed defs w cb setup st calls out H1 H2 H. inversion H; subst; try lia; auto. Qed.
Print Assumptions C24_power_out_of_range_ub.

(* A callback that stops at the second call: two calls, at 2^10 and 2^11. *)
Definition count_cb (k : N) (_ : test_battery_result) (_ : bool) : outcome (N * bool) := Ok ((k + 1)%N, (k =? 0)%N).
Example C24_instance : exists calls r, evaluate_multi_pass (fun s => s) demo_defs 64 count_cb demo_setup 0%N calls (Ok (r, 2%N)) /\
  map cc_last calls = [false; false] /\ map cc_returned calls = [true; false] /\ br_n r = 2048%N.
Proof.
  destruct (evaluate_exists (fun s => s) demo_defs 64 1024 demo_setup) as (b1 & H1).
  destruct (evaluate_exists (fun s => s) demo_defs 64 2048 demo_setup) as (b2 & H2).
  eexists [_; _], b2. split.
  - unfold evaluate_multi_pass. cbn [ts_start ts_stop demo_setup]. eapply mp_true; [lia|lia|exact H1|reflexivity|].
    eapply mp_false; [lia|lia|exact H2|reflexivity].
  - split; [reflexivity|]. split; [reflexivity|]. destruct H2 as (s & _ & _ & ->). reflexivity.
Qed.

(* ---- C25 ---- *)
(* One complete run with the tool's callback: on_done fires exactly once, with the last evaluated
   battery and its verdict; every earlier battery passed; it fires because the battery failed or it
   was the last power.  Hence a pass ('>') is reported exactly if no battery of the run failed. *)
Theorem C25_done_exactly_once : forall L print mixed_name defs w setup log calls r log',
  (ts_start setup <= ts_stop setup)%Z ->
  evaluate_multi_pass mixed_name defs w (result_callback L print true) setup log calls (Ok (r, log')) ->
  exists v, battery_verdict L r = Ok v /\
    cl_done log' = (r, match v with Some p => p | None => true end) :: cl_done log /\
    (v = Some false \/ br_n r = (2 ^ Z.to_N (ts_stop setup))%N) /\
    (forall i c, nth_error calls i = Some c -> (S i < length calls)%nat ->
       exists v', battery_verdict L (cc_result c) = Ok v' /\ v' <> Some false) /\
    cl_printed log' = (if print then rev (map cc_result calls) else [r]) ++ cl_printed log.
Proof.
  intros L pr mixed defs w setup log calls r log' Hs H.
  destruct (multi_pass_spec _ _ _ _ _ _ _ _ H r log' eq_refl) as (R & C & E & End & Ne). specialize (Ne Hs).
  assert (HF : exists c, nth_error calls (length calls - 1) = Some c /\ cc_returned c = false).
  { destruct End as [Hl|End]; [|exact End].
    destruct (nth_error calls (length calls - 1)) as [c|] eqn:Ec.
    - exists c. split; [reflexivity|]. destruct (C _ _ Ec) as (_ & _ & Cl & _).
      (* the last call has the flag set, so the callback returns false *)
      assert (Hlast : cc_last c = true).
      { rewrite Cl. apply Z.eqb_eq. assert (0 < length calls)%nat by (destruct calls; [congruence|cbn; lia]). lia. }
      assert (Hr : exists st1 st2, result_callback L pr true st1 (cc_result c) (cc_last c) = Ok (st2, cc_returned c)).
      { clear - R Ec. revert log R Ec. generalize (length calls - 1)%nat as i. induction calls as [|c0 calls IH]; intros i log R Ec; [destruct i; discriminate|].
        destruct R as (s1 & Hc & R). destruct i as [|i]; cbn in Ec; [injection Ec as <-; eauto|]. eapply IH; eassumption. }
      destruct Hr as (st1 & st2 & Hr). destruct (callback_cases _ _ _ _ _ _ _ _ Hr) as (v & _ & Er & _). rewrite Hlast in Er. exact Er.
    - apply nth_error_None in Ec. destruct calls; [congruence|cbn in Ec; lia]. }
  destruct (replay_done L pr calls log log' R) as (c & v & Ec & Ev & Ed & Eo & Ep & Epr);
    [intros i c Hi; apply (C i c Hi)|exact Ne|exact HF|].
  assert (Er : r = cc_result c).
  { rewrite E. clear - Ec Ne. generalize empty_result as d. revert Ec. induction calls as [|c0 calls IH]; intros Ec d; [congruence|].
    destruct calls as [|c1 calls]; [cbn in *; congruence|].
    change (last (map cc_result (c0 :: c1 :: calls)) d) with (last (map cc_result (c1 :: calls)) d).
    apply IH; [discriminate|]. cbn [length] in *. replace (S (S (length calls)) - 1)%nat with (S (S (length calls) - 1)) in Ec by lia. exact Ec. }
  exists v. rewrite Er. split; [exact Ev|]. split; [exact Ed|]. split.
  { destruct Eo as [Eo|Eo].
    - right. destruct (C _ _ Ec) as (_ & Hev & Cl & _). rewrite Eo in Cl. symmetry in Cl. apply Z.eqb_eq in Cl. rewrite Cl in Hev.
      destruct Hev as (s & _ & _ & Hb). rewrite Hb. reflexivity.
    - left. destruct v as [[|]|]; cbn in Eo; congruence. }
  split.
  { intros i c' Hi Hlt. destruct (Ep i c' Hi Hlt) as (_ & v' & Hv' & Pv'). exists v'. split; [exact Hv'|]. intros ->. discriminate. }
  exact Epr.
Qed.
Print Assumptions C25_done_exactly_once.

(* The report is well defined: with valid p-values the verdict of an evaluation always exists. *)
Theorem C25_verdict_defined : forall L mixed_name defs w n setup br,
  good_sorts L -> good_exp (l_exp L) -> good_log10 (l_log10 L) ->
  (1 <= ts_max_threads setup)%N -> (job_count defs setup < 2 ^ 32)%N ->
  Forall (fun r => valid_stat (tr_stats r)) (sequential_results mixed_name defs n setup) ->
  (N.of_nat (length (sequential_results mixed_name defs n setup)) < 2 ^ 64)%N ->
  evaluate mixed_name defs w n setup br -> exists v, battery_verdict L br = Ok v.
Proof.
  intros L mixed defs w n setup br S X G H1 H2 Hv Hl He. destruct (evaluate_multiset _ _ _ _ _ _ He H1 H2) as (h & E & P).
  destruct (worst_analysis_ok L br S X) as (a & Ha & Sa).
  { rewrite E. apply add_all_ok; [rewrite (Permutation_length P); exact Hl|]. eapply Permutation_Forall; [apply Permutation_sym, P|exact Hv]. }
  unfold battery_verdict. rewrite Ha. cbn [obind]. destruct a as [st|]; [|eauto]. destruct Sa as (V & _ & _).
  destruct (strength_total _ G st V) as (f & Hf & _). unfold pass. rewrite Hf. cbn. eauto.
Qed.
Print Assumptions C25_verdict_defined.

(* The demo setup meets the hypotheses and its runs exist. *)
Example C25_instance : (ts_start demo_setup <= ts_stop demo_setup)%Z /\
  exists calls out, evaluate_multi_pass (fun s => s) demo_defs 64 (result_callback exact_libs false true) demo_setup (mklog [] []) calls out.
Proof. split; [cbn; lia|]. eapply multi_pass_exists; [intro n; apply evaluate_exists|reflexivity]. Qed.

(* ---- C26 ---- *)
Theorem C26_key_order_strict_total : forall a b c,
  key_lt a a = false /\
  (key_lt a b = true -> key_lt b c = true -> key_lt a c = true) /\
  (key_lt a b = false /\ key_lt b a = false <-> a = b).
Proof.
  intros a b c. split; [apply key_lt_false, klt_irrefl|]. split.
  - rewrite !key_lt_iff. apply klt_trans.
  - rewrite !key_lt_false. split.
    + intros [H1 H2]. destruct (klt_total a b) as [E|[E|E]]; [exact E|contradiction|contradiction].
    + intros ->. split; apply klt_irrefl.
Qed.
Print Assumptions C26_key_order_strict_total.

(* After any history of adds, the list under a key is the sub-sequence of the results with exactly
   that type and name, in the order they were added. *)
Theorem C26_add_files_by_key : forall (history : list test_result) k,
  map_get (fold_left (fun m r => map_add r m) history []) k =
  filter (fun r => if key_dec k (tr_key r) then true else false) history.
Proof. exact add_all_get. Qed.
Print Assumptions C26_add_files_by_key.

Theorem C26_add_affects_one_key : forall (history : list test_result) r k,
  let m := fold_left (fun m r => map_add r m) history [] in
  map_get (map_add r m) k = if key_dec k (tr_key r) then map_get m k ++ [r] else map_get m k.
Proof.
  intros h r k m. unfold m. rewrite map_add_get by apply (add_all_good h). unfold key_eqb. destruct (key_dec k (tr_key r)); reflexivity.
Qed.
Print Assumptions C26_add_affects_one_key.

Example C26_instance : let r k p := mktr "s" "m" 1024%N (mkkey T_gap k) (mkstat Z_score d0 p d0) in
  map (fun e => (k_name (fst e), length (snd e))) (fold_left (fun m r => map_add r m) [r "b"%string d1; r "a"%string d0; r "b"%string d0] [])
  = [("a"%string, 1%nat); ("b"%string, 2%nat)].
Proof. reflexivity. Qed.

(* ---- C29 ---- *)
Open Scope R_scope.
(* Strengths are 0..10 ... *)
Theorem C29_strength_range : forall log10 s, good_log10 log10 -> valid_stat s ->
  exists f, get_failure_strength log10 s = Ok f /\ (f <= 10)%N.
Proof. intros. apply strength_total; assumption. Qed.
Print Assumptions C29_strength_range.

(* ... a smaller p-value never has a smaller strength ... *)
Theorem C29_strength_antitone : forall log10 s s' f f', good_log10 log10 -> valid_stat s -> valid_stat s' ->
  two_sided s <= two_sided s' -> get_failure_strength log10 s = Ok f -> get_failure_strength log10 s' = Ok f' -> (f' <= f)%N.
Proof. intros log10 s s' f f' G V V' H E E'. exact (strength_antitone log10 G s s' f f' V V' H E E'). Qed.
Print Assumptions C29_strength_antitone.

(* ... and the strength is at least k for p-values below 10^-k, less than k above (up to a relative 2^-37). *)
Theorem C29_strength_decades : forall log10 s k f, good_log10 log10 -> valid_stat s -> (k <= 10)%nat ->
  get_failure_strength log10 s = Ok f ->
  (two_sided s <= / 10 ^ k * (1 - / 2 ^ 37) -> (N.of_nat k <= f)%N) /\
  (/ 10 ^ k * (1 + / 2 ^ 37) <= two_sided s -> (f < N.of_nat k)%N).
Proof. intros log10 s k f G V Hk E. split; intro H; [exact (strength_low log10 G k s f Hk V H E)|exact (strength_high log10 G k s f Hk V H E)]. Qed.
Print Assumptions C29_strength_decades.

(* pass and has_suspicion are thresholds on the strength, so on the p-value. *)
Theorem C29_thresholds : forall log10 s, good_log10 log10 -> valid_stat s ->
  exists p q, pass log10 s = Ok p /\ has_suspicion log10 s = Ok q /\
    (two_sided s <= / 10 ^ 9 * (1 - / 2 ^ 37) -> p = false) /\ (/ 10 ^ 9 * (1 + / 2 ^ 37) <= two_sided s -> p = true) /\
    (two_sided s <= / 10 ^ 5 * (1 - / 2 ^ 37) -> q = true) /\ (/ 10 ^ 5 * (1 + / 2 ^ 37) <= two_sided s -> q = false) /\
    (p = false -> q = true).
Proof.
  intros log10 s G V. destruct (strength_total log10 G s V) as (f & E & Hf). unfold pass, has_suspicion. rewrite E. cbn [obind].
  exists (f <? 9)%N, (4 <? f)%N. split; [reflexivity|]. split; [reflexivity|].
  destruct (C29_strength_decades log10 s 9 f G V ltac:(lia) E) as [A9 B9]. destruct (C29_strength_decades log10 s 5 f G V ltac:(lia) E) as [A5 B5].
  repeat split; intro H.
  - apply N.ltb_ge. apply A9 in H. exact H.
  - apply N.ltb_lt. apply B9 in H. exact H.
  - apply N.ltb_lt. apply A5 in H. lia.
  - apply N.ltb_ge. apply B5 in H. lia.
  - apply N.ltb_ge in H. apply N.ltb_lt. lia.
Qed.
Print Assumptions C29_thresholds.

(* The battery fails iff one of the recorded statistics or one of the per-key meta statistics does. *)
Theorem C29_battery_passes_iff_all_pass : forall L br, good_sorts L -> good_exp (l_exp L) -> good_log10 (l_log10 L) -> ok_map (br_results br) ->
  exists v, battery_verdict L br = Ok v /\
    (v <> Some false <-> forall s, analysed L (br_results br) s -> pass (l_log10 L) s = Ok true).
Proof.
  intros L br S X G O. destruct (worst_analysis_ok L br S X O) as (a & Ha & Sa). unfold battery_verdict. rewrite Ha. cbn [obind].
  assert (AV : forall s, analysed L (br_results br) s -> valid_stat s).
  { intros s (k & v & Hi & Hc). unfold ok_map in O. rewrite Forall_forall in O. destruct (O _ Hi) as (Hn & Hl & Hv). cbn [snd] in *.
    destruct Hc as [(r & Hr & ->)| ->]; [rewrite Forall_forall in Hv; apply Hv, Hr|apply meta_valid; assumption]. }
  destruct a as [st|].
  - destruct Sa as (V & A & M). destruct (strength_total _ G st V) as (f & E & Hf). unfold pass at 1. rewrite E. cbn [obind].
    exists (Some (f <? 9)%N). split; [reflexivity|]. split.
    + intros H s Hs. destruct (strength_total _ G s (AV s Hs)) as (f' & E' & Hf'). unfold pass. rewrite E'. cbn [obind]. f_equal.
      apply N.ltb_lt. pose proof (strength_antitone _ G st s f f' V (AV s Hs) (M s Hs) E E').
      destruct (N.ltb_spec f 9); [lia|congruence].
    + intros H. specialize (H st A). unfold pass in H. rewrite E in H. cbn [obind] in H. injection H as ->. discriminate.
  - exists None. split; [reflexivity|]. split; [|discriminate]. intros _ s (k & v & Hi & _). rewrite Sa in Hi. destruct Hi.
Qed.
Print Assumptions C29_battery_passes_iff_all_pass.

Example C29_instance : good_log10 exact_log10 /\ valid_stat (mkstat Chi2 d0 (dconst 1 (-2)) d0).
Proof. split; [apply exact_log10_good|apply valid_half]. Qed.

(* ---- C30 ---- *)
(* the first element of least comparable p-value; the empty list is undefined *)
Theorem C30_worst_is_first_minimum : forall rs w, Forall (fun r => valid_stat (tr_stats r)) rs ->
  get_worst_result rs = Ok w ->
  exists before after, rs = before ++ w :: after /\
    Forall (fun r => two_sided (tr_stats w) < two_sided (tr_stats r)) before /\
    Forall (fun r => two_sided (tr_stats w) <= two_sided (tr_stats r)) after.
Proof. exact worst_first_min. Qed.
Print Assumptions C30_worst_is_first_minimum.

Theorem C30_worst_defined_iff_nonempty : forall rs, Forall (fun r => valid_stat (tr_stats r)) rs ->
  (rs <> [] -> exists w, get_worst_result rs = Ok w) /\ get_worst_result [] = UB.
Proof. intros rs H. split; [apply worst_defined, H|reflexivity]. Qed.
Print Assumptions C30_worst_defined_iff_nonempty.

(* the battery's worst statistic is one of the analysed ones and minimal among them; none iff no results *)
Theorem C30_battery_worst : forall L br, good_sorts L -> good_exp (l_exp L) -> ok_map (br_results br) ->
  exists a, get_worst_statistic_analysis L br = Ok a /\
    match a with
    | None => br_results br = []
    | Some st => analysed L (br_results br) st /\ forall s, analysed L (br_results br) s -> two_sided st <= two_sided s
    end.
Proof.
  intros L br S X O. destruct (worst_analysis_ok L br S X O) as (a & Ha & Sa). exists a. split; [exact Ha|].
  destruct a; [destruct Sa as (_ & A & B); auto|exact Sa].
Qed.
Print Assumptions C30_battery_worst.

(* The comparable p-value is p itself for z-scores; else within 2^-53 of min(p, 1-p). *)
Theorem C30_two_sided_accuracy : forall s, valid_stat s ->
  0 <= two_sided s <= 1 /\
  match st_type s with
  | Z_score => two_sided s = dval (st_p s)
  | _ => Rabs (two_sided s - Rmin (dval (st_p s)) (1 - dval (st_p s))) <= bpow radix2 (-53)
  end.
Proof.
  intros s V. destruct (comparable_ok s V) as [E [F B]]. split; [rewrite <- E; exact B|].
  assert (K : Rabs (Rmin (dval (st_p s)) (dval (dsub d1 (st_p s))) - Rmin (dval (st_p s)) (1 - dval (st_p s))) <= bpow radix2 (-53)).
  { destruct V as [Fp Bp]. destruct d1_val as [D1 F1]. destruct (dsub_ok d1 (st_p s) F1 Fp) as [V1 _].
    { rewrite D1. apply small_1, Rabs_le. lra. }
    rewrite V1, D1. pose proof (rnd_err (1 - dval (st_p s)) ltac:(apply Rabs_le; lra)) as R.
    apply Rabs_le_inv in R. assert (u54 <= bpow radix2 (-53)) by (apply bpow_le; lia). apply Rabs_le.
    unfold Rmin. destruct (Rle_dec _ _), (Rle_dec _ _); lra. }
  unfold two_sided. destruct (st_type s); [reflexivity|exact K|exact K|exact K].
Qed.
Print Assumptions C30_two_sided_accuracy.

Example C30_instance : let r p := mktr "s" "m" 1024%N (mkkey T_gap "") (mkstat Z_score d0 p d0) in
  get_worst_result [r d1; r (dconst 1 (-2)); r (dconst 1 (-1))] = Ok (r (dconst 1 (-2))).
Proof. reflexivity. Qed.

(* ---- C50 ---- *)
(* kolmogorov_smirnov_stats' distance is the supremum distance between the empirical distribution
   function and the uniform one, up to rounding (2^-53) ... *)
Theorem C50_ks_is_supremum : forall sort data, sorts finite_double dlt sort -> Forall valid01 data ->
  data <> [] -> (N.of_nat (length data) <= 2 ^ 53)%N ->
  exists D, sup_distance (map dval data) D /\
    Rabs (dval (ks_distance sort data) - D) <= bpow radix2 (-53).
Proof. intros sort l S V Hn Hl. apply ks_correct; try assumption. destruct l; [congruence|cbn; lia]. Qed.
Print Assumptions C50_ks_is_supremum.

(* ... is exactly the same for every order of the data and every correct sort ... *)
Theorem C50_ks_order_independent : forall exp sort sort' data data', sorts finite_double dlt sort -> sorts finite_double dlt sort' ->
  Permutation data data' -> Forall valid01 data -> (N.of_nat (length data) < 2 ^ 64)%N ->
  kolmogorov_smirnov_stats exp sort data = kolmogorov_smirnov_stats exp sort' data'.
Proof.
  intros exp sort sort' l l' S S' P V Hl. unfold kolmogorov_smirnov_stats.
  rewrite (ks_perm sort sort' l l' S S' P V Hl), (Permutation_length P). reflexivity.
Qed.
Print Assumptions C50_ks_order_independent.

(* ... and its p-value is a valid one. *)
Theorem C50_ks_p_valid : forall exp sort data, good_exp exp -> sorts finite_double dlt sort -> Forall valid01 data ->
  data <> [] -> (N.of_nat (length data) < 2 ^ 64)%N -> valid01 (st_p (kolmogorov_smirnov_stats exp sort data)).
Proof.
  intros exp sort l G S V Hn Hl. unfold kolmogorov_smirnov_stats. cbn [st_p]. apply ks_cdf_valid; [exact G| |].
  - apply ks_distance_valid; assumption.
  - split; [destruct l; [congruence|cbn [length]; lia]|exact Hl].
Qed.
Print Assumptions C50_ks_p_valid.

Example C50_instance : sorts finite_double dlt (isort dlt) /\ good_exp exact_exp /\ Forall valid01 [dconst 1 (-1); dconst 1 (-2)] /\
  B2SF (ks_distance (isort dlt) [dconst 1 (-1); dconst 1 (-2)]) = B2SF (dconst 1 (-1)).
Proof.
  split; [apply dlt_sorts|]. split; [apply exact_exp_good|]. destruct valid_half as [A B]. split; [constructor; [exact A|constructor; [exact B|constructor]]|].
  vm_compute. reflexivity.
Qed.
