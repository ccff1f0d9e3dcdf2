(* C70-C75: the commands of the tool. *)
From Coq Require Import String Ascii Reals Lra Permutation Sorted Lia.
From Verif Require Import Base FloatModel FloatLemmas StreamModel JobsModel ResultModel ResultSpec EvaluateModel EvaluateSpec AnalysisProofs EvalProofs FormatModel FormatSpec FormatProofs TextModel TextSpec
  CommandModel CommandSpec CommandProofs ReportProofs InspectProofs InspectProofs2 BitwiseSpec LibInst.
Open Scope N_scope.

(* ---- a platform and tests for the examples ---- *)
Definition demo_log2 (d : double) : double :=
  match find (fun k => negb (dlt d (double_of_N (2 ^ N.of_nat k))) && negb (dlt (double_of_N (2 ^ N.of_nat k)) d)) (seq 0 64) with Some k => double_of_N (N.of_nat k) | None => d0 end.
Lemma demo_log2_good : good_log2 demo_log2.
Proof.
  intros k Hk. assert (A : forallb (fun k => match find (fun j => negb (dlt (double_of_N (2 ^ N.of_nat k)) (double_of_N (2 ^ N.of_nat j))) && negb (dlt (double_of_N (2 ^ N.of_nat j)) (double_of_N (2 ^ N.of_nat k)))) (seq 0 64) with
    Some j => (j =? k)%nat | None => false end) (seq 0 64) = true) by (vm_compute; reflexivity).
  rewrite forallb_forall in A. specialize (A (N.to_nat k) ltac:(apply in_seq; lia)). unfold demo_log2. rewrite N2Nat.id in A. destruct (find _ _) as [j|]; [|discriminate].
  apply Nat.eqb_eq in A. rewrite A, N2Nat.id. reflexivity.
Qed.
Definition half_test : stream_test := fun _ _ => [mksub "" (Some (mkstat Z_score d0 (dconst 1 (-1)) d0))].
Definition late_test : stream_test := fun n _ => [mksub "" (Some (mkstat Z_score d0 (if n <=? 2048 then dconst 1 (-1) else d0) d0))].
Definition demo_tests : raw_tests :=
  mkraw half_test half_test late_test half_test half_test half_test half_test half_test half_test half_test (fun n s _ => half_test n s) (fun n s _ => half_test n s).
Definition demo_env : env := mkenv exact_libs demo_log2 (get_tests (fun x _ => x) demo_tests) 4.
Definition demo_subjects : subjects :=
  mksubjects (Some [mksrc "t" (counter_stream 32 1 0)]) None [mksrc "a" (counter_stream 32 1 0); mksrc "b" (counter_stream 32 1 7)] [("id"%string, fun x => x); ("not"%string, fun x => N.lxor x 255)]
    [("gen"%string, [mksrc "g" (counter_stream 32 1 3)])] [].
Lemma valid_points : valid01 (dconst 1 (-1)) /\ valid01 d0.
Proof.
  split; [|apply valid01_d0]. split; [reflexivity|]. unfold dval; cbn. change (B2R _) with (F2R (Float radix2 4503599627370496 (-53))). unfold F2R; cbn. lra.
Qed.
Lemma demo_valid : valid_tests 1 demo_tests.
Proof.
  destruct valid_points as [A B].
  assert (H : forall n src, valid_subs 1 (half_test n src)) by (intros; split; [cbn; lia|apply Forall_cons; [exact A|apply Forall_nil]]).
  assert (L : forall n src, valid_subs 1 (late_test n src)) by (intros n src; split; [cbn; lia|apply Forall_cons; [unfold valid_stat; cbn [st_p]; destruct (n <=? 2048); assumption|apply Forall_nil]]).
  split; repeat (apply Forall_cons); try apply Forall_nil; cbn; auto.
Qed.
Lemma demo_good : good_env demo_env (fun x _ => x) demo_tests.
Proof.
  destruct exact_libs_good as (A & B & C). split; [exact A|]. split; [exact B|]. split; [exact C|]. split; [exact demo_log2_good|]. split; [reflexivity|discriminate].
Qed.
Lemma demo_sound mixed setup : e_threads demo_env = ts_max_threads setup -> (0 <= ts_start setup <= ts_stop setup)%Z -> (ts_stop setup < 64)%Z ->
  (length (ts_tests setup) <= 12)%nat -> (length (ts_sources setup) <= 2)%nat -> sound_setup mixed demo_env setup.
Proof.
  intros H1 H2 H3 H4 H5. apply (sound_of_valid 1 (fun x _ => x) demo_tests); [exact demo_valid|reflexivity|rewrite <- H1; discriminate|lia|lia|lia|].
  change (2 ^ 32) with 4294967296. nia.
Qed.

(* ---- C70: the test report ---- *)
(* The subjects of the report, their last powers, and what is run: all tests from 2^10 samples on. *)
Theorem C70_subjects : forall E w s,
  map (fun x => (ts_name x, ts_stop x)) (test_setups E w s) = report_subjects w s /\
  Forall (fun x => ts_start x = 10%Z /\ ts_tests x = map td_type (e_defs E) /\ ts_max_threads x = e_threads E) (test_setups E w s).
Proof.
  intros E w s. split.
  - assert (Sa : forall a b c, ((a ++ b) ++ c)%string = (a ++ b ++ c)%string) by (intros a b c; induction a as [|x a IH]; [reflexivity|]; cbn; rewrite IH; reflexivity).
    assert (Nm : forall x, (file_ns w ++ x)%string = ("file" ++ to_string_N w ++ "::" ++ x)%string) by (intro x; unfold file_ns; rewrite !Sa; reflexivity).
    unfold test_setups, report_subjects, on_data. rewrite !map_app, !map_map. destruct (s_trng s), (s_drng s); cbn [map app mixer_setup data_setup ts_name ts_stop]; rewrite ?Nm; reflexivity.
  - unfold test_setups, on_data. rewrite !Forall_app. repeat split; try (destruct (s_trng s)); try (destruct (s_drng s)); try (apply Forall_map, Forall_forall; intros); repeat constructor.
Qed.
Print Assumptions C70_subjects.

(* Setups are sound when every test returns at most k results with valid p-values. *)
Theorem C70_sound : forall k pow rt mixed E setup, valid_tests k rt -> e_defs E = get_tests pow rt -> 1 <= ts_max_threads setup ->
  (0 <= ts_start setup)%Z -> (ts_start setup <= ts_stop setup)%Z -> (ts_stop setup < 64)%Z ->
  N.of_nat (length (ts_tests setup)) * N.of_nat (length (ts_sources setup)) * 2 * (1 + N.of_nat k) < 2 ^ 32 ->
  sound_setup mixed E setup.
Proof. exact sound_of_valid. Qed.
Print Assumptions C70_sound.

(* The file operations of a completed run: the header, then one appended row per subject, in order. *)
Theorem C70_report : forall E pow rt root w s ops, good_env E pow rt -> Forall (fun x => sound_setup (mixed_name (ts_name x)) E x) (test_setups E w s) ->
  test_command E false root w s (Ok ops) ->
  let path := (root ++ "result_" ++ to_string_N w ++ ".md")%string in
  exists rows, ops = Write path (report_header w) :: map (Append path) rows /\ Forall2 (report_row E w) (test_setups E w s) rows.
Proof.
  intros E pow rt root w s ops GE F R. destruct (report_rows E pow rt w _ _ GE F _ _ R) as (rows & -> & H). exists rows. split; [reflexivity|exact H].
Qed.
Print Assumptions C70_report.

(* The command never runs into undefined behaviour and always can complete, with or without -debug. *)
Theorem C70_defined : forall E pow rt debug root w s, good_env E pow rt -> Forall (fun x => sound_setup (mixed_name (ts_name x)) E x) (test_setups E w s) ->
  (exists ops, test_command E debug root w s (Ok ops)) /\ ~ test_command E debug root w s UB.
Proof. intros E pow rt debug root w s GE F. apply (report_defined E pow rt w _ _ _ GE F). Qed.
Print Assumptions C70_defined.

(* With the debug flag nothing is written. *)
Theorem C70_debug : forall E root w s ops, test_command E true root w s (Ok ops) -> ops = [].
Proof.
  intros E root w s ops R. apply (debug_silent _ _ _ _ _ _ R). unfold test_setups, on_data. rewrite !Forall_app.
  split; [destruct (s_trng s); [apply Forall_cons; [cbn; lia|apply Forall_nil]|apply Forall_nil]|]. split; [destruct (s_drng s); [apply Forall_cons; [cbn; lia|apply Forall_nil]|apply Forall_nil]|].
  repeat split; apply Forall_map, Forall_forall; intros; cbn; lia.
Qed.
Print Assumptions C70_debug.

(* On the disk: the old content of the report is replaced by the header and the rows; no other file changes.  A crash
   leaves the old content, or a prefix of the header, or the header, the first k rows and a prefix of the next one. *)
Theorem C70_disk : forall d path header rows,
  let ops := Write path header :: map (Append path) rows in
  (fold_left apply_op ops d) path = Some (header ++ concat rows) /\
  (forall q, q <> path -> (fold_left apply_op ops d) q = d q) /\
  forall d', crash_state d ops d' ->
    (forall q, q <> path -> d' q = d q) /\
    (d' path = d path \/ (exists j, d' path = Some (firstn j header)) \/
     exists k j, (k <= length rows)%nat /\ d' path = Some (header ++ concat (firstn k rows) ++ firstn j (nth k rows []))).
Proof.
  intros d path header rows ops. pose proof (report_done d path header rows (length rows)) as [A B].
  assert (L : firstn (S (length rows)) ops = ops) by (apply firstn_all2; unfold ops; cbn; rewrite map_length; lia).
  fold ops in A, B. rewrite L in A, B. rewrite firstn_all in A. split; [exact A|]. split; [exact B|]. intros d' H. apply report_crash, H.
Qed.
Print Assumptions C70_disk.
Example C70_instance : good_env demo_env (fun x _ => x) demo_tests /\ Forall (fun x => sound_setup (mixed_name (ts_name x)) demo_env x) (test_setups demo_env 32 demo_subjects) /\
  (exists ops, test_command demo_env false "out/" 32 demo_subjects (Ok ops)) /\
  report_subjects 32 demo_subjects = [("file32::trng", 22%Z); ("id", 25%Z); ("not", 25%Z); ("gen", 25%Z)]%string.
Proof.
  assert (F : Forall (fun x => sound_setup (mixed_name (ts_name x)) demo_env x) (test_setups demo_env 32 demo_subjects)).
  { cbn -[mixed_name]. repeat (apply Forall_cons; [apply demo_sound; cbn; (reflexivity || lia)|]). apply Forall_nil. }
  split; [exact demo_good|]. split; [exact F|]. split; [|reflexivity]. apply (C70_defined _ _ _ false "out/" 32 _ demo_good F).
Qed.

(* ---- C71: the table with one column per test ---- *)
Definition per_test_subjects (s : subjects) : list (string * Z) :=
  match s_trng s with Some _ => [("trng"%string, 22%Z)] | None => [] end ++ match s_drng s with Some _ => [("drng"%string, 25%Z)] | None => [] end ++
  map (fun m => (fst m, 25%Z)) (s_mixers s) ++ map (fun c => (fst c, 25%Z)) (s_combiners s) ++ map (fun p => (fst p, 25%Z)) (s_prngs s).
Theorem C71_subjects : forall E s t,
  map (fun x => (ts_name x, ts_stop x)) (per_test_setups E s t) = per_test_subjects s /\
  Forall (fun x => ts_start x = 10%Z /\ ts_tests x = [t]) (per_test_setups E s t).
Proof.
  intros E s t. split.
  - unfold per_test_setups, per_test_subjects, on_data. rewrite map_map, !map_app, !map_map. destruct (s_trng s), (s_drng s); cbn [map app with_test mixer_setup data_setup ts_name ts_stop]; reflexivity.
  - unfold per_test_setups, on_data. apply Forall_map. rewrite !Forall_app. repeat split; try (destruct (s_trng s)); try (destruct (s_drng s)); try (apply Forall_map, Forall_forall; intros); repeat constructor.
Qed.
Print Assumptions C71_subjects.

Lemma tests_named pow rt : (forall d, In d (get_tests pow rt) -> get_test_name (get_tests pow rt) (td_type d) = td_name d) /\ NoDup (map td_name (get_tests pow rt)).
Proof.
  split.
  - intros d H. cbn in H. repeat (destruct H as [<-|H]; [reflexivity|]). destruct H.
  - cbn. repeat (constructor; [cbn; intuition discriminate|]). constructor.
Qed.
(* The file is rewritten after each test.  After test k the columns of the tests up to k hold, for every subject, the
   power at which it failed, or '>' and its last power; the sum of 26 - power over the failing subjects; and the time;
   the columns of later tests are empty.  The rows are sorted and distinct. *)
Theorem C71_table : forall E pow rt root w s times ops m, good_env E pow rt ->
  N.of_nat (length (s_mixers s) + length (s_prngs s) + length (s_combiners s)) < 2 ^ 32 ->
  (forall d, In d (e_defs E) -> Forall (fun x => sound_setup (mixed_name (ts_name x)) E x) (per_test_setups E s (td_type d))) ->
  inspect_per_test E root w s times (Ok (ops, m)) ->
  exists endss tables,
    Forall2 (fun d ends => Forall2 (fun x e => judged (mixed_name (ts_name x)) E w x e) (per_test_setups E s (td_type d)) ends) (e_defs E) endss /\
    length tables = length (e_defs E) /\ length times = length (e_defs E) /\
    Forall2 (fun o t => exists rows, table_rows t rows /\
       o = Write (root ++ "power_of_two" ++ "_per_test" ++ to_string_N w ++ ".md")%string (table_of (map td_name (e_defs E)) rows (cell t))) ops tables /\
    (forall k i t d ends time, nth_error tables k = Some t -> nth_error (e_defs E) i = Some d -> nth_error endss i = Some ends -> nth_error times i = Some time ->
       ((i <= k)%nat -> column_filled t d (map fst (per_test_subjects s)) ends time) /\
       ((k < i)%nat -> forall row, cell t row (td_name d) = None)).
Proof.
  intros E pow rt root w s times ops m GE Hc Hs R. pose proof GE as (_ & _ & _ & _ & D & _). destruct (tests_named pow rt) as [N1 N2]. rewrite <- D in N1, N2.
  destruct (pt_loop E pow rt root w s GE Hc _ _ _ _ R ops m eq_refl N1 N2 Hs (fun _ _ _ => eq_refl)) as (endss & ms & J & O & _ & L1 & L2 & C1 & C2 & P).
  exists endss, ms. split; [exact J|]. split; [exact L1|]. split; [exact L2|]. split.
  - subst ops. assert (W : Forall table_wf ms) by (apply P; [split; constructor|intros; apply table_wf_set; assumption]). clear - W. induction W as [|t ms H W IH]; cbn [map]; constructor; [|exact IH].
    destruct (table_text_ok E t H) as (rows & A & B). exists rows. split; [exact A|]. rewrite B. reflexivity.
  - intros k i t d ends time Ht Hd He Hti. split.
    + intros Hi. pose proof (C1 i d ends time Hd He Hti k t Hi Ht) as F.
      assert (Ns : map ts_name (per_test_setups E s (td_type d)) = map fst (per_test_subjects s)) by (rewrite <- (proj1 (C71_subjects E s (td_type d))), map_map; reflexivity). rewrite Ns in F. exact F.
    + intros Hi row. rewrite (C2 k t row (td_name d) Ht); [reflexivity|]. intros X. apply in_map_iff in X. destruct X as (d' & E0 & Hd').
      assert (Q : exists j, (j < S k)%nat /\ nth_error (e_defs E) j = Some d').
      { apply In_nth_error in Hd'. destruct Hd' as [j Hj]. exists j. assert (j < length (firstn (S k) (e_defs E)))%nat by (apply nth_error_Some; congruence). rewrite firstn_length in H. split; [lia|].
        rewrite <- (firstn_skipn (S k) (e_defs E)), nth_error_app1 by (rewrite firstn_length; lia). exact Hj. }
      destruct Q as (j & Hj & Ej). assert (i = j); [|lia].
      apply (proj1 (NoDup_nth_error (map td_name (e_defs E))) N2); [rewrite map_length; apply nth_error_Some; congruence|].
      rewrite (map_nth_error _ _ _ Hd), (map_nth_error _ _ _ Ej), E0. reflexivity.
Qed.
Print Assumptions C71_table.

(* The mean test has no results above 2^20 samples: its column never shows '>', and a subject that does not fail it has
   an empty cell. *)
Theorem C71_mean_never_passes : forall E pow rt w s, good_env E pow rt -> Forall (fun x => sound_setup (mixed_name (ts_name x)) E x) (per_test_setups E s T_mean) ->
  forall x e, In x (per_test_setups E s T_mean) -> judged (mixed_name (ts_name x)) E w x e -> e = None \/ exists p, p <= 20 /\ e = Some (true, p).
Proof.
  intros E pow rt w s GE F x e Hx (p & br & v & En & ->). rewrite Forall_forall in F. destruct (C71_subjects E s T_mean) as [A B]. rewrite Forall_forall in B. destruct (B x Hx) as [_ Ht].
  assert (St : (20 < ts_stop x)%Z).
  { assert (I : In (ts_name x, ts_stop x) (per_test_subjects s)) by (rewrite <- A; apply (in_map (fun x => (ts_name x, ts_stop x))), Hx). clear - I. revert I. generalize (ts_stop x). intros z I. unfold per_test_subjects in I.
    destruct (s_trng s), (s_drng s); cbn [app In] in I; repeat (destruct I as [I|I]; [injection I as _ <-; lia|]); rewrite !in_app_iff, !in_map_iff in I; destruct I as [(y & I & _)|[(y & I & _)|(y & I & _)]]; injection I as _ <-; lia. }
  destruct (mean_ended _ E pow rt w x p br v GE (F x Hx) Ht St En) as [(-> & -> & _)|(-> & L & N)]; [left; reflexivity|]. right. exists p. split; [exact L|]. destruct (br_results br); [contradiction|reflexivity].
Qed.
Print Assumptions C71_mean_never_passes.

(* ---- C72: inspection of single tests ---- *)
(* Each source is judged by a run of its own, and listed as passed or failed in order; a source without results in its
   last battery is in neither list. *)
(* The run of one source for one test: that test alone, no mixing, on samples of 2^10 up to 2^25 values. *)
Definition own_run (E : env) (d : test_definition) (s : source) : test_setup :=
  mksetup (td_name d) [s] [td_type d] (Some (fun x => x)) (e_threads E) 10 25.
Theorem C72_verdicts : forall E pow rt w d sources passed failed, good_env E pow rt ->
  Forall (fun s => sound_setup (mixed_name "identity") E (own_run E d s)) sources ->
  inspect_test E w d sources (passed, failed) ->
  exists vs, Forall2 (fun s v => exists p br, ended (mixed_name "identity") E w (own_run E d s) p br v) sources vs /\
    passed = with_verdict true sources vs /\ failed = with_verdict false sources vs.
Proof.
  change own_run with inspect_setup.
  intros E pow rt w d sources ps fs GE F H. destruct (inspect_spec E pow rt w d sources _ GE F H) as (vs & J & X). exists vs. split; [exact J|]. injection X as -> ->. auto.
Qed.
Print Assumptions C72_verdicts.
Theorem C72_defined : forall E pow rt w d sources, good_env E pow rt ->
  Forall (fun s => sound_setup (mixed_name "identity") E (own_run E d s)) sources -> exists r, inspect_test E w d sources r.
Proof. change own_run with inspect_setup in *. exact inspect_exists. Qed.
Print Assumptions C72_defined.

(* What is printed for a test: PASS if no source has the wrong verdict - or, for the runs test on sources that should
   fail, exactly four have it - and else a FAIL line per source with the wrong verdict.  The mixer tests are skipped
   for the sources that should pass; the mean test gets the unmodified sources. *)
Definition block (E : env) (w : N) (sources rrc : list source) (all_should_pass : bool) (d : test_definition) (b : list verdict_line) : Prop :=
  (all_should_pass = true /\ td_mixer d <> None /\ b = []) \/
  exists vs, let srcs := if tt_eqb (td_type d) T_mean then sources else rrc in
    Forall2 (fun s v => exists p br, ended (mixed_name "identity") E w (own_run E d s) p br v) srcs vs /\
    let wrong := with_verdict (negb all_should_pass) srcs vs in
    ((wrong = [] \/ (td_type d = T_runs /\ all_should_pass = false /\ length wrong = 4%nat)) /\ b = [LinePass (td_name d)]) \/
    (wrong <> [] /\ ~ (td_type d = T_runs /\ all_should_pass = false /\ length wrong = 4%nat) /\ b = map (fun s => LineFail (td_name d) (src_name s)) wrong).
Theorem C72_lines : forall E pow rt w sources rrc asp defs lines, good_env E pow rt ->
  (forall d s, In d defs -> In s sources \/ In s rrc -> sound_setup (mixed_name "identity") E (own_run E d s)) ->
  inspect_tests E w sources rrc asp defs lines ->
  exists blocks, lines = concat blocks /\ Forall2 (block E w sources rrc asp) defs blocks.
Proof.
  try unfold block; change own_run with inspect_setup.
  intros E pow rt w sources rrc asp defs lines GE F H. induction H as [|d ds out A M H IH|d ds r out A R H IH].
  - exists []. split; [reflexivity|constructor].
  - destruct IH as (bs & -> & J); [intros x s Hx; apply F; right; exact Hx|]. exists ([] :: bs). split; [reflexivity|]. constructor; [left; auto|exact J].
  - destruct IH as (bs & -> & J); [intros x s Hx; apply F; right; exact Hx|]. exists (inspect_lines d asp r :: bs). split; [reflexivity|]. constructor; [|exact J]. right.
    assert (Fs : Forall (fun s => sound_setup (mixed_name "identity") E (inspect_setup E d s)) (if tt_eqb (td_type d) T_mean then sources else rrc)).
    { apply Forall_forall. intros s Hs. apply F; [left; reflexivity|]. destruct (tt_eqb (td_type d) T_mean); auto. }
    destruct (inspect_spec E pow rt w d _ r GE Fs R) as (vs & V & ->).
    exists vs. cbn zeta. split; [exact V|]. set (srcs := if tt_eqb (td_type d) T_mean then sources else rrc) in *. clearbody srcs.
    unfold inspect_lines. cbn [fst snd].
    assert (W : (if asp then with_verdict false srcs vs else with_verdict true srcs vs) = with_verdict (negb asp) srcs vs) by (destruct asp; reflexivity).
    rewrite W. set (wrong := with_verdict (negb asp) srcs vs). clearbody wrong. unfold is_ok.
    assert (Tr : tt_eqb (td_type d) T_runs = true <-> td_type d = T_runs) by (destruct (td_type d); cbn; split; congruence).
    destruct wrong as [|x l]; [left; split; [left; reflexivity|reflexivity]|].
    destruct (tt_eqb (td_type d) T_runs && negb asp) eqn:B.
    + apply andb_true_iff in B. destruct B as [B1 B2]. apply Tr in B1. apply negb_true_iff in B2. destruct (Nat.eqb_spec (length (x :: l)) 4) as [E4|E4].
      * left. split; [right; auto|reflexivity].
      * right. split; [discriminate|]. split; [intros (_ & _ & C); contradiction|reflexivity].
    + right. split; [discriminate|]. split; [|reflexivity]. intros (C1 & C2 & _). rewrite C2 in B. apply Tr in C1. rewrite C1 in B. discriminate.
Qed.
Print Assumptions C72_lines.

(* Finding: on the sources that should fail, the mean test is reported as PASS whatever the sources are, because no
   source ever has a passing verdict (it has no results at 2^25 samples). *)
Theorem C72_mean_vacuous : forall E pow rt w d sources r, good_env E pow rt -> td_type d = T_mean ->
  Forall (fun s => sound_setup (mixed_name "identity") E (own_run E d s)) sources ->
  inspect_test E w d sources r -> inspect_lines d false r = [LinePass (td_name d)].
Proof.
  try unfold block; change own_run with inspect_setup.
  intros E pow rt w d sources r GE Ht F H. destruct (inspect_spec E pow rt w d sources r GE F H) as (vs & J & ->). unfold inspect_lines. cbn [fst].
  assert (Z0 : with_verdict true sources vs = []).
  { clear H. induction J as [|s v ss vs (p & br & En) J IH]; [reflexivity|]. inversion F as [|? ? F1 F2]; subst. cbn [with_verdict]. rewrite (IH F2).
    destruct (mean_ended _ E pow rt w _ p br v GE F1) as [(-> & _)|(-> & _)]; [cbn; rewrite Ht; reflexivity|cbn; lia|exact En|reflexivity|reflexivity]. }
  rewrite Z0. reflexivity.
Qed.
Print Assumptions C72_mean_vacuous.
Example C72_instance : good_env demo_env (fun x _ => x) demo_tests /\
  (forall d s, In d (e_defs demo_env) -> sound_setup (mixed_name "identity") demo_env (own_run demo_env d s)) /\
  (exists r, inspect_test demo_env 32 (nth 2 (e_defs demo_env) (mkdef T_mean None None "")) (s_mixer_sources demo_subjects) r) /\
  Forall (fun x => sound_setup (mixed_name (ts_name x)) demo_env x) (per_test_setups demo_env demo_subjects T_runs).
Proof.
  try unfold block; change own_run with inspect_setup.
  split; [exact demo_good|]. assert (S : forall d s, sound_setup (mixed_name "identity") demo_env (inspect_setup demo_env d s)) by (intros; apply demo_sound; cbn; (reflexivity || lia)).
  split; [intros; apply S|]. split; [|cbn -[mixed_name]; repeat (apply Forall_cons; [apply demo_sound; cbn; (reflexivity || lia)|]); apply Forall_nil]. apply (C72_defined _ _ _ 32 _ _ demo_good). apply Forall_forall. intros; apply S.
Qed.

(* ---- C73: the fitness of the search ---- *)
(* The score of a run that ended at 2^p lies between stop - p and stop - p + 2: lower is better. *)
Theorem C73_range : forall E pow rt w setup score, good_env E pow rt -> sound_setup (mixed_name (ts_name setup)) E setup ->
  fitness_test E w setup score ->
  exists x p br v, score = Ok x /\ ended (mixed_name (ts_name setup)) E w setup p br v /\ is_finite x = true /\
    (IZR (ts_stop setup - Z.of_N p) <= dval x <= IZR (ts_stop setup - Z.of_N p) + 2)%R.
Proof.
  intros E pow rt w setup score GE SS (calls & out & R & ->). pose proof SS as (_ & _ & S0 & S1 & S2 & _).
  destruct (run_total _ E w (inspect_callback E) setup tt SS) as [_ NU].
  { intros [] r b k Hk Hr He. destruct (sound_built _ _ _ _ _ _ SS Hr He) as (h & B & _). destruct (verdict_ok E pow rt h r GE B) as (ras & Er & C).
    assert (V : exists v, battery_verdict (e_libs E) r = Ok v) by (destruct C as [(_ & _ & V)|(_ & _ & _ & q & _ & _ & V)]; eauto). destruct V as [v V].
    unfold inspect_callback. rewrite V. cbn [obind]. eauto. }
  destruct out as [[br []]|]; [|exfalso; apply (NU _ R)].
  destruct (run_ended _ E pow rt w _ _ _ _ _ _ GE SS (inspect_follows E) R) as (p & v & ret & En & _ & _). pose proof En as (E1 & E2 & _).
  destruct (sound_built _ _ _ _ _ _ SS E1 E2) as (h & B & _). destruct (evaluate_fields _ _ _ _ _ _ E2) as [_ Nn].
  destruct (score_ok E pow rt h br p (ts_stop setup) GE B Nn) as (x & Ex & Fx & Rx); [lia|]. exists x, p, br, v. cbn [obind fst]. auto.
Qed.
Print Assumptions C73_range.

(* So a run that gets three powers further always scores lower, and one that gets two powers further never higher. *)
Theorem C73_further_is_better : forall E E' pow rt pow' rt' h h' br br' p p' stop x x', good_env E pow rt -> good_env E' pow' rt' ->
  built_from h br -> built_from h' br' -> br_n br = 2 ^ p -> br_n br' = 2 ^ p' -> (Z.of_N p <= stop < 64)%Z -> (Z.of_N p' <= stop)%Z ->
  get_score E br stop = Ok x -> get_score E' br' stop = Ok x' ->
  (p' + 3 <= p -> (dval x < dval x')%R) /\ (p' + 2 <= p -> (dval x <= dval x')%R).
Proof.
  intros E E' pow rt pow' rt' h h' br br' p p' stop x x' G G' B B' N1 N2 H1 H2 S S'.
  destruct (score_ok E pow rt h br p stop G B N1 H1) as (y & Ey & _ & Ry). destruct (score_ok E' pow' rt' h' br' p' stop G' B' N2) as (y' & Ey' & _ & Ry'); [lia|].
  rewrite S in Ey. rewrite S' in Ey'. injection Ey as <-. injection Ey' as <-. split; intro H.
  - assert (L : (IZR (stop - Z.of_N p + 3) <= IZR (stop - Z.of_N p'))%R) by (apply IZR_le; lia). rewrite plus_IZR in L. lra.
  - assert (L : (IZR (stop - Z.of_N p + 2) <= IZR (stop - Z.of_N p'))%R) by (apply IZR_le; lia). rewrite plus_IZR in L. lra.
Qed.
Print Assumptions C73_further_is_better.

(* One power further is not always better: a battery that fails at 2^20 samples with a single p-value 0 scores 7, one
   that fails at 2^19 with p-values 0, 1/4, 1/2, 3/4 scores 6.5 (lower is better). *)
Definition demo_result (n : N) (p : double) : test_result := mktr "s" "m" n (mkkey T_gap "") (mkstat Z_score d0 p d0).
Definition further : list test_result := [demo_result (2 ^ 20) d0].
Definition nearer : list test_result := map (demo_result (2 ^ 19)) [d0; dconst 1 (-2); dconst 1 (-1); dconst 3 (-2)].
Lemma score_single E pow rt h br k v p stop : good_env E pow rt -> built_from h br -> br_results br = [(k, v)] -> br_n br = 2 ^ p -> p < 64 ->
  let D := ks_distance (l_sort_double (e_libs E)) (to_p_values v) in get_score E br stop = Ok (dadd (dadd (double_of_Z (stop - Z.of_N p)) D) D).
Proof.
  intros GE B Hr Hn Hp D. pose proof GE as (S & X & G & G2 & _). destruct (built_ok h br B) as [O _].
  unfold get_score. rewrite Hn, power_ok by (exact G2 || exact Hp). cbn [obind].
  destruct (get_analysis_ok (e_libs E) br S X O) as (ras & Er & _ & _ & _ & _ & rss & F & P). rewrite Er. cbn [obind]. rewrite Hr in F. rewrite Hr. cbn [flat_map snd]. rewrite app_nil_r.
  inversion F as [|? ? ? ? F1 F2]; subst. inversion F2; subst. cbn [concat] in P. rewrite app_nil_r in P.
  assert (V : forall ra, In ra ras -> ra_results ra = v).
  { intros ra Hra. apply (Permutation_in _ P) in Hra. unfold analyse_entry in F1. cbn [snd fst] in F1. destruct (get_worst_result v); [|discriminate]. injection F1 as <-. destruct Hra as [<-|[<-|[]]]; reflexivity. }
  destruct ras as [|ra ras].
  - exfalso. unfold analyse_entry in F1. cbn [snd fst] in F1. destruct (get_worst_result v); [|discriminate]. injection F1 as <-. apply Permutation_nil in P. discriminate.
  - rewrite (V ra) by (left; reflexivity). reflexivity.
Qed.
Lemma valid_quarters : Forall valid01 [d0; dconst 1 (-2); dconst 1 (-1); dconst 3 (-2)].
Proof.
  repeat (apply Forall_cons); try apply Forall_nil; try apply valid01_d0; (split; [reflexivity|]); unfold dval; cbn.
  - change (B2R _) with (F2R (Float radix2 4503599627370496 (-54))). unfold F2R; cbn. lra.
  - change (B2R _) with (F2R (Float radix2 4503599627370496 (-53))). unfold F2R; cbn. lra.
  - change (B2R _) with (F2R (Float radix2 6755399441055744 (-53))). unfold F2R; cbn. lra.
Qed.
Theorem C73_one_power_refuted : ~ forall E pow rt h h' br br' p p' stop x x', good_env E pow rt ->
  built_from h br -> built_from h' br' -> br_n br = 2 ^ p -> br_n br' = 2 ^ p' -> (Z.of_N p <= stop < 64)%Z -> p' + 1 <= p ->
  get_score E br stop = Ok x -> get_score E br' stop = Ok x' -> (dval x <= dval x')%R.
Proof.
  intros H. pose proof valid_quarters as V.
  set (m1 := fold_left (fun m r => map_add r m) further []). set (m2 := fold_left (fun m r => map_add r m) nearer []).
  assert (B1 : built_from further (mkbr "m" (2 ^ 20) 1 64 m1)) by (split; [reflexivity|]; split; [apply Forall_cons; [exact (Forall_inv V)|apply Forall_nil]|reflexivity]).
  assert (B2 : built_from nearer (mkbr "m" (2 ^ 19) 1 64 m2)) by (split; [reflexivity|]; split; [unfold nearer; apply Forall_map; exact V|reflexivity]).
  assert (E1 : m1 = [(mkkey T_gap "", further)]) by reflexivity. assert (E2 : m2 = [(mkkey T_gap "", nearer)]) by reflexivity.
  pose proof (score_single demo_env _ _ _ _ _ _ 20 25 demo_good B1 E1 eq_refl eq_refl) as S1. pose proof (score_single demo_env _ _ _ _ _ _ 19 25 demo_good B2 E2 eq_refl eq_refl) as S2. cbn zeta in S1, S2.
  pose proof (H demo_env _ _ _ _ _ _ 20 19 25%Z _ _ demo_good B1 B2 eq_refl eq_refl ltac:(cbn; lia) ltac:(lia) S1 S2) as L. clear - L.
  set (a := dadd (dadd (double_of_Z (25 - Z.of_N 20)) (ks_distance (l_sort_double (e_libs demo_env)) (to_p_values further))) (ks_distance (l_sort_double (e_libs demo_env)) (to_p_values further))) in L.
  set (b := dadd (dadd (double_of_Z (25 - Z.of_N 19)) (ks_distance (l_sort_double (e_libs demo_env)) (to_p_values nearer))) (ks_distance (l_sort_double (e_libs demo_env)) (to_p_values nearer))) in L.
  assert (Fa : fin a) by (vm_compute; reflexivity). assert (Fb : fin b) by (vm_compute; reflexivity).
  assert (D : dlt b a = true) by (vm_compute; reflexivity). apply dlt_iff in D; [|exact Fb|exact Fa]. lra.
Qed.
Print Assumptions C73_one_power_refuted.

(* An empty range of powers: nothing is evaluated, the number of samples is 0, and converting the logarithm to an
   integer is undefined behaviour. *)
Theorem C73_empty_range : forall E w setup score, e_log2 E d0 = B754_infinity true -> (ts_stop setup < ts_start setup)%Z ->
  fitness_test E w setup score -> score = UB.
Proof.
  intros E w setup score HL Hr (calls & out & R & ->). inversion R; subst; try lia. cbn [obind fst]. unfold get_score, power_of_two. cbn [empty_result br_n].
  replace (double_of_N 0) with d0 by (apply B2SF_inj; vm_compute; reflexivity). rewrite HL. reflexivity.
Qed.
Print Assumptions C73_empty_range.

(* ---- C74: the exhaustive search ---- *)
(* 12 * 12 * 11 distinct triples of shifts; every one gives a bijection of the 32-bit words. *)
Theorem C74_mixers : length exhaust_constants = 1584%nat /\ NoDup exhaust_constants /\
  (forall a b c, In (a, b, c) exhaust_constants <-> 9 <= a < 21 /\ 9 <= b < 21 /\ 9 <= c < 20) /\
  Forall (fun c => word_bijection 32 (exhaust_mixer c)) exhaust_constants.
Proof.
  split; [reflexivity|].
  assert (R : forall a b x, In x (from_to a b) <-> a <= x < b).
  { intros a b x. unfold from_to. rewrite in_map_iff. split.
    - intros (i & <- & Hi). apply in_seq in Hi. lia.
    - intros H. exists (N.to_nat (x - a)). split; [lia|]. apply in_seq. lia. }
  assert (I : forall a b c, In (a, b, c) exhaust_constants <-> 9 <= a < 21 /\ 9 <= b < 21 /\ 9 <= c < 20).
  { intros a b c. unfold exhaust_constants. rewrite in_flat_map. split.
    - intros (x & Hx & H). apply in_flat_map in H. destruct H as (y & Hy & H). apply in_map_iff in H. destruct H as (z & Hz & H). injection Hz as -> -> ->. rewrite R in Hx, Hy, H. auto.
    - intros (H1 & H2 & H3). exists a. split; [apply R, H1|]. apply in_flat_map. exists b. split; [apply R, H2|]. apply in_map. apply R, H3. }
  split; [|split; [exact I|apply Forall_forall; intros c Hc; apply exhaust_bij, Hc]].
  assert (DB : forall l : list (N * N * N), (fix nd l := match l with [] => true | x :: l' => negb (existsb (fun y => (fst (fst x) =? fst (fst y)) && (snd (fst x) =? snd (fst y)) && (snd x =? snd y)) l') && nd l' end) l = true -> NoDup l).
  { induction l as [|x l IH]; [constructor|]. intros H. apply andb_true_iff in H. destruct H as [H1 H2]. constructor; [|apply IH, H2]. intros C. apply negb_true_iff in H1.
    assert (T : existsb (fun y => (fst (fst x) =? fst (fst y)) && (snd (fst x) =? snd (fst y)) && (snd x =? snd y)) l = true) by (apply existsb_exists; exists x; split; [exact C|rewrite !N.eqb_refl; reflexivity]). congruence. }
  apply DB. vm_compute. reflexivity.
Qed.
Print Assumptions C74_mixers.

(* Printed are the 21 highest powers reached, in decreasing order. *)
Theorem C74_printed : forall E pow rt sort sources printed, good_env E pow rt ->
  (forall l, Permutation l (sort l) /\ StronglySorted (fun a b => b <= a) (sort l)) ->
  (forall c, In c exhaust_constants -> sound_setup (mixed_name "xm2x") E (mixer_setup E sources ("xm2x"%string, exhaust_mixer c) 10 27)) ->
  exhaust_prints E sort sources printed ->
  exists powers rest, Forall2 (fun c p => exists br v, ended (mixed_name "xm2x") E 32 (mixer_setup E sources ("xm2x"%string, exhaust_mixer c) 10 27) p br v) exhaust_constants powers /\
    Permutation powers (printed ++ rest) /\ length printed = 21%nat /\ StronglySorted (fun a b => b <= a) printed /\
    forall a b, In a printed -> In b rest -> b <= a.
Proof.
  intros E pow rt sort sources printed GE Hs F (brs & powers & J & O & ->). destruct (Hs powers) as [P S].
  assert (Q : Forall2 (fun c p => exists br v, ended (mixed_name "xm2x") E 32 (mixer_setup E sources ("xm2x"%string, exhaust_mixer c) 10 27) p br v) exhaust_constants powers).
  { clear S P. revert powers O. assert (F' : Forall (fun c => sound_setup (mixed_name "xm2x") E (mixer_setup E sources ("xm2x"%string, exhaust_mixer c) 10 27)) exhaust_constants) by (apply Forall_forall; exact F).
    revert J F'. clear F. generalize exhaust_constants. intros cs J. induction J as [|c br cs brs (calls & R) J IH]; intros F powers O; cbn [omapM] in O.
    - injection O as <-. constructor.
    - inversion F as [|? ? F1 F2]; subst. destruct (run_ended _ E pow rt 32 _ _ _ _ _ _ GE F1 (inspect_follows E) R) as (p & v & ret & En & Hp & _). pose proof En as (_ & E2 & _).
      destruct (evaluate_fields _ _ _ _ _ _ E2) as [_ Nn]. rewrite Nn, power_ok in O by (apply GE || exact Hp). cbn [obind] in O. destruct (omapM _ brs) as [ps|]; [|discriminate]. cbn [obind] in O. injection O as <-.
      constructor; [eauto|apply IH; [exact F2|reflexivity]]. }
  exists powers, (skipn 21 (sort powers)). split; [exact Q|]. split; [rewrite firstn_skipn; exact P|].
  assert (L : length (sort powers) = 1584%nat).
  { rewrite <- (Permutation_length P), <- (Forall2_len _ _ _ Q). apply C74_mixers. }
  split; [rewrite firstn_length, L; reflexivity|].
  rewrite <- (firstn_skipn 21 (sort powers)) in S. clear - S. revert S. generalize (firstn 21 (sort powers)) (skipn 21 (sort powers)). intros l1 l2. induction l1 as [|x l1 IH]; cbn [app]; intros S.
  - split; [constructor|]. intros a b [].
  - apply StronglySorted_inv in S. destruct S as [S1 S2]. destruct (IH S1) as [I1 I2]. apply Forall_app in S2. destruct S2 as [S2 S3]. split; [constructor; assumption|].
    intros a b [<-|Ha] Hb; [|apply I2; assumption]. rewrite Forall_forall in S3. apply S3, Hb.
Qed.
Print Assumptions C74_printed.

(* ---- C75: the program ---- *)
(* The exit code is 1 exactly if there are not two arguments or the command is unknown; then nothing is run. *)
Theorem C75_exit_code : forall throws args, (snd (main throws args) = 0 \/ snd (main throws args) = 1) /\
  (snd (main throws args) = 0 <-> exists root command, args = [root; command] /\ In command ["-test"; "-search"; "-inspect-test"; "-ppm"; "-exhaust"]%string) /\
  (snd (main throws args) = 1 -> fst (main throws args) = []).
Proof.
  intros throws args. destruct args as [|root [|command [|x l]]]; cbn [main];
    try (cbn; split; [right; reflexivity|]; split; [|intros; reflexivity]; split; [discriminate|]; intros (a & b & E & _); discriminate).
  assert (K : command_tasks command <> None <-> In command ["-test"; "-search"; "-inspect-test"; "-ppm"; "-exhaust"]%string).
  { unfold command_tasks. cbn [In]. destruct (String.eqb_spec command "-test") as [->|N1]; [split; [auto|discriminate]|].
    destruct (String.eqb_spec command "-search") as [->|N2]; [split; [auto|discriminate]|]. destruct (String.eqb_spec command "-inspect-test") as [->|N3]; [split; [auto|discriminate]|].
    destruct (String.eqb_spec command "-ppm") as [->|N4]; [split; [auto 6|discriminate]|]. destruct (String.eqb_spec command "-exhaust") as [->|N5]; [split; [auto 7|discriminate]|].
    split; [intros C; contradiction|]. intros [C|[C|[C|[C|[C|[]]]]]]; symmetry in C; contradiction. }
  destruct (command_tasks command) as [ts|] eqn:T; cbn [fst snd].
  - split; [left; reflexivity|]. split; [|discriminate]. split; [|reflexivity]. intros _. exists root, command. split; [reflexivity|]. apply K. discriminate.
  - split; [right; reflexivity|]. split; [|reflexivity]. split; [discriminate|]. intros (a & b & E & I). injection E as <- <-. apply K in I. contradiction.
Qed.
Print Assumptions C75_exit_code.
(* A command runs its parts in order; the first part that throws a runtime error ends the run, with exit code 0. *)
Theorem C75_parts : forall throws root,
  (forall command ts, command_tasks command = Some ts -> exists k, fst (main throws [root; command]) = firstn k ts /\
     (k = length ts \/ exists t, nth_error ts (k - 1) = Some t /\ (0 < k)%nat /\ throws t = true) /\
     (forall i t, (S i < k)%nat -> nth_error ts i = Some t -> throws t = false)) /\
  fst (main (fun _ => false) [root; "-test"%string]) = map TestTask [8; 16; 32; 64] /\
  fst (main (fun _ => false) [root; "-inspect-test"%string]) = map InspectTask [8; 16; 32; 64] ++ map PerTestTask [32; 64] ++ map SpeedTask [32; 64].
Proof.
  intros throws root. split; [|split; reflexivity]. intros command ts T. cbn [main]. rewrite T. cbn [fst]. clear T. induction ts as [|t ts (k & IH1 & IH2 & IH3)].
  - exists 0%nat. split; [reflexivity|]. split; [left; reflexivity|]. intros i t H. lia.
  - cbn [run_tasks]. destruct (throws t) eqn:Et.
    + exists 1%nat. split; [reflexivity|]. split; [right; exists t; cbn; auto|]. intros i t' H. lia.
    + exists (S k). split; [cbn; rewrite IH1; reflexivity|]. split.
      * destruct IH2 as [->|(t' & A & B & C)]; [left; reflexivity|]. right. exists t'. split; [|split; [lia|exact C]]. replace (S k - 1)%nat with (S (k - 1)) by lia. exact A.
      * intros [|i] t' H Hn; cbn in Hn; [injection Hn as <-; exact Et|]. apply (IH3 i t'); [lia|exact Hn].
Qed.
Print Assumptions C75_parts.
Example C75_instance : main (fun t => match t with TestTask 16 => true | _ => false end) ["out/"; "-test"]%string = ([TestTask 8; TestTask 16], 0).
Proof. reflexivity. Qed.
Example C73_instance : exists score, fitness_test demo_env 32 (mixer_setup demo_env (s_mixer_sources demo_subjects) ("id"%string, fun x => x) 10 12) score.
Proof.
  set (su := mixer_setup demo_env _ _ 10 12). assert (SS : sound_setup (mixed_name (ts_name su)) demo_env su) by (apply demo_sound; cbn; (reflexivity || lia)).
  destruct (run_total _ demo_env 32 (inspect_callback demo_env) su tt SS) as [(calls & r & st & R) _].
  { intros [] r b k Hk Hr He. destruct (sound_built _ _ _ _ _ _ SS Hr He) as (h & B & _). destruct (verdict_ok _ _ _ h r demo_good B) as (ras & Er & C).
    assert (V : exists v, battery_verdict (e_libs demo_env) r = Ok v) by (destruct C as [(_ & _ & V)|(_ & _ & _ & q & _ & _ & V)]; eauto). destruct V as [v V].
    unfold inspect_callback. rewrite V. cbn [obind]. eauto. }
  eexists. exists calls, (Ok (r, st)). split; [exact R|reflexivity].
Qed.
Example C74_instance : forall c, In c exhaust_constants ->
  sound_setup (mixed_name "xm2x") demo_env (mixer_setup demo_env (s_mixer_sources demo_subjects) ("xm2x"%string, exhaust_mixer c) 10 27).
Proof. intros c _. apply demo_sound; cbn; (reflexivity || lia). Qed.
