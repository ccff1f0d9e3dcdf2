(* Proofs about the test report. *)
From Coq Require Import String Ascii Reals Lra Permutation Sorted.
From Verif Require Import Base FloatModel FloatLemmas StreamModel JobsModel JobsProofs ResultModel ResultSpec ResultProofs AnalysisProofs
  EvaluateModel EvaluateSpec EvalProofs StrengthProofs ProtocolProofs FormatModel FormatSpec FormatProofs TextModel TextSpec TextProofs CommandModel CommandSpec CommandProofs.
Open Scope N_scope.

Lemma report_cases E path hd ops br last ops' ret : report_callback E path hd ops br last = Ok (ops', ret) ->
  exists v, battery_verdict (e_libs E) br = Ok v /\ ret = negb last && passed v /\
    if negb ret && hd then exists line, report_line E br (passed v) = Ok line /\ ops' = ops ++ [Append path line] else ops' = ops.
Proof.
  unfold report_callback. destruct (result_callback (e_libs E) true hd (mklog [] []) br last) as [[log' ret']|] eqn:R; [|discriminate]. cbn [obind fst snd].
  destruct (callback_cases _ _ _ _ _ _ _ _ R) as (v & V & Er & Ed & _). cbn [cl_done] in Ed. rewrite app_nil_r in Ed. rewrite Ed.
  intros H. exists v. split; [exact V|]. destruct (negb ret' && hd) eqn:B; cbn [rev app omapM obind fst snd] in H.
  - destruct (report_line E br (passed v)) as [line|]; [|discriminate]. cbn [obind map] in H. injection H as <- <-. split; [exact Er|]. rewrite B. eauto.
  - cbn [map] in H. rewrite app_nil_r in H. injection H as <- <-. split; [exact Er|]. rewrite B. reflexivity.
Qed.
Lemma report_follows E path hd : follows E (report_callback E path hd).
Proof.
  split.
  - intros ops br last ops' H. destruct (report_cases _ _ _ _ _ _ _ _ H) as (v & _ & _ & X). exact X.
  - intros ops br ops' ret H. destruct (report_cases _ _ _ _ _ _ _ _ H) as (v & V & R & _). exists v. split; [exact V|]. rewrite R. cbn. apply passed_failing.
Qed.

Lemma key_string_nonempty pow rt k : key_to_string (get_tests pow rt) k <> ""%string.
Proof. unfold key_to_string. destruct (k_type k); discriminate. Qed.
Lemma filter_all_true {B} (f : B -> bool) l : Forall (fun x => f x = true) l -> filter f l = l.
Proof. induction 1 as [|x l H _ IH]; cbn; [reflexivity|]. rewrite H, IH. reflexivity. Qed.
Lemma tx_nil s : tx s = [] -> s = ""%string.
Proof. destruct s; [reflexivity|discriminate]. Qed.
Lemma line_ok E pow rt mixed w setup p br v : good_env E pow rt -> sound_setup mixed E setup -> p < 64 -> (ts_start setup <= Z.of_N p <= ts_stop setup)%Z ->
  evaluate mixed (e_defs E) w (2 ^ p) setup br -> battery_verdict (e_libs E) br = Ok v ->
  exists ras failed, get_analysis (e_libs E) br = Ok ras /\ get_failed_tests (e_libs E) (e_defs E) ras = Ok failed /\
    (failed = [] <-> failing v = false) /\
    report_line E br (passed v) = Ok (md_escaped (tx (ts_name setup)) ++ tx "|" ++ tx (power_text v p) ++ tx "|" ++ intercalate (tx ", ") (map tx failed) ++ tx nl).
Proof.
  intros GE SS Hp Hr He V. destruct (sound_built _ _ _ _ _ _ SS Hr He) as (h & B & _). pose proof GE as (S & X & G & G2 & D & T).
  destruct (verdict_ok E pow rt h br GE B) as (ras & Er & C). destruct (evaluate_fields _ _ _ _ _ _ He) as [En Em].
  destruct (failed_built (e_libs E) pow rt h br ras S X G B Er) as (ss & ms & Ef & _ & _ & _ & Hss & Hms).
  exists ras, (ss ++ ms). rewrite D. split; [exact Er|]. split; [exact Ef|].
  assert (Hf : ss ++ ms = [] <-> failing v = false).
  { destruct C as [(C1 & C2 & C3)|(C1 & ra & rest & q & C2 & C3 & C4)].
    - rewrite V in C3. injection C3 as ->. cbn. split; [reflexivity|intros _]. subst ras. cbn in Ef. injection Ef as <-. reflexivity.
    - rewrite V in C4. injection C4 as ->. assert (h <> []) by (intros ->; destruct B as [B _]; rewrite B in C1; apply C1; reflexivity).
      pose proof (failed_verdict (e_libs E) pow rt h br ras S X G B H Er) as K. rewrite V, Ef in K. split.
      + intros Z. rewrite Z in K. destruct K as [_ K]. specialize (K eq_refl). injection K as ->. reflexivity.
      + destruct q; [|discriminate]. intros _. destruct K as [K _]. specialize (K eq_refl). injection K as ->. reflexivity. }
  split; [exact Hf|]. unfold report_line. rewrite En, Em, D.
  rewrite escape_ok by lia. cbn [obind]. rewrite (power_ok _ _ G2 Hp). cbn [obind]. rewrite Er. cbn [obind]. rewrite Ef. cbn [obind].
  rewrite join_ok, (filter_all_true nonempty (map tx (ss ++ ms))).
  - assert (Ta : forall a b, tx (a ++ b)%string = tx a ++ tx b).
    { clear. induction a as [|c a IH]; intros b; cbn; [reflexivity|]. rewrite IH. reflexivity. }
    unfold power_text. rewrite Ta, passed_failing, <- !app_assoc. destruct (failing v); reflexivity.
  - rewrite Forall_forall; intros t Ht; apply in_map_iff in Ht; destruct Ht as (s & <- & Hs).
    destruct (tx s) eqn:Es; [exfalso|reflexivity]; apply tx_nil in Es; subst s; apply in_app_iff in Hs; destruct Hs as [Hs|Hs];
    [apply Hss in Hs; destruct Hs as (ra & _ & _ & _ & Hn); symmetry in Hn; revert Hn; apply key_string_nonempty
    |apply Hms in Hs; destruct Hs as (ra & _ & _ & _ & Hn & _); destruct (key_to_string (get_tests pow rt) (ra_key ra)); discriminate].
Qed.

(* ---- the whole report ---- *)
Lemma report_rows E pow rt w path setups : good_env E pow rt -> Forall (fun s => sound_setup (mixed_name (ts_name s)) E s) setups ->
  forall ops ops', run_setups E w (report_callback E path true) setups ops (Ok ops') ->
  exists rows, ops' = ops ++ map (Append path) rows /\ Forall2 (report_row E w) setups rows.
Proof.
  intros GE. induction 1 as [|s ss SS _ IH]; intros ops ops' R.
  - apply run_nil_inv in R. subst ops'. exists []. rewrite app_nil_r. split; [reflexivity|constructor].
  - destruct (run_cons_inv _ _ _ _ _ _ _ R) as (calls & r & st' & H2 & H5). destruct (run_ended _ E pow rt w _ s _ _ _ _ GE SS (report_follows E path true) H2) as (p & v & ret & En & Hp & Hcb).
    destruct (IH _ _ H5) as (rows & -> & Hr). pose proof En as (E1 & E2 & E3 & E4 & E5).
    destruct (report_cases _ _ _ _ _ _ _ _ Hcb) as (v' & V' & Rt & X). rewrite E3 in V'. injection V' as <-.
    assert (Rf : ret = false).
    { rewrite Rt. destruct E4 as [->|E4]; [apply andb_false_r|]. rewrite E4, Z.eqb_refl. reflexivity. }
    rewrite Rf in X. cbn [negb andb] in X. destruct X as (line & L1 & ->).
    destruct (line_ok E pow rt _ w s p r v GE SS Hp E1 E2 E3) as (ras & failed & F1 & F2 & F3 & F4). rewrite F4 in L1. injection L1 as <-.
    eexists (_ :: rows). split; [cbn [map]; rewrite <- app_assoc; reflexivity|]. constructor; [|exact Hr].
    exists p, r, v, ras, failed. split; [exact En|]. split; [exact F1|]. split; [exact F2|]. split; [exact F3|]. reflexivity.
Qed.
Lemma report_defined E pow rt w path hd setups : good_env E pow rt -> Forall (fun s => sound_setup (mixed_name (ts_name s)) E s) setups ->
  forall ops, (exists ops', run_setups E w (report_callback E path hd) setups ops (Ok ops')) /\ ~ run_setups E w (report_callback E path hd) setups ops UB.
Proof.
  intros GE. induction 1 as [|s ss SS _ IH]; intros ops.
  - split; [eexists; constructor|]. intros R. inversion R.
  - destruct (run_total (mixed_name (ts_name s)) E w (report_callback E path hd) s ops SS) as [(calls & r & ops1 & H1) H2].
    { intros st r b k Hk Hr He. destruct (sound_built _ _ _ _ _ _ SS Hr He) as (h & B & _). destruct (verdict_ok E pow rt h r GE B) as (ras & Er & C).
      assert (V : exists v, battery_verdict (e_libs E) r = Ok v) by (destruct C as [(_ & _ & V)|(_ & _ & _ & q & _ & _ & V)]; eauto). destruct V as [v V].
      destruct (line_ok E pow rt _ w s k r v GE SS Hk Hr He V) as (ras' & failed & _ & _ & _ & F4).
      unfold report_callback, result_callback. rewrite V. cbn [obind fst snd cl_done].
      set (pr := match v with Some p => if b then negb b else p | None => negb b end). change (match v with Some p => p | None => true end) with (passed v).
      destruct (negb pr && hd); cbn [rev app omapM obind fst snd]; [rewrite F4|]; cbn [obind]; eauto. }
    destruct (IH ops1) as [(ops' & R) _]. split.
    + exists ops'. econstructor; eassumption.
    + intros R'. inversion R'; subst; [|eapply H2; eassumption].
      match goal with H : run_setups _ _ _ ss ?o UB |- _ => apply (proj2 (IH o)) in H; exact H end.
Qed.
Lemma debug_silent E w path setups : forall ops ops', run_setups E w (report_callback E path false) setups ops (Ok ops') -> Forall (fun s => (ts_start s <= ts_stop s)%Z) setups -> ops' = ops.
Proof.
  induction setups as [|s ss IH]; intros ops ops' R F; [apply run_nil_inv in R; exact R|].
  destruct (run_cons_inv _ _ _ _ _ _ _ R) as (calls & r & st' & H2 & H5). pose proof (Forall_inv F) as H3. pose proof (Forall_inv_tail F) as H6. rewrite (IH _ _ H5 H6).
  destruct (multi_pass_end _ _ _ _ _ _ _ _ H2 _ _ eq_refl H3 (proj1 (report_follows E path false))) as (p & ret & _ & _ & _ & Hcb & _).
  destruct (report_cases _ _ _ _ _ _ _ _ Hcb) as (v & _ & _ & X). rewrite andb_false_r in X. exact X.
Qed.

(* ---- what is on disk ---- *)
Lemma set_same d p c : set_file d p c p = Some c.
Proof. unfold set_file. rewrite String.eqb_refl. reflexivity. Qed.
Lemma set_other d p q c : q <> p -> set_file d p c q = d q.
Proof. intros H. unfold set_file. apply String.eqb_neq in H. rewrite H. reflexivity. Qed.
Lemma appends d path rows : forall c, d path = Some c -> 
  (fold_left apply_op (map (Append path) rows) d) path = Some (c ++ concat rows) /\
  forall q, q <> path -> (fold_left apply_op (map (Append path) rows) d) q = d q.
Proof.
  revert d. induction rows as [|r rows IH]; intros d c Hd; cbn [map fold_left concat].
  - rewrite app_nil_r. auto.
  - destruct (IH (apply_op d (Append path r)) (c ++ r)) as [I1 I2].
    { cbn. rewrite set_same, Hd. reflexivity. }
    split; [rewrite I1, <- app_assoc; reflexivity|]. intros q Hq. rewrite (I2 q Hq). cbn. apply set_other, Hq.
Qed.
Lemma report_done d path header rows k : let ops := Write path header :: map (Append path) rows in
  let d' := fold_left apply_op (firstn (S k) ops) d in
  d' path = Some (header ++ concat (firstn k rows)) /\ forall q, q <> path -> d' q = d q.
Proof.
  cbn zeta. cbn [firstn fold_left]. rewrite firstn_map. destruct (appends (apply_op d (Write path header)) path (firstn k rows) header) as [A B].
  { cbn. apply set_same. }
  split; [exact A|]. intros q Hq. rewrite (B q Hq). cbn. apply set_other, Hq.
Qed.
Lemma report_crash d path header rows d' : crash_state d (Write path header :: map (Append path) rows) d' ->
  (forall q, q <> path -> d' q = d q) /\
  (d' path = d path \/ (exists j, d' path = Some (firstn j header)) \/
   exists k j, (k <= length rows)%nat /\ d' path = Some (header ++ concat (firstn k rows) ++ firstn j (nth k rows []))).
Proof.
  assert (K : forall i, let d1 := fold_left apply_op (firstn (S i) (Write path header :: map (Append path) rows)) d in
     (forall q, q <> path -> d1 q = d q) /\ exists k j, (k <= length rows)%nat /\ d1 path = Some (header ++ concat (firstn k rows) ++ firstn j (nth k rows []))).
  { intros i. destruct (report_done d path header rows i) as [A B]. split; [exact B|]. exists (Nat.min i (length rows)), 0%nat. split; [lia|].
    cbn zeta. rewrite A. cbn [firstn]. rewrite app_nil_r. do 3 f_equal. destruct (le_lt_dec i (length rows)).
    - f_equal. lia.
    - rewrite firstn_all2 by lia. rewrite firstn_all2 by lia. reflexivity. }
  intros ([|i] & [-> | (o & k & Ho & ->)]).
  - split; [reflexivity|left; reflexivity].
  - cbn in Ho. injection Ho as <-. cbn. split; [intros q Hq; apply set_other, Hq|]. right. left. exists k. apply set_same.
  - destruct (K i) as [K1 K2]. split; [exact K1|]. right. right. exact K2.
  - cbn [nth_error] in Ho. rewrite nth_error_map in Ho. destruct (nth_error rows i) as [r|] eqn:Er; [|discriminate]. injection Ho as <-.
    destruct (report_done d path header rows i) as [A B]. cbn zeta in A, B. cbn [cut_op apply_op]. split.
    + intros q Hq. rewrite set_other by exact Hq. apply B, Hq.
    + right. right. exists i, k. assert (i < length rows)%nat by (apply nth_error_Some; congruence). split; [lia|].
      rewrite set_same, A, <- app_assoc, (nth_error_nth _ _ _ Er). reflexivity.
Qed.
