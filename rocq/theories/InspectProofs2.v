(* More proofs about the commands: which setups are sound, the inspection of single tests, the fitness of the search,
   the exhaustive search. *)
From Coq Require Import String Ascii Reals Lra Permutation Sorted.
From Verif Require Import Base FloatModel FloatLemmas StreamModel JobsModel JobsProofs ResultModel ResultSpec ResultProofs AnalysisProofs KsProofs
  EvaluateModel EvaluateSpec EvalProofs StrengthProofs ProtocolProofs FormatModel FormatSpec FormatProofs TextModel TextSpec TextProofs CommandModel CommandSpec CommandProofs InspectProofs
  BitwiseSpec MixerModel MixerProofs.
Open Scope N_scope.

(* ---- sound setups ---- *)
Lemma attributed_len sn nm n t subs : (length (attributed sn nm n t subs) <= length subs)%nat.
Proof. induction subs as [|[name [st|]] subs IH]; cbn; lia. Qed.
Lemma attributed_valid sn nm n t k subs : valid_subs k subs -> Forall (fun r => valid_stat (tr_stats r)) (attributed sn nm n t subs).
Proof.
  intros [_ F]. induction F as [|[name [st|]] subs H F IH]; cbn; [constructor| |exact IH]. constructor; assumption.
Qed.
Lemma valid_nil k : valid_subs k [].
Proof. split; [cbn; lia|constructor]. Qed.
Lemma limit_valid k lim (t : stream_test) : (forall n src, valid_subs k (t n src)) -> forall n src, valid_subs k (limit_stream lim t n src).
Proof. intros H n src. unfold limit_stream. destruct (lim n) as [[m|]|]; [apply H|apply valid_nil|apply valid_nil]. Qed.
Lemma limit_mixer_valid k lim (t : mixer_test) : (forall n src mix, valid_subs k (t n src mix)) -> forall n src mix, valid_subs k (limit_mixer lim t n src mix).
Proof. intros H n src mix. unfold limit_mixer. destruct (lim n) as [[m|]|]; [apply H|apply valid_nil|apply valid_nil]. Qed.
(* [d] gives valid results for numbers of samples in P, sources in Q and mixers in R *)
Definition valid_def (k : nat) (P : N -> Prop) (Q : source -> Prop) (R : (N -> N) -> Prop) (d : test_definition) : Prop :=
  (forall t, td_stream d = Some t -> forall n src, P n -> Q src -> valid_subs k (t n src)) /\
  (forall t, td_mixer d = Some t -> forall n src mix, P n -> Q src -> R mix -> valid_subs k (t n src mix)).
Lemma get_tests_valid k pow rt : valid_tests k rt -> Forall (valid_def k (fun _ => True) (fun _ => True) (fun _ => True)) (get_tests pow rt).
Proof.
  intros [A B]. repeat match goal with H : Forall _ (_ :: _) |- _ => inversion_clear H end.
  unfold get_tests. cbn zeta. repeat (apply Forall_cons); [..|apply Forall_nil]; (split; cbn [td_stream td_mixer]; intros t E; [|]; try discriminate; injection E as <-; intros; auto using limit_valid, limit_mixer_valid).
Qed.
Lemma registered_in defs t d : registered defs t = Some d -> In d defs.
Proof. induction defs as [|x defs IH]; cbn; [discriminate|]. destruct (test_type_dec (td_type x) t); [intros E; injection E as ->; auto|auto]. Qed.
Lemma sound_of_defs k P Q R mixed E setup : Forall (valid_def k P Q R) (e_defs E) ->
  (forall p, (ts_start setup <= Z.of_N p <= ts_stop setup)%Z -> P (2 ^ p)) -> Forall Q (ts_sources setup) ->
  (forall m, ts_mix setup = Some m -> R m /\ forall src nm, Q src -> Q (mksrc nm (stream_from_mixer (src_stream src) m))) ->
  1 <= ts_max_threads setup ->
  (0 <= ts_start setup)%Z -> (ts_start setup <= ts_stop setup)%Z -> (ts_stop setup < 64)%Z ->
  N.of_nat (length (ts_tests setup)) * N.of_nat (length (ts_sources setup)) * 2 * (1 + N.of_nat k) < 2 ^ 32 ->
  sound_setup mixed E setup.
Proof.
  intros VD HP HQ HR Hth H0 H1 H2 Hn. rewrite Forall_forall in VD.
  set (ns := N.of_nat (length (ts_sources setup))) in *.
  split; [exact Hth|]. split; [|split; [exact H0|]; split; [exact H1|]; split; [exact H2|]].
  - assert (J : job_count (e_defs E) setup <= N.of_nat (length (ts_tests setup)) * (ns * 2)).
    { unfold job_count. fold ns. generalize (ts_tests setup). intro ts. induction ts as [|t ts IH]; cbn [map fold_right length]; [lia|].
      assert (X : match registered (e_defs E) t with None => 0 | Some d => ns * ((match td_mixer d, ts_mix setup with Some _, Some _ => 1 | _, _ => 0 end) + (match td_stream d with Some _ => 1 | None => 0 end)) end <= ns * 2).
      { destruct (registered (e_defs E) t) as [d|]; [|lia]. apply N.mul_le_mono_l. destruct (td_mixer d), (ts_mix setup), (td_stream d); lia. }
      rewrite Nat2N.inj_succ, N.mul_succ_l. lia. }
    eapply N.le_lt_trans; [exact J|]. eapply N.le_lt_trans; [|exact Hn]. nia.
  - intros p Hpr. pose proof (HP p Hpr) as HPn. set (n := 2 ^ p) in *. clearbody n.
    assert (S1 : forall d src, In d (e_defs E) -> Q src -> forall t, let l :=
      (match td_mixer d, ts_mix setup with Some test, Some mix => attributed (src_name src) (ts_name setup) n t (test n src mix) | _, _ => [] end) ++
      (match td_stream d, ts_mix setup with
       | Some test, Some mix => let mx := mixed (src_name src) in attributed mx (ts_name setup) n t (test n (mksrc mx (stream_from_mixer (src_stream src) mix)))
       | Some test, None => attributed (src_name src) (ts_name setup) n t (test n src)
       | None, _ => [] end) in Forall (fun r => valid_stat (tr_stats r)) l /\ (length l <= 2 * k)%nat).
    { intros d src Hd HQs t. destruct (VD d Hd) as [Vs Vm]. cbn zeta. rewrite Forall_app, app_length.
      assert (A : forall sn subs, valid_subs k subs -> Forall (fun r => valid_stat (tr_stats r)) (attributed sn (ts_name setup) n t subs) /\ (length (attributed sn (ts_name setup) n t subs) <= k)%nat).
      { intros sn subs V. split; [eapply attributed_valid; exact V|]. pose proof (attributed_len sn (ts_name setup) n t subs). destruct V as [V _]. lia. }
      destruct (td_mixer d) as [tm|], (td_stream d) as [tst|], (ts_mix setup) as [mix|];
        try (destruct (HR mix eq_refl) as [HR1 HR2]; pose proof (HR2 src (mixed (src_name src)) HQs) as HQm);
        repeat match goal with |- context [attributed ?sn _ _ _ (tm ?a ?b ?c)] => destruct (A sn (tm a b c) (Vm tm eq_refl a b c HPn ltac:(assumption) HR1)); generalize dependent (attributed sn (ts_name setup) n t (tm a b c)); intros
        | |- context [attributed ?sn _ _ _ (tst ?a ?b)] => destruct (A sn (tst a b) (Vs tst eq_refl a b HPn ltac:(assumption))); generalize dependent (attributed sn (ts_name setup) n t (tst a b)); intros end;
        cbn [length]; repeat split; auto; lia. }
    assert (S2 : forall t d, In d (e_defs E) -> forall srcs, Forall Q srcs -> let l := flat_map (fun src =>
      (match td_mixer d, ts_mix setup with Some test, Some mix => attributed (src_name src) (ts_name setup) n t (test n src mix) | _, _ => [] end) ++
      (match td_stream d, ts_mix setup with
       | Some test, Some mix => let mx := mixed (src_name src) in attributed mx (ts_name setup) n t (test n (mksrc mx (stream_from_mixer (src_stream src) mix)))
       | Some test, None => attributed (src_name src) (ts_name setup) n t (test n src)
       | None, _ => [] end)) srcs in Forall (fun r => valid_stat (tr_stats r)) l /\ (length l <= length srcs * (2 * k))%nat).
    { intros t d Hd srcs HF. cbn zeta. induction HF as [|src srcs HQ1 HF [IH1 IH2]]; [split; [constructor|cbn; lia]|]. destruct (S1 d src Hd HQ1 t) as [A B]. cbn [flat_map]. split.
      - apply Forall_app. split; [exact A|exact IH1].
      - rewrite app_length. change (length (src :: srcs) * (2 * k))%nat with (2 * k + length srcs * (2 * k))%nat. apply Nat.add_le_mono; [exact B|exact IH2]. }
    assert (S3 : forall ts, let l := sequential_results mixed (e_defs E) n (mksetup (ts_name setup) (ts_sources setup) ts (ts_mix setup) (ts_max_threads setup) (ts_start setup) (ts_stop setup)) in
       Forall (fun r => valid_stat (tr_stats r)) l /\ (length l <= length ts * (length (ts_sources setup) * (2 * k)))%nat).
    { induction ts as [|t ts [IH1 IH2]]; cbn zeta; [split; [constructor|cbn; lia]|]. unfold sequential_results in *. cbn [ts_tests ts_sources ts_mix ts_name flat_map length] in *.
      destruct (registered (e_defs E) t) as [d|] eqn:Rg.
      - destruct (S2 t d (registered_in _ _ _ Rg) (ts_sources setup) HQ) as [A B]. split; [apply Forall_app; split; [exact A|exact IH1]|]. rewrite app_length. change (S (length ts) * (length (ts_sources setup) * (2 * k)))%nat with (length (ts_sources setup) * (2 * k) + length ts * (length (ts_sources setup) * (2 * k)))%nat. apply Nat.add_le_mono; [exact B|exact IH2].
      - split; [exact IH1|]. cbn [app]. eapply Nat.le_trans; [exact IH2|]. apply Nat.mul_le_mono_r. lia. }
    specialize (S3 (ts_tests setup)). destruct setup as [a b c d e f g]. cbn [ts_name ts_sources ts_tests ts_mix ts_max_threads ts_start ts_stop] in *. destruct S3 as [A B]. split; [exact A|].
    eapply N.le_lt_trans with (m := N.of_nat (length c * (length b * (2 * k)))); [lia|].
    eapply N.le_lt_trans with (m := N.of_nat (length c) * ns * 2 * (1 + N.of_nat k)); [|eapply N.lt_trans; [exact Hn|reflexivity]].
    unfold ns. rewrite !Nat2N.inj_mul. nia.
Qed.
Lemma sound_of_valid k pow rt mixed E setup : valid_tests k rt -> e_defs E = get_tests pow rt -> 1 <= ts_max_threads setup ->
  (0 <= ts_start setup)%Z -> (ts_start setup <= ts_stop setup)%Z -> (ts_stop setup < 64)%Z ->
  N.of_nat (length (ts_tests setup)) * N.of_nat (length (ts_sources setup)) * 2 * (1 + N.of_nat k) < 2 ^ 32 ->
  sound_setup mixed E setup.
Proof.
  intros VT DE. intros. apply (sound_of_defs k (fun _ => True) (fun _ => True) (fun _ => True)); auto.
  - rewrite DE. apply get_tests_valid, VT.
  - apply Forall_forall. auto.
Qed.

(* ---- inspection of one test ---- *)
Lemma inspect_follows E : follows E (inspect_callback E).
Proof.
  split.
  - intros [] br last []. reflexivity.
  - intros st br st' ret. unfold inspect_callback. destruct (battery_verdict (e_libs E) br) as [v|]; [|discriminate]. cbn [obind]. intros H. injection H as _ <-. exists v. split; [reflexivity|].
    destruct v as [[|]|]; reflexivity.
Qed.
Lemma inspect_spec E pow rt w d sources r : good_env E pow rt -> Forall (fun s => sound_setup (mixed_name "identity") E (inspect_setup E d s)) sources ->
  inspect_test E w d sources r ->
  exists vs, Forall2 (fun s v => exists p br, ended (mixed_name "identity") E w (inspect_setup E d s) p br v) sources vs /\
    r = (with_verdict true sources vs, with_verdict false sources vs).
Proof.
  intros GE F H. induction H as [|src rest calls br v passed failed R V H IH].
  - exists []. split; [constructor|reflexivity].
  - inversion F as [|? ? F1 F2]; subst. destruct (IH F2) as (vs & J & X). injection X as -> ->.
    destruct (run_ended _ E pow rt w _ _ _ _ _ _ GE F1 (inspect_follows E) R) as (p & v' & ret & En & _ & _).
    assert (v' = v) by (destruct En as (_ & _ & V' & _); congruence). subst v'.
    exists (v :: vs). split; [constructor; [eauto|exact J]|]. destruct v as [[|]|]; reflexivity.
Qed.
Lemma inspect_exists E pow rt w d sources : good_env E pow rt -> Forall (fun s => sound_setup (mixed_name "identity") E (inspect_setup E d s)) sources ->
  exists r, inspect_test E w d sources r.
Proof.
  intros GE. induction 1 as [|src rest SS _ [[ps fs] IH]]; [exists ([], []); constructor|].
  destruct (run_total _ E w (inspect_callback E) (inspect_setup E d src) tt SS) as [(calls & br & [] & R) _].
  { intros [] r b k Hk Hr He. destruct (sound_built _ _ _ _ _ _ SS Hr He) as (h & B & _). destruct (verdict_ok E pow rt h r GE B) as (ras & Er & C).
    assert (V : exists v, battery_verdict (e_libs E) r = Ok v) by (destruct C as [(_ & _ & V)|(_ & _ & _ & q & _ & _ & V)]; eauto). destruct V as [v V].
    unfold inspect_callback. rewrite V. cbn [obind]. eauto. }
  destruct (run_ended _ E pow rt w _ _ _ _ _ _ GE SS (inspect_follows E) R) as (p & v & ret & (_ & _ & V & _) & _ & _).
  eexists. econstructor; eassumption.
Qed.

(* ---- the mean test has no results above 2^20 samples ---- *)
Lemma mean_silent mixed pow rt w p setup E br : good_env E pow rt -> sound_setup mixed E setup -> ts_tests setup = [T_mean] -> (ts_start setup <= Z.of_N p <= ts_stop setup)%Z -> 20 < p -> evaluate mixed (e_defs E) w (2 ^ p) setup br -> br_results br = [].
Proof.
  intros GE SS Ht Hp Hp20 He. destruct (sound_built _ _ _ _ _ _ SS Hp He) as (h & (Eb & _) & P). assert (Hn : 2 ^ 20 < 2 ^ p) by (apply N.pow_lt_mono_r; lia). set (n := 2 ^ p) in *. pose proof GE as (_ & _ & _ & _ & D & _).
  assert (Z0 : sequential_results mixed (e_defs E) n setup = []).
  { unfold sequential_results. rewrite Ht, D. cbn [flat_map]. rewrite app_nil_r. cbn [registered get_tests td_type]. destruct (test_type_dec T_mean T_mean) as [_|C]; [|contradiction].
    cbn [td_mixer td_stream]. assert (L : limit_to (2 ^ 20) n = Ok None) by (unfold limit_to; destruct (N.leb_spec n (2 ^ 20)); [lia|reflexivity]).
    generalize (ts_sources setup). intro l. induction l as [|s l IH]; [reflexivity|]. cbn [flat_map]. rewrite IH, app_nil_r. unfold limit_stream. rewrite L. destruct (ts_mix setup); reflexivity. }
  rewrite Z0 in P. apply Permutation_sym, Permutation_nil in P. subst h. exact Eb.
Qed.
Lemma no_results_no_verdict E pow rt h br : good_env E pow rt -> built_from h br -> br_results br = [] -> battery_verdict (e_libs E) br = Ok None.
Proof. intros GE B Hr. destruct (verdict_ok E pow rt h br GE B) as (ras & _ & [(_ & _ & V)|(C & _)]); [exact V|contradiction]. Qed.
Lemma mean_ended mixed E pow rt w setup p br v : good_env E pow rt -> sound_setup mixed E setup -> ts_tests setup = [T_mean] -> (20 < ts_stop setup)%Z ->
  ended mixed E w setup p br v -> (v = None /\ br_results br = [] /\ Z.of_N p = ts_stop setup) \/ (v = Some false /\ p <= 20 /\ br_results br <> []).
Proof.
  intros GE SS Ht Hs (E1 & E2 & E3 & E4 & E5). destruct (sound_built _ _ _ _ _ _ SS E1 E2) as (h & B & _).
  destruct (N.le_gt_cases p 20) as [L|L].
  - right. destruct E4 as [->|C]; [|lia]. split; [reflexivity|]. split; [exact L|]. intros C. rewrite (no_results_no_verdict E pow rt h br GE B C) in E3. discriminate.
  - left. assert (Hr : br_results br = []) by (eapply mean_silent; try eassumption).
    rewrite (no_results_no_verdict E pow rt h br GE B Hr) in E3. injection E3 as <-. split; [reflexivity|]. split; [exact Hr|]. destruct E4 as [C|C]; [discriminate|exact C].
Qed.

(* ---- the fitness of the search ---- *)
Lemma ks_value_range L l : good_sorts L -> Forall valid01 l -> N.of_nat (length l) < 2 ^ 64 ->
  valid01 (st_value (kolmogorov_smirnov_stats (l_exp L) (l_sort_double L) l)).
Proof. intros [S _] V H. apply ks_distance_valid; assumption. Qed.
Lemma map_add_values r m : Permutation (flat_map (fun e : test_key * list test_result => snd e) (map_add r m)) (r :: flat_map (fun e => snd e) m).
Proof.
  induction m as [|[k v] m IH]; cbn [map_add flat_map snd]; [reflexivity|]. destruct (key_lt (tr_key r) k); [reflexivity|]. destruct (key_lt k (tr_key r)); cbn [flat_map snd].
  - rewrite IH. symmetry. apply Permutation_middle.
  - rewrite <- app_assoc. cbn [app]. symmetry. apply Permutation_middle.
Qed.
Lemma add_all_values h : Permutation (flat_map (fun e : test_key * list test_result => snd e) (fold_left (fun m r => map_add r m) h [])) h.
Proof.
  assert (G : forall h m, Permutation (flat_map (fun e : test_key * list test_result => snd e) (fold_left (fun m r => map_add r m) h m)) (h ++ flat_map (fun e => snd e) m)).
  { clear. induction h as [|r h IH]; intros m; cbn [fold_left app]; [reflexivity|]. rewrite IH, map_add_values. symmetry. apply Permutation_middle. }
  rewrite G. cbn. rewrite app_nil_r. reflexivity.
Qed.
Lemma score_ok E pow rt h br p stop : good_env E pow rt -> built_from h br -> br_n br = 2 ^ p -> (Z.of_N p <= stop < 64)%Z ->
  exists x, get_score E br stop = Ok x /\ is_finite x = true /\ (IZR (stop - Z.of_N p) <= dval x <= IZR (stop - Z.of_N p) + 2)%R.
Proof.
  intros GE B Hn Hp. pose proof GE as (S & X & G & G2 & D & T). destruct (built_ok h br B) as [O _].
  unfold get_score. rewrite Hn, power_ok by (exact G2 || lia). cbn [obind].
  destruct (get_analysis_ok (e_libs E) br S X O) as (ras & Er & _ & _ & _ & _ & rss & F & P). rewrite Er. cbn [obind].
  eexists. split; [reflexivity|].
  set (a := flat_map (fun e => to_p_values (snd e)) (br_results br)).
  assert (Va : Forall valid01 a /\ N.of_nat (length a) < 2 ^ 64).
  { assert (Ea : a = map (fun r => st_p (tr_stats r)) (flat_map (fun e : test_key * list test_result => snd e) (br_results br))).
    { unfold a. generalize (br_results br). intro m. induction m as [|e m IH]; [reflexivity|]. cbn [flat_map]. rewrite map_app, <- IH. reflexivity. }
    destruct B as (Eb & V & Hl). rewrite Ea, Eb. pose proof (add_all_values h) as Q. rewrite map_length, (Permutation_length Q). split; [|exact Hl].
    apply Forall_map. eapply Permutation_Forall; [apply Permutation_sym, Q|]. exact V. }
  set (s3 := match ras with [] => d0 | ra :: _ => st_value (kolmogorov_smirnov_stats (l_exp (e_libs E)) (l_sort_double (e_libs E)) (to_p_values (ra_results ra))) end).
  assert (V3 : valid01 s3).
  { unfold s3. destruct ras as [|ra ras']; [apply valid01_d0|]. assert (Hin : In ra (concat rss)) by (eapply Permutation_in; [exact P|left; reflexivity]).
    apply in_concat in Hin. destruct Hin as (y & Hy & Hra).
    assert (Z0 : exists e, In e (br_results br) /\ ra_results ra = snd e).
    { clear - F Hy Hra. induction F as [|e y0 m ys H0 F IH]; [destruct Hy|]. destruct Hy as [<-|Hy].
      - exists e. split; [left; reflexivity|]. unfold analyse_entry in H0. destruct (get_worst_result (snd e)); [|discriminate]. injection H0 as <-. destruct Hra as [<-|[<-|[]]]; reflexivity.
      - destruct (IH Hy) as (e' & He & Q). exists e'. split; [right; exact He|exact Q]. }
    destruct Z0 as (e & He & ->). unfold ok_map in O. rewrite Forall_forall in O. destruct (O e He) as (_ & L & V).
    apply ks_value_range; [exact S|unfold to_p_values; apply Forall_map; exact V|unfold to_p_values; rewrite map_length; exact L]. }
  destruct Va as [Va La]. pose proof (ks_value_range (e_libs E) a S Va La) as V2.
  set (s2 := st_value (kolmogorov_smirnov_stats (l_exp (e_libs E)) (l_sort_double (e_libs E)) a)) in *.
  set (k := (stop - Z.of_N p)%Z) in *. assert (Hk : (0 <= k < 64)%Z) by lia. clearbody s2 s3 k. clear - V2 V3 Hk.
  assert (K : fin (double_of_Z k) /\ dval (double_of_Z k) = IZR k).
  { unfold double_of_Z. destruct (dconst_ok k 0) as [A F].
    - apply small_bpow with (e := 10%Z); [lia|]. unfold F2R, Fnum, Fexp. rewrite Rmult_1_r. rewrite Rabs_right by (apply Rle_ge, IZR_le; lia). apply Rle_trans with (IZR 1024); [apply IZR_le; lia|]. cbn. lra.
    - split; [exact F|]. rewrite A. unfold F2R, Fnum, Fexp. rewrite Rmult_1_r. apply rnd_id, F64_Z. lia. }
  destruct K as [Fk Ek]. destruct V2 as [F2 R2], V3 as [F3 R3].
  assert (K0 : (0 <= IZR k <= 64)%R) by (split; apply IZR_le; lia).
  assert (Q1 : fin (dadd (double_of_Z k) s2) /\ (IZR k <= dval (dadd (double_of_Z k) s2) <= IZR (k + 1))%R).
  { destruct (dadd_ok (double_of_Z k) s2 Fk F2) as [A F].
    - apply small_bpow with (e := 10%Z); [lia|]. rewrite Ek. rewrite Rabs_right by lra. apply Rle_trans with (IZR 1024); [lra|]. cbn. lra.
    - split; [exact F|]. rewrite A, Ek. apply rnd_between; [apply F64_Z; lia|apply F64_Z; lia|]. rewrite plus_IZR. lra. }
  destruct Q1 as [Fq Rq]. rewrite plus_IZR in Rq. set (q := dadd (double_of_Z k) s2) in *. clearbody q.
  destruct (dadd_ok q s3 Fq F3) as [A F].
  { apply small_bpow with (e := 10%Z); [lia|]. rewrite Rabs_right by lra. apply Rle_trans with (IZR 1024); [lra|]. cbn. lra. }
  split; [exact F|]. rewrite A. replace (IZR k + 2)%R with (IZR (k + 2)) by (rewrite plus_IZR; reflexivity). apply rnd_between; [apply F64_Z; lia|apply F64_Z; lia|]. rewrite plus_IZR. lra.
Qed.

(* ---- exhaustive search ---- *)
Lemma exhaust_bij c : In c exhaust_constants -> word_bijection 32 (exhaust_mixer c).
Proof.
  destruct c as [[c1 c2] c3]. intros H. unfold exhaust_constants in H.
  assert (R : forall a b x, In x (from_to a b) -> a <= x < b).
  { intros a b x Hx. unfold from_to in Hx. apply in_map_iff in Hx. destruct Hx as (i & <- & Hi). apply in_seq in Hi. lia. }
  apply in_flat_map in H. destruct H as (a & Ha & H). apply in_flat_map in H. destruct H as (b & Hb & H). apply in_map_iff in H. destruct H as (d & Hd & Hc). injection Hd as -> -> ->.
  apply R in Ha, Hb, Hc.
  destruct (chain_bij 32 2471660141 [c2; c3] c1) as (f & F1 & F2); [right; right; left; reflexivity|reflexivity|reflexivity|discriminate|repeat constructor; lia|].
  assert (X : forall x, is_word 32 x -> exhaust_mixer (c1, c2, c3) x = f x).
  { intros x Hx. unfold exhaust_mixer. cbn [fst snd]. rewrite xm2x_chain, F1 by exact Hx. reflexivity. }
  destruct F2 as (A & B & C). split; [|split].
  - intros x Hx. rewrite X by exact Hx. apply A, Hx.
  - intros x y Hx Hy. rewrite !X by assumption. apply B; assumption.
  - intros y Hy. destruct (C y Hy) as (x & Hx & E0). exists x. split; [exact Hx|]. rewrite X by exact Hx. exact E0.
Qed.
