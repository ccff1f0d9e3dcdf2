(* Proofs about the tool's commands. *)
From Coq Require Import String Ascii Reals Lra Permutation Sorted.
From Verif Require Import Base FloatModel FloatLemmas StreamModel JobsModel JobsProofs ResultModel ResultSpec ResultProofs AnalysisProofs
  EvaluateModel EvaluateSpec EvalProofs StrengthProofs ProtocolProofs FormatModel FormatSpec FormatProofs TextModel TextSpec TextProofs CommandModel CommandSpec.
Open Scope N_scope.

Lemma power_ok log2 k : good_log2 log2 -> k < 64 -> power_of_two log2 (2 ^ k) = Ok k.
Proof.
  intros G Hk. unfold power_of_two. rewrite (G k Hk).
  assert (H : (k <= 2 ^ 53)) by (apply N.lt_le_incl; eapply N.lt_trans; [exact Hk|reflexivity]).
  pose proof (double_of_N_exact k H) as [V F].
  assert (T : N_of_double 31 (double_of_N k) = Ok k).
  { rewrite N_of_double_trunc; [|exact F|rewrite V; apply (IZR_le 0); lia|rewrite V; apply IZR_lt; change (2 ^ Z.of_N 31)%Z with 2147483648%Z; lia].
    rewrite V, Zfloor_IZR, N2Z.id. reflexivity. }
  rewrite T. cbn [obind]. rewrite (proj2 (dlt_false _ _ F F)); [reflexivity|lra].
Qed.

(* ---- the end of a run ---- *)
Lemma multi_pass_end {St} ev (cb : St -> _ -> _ -> _) stop power st result calls out :
  multi_pass ev cb stop power st result calls out -> forall r st', out = Ok (r, st') -> (power <= stop)%Z ->
  (forall st br last st' , cb st br last = Ok (st', true) -> st' = st) ->
  exists p ret, (power <= Z.of_N p <= stop)%Z /\ p < 64 /\ ev (2 ^ p) r /\
    cb st r (Z.of_N p =? stop)%Z = Ok (st', ret) /\ (ret = false \/ Z.of_N p = stop) /\
    forall q, (power <= Z.of_N q < Z.of_N p)%Z -> exists br, ev (2 ^ q) br /\ cb st br false = Ok (st, true).
Proof.
  induction 1 as [power st result Hp|power st result Hp Hb|power st result r0 Hp Hb He Hc
    |power st st1 result r0 Hp Hb He Hc|power st st1 result r0 calls out Hp Hb He Hc Hm IH]; intros r st' Ho Hle Hst; try discriminate; [lia| |].
  - injection Ho as <- <-. exists (Z.to_N power), false. rewrite Z2N.id by lia. repeat split; auto; try lia.
  - assert (st1 = st) by (eapply Hst; exact Hc). subst st1. destruct (Z.eq_dec power stop) as [->|Hne].
    + inversion Hm; subst; try lia. match goal with H : Ok _ = Ok _ |- _ => injection H as <- <- end.
      exists (Z.to_N stop), true. rewrite Z2N.id by lia. repeat split; auto; try lia.
    + destruct (IH r st' Ho ltac:(lia) Hst) as (p & ret & I1 & I2 & I3 & I4 & I5 & I6).
      exists p, ret. repeat split; auto; try lia.
      intros q Hq. destruct (Z.eq_dec (Z.of_N q) power) as [E|E].
      * exists r0. replace (Z.to_N power) with q in He by lia. split; [exact He|]. rewrite <- Hc. f_equal. symmetry. apply Z.eqb_neq. exact Hne.
      * apply I6. lia.
Qed.

Lemma sound_built mixed E w p setup br : sound_setup mixed E setup -> (ts_start setup <= Z.of_N p <= ts_stop setup)%Z -> evaluate mixed (e_defs E) w (2 ^ p) setup br ->
  exists h, built_from h br /\ Permutation h (sequential_results mixed (e_defs E) (2 ^ p) setup).
Proof.
  intros (T & J & _ & _ & _ & S) R H. destruct (S p R) as [S1 S2].
  destruct (evaluate_multiset mixed (e_defs E) w (2 ^ p) setup br H T J) as (h & Eb & P). exists h. split; [|exact P].
  split; [exact Eb|]. split; [eapply Permutation_Forall; [apply Permutation_sym, P|exact S1]|]. rewrite (Permutation_length P). exact S2.
Qed.
Lemma evaluate_fields mixed defs w n setup br : evaluate mixed defs w n setup br -> br_name br = ts_name setup /\ br_n br = n.
Proof. intros (s & _ & _ & ->). split; reflexivity. Qed.
Lemma verdict_ok E pow rt h br : good_env E pow rt -> built_from h br ->
  exists ras, get_analysis (e_libs E) br = Ok ras /\
    ((br_results br = [] /\ ras = [] /\ battery_verdict (e_libs E) br = Ok None) \/
     (br_results br <> [] /\ exists ra rest p, ras = ra :: rest /\ pass (l_log10 (e_libs E)) (ra_stat ra) = Ok p /\ battery_verdict (e_libs E) br = Ok (Some p))).
Proof.
  intros (S & X & G & _ & _ & _) B. destruct (built_ok h br B) as [O _].
  destruct (get_analysis_ok (e_libs E) br S X O) as (ras & Er & V & _). exists ras. split; [exact Er|].
  destruct (br_results br) as [|e m] eqn:Eb.
  - left. split; [reflexivity|]. unfold get_analysis in Er. rewrite Eb in Er. cbn [omapM obind concat] in Er. injection Er as <-.
    assert (Hn : l_sort_ra (e_libs E) [] = []).
    { destruct S as [_ S2]. destruct (S2 [] (Forall_nil _)) as [P _]. apply Permutation_nil. exact P. }
    split; [exact Hn|]. unfold battery_verdict, get_worst_statistic_analysis, get_analysis. rewrite Eb. cbn [omapM obind concat]. rewrite Hn. reflexivity.
  - right. split; [discriminate|]. rewrite <- Eb in *. destruct (summary_ok (e_libs E) br S X G O) as (ras' & p & E' & Hl & Hs & Hp).
    { rewrite Eb. discriminate. }
    rewrite Er in E'. injection E' as <-. unfold print_summary in Hs. rewrite Er in Hs. cbn [obind] in Hs. rewrite Eb in Hs.
    destruct (ocount _ ras) as [a|]; [|discriminate]. cbn [obind] in Hs. destruct (ocount (suspicious (e_libs E)) ras) as [b|]; [|discriminate]. cbn [obind] in Hs.
    destruct ras as [|ra ras]; [discriminate|]. destruct (pass (l_log10 (e_libs E)) (ra_stat ra)) as [q|] eqn:Q; [|discriminate]. cbn [obind] in Hs.
    exists ra, ras, q. split; [reflexivity|]. split; [exact Q|]. unfold battery_verdict, get_worst_statistic_analysis. rewrite Er. cbn [obind]. rewrite Q. reflexivity.
Qed.
Lemma passed_failing v : passed v = negb (failing v).
Proof. destruct v as [[|]|]; reflexivity. Qed.

(* a callback that proceeds before the last power exactly if the battery does not fail, and keeps
   its state when it proceeds *)
Definition follows {St} (E : env) (cb : St -> test_battery_result -> bool -> outcome (St * bool)) : Prop :=
  (forall st br last st', cb st br last = Ok (st', true) -> st' = st) /\
  (forall st br st' ret, cb st br false = Ok (st', ret) -> exists v, battery_verdict (e_libs E) br = Ok v /\ ret = negb (failing v)).
Lemma run_ended {St} mixed E pow rt w (cb : St -> _ -> _ -> _) setup st calls r st' : good_env E pow rt -> sound_setup mixed E setup -> follows E cb ->
  evaluate_multi_pass mixed (e_defs E) w cb setup st calls (Ok (r, st')) ->
  exists p v ret, ended mixed E w setup p r v /\ p < 64 /\ cb st r (Z.of_N p =? ts_stop setup)%Z = Ok (st', ret).
Proof.
  intros GE SS [F1 F2] H. pose proof SS as (_ & _ & S0 & S1 & S2 & _).
  destruct (multi_pass_end _ _ _ _ _ _ _ _ H r st' eq_refl S1 F1) as (p & ret & P1 & P2 & P3 & P4 & P5 & P6).
  destruct (sound_built _ _ _ _ _ _ SS P1 P3) as (h & B & _). destruct (verdict_ok E pow rt h r GE B) as (ras & Er & C).
  assert (V : exists v, battery_verdict (e_libs E) r = Ok v) by (destruct C as [(_ & _ & V)|(_ & _ & _ & q & _ & _ & V)]; eauto).
  destruct V as [v V]. exists p, v, ret. split; [|split; [exact P2|exact P4]]. split; [exact P1|]. split; [exact P3|]. split; [exact V|]. split.
  - destruct (Z.eqb_spec (Z.of_N p) (ts_stop setup)) as [Ez|Ez]; [right; exact Ez|]. destruct P5 as [->|]; [|contradiction].
    destruct (F2 _ _ _ _ P4) as (v' & V' & R). left. rewrite V in V'. injection V' as <-. destruct v as [[|]|]; try discriminate. reflexivity.
  - intros q Hq. destruct (P6 q Hq) as (br & B1 & B2). destruct (F2 _ _ _ _ B2) as (v' & V' & R). exists br, v'. split; [exact B1|]. split; [exact V'|].
    intros ->. discriminate.
Qed.
(* runs are defined when the callback is, and exist *)
Lemma run_total {St} mixed E w (cb : St -> _ -> _ -> _) setup st : sound_setup mixed E setup ->
  (forall st r b k, k < 64 -> (ts_start setup <= Z.of_N k <= ts_stop setup)%Z -> evaluate mixed (e_defs E) w (2 ^ k) setup r -> exists st' x, cb st r b = Ok (st', x)) ->
  (exists calls r st', evaluate_multi_pass mixed (e_defs E) w cb setup st calls (Ok (r, st'))) /\
  (forall calls, ~ evaluate_multi_pass mixed (e_defs E) w cb setup st calls UB).
Proof.
  intros (_ & _ & S0 & S1 & S2 & _) Hcb.
  assert (D : forall power st result calls out, multi_pass (fun n br => evaluate mixed (e_defs E) w n setup br) cb (ts_stop setup) power st result calls out ->
      (ts_start setup <= power)%Z -> exists r st', out = Ok (r, st')).
  { intros power st1 result calls out H. induction H as [power st1 result Hp|power st1 result Hp Hb|power st1 result r0 Hp Hb He Hc
      |power st1 st2 result r0 Hp Hb He Hc|power st1 st2 result r0 calls out Hp Hb He Hc Hm IH]; intros H0; eauto.
    - lia.
    - exfalso. destruct (Hcb st1 r0 (power =? ts_stop setup)%Z (Z.to_N power) ltac:(lia) ltac:(lia) He) as (a & b & X). congruence.
    - apply IH. lia. }
  split.
  - destruct (multi_pass_exists (fun n br => evaluate mixed (e_defs E) w n setup br) cb (ts_stop setup)
      ltac:(intro n; apply evaluate_exists) _ (ts_start setup) st empty_result eq_refl) as (calls & out & H).
    destruct (D _ _ _ _ _ H (Z.le_refl _)) as (r & st' & ->). exists calls, r, st'. exact H.
  - intros calls H. destruct (D _ _ _ _ _ H (Z.le_refl _)) as (r & st' & X). discriminate.
Qed.
Lemma run_cons_inv {St} E w (cb : St -> _ -> _ -> _) s ss st st' : run_setups E w cb (s :: ss) st (Ok st') ->
  exists calls r st1, run_setup E w cb s st calls (Ok (r, st1)) /\ run_setups E w cb ss st1 (Ok st').
Proof. intros R. inversion R; subst. eauto 6. Qed.
Lemma run_nil_inv {St} E w (cb : St -> _ -> _ -> _) st st' : run_setups E w cb [] st (Ok st') -> st' = st.
Proof. intros R. inversion R; subst. reflexivity. Qed.
