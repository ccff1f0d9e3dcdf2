(* Property C56: the search (tool/src/util/sffs.h run_sffs), for every fitness function and every
   schedule of its worker threads. *)
From Coq Require Import Reals Permutation Lra.
From Verif Require Import Base FloatModel FloatLemmas JobsModel JobsProofs Prop_Jobs SearchModel SearchProofs.
Open Scope nat_scope.

(* What the search needs: a lower bound that is not negative, a seed of the right size (start_search
   checks it), and a fitness that is a number below DBL_MAX. *)
Definition searchable (cfg : sffs_config) : Prop :=
  (0 <= cmin cfg)%Z /\ length (init_bits cfg) = cbits cfg /\ (Z.of_nat (cbits cfg) < 2 ^ 31)%Z /\
  forall v, length v = cbits cfg -> is_finite (cfitness cfg v) = true /\ dlt (cfitness cfg v) dbl_max = true.

(* No execution is infinite, for any schedule and any sequence of tie breaks ... *)
Theorem C56_terminates : forall hw cfg (f : nat -> rstate), searchable cfg -> f 0 = sffs_init cfg -> ~ (forall i, sffs_step hw cfg (f i) (f (S i))).
Proof.
  intros hw cfg f G F0 H. assert (R : forall i, rinv cfg (f i)).
  { intro i. apply (reach_ok hw cfg (f i) G). induction i as [|i IH]; [rewrite F0; constructor|]. eapply sr_step; [exact IH|apply H]. }
  assert (M : forall i, sffs_measure cfg (f i) + i <= sffs_measure cfg (f 0)).
  { induction i as [|i IH]; [lia|]. pose proof (measure_drops hw cfg _ _ G (R i) (H i)). lia. }
  specialize (M (S (sffs_measure cfg (f 0)))). lia.
Qed.
Print Assumptions C56_terminates.
(* ... none gets stuck or does anything undefined ... *)
Theorem C56_no_undefined_behaviour : forall hw cfg s, searchable cfg -> sffs_reach hw cfg s -> s <> Undefined /\ ((exists best ev, s = Finished best ev) \/ exists s', sffs_step hw cfg s s').
Proof.
  intros hw cfg s G H. pose proof (reach_ok hw cfg s G H) as V. split; [intro E; rewrite E in V; exact V|apply step_exists; assumption].
Qed.
Print Assumptions C56_no_undefined_behaviour.
(* ... so every execution, wherever it is, can be completed. *)
Theorem C56_finishes : forall hw cfg s, searchable cfg -> sffs_reach hw cfg s ->
  exists best ev, Relation_Operators.clos_refl_trans_1n rstate (sffs_step hw cfg) s (Finished best ev).
Proof.
  intros hw cfg s G H. remember (sffs_measure cfg s) as n eqn:E. revert s H E. induction n as [n IH] using lt_wf_ind. intros s H E.
  destruct (C56_no_undefined_behaviour hw cfg s G H) as [_ [(b & ev & ->)|(s' & St)]]; [exists b, ev; constructor|].
  destruct (IH (sffs_measure cfg s') ltac:(subst n; apply (measure_drops hw cfg s s' G (reach_ok hw cfg s G H) St)) s' ltac:(eapply sr_step; eassumption) eq_refl) as (b & ev & C).
  exists b, ev. econstructor; [exact St|exact C].
Qed.
Print Assumptions C56_finishes.
(* The result has the right size and its score is the fitness of its data; no vector whose fitness was
   computed during the search - the seed first of all - is better. *)
Theorem C56_result : forall hw cfg best ev, searchable cfg -> sffs_reach hw cfg (Finished best ev) ->
  length (sdata best) = cbits cfg /\ sscore best = cfitness cfg (sdata best) /\
  In (init_bits cfg) ev /\ (dval (sscore best) <= dval (cfitness cfg (init_bits cfg)))%R /\
  In (sdata best) ev /\ forall v, In v ev -> (dval (sscore best) <= dval (cfitness cfg v))%R.
Proof.
  intros hw cfg best ev G H. destruct (reach_ok hw cfg _ G H) as (I & E & S & F). rewrite Forall_forall in F. destruct (F _ I) as [L _]. destruct G as (Gm & Gi & Gb & Gf).
  assert (A : forall v, In v ev -> (dval (sscore best) <= dval (cfitness cfg v))%R).
  { intros v Hv. destruct (F v Hv) as [Lv D]. apply dlt_false in D; [exact D|apply Gf, Lv|rewrite E; apply Gf, L]. }
  split; [exact L|]. split; [rewrite E; reflexivity|]. split; [exact S|]. split; [apply A, S|]. split; [exact I|exact A].
Qed.
Print Assumptions C56_result.
(* One step of the search, whatever the schedule: among all vectors that differ from the current one
   in exactly one bit, raised (forward) or cleared (backward), it returns one with the least fitness. *)
Theorem C56_get_state : forall hw cfg cur is_forward tests best, searchable cfg -> length cur = cbits cfg -> In (negb is_forward) cur -> get_state_returns hw cfg cur is_forward tests best ->
  (forall v, In v tests <-> exists i, nth_error cur i = Some (negb is_forward) /\ v = upd cur i is_forward) /\
  In (sdata best) tests /\ sscore best = cfitness cfg (sdata best) /\ forall v, In v tests -> (dval (sscore best) <= dval (cfitness cfg v))%R.
Proof.
  intros hw cfg cur fwd tests best G L I R. split.
  - intro v. destruct R as (C & _). unfold candidates in C. rewrite candidates_from in C by lia. injection C as <-. cbn [app]. rewrite in_map_iff. split.
    + intros (i & <- & Hi). apply filter_In in Hi. destruct Hi as [Hi E]. apply in_seq in Hi. exists i. split; [|reflexivity]. rewrite (nth_error_nth' cur false) by lia. f_equal. apply Bool.eqb_prop, E.
    + intros (i & E & ->). exists i. split; [reflexivity|]. assert (Hi : i < length cur) by (apply nth_error_Some; congruence). apply filter_In. split; [apply in_seq; lia|].
      rewrite (nth_error_nth cur i false E). apply Bool.eqb_reflx.
  - destruct (get_state_ok hw cfg cur fwd tests best G L R) as (I1 & I2 & I3 & _ & I5 & I6).
    + clear - I L. rewrite <- L. clear L. unfold count_bits. induction cur as [|b cur IH]; [destruct I|]. pose proof (filter_length_le (fun b => b) cur). cbn [filter]. destruct fwd; cbn [negb] in *.
      * destruct I as [->|I]; [cbn [length]; lia|]. specialize (IH I). destruct b; cbn [length]; lia.
      * destruct I as [->|I]; [cbn [length]; lia|]. specialize (IH I). destruct b; cbn [length]; lia.
    + split; [exact I1|]. split; [rewrite I2; reflexivity|]. intros v Hv. rewrite Forall_forall in I5, I6. destruct G as (_ & _ & _ & Gf). apply dlt_false; [apply Gf, I6, Hv|rewrite I2; apply Gf, I3|apply I5, Hv].
Qed.
Print Assumptions C56_get_state.
(* find_seed: the returned seed has the right size, and is the best of those tried (which is why it
   satisfies the search's needs). *)
Theorem C56_find_seed : forall cfg tried, Forall (fun v => length v = cbits cfg) tried -> (forall v, length v = cbits cfg -> is_finite (cfitness cfg v) = true /\ dlt (cfitness cfg v) dbl_max = true) ->
  length (find_seed cfg tried) = cbits cfg /\ (tried <> [] -> In (find_seed cfg tried) tried) /\ forall v, In v tried -> (dval (cfitness cfg (find_seed cfg tried)) <= dval (cfitness cfg v))%R.
Proof.
  intros cfg tried F Gf. unfold find_seed. set (step := fun '(best_score, best) r => let score := cfitness cfg r in if dlt score best_score then (score, r) else (best_score, best)).
  assert (A : forall l b, Forall (fun v => length v = cbits cfg) l -> length b = cbits cfg -> let r := fold_left step l (cfitness cfg b, b) in
    fst r = cfitness cfg (snd r) /\ length (snd r) = cbits cfg /\ (snd r = b \/ In (snd r) l) /\ forall v, In v (b :: l) -> (dval (cfitness cfg (snd r)) <= dval (cfitness cfg v))%R).
  { induction l as [|a l IH]; intros b Fl Lb; cbn [fold_left].
    - cbn [fst snd]. repeat split; [exact Lb|left; reflexivity|]. intros v [<-|[]]. apply Rle_refl.
    - pose proof (Forall_inv Fl) as La. cbn beta in La. destruct (Gf a La) as [Fa _], (Gf b Lb) as [Fb _]. assert (SE : step (cfitness cfg b, b) a = if dlt (cfitness cfg a) (cfitness cfg b) then (cfitness cfg a, a) else (cfitness cfg b, b)) by reflexivity. rewrite SE. clear SE. destruct (dlt (cfitness cfg a) (cfitness cfg b)) eqn:D.
      + apply dlt_iff in D; [|assumption|assumption]. destruct (IH a (Forall_inv_tail Fl) La) as (E & L & I & M). split; [exact E|]. split; [exact L|]. split; [destruct I as [->|I]; right; [left; reflexivity|right; exact I]|].
        intros v [<-|[<-|Hv]]; [apply Rle_trans with (dval (cfitness cfg a)); [exact (M a (or_introl eq_refl))|lra]|apply M; left; reflexivity|apply M; right; exact Hv].
      + apply dlt_false in D; [|assumption|assumption]. destruct (IH b (Forall_inv_tail Fl) Lb) as (E & L & I & M). split; [exact E|]. split; [exact L|]. split; [destruct I as [->|I]; [left; reflexivity|right; right; exact I]|].
        intros v [<-|[<-|Hv]]; [apply M; left; reflexivity|apply Rle_trans with (dval (cfitness cfg b)); [exact (M b (or_introl eq_refl))|lra]|apply M; right; exact Hv]. }
  destruct tried as [|a l].
  - cbn. split; [apply repeat_length|]. split; [congruence|intros v []].
  - cbn [fold_left]. pose proof (Forall_inv F) as La. cbn beta in La. destruct (Gf a La) as [Fa Ma]. assert (SE : step (dbl_max, repeat false (cbits cfg)) a = (cfitness cfg a, a)) by (cbn [step]; cbn zeta; rewrite Ma; reflexivity). rewrite SE. clear SE.
    destruct (A l a (Forall_inv_tail F) La) as (E & L & I & M). split; [exact L|]. split; [intros _; destruct I as [->|I]; [left; reflexivity|right; exact I]|exact M].
Qed.
Print Assumptions C56_find_seed.
(* Findings: with a negative lower bound the search runs into undefined behaviour whatever the fitness
   (bits of an empty bit_vector are read) ... *)
Theorem C56_negative_min_refuted : forall hw bits fitness min max, 0 < bits -> (min < 0)%Z -> (0 < max)%Z ->
  sffs_reach hw (mkc bits fitness None min max) Undefined.
Proof.
  intros hw bits fitness min max B M X. set (cfg := mkc bits fitness None min max).
  assert (C0 : count_bits (init_bits cfg) = 0%Z).
  { unfold count_bits. unfold cfg, init_bits; cbn [cseed cbits]. clear. induction bits; [reflexivity|]. cbn [repeat filter]. exact IHbits. }
  assert (I : sffs_init cfg = AtOuter 0 [(0%Z, evaluated cfg (repeat false bits))] [repeat false bits]) by (unfold sffs_init; rewrite C0; reflexivity).
  assert (S1 : sffs_reach hw cfg (AtInner 0 [(0%Z, evaluated cfg (repeat false bits))] [repeat false bits])).
  { eapply sr_step; [apply sr_init|]. rewrite I. apply st_enter. unfold max_k, cfg. cbn [cbits cmax]. lia. }
  assert (CE : candidates cfg (repeat false bits) false = Ok []).
  { unfold candidates, cfg. cbn [cbits]. rewrite candidates_from by (rewrite repeat_length; lia). cbn [app]. f_equal.
    replace (filter _ (seq 0 bits)) with (@nil nat); [reflexivity|]. symmetry. assert (Q : forall l, filter (fun i => Bool.eqb (nth i (repeat false bits) false) (negb false)) l = []); [|apply Q].
    induction l as [|i l IH]; [reflexivity|]. cbn [filter]. rewrite nth_repeat. exact IH. }
  assert (S2 : sffs_reach hw cfg (AtInner (-1) (kset [(0%Z, evaluated cfg (repeat false bits))] (-1) s_default) ([repeat false bits] ++ []))).
  { eapply sr_step; [exact S1|]. apply (st_backward hw cfg 0 _ _ [] s_default); [unfold cfg; cbn [cmin]; lia| |reflexivity].
    split; [cbn [kget Z.eqb]; exact CE|]. exists (jinit []). split; [apply jr_refl|]. split; reflexivity. }
  assert (CU : forall f, candidates cfg [] f = UB) by (intro f; unfold candidates, cfg; cbn [cbits]; destruct bits; [lia|reflexivity]).
  destruct (Z_lt_le_dec min (-1)) as [L|L].
  - eapply sr_step; [exact S2|]. apply st_backward_ub; [unfold cfg; cbn [cmin]; exact L|]. cbn [kset Z.ltb Z.compare kget Z.eqb]. apply CU.
  - eapply sr_step; [eapply sr_step; [exact S2|apply st_no_backward; unfold cfg; cbn [cmin]; lia]|]. apply st_forward_ub. cbn [kset Z.ltb Z.compare kget Z.eqb]. apply CU.
Qed.
Print Assumptions C56_negative_min_refuted.
(* ... and so does a fitness that is NaN or infinite for the vectors with one bit set: the empty default
   state is stored and its bits are read, once more than one bit may be set. *)
Theorem C56_invalid_fitness_refuted : forall hw bits fitness max, 0 < bits -> (1 < max)%Z -> 1 < bits ->
  (forall i, i < bits -> dlt (fitness (upd (repeat false bits) i true)) dbl_max = false) -> (Z.of_nat bits < 2 ^ 31)%Z ->
  sffs_reach hw (mkc bits fitness None 0 max) Undefined.
Proof.
  intros hw bits fitness max B X B1 H BB. set (cfg := mkc bits fitness None 0 max).
  assert (C0 : count_bits (init_bits cfg) = 0%Z).
  { unfold count_bits. unfold cfg, init_bits; cbn [cseed cbits]. clear. induction bits; [reflexivity|]. cbn [repeat filter]. exact IHbits. }
  assert (I : sffs_init cfg = AtOuter 0 [(0%Z, evaluated cfg (repeat false bits))] [repeat false bits]) by (unfold sffs_init; rewrite C0; reflexivity).
  assert (S1 : sffs_reach hw cfg (AtForward 0 [(0%Z, evaluated cfg (repeat false bits))] [repeat false bits])).
  { eapply sr_step; [eapply sr_step; [apply sr_init|]|]; [rewrite I; apply st_enter; unfold max_k, cfg; cbn [cbits cmax]; lia|apply st_no_backward; unfold cfg; cbn [cmin]; lia]. }
  destruct (get_state_exists hw cfg (repeat false bits) true) as (tests & new & R); [apply repeat_length|].
  assert (N : new = s_default).
  { destruct R as (C & s & Xs & Ms & E). pose proof C as C'. unfold candidates, cfg in C. cbn [cbits] in C. rewrite candidates_from in C by (rewrite repeat_length; lia). injection C as C. cbn [app] in C.
    assert (LT : length tests <= bits) by (rewrite <- C, map_length; etransitivity; [apply filter_length_le|rewrite seq_length; lia]).
    destruct (C22_each_job_once_each_result_once _ _ _ (default_max_threads hw) tests (fun j r => r = evaluated cfg j) (fun r => [r]) s (threads_pos hw) ltac:(lia) Xs Ms) as (_ & PR & FR & _ & PA).
    assert (ND : forall r, In r (rev (jadds s)) -> dlt (sscore r) dbl_max = false).
    { intros r Hr. apply in_rev in Hr. eapply Permutation_in in Hr; [|exact PA]. rewrite flat_single in Hr. apply in_map_iff in Hr. destruct Hr as ((j & r') & <- & Hr). cbn [snd]. rewrite Forall_forall in FR. pose proof (FR _ Hr) as Er. cbn [fst snd] in Er. subst r'. cbn [evaluated sscore].
      assert (Hj : In j tests) by (eapply Permutation_in; [exact PR|]; apply in_map_iff; exists (j, evaluated cfg j); split; [reflexivity|exact Hr]). rewrite <- C in Hj. apply in_map_iff in Hj. destruct Hj as (i & <- & Hi). apply filter_In in Hi. destruct Hi as [Hi _]. apply in_seq in Hi. apply H. lia. }
    rewrite E. clear - ND. revert ND. generalize (rev (jadds s)). induction l as [|r l IH]; intro ND; [reflexivity|]. cbn [fold_left]. unfold keep_best at 2. cbn [s_default sscore]. rewrite (ND r (or_introl eq_refl)). apply IH. intros q Hq. apply ND. right. exact Hq. }
  subst new.
  assert (S2 : exists ev, sffs_reach hw cfg (AtOuter 1 (kset [(0%Z, evaluated cfg (repeat false bits))] 1 s_default) ev)).
  { eexists. eapply sr_step; [exact S1|]. apply (st_forward hw cfg 0 [(0%Z, evaluated cfg (repeat false bits))] [repeat false bits] tests s_default). cbn [kget Z.eqb]. exact R. }
  destruct S2 as (ev & S2). assert (CU : candidates cfg [] false = UB) by (unfold candidates, cfg; cbn [cbits]; destruct bits; [lia|reflexivity]).
  eapply sr_step; [eapply sr_step; [exact S2|apply st_enter; unfold max_k, cfg; cbn [cbits cmax]; lia]|]. apply st_backward_ub; [unfold cfg; cbn [cmin]; lia|]. cbn [kset Z.ltb Z.compare kget Z.eqb Pos.compare Pos.compare_cont Pos.eqb]. exact CU.
Qed.
Print Assumptions C56_invalid_fitness_refuted.
(* A concrete search with ties: 2 bits, every vector scores the number of its bits. *)
Definition demo : sffs_config := mkc 2 (fun v => double_of_N (N.of_nat (length (filter negb v)))) None 0 1000.
Example C56_instance : searchable demo /\ (exists best ev, sffs_reach 8 demo (Finished best ev)) /\ forall best ev, sffs_reach 8 demo (Finished best ev) -> length (sdata best) = 2.
Proof.
  assert (G : searchable demo).
  { split; [cbn; lia|]. split; [reflexivity|]. split; [cbn; lia|]. intros v Hv. change (cbits demo) with 2 in Hv. destruct v as [|a [|b [|c v]]]; try discriminate Hv. destruct a, b; split; vm_compute; reflexivity. }
  split; [exact G|]. split.
  { destruct (C56_finishes 8 demo (sffs_init demo) G (sr_init 8 demo)) as (b & ev & C). exists b, ev. assert (Q : forall s t, Relation_Operators.clos_refl_trans_1n rstate (sffs_step 8 demo) s t -> sffs_reach 8 demo s -> sffs_reach 8 demo t).
    { intros s t X. induction X as [|s u t St X IH]; [exact (fun h => h)|]. intro R. apply IH. eapply sr_step; eassumption. }
    apply (Q _ _ C). apply sr_init. } intros best ev R. apply (C56_result 8 demo best ev G R).
Qed.
