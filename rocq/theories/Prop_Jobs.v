(* Property C22: run_jobs (core/src/util/jobs.h) and default_max_threads (core/src/types.h). *)
From Coq Require Import Permutation.
From Verif Require Import Base JobsModel JobsProofs.
Open Scope N_scope.

(* [execution num_threads jobs Run micro s]: s can be reached by run_jobs(jobs, collector, num_threads). *)
Definition execution {J R A} (num_threads : N) (jobs : list J) (Run : J -> R -> Prop) (micro : R -> list A) (s : jstate J R A) : Prop :=
  jreach (effective_threads num_threads jobs) Run micro (jinit jobs) s.

Lemma some_threads {J} num_threads (jobs : list J) : 1 <= num_threads -> N.of_nat (length jobs) < 2 ^ 32 -> jobs <> [] ->
  (0 < effective_threads num_threads jobs)%nat.
Proof.
  intros H1 H2 H3. unfold effective_threads, wrap. rewrite N.mod_small by exact H2.
  destruct jobs; [congruence|]. cbn [length]. lia.
Qed.

(* When run_jobs returns: every job was run exactly once (as a multiset), taken from the back of
   the vector; every result was given to the collector exactly once and all of its updates are done. *)
Theorem C22_each_job_once_each_result_once : forall J R A num_threads (jobs : list J) (Run : J -> R -> Prop) (micro : R -> list A) s,
  1 <= num_threads -> N.of_nat (length jobs) < 2 ^ 32 -> execution num_threads jobs Run micro s -> jmain s = MReturned ->
  rev (jpopped s) = rev jobs /\
  Permutation (map fst (jran s)) jobs /\
  Forall (fun jr => Run (fst jr) (snd jr)) (jran s) /\
  Permutation (jcalled s) (map snd (jran s)) /\
  Permutation (jadds s) (flat_map micro (map snd (jran s))).
Proof.
  intros J R A nt jobs Run micro s H1 H2 Hx Hm.
  assert (Hx' : jobs = [] \/ jobs <> []) by (destruct jobs; [left; reflexivity|right; discriminate]).
  destruct Hx' as [->|Hne].
  - unfold execution in Hx. assert (E : s = jinit []); [|subst; cbn; repeat split; constructor].
    clear Hm H2.
    unfold effective_threads in Hx. cbn in Hx. rewrite N.min_0_r in Hx. cbn in Hx.
    induction Hx as [|s s' Hr IH Hs]; [reflexivity|]. subst. inversion Hs; subst; try lia;
      try match goal with H : nth_error [] ?i = Some _ |- _ => destruct i; discriminate H end.
  - pose proof (some_threads nt jobs H1 H2 Hne) as Hpos.
    destruct (returned_complete _ _ _ _ s Hx Hm Hpos) as (P1 & P2 & P3 & P4 & P5).
    split; [rewrite P1; reflexivity|]. split; [exact P2|]. split; [exact P3|]. split; [exact P4|].
    rewrite P5. apply Permutation_flat_map, P4.
Qed.
Print Assumptions C22_each_job_once_each_result_once.

(* At every moment of every execution, no job has been run twice and no unknown job was run. *)
Theorem C22_never_twice : forall J R A num_threads (jobs : list J) (Run : J -> R -> Prop) (micro : R -> list A) s,
  execution num_threads jobs Run micro s ->
  exists not_run not_collected, Permutation jobs (map fst (jran s) ++ not_run) /\
    Permutation (map snd (jran s)) (jcalled s ++ not_collected).
Proof.
  intros J R A nt jobs Run micro s Hx. apply reach_inv in Hx. pose proof (i_queue _ _ _ _ _ Hx) as Q.
  pose proof (i_popped _ _ _ _ _ Hx) as P. pose proof (i_called _ _ _ _ _ Hx) as C.
  eexists _, _. split; [|exact C]. rewrite Q, P. rewrite (Permutation_app_comm (jq s)). rewrite <- app_assoc. reflexivity.
Qed.
Print Assumptions C22_never_twice.

(* The queue and the collector's data are each accessed by one thread at a time. *)
Theorem C22_mutual_exclusion : forall J R A num_threads (jobs : list J) (Run : J -> R -> Prop) (micro : R -> list A) s i k,
  execution num_threads jobs Run micro s ->
  (nth_error (jthr s) i = Some TLocked -> nth_error (jthr s) k = Some TLocked -> i = k) /\
  (forall u v, nth_error (jthr s) i = Some (TAdd u) -> nth_error (jthr s) k = Some (TAdd v) -> i = k).
Proof.
  intros J R A nt jobs Run micro s i k Hx. split; intros; [eapply exclusive_queue|eapply exclusive_collector]; eassumption.
Qed.
Print Assumptions C22_mutual_exclusion.

(* No deadlock: unless it has returned, some thread can move (jobs themselves return) ... *)
Theorem C22_no_deadlock : forall J R A num_threads (jobs : list J) (Run : J -> R -> Prop) (micro : R -> list A) s,
  (forall j, exists r, Run j r) -> execution num_threads jobs Run micro s ->
  jmain s = MReturned \/ exists s', jstep (effective_threads num_threads jobs) Run micro s s'.
Proof. intros. eapply progress; eassumption. Qed.
Print Assumptions C22_no_deadlock.

(* ... no schedule is infinite ... *)
Theorem C22_no_infinite_execution : forall J R A nt (Run : J -> R -> Prop) (micro : R -> list A) (f : nat -> jstate J R A),
  ~ (forall i, jstep nt Run micro (f i) (f (S i))).
Proof.
  intros J R A nt Run micro f H.
  assert (G : forall s, Acc (fun s' s => jstep nt Run micro s s') s -> forall i, f i <> s).
  { induction 1 as [s _ IH]. intros i E. subst s. exact (IH (f (S i)) (H i) (S i) eq_refl). }
  exact (G (f 0%nat) (terminates nt Run micro (f 0%nat)) 0%nat eq_refl).
Qed.
Print Assumptions C22_no_infinite_execution.

(* ... so from every point of every execution run_jobs can go on and returns. *)
Theorem C22_returns : forall J R A num_threads (jobs : list J) (Run : J -> R -> Prop) (micro : R -> list A) s,
  (forall j, exists r, Run j r) -> execution num_threads jobs Run micro s ->
  exists s', execution num_threads jobs Run micro s' /\ jmain s' = MReturned.
Proof. intros. eapply completes; eassumption. Qed.
Print Assumptions C22_returns.

(* With no threads - 0 requested, or a multiple of 2^32 jobs - run_jobs runs nothing, silently. *)
Theorem C22_zero_threads_runs_nothing : forall J R A num_threads (jobs : list J) (Run : J -> R -> Prop) (micro : R -> list A) s,
  num_threads = 0 \/ N.of_nat (length jobs) mod 2 ^ 32 = 0 -> execution num_threads jobs Run micro s ->
  jran s = [] /\ jcalled s = [] /\ jadds s = [].
Proof.
  intros J R A nt jobs Run micro s H Hx. eapply zero_threads; [|exact Hx]. unfold effective_threads, wrap.
  destruct H as [-> | ->]; [rewrite N.min_0_l|rewrite N.min_0_r]; reflexivity.
Qed.
Print Assumptions C22_zero_threads_runs_nothing.

(* The thread count used by default is hardware_concurrency - 4, at least 2, but for machines
   reporting fewer than 4 threads it is about 2^32: as many threads as there are jobs. *)
Theorem C22_default_threads : forall hw, hw < 2 ^ 32 ->
  default_max_threads hw = if hw <? 4 then 2 ^ 32 + hw - 4 else N.max 2 (hw - 4).
Proof.
  intros hw H. unfold default_max_threads, wrap. change (2 ^ 32) with 4294967296 in *.
  destruct (N.ltb_spec hw 4).
  - rewrite N.mod_small by lia. lia.
  - replace (hw + 4294967296 - 4) with (hw - 4 + 1 * 4294967296) by lia. rewrite N.mod_add by discriminate.
    rewrite N.mod_small by lia. lia.
Qed.
Print Assumptions C22_default_threads.

(* Three jobs, two threads: an execution exists and ends with all three run. *)
Example C22_instance : exists s : jstate N N N,
  execution 2 [1; 2; 3] (fun j r => r = j + 10) (fun r => [r]) s /\ jmain s = MReturned /\ effective_threads 2 [1; 2; 3] = 2%nat.
Proof.
  destruct (C22_returns N N N 2 [1; 2; 3] (fun j r => r = j + 10) (fun r => [r]) (jinit [1; 2; 3])) as (s & H1 & H2).
  - intro j. eexists. reflexivity.
  - apply jr_refl.
  - exists s. split; [exact H1|]. split; [exact H2|reflexivity].
Qed.
