(* Model of core/src/util/jobs.h (run_jobs): a main thread, worker threads, the job queue and its
   mutex, and a collector protected by its own mutex (as both collectors in the code base are:
   core/src/evaluate.h:100-110 and tool/src/util/sffs.h:32-39).
   Every interleaving of the atomic actions below is an execution.  Simplifications: jobs and the
   collector do not throw; the function-local static mutexes are not shared with another run_jobs
   call running at the same time. *)
From Verif Require Import Base.

Section Jobs.
(* J: jobs, R: results, A: the updates a collector call performs while holding its mutex. *)
Context {J R A : Type}.

(* Program counter of a worker, jobs.h:37-41. *)
Inductive tpc : Type :=
| TLoop              (* about to call job_queue(): wants the queue mutex *)
| TLocked            (* inside job_queue, holding the mutex (25) *)
| TRun (j : J)       (* about to run the popped job *)
| TCall (r : R)      (* about to call result_collector(r) *)
| TWait (u : list A) (* inside the collector, wants the collector mutex *)
| TAdd (u : list A)  (* inside the collector, holding the mutex, updates u still to do *)
| TExit.             (* left the while loop *)

(* Program counter of the calling thread. *)
Inductive mpc : Type :=
| MSpawn (k : nat)   (* 36: k threads created so far *)
| MJoin (k : nat)    (* 44: k threads joined so far *)
| MReturned.

Record jstate : Type := mkj {
  jq : list J;             (* the vector 'jobs', back at the end *)
  jqlock : option nat;     (* owner of the queue mutex (24) *)
  jclock : option nat;     (* owner of the collector mutex *)
  jthr : list tpc;         (* the threads created so far *)
  jmain : mpc;
  (* observations, most recent first *)
  jpopped : list J;        (* jobs taken from the queue *)
  jran : list (J * R);     (* jobs executed and their results *)
  jcalled : list R;        (* arguments of the calls of result_collector *)
  jadds : list A           (* updates performed by the collector *)
}.

(* jobs.h:20-22, 36 *)
Definition jinit (jobs : list J) : jstate :=
  mkj jobs None None [] (match jobs with [] => MReturned | _ => MSpawn 0 end) [] [] [] [].

(* jobs.h:34: std::min(num_threads, static_cast<unsigned int>(jobs.size())), both 32 bit *)
Definition effective_threads (num_threads : N) (jobs : list J) : nat :=
  N.to_nat (N.min num_threads (wrap 32 (N.of_nat (length jobs)))).

(* [nt] is the number of threads to create, [Run j r] that running j may return r, [micro r] the
   updates done by result_collector(r): none means that it returns without locking (evaluate.h:102). *)
Inductive jstep (nt : nat) (Run : J -> R -> Prop) (micro : R -> list A) : jstate -> jstate -> Prop :=
(* 36-42 *)
| js_spawn : forall q l c th k p x y a, k < nt ->
    jstep nt Run micro (mkj q l c th (MSpawn k) p x y a) (mkj q l c (th ++ [TLoop]) (MSpawn (S k)) p x y a)
| js_spawned : forall q l c th p x y a,
    jstep nt Run micro (mkj q l c th (MSpawn nt) p x y a) (mkj q l c th (MJoin 0) p x y a)
(* 44-46: join blocks until the thread has finished *)
| js_join : forall q l c th k p x y a, k < nt -> nth_error th k = Some TExit ->
    jstep nt Run micro (mkj q l c th (MJoin k) p x y a) (mkj q l c th (MJoin (S k)) p x y a)
| js_joined : forall q l c th p x y a,
    jstep nt Run micro (mkj q l c th (MJoin nt) p x y a) (mkj q l c th MReturned p x y a)
(* 25 *)
| js_lock : forall q c th m p x y a i, nth_error th i = Some TLoop ->
    jstep nt Run micro (mkj q None c th m p x y a) (mkj q (Some i) c (upd th i TLocked) m p x y a)
(* 26-28, 38: queue empty, leave *)
| js_empty : forall c th m p x y a i, nth_error th i = Some TLocked ->
    jstep nt Run micro (mkj [] (Some i) c th m p x y a) (mkj [] None c (upd th i TExit) m p x y a)
(* 29-31 *)
| js_pop : forall q j c th m p x y a i, nth_error th i = Some TLocked ->
    jstep nt Run micro (mkj (q ++ [j]) (Some i) c th m p x y a) (mkj q None c (upd th i (TRun j)) m (j :: p) x y a)
(* 39: run the job *)
| js_run : forall q l c th m p x y a i j r, nth_error th i = Some (TRun j) -> Run j r ->
    jstep nt Run micro (mkj q l c th m p x y a) (mkj q l c (upd th i (TCall r)) m p ((j, r) :: x) y a)
(* 39: call the collector *)
| js_call0 : forall q l c th m p x y a i r, nth_error th i = Some (TCall r) -> micro r = [] ->
    jstep nt Run micro (mkj q l c th m p x y a) (mkj q l c (upd th i TLoop) m p x (r :: y) a)
| js_call : forall q l c th m p x y a i r, nth_error th i = Some (TCall r) -> micro r <> [] ->
    jstep nt Run micro (mkj q l c th m p x y a) (mkj q l c (upd th i (TWait (micro r))) m p x (r :: y) a)
| js_clock : forall q l th m p x y a i u, nth_error th i = Some (TWait u) ->
    jstep nt Run micro (mkj q l None th m p x y a) (mkj q l (Some i) (upd th i (TAdd u)) m p x y a)
| js_add : forall q l th m p x y a i v u, nth_error th i = Some (TAdd (v :: u)) ->
    jstep nt Run micro (mkj q l (Some i) th m p x y a) (mkj q l (Some i) (upd th i (TAdd u)) m p x y (v :: a))
| js_cunlock : forall q l th m p x y a i, nth_error th i = Some (TAdd []) ->
    jstep nt Run micro (mkj q l (Some i) th m p x y a) (mkj q l None (upd th i TLoop) m p x y a).

(* The states an execution can reach. *)
Inductive jreach (nt : nat) (Run : J -> R -> Prop) (micro : R -> list A) (s0 : jstate) : jstate -> Prop :=
| jr_refl : jreach nt Run micro s0 s0
| jr_step : forall s s', jreach nt Run micro s0 s -> jstep nt Run micro s s' -> jreach nt Run micro s0 s'.
End Jobs.
Arguments tpc : clear implicits.
Arguments jstate : clear implicits.

(* types.h:237-239 default_max_threads: hardware_concurrency() - 4 in unsigned int arithmetic *)
Definition default_max_threads (hardware_concurrency : N) : N :=
  N.max (wrap 32 (hardware_concurrency + 2 ^ 32 - 4)) 2.
