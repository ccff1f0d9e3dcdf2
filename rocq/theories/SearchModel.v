(* Model of tool/src/util/sffs.h (sequential forward floating selection) and of find_seed of
   tool/src/search/search_command.h.
   A bit_vector is the list of its bits (theorem C07: the class behaves like that list).  The fitness
   is any function of the bits.  The candidates of a step are evaluated by run_jobs: get_state uses
   the executions of JobsModel.v, so every schedule is covered. *)
From Coq Require Import Reals.
From Verif Require Import Base FloatModel JobsModel.

(* std::numeric_limits<double>::max() *)
Definition dbl_max : double := dconst (2 ^ 53 - 1) 971.

(* sffs.h:10-13 *)
Record sffs_state : Type := mks { sdata : list bool; sscore : double }.
Definition s_default : sffs_state := mks [] dbl_max.
(* sffs_types.h:10-18; min and max have defaults 0 and 1000 *)
Record sffs_config : Type := mkc { cbits : nat; cfitness : list bool -> double; cseed : option (list bool); cmin : Z; cmax : Z }.

Definition evaluated (cfg : sffs_config) (v : list bool) : sffs_state := mks v (cfitness cfg v).
(* 18-29: the vectors to test; reading a bit that is not there is undefined *)
Definition candidates (cfg : sffs_config) (cur : list bool) (is_forward : bool) : outcome (list (list bool)) :=
  ofold (fun acc i => b <- at_ cur i ;; Ok (if Bool.eqb b is_forward then acc else acc ++ [upd cur i is_forward])) (seq 0 (cbits cfg)) [].
(* 35-37 *)
Definition keep_best (best r : sffs_state) : sffs_state := if dlt (sscore r) (sscore best) then r else best.
(* 17-42: [best] is a possible return value; [hw] is hardware_concurrency() *)
Definition get_state_returns (hw : N) (cfg : sffs_config) (cur : list bool) (is_forward : bool) (tests : list (list bool)) (best : sffs_state) : Prop :=
  candidates cfg cur is_forward = Ok tests /\
  exists s, jreach (effective_threads (default_max_threads hw) tests) (fun j r => r = evaluated cfg j) (fun r => [r]) (jinit tests) s /\ jmain s = MReturned /\
    best = fold_left keep_best (rev (jadds s)) s_default.

(* std::map<int, sffs_state>: ascending keys; a missing key reads as the default state *)
Definition kmap : Type := list (Z * sffs_state).
Fixpoint kget (m : kmap) (k : Z) : sffs_state :=
  match m with [] => s_default | (j, s) :: r => if (j =? k)%Z then s else kget r k end.
Fixpoint kset (m : kmap) (k : Z) (s : sffs_state) : kmap :=
  match m with
  | [] => [(k, s)]
  | (j, t) :: r => if (k <? j)%Z then (k, s) :: m else if (k =? j)%Z then (k, s) :: r else (j, t) :: kset r k s
  end.

Definition count_bits (l : list bool) : Z := Z.of_nat (length (filter (fun b => b) l)).
Definition init_bits (cfg : sffs_config) : list bool := match cseed cfg with Some s => s | None => repeat false (cbits cfg) end.
Definition max_k (cfg : sffs_config) : Z := Z.min (Z.of_nat (cbits cfg)) (cmax cfg).

(* Where run_sffs is; [ev] records the vectors whose fitness was computed. *)
Inductive rstate : Type :=
| AtOuter (k : Z) (ks : kmap) (ev : list (list bool))    (* 67 *)
| AtInner (k : Z) (ks : kmap) (ev : list (list bool))    (* 68 *)
| AtForward (k : Z) (ks : kmap) (ev : list (list bool))  (* 81 *)
| Finished (best : sffs_state) (ev : list (list bool))   (* 97 *)
| Undefined.
Definition sffs_init (cfg : sffs_config) : rstate :=
  let k := count_bits (init_bits cfg) in AtOuter k (kset [] k (evaluated cfg (init_bits cfg))) [init_bits cfg].
Definition no_data (s : sffs_state) : bool := match sdata s with [] => true | _ => false end.
Inductive sffs_step (hw : N) (cfg : sffs_config) : rstate -> rstate -> Prop :=
(* 67 *)
| st_enter : forall k ks ev, (k < max_k cfg)%Z -> sffs_step hw cfg (AtOuter k ks ev) (AtInner k ks ev)
(* 91-97 *)
| st_finish : forall k ks ev, (max_k cfg <= k)%Z -> sffs_step hw cfg (AtOuter k ks ev) (Finished (fold_left keep_best (map snd ks) s_default) ev)
(* 68 *)
| st_no_backward : forall k ks ev, (k <= cmin cfg)%Z -> sffs_step hw cfg (AtInner k ks ev) (AtForward k ks ev)
(* 69-77 *)
| st_backward : forall k ks ev tests new, (cmin cfg < k)%Z -> get_state_returns hw cfg (sdata (kget ks k)) false tests new ->
    no_data (kget ks (k - 1)) || dlt (sscore new) (sscore (kget ks (k - 1))) = true ->
    sffs_step hw cfg (AtInner k ks ev) (AtInner (k - 1) (kset ks (k - 1) new) (ev ++ tests))
(* 78 *)
| st_break : forall k ks ev tests new, (cmin cfg < k)%Z -> get_state_returns hw cfg (sdata (kget ks k)) false tests new ->
    no_data (kget ks (k - 1)) || dlt (sscore new) (sscore (kget ks (k - 1))) = false ->
    sffs_step hw cfg (AtInner k ks ev) (AtForward k ks (ev ++ tests))
| st_backward_ub : forall k ks ev, (cmin cfg < k)%Z -> candidates cfg (sdata (kget ks k)) false = UB -> sffs_step hw cfg (AtInner k ks ev) Undefined
(* 81-88 *)
| st_forward : forall k ks ev tests new, get_state_returns hw cfg (sdata (kget ks k)) true tests new ->
    sffs_step hw cfg (AtForward k ks ev) (AtOuter (k + 1) (if no_data (kget ks (k + 1)) || dlt (sscore new) (sscore (kget ks (k + 1))) then kset ks (k + 1) new else ks) (ev ++ tests))
| st_forward_ub : forall k ks ev, candidates cfg (sdata (kget ks k)) true = UB -> sffs_step hw cfg (AtForward k ks ev) Undefined.
Inductive sffs_reach (hw : N) (cfg : sffs_config) : rstate -> Prop :=
| sr_init : sffs_reach hw cfg (sffs_init cfg)
| sr_step : forall s s', sffs_reach hw cfg s -> sffs_step hw cfg s s' -> sffs_reach hw cfg s'.

(* search_command.h:20-33: the vectors tried are random_bit_vector(config.bits), here any list *)
Definition find_seed (cfg : sffs_config) (tried : list (list bool)) : list bool :=
  snd (fold_left (fun '(best_score, best) r => let score := cfitness cfg r in if dlt score best_score then (score, r) else (best_score, best)) tried (dbl_max, repeat false (cbits cfg))).
