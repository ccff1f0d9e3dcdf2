(* Model of core/src/test_definitions.h, core/src/evaluate.h, the test wrappers of core/src/types.h
   and tool/src/command/test_command.h:22-43. *)
From Coq Require Import String.
From Verif Require Import Base FloatModel StreamModel JobsModel ResultModel.
Open Scope N_scope.

(* types.h:70-79 *)
Record sub_test : Type := mksub { sub_name : string; sub_stats : option statistic }.
Definition main_sub_test (s : option statistic) : list sub_test := [mksub "" s].

(* stream.h: a stream and its name *)
Record source : Type := mksrc { src_name : string; src_stream : stream N }.
(* types.h:130-134: a test is a pure function of its arguments (streams are passed by const
   reference, i.e. copied).  Sources drawing from the shared index of streams.h:84-92 are excluded. *)
Definition stream_test : Type := N -> source -> list sub_test.
Definition mixer_test : Type := N -> source -> (N -> N) -> list sub_test.

(* types.h:137-147 split_test; f updates captured state of type S *)
Fixpoint split_loop {S} (f : N -> S -> option statistic * S) (max_size : N) (is : list N) (s : S)
  : list sub_test * S :=
  match is with
  | [] => ([], s)
  | i :: is' =>
      let '(r, s') := f max_size s in
      let '(rs, s'') := split_loop f max_size is' s' in
      (mksub ("s" ++ to_string_N (i + 1)) r :: rs, s'')
  end.
Definition split_test {S} (n max_size : N) (f : N -> S -> option statistic * S) (s : S)
  : outcome (list sub_test * S) :=
  if n <=? max_size then let '(r, s') := f n s in Ok (main_sub_test r, s')
  else if max_size =? 0 then UB
  else
    let split_count := N.max 2 (n / max_size) in
    Ok (split_loop f max_size (map N.of_nat (seq 0 (N.to_nat split_count))) s).

(* types.h:153-156; pow is the C library function *)
Definition limit_n_exp (pow : double -> double -> double) (exp : double) (n : N) : outcome (option N) :=
  slow_n <- N_of_double 64 (pow (double_of_N n) exp) ;;
  Ok (if 1024 <=? slow_n then Some slow_n else None).
(* 6. / 7. and 5. / 7. *)
Definition six_sevenths : double := ddiv (double_of_N 6) (double_of_N 7).
Definition five_sevenths : double := ddiv (double_of_N 5) (double_of_N 7).
(* types.h:158-164 *)
Definition limit_slow pow n := limit_n_exp pow six_sevenths n.
Definition limit_slower pow n := limit_n_exp pow five_sevenths n.
(* types.h:196-204 *)
Definition limit_to (max_n n : N) : outcome (option N) := Ok (if n <=? max_n then Some n else None).
(* types.h:168-186 limit_n: no sub tests when the limit function yields nothing.
   An undefined limit (not reached for 64-bit n and an accurate pow) yields no sub tests here. *)
Definition limit_stream (lim : N -> outcome (option N)) (test : stream_test) : stream_test :=
  fun n src => match lim n with Ok (Some m) => test m src | _ => [] end.
Definition limit_mixer (lim : N -> outcome (option N)) (test : mixer_test) : mixer_test :=
  fun n src mix => match lim n with Ok (Some m) => test m src mix | _ => [] end.

(* test_definitions.h:16-22; an empty std::function is None *)
Record test_definition : Type := mkdef {
  td_type : test_type; td_stream : option stream_test; td_mixer : option mixer_test; td_name : string
}.
(* the test functions of core/src/statistics *)
Record raw_tests : Type := mkraw {
  rt_mean : stream_test; rt_uniform : stream_test; rt_runs : stream_test; rt_serial_avalanche : stream_test;
  rt_gap : stream_test; rt_coupon : stream_test; rt_divisibility : stream_test; rt_permutation : stream_test;
  rt_binary_rank : stream_test; rt_linear_complexity : stream_test; rt_sac : mixer_test; rt_bic : mixer_test
}.
(* test_definitions.h:25-45 *)
Definition get_tests (pow : double -> double -> double) (rt : raw_tests) : list test_definition :=
  let slow := limit_stream (limit_slow pow) in
  let slower := limit_stream (limit_slower pow) in
  [ mkdef T_mean (Some (limit_stream (limit_to (2 ^ 20)) (rt_mean rt))) None "mean";
    mkdef T_uniform (Some (rt_uniform rt)) None "uniform";
    mkdef T_runs (Some (rt_runs rt)) None "runs";
    mkdef T_serial_avalanche (Some (rt_serial_avalanche rt)) None "serial-avalanche";
    mkdef T_gap (Some (slow (rt_gap rt))) None "gap";
    mkdef T_coupon (Some (slower (rt_coupon rt))) None "coupon";
    mkdef T_divisibility (Some (slow (rt_divisibility rt))) None "divisibility";
    mkdef T_permutation (Some (slow (rt_permutation rt))) None "permutation";
    mkdef T_binary_rank (Some (slower (rt_binary_rank rt))) None "binary-rank";
    mkdef T_linear_complexity (Some (slower (rt_linear_complexity rt))) None "linear-complexity";
    mkdef T_sac None (Some (limit_mixer (limit_slow pow) (rt_sac rt))) "sac";
    mkdef T_bic None (Some (limit_mixer (limit_slower pow) (rt_bic rt))) "bic" ].
(* test_definitions.h:47-56: the first definition with the type, else a default one *)
Definition get_test_definition (defs : list test_definition) (t : test_type) : test_definition :=
  match find (fun d => tt_eqb (td_type d) t) defs with
  | Some d => d
  | None => mkdef T_mean None None ""
  end.
(* test_definitions.h:62-68 *)
Definition default_test_types (defs : list test_definition) : list test_type := map td_type defs.

(* evaluate.h:12-20 *)
Record test_setup : Type := mksetup {
  ts_name : string; ts_sources : list source; ts_tests : list test_type; ts_mix : option (N -> N);
  ts_max_threads : N; ts_start : Z; ts_stop : Z
}.

(* evaluate.h:43-45; the name of the mixed stream, built in streams.h:94-100, is a parameter *)
Definition create_stream (mixed_name : string -> string) (mix : option (N -> N)) (s : source) : source :=
  match mix with
  | Some m => mksrc (mixed_name (src_name s)) (stream_from_mixer (src_stream s) m)
  | None => s
  end.
(* evaluate.h:54-61, 67-74: keep the sub tests that have a statistic *)
Definition to_results (src : source) (name : string) (n : N) (t : test_type) (subs : list sub_test)
  : list test_result :=
  flat_map (fun st => match sub_stats st with
                      | Some stat => [mktr (src_name src) name n (mkkey t (sub_name st)) stat]
                      | None => []
                      end) subs.
(* A job is a closure; running it yields its results.  evaluate.h:47-76 *)
Definition job : Type := unit -> list test_result.
Definition create_mixer_job (n : N) (name : string) (mix : N -> N) (d : test_definition) (t : mixer_test) (src : source) : job :=
  fun _ => to_results src name n (td_type d) (t n src mix).
Definition create_stream_job (n : N) (name : string) (d : test_definition) (t : stream_test) (src : source) : job :=
  fun _ => to_results src name n (td_type d) (t n src).
(* evaluate.h:78-98 *)
Definition source_jobs (mixed_name : string -> string) (n : N) (setup : test_setup) (d : test_definition) (src : source) : list job :=
  (match td_mixer d, ts_mix setup with
   | Some t, Some m => [create_mixer_job n (ts_name setup) m d t src]
   | _, _ => []
   end) ++
  (match td_stream d with
   | Some t => [create_stream_job n (ts_name setup) d t (create_stream mixed_name (ts_mix setup) src)]
   | None => []
   end).
Definition create_test_jobs (mixed_name : string -> string) (defs : list test_definition) (n : N) (setup : test_setup) : list job :=
  flat_map (fun t => let d := get_test_definition defs t in
                     flat_map (source_jobs mixed_name n setup d) (ts_sources setup)) (ts_tests setup).

(* evaluate.h:113-122: run all jobs; the collector (100-110) performs one [add] per result while
   holding its mutex.  [evaluate defs w n setup br]: br is a possible outcome. *)
Definition runs_to (j : job) (r : list test_result) : Prop := r = j tt.
Definition battery_of (adds_latest_first : list test_result) : result_map :=
  fold_left (fun m r => map_add r m) (rev adds_latest_first) [].
Definition evaluate (mixed_name : string -> string) (defs : list test_definition) (w n : N) (setup : test_setup)
  (br : test_battery_result) : Prop :=
  let jobs := create_test_jobs mixed_name defs n setup in
  exists s, jreach (effective_threads (ts_max_threads setup) jobs) runs_to (fun r => r) (jinit jobs) s /\
    jmain s = MReturned /\
    br = mkbr (ts_name setup) n (N.of_nat (length (ts_sources setup))) w (battery_of (jadds s)).

(* evaluate.h:126-140.  [ev n br]: evaluating n samples may give br; [cb] is the callback with its
   own state S.  The observations are the callback invocations: argument, flag, returned value.
   A power outside 0..63 makes 1ull << power undefined. *)
Record callback_call : Type := mkcall { cc_result : test_battery_result; cc_last : bool; cc_returned : bool }.
Inductive multi_pass {S} (ev : N -> test_battery_result -> Prop) (cb : S -> test_battery_result -> bool -> outcome (S * bool)) (stop : Z)
  : Z -> S -> test_battery_result -> list callback_call -> outcome (test_battery_result * S) -> Prop :=
| mp_end : forall power st result, (stop < power)%Z ->
    multi_pass ev cb stop power st result [] (Ok (result, st))
| mp_shift : forall power st result, (power <= stop)%Z -> (power < 0 \/ 64 <= power)%Z ->
    multi_pass ev cb stop power st result [] UB
| mp_cb_ub : forall power st result r, (power <= stop)%Z -> (0 <= power < 64)%Z ->
    ev (2 ^ Z.to_N power) r -> cb st r (power =? stop)%Z = UB ->
    multi_pass ev cb stop power st result [] UB
| mp_false : forall power st st' result r, (power <= stop)%Z -> (0 <= power < 64)%Z ->
    ev (2 ^ Z.to_N power) r -> cb st r (power =? stop)%Z = Ok (st', false) ->
    multi_pass ev cb stop power st result [mkcall r (power =? stop)%Z false] (Ok (r, st'))
| mp_true : forall power st st' result r calls out, (power <= stop)%Z -> (0 <= power < 64)%Z ->
    ev (2 ^ Z.to_N power) r -> cb st r (power =? stop)%Z = Ok (st', true) ->
    multi_pass ev cb stop (power + 1) st' r calls out ->
    multi_pass ev cb stop power st result (mkcall r (power =? stop)%Z true :: calls) out.
Definition empty_result : test_battery_result := mkbr "" 0 0 0 [].
Definition evaluate_multi_pass {S} mixed_name defs w (cb : S -> test_battery_result -> bool -> outcome (S * bool)) (setup : test_setup)
  (st : S) (calls : list callback_call) (out : outcome (test_battery_result * S)) : Prop :=
  multi_pass (fun n br => evaluate mixed_name defs w n setup br) cb (ts_stop setup) (ts_start setup) st empty_result calls out.

(* test_command.h:26, 28, 30: the worst analysis of the battery, if any, and whether it passes *)
Definition battery_verdict (L : libs) (br : test_battery_result) : outcome (option bool) :=
  a <- get_worst_statistic_analysis L br ;;
  match a with
  | None => Ok None
  | Some st => p <- pass (l_log10 L) st ;; Ok (Some p)
  end.
(* test_command.h:22-43 create_result_callback.  The state records the on_done calls and the
   printed results, most recent first. *)
Record callback_log : Type := mklog { cl_done : list (test_battery_result * bool); cl_printed : list test_battery_result }.
Definition result_callback (L : libs) (print_intermediate has_on_done : bool)
  (log : callback_log) (br : test_battery_result) (is_last : bool) : outcome (callback_log * bool) :=
  v <- battery_verdict L br ;;
  let proceed := match v with
                 | Some p => if is_last then negb is_last else p
                 | None => negb is_last
                 end in
  let pass := match v with Some p => p | None => true end in
  let printed := if print_intermediate || negb proceed then br :: cl_printed log else cl_printed log in
  let done := if negb proceed && has_on_done then (br, pass) :: cl_done log else cl_done log in
  Ok (mklog done printed, proceed).
