(* Model of tool/src/main.cpp, tool/src/command/test_command.h, inspect_test_command.h,
   exhaust_command.h, tool/src/util/sffsutils.h:27-62 and the file writes of fileutil.cpp:6-19.
   Console output other than the verdict lines of inspect_tests and the powers printed by
   exhaust_command is not modelled; passed_milliseconds neither. *)
From Coq Require Import String Ascii.
From Verif Require Import Base FloatModel StreamModel JobsModel ResultModel EvaluateModel FormatModel TextModel MixerModel.
Open Scope N_scope.

(* types.h:124-126: static_cast<int>(std::ceil(std::log2(n))); [log2] is the C library function.
   Rounding up the truncated value is std::ceil for the non-negative values log2 takes here. *)
Definition power_of_two (log2 : double -> double) (n : N) : outcome N :=
  let d := log2 (double_of_N n) in
  t <- N_of_double 31 d ;; Ok (if dlt (double_of_N t) d then t + 1 else t).

(* fileutil.cpp:6-19: a file is opened for truncation or appending and the text is written;
   the callers ignore the returned success flag, here the operations succeed *)
Inductive file_op : Type := Write (path : string) (content : text) | Append (path : string) (content : text).
Definition disk : Type := string -> option text.
Definition set_file (d : disk) (path : string) (c : text) : disk := fun p => if String.eqb p path then Some c else d p.
Definition apply_op (d : disk) (o : file_op) : disk :=
  match o with
  | Write p c => set_file d p c
  | Append p c => set_file d p ((match d p with Some old => old | None => [] end) ++ c)
  end.
(* a crash while an operation is executed: some prefix of the text has been written *)
Definition cut_op (k : nat) (o : file_op) : file_op :=
  match o with Write p c => Write p (firstn k c) | Append p c => Append p (firstn k c) end.

Notation tx := list_ascii_of_string.
(* what the commands depend on: library functions, the test definitions and the thread default *)
Record env : Type := mkenv { e_libs : libs; e_log2 : double -> double; e_defs : list test_definition; e_threads : N }.

(* streams.h:95-98 *)
Definition mixed_name (mixer_name source_name : string) : string := (mixer_name ++ "(" ++ source_name ++ ")")%string.
(* evaluate.h:126-140 for a setup whose mixer, if any, carries the name of the setup *)
Definition run_setup {S} (E : env) (w : N) (cb : S -> test_battery_result -> bool -> outcome (S * bool)) (setup : test_setup)
  (st : S) (calls : list callback_call) (out : outcome (test_battery_result * S)) : Prop :=
  evaluate_multi_pass (mixed_name (ts_name setup)) (e_defs E) w cb setup st calls out.
(* one setup after the other with the same callback *)
Inductive run_setups {S} (E : env) (w : N) (cb : S -> test_battery_result -> bool -> outcome (S * bool))
  : list test_setup -> S -> outcome S -> Prop :=
| rs_nil : forall st, run_setups E w cb [] st (Ok st)
| rs_cons : forall setup rest st calls r st' out,
    run_setup E w cb setup st calls (Ok (r, st')) -> run_setups E w cb rest st' out ->
    run_setups E w cb (setup :: rest) st out
| rs_ub : forall setup rest st calls,
    run_setup E w cb setup st calls UB -> run_setups E w cb (setup :: rest) st UB.

(* test_setups.h:48-76, 104-108 with the ranges given by the commands; the sources, built by
   stream_sources.h and test_setups.h, are modelled in SeedModel and SetupModel and given here *)
Definition data_setup (E : env) (name : string) (sources : list source) (start stop : Z) : test_setup :=
  mksetup name sources (default_test_types (e_defs E)) None (e_threads E) start stop.
Definition mixer_setup (E : env) (sources : list source) (m : string * (N -> N)) (start stop : Z) : test_setup :=
  mksetup (fst m) sources (default_test_types (e_defs E)) (Some (snd m)) (e_threads E) start stop.
(* the subjects: data files if present, mixers, generators and combiners with their sources *)
Record subjects : Type := mksubjects {
  s_trng : option (list source); s_drng : option (list source);
  s_mixer_sources : list source; s_mixers : list (string * (N -> N));
  s_prngs : list (string * list source); s_combiners : list (string * list source)
}.
Definition on_data {A B} (o : option A) (f : A -> B) : list B := match o with Some a => [f a] | None => [] end.

(* ---------- test_command.h ---------- *)
(* config.h:19-22 *)
Definition test_result_file_path (root : string) (w : N) : string := (root ++ "result_" ++ to_string_N w ++ ".md")%string.
(* test_command.h:53-56 *)
Definition nl : string := String (ascii_of_nat 10) "".
Definition report_header (w : N) : text :=
  tx ("# " ++ to_string_N w ++ "-bit results" ++ nl ++
      "_While TFR is new you should take the results with a grain of salt._" ++ nl ++ nl ++
      "Tests stop when 2^25 stream elements have been tested. A failed test with '*' suffix indicates the meta analysis failed (non uniform p-values)." ++ nl ++ nl ++
      "Source|TFR|Failures|" ++ nl ++ "-|-|-|" ++ nl)%string.
(* test_command.h:58-65; the fuel covers every replacement escape_for_md makes *)
Definition report_line (E : env) (br : test_battery_result) (passed : bool) : outcome text :=
  let name := tx (br_name br) in
  escaped <- match escape_for_md (S (2 * length name)) name with Some s => Ok s | None => UB end ;;
  p <- power_of_two (e_log2 E) (br_n br) ;;
  ras <- get_analysis (e_libs E) br ;;
  failed <- get_failed_tests (e_libs E) (e_defs E) ras ;;
  Ok (escaped ++ tx "|" ++ tx (if passed then ">" else "") ++ tx (to_string_N p) ++ tx "|" ++
      join (map tx failed) (tx ", ") ++ tx nl).
(* test_command.h:22-43 with this on_done (57-66); the state is the sequence of file operations *)
Definition report_callback (E : env) (path : string) (has_on_done : bool) (ops : list file_op) (br : test_battery_result) (is_last : bool)
  : outcome (list file_op * bool) :=
  r <- result_callback (e_libs E) true has_on_done (mklog [] []) br is_last ;;
  lines <- omapM (fun d => report_line E (fst d) (snd d)) (rev (cl_done (fst r))) ;;
  Ok (ops ++ map (Append path) lines, snd r).
(* 69-92 *)
Definition file_ns (w : N) : string := ("file" ++ to_string_N w ++ "::")%string.
Definition test_setups (E : env) (w : N) (s : subjects) : list test_setup :=
  on_data (s_trng s) (fun src => data_setup E (file_ns w ++ "trng") src 10 (Z.min 25 22)) ++
  on_data (s_drng s) (fun src => data_setup E (file_ns w ++ "drng") src 10 (Z.min 25 27)) ++
  map (fun m => mixer_setup E (s_mixer_sources s) m 10 25) (s_mixers s) ++
  map (fun p => data_setup E (fst p) (snd p) 10 25) (s_prngs s) ++
  map (fun c => data_setup E (fst c) (snd c) 10 25) (s_combiners s).
(* 45-93: the file operations of the command *)
Definition test_command (E : env) (debug : bool) (root : string) (w : N) (s : subjects) (out : outcome (list file_op)) : Prop :=
  let path := test_result_file_path root w in
  run_setups E w (report_callback E path (negb debug)) (test_setups E w s)
    (if debug then [] else [Write path (report_header w)]) out.

(* ---------- inspect_test_command.h ---------- *)
(* 46-53; sffsutils.h:47-53 and exhaust_command.h:12-18 are the same function *)
Definition inspect_callback (E : env) (st : unit) (br : test_battery_result) (is_last : bool) : outcome (unit * bool) :=
  v <- battery_verdict (e_libs E) br ;; Ok (tt, match v with Some p => p | None => true end).
(* 61-84: test_setup{name, {source}, {type}, identity}; 18-19 of evaluate.h: default range 10..25 *)
Definition inspect_setup (E : env) (d : test_definition) (src : source) : test_setup :=
  mksetup (td_name d) [src] [td_type d] (Some (fun x => x)) (e_threads E) 10 25.
Inductive inspect_test (E : env) (w : N) (d : test_definition) : list source -> list source * list source -> Prop :=
| it_nil : inspect_test E w d [] ([], [])
| it_cons : forall src rest calls br v passed failed,
    evaluate_multi_pass (mixed_name "identity") (e_defs E) w (inspect_callback E) (inspect_setup E d src) tt calls (Ok (br, tt)) ->
    battery_verdict (e_libs E) br = Ok v ->
    inspect_test E w d rest (passed, failed) ->
    inspect_test E w d (src :: rest)
      (if match v with Some true => true | _ => false end then (src :: passed, failed)
       else if match v with Some false => true | _ => false end then (passed, src :: failed)
       else (passed, failed)).
(* 96-106 *)
Definition is_ok (t : test_type) (fail_sources : list source) (all_should_pass : bool) : bool :=
  match fail_sources with
  | [] => true
  | _ => if tt_eqb t T_runs && negb all_should_pass then (length fail_sources =? 4)%nat else false
  end.
(* 113-122: the printed lines *)
Inductive verdict_line : Type := LinePass (test : string) | LineFail (test source : string).
Definition inspect_lines (d : test_definition) (all_should_pass : bool) (r : list source * list source) : list verdict_line :=
  let fail_sources := if all_should_pass then snd r else fst r in
  if is_ok (td_type d) fail_sources all_should_pass then [LinePass (td_name d)]
  else map (fun s => LineFail (td_name d) (src_name s)) fail_sources.
(* 87-124; [rrc] is create_rrc_sources(sources) *)
Inductive inspect_tests (E : env) (w : N) (sources rrc : list source) (all_should_pass : bool) : list test_definition -> list verdict_line -> Prop :=
| its_nil : inspect_tests E w sources rrc all_should_pass [] []
| its_skip : forall d ds out, all_should_pass = true -> td_mixer d <> None ->
    inspect_tests E w sources rrc all_should_pass ds out -> inspect_tests E w sources rrc all_should_pass (d :: ds) out
| its_run : forall d ds r out, ~ (all_should_pass = true /\ td_mixer d <> None) ->
    inspect_test E w d (if tt_eqb (td_type d) T_mean then sources else rrc) r ->
    inspect_tests E w sources rrc all_should_pass ds out ->
    inspect_tests E w sources rrc all_should_pass (d :: ds) (inspect_lines d all_should_pass r ++ out).

(* 140: std::map<string, map<string, string>>, entries in key order *)
Fixpoint sm_set {A} (k : string) (v : A) (m : list (string * A)) : list (string * A) :=
  match m with
  | [] => [(k, v)]
  | (k0, v0) :: m' => if String.ltb k k0 then (k, v) :: m else if String.ltb k0 k then (k0, v0) :: sm_set k v m' else (k0, v) :: m'
  end.
Fixpoint sm_get {A} (m : list (string * A)) (k : string) : option A :=
  match m with
  | [] => None
  | (k0, v) :: m' => if negb (String.ltb k k0) && negb (String.ltb k0 k) then Some v else sm_get m' k
  end.
Definition per_test_result : Type := list (string * list (string * string)).
(* result[row][column] = cell *)
Definition set_cell (m : per_test_result) (row column cell : string) : per_test_result :=
  sm_set row (sm_set column cell (match sm_get m row with Some r => r | None => [] end)) m.
(* 142-161; the property extractor may change state of its own *)
Definition per_test_callback {S} (E : env) (extract : S -> test_battery_result -> outcome (S * string))
  (st : S * per_test_result) (br : test_battery_result) (is_last : bool) : outcome ((S * per_test_result) * bool) :=
  proceed <- (if is_last then Ok false
              else v <- battery_verdict (e_libs E) br ;; Ok (match v with Some p => p | None => true end)) ;;
  if proceed then Ok (st, true)
  else match br_results br with
       | [] => Ok (st, false)
       | e :: _ => c <- extract (fst st) br ;;
                   Ok ((fst c, set_cell (snd st) (br_name br) (get_test_name (e_defs E) (k_type (fst e))) (snd c)), false)
       end.
(* 196-206: the score is a uint64_t, the added term an int *)
Definition extract_power (E : env) (score : N) (br : test_battery_result) : outcome (N * string) :=
  ras <- get_analysis (e_libs E) br ;;
  match ras with
  | [] => Ok (score, "NA"%string)
  | ra :: _ =>
      ok <- pass (l_log10 (e_libs E)) (ra_stat ra) ;;
      p <- power_of_two (e_log2 E) (br_n br) ;;
      Ok (if ok then score else Z.to_N ((Z.of_N score + (1 + 25 - Z.of_N p)) mod 2 ^ 64), 
          ((if ok then ">" else "") ++ to_string_N p)%string)
  end.
(* 163-188 *)
Definition table_text (E : env) (m : per_test_result) : text :=
  let bar := tx "|" in
  tx "name|" ++ flat_map (fun d => tx (td_name d) ++ bar) (e_defs E) ++ tx nl ++
  flat_map (fun _ => tx "-|") (e_defs E) ++ tx "-" ++ tx nl ++
  flat_map (fun e => tx (fst e) ++ bar ++
                     flat_map (fun d => (match sm_get (snd e) (td_name d) with Some c => tx c | None => [] end) ++ bar) (e_defs E) ++ tx nl) m.
Definition table_path (root name : string) (w : N) : string := (root ++ name ++ "_per_test" ++ to_string_N w ++ ".md")%string.
(* 209-236 *)
Definition with_test (t : test_type) (s : test_setup) : test_setup :=
  mksetup (ts_name s) (ts_sources s) [t] (ts_mix s) (ts_max_threads s) (ts_start s) (ts_stop s).
Definition per_test_setups (E : env) (s : subjects) (t : test_type) : list test_setup :=
  map (with_test t)
    (on_data (s_trng s) (fun src => data_setup E "trng" src 10 (Z.min 25 22)) ++
     on_data (s_drng s) (fun src => data_setup E "drng" src 10 25) ++
     map (fun m => mixer_setup E (s_mixer_sources s) m 10 25) (s_mixers s) ++
     map (fun c => data_setup E (fst c) (snd c) 10 25) (s_combiners s) ++
     map (fun p => data_setup E (fst p) (snd p) 10 25) (s_prngs s)).
(* 191-244; [times] are the texts of the measured times, one per test.  The outcome is the list of
   file writes and the final table. *)
Inductive per_test_loop (E : env) (root : string) (w : N) (s : subjects) : list test_definition -> list string -> per_test_result ->
  outcome (list file_op * per_test_result) -> Prop :=
| pt_nil : forall m, per_test_loop E root w s [] [] m (Ok ([], m))
| pt_cons : forall d ds time times m score m1 ops m',
    run_setups E w (per_test_callback E (extract_power E)) (per_test_setups E s (td_type d)) (0, m) (Ok (score, m1)) ->
    let m2 := set_cell (set_cell m1 "!score" (td_name d) (to_string_N score)) "!time" (td_name d) time in
    per_test_loop E root w s ds times m2 (Ok (ops, m')) ->
    per_test_loop E root w s (d :: ds) (time :: times) m (Ok (Write (table_path root "power_of_two" w) (table_text E m2) :: ops, m'))
| pt_ub : forall d ds time times m,
    run_setups E w (per_test_callback E (extract_power E)) (per_test_setups E s (td_type d)) (0, m) UB ->
    per_test_loop E root w s (d :: ds) (time :: times) m UB
| pt_later_ub : forall d ds time times m score m1,
    run_setups E w (per_test_callback E (extract_power E)) (per_test_setups E s (td_type d)) (0, m) (Ok (score, m1)) ->
    per_test_loop E root w s ds times (set_cell (set_cell m1 "!score" (td_name d) (to_string_N score)) "!time" (td_name d) time) UB ->
    per_test_loop E root w s (d :: ds) (time :: times) m UB.
Definition inspect_per_test (E : env) (root : string) (w : N) (s : subjects) (times : list string) (out : outcome (list file_op * per_test_result)) : Prop :=
  per_test_loop E root w s (e_defs E) times [] out.

(* ---------- sffsutils.h ---------- *)
(* 27-44; *kolmogorov_smirnov_stats always has a value.  An int to double conversion. *)
Definition double_of_Z (z : Z) : double := dconst z 0.
Definition get_score (E : env) (br : test_battery_result) (max_power : Z) : outcome double :=
  p <- power_of_two (e_log2 E) (br_n br) ;;
  let s1 := double_of_Z (max_power - Z.of_N p) in
  let all_p_values := flat_map (fun e => to_p_values (snd e)) (br_results br) in
  let ks l := st_value (kolmogorov_smirnov_stats (l_exp (e_libs E)) (l_sort_double (e_libs E)) l) in
  let s2 := ks all_p_values in
  ras <- get_analysis (e_libs E) br ;;
  let s3 := match ras with [] => d0 | ra :: _ => ks (to_p_values (ra_results ra)) end in
  Ok (dadd (dadd s1 s2) s3).
(* 46-58 *)
Definition fitness_test (E : env) (w : N) (setup : test_setup) (score : outcome double) : Prop :=
  exists calls out, run_setup E w (inspect_callback E) setup tt calls out /\
    score = (r <- out ;; get_score E (fst r) (ts_stop setup)).

(* ---------- exhaust_command.h ---------- *)
(* for (c = from; c < to; ++c) *)
Definition from_to (from to : N) : list N := map (fun i => from + N.of_nat i) (seq 0 (N.to_nat (to - from))).
(* 27-32: the constants in the order they are tried; the multiplier is 2471660141 *)
Definition exhaust_constants : list (N * N * N) :=
  flat_map (fun c1 => flat_map (fun c2 => map (fun c3 => (c1, c2, c3)) (from_to 9 20)) (from_to 9 21)) (from_to 9 21).
Definition exhaust_mixer (c : N * N * N) (x : N) : N :=
  match xm2x_mixer 32 (fst (fst c)) (snd (fst c)) (snd c) 2471660141 x with Ok y => y | UB => 0 end.
(* 24-36, 44-52: every constant is evaluated, the powers are sorted (descending, [sort]) and the
   first 21 printed.  The name of the mixer is irrelevant here. *)
Definition exhaust_evaluated (E : env) (sources : list source) (c : N * N * N) (br : test_battery_result) : Prop :=
  exists calls, run_setup E 32 (inspect_callback E) (mixer_setup E sources ("xm2x"%string, exhaust_mixer c) 10 27) tt calls (Ok (br, tt)).
Definition exhaust_prints (E : env) (sort : list N -> list N) (sources : list source) (printed : list N) : Prop :=
  exists brs powers, Forall2 (exhaust_evaluated E sources) exhaust_constants brs /\
    omapM (fun br => power_of_two (e_log2 E) (br_n br)) brs = Ok powers /\
    printed = firstn 21 (sort powers).

(* ---------- main.cpp:39-92 ---------- *)
(* the template instances a command runs, in order *)
Inductive task : Type := TestTask (w : N) | SearchTask (w : N) | InspectTask (w : N) | PerTestTask (w : N) | SpeedTask (w : N) | PpmTask (w : N) | ExhaustTask.
Definition command_tasks (command : string) : option (list task) :=
  if String.eqb command "-test" then Some [TestTask 8; TestTask 16; TestTask 32; TestTask 64]
  else if String.eqb command "-search" then Some [SearchTask 32]
  else if String.eqb command "-inspect-test" then
    Some [InspectTask 8; InspectTask 16; InspectTask 32; InspectTask 64; PerTestTask 32; PerTestTask 64; SpeedTask 32; SpeedTask 64]
  else if String.eqb command "-ppm" then Some [PpmTask 32]
  else if String.eqb command "-exhaust" then Some [ExhaustTask]
  else None.
(* args excludes the program name; [throws t]: task t throws a std::runtime_error.  The result is the
   tasks started and the exit code *)
Fixpoint run_tasks (throws : task -> bool) (ts : list task) : list task :=
  match ts with [] => [] | t :: ts' => t :: (if throws t then [] else run_tasks throws ts') end.
Definition main (throws : task -> bool) (args : list string) : list task * N :=
  match args with
  | [root; command] =>
      match command_tasks command with
      | Some ts => (run_tasks throws ts, 0)
      | None => ([], 1)
      end
  | _ => ([], 1)
  end.
