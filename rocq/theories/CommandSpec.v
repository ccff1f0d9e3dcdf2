(* Independent vocabulary for the tool's commands. *)
From Coq Require Import String Ascii Reals Sorted.
From Verif Require Import Base FloatModel StreamModel JobsModel ResultModel ResultSpec EvaluateModel EvaluateSpec FormatModel FormatSpec TextModel TextSpec CommandModel.
Open Scope N_scope.

(* std::log2 is exact for the powers of two below 2^64 *)
Definition good_log2 (log2 : double -> double) : Prop := forall k, k < 64 -> log2 (double_of_N (2 ^ k)) = double_of_N k.
(* the platform: correct sorts, exp, log10 and log2, at least one thread, the project's tests *)
Definition good_env (E : env) (pow : double -> double -> double) (rt : raw_tests) : Prop :=
  good_sorts (e_libs E) /\ good_exp (l_exp (e_libs E)) /\ good_log10 (l_log10 (e_libs E)) /\ good_log2 (e_log2 E) /\
  e_defs E = get_tests pow rt /\ 1 <= e_threads E.
(* the tests give valid p-values for this setup at each power of two it runs (and fewer than 2^64
   results), and the setup runs on at least one thread within powers 0..63 *)
Definition sound_setup (mixed : string -> string) (E : env) (setup : test_setup) : Prop :=
  1 <= ts_max_threads setup /\ job_count (e_defs E) setup < 2 ^ 32 /\ (0 <= ts_start setup)%Z /\ (ts_start setup <= ts_stop setup)%Z /\ (ts_stop setup < 64)%Z /\
  forall p, (ts_start setup <= Z.of_N p <= ts_stop setup)%Z ->
    Forall (fun r => valid_stat (tr_stats r)) (sequential_results mixed (e_defs E) (2 ^ p) setup) /\
    N.of_nat (length (sequential_results mixed (e_defs E) (2 ^ p) setup)) < 2 ^ 64.

(* The run of a subject ended at 2^p with battery br and verdict v (None: no results): that battery
   failed or p is the last power, and the batteries at all lower powers did not fail. *)
Definition ended (mixed : string -> string) (E : env) (w : N) (setup : test_setup) (p : N) (br : test_battery_result) (v : option bool) : Prop :=
  (ts_start setup <= Z.of_N p <= ts_stop setup)%Z /\
  evaluate mixed (e_defs E) w (2 ^ p) setup br /\ battery_verdict (e_libs E) br = Ok v /\
  (v = Some false \/ Z.of_N p = ts_stop setup) /\
  forall q, (ts_start setup <= Z.of_N q < Z.of_N p)%Z ->
    exists br' v', evaluate mixed (e_defs E) w (2 ^ q) setup br' /\ battery_verdict (e_libs E) br' = Ok v' /\ v' <> Some false.
Definition failing (v : option bool) : bool := match v with Some false => true | _ => false end.

(* '>' before the power for a subject that did not fail *)
Definition power_text (v : option bool) (p : N) : string := ((if failing v then "" else ">") ++ to_string_N p)%string.

(* ---- test report ---- *)
(* name and last power of every subject, in the order of the report *)
Definition report_subjects (w : N) (s : subjects) : list (string * Z) :=
  match s_trng s with Some _ => [(("file" ++ to_string_N w ++ "::trng")%string, 22%Z)] | None => [] end ++
  match s_drng s with Some _ => [(("file" ++ to_string_N w ++ "::drng")%string, 25%Z)] | None => [] end ++
  map (fun m => (fst m, 25%Z)) (s_mixers s) ++ map (fun p => (fst p, 25%Z)) (s_prngs s) ++ map (fun c => (fst c, 25%Z)) (s_combiners s).
(* a row: escaped name | power | failed tests, and a line feed *)
Definition report_row (E : env) (w : N) (setup : test_setup) (row : text) : Prop :=
  exists p br v ras failed, ended (mixed_name (ts_name setup)) E w setup p br v /\
    get_analysis (e_libs E) br = Ok ras /\ get_failed_tests (e_libs E) (e_defs E) ras = Ok failed /\
    (failed = [] <-> failing v = false) /\
    row = md_escaped (tx (ts_name setup)) ++ tx "|" ++ tx (power_text v p) ++ tx "|" ++ intercalate (tx ", ") (map tx failed) ++ tx nl.

(* What is on the disk when the process dies: some operations are complete, and the next one may
   have written a part of its text. *)
Definition crash_state (d : disk) (ops : list file_op) (d' : disk) : Prop :=
  exists i, d' = fold_left apply_op (firstn i ops) d \/
    exists o k, nth_error ops i = Some o /\ d' = apply_op (fold_left apply_op (firstn i ops) d) (cut_op k o).

(* ---- per test table ---- *)
(* how the run of each subject ended: None if its last battery had no results *)
Definition judged (mixed : string -> string) (E : env) (w : N) (setup : test_setup) (e : option (bool * N)) : Prop :=
  exists p br v, ended mixed E w setup p br v /\
    e = match br_results br with [] => None | _ => Some (failing v, p) end.
(* the cell of a row: that of the last subject of that name which had results *)
Fixpoint cell_of (name : string) (ends : list (string * option (bool * N))) : option string :=
  match ends with
  | [] => None
  | (n, e) :: rest =>
      match cell_of name rest with
      | Some c => Some c
      | None => match e with
                | Some (failed, p) => if String.eqb n name then Some ((if failed then "" else ">") ++ to_string_N p)%string else None
                | None => None
                end
      end
  end.
(* 26 - p for each subject that fails at 2^p *)
Fixpoint score_of (ends : list (string * option (bool * N))) : N :=
  match ends with
  | [] => 0
  | (_, Some (true, p)) :: rest => (26 - p) + score_of rest
  | _ :: rest => score_of rest
  end.
Definition cell (m : per_test_result) (row column : string) : option string :=
  match sm_get m row with Some r => sm_get r column | None => None end.
(* the column of test d after all subjects were run with it: each subject's cell, the score, the time *)
Definition column_filled (m : per_test_result) (d : test_definition) (names : list string) (ends : list (option (bool * N))) (time : string) : Prop :=
  (forall row, row <> "!score"%string -> row <> "!time"%string -> cell m row (td_name d) = cell_of row (combine names ends)) /\
  cell m "!score" (td_name d) = Some (to_string_N (score_of (combine names ends))) /\
  cell m "!time" (td_name d) = Some time.
(* the rows of the table: every name with an entry, once, in increasing order *)
Definition table_rows (m : per_test_result) (rows : list string) : Prop :=
  StronglySorted slt rows /\ forall r, In r rows <-> exists c, cell m r c <> None.
(* a markdown table with a first column "name" and one column per test *)
Definition table_of (columns rows : list string) (entry : string -> string -> option string) : text :=
  tx "name|" ++ flat_map (fun c => tx c ++ tx "|") columns ++ tx nl ++
  flat_map (fun _ => tx "-|") columns ++ tx "-" ++ tx nl ++
  flat_map (fun r => tx r ++ tx "|" ++ flat_map (fun c => tx (match entry r c with Some t => t | None => "" end) ++ tx "|") columns ++ tx nl) rows.

(* ---- inspect test ---- *)
(* the sources with verdict b, in order *)
Fixpoint with_verdict (b : bool) (l : list source) (vs : list (option bool)) : list source :=
  match l, vs with
  | s :: l', v :: vs' => if match v with Some x => Bool.eqb x b | None => false end then s :: with_verdict b l' vs' else with_verdict b l' vs'
  | _, _ => []
  end.

(* ---- tests that give at most k results, all with valid p-values ---- *)
Definition valid_subs (k : nat) (l : list sub_test) : Prop :=
  (length l <= k)%nat /\ Forall (fun s => match s with mksub _ (Some st) => valid_stat st | mksub _ None => True end) l.
Definition valid_tests (k : nat) (rt : raw_tests) : Prop :=
  Forall (fun t : stream_test => forall n src, valid_subs k (t n src))
    [rt_mean rt; rt_uniform rt; rt_runs rt; rt_serial_avalanche rt; rt_gap rt; rt_coupon rt; rt_divisibility rt; rt_permutation rt; rt_binary_rank rt; rt_linear_complexity rt] /\
  Forall (fun t : mixer_test => forall n src mix, valid_subs k (t n src mix)) [rt_sac rt; rt_bic rt].
