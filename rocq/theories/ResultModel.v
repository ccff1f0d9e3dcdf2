(* Model of the result types of core/src/types.h, of core/src/statistics/kolmogorov.h and of
   core/src/util/statistic_analysis.h. *)
From Coq Require Import String DecimalString DecimalN.
From Verif Require Import Base FloatModel.
Open Scope N_scope.

(* std::to_string of an unsigned number *)
Definition to_string_N (n : N) : string := NilEmpty.string_of_uint (N.to_uint n).

(* types.h:27-32 *)
Inductive statistic_type : Type := Z_score | Chi2 | Kolmogorov_smirnov_d | Anderson_darling_A2.
(* types.h:34-49 *)
Inductive test_type : Type :=
| T_mean | T_uniform | T_runs | T_serial_avalanche | T_gap | T_coupon | T_divisibility
| T_permutation | T_binary_rank | T_linear_complexity | T_sac | T_bic.
(* the underlying value of the enumerators, in order of declaration *)
Definition tt_index (t : test_type) : nat :=
  match t with
  | T_mean => 0 | T_uniform => 1 | T_runs => 2 | T_serial_avalanche => 3 | T_gap => 4 | T_coupon => 5
  | T_divisibility => 6 | T_permutation => 7 | T_binary_rank => 8 | T_linear_complexity => 9
  | T_sac => 10 | T_bic => 11
  end%nat.
Definition tt_eqb (a b : test_type) : bool := (tt_index a =? tt_index b)%nat.

(* types.h:51-63; the assertions of the constructor are compiled out in release builds *)
Record statistic : Type := mkstat { st_type : statistic_type; st_value : double; st_p : double; st_df : double }.

(* types.h:81-94 test_key and its operator< ; std::string compares bytes as unsigned char *)
Record test_key : Type := mkkey { k_type : test_type; k_name : string }.
Definition key_lt (a b : test_key) : bool :=
  if negb (tt_eqb (k_type a) (k_type b)) then (tt_index (k_type a) <? tt_index (k_type b))%nat
  else if negb (String.eqb (k_name a) (k_name b)) then String.ltb (k_name a) (k_name b)
  else false.

(* types.h:96-102 *)
Record test_result : Type := mktr {
  tr_stream : string; tr_mixer : string; tr_n : N; tr_key : test_key; tr_stats : statistic
}.

(* types.h:105 std::map<test_key, std::vector<test_result>>: entries in key order; keys a, b are
   the same when neither a < b nor b < a *)
Definition result_map : Type := list (test_key * list test_result).
(* types.h:114-116 add: results[r.key].push_back(r) *)
Fixpoint map_add (r : test_result) (m : result_map) : result_map :=
  match m with
  | [] => [(tr_key r, [r])]
  | (k, v) :: m' =>
      if key_lt (tr_key r) k then (tr_key r, [r]) :: m
      else if key_lt k (tr_key r) then (k, v) :: map_add r m'
      else (k, v ++ [r]) :: m'
  end.
(* types.h:118-122 operator[] *)
Fixpoint map_get (m : result_map) (k : test_key) : list test_result :=
  match m with
  | [] => []
  | (k0, v) :: m' => if negb (key_lt k k0) && negb (key_lt k0 k) then v else map_get m' k
  end.

(* types.h:104-127, without passed_milliseconds *)
Record test_battery_result : Type := mkbr {
  br_name : string; br_n : N; br_samples : N; br_bits : N; br_results : result_map
}.

(* ---------- kolmogorov.h ---------- *)
Definition c0_12 : double := dconst 8646911284551352 (-56).
Definition c0_11 : double := dconst 7926335344172073 (-56).
Definition c0_5 : double := dconst 1 (-1).
Definition dsqrt : double -> double := Bsqrt mode_NE.
Definition dneg : double -> double := Bopp.
(* std::clamp(v, lo, hi) *)
Definition dclamp (v lo hi : double) : double := if dlt v lo then lo else if dlt hi v then hi else v.

(* distributions.cpp:119-132; [exp] is the C library function *)
Definition ks_term (exp : double -> double) (ks2 : double) (k : N) : double :=
  dmul (if N.odd k then d1 else dneg d1)
       (exp (dmul (dmul (dmul (dneg (double_of_N 2)) ks2) (double_of_N k)) (double_of_N k))).
Definition kolmogorov_smirnov_cdf (exp : double -> double) (D df : double) (conv : N) : double :=
  let sn := dsqrt df in
  let ks := dmul D (dadd (dadd sn c0_12) (ddiv c0_11 sn)) in
  let ks2 := dmul ks ks in
  let res := fold_left (fun res k =>
      let x := ks_term exp ks2 k in
      if k =? conv then dadd res (dmul c0_5 x) else dadd res x)
    (map (fun i => N.of_nat i + 1) (seq 0 (N.to_nat conv))) d0 in
  dclamp (dmul (double_of_N 2) res) d0 d1.

(* kolmogorov.h:13-20; the loop body for the i-th smallest value d *)
Definition ks_step (n : double) (max_distance : double) (id : nat * double) : double :=
  let '(i, d) := id in
  let e0 := ddiv (double_of_N (N.of_nat i)) n in
  let e1 := ddiv (double_of_N (N.of_nat i + 1)) n in
  let distance := dmax (dabs (dsub e0 d)) (dabs (dsub e1 d)) in
  dmax distance max_distance.
(* kolmogorov.h:10-23; [sort] is std::sort on doubles *)
Definition ks_distance (sort : list double -> list double) (data01 : list double) : double :=
  let sorted := sort data01 in
  fold_left (ks_step (double_of_N (N.of_nat (length sorted)))) (combine (seq 0 (length sorted)) sorted) d0.
Definition kolmogorov_smirnov_stats (exp : double -> double) (sort : list double -> list double)
  (data01 : list double) : statistic :=
  let n := double_of_N (N.of_nat (length data01)) in
  let D := ks_distance sort data01 in
  mkstat Kolmogorov_smirnov_d D (kolmogorov_smirnov_cdf exp D n 100) n.

(* ---------- statistic_analysis.h ---------- *)
(* 19-26 *)
Definition to_p_values (rs : list test_result) : list double := map (fun r => st_p (tr_stats r)) rs.
(* 28-33 *)
Definition get_comparable_p_value (s : statistic) : double :=
  match st_type s with
  | Z_score => st_p s
  | _ => dmin (st_p s) (dsub d1 (st_p s))
  end.
Definition p_of (r : test_result) : double := get_comparable_p_value (tr_stats r).
(* 35-44: dereferencing the empty optional is UB *)
Definition worst_step (worst : option test_result) (tr : test_result) : option test_result :=
  match worst with
  | None => Some tr
  | Some w => if dlt (p_of tr) (p_of w) then Some tr else Some w
  end.
Definition get_worst_result (rs : list test_result) : outcome test_result :=
  match fold_left worst_step rs None with Some w => Ok w | None => UB end.

(* 63-71; [log10] is the C library function; 1e-10 as a double *)
Definition c1em10 : double := dconst 7737125245533627 (-86).
Definition get_failure_strength (log10 : double -> double) (s : statistic) : outcome N :=
  let p := get_comparable_p_value s in
  if dlt p c1em10 then Ok 10 else N_of_double 32 (dabs (log10 p)).
(* 51-61 *)
Definition has_suspicion (log10 : double -> double) (s : statistic) : outcome bool :=
  f <- get_failure_strength log10 s ;; Ok (4 <? f).
Definition pass (log10 : double -> double) (s : statistic) : outcome bool :=
  f <- get_failure_strength log10 s ;; Ok (f <? 9).

(* 121-138 *)
Inductive analysis_type : Type := Sample | Meta.
Record result_analysis : Type := mkra {
  ra_type : analysis_type; ra_stream : string; ra_key : test_key; ra_stat : statistic; ra_results : list test_result
}.
Definition ra_p (ra : result_analysis) : double := get_comparable_p_value (ra_stat ra).
Definition ra_lt (a b : result_analysis) : bool := dlt (ra_p a) (ra_p b).

(* The C and C++ library facilities the analysis depends on. *)
Record libs : Type := mklibs {
  l_exp : double -> double;
  l_log10 : double -> double;
  l_sort_double : list double -> list double;
  l_sort_ra : list result_analysis -> list result_analysis
}.

(* 140-152 get_analysis: the loop body for one map entry, then std::sort *)
Definition analyse_entry (L : libs) (e : test_key * list test_result) : outcome (list result_analysis) :=
  worst <- get_worst_result (snd e) ;;
  Ok [ mkra Sample (tr_stream worst) (fst e) (tr_stats worst) (snd e);
       mkra Meta ("meta analysis over " ++ to_string_N (N.of_nat (length (snd e))) ++ " samples")%string (fst e)
            (kolmogorov_smirnov_stats (l_exp L) (l_sort_double L) (to_p_values (snd e))) (snd e) ].
Definition get_analysis (L : libs) (br : test_battery_result) : outcome (list result_analysis) :=
  ras <- omapM (analyse_entry L) (br_results br) ;; Ok (l_sort_ra L (concat ras)).
(* 154-160 *)
Definition get_worst_statistic_analysis (L : libs) (br : test_battery_result) : outcome (option statistic) :=
  ras <- get_analysis L br ;;
  match ras with [] => Ok None | ra :: _ => Ok (Some (ra_stat ra)) end.
