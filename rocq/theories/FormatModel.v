(* Model of core/src/format_result.h (without the layout of the printed table, see TableModel). *)
From Coq Require Import String Ascii.
From Verif Require Import Base FloatModel ResultModel EvaluateModel.
Open Scope N_scope.

(* ---------- draw_histogram, format_result.h:10-28 ---------- *)
(* 15: static_cast<size_t>(r * bins.size()), clipped to the last bin *)
Definition hist_index (r : double) : outcome nat :=
  i <- N_of_double 64 (dmul r (double_of_N 30)) ;; Ok (N.to_nat (N.min i 29)).
(* 11-18: the bins and the running maximum *)
Definition hist_step (s : list N * N) (r : double) : outcome (list N * N) :=
  let '(bins, max_count) := s in
  i <- hist_index r ;;
  b <- at_ bins i ;;
  Ok (upd bins i (b + 1), N.max (b + 1) max_count).
Definition hist_bins (data : list double) : outcome (list N * N) := ofold hist_step data (repeat 0 30, 0).
(* 19 *)
Definition hist_scale (max_count : N) : double := dmin d1 (ddiv (double_of_N 80) (double_of_N max_count)).
(* 21-23: the loop 'for (int i = 0; i < x; ++i)' prints [stars] stars: it stops at the first i with
   not (i < x).  (int overflow needs a bar of 2^31 stars, which the scale excludes.) *)
Definition bar (x : double) (stars : N) : Prop :=
  (forall i, i < stars -> dlt (double_of_N i) x = true) /\ dlt (double_of_N stars) x = false.
(* the printed lines, as numbers of stars *)
Definition draws_histogram (data : list double) (lines : list N) : Prop :=
  exists bins m, hist_bins data = Ok (bins, m) /\
    Forall2 (fun b stars => bar (dmul (hist_scale m) (double_of_N b)) stars) bins lines.

(* ---------- names, format_result.h:34-36 and test_definitions.h:58-60 ---------- *)
Definition get_test_name (defs : list test_definition) (t : test_type) : string := td_name (get_test_definition defs t).
Definition key_to_string (defs : list test_definition) (k : test_key) : string :=
  (get_test_name defs (k_type k) ++ (if String.eqb (k_name k) "" then "" else ":" ++ k_name k))%string.

(* ---------- filter_to_show, format_result.h:42-72 ---------- *)
(* all enumerators in the order of std::map<test_type, ...> *)
Definition all_types : list test_type :=
  [ T_mean; T_uniform; T_runs; T_serial_avalanche; T_gap; T_coupon; T_divisibility; T_permutation; T_binary_rank;
    T_linear_complexity; T_sac; T_bic ].
Fixpoint ocount {A} (f : A -> outcome bool) (l : list A) : outcome N :=
  match l with
  | [] => Ok 0
  | a :: l' => b <- f a ;; n <- ocount f l' ;; Ok ((if b then 1 else 0) + n)
  end.
Definition suspicious (L : libs) (ra : result_analysis) : outcome bool := has_suspicion (l_log10 L) (ra_stat ra).
(* 57-66 *)
Fixpoint show_loop (L : libs) (showing_count : N) (ras : list result_analysis) (added : N) : outcome (list result_analysis) :=
  match ras with
  | [] => Ok []
  | m :: rest =>
      q <- suspicious L m ;;
      let added := if q then added + 1 else added in
      let here := if q then [m] else [] in
      if added =? showing_count then Ok here
      else r <- show_loop L showing_count rest added ;; Ok (here ++ r)
  end.
(* 51-68 for one map entry *)
Definition show_entry (L : libs) (ras : list result_analysis) : outcome (list result_analysis) :=
  suspicious_count <- ocount (suspicious L) ras ;;
  let showing_count := N.min suspicious_count 3 in
  match ras with
  | [] => UB
  | worst :: _ =>
      q <- suspicious L worst ;;
      if q then show_loop L showing_count ras 0 else Ok []
  end.
(* 45-48: the non-empty groups, in type order, each in the order of the sorted results *)
Definition per_test (ras : list result_analysis) : list (list result_analysis) :=
  filter (fun g => match g with [] => false | _ => true end)
    (map (fun t => filter (fun ra => tt_eqb (k_type (ra_key ra)) t) ras) all_types).
Definition filter_to_show (L : libs) (results : list result_analysis) : outcome (list result_analysis) :=
  shown <- omapM (show_entry L) (per_test (l_sort_ra L results)) ;; Ok (l_sort_ra L (concat shown)).

(* ---------- get_failed_tests, format_result.h:82-109 ---------- *)
(* std::set<std::string>::insert, elements in order *)
Fixpoint set_insert (x : string) (s : list string) : list string :=
  match s with
  | [] => [x]
  | y :: s' => if String.ltb x y then x :: s else if String.ltb y x then y :: set_insert x s' else s
  end.
Definition set_contains (x : string) (s : list string) : bool :=
  existsb (fun y => negb (String.ltb x y) && negb (String.ltb y x)) s.
Definition is_meta (ra : result_analysis) : bool := match ra_type ra with Meta => true | Sample => false end.
Definition get_failed_tests (L : libs) (defs : list test_definition) (ras : list result_analysis) : outcome (list string) :=
  names <- ofold (fun s ra => p <- pass (l_log10 L) (ra_stat ra) ;;
             Ok (if p then s else if is_meta ra then s else set_insert (key_to_string defs (ra_key ra)) s)) ras [] ;;
  ofold (fun r ra => p <- pass (l_log10 L) (ra_stat ra) ;;
     Ok (if p then r else if negb (is_meta ra) then r
         else let name := key_to_string defs (ra_key ra) in
              if set_contains name names then r else r ++ [(name ++ "*")%string])) ras names.

(* get_tests, format_result.h:74-80 *)
Definition battery_tests (defs : list test_definition) (br : test_battery_result) : list string :=
  fold_left (fun s e => set_insert (get_test_name defs (k_type (fst e))) s) (br_results br) [].

(* ---------- the summary of print_battery_result, format_result.h:120, 131-143 ---------- *)
Inductive summary : Type :=
| Inconclusive
| Concluded (passed : bool) (failures suspicious : Z).
Definition print_summary (L : libs) (br : test_battery_result) : outcome summary :=
  ras <- get_analysis L br ;;
  match br_results br with
  | [] => Ok Inconclusive
  | _ =>
      failures <- ocount (fun ra => p <- pass (l_log10 L) (ra_stat ra) ;; Ok (negb p)) ras ;;
      susp <- ocount (suspicious L) ras ;;
      match ras with
      | [] => UB
      | ra :: _ => p <- pass (l_log10 L) (ra_stat ra) ;;
                   Ok (Concluded p (Z.of_N failures) (Z.of_N susp - Z.of_N failures))
      end
  end.
