(* Independent vocabulary for the printed results. *)
From Coq Require Import Reals String.
From Verif Require Import Base FloatModel ResultModel ResultSpec EvaluateModel FormatModel.

(* Whether an analysis is called suspicious, or failed (both are defined for valid p-values). *)
Definition susb (L : libs) (ra : result_analysis) : bool :=
  match has_suspicion (l_log10 L) (ra_stat ra) with Ok b => b | UB => false end.
Definition failb (L : libs) (ra : result_analysis) : bool :=
  match pass (l_log10 L) (ra_stat ra) with Ok b => negb b | UB => false end.
(* A valid analysis; ordering by how bad it is; membership in a test type. *)
Definition vra (ra : result_analysis) : Prop := valid_stat (ra_stat ra).
Definition ple (a b : result_analysis) : Prop := (two_sided (ra_stat a) <= two_sided (ra_stat b))%R.
Definition of_type (t : test_type) (ra : result_analysis) : bool := tt_eqb (k_type (ra_key ra)) t.
(* lexicographic order of names *)
Definition slt (a b : string) : Prop := String.ltb a b = true.
(* A battery result as evaluations build it: by adding results with valid p-values one by one. *)
Definition built_from (h : list test_result) (br : test_battery_result) : Prop :=
  br_results br = fold_left (fun m r => map_add r m) h [] /\
  Forall (fun r => valid_stat (tr_stats r)) h /\ (N.of_nat (length h) < 2 ^ 64)%N.
(* The number of values that the histogram places in line j. *)
Definition in_bin (j : nat) (r : double) : bool :=
  match hist_index r with Ok i => (i =? j)%nat | UB => false end.
