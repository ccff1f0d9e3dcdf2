(* Properties C31, C62: printed results (core/src/format_result.h). *)
From Coq Require Import Reals Lra Permutation Sorted String.
From Flocq Require Import Core.
From Verif Require Import Base FloatModel FloatLemmas ResultModel ResultSpec ResultProofs EvaluateModel EvaluateSpec EvalProofs LibInst
  FormatModel FormatSpec HistProofs FormatProofs.

(* ---- C31 ---- *)
(* The table lists, worst first, for every test type the (up to) three worst suspicious analyses. *)
Theorem C31_shown : forall L results, good_sorts L -> good_log10 (l_log10 L) -> Forall vra results ->
  exists out, filter_to_show L results = Ok out /\ StronglySorted ple out /\
    forall t, let shown := filter (of_type t) out in
      let suspects := filter (fun ra => of_type t ra && susb L ra) results in
      exists rest, Permutation suspects (shown ++ rest) /\ length shown = Nat.min 3 (length suspects) /\
        forall a b, In a shown -> In b rest -> ple a b.
Proof.
  intros L results S G V. destruct (filter_to_show_ok L results S G V) as (out & E & A & _ & B).
  exists out. split; [exact E|]. split; [exact A|exact B].
Qed.
Print Assumptions C31_shown.

(* The failed tests: first the names of all keys with a failing recorded result, in order; then,
   marked with a star, those with only a failing meta analysis; no name twice. *)
Theorem C31_failed_tests : forall L pow rt h br ras, good_sorts L -> good_exp (l_exp L) -> good_log10 (l_log10 L) ->
  built_from h br -> get_analysis L br = Ok ras ->
  let name ra := key_to_string (get_tests pow rt) (ra_key ra) in
  exists samples metas, get_failed_tests L (get_tests pow rt) ras = Ok (samples ++ metas) /\
    StronglySorted slt samples /\ NoDup samples /\ NoDup metas /\
    (forall s, In s samples <-> exists ra, In ra ras /\ ra_type ra = Sample /\ failb L ra = true /\ s = name ra) /\
    (forall s, In s metas <-> exists ra, In ra ras /\ ra_type ra = Meta /\ failb L ra = true /\ s = (name ra ++ "*")%string /\ ~ In (name ra) samples).
Proof. exact failed_built. Qed.
Print Assumptions C31_failed_tests.

(* The list of failed tests is empty exactly for a battery that passes. *)
Theorem C31_no_failed_tests_iff_pass : forall L pow rt h br ras, good_sorts L -> good_exp (l_exp L) -> good_log10 (l_log10 L) ->
  built_from h br -> h <> [] -> get_analysis L br = Ok ras ->
  battery_verdict L br = Ok (Some true) <-> get_failed_tests L (get_tests pow rt) ras = Ok [].
Proof. exact failed_verdict. Qed.
Print Assumptions C31_no_failed_tests_iff_pass.

(* Different keys are printed differently. *)
Theorem C31_key_names_distinct : forall pow rt k k',
  key_to_string (get_tests pow rt) k = key_to_string (get_tests pow rt) k' -> k = k'.
Proof. exact key_to_string_inj. Qed.
Print Assumptions C31_key_names_distinct.

(* The header lists the names of the tests with results, sorted and without repetition. *)
Theorem C31_header_tests : forall defs br, StronglySorted slt (battery_tests defs br) /\
  forall s, In s (battery_tests defs br) <-> exists e, In e (br_results br) /\ s = get_test_name defs (k_type (fst e)).
Proof. exact battery_tests_ok. Qed.
Print Assumptions C31_header_tests.

(* The printed conclusion: INCONCLUSIVE without results; otherwise PASSED exactly when no analysis
   fails, with the number of failing analyses and of those that are suspicious but do not fail. *)
Theorem C31_summary : forall L br, good_sorts L -> good_exp (l_exp L) -> good_log10 (l_log10 L) -> ok_map (br_results br) ->
  (br_results br = [] -> print_summary L br = Ok Inconclusive) /\
  (br_results br <> [] -> exists ras p, get_analysis L br = Ok ras /\
     print_summary L br = Ok (Concluded p (Z.of_nat (length (filter (failb L) ras)))
                                 (Z.of_nat (length (filter (fun ra => susb L ra && negb (failb L ra)) ras)))) /\
     (p = true <-> filter (failb L) ras = [])).
Proof.
  intros L br S X G O. split.
  - intros E. unfold print_summary. destruct (get_analysis_ok L br S X O) as (ras & -> & _). cbn [obind]. rewrite E. reflexivity.
  - intros Hne. destruct (summary_ok L br S X G O Hne) as (ras & p & A & _ & B & C). exists ras, p. auto.
Qed.
Print Assumptions C31_summary.

Example C31_instance : exists h br, built_from h br /\ h <> [] /\ good_sorts exact_libs /\ good_exp (l_exp exact_libs) /\ good_log10 (l_log10 exact_libs).
Proof.
  set (r := mktr "s" "m" 1024%N (mkkey T_gap "") (mkstat Z_score d0 (dconst 1 (-2)) d0)).
  exists [r], (mkbr "m" 1024 1 64 (fold_left (fun m r => map_add r m) [r] [])). split.
  - split; [reflexivity|]. split; [constructor; [|constructor]|reflexivity]. apply valid_two_powers.
  - split; [discriminate|]. apply exact_libs_good.
Qed.

(* ---- C62 ---- *)
(* Every value in [0,1] is counted in exactly one of the 30 lines, the one given by its position
   (up to the rounding of 30*r). *)
Theorem C62_line_of_value : forall r, valid01 r -> exists j, hist_index r = Ok j /\ (j < 30)%nat /\
  (INR j <= 30 * dval r + bpow radix2 (-48))%R /\ (30 * dval r < INR j + 1 \/ j = 29%nat)%R.
Proof. exact hist_index_ok. Qed.
Print Assumptions C62_line_of_value.
Theorem C62_counts : forall data, Forall valid01 data -> exists bins m, hist_bins data = Ok (bins, m) /\ length bins = 30%nat /\
  fold_right N.add 0%N bins = N.of_nat (length data) /\ Forall (fun b => b <= m)%N bins /\ (In m bins \/ m = 0%N) /\
  forall j, nth j bins 0%N = N.of_nat (length (filter (in_bin j) data)).
Proof. exact hist_bins_ok. Qed.
Print Assumptions C62_counts.
(* The drawing exists, is determined, has 30 lines, none longer than 81 stars; a bin gets at least
   one star when it has a value; and while no bin has more than 80 values there is one star per value. *)
Theorem C62_drawing : forall data, Forall valid01 data -> (N.of_nat (length data) <= 2 ^ 53)%N ->
  exists bins m lines, hist_bins data = Ok (bins, m) /\ draws_histogram data lines /\
    (forall lines', draws_histogram data lines' -> lines' = lines) /\
    length lines = 30%nat /\ Forall (fun s => s <= 81)%N lines /\
    (forall j, nth j bins 0%N = 0%N <-> nth j lines 0%N = 0%N) /\
    (forall i j, (nth i bins 0 <= nth j bins 0)%N -> (nth i lines 0 <= nth j lines 0)%N) /\
    ((m <= 80)%N -> lines = bins).
Proof. exact drawing_ok. Qed.
Print Assumptions C62_drawing.
(* The intended bound of 80 stars does not hold: rounding makes 147 equal values draw 81 stars. *)
Theorem C62_eighty_refuted : exists data lines, Forall valid01 data /\ draws_histogram data lines /\ In 81%N lines.
Proof. exact eighty_refuted. Qed.
Print Assumptions C62_eighty_refuted.
Example C62_instance : Forall valid01 [dconst 1 (-1); dconst 1 (-2)] /\ draws_histogram [dconst 1 (-1); dconst 1 (-2)]
   [0;0;0;0;0;0;0;1;0;0;0;0;0;0;0;1;0;0;0;0;0;0;0;0;0;0;0;0;0;0]%N.
Proof. exact hist_instance. Qed.
