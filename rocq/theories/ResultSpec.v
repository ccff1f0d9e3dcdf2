(* Independent vocabulary for results and their analysis. *)
From Coq Require Import Reals Permutation Sorted.
From Verif Require Import Base FloatModel ResultModel.

(* A p-value as the statistic constructor requires it (types.h:55): not NaN, in [0,1]. *)
Definition finite_double (x : double) : Prop := is_finite x = true.
Definition valid01 (x : double) : Prop := is_finite x = true /\ (0 <= dval x <= 1)%R.
Definition valid_stat (s : statistic) : Prop := valid01 (st_p s).

(* The requirement on std::sort for a given operator<, on lists of acceptable elements: the result
   is a permutation in which no element is less than an earlier one. *)
Definition sorts {A : Type} (ok : A -> Prop) (lt : A -> A -> bool) (sort : list A -> list A) : Prop :=
  forall l, Forall ok l -> Permutation l (sort l) /\ StronglySorted (fun a b => lt b a = false) (sort l).

(* What is required of the library: correct sorting; exp of a non-positive number lies in [0,1]. *)
Definition good_sorts (L : libs) : Prop :=
  sorts finite_double dlt (l_sort_double L) /\
  sorts (fun ra => valid_stat (ra_stat ra)) ra_lt (l_sort_ra L).
Definition good_exp (exp : double -> double) : Prop :=
  forall x, is_finite x = true -> (dval x <= 0)%R -> valid01 (exp x).

(* The p-value the analysis compares by, as a real number: the given one for a z-score, else the
   smaller of p and the (rounded) 1 - p. *)
Definition two_sided (s : statistic) : R :=
  match st_type s with
  | Z_score => dval (st_p s)
  | _ => Rmin (dval (st_p s)) (dval (dsub d1 (st_p s)))
  end.

(* The meta statistic of the results of one key: Kolmogorov-Smirnov over their p-values. *)
Definition meta_stat (L : libs) (v : list test_result) : statistic :=
  kolmogorov_smirnov_stats (l_exp L) (l_sort_double L) (to_p_values v).
(* The statistics a verdict is about: each recorded one, and one meta statistic per key. *)
Definition analysed (L : libs) (m : result_map) (s : statistic) : Prop :=
  exists k v, In (k, v) m /\ ((exists r, In r v /\ s = tr_stats r) \/ s = meta_stat L v).
(* Results as tests produce them: valid p-values, and no list with 2^64 or more entries. *)
Definition ok_map (m : result_map) : Prop :=
  Forall (fun e => snd e <> [] /\ (N.of_nat (length (snd e)) < 2 ^ 64)%N /\ Forall (fun r => valid_stat (tr_stats r)) (snd e)) m.

(* What is required of log10 on (0,1]: not positive, monotone, and accurate to 2^-40. *)
Definition good_log10 (log10 : double -> double) : Prop :=
  (forall x, is_finite x = true -> (0 < dval x <= 1)%R -> is_finite (log10 x) = true /\ (dval (log10 x) <= 0)%R /\
     (Rabs (dval (log10 x) - ln (dval x) / ln 10) <= / 2 ^ 40)%R) /\
  (forall x y, is_finite x = true -> is_finite y = true -> (0 < dval x)%R -> (dval x <= dval y)%R -> (dval y <= 1)%R ->
     (dval (log10 x) <= dval (log10 y))%R).

(* Number of elements <= x, and the supremum distance to the uniform distribution. *)
Open Scope R_scope.
Definition ecdf (data : list R) (x : R) : R :=
  INR (length (filter (fun d => if Rle_dec d x then true else false) data)) / INR (length data).
Definition uniform_cdf (x : R) : R := Rmax 0 (Rmin x 1).
Definition sup_distance (data : list R) (D : R) : Prop :=
  is_lub (fun y => exists x, y = Rabs (ecdf data x - uniform_cdf x)) D.
