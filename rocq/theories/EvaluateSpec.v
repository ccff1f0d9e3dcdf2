(* Independent vocabulary for evaluations. *)
From Coq Require Import Reals String.
From Verif Require Import Base FloatModel StreamModel ResultModel EvaluateModel.
Open Scope N_scope.

(* The same setup with another thread limit. *)
Definition with_threads (k : N) (s : test_setup) : test_setup :=
  mksetup (ts_name s) (ts_sources s) (ts_tests s) (ts_mix s) k (ts_start s) (ts_stop s).

Definition test_type_dec (a b : test_type) : {a = b} + {a <> b}.
Proof. decide equality. Defined.

(* What a test request means: the first registered definition of that type; none if there is none. *)
Fixpoint registered (defs : list test_definition) (t : test_type) : option test_definition :=
  match defs with
  | [] => None
  | d :: ds => if test_type_dec (td_type d) t then Some d else registered ds t
  end.

(* The results of the sub tests [subs] of test [t], run on [n] samples of the stream named
   [stream_name]: one for each sub test that produced a statistic, in order, attributed to the
   stream, the setup, the number of samples, the test and the sub test. *)
Fixpoint attributed (stream_name setup_name : string) (n : N) (t : test_type) (subs : list sub_test) : list test_result :=
  match subs with
  | [] => []
  | mksub name None :: r => attributed stream_name setup_name n t r
  | mksub name (Some stat) :: r =>
      mktr stream_name setup_name n (mkkey t name) stat :: attributed stream_name setup_name n t r
  end.

(* What running every requested test on every source one after the other produces: a mixer test
   gets the source and the mixer; a stream test gets the source, with its values mixed if there is
   a mixer. *)
Definition sequential_results (mixed_name : string -> string) (defs : list test_definition) (n : N) (setup : test_setup) : list test_result :=
  flat_map (fun t => match registered defs t with
    | None => []
    | Some d => flat_map (fun src =>
      (match td_mixer d, ts_mix setup with
       | Some test, Some mix => attributed (src_name src) (ts_name setup) n t (test n src mix)
       | _, _ => []
       end) ++
      (match td_stream d, ts_mix setup with
       | Some test, Some mix =>
           let mixed := mixed_name (src_name src) in
           attributed mixed (ts_name setup) n t (test n (mksrc mixed (stream_from_mixer (src_stream src) mix)))
       | Some test, None => attributed (src_name src) (ts_name setup) n t (test n src)
       | None, _ => []
       end)) (ts_sources setup)
    end) (ts_tests setup).

(* The number of jobs: per requested test and source one for its mixer part (if the setup has a
   mixer) and one for its stream part. *)
Definition job_count (defs : list test_definition) (setup : test_setup) : N :=
  fold_right N.add 0 (map (fun t => match registered defs t with
    | None => 0
    | Some d => N.of_nat (length (ts_sources setup)) *
     ((match td_mixer d, ts_mix setup with Some _, Some _ => 1 | _, _ => 0 end) +
      (match td_stream d with Some _ => 1 | None => 0 end))
    end) (ts_tests setup)).

(* Replaying the recorded calls leads the callback from state s to s'. *)
Fixpoint replays {S} (cb : S -> test_battery_result -> bool -> outcome (S * bool)) (s : S) (calls : list callback_call) (s' : S) : Prop :=
  match calls with
  | [] => s = s'
  | c :: cs => exists s1, cb s (cc_result c) (cc_last c) = Ok (s1, cc_returned c) /\ replays cb s1 cs s'
  end.

(* What is required of std::pow for a base in [1, 2^64] or 0 and an exponent in (0, 1]: relative
   error at most 2^-40, monotone in the base, exact at 0. *)
Open Scope R_scope.
Definition good_pow (pow : double -> double -> double) : Prop :=
  (forall x y, is_finite x = true -> is_finite y = true -> 1 <= dval x <= IZR (2 ^ 64) -> 0 < dval y <= 1 ->
     is_finite (pow x y) = true /\ Rabs (dval (pow x y) - Rpower (dval x) (dval y)) <= / 2 ^ 40 * Rpower (dval x) (dval y)) /\
  (forall x y, is_finite x = true -> is_finite y = true -> dval x = 0 -> 0 < dval y <= 1 -> is_finite (pow x y) = true /\ dval (pow x y) = 0) /\
  (forall x x' y, is_finite x = true -> is_finite x' = true -> is_finite y = true -> 1 <= dval x -> dval x <= dval x' -> dval x' <= IZR (2 ^ 64) -> 0 < dval y <= 1 ->
     dval (pow x y) <= dval (pow x' y)).
