(* Properties C27, C28, C60: splitting, limiting and looking up tests
   (core/src/types.h:137-204, core/src/test_definitions.h, core/src/evaluate.h:78-98). *)
From Coq Require Import Reals Lra String.
From Verif Require Import Base FloatModel FloatLemmas StreamModel JobsModel ResultModel ResultSpec EvaluateModel EvaluateSpec LimitProofs SetupProofs.

(* ---- C27 ---- *)
(* n fits: one run on n, with the default name. *)
Theorem C27_fits : forall St n max (f : N -> St -> option statistic * St) s, (n <= max)%N ->
  split_test n max f s = Ok ([mksub "" (fst (f n s))], snd (f n s)).
Proof. exact @split_fits. Qed.
Print Assumptions C27_fits.

(* n does not fit: max(2, n/max) runs, each on exactly max values, numbered from s1, the i-th run
   continuing where the one before it stopped. *)
Theorem C27_split : forall St n max (f : N -> St -> option statistic * St) s, (0 < max < n)%N ->
  let runs := N.to_nat (N.max 2 (n / max)) in
  let state i := Nat.iter i (fun s => snd (f max s)) s in
  exists subs, split_test n max f s = Ok (subs, state runs) /\ length subs = runs /\ NoDup (map sub_name subs) /\
    forall i, (i < runs)%nat -> nth_error subs i =
      Some (mksub ("s" ++ to_string_N (N.of_nat i + 1)) (fst (f max (state i)))).
Proof. exact @split_spec. Qed.
Print Assumptions C27_split.

(* How much of the sample is used: never more than n when n is at least two blocks, and less than
   one block is left; between one and two blocks the two runs ask for more values than n. *)
Theorem C27_values_used : forall n max, (0 < max < n)%N ->
  let used := (N.max 2 (n / max) * max)%N in
  (2 * max <= n -> used <= n < used + max)%N /\ (n < 2 * max -> n < used)%N.
Proof. exact split_used. Qed.
Print Assumptions C27_values_used.

(* The maximum size 0 divides by zero. *)
Theorem C27_max_zero_undefined : forall St n (f : N -> St -> option statistic * St) s, (0 < n)%N -> split_test n 0 f s = UB.
Proof. exact @split_zero. Qed.
Print Assumptions C27_max_zero_undefined.

Example C27_instance : let f size (l : list N) := (@None statistic, l ++ [size]) in
  split_test 10 4 f [] = Ok ([mksub "s1" None; mksub "s2" None], [4; 4]%N) /\
  split_test 5 4 f [] = Ok ([mksub "s1" None; mksub "s2" None], [4; 4]%N) /\
  split_test 13 4 f [] = Ok ([mksub "s1" None; mksub "s2" None; mksub "s3" None], [4; 4; 4]%N).
Proof. repeat split; reflexivity. Qed.

(* ---- C28 ---- *)
(* For every 64-bit n the slow limit is defined; it passes between 1024 and n values, namely the
   integer part of n^(6/7) up to the accuracy of pow, or nothing when that is below 1024. *)
Open Scope R_scope.
Theorem C28_limit_slow : forall pow n, good_pow pow -> (n < 2 ^ 64)%N ->
  exists o, limit_slow pow n = Ok o /\
    match o with
    | Some m => (1024 <= m <= n)%N /\
        Rpower (IZR (Z.of_N n)) (6 / 7) * (1 - / 2 ^ 39) - 1 < IZR (Z.of_N m) <= Rpower (IZR (Z.of_N n)) (6 / 7) * (1 + / 2 ^ 39)
    | None => Rpower (IZR (Z.of_N n)) (6 / 7) * (1 - / 2 ^ 39) < 1024 \/ n = 0%N
    end.
Proof. intros pow n G H. exact (limit_spec pow 6 n (or_intror eq_refl) G H). Qed.
Print Assumptions C28_limit_slow.
Theorem C28_limit_slower : forall pow n, good_pow pow -> (n < 2 ^ 64)%N ->
  exists o, limit_slower pow n = Ok o /\
    match o with
    | Some m => (1024 <= m <= n)%N /\
        Rpower (IZR (Z.of_N n)) (5 / 7) * (1 - / 2 ^ 39) - 1 < IZR (Z.of_N m) <= Rpower (IZR (Z.of_N n)) (5 / 7) * (1 + / 2 ^ 39)
    | None => Rpower (IZR (Z.of_N n)) (5 / 7) * (1 - / 2 ^ 39) < 1024 \/ n = 0%N
    end.
Proof. intros pow n G H. exact (limit_spec pow 5 n (or_introl eq_refl) G H). Qed.
Print Assumptions C28_limit_slower.
(* More samples never mean fewer samples for the limited test, nor that it is no longer run. *)
Theorem C28_limits_monotone : forall pow n n' m, good_pow pow -> (n <= n')%N -> (n' < 2 ^ 64)%N ->
  (limit_slow pow n = Ok (Some m) -> exists m', limit_slow pow n' = Ok (Some m') /\ (m <= m')%N) /\
  (limit_slower pow n = Ok (Some m) -> exists m', limit_slower pow n' = Ok (Some m') /\ (m <= m')%N).
Proof.
  intros pow n n' m G H H'. split; intros E.
  - exact (limit_mono pow 6 n n' m (or_intror eq_refl) G H H' E).
  - exact (limit_mono pow 5 n n' m (or_introl eq_refl) G H H' E).
Qed.
Print Assumptions C28_limits_monotone.
(* limit_to passes n unchanged up to the maximum and nothing above it. *)
Theorem C28_limit_to : forall max n, limit_to max n = Ok (Some n) /\ (n <= max)%N \/ limit_to max n = Ok None /\ (max < n)%N.
Proof. exact limit_to_spec. Qed.
Print Assumptions C28_limit_to.
(* The wrapped test is run on the limited number of values, or not at all. *)
Theorem C28_wrapped_test : forall lim test n src,
  (forall m, lim n = Ok (Some m) -> limit_stream lim test n src = test m src) /\
  (lim n = Ok None -> limit_stream lim test n src = []).
Proof. exact limit_stream_spec. Qed.
Print Assumptions C28_wrapped_test.
Theorem C28_wrapped_mixer_test : forall lim test n src mix,
  (forall m, lim n = Ok (Some m) -> limit_mixer lim test n src mix = test m src mix) /\
  (lim n = Ok None -> limit_mixer lim test n src mix = []).
Proof. exact limit_mixer_spec. Qed.
Print Assumptions C28_wrapped_mixer_test.
Example C28_instance : good_pow exact_pow /\ (2 ^ 20 < 2 ^ 64)%N.
Proof. split; [exact exact_pow_good|reflexivity]. Qed.
Close Scope R_scope.

(* ---- C60 ---- *)
(* Looking up any test type finds the single definition with that type ... *)
Theorem C60_lookup : forall pow rt t, let defs := get_tests pow rt in
  td_type (get_test_definition defs t) = t /\ In (get_test_definition defs t) defs /\
  (forall d, In d defs -> td_type d = t -> d = get_test_definition defs t).
Proof. exact lookup_ok. Qed.
Print Assumptions C60_lookup.
(* ... names are unique, and the default list has every type once. *)
Theorem C60_names_and_defaults : forall pow rt, let defs := get_tests pow rt in
  NoDup (map td_name defs) /\ NoDup (default_test_types defs) /\ (forall t, In t (default_test_types defs)) /\
  (forall t t', td_name (get_test_definition defs t) = td_name (get_test_definition defs t') -> t = t').
Proof. exact names_ok. Qed.
Print Assumptions C60_names_and_defaults.
(* Every definition runs exactly one of a stream and a mixer test; the mixer tests are sac and bic. *)
Theorem C60_stream_or_mixer : forall pow rt t, let d := get_test_definition (get_tests pow rt) t in
  (td_mixer d <> None <-> t = T_sac \/ t = T_bic) /\ (td_stream d <> None <-> ~ (t = T_sac \/ t = T_bic)).
Proof. exact stream_or_mixer. Qed.
Print Assumptions C60_stream_or_mixer.
(* Hence one job per requested test and source, and without a mixer none for sac and bic. *)
Theorem C60_jobs : forall mixed_name pow rt n setup, let defs := get_tests pow rt in
  length (create_test_jobs mixed_name defs n setup) =
  (length (ts_sources setup) *
   length (filter (fun t => match ts_mix setup with
                            | Some _ => true
                            | None => negb (tt_eqb t T_sac) && negb (tt_eqb t T_bic)
                            end) (ts_tests setup)))%nat.
Proof. exact default_jobs. Qed.
Print Assumptions C60_jobs.
(* An unknown definition list yields a default definition without tests (it has type mean). *)
Theorem C60_missing : forall defs t, (forall d, In d defs -> td_type d <> t) ->
  td_stream (get_test_definition defs t) = None /\ td_mixer (get_test_definition defs t) = None.
Proof. exact lookup_missing. Qed.
Print Assumptions C60_missing.
Example C60_instance : forall pow rt, td_name (get_test_definition (get_tests pow rt) T_coupon) = "coupon"%string.
Proof. reflexivity. Qed.
