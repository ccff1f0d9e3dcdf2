(* Proofs about split_test, limit wrappers and test lookup. *)
From Coq Require Import String.
From Verif Require Import Base FloatModel StreamModel JobsModel ResultModel EvaluateModel EvaluateSpec LimitProofs.

Lemma split_fits {St} n max (f : N -> St -> option statistic * St) s : (n <= max)%N ->
  split_test n max f s = Ok ([mksub "" (fst (f n s))], snd (f n s)).
Proof. intros H. unfold split_test. rewrite (proj2 (N.leb_le _ _) H). destruct (f n s). reflexivity. Qed.
Lemma s_inj a b : ("s" ++ to_string_N a)%string = ("s" ++ to_string_N b)%string -> a = b.
Proof. intros H. injection H as H. apply to_string_inj, H. Qed.
Lemma split_spec {St} n max (f : N -> St -> option statistic * St) s : (0 < max < n)%N ->
  let runs := N.to_nat (N.max 2 (n / max)) in
  let state i := Nat.iter i (fun s => snd (f max s)) s in
  exists subs, split_test n max f s = Ok (subs, state runs) /\ length subs = runs /\ NoDup (map sub_name subs) /\
    forall i, (i < runs)%nat -> nth_error subs i =
      Some (mksub ("s" ++ to_string_N (N.of_nat i + 1)) (fst (f max (state i)))).
Proof.
  intros [H1 H2] runs state. unfold split_test. rewrite (proj2 (N.leb_gt _ _) H2). destruct (N.eqb_spec max 0); [lia|]. fold runs.
  set (is := map N.of_nat (seq 0 runs)). destruct (split_loop_spec f max is s) as (A & B & C).
  assert (Li : length is = runs) by (unfold is; rewrite map_length, seq_length; reflexivity).
  exists (fst (split_loop f max is s)). rewrite <- (surjective_pairing) at 1 || idtac.
  assert (D : forall i, (i < runs)%nat -> nth_error (fst (split_loop f max is s)) i =
      Some (mksub ("s" ++ to_string_N (N.of_nat i + 1)) (fst (f max (state i))))).
  { intros i Hi. apply C. unfold is. rewrite nth_error_map. rewrite (nth_error_nth' _ 0%nat) by (rewrite seq_length; exact Hi).
    rewrite seq_nth by exact Hi. reflexivity. }
  split; [destruct (split_loop f max is s) as [a b]; cbn [fst snd] in *; rewrite A, Li; reflexivity|].
  split; [congruence|]. split; [|exact D].
  apply (NoDup_nth_error (map sub_name (fst (split_loop f max is s)))). intros i j Hi E. rewrite map_length in Hi. rewrite !nth_error_map in E.
  destruct (Nat.lt_ge_cases j runs) as [Hj|Hj].
  - rewrite (D i), (D j) in E by lia. cbn in E. injection E as E. apply to_string_inj in E. lia.
  - rewrite (D i) in E by lia. rewrite (proj2 (nth_error_None _ j)) in E by lia. discriminate.
Qed.
Lemma split_used n max : (0 < max < n)%N ->
  let used := (N.max 2 (n / max) * max)%N in
  (2 * max <= n -> used <= n < used + max)%N /\ (n < 2 * max -> n < used)%N.
Proof.
  intros [H1 H2] used. unfold used.
  pose proof (N.div_mod n max ltac:(lia)) as E. pose proof (N.mod_lt n max ltac:(lia)) as M. split; intros H.
  - assert (2 <= n / max)%N by (apply N.div_le_lower_bound; lia). rewrite N.max_r by assumption. lia.
  - assert (2 * max <= N.max 2 (n / max) * max)%N by (apply N.mul_le_mono_r; lia). lia.
Qed.
Lemma split_zero {St} n (f : N -> St -> option statistic * St) s : (0 < n)%N -> split_test n 0 f s = UB.
Proof. intros H. unfold split_test. rewrite (proj2 (N.leb_gt _ _) H). reflexivity. Qed.

Lemma limit_to_spec max n : limit_to max n = Ok (Some n) /\ (n <= max)%N \/ limit_to max n = Ok None /\ (max < n)%N.
Proof. unfold limit_to. destruct (N.leb_spec n max); [left|right]; auto. Qed.
Lemma limit_stream_spec lim test n src :
  (forall m, lim n = Ok (Some m) -> limit_stream lim test n src = test m src) /\
  (lim n = Ok None -> limit_stream lim test n src = []).
Proof. unfold limit_stream. split; [intros m ->|intros ->]; reflexivity. Qed.
Lemma limit_mixer_spec lim test n src mix :
  (forall m, lim n = Ok (Some m) -> limit_mixer lim test n src mix = test m src mix) /\
  (lim n = Ok None -> limit_mixer lim test n src mix = []).
Proof. unfold limit_mixer. split; [intros m ->|intros ->]; reflexivity. Qed.

Lemma lookup_ok pow rt t : let defs := get_tests pow rt in
  td_type (get_test_definition defs t) = t /\ In (get_test_definition defs t) defs /\
  (forall d, In d defs -> td_type d = t -> d = get_test_definition defs t).
Proof.
  intros defs. split; [destruct t; reflexivity|]. split; [destruct t; cbn; tauto|].
  intros d H <-. unfold defs in *. cbn [get_tests In] in H.
  repeat (destruct H as [<-|H]; [reflexivity|]). destruct H.
Qed.
Lemma names_ok pow rt : let defs := get_tests pow rt in
  NoDup (map td_name defs) /\ NoDup (default_test_types defs) /\ (forall t, In t (default_test_types defs)) /\
  (forall t t', td_name (get_test_definition defs t) = td_name (get_test_definition defs t') -> t = t').
Proof.
  intros defs. split; [|split; [|split]].
  - cbn. repeat (constructor; [cbn; intuition discriminate|]). constructor.
  - cbn. repeat (constructor; [cbn; intuition discriminate|]). constructor.
  - intro t. destruct t; cbn; tauto.
  - intros t t'. destruct t, t'; intro H; try reflexivity; discriminate H.
Qed.
Lemma stream_or_mixer pow rt t : let d := get_test_definition (get_tests pow rt) t in
  (td_mixer d <> None <-> t = T_sac \/ t = T_bic) /\ (td_stream d <> None <-> ~ (t = T_sac \/ t = T_bic)).
Proof. destruct t; cbn; intuition (try discriminate; try congruence). Qed.
Lemma default_jobs mixed_name pow rt n setup : let defs := get_tests pow rt in
  length (create_test_jobs mixed_name defs n setup) =
  (length (ts_sources setup) *
   length (filter (fun t => match ts_mix setup with
                            | Some _ => true
                            | None => negb (tt_eqb t T_sac) && negb (tt_eqb t T_bic)
                            end) (ts_tests setup)))%nat.
Proof.
  intros defs. unfold create_test_jobs.
  assert (K : forall (g : source -> list job) c l, (forall x, length (g x) = c) -> length (flat_map g l) = (length l * c)%nat).
  { intros g c l H. induction l as [|x l IH]; [reflexivity|]. cbn [flat_map length]. rewrite app_length, H, IH. lia. }
  induction (ts_tests setup) as [|t ts IH]; [cbn; lia|]. cbn [flat_map filter]. rewrite app_length, IH.
  destruct (ts_mix setup) as [m|] eqn:Em.
  - rewrite (K _ 1%nat); [cbn [length]; lia|]. intro x. unfold source_jobs. rewrite Em. destruct t; reflexivity.
  - rewrite (K _ (if negb (tt_eqb t T_sac) && negb (tt_eqb t T_bic) then 1 else 0)%nat).
    + destruct (negb (tt_eqb t T_sac) && negb (tt_eqb t T_bic)); cbn [length]; lia.
    + intro x. unfold source_jobs. rewrite Em. destruct t; reflexivity.
Qed.
Lemma lookup_missing defs t : (forall d, In d defs -> td_type d <> t) ->
  td_stream (get_test_definition defs t) = None /\ td_mixer (get_test_definition defs t) = None.
Proof.
  intros H. unfold get_test_definition. destruct (find _ defs) as [d|] eqn:E; [|cbn; auto].
  exfalso. apply find_some in E. destruct E as [Hi E]. apply (H d Hi). destruct (td_type d), t; try reflexivity; discriminate.
Qed.
