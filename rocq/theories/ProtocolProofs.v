(* Proofs about job lists, the multi-pass protocol and the result callback. *)
From Coq Require Import Reals Lra Permutation Sorted String.
From Verif Require Import Base FloatModel FloatLemmas StreamModel JobsModel JobsProofs ResultModel ResultSpec ResultProofs AnalysisProofs EvaluateModel EvaluateSpec EvalProofs.

Lemma flat_map_flat_map {B C D} (f : B -> list C) (g : C -> list D) l : flat_map g (flat_map f l) = flat_map (fun x => flat_map g (f x)) l.
Proof. induction l; cbn; [reflexivity|]. rewrite flat_map_app. congruence. Qed.
Lemma flat_map_ext' {B C} (f g : B -> list C) l : (forall x, f x = g x) -> flat_map f l = flat_map g l.
Proof. intros H. induction l; cbn; [reflexivity|]. rewrite H, IHl. reflexivity. Qed.

Lemma tt_eqb_dec a b : tt_eqb a b = if test_type_dec a b then true else false.
Proof. destruct a, b; reflexivity. Qed.
Lemma find_registered defs t :
  get_test_definition defs t = match registered defs t with Some d => d | None => mkdef T_mean None None "" end.
Proof.
  unfold get_test_definition. induction defs as [|d ds IH]; [reflexivity|]. cbn [find registered]. rewrite tt_eqb_dec.
  destruct (test_type_dec (td_type d) t); [reflexivity|exact IH].
Qed.
Lemma registered_type defs t d : registered defs t = Some d -> td_type d = t.
Proof. induction defs as [|d' ds IH]; cbn; [discriminate|]. destruct (test_type_dec (td_type d') t); [intros [= <-]; assumption|exact IH]. Qed.
Lemma to_results_attributed src name n t subs : to_results src name n t subs = attributed (src_name src) name n t subs.
Proof. unfold to_results. induction subs as [|[nm [st|]] r IH]; cbn; [reflexivity|rewrite IH; reflexivity|exact IH]. Qed.
Lemma flat_map_nil {B C} (f : B -> list C) l : (forall x, f x = []) -> flat_map f l = [].
Proof. intros H. induction l; cbn; [reflexivity|]. rewrite H, IHl. reflexivity. Qed.

Lemma jobs_sequential mixed defs n setup :
  flat_map (fun j : job => j tt) (create_test_jobs mixed defs n setup) = sequential_results mixed defs n setup.
Proof.
  unfold create_test_jobs, sequential_results. rewrite flat_map_flat_map. apply flat_map_ext'. intro t. cbn zeta.
  rewrite find_registered. destruct (registered defs t) as [d|] eqn:E.
  - rewrite flat_map_flat_map. apply flat_map_ext'. intro src. unfold source_jobs. rewrite flat_map_app. f_equal.
    + destruct (td_mixer d), (ts_mix setup); try reflexivity. cbn [flat_map]. rewrite app_nil_r. unfold create_mixer_job.
      rewrite to_results_attributed, (registered_type _ _ _ E). reflexivity.
    + destruct (td_stream d); [|reflexivity]. cbn [flat_map]. rewrite app_nil_r. unfold create_stream_job.
      rewrite to_results_attributed, (registered_type _ _ _ E). destruct (ts_mix setup); reflexivity.
  - rewrite flat_map_flat_map. apply flat_map_nil. reflexivity.
Qed.
Lemma flat_map_const_len {B C} (f : B -> list C) k l : (forall x, length (f x) = k) -> length (flat_map f l) = (length l * k)%nat.
Proof. intros H. induction l; cbn; [reflexivity|]. rewrite app_length, H, IHl. reflexivity. Qed.
Lemma jobs_count mixed defs n setup : N.of_nat (length (create_test_jobs mixed defs n setup)) = job_count defs setup.
Proof.
  unfold create_test_jobs, job_count. induction (ts_tests setup) as [|t l IH]; [reflexivity|]. cbn [flat_map map fold_right].
  rewrite app_length, Nat2N.inj_add, IH. f_equal. cbn zeta. rewrite find_registered. destruct (registered defs t) as [d|].
  - rewrite (flat_map_const_len _ ((match td_mixer d, ts_mix setup with Some _, Some _ => 1 | _, _ => 0 end) + (match td_stream d with Some _ => 1 | None => 0 end))%nat).
    + rewrite Nat2N.inj_mul, Nat2N.inj_add. destruct (td_mixer d), (ts_mix setup), (td_stream d); reflexivity.
    + intro src. unfold source_jobs. rewrite app_length. destruct (td_mixer d), (ts_mix setup), (td_stream d); reflexivity.
  - rewrite flat_map_nil; reflexivity.
Qed.

Lemma evaluate_exists mixed defs w n setup : exists br, evaluate mixed defs w n setup br.
Proof.
  unfold evaluate. set (jobs := create_test_jobs mixed defs n setup).
  destruct (completes (A := test_result) (effective_threads (ts_max_threads setup) jobs) runs_to (fun r => r) jobs (jinit jobs)) as (s & H1 & H2).
  - apply jr_refl.
  - intro j. eexists. reflexivity.
  - eexists. exists s. split; [exact H1|]. split; [exact H2|reflexivity].
Qed.

Lemma evaluate_multiset mixed defs w n setup br :
  evaluate mixed defs w n setup br -> (1 <= ts_max_threads setup)%N -> (job_count defs setup < 2 ^ 32)%N ->
  exists h, br_results br = add_all h /\ Permutation h (sequential_results mixed defs n setup).
Proof. intros H1 H2 H3. rewrite <- jobs_sequential. eapply evaluate_adds; [exact H1|exact H2|rewrite jobs_count; exact H3]. Qed.

Lemma add_all_ok h : (N.of_nat (length h) < 2 ^ 64)%N -> Forall (fun r => valid_stat (tr_stats r)) h -> ok_map (add_all h).
Proof.
  intros Hl Hv. unfold ok_map. rewrite Forall_forall. intros [k v] Hi. pose proof (add_all_good h) as G.
  destruct G as [GS GF]. rewrite Forall_forall in GF. destruct (GF _ Hi) as [Hn _]. split; [exact Hn|]. cbn [snd].
  pose proof (good_map_entry _ _ (conj GS (proj2 (add_all_good h))) Hi) as E. cbn [fst snd] in E. rewrite add_all_get in E. rewrite <- E.
  split.
  - eapply N.le_lt_trans; [|exact Hl]. apply N2Z.inj_le; rewrite !nat_N_Z; apply inj_le. clear.
    induction h as [|a h IH]; cbn; [lia|]. destruct (key_eqb k (tr_key a)); cbn; lia.
  - rewrite Forall_forall in *. intros r Hr. apply filter_In in Hr. apply Hv, Hr.
Qed.

(* ---------- multi pass ---------- *)
Lemma multi_pass_spec {St} ev (cb : St -> _ -> _ -> _) stop power st result calls out :
  multi_pass ev cb stop power st result calls out -> forall r st', out = Ok (r, st') ->
  replays cb st calls st' /\
  (forall i c, nth_error calls i = Some c ->
     (0 <= power + Z.of_nat i <= stop)%Z /\ ev (2 ^ Z.to_N (power + Z.of_nat i))%N (cc_result c) /\
     cc_last c = (power + Z.of_nat i =? stop)%Z /\
     (cc_returned c = true \/ S i = length calls)) /\
  r = last (map cc_result calls) result /\
  (Z.of_nat (length calls) = Z.max 0 (stop - power + 1) \/
   exists c, nth_error calls (length calls - 1) = Some c /\ cc_returned c = false) /\
  ((power <= stop)%Z -> calls <> []).
Proof.
  induction 1 as [power st result Hp|power st result Hp Hb|power st result r0 Hp Hb He Hc
    |power st st1 result r0 Hp Hb He Hc|power st st1 result r0 calls out Hp Hb He Hc Hm IH]; intros r st' Ho; try discriminate.
  - injection Ho as -> ->. split; [reflexivity|]. split; [intros [|i] c H; discriminate|]. split; [reflexivity|].
    split; [left; cbn; lia|lia].
  - injection Ho as <- <-. split; [cbn; exists st1; split; [exact Hc|reflexivity]|]. split.
    { intros [|i] c H; [|destruct i; discriminate]. cbn in H. injection H as <-. cbn [cc_result cc_last cc_returned].
      replace (power + Z.of_nat 0)%Z with power by lia. split; [lia|]. split; [exact He|]. split; [reflexivity|right; reflexivity]. }
    split; [reflexivity|]. split; [right; eexists; split; [reflexivity|reflexivity]|discriminate].
  - destruct (IH r st' Ho) as (I1 & I2 & I3 & I4 & I5). split; [cbn; exists st1; split; [exact Hc|exact I1]|]. split.
    { intros [|i] c H; cbn in H.
      - injection H as <-. cbn [cc_result cc_last cc_returned].
        replace (power + Z.of_nat 0)%Z with power by lia. split; [lia|]. split; [exact He|]. split; [reflexivity|left; reflexivity].
      - destruct (I2 i c H) as (A & B & C & D). replace (power + Z.of_nat (S i))%Z with (power + 1 + Z.of_nat i)%Z by lia.
        split; [exact A|]. split; [exact B|]. split; [exact C|]. destruct D as [D|D]; [left; exact D|right; cbn; lia]. }
    split.
    { rewrite I3. clear. cbn [map cc_result]. destruct calls as [|c calls]; [reflexivity|]. cbn [map].
      change (last (r0 :: cc_result c :: map cc_result calls) result) with (last (cc_result c :: map cc_result calls) result).
      generalize (cc_result c) as a. generalize (map cc_result calls) as l. induction l as [|b l IHl]; intro a; [reflexivity|].
      change (last (a :: b :: l) r0) with (last (b :: l) r0). change (last (a :: b :: l) result) with (last (b :: l) result). apply IHl. }
    split; [|discriminate].
    destruct I4 as [I4|(c & Hn & Hf)]; [left; cbn [length]; lia|right]. exists c. split; [|exact Hf].
    destruct calls as [|c0 calls]; [destruct (length (A := callback_call) [] - 1)%nat; discriminate|].
    cbn [length] in *. replace (S (S (length calls)) - 1)%nat with (S (S (length calls) - 1)) by lia. exact Hn.
Qed.

Lemma multi_pass_defined {St} ev (cb : St -> _ -> _ -> _) stop power st result calls out :
  multi_pass ev cb stop power st result calls out -> (0 <= power)%Z -> (stop < 64)%Z ->
  (forall st r b, (exists n, ev n r) -> exists st' x, cb st r b = Ok (st', x)) -> exists r st', out = Ok (r, st').
Proof.
  induction 1 as [power st result Hp|power st result Hp Hb|power st result r0 Hp Hb He Hc
    |power st st1 result r0 Hp Hb He Hc|power st st1 result r0 calls out Hp Hb He Hc Hm IH]; intros H0 H64 Ht; eauto.
  - lia.
  - exfalso. destruct (Ht st r0 (power =? stop)%Z) as (st' & x & E); [eauto|]. congruence.
  - apply IH; [lia|exact H64|exact Ht].
Qed.

Lemma multi_pass_exists {St} ev (cb : St -> _ -> _ -> _) stop : (forall n, exists r, ev n r) ->
  forall k power st result, Z.to_nat (stop - power + 1) = k -> exists calls out, multi_pass ev cb stop power st result calls out.
Proof.
  intros Hev. induction k as [|k IH]; intros power st result Hk.
  - eexists _, _. apply mp_end. lia.
  - assert (Hp : (power <= stop)%Z) by lia.
    destruct (Z_lt_ge_dec power 0) as [Hl|Hl]; [eexists _, _; apply mp_shift; lia|].
    destruct (Z_lt_ge_dec power 64) as [Hu|Hu]; [|eexists _, _; apply mp_shift; lia].
    destruct (Hev (2 ^ Z.to_N power)%N) as [r Hr]. destruct (cb st r (power =? stop)%Z) as [[st1 [|]]|] eqn:E.
    + destruct (IH (power + 1)%Z st1 r) as (calls & out & H); [lia|]. eexists _, _. eapply mp_true; try eassumption. lia.
    + eexists _, _. eapply mp_false; try eassumption. lia.
    + eexists _, _. eapply mp_cb_ub; try eassumption. lia.
Qed.

(* ---------- the result callback ---------- *)
Definition passed (v : option bool) : bool := match v with Some p => p | None => true end.
Lemma callback_cases L pr hd log br is_last log' ret : result_callback L pr hd log br is_last = Ok (log', ret) ->
  exists v, battery_verdict L br = Ok v /\
    ret = negb is_last && passed v /\
    cl_done log' = (if negb ret && hd then [(br, passed v)] else []) ++ cl_done log /\
    cl_printed log' = (if pr || negb ret then [br] else []) ++ cl_printed log.
Proof.
  unfold result_callback. destruct (battery_verdict L br) as [v|]; [|discriminate]. cbn [obind]. intros H. injection H as <- <-.
  exists v. split; [reflexivity|]. cbn [cl_done cl_printed].
  destruct v as [[|]|], is_last, pr, hd; cbn; repeat split.
Qed.

Lemma replay_done L pr calls : forall log log', replays (result_callback L pr true) log calls log' ->
  (forall i c, nth_error calls i = Some c -> cc_returned c = true \/ S i = length calls) ->
  calls <> [] -> (exists c, nth_error calls (length calls - 1) = Some c /\ cc_returned c = false) ->
  exists c v, nth_error calls (length calls - 1) = Some c /\ battery_verdict L (cc_result c) = Ok v /\
    cl_done log' = (cc_result c, passed v) :: cl_done log /\
    (cc_last c = true \/ passed v = false) /\
    (forall i c', nth_error calls i = Some c' -> (S i < length calls)%nat ->
        cc_last c' = false /\ exists v', battery_verdict L (cc_result c') = Ok v' /\ passed v' = true) /\
    cl_printed log' = (if pr then rev (map cc_result calls) else [cc_result c]) ++ cl_printed log.
Proof.
  induction calls as [|c calls IH]; intros log log' HR HT Hne HF; [congruence|].
  destruct HR as (log1 & Hcb & HR). destruct (callback_cases _ _ _ _ _ _ _ _ Hcb) as (v & Hv & Hret & Hdone & Hpr).
  destruct calls as [|c2 calls].
  - cbn in HR. subst log'. cbn in HF. destruct HF as (c0 & E0 & F0). injection E0 as <-.
    exists c, v. split; [reflexivity|]. split; [exact Hv|]. rewrite F0 in *. cbn in Hdone. split; [exact Hdone|].
    split; [destruct (cc_last c); [left; reflexivity|right; cbn in Hret; auto]|].
    split; [intros i c' _ Hi; cbn in Hi; lia|]. rewrite orb_true_r in Hpr. rewrite Hpr. destruct pr; reflexivity.
  - assert (Rt : cc_returned c = true) by (destruct (HT 0%nat c eq_refl) as [X|X]; [exact X|cbn in X; lia]).
    rewrite Rt in *. cbn in Hdone.
    destruct (IH log1 log' HR) as (cl & vl & E1 & E2 & E3 & E4 & E5 & E6).
    + intros i c' H. destruct (HT (S i) c' H) as [X|X]; [left; exact X|right; cbn in X |- *; lia].
    + discriminate.
    + destruct HF as (c0 & E0 & F0). exists c0. split; [|exact F0]. cbn [length] in *.
      replace (S (S (length calls)) - 1)%nat with (S (S (length calls) - 1)) in E0 by lia. exact E0.
    + exists cl, vl. split; [cbn [length] in *; replace (S (S (length calls)) - 1)%nat with (S (S (length calls) - 1)) by lia; exact E1|].
      split; [exact E2|]. split; [rewrite E3, Hdone; reflexivity|]. split; [exact E4|]. split.
      * intros [|i] c' H Hi.
        -- cbn in H. injection H as <-. symmetry in Hret. apply andb_true_iff in Hret. destruct Hret as [R1 R2].
           split; [destruct (cc_last c); [discriminate|reflexivity]|]. exists v. auto.
        -- apply (E5 i c' H). cbn in Hi |- *. lia.
      * rewrite E6, Hpr. destruct pr; [|reflexivity].
        cbn [negb orb map]. change (rev (cc_result c :: cc_result c2 :: map cc_result calls)) with (rev (cc_result c2 :: map cc_result calls) ++ [cc_result c]).
        rewrite <- app_assoc. reflexivity.
Qed.
