(* Proofs about the inspection commands, the search fitness, the exhaustive search and main. *)
From Coq Require Import String Ascii Reals Lra Permutation Sorted.
From Verif Require Import Base FloatModel FloatLemmas StreamModel JobsModel JobsProofs ResultModel ResultSpec ResultProofs AnalysisProofs KsProofs
  EvaluateModel EvaluateSpec EvalProofs StrengthProofs ProtocolProofs FormatModel FormatSpec FormatProofs TextModel TextSpec TextProofs CommandModel CommandSpec CommandProofs.
Open Scope N_scope.

(* ---- string maps ---- *)
Lemma ltb_irrefl a : String.ltb a a = false.
Proof. destruct (String.ltb a a) eqn:E; [|reflexivity]. exfalso. exact (slt_irrefl a E). Qed.
Lemma same_key a b : negb (String.ltb a b) && negb (String.ltb b a) = String.eqb a b.
Proof.
  destruct (String.eqb_spec a b) as [->|H]; [rewrite ltb_irrefl; reflexivity|].
  destruct (String.ltb a b) eqn:E; [reflexivity|]. destruct (String.ltb b a) eqn:F; [reflexivity|]. exfalso. apply H, slt_total; assumption.
Qed.
Lemma sm_get_eqb {A} (m : list (string * A)) k : sm_get m k = match m with [] => None | (k0, v) :: m' => if String.eqb k k0 then Some v else sm_get m' k end.
Proof. destruct m as [|[k0 v] m]; [reflexivity|]. cbn [sm_get]. rewrite same_key. reflexivity. Qed.
Lemma sm_get_set {A} k (v : A) m k' : sm_get (sm_set k v m) k' = if String.eqb k' k then Some v else sm_get m k'.
Proof.
  induction m as [|[k0 v0] m IH]; cbn [sm_set].
  - rewrite sm_get_eqb. reflexivity.
  - destruct (String.ltb k k0) eqn:A1.
    + rewrite sm_get_eqb. reflexivity.
    + destruct (String.ltb k0 k) eqn:A2.
      * rewrite sm_get_eqb, IH. rewrite (sm_get_eqb ((k0, v0) :: m)). destruct (String.eqb_spec k' k0) as [->|]; [|reflexivity].
        destruct (String.eqb_spec k0 k) as [->|]; [rewrite ltb_irrefl in A2; discriminate|reflexivity].
      * assert (k = k0) by (apply slt_total; assumption). subst k0. rewrite !sm_get_eqb.
        destruct (String.eqb_spec k' k); reflexivity.
Qed.
Lemma cell_set m r c x r' c' : cell (set_cell m r c x) r' c' = if String.eqb r' r && String.eqb c' c then Some x else cell m r' c'.
Proof.
  unfold cell, set_cell. rewrite sm_get_set. destruct (String.eqb_spec r' r) as [->|]; [|reflexivity]. cbn [andb].
  rewrite sm_get_set. destruct (String.eqb c' c); [reflexivity|]. destruct (sm_get m r); reflexivity.
Qed.

(* ---- per test callback ---- *)
Lemma extract_ok E pow rt h br p : good_env E pow rt -> built_from h br -> br_results br <> [] -> br_n br = 2 ^ p -> p < 64 ->
  forall v, battery_verdict (e_libs E) br = Ok v -> forall score,
  extract_power E score br = Ok (if failing v then Z.to_N ((Z.of_N score + (26 - Z.of_N p)) mod 2 ^ 64) else score, power_text v p).
Proof.
  intros GE B Hne Hn Hp v V score. destruct (verdict_ok E pow rt h br GE B) as (ras & Er & [(C & _)|(_ & ra & rest & q & -> & Q & V')]); [contradiction|].
  rewrite V in V'. injection V' as ->. unfold extract_power. rewrite Er. cbn [obind]. rewrite Q. cbn [obind]. rewrite Hn, power_ok by (apply GE || exact Hp). cbn [obind].
  destruct q; reflexivity.
Qed.
Lemma pt_follows E : follows E (per_test_callback E (extract_power E)).
Proof.
  split.
  - intros st br last st'. unfold per_test_callback. destruct last; cbn [obind].
    + destruct (br_results br); [discriminate|]. destruct (extract_power E (fst st) br); discriminate.
    + destruct (battery_verdict (e_libs E) br) as [v|]; [|discriminate]. cbn [obind]. destruct (match v with Some p => p | None => true end); [intros H; injection H as <-; reflexivity|].
      destruct (br_results br); [discriminate|]. destruct (extract_power E (fst st) br); discriminate.
  - intros st br st' ret. unfold per_test_callback. cbn [obind]. destruct (battery_verdict (e_libs E) br) as [v|]; [|discriminate]. cbn [obind].
    intros H. exists v. split; [reflexivity|]. rewrite <- passed_failing. change (match v with Some p => p | None => true end) with (passed v) in H.
    destruct (passed v); [injection H as _ <-; reflexivity|].
    destruct (br_results br); [injection H as _ <-; reflexivity|]. destruct (extract_power E (fst st) br); [|discriminate]. injection H as _ <-. reflexivity.
Qed.
(* all results of a battery that runs one test belong to that test *)
Lemma single_test_type E pow rt mixed w p setup br t : good_env E pow rt -> sound_setup mixed E setup -> ts_tests setup = [t] -> (ts_start setup <= Z.of_N p <= ts_stop setup)%Z ->
  evaluate mixed (e_defs E) w (2 ^ p) setup br -> Forall (fun e => k_type (fst e) = t) (br_results br).
Proof.
  intros GE SS Ht Hp He. destruct (sound_built _ _ _ _ _ _ SS Hp He) as (h & (Eb & _ & _) & P).
  rewrite Forall_forall. intros [k v] Hi. cbn [fst].
  assert (K : In k (map tr_key h)).
  { apply add_all_keys. fold (add_all h) in Eb. rewrite <- Eb. apply in_map_iff. exists (k, v). auto. }
  apply in_map_iff in K. destruct K as (r & <- & Hr). apply (Permutation_in _ P) in Hr. unfold sequential_results in Hr. rewrite Ht in Hr. cbn [flat_map] in Hr. rewrite app_nil_r in Hr.
  destruct (registered (e_defs E) t) as [d|]; [|destruct Hr]. apply in_flat_map in Hr. destruct Hr as (src & _ & Hr).
  assert (A : forall sn nm m subs r, In r (attributed sn nm m t subs) -> k_type (tr_key r) = t).
  { clear. intros sn nm m subs r. induction subs as [|[name [st|]] subs IH]; cbn; [intros []| |exact IH]. intros [<-|H]; [reflexivity|apply IH, H]. }
  apply in_app_iff in Hr. destruct (td_mixer d), (td_stream d), (ts_mix setup); destruct Hr as [Hr|Hr]; try (destruct Hr; fail); eapply A; exact Hr.
Qed.

Definition pt_state (E : env) (t : test_type) (st : N * per_test_result) (name : string) (e : option (bool * N)) : N * per_test_result :=
  match e with
  | None => st
  | Some (f, p) => (if f then Z.to_N ((Z.of_N (fst st) + (26 - Z.of_N p)) mod 2 ^ 64) else fst st,
                    set_cell (snd st) name (get_test_name (e_defs E) t) ((if f then "" else ">") ++ to_string_N p)%string)
  end.
Lemma pt_run E pow rt w setup t st calls r st' : good_env E pow rt -> sound_setup (mixed_name (ts_name setup)) E setup -> ts_tests setup = [t] ->
  run_setup E w (per_test_callback E (extract_power E)) setup st calls (Ok (r, st')) ->
  exists e, judged (mixed_name (ts_name setup)) E w setup e /\ st' = pt_state E t st (ts_name setup) e.
Proof.
  intros GE SS Ht R. destruct (run_ended _ E pow rt w _ setup _ _ _ _ GE SS (pt_follows E) R) as (p & v & ret & En & Hp & Hcb).
  pose proof En as (E1 & E2 & E3 & E4 & E5). destruct (evaluate_fields _ _ _ _ _ _ E2) as [Nm Nn].
  destruct (sound_built _ _ _ _ _ _ SS E1 E2) as (h & B & _).
  eexists. split; [exists p, r, v; split; [exact En|reflexivity]|].
  unfold per_test_callback in Hcb.
  assert (Pr : (if (Z.of_N p =? ts_stop setup)%Z then Ok false else v0 <- battery_verdict (e_libs E) r ;; Ok (match v0 with Some p => p | None => true end)) = Ok false).
  { destruct (Z.eqb_spec (Z.of_N p) (ts_stop setup)); [reflexivity|]. destruct E4 as [->|]; [|contradiction]. rewrite E3. reflexivity. }
  rewrite Pr in Hcb. cbn [obind] in Hcb. pose proof (single_test_type E pow rt _ w _ setup r t GE SS Ht E1 E2) as Ty.
  pose proof (extract_ok E pow rt h r p GE B) as X.
  destruct (br_results r) as [|e m] eqn:Eb; [injection Hcb as <- _; reflexivity|]. specialize (X ltac:(discriminate) Nn Hp v E3 (fst st)).
  rewrite X in Hcb. cbn [obind fst snd] in Hcb. injection Hcb as <- _. cbn [pt_state]. rewrite Nm, (Forall_inv Ty). reflexivity.
Qed.
Lemma pt_runs E pow rt w t setups : good_env E pow rt -> Forall (fun s => sound_setup (mixed_name (ts_name s)) E s /\ ts_tests s = [t]) setups ->
  forall st st', run_setups E w (per_test_callback E (extract_power E)) setups st (Ok st') ->
  exists ends, Forall2 (fun s e => judged (mixed_name (ts_name s)) E w s e) setups ends /\
    st' = fold_left (fun st ne => pt_state E t st (fst ne) (snd ne)) (combine (map ts_name setups) ends) st.
Proof.
  intros GE. induction 1 as [|s ss [SS Ht] _ IH]; intros st st' R.
  - apply run_nil_inv in R. subst st'. exists []. split; [constructor|reflexivity].
  - destruct (run_cons_inv _ _ _ _ _ _ _ R) as (calls & r & st1 & H2 & H5). destruct (pt_run E pow rt w s t _ _ _ _ GE SS Ht H2) as (e & J & ->).
    destruct (IH _ _ H5) as (ends & F & ->). exists (e :: ends). split; [constructor; assumption|reflexivity].
Qed.
Lemma pt_fold_cells E t col : get_test_name (e_defs E) t = col -> forall ends st row,
  let st' := fold_left (fun st ne => pt_state E t st (fst ne) (snd ne)) ends st in
  cell (snd st') row col = match cell_of row ends with Some c => Some c | None => cell (snd st) row col end /\
  (forall row' col', col' <> col -> cell (snd st') row' col' = cell (snd st) row' col').
Proof.
  intros Hc. induction ends as [|[n e] ends IH]; intros st row; cbn zeta; cbn [fold_left cell_of]; [split; [reflexivity|auto]|].
  destruct (IH (pt_state E t st (fst (n, e)) (snd (n, e))) row) as [I1 I2]. cbn [fst snd] in *. split.
  - rewrite I1. destruct (cell_of row ends) as [c|]; [reflexivity|]. destruct e as [[f p]|]; cbn [pt_state snd]; [|reflexivity].
    rewrite cell_set, Hc, String.eqb_refl, andb_true_r, (String.eqb_sym row n). destruct (String.eqb n row); reflexivity.
  - intros row' col' Hne. rewrite I2 by exact Hne. destruct e as [[f p]|]; cbn [pt_state snd]; [|reflexivity].
    rewrite cell_set, Hc. apply String.eqb_neq in Hne. rewrite Hne, andb_false_r. reflexivity.
Qed.
Lemma pt_fold_score E t ends : Forall (fun ne => match snd ne with Some (_, p) => p <= 25 | None => True end) ends ->
  forall st, fst st + 26 * N.of_nat (length ends) < 2 ^ 64 ->
  fst (fold_left (fun st ne => pt_state E t st (fst ne) (snd ne)) ends st) = fst st + score_of ends.
Proof.
  induction 1 as [|[n e] ends He _ IH]; intros st Hst; cbn [fold_left score_of]; [lia|]. cbn [fst snd length] in *.
  rewrite IH; destruct e as [[[|] p]|]; cbn [pt_state fst]; try lia; rewrite Z.mod_small; lia.
Qed.

Lemma Forall2_len {X Y} (R : X -> Y -> Prop) l l' : Forall2 R l l' -> length l = length l'.
Proof. induction 1; cbn; congruence. Qed.
Lemma in_firstn {X} (x : X) n l : In x (firstn n l) -> In x l.
Proof. intros H. rewrite <- (firstn_skipn n l). apply in_or_app. left. exact H. Qed.
Lemma judged_range mixed E w setup f p : judged mixed E w setup (Some (f, p)) -> (ts_start setup <= Z.of_N p <= ts_stop setup)%Z.
Proof. intros (q & br & v & (H & _) & X). destruct (br_results br); [discriminate|]. injection X as _ ->. exact H. Qed.
Lemma setups_range E s t : Forall (fun x => ts_stop x <= 25 /\ ts_tests x = [t])%Z (per_test_setups E s t).
Proof.
  unfold per_test_setups. apply Forall_map. rewrite !Forall_app. repeat split.
  - destruct (s_trng s); repeat constructor; cbn; lia.
  - destruct (s_drng s); repeat constructor; cbn; lia.
  - apply Forall_map, Forall_forall. intros x _. cbn. split; [lia|reflexivity].
  - apply Forall_map, Forall_forall. intros x _. cbn. split; [lia|reflexivity].
  - apply Forall_map, Forall_forall. intros x _. cbn. split; [lia|reflexivity].
Qed.
Lemma ends_range E w setups ends : Forall (fun x => ts_stop x <= 25)%Z setups -> Forall2 (fun s e => judged (mixed_name (ts_name s)) E w s e) setups ends ->
  Forall (fun ne => match snd ne with Some (_, p) => p <= 25 | None => True end) (combine (map ts_name setups) ends).
Proof.
  intros R F. induction F as [|s e ss es J F IH]; cbn; [constructor|]. constructor; [|apply IH; inversion R; assumption].
  cbn. destruct e as [[f p]|]; [|exact I]. apply judged_range in J. pose proof (Forall_inv R). cbn in H. lia.
Qed.

Lemma pt_loop E pow rt root w s : good_env E pow rt -> N.of_nat (length (s_mixers s) + length (s_prngs s) + length (s_combiners s)) < 2 ^ 32 ->
  forall ds times m out, per_test_loop E root w s ds times m out -> forall ops m', out = Ok (ops, m') ->
  (forall d, In d ds -> get_test_name (e_defs E) (td_type d) = td_name d) -> NoDup (map td_name ds) ->
  (forall d, In d ds -> Forall (fun x => sound_setup (mixed_name (ts_name x)) E x) (per_test_setups E s (td_type d))) ->
  (forall row d, In d ds -> cell m row (td_name d) = None) ->
  exists endss ms,
    Forall2 (fun d es => Forall2 (fun x e => judged (mixed_name (ts_name x)) E w x e) (per_test_setups E s (td_type d)) es) ds endss /\
    ops = map (fun x => Write (table_path root "power_of_two" w) (table_text E x)) ms /\ m' = last ms m /\ length ms = length ds /\ length times = length ds /\
    (forall i d es time, nth_error ds i = Some d -> nth_error endss i = Some es -> nth_error times i = Some time ->
       forall k mk, (i <= k)%nat -> nth_error ms k = Some mk -> column_filled mk d (map ts_name (per_test_setups E s (td_type d))) es time) /\
    (forall k mk row col, nth_error ms k = Some mk -> ~ In col (map td_name (firstn (S k) ds)) -> cell mk row col = cell m row col) /\
    (forall P : per_test_result -> Prop, P m -> (forall m r c x, P m -> P (set_cell m r c x)) -> Forall P ms).
Proof.
  intros GE Hcount. induction 1 as [m|d ds time times m score m1 ops1 m' R m2 HL IH|d ds time times m R|d ds time times m score m1 R HL IH]; intros ops mm Ho Hn Hd Hs Hc; try discriminate.
  - injection Ho as <- <-. exists [], []. split; [constructor|]. do 4 (split; [reflexivity|]). split; [intros [|i] ? ? ? ?; discriminate|]. split; [intros [|i] ? ? ? ?; discriminate|]. constructor.
  - injection Ho as <- <-.
    assert (Fs : Forall (fun x => sound_setup (mixed_name (ts_name x)) E x /\ ts_tests x = [td_type d]) (per_test_setups E s (td_type d))).
    { pose proof (setups_range E s (td_type d)) as A. pose proof (Hs d (or_introl eq_refl)) as B. rewrite Forall_forall in *. intros x Hx. split; [apply B, Hx|apply A, Hx]. }
    destruct (pt_runs E pow rt w (td_type d) _ GE Fs _ _ R) as (es & J & Est).
    assert (Hname : get_test_name (e_defs E) (td_type d) = td_name d) by (apply Hn; left; reflexivity).
    set (cs := combine (map ts_name (per_test_setups E s (td_type d))) es) in *.
    assert (Sc : score = score_of cs).
    { assert (X : fst (score, m1) = 0 + score_of cs); [|exact X]. rewrite Est. apply (pt_fold_score E (td_type d) cs).
      - apply ends_range with (E := E) (w := w); [|exact J]. pose proof (setups_range E s (td_type d)) as A. rewrite Forall_forall in *. intros x Hx. apply A, Hx.
      - cbn [fst]. unfold cs. rewrite combine_length, map_length, <- (Forall2_len _ _ _ J), Nat.min_id.
        unfold per_test_setups. rewrite map_length, !app_length, !map_length.
        assert (length (on_data (s_trng s) (fun src => data_setup E "trng" src 10 (Z.min 25 22))) <= 1)%nat by (destruct (s_trng s); cbn; lia).
        assert (length (on_data (s_drng s) (fun src => data_setup E "drng" src 10 25)) <= 1)%nat by (destruct (s_drng s); cbn; lia).
        change (2 ^ 64) with 18446744073709551616. change (2 ^ 32) with 4294967296 in Hcount. lia. }
    assert (Cells : forall row, cell m1 row (td_name d) = cell_of row cs).
    { intro row. pose proof (pt_fold_cells E (td_type d) (td_name d) Hname cs (0, m) row) as [A _]. cbn zeta in A. rewrite <- Est in A. cbn [snd] in A. rewrite A.
      destruct (cell_of row cs); [reflexivity|]. apply Hc. left. reflexivity. }
    assert (Others : forall row col, col <> td_name d -> cell m1 row col = cell m row col).
    { intros row col Hne. pose proof (pt_fold_cells E (td_type d) (td_name d) Hname cs (0, m) row) as [_ A]. cbn zeta in A. rewrite <- Est in A. cbn [snd] in A. apply A, Hne. }
    assert (Filled : column_filled m2 d (map ts_name (per_test_setups E s (td_type d))) es time).
    { unfold column_filled, m2. repeat split.
      - intros row H1 H2. rewrite !cell_set. apply String.eqb_neq in H1, H2. rewrite H1, H2. cbn [andb]. apply Cells.
      - rewrite !cell_set, String.eqb_refl. cbn [andb]. change (String.eqb "!score" "!time") with false. rewrite String.eqb_refl. cbn [andb]. rewrite Sc. reflexivity.
      - rewrite cell_set, !String.eqb_refl. reflexivity. }
    assert (Others2 : forall row col, col <> td_name d -> cell m2 row col = cell m row col).
    { intros row col Hne. unfold m2. rewrite !cell_set. pose proof Hne as Hne'. apply String.eqb_neq in Hne'. rewrite Hne', !andb_false_r. apply Others, Hne. }
    cbn [map] in Hd. apply NoDup_cons_iff in Hd. destruct Hd as [Hd1 Hd2].
    destruct (IH ops1 m' eq_refl) as (endss & ms & I1 & I2 & I3 & I4 & I4' & I5 & I6 & I7).
    + intros x Hx. apply Hn. right. exact Hx.
    + exact Hd2.
    + intros x Hx. apply Hs. right. exact Hx.
    + intros row x Hx. rewrite Others2; [apply Hc; right; exact Hx|]. intros E0. apply Hd1. rewrite <- E0. apply in_map, Hx.
    + exists (es :: endss), (m2 :: ms). split; [constructor; assumption|]. split; [cbn [map]; rewrite I2; reflexivity|]. split.
      { rewrite I3. destruct ms; [reflexivity|]. cbn [last]. clear. revert p. induction ms as [|a ms IH]; intros p; [reflexivity|]. cbn [last] in *. apply IH. }
      split; [cbn; lia|]. split; [cbn; lia|]. split.
      * intros [|i] x es' time' X1 X2 X3 k mk Hk Hmk; cbn [nth_error] in X1, X2, X3.
        -- injection X1 as <-. injection X2 as <-. injection X3 as <-. destruct k as [|k]; cbn [nth_error] in Hmk; [injection Hmk as <-; exact Filled|].
           assert (Fr : forall row, cell mk row (td_name d) = cell m2 row (td_name d)).
           { intro row. apply (I6 k mk); [exact Hmk|]. intros C. apply Hd1. apply in_map_iff in C. destruct C as (y & Hy & Hin). rewrite <- Hy. apply in_map.
             apply in_firstn in Hin. exact Hin. }
           destruct Filled as (F1 & F2 & F3). split; [|split]; intros; rewrite Fr; auto.
        -- destruct k as [|k]; [lia|]. refine (I5 i x es' time' X1 X2 X3 k mk _ Hmk). lia.
      * split.
        { intros [|k] mk row col Hmk Hni; cbn [nth_error] in Hmk.
          - injection Hmk as <-. apply Others2. intros E0. apply Hni. cbn. left. symmetry. exact E0.
          - rewrite (I6 k mk row col Hmk).
            + apply Others2. intros E0. apply Hni. cbn. left. symmetry. exact E0.
            + intros C. apply Hni. cbn [firstn map]. right. exact C. }
        intros P HP0 HPs. assert (P2 : P m2).
        { unfold m2. apply HPs, HPs. assert (X : P (snd (score, m1))); [|exact X]. rewrite Est. assert (Q0 : P (snd (0, m))) by exact HP0. revert Q0. generalize (0, m). clear - HPs. induction cs as [|[n e] cs IHc]; intros st Hst; [exact Hst|].
          cbn [fold_left]. apply IHc. destruct e as [[f p]|]; cbn [pt_state fst snd]; [apply HPs, Hst|exact Hst]. }
        constructor; [exact P2|]. apply I7; assumption.
Qed.

(* ---- the printed table ---- *)
Definition table_wf (m : per_test_result) : Prop := StronglySorted slt (map fst m) /\ Forall (fun e => exists c, sm_get (snd e) c <> None) m.
Lemma sm_get_in {A} (m : list (string * A)) k : sm_get m k <> None <-> In k (map fst m).
Proof.
  induction m as [|[k0 v] m IH]; [cbn; tauto|]. rewrite sm_get_eqb. cbn [map fst In]. destruct (String.eqb_spec k k0) as [->|H]; [split; [auto|discriminate]|].
  rewrite IH. split; [auto|]. intros [->|X]; [contradiction|exact X].
Qed.
Lemma sm_set_keys {A} k (v : A) m x : In x (map fst (sm_set k v m)) <-> x = k \/ In x (map fst m).
Proof.
  rewrite <- !sm_get_in, sm_get_set. destruct (String.eqb_spec x k) as [->|H]; [split; [auto|discriminate]|]. tauto.
Qed.
Lemma sm_set_sorted {A} k (v : A) m : StronglySorted slt (map fst m) -> StronglySorted slt (map fst (sm_set k v m)).
Proof.
  induction m as [|[k0 v0] m IH]; cbn [sm_set]; intros H; [repeat constructor|]. cbn [map fst] in H. apply StronglySorted_inv in H. destruct H as [H1 H2].
  destruct (String.ltb k k0) eqn:A1.
  - cbn [map fst]. constructor; [constructor; assumption|]. constructor; [exact A1|]. eapply Forall_impl; [|exact H2]. intros y Hy. eapply slt_trans; [exact A1|exact Hy].
  - destruct (String.ltb k0 k) eqn:A2.
    + cbn [map fst]. constructor; [apply IH, H1|]. rewrite Forall_forall in *. intros y Hy. apply sm_set_keys in Hy. destruct Hy as [->|Hy]; [exact A2|apply H2, Hy].
    + cbn [map fst]. assert (k = k0) by (apply slt_total; assumption). subst. constructor; assumption.
Qed.
Lemma sm_set_values {A} (P : A -> Prop) k v m : P v -> Forall (fun e => P (snd e)) m -> Forall (fun e => P (snd e)) (sm_set k v m).
Proof.
  intros Hv. induction 1 as [|[k0 v0] m H1 H2 IH]; cbn [sm_set]; [repeat constructor; exact Hv|].
  destruct (String.ltb k k0); [repeat constructor; assumption|]. destruct (String.ltb k0 k); constructor; assumption.
Qed.
Lemma table_wf_set m r c x : table_wf m -> table_wf (set_cell m r c x).
Proof.
  intros [A B]. split; [apply sm_set_sorted, A|]. apply (sm_set_values (fun v => exists c, sm_get v c <> None)); [|exact B].
  exists c. rewrite sm_get_set, String.eqb_refl. discriminate.
Qed.
Lemma sorted_get {A} (m : list (string * A)) e : StronglySorted slt (map fst m) -> In e m -> sm_get m (fst e) = Some (snd e).
Proof.
  induction m as [|[k0 v0] m IH]; [intros _ []|]. cbn [map fst]. intros S. apply StronglySorted_inv in S. destruct S as [S1 S2]. intros [<-|H]; rewrite sm_get_eqb; cbn [fst snd].
  - rewrite String.eqb_refl. reflexivity.
  - destruct (String.eqb_spec (fst e) k0) as [E0|]; [|apply IH; assumption]. exfalso. rewrite Forall_forall in S2. apply (slt_irrefl k0). rewrite <- E0 at 2. apply S2, in_map, H.
Qed.
Lemma table_text_ok E m : table_wf m -> exists rows, table_rows m rows /\ table_text E m = table_of (map td_name (e_defs E)) rows (cell m).
Proof.
  intros [S V]. exists (map fst m). split.
  - split; [exact S|]. intro r. split.
    + intros H. apply in_map_iff in H. destruct H as (e & <- & He). rewrite Forall_forall in V. destruct (V e He) as [c Hc]. exists c. unfold cell. rewrite (sorted_get m e S He). exact Hc.
    + intros (c & Hc). apply sm_get_in. intros C. apply Hc. unfold cell. rewrite C. reflexivity.
  - assert (M : forall X Y Z (f : Y -> list Z) (g : X -> Y) l, flat_map f (map g l) = flat_map (fun x => f (g x)) l)
      by (intros X Y Z f g l; induction l as [|x l IH]; [reflexivity|]; cbn; rewrite IH; reflexivity).
    unfold table_text, table_of. rewrite !M. do 6 f_equal.
    assert (F : forall X Z (f g : X -> list Z) l, (forall x, In x l -> f x = g x) -> flat_map f l = flat_map g l)
      by (intros X Z f g l; induction l as [|x l IH]; intros H; [reflexivity|]; cbn; rewrite H by (left; reflexivity); rewrite IH by (intros y Hy; apply H; right; exact Hy); reflexivity).
    apply F. intros e He. rewrite M. do 3 f_equal. apply F. intros d _. unfold cell. rewrite (sorted_get m e S He).
    destruct (sm_get (snd e) (td_name d)); reflexivity.
Qed.
