(* Proofs about the search. *)
From Coq Require Import Reals Permutation Lra.
From Verif Require Import Base FloatModel FloatLemmas JobsModel JobsProofs Prop_Jobs SearchModel.
Open Scope nat_scope.

Definition good (cfg : sffs_config) : Prop :=
  (0 <= cmin cfg)%Z /\ length (init_bits cfg) = cbits cfg /\ (Z.of_nat (cbits cfg) < 2 ^ 31)%Z /\
  forall v, length v = cbits cfg -> is_finite (cfitness cfg v) = true /\ dlt (cfitness cfg v) dbl_max = true.

Lemma filter_length_le {A} (f : A -> bool) l : length (filter f l) <= length l.
Proof. induction l as [|a l IH]; cbn [filter length]; [lia|]. destruct (f a); cbn [length]; lia. Qed.
(* ---- maps ---- *)
Lemma kget_kset m k s j : kget (kset m k s) j = if (k =? j)%Z then s else kget m j.
Proof.
  induction m as [|[i t] r IH]; cbn [kset kget]; [reflexivity|]. destruct (Z.ltb_spec k i); [reflexivity|]. destruct (Z.eqb_spec k i) as [->|].
  - cbn [kget]. destruct (Z.eqb_spec i j); reflexivity.
  - cbn [kget]. rewrite IH. destruct (Z.eqb_spec i j); [subst; destruct (Z.eqb_spec k j); [lia|reflexivity]|reflexivity].
Qed.
Definition low (k : Z) (m : kmap) : Prop := Forall (fun e => k < fst e)%Z m.
Fixpoint sorted (m : kmap) : Prop := match m with [] => True | e :: r => low (fst e) r /\ sorted r end.
Lemma kset_low m k s b : low b m -> (b < k)%Z -> low b (kset m k s).
Proof.
  induction m as [|[i t] r IH]; intros L H; cbn [kset]; [repeat constructor; exact H|]. destruct (k <? i)%Z; [constructor; [exact H|exact L]|]. destruct (k =? i)%Z.
  - constructor; [exact H|exact (Forall_inv_tail L)].
  - constructor; [exact (Forall_inv L)|apply IH; [exact (Forall_inv_tail L)|exact H]].
Qed.
Lemma low_weaken b c m : (b <= c)%Z -> low c m -> low b m.
Proof. intros H. apply Forall_impl. intros e. lia. Qed.
Lemma kset_sorted m k s : sorted m -> sorted (kset m k s).
Proof.
  induction m as [|[i t] r IH]; intro H; cbn [kset]; [repeat constructor|]. destruct H as [L S]. destruct (Z.ltb_spec k i); [|destruct (Z.eqb_spec k i)].
  - split; [|split; assumption]. constructor; [exact H|]. cbn [fst] in *. apply low_weaken with i; [lia|exact L].
  - subst. split; assumption.
  - split; [apply kset_low; [exact L|cbn [fst]; lia]|apply IH, S].
Qed.
Lemma kget_in m k s : sorted m -> In (k, s) m -> kget m k = s.
Proof.
  induction m as [|[i t] r IH]; intros S H; [destruct H|]. destruct S as [L S]. cbn [kget]. destruct H as [E|H].
  - injection E as -> ->. rewrite Z.eqb_refl. reflexivity.
  - destruct (Z.eqb_spec i k); [|apply IH; assumption]. subst. unfold low in L. rewrite Forall_forall in L. specialize (L _ H). cbn in L. lia.
Qed.
Lemma in_kget m k : In (k, kget m k) m \/ kget m k = s_default.
Proof. induction m as [|[i t] r IH]; cbn [kget]; [right; reflexivity|]. destruct (Z.eqb_spec i k); [left; subst; left; reflexivity|]. destruct IH; [left; right; assumption|right; assumption]. Qed.
Lemma in_kset m k s e : In e (kset m k s) -> e = (k, s) \/ In e m.
Proof.
  induction m as [|[i t] r IH]; cbn [kset]; [intros [H|[]]; left; congruence|]. destruct (k <? i)%Z; [intros [H|H]; [left; congruence|right; exact H]|]. destruct (k =? i)%Z.
  - intros [H|H]; [left; congruence|right; right; exact H].
  - intros [H|H]; [right; left; exact H|]. destruct (IH H); [left; assumption|right; right; assumption].
Qed.
(* ---- best of a list ---- *)
Lemma best_ok l : forall b, Forall (fun s => is_finite (sscore s) = true) (b :: l) ->
  let r := fold_left keep_best l b in (r = b \/ In r l) /\ Forall (fun s => dlt (sscore s) (sscore r) = false) (b :: l).
Proof.
  induction l as [|a l IH]; intros b F; cbn [fold_left].
  - split; [left; reflexivity|]. constructor; [|constructor]. pose proof (Forall_inv F) as Hb. apply dlt_false; [exact Hb|exact Hb|]. apply Rle_refl.
  - pose proof (Forall_inv F) as Hb. pose proof (Forall_inv (Forall_inv_tail F)) as Ha. cbn beta in Ha, Hb.
    assert (Fk : is_finite (sscore (keep_best b a)) = true) by (unfold keep_best; destruct (dlt _ _); assumption).
    destruct (IH (keep_best b a)) as [I B]; [constructor; [exact Fk|exact (Forall_inv_tail (Forall_inv_tail F))]|]. cbn zeta in I, B. set (r := fold_left keep_best l (keep_best b a)) in *.
    assert (Fr : is_finite (sscore r) = true). { destruct I as [->|I]; [exact Fk|]. rewrite Forall_forall in F. apply F. right. right. exact I. }
    split.
    + destruct I as [->|I]; [unfold keep_best; destruct (dlt _ _); [right; left; reflexivity|left; reflexivity]|right; right; exact I].
    + pose proof (Forall_inv B) as B0. cbn beta in B0. apply dlt_false in B0; [|exact Fk|exact Fr].
      assert (K : (dval (sscore (keep_best b a)) <= dval (sscore b) /\ dval (sscore (keep_best b a)) <= dval (sscore a))%R).
      { unfold keep_best. destruct (dlt (sscore a) (sscore b)) eqn:E; [apply dlt_iff in E|apply dlt_false in E]; try assumption; split; lra. }
      constructor; [apply dlt_false; [assumption|assumption|lra]|]. constructor; [apply dlt_false; [assumption|assumption|lra]|exact (Forall_inv_tail B)].
Qed.
Lemma fin_max : is_finite dbl_max = true. Proof. reflexivity. Qed.
(* ---- candidates ---- *)
Lemma upd_len {A} (l : list A) i a : length (upd l i a) = length l.
Proof. revert i. induction l as [|x l IH]; intros [|i]; cbn [upd length]; congruence. Qed.
Lemma count_upd l : forall i b, nth_error l i = Some (negb b) -> count_bits (upd l i b) = (count_bits l + (if b then 1 else -1))%Z.
Proof.
  unfold count_bits. induction l as [|x l IH]; intros [|i] b H; [discriminate|discriminate| |]; cbn [nth_error] in H.
  - injection H as ->. cbn [upd filter]. destruct b; cbn [negb length]; lia.
  - cbn [upd filter]. destruct x; cbn [length]; specialize (IH i b H); destruct b; lia.
Qed.
Lemma candidates_from cur fwd : forall n a acc, a + n <= length cur ->
  ofold (fun acc i => b <- at_ cur i ;; Ok (if Bool.eqb b fwd then acc else acc ++ [upd cur i fwd])) (seq a n) acc =
  Ok (acc ++ map (fun i => upd cur i fwd) (filter (fun i => Bool.eqb (nth i cur false) (negb fwd)) (seq a n))).
Proof.
  induction n as [|n IH]; intros a acc H; cbn [seq ofold filter map]; [rewrite app_nil_r; reflexivity|].
  assert (E : nth_error cur a = Some (nth a cur false)) by (apply nth_error_nth'; lia). unfold at_ at 1. rewrite E. cbn [obind]. rewrite IH by lia. f_equal.
  destruct (nth a cur false), fwd; cbn [Bool.eqb negb map]; rewrite <- ?app_assoc; reflexivity.
Qed.
Lemma candidates_ok cfg cur fwd : length cur = cbits cfg -> exists tests, candidates cfg cur fwd = Ok tests /\ length tests <= cbits cfg /\
  Forall (fun v => length v = cbits cfg /\ count_bits v = (count_bits cur + (if fwd then 1 else -1))%Z) tests /\
  ((if fwd then (count_bits cur < Z.of_nat (cbits cfg))%Z else (0 < count_bits cur)%Z) -> tests <> []).
Proof.
  intro L. unfold candidates. rewrite candidates_from by lia. cbn [app]. eexists. split; [reflexivity|]. split; [|split].
  - rewrite map_length. etransitivity; [apply filter_length_le|]. rewrite seq_length. lia.
  - apply Forall_forall. intros v Hv. apply in_map_iff in Hv. destruct Hv as (i & <- & Hi). apply filter_In in Hi. destruct Hi as [Hi E]. apply in_seq in Hi. split; [rewrite upd_len; exact L|].
    apply count_upd. rewrite (nth_error_nth' cur false) by lia. f_equal. apply Bool.eqb_prop, E.
  - intros C Z. assert (G : Forall (fun b => Bool.eqb b (negb fwd) = false) cur).
    { apply Forall_forall. intros b Hb. destruct (In_nth cur b false Hb) as (i & Hi & E). destruct (Bool.eqb b (negb fwd)) eqn:Q; [|reflexivity]. exfalso.
      assert (I : In (upd cur i fwd) (map (fun i => upd cur i fwd) (filter (fun i => Bool.eqb (nth i cur false) (negb fwd)) (seq 0 (cbits cfg))))).
      { apply in_map_iff. exists i. split; [reflexivity|]. apply filter_In. split; [apply in_seq; lia|]. rewrite E. exact Q. }
      rewrite Z in I. destruct I. }
    revert C L. clear - G. intros C L. destruct fwd; cbn [negb] in G.
    + assert (length (filter (fun b => b) cur) = length cur); [|unfold count_bits in C; lia]. clear - G. induction G as [|b l E G IH]; [reflexivity|]. destruct b; [cbn [filter length]; lia|discriminate].
    + assert (length (filter (fun b => b) cur) = 0); [|unfold count_bits in C; lia]. clear - G. induction G as [|b l E G IH]; [reflexivity|]. destruct b; [discriminate|cbn [filter]; exact IH].
Qed.
(* ---- get_state ---- *)
Lemma flat_single {A} (l : list A) : flat_map (fun r => [r]) l = l.
Proof. induction l as [|x l IH]; [reflexivity|]. cbn [flat_map app]. rewrite IH. reflexivity. Qed.
Lemma threads_pos hw : (1 <= default_max_threads hw)%N.
Proof. unfold default_max_threads. lia. Qed.
Lemma get_state_ok hw cfg cur fwd tests best : good cfg -> length cur = cbits cfg -> get_state_returns hw cfg cur fwd tests best ->
  (if fwd then (count_bits cur < Z.of_nat (cbits cfg))%Z else (0 < count_bits cur)%Z) ->
  In (sdata best) tests /\ best = evaluated cfg (sdata best) /\ length (sdata best) = cbits cfg /\ count_bits (sdata best) = (count_bits cur + (if fwd then 1 else -1))%Z /\
  Forall (fun v => dlt (cfitness cfg v) (sscore best) = false) tests /\ Forall (fun v => length v = cbits cfg) tests.
Proof.
  intros (Gm & Gi & Gb & Gf) L (C & s & X & M & E) P. destruct (candidates_ok cfg cur fwd L) as (tests' & C' & LT & FT & NE). rewrite C in C'. injection C' as <-. specialize (NE P).
  assert (B32 : (N.of_nat (length tests) < 2 ^ 32)%N) by lia.
  destruct (C22_each_job_once_each_result_once _ _ _ (default_max_threads hw) tests (fun j r => r = evaluated cfg j) (fun r => [r]) s (threads_pos hw) B32 X M) as (_ & PR & FR & _ & PA).
  assert (R : Permutation (rev (jadds s)) (map (evaluated cfg) tests)).
  { rewrite <- Permutation_rev, PA. replace (flat_map (fun r => [r]) (map snd (jran s))) with (map snd (jran s)) by (symmetry; apply flat_single).
    replace (map snd (jran s)) with (map (evaluated cfg) (map fst (jran s))); [apply Permutation_map, PR|]. clear - FR. induction FR as [|x l H _ IH]; [reflexivity|]. cbn [map]. rewrite IH, H. reflexivity. }
  set (rs := rev (jadds s)) in *.
  assert (FF : Forall (fun s => is_finite (sscore s) = true /\ dlt (sscore s) dbl_max = true) rs).
  { eapply Permutation_Forall; [symmetry; exact R|]. apply Forall_forall. intros r Hr. apply in_map_iff in Hr. destruct Hr as (v & <- & Hv). rewrite Forall_forall in FT. destruct (FT v Hv) as [Lv _]. exact (Gf v Lv). }
  destruct (best_ok rs s_default) as [I B].
  { constructor; [exact fin_max|]. apply Forall_impl with (2 := FF). tauto. }
  cbn zeta in I, B. rewrite <- E in I, B.
  assert (IB : In best rs).
  { destruct I as [D|I]; [|exact I]. exfalso. destruct rs as [|r rs']; [apply Permutation_nil in R; destruct tests; [apply NE; reflexivity|discriminate]|].
    pose proof (Forall_inv (Forall_inv_tail B)) as B1. cbn beta in B1. rewrite D in B1. pose proof (Forall_inv FF) as [_ F1]. change (sscore s_default) with dbl_max in B1. congruence. }
  assert (EV : exists v, In v tests /\ evaluated cfg v = best).
  { pose proof (Permutation_in _ R IB) as J. apply in_map_iff in J. destruct J as (v & Ev & Hv). exists v. auto. }
  destruct EV as (v & Hv & Ev). assert (Dv : sdata best = v) by (rewrite <- Ev; reflexivity).
  rewrite Forall_forall in FT. destruct (FT v Hv) as [Lv Cv]. rewrite Dv. split; [exact Hv|]. split; [symmetry; exact Ev|]. split; [exact Lv|]. split; [exact Cv|]. split.
  - apply Forall_forall. intros u Hu. apply Forall_inv_tail in B. rewrite Forall_forall in B. apply (B (evaluated cfg u)).
    eapply Permutation_in; [symmetry; exact R|]. apply in_map, Hu.
  - apply Forall_forall. intros u Hu. apply FT, Hu.
Qed.
Lemma get_state_exists hw cfg cur fwd : length cur = cbits cfg -> exists tests best, get_state_returns hw cfg cur fwd tests best.
Proof.
  intro L. destruct (candidates_ok cfg cur fwd L) as (tests & C & _). exists tests.
  destruct (C22_returns (list bool) sffs_state sffs_state (default_max_threads hw) tests (fun j r => r = evaluated cfg j) (fun r => [r]) (jinit tests)) as (s & X & M).
  - intro j. eexists. reflexivity.
  - apply jr_refl.
  - eexists. split; [exact C|]. exists s. split; [exact X|]. split; [exact M|reflexivity].
Qed.
(* ---- the invariant ---- *)
Definition entry_ok (cfg : sffs_config) (e : Z * sffs_state) : Prop :=
  snd e = evaluated cfg (sdata (snd e)) /\ length (sdata (snd e)) = cbits cfg /\ count_bits (sdata (snd e)) = fst e.
Definition running_ok (cfg : sffs_config) (k : Z) (ks : kmap) (ev : list (list bool)) : Prop :=
  sorted ks /\ Forall (entry_ok cfg) ks /\ In (k, kget ks k) ks /\ In (init_bits cfg) ev /\
  Forall (fun v => length v = cbits cfg /\ exists e, In e ks /\ dlt (cfitness cfg v) (sscore (snd e)) = false) ev /\ Forall (fun e => In (sdata (snd e)) ev) ks.
Definition rinv (cfg : sffs_config) (s : rstate) : Prop :=
  match s with
  | AtOuter k ks ev => running_ok cfg k ks ev
  | AtInner k ks ev | AtForward k ks ev => running_ok cfg k ks ev /\ (k < max_k cfg)%Z
  | Finished best ev => In (sdata best) ev /\ best = evaluated cfg (sdata best) /\ In (init_bits cfg) ev /\ Forall (fun v => length v = cbits cfg /\ dlt (cfitness cfg v) (sscore best) = false) ev
  | Undefined => False
  end.
Lemma count_range l : (0 <= count_bits l <= Z.of_nat (length l))%Z.
Proof. unfold count_bits. pose proof (filter_length_le (fun b => b) l). lia. Qed.
Lemma entry_k cfg k ks ev : running_ok cfg k ks ev -> entry_ok cfg (k, kget ks k) /\ (0 <= k <= Z.of_nat (cbits cfg))%Z.
Proof.
  intros (_ & F & I & _). rewrite Forall_forall in F. specialize (F _ I). split; [exact F|]. destruct F as (_ & L & C). cbn [fst snd] in *. rewrite <- C, <- L. apply count_range.
Qed.
Lemma dle_trans x y z : is_finite x = true -> is_finite y = true -> is_finite z = true -> dlt x y = false -> dlt y z = false -> dlt x z = false.
Proof. intros Hx Hy Hz A B. apply dlt_false in A; [|assumption|assumption]. apply dlt_false in B; [|assumption|assumption]. apply dlt_false; [assumption|assumption|lra]. Qed.
Lemma dlt_asym x y : is_finite x = true -> is_finite y = true -> dlt x y = true -> dlt y x = false.
Proof. intros Hx Hy A. apply dlt_iff in A; [|assumption|assumption]. apply dlt_false; [assumption|assumption|lra]. Qed.
(* replacing an entry by a better one, or keeping it *)
Lemma replace_ok cfg k j ks ev tests new : good cfg -> 0 < cbits cfg -> running_ok cfg k ks ev -> In (sdata new) tests -> entry_ok cfg (j, new) ->
  Forall (fun v => dlt (cfitness cfg v) (sscore new) = false) tests -> Forall (fun v => length v = cbits cfg) tests ->
  (no_data (kget ks j) || dlt (sscore new) (sscore (kget ks j)) = true -> running_ok cfg j (kset ks j new) (ev ++ tests)) /\
  (no_data (kget ks j) || dlt (sscore new) (sscore (kget ks j)) = false -> running_ok cfg j ks (ev ++ tests) /\ running_ok cfg k ks (ev ++ tests)).
Proof.
  intros (Gm & Gi & Gb & Gf) B0 (So & F & I & IE & FE & FS) IN EN BT LT.
  assert (FN : is_finite (sscore new) = true) by (destruct EN as (E & L & _); cbn [snd] in *; rewrite E; apply Gf, L).
  assert (FIN : forall e, In e ks -> is_finite (sscore (snd e)) = true) by (intros e He; rewrite Forall_forall in F; destruct (F e He) as (E & L & _); rewrite E; apply Gf, L).
  split; intro D.
  - split; [apply kset_sorted, So|]. split.
    { apply Forall_forall. intros e He. apply in_kset in He. destruct He as [->|He]; [exact EN|]. rewrite Forall_forall in F. apply F, He. }
    assert (INN : In (j, new) (kset ks j new)).
    { destruct (in_kget (kset ks j new) j) as [Q|Q]; rewrite kget_kset, Z.eqb_refl in Q; [exact Q|]. exfalso. destruct EN as (_ & L & _). cbn [snd] in L. rewrite Q in L. cbn in L. lia. }
    split; [rewrite kget_kset, Z.eqb_refl; exact INN|]. split; [apply in_app_iff; left; exact IE|]. split.
    + apply Forall_app. split.
      * apply Forall_forall. intros v Hv. rewrite Forall_forall in FE. destruct (FE v Hv) as (Lv & e & He & Q). split; [exact Lv|].
        destruct (Z.eq_dec (fst e) j) as [Ej|Ej].
        -- exists (j, new). split; [exact INN|]. destruct e as [i s]. cbn [fst snd] in *. subst i. pose proof (kget_in ks j s So He) as KG. rewrite KG in D.
           assert (ND : no_data s = false). { unfold no_data. rewrite Forall_forall in F. destruct (F _ He) as (_ & L & _). cbn [snd] in L. destruct (sdata s); [cbn in L; lia|reflexivity]. }
           rewrite ND in D. cbn [orb] in D. apply dle_trans with (sscore s); [apply Gf, Lv|exact (FIN _ He)|exact FN|exact Q|]. apply dlt_asym; [exact FN|exact (FIN _ He)|exact D].
        -- exists e. split; [|exact Q]. destruct e as [i s]. cbn [fst] in Ej. pose proof (kget_in ks i s So He) as KG.
           destruct (in_kget (kset ks j new) i) as [W|W]; rewrite kget_kset in W; (destruct (Z.eqb_spec j i); [congruence|]); rewrite KG in W; [exact W|].
           exfalso. rewrite Forall_forall in F. destruct (F _ He) as (_ & L & _). cbn [snd] in L. rewrite W in L. cbn in L. lia.
      * apply Forall_forall. intros v Hv. rewrite Forall_forall in BT, LT. split; [apply LT, Hv|]. exists (j, new). split; [exact INN|apply BT, Hv].
    + apply Forall_forall. intros e He. apply in_kset in He. apply in_app_iff. destruct He as [->|He]; [right; exact IN|left; rewrite Forall_forall in FS; apply FS, He].
  - apply orb_false_elim in D. destruct D as [ND D].
    assert (INJ : In (j, kget ks j) ks). { destruct (in_kget ks j) as [Q|Q]; [exact Q|]. rewrite Q in ND. discriminate. }
    assert (FA : Forall (fun v => length v = cbits cfg /\ exists e, In e ks /\ dlt (cfitness cfg v) (sscore (snd e)) = false) (ev ++ tests)).
    { apply Forall_app. split; [exact FE|]. apply Forall_forall. intros v Hv. rewrite Forall_forall in BT, LT. split; [apply LT, Hv|]. exists (j, kget ks j). split; [exact INJ|]. cbn [snd].
      apply dle_trans with (sscore new); [apply Gf, LT, Hv|exact FN|exact (FIN _ INJ)|apply BT, Hv|exact D]. }
    assert (FS' : Forall (fun e => In (sdata (snd e)) (ev ++ tests)) ks) by (apply Forall_impl with (2 := FS); intros e He; apply in_app_iff; left; exact He).
    assert (IE' : In (init_bits cfg) (ev ++ tests)) by (apply in_app_iff; left; exact IE).
    split; repeat (split; [assumption|]); assumption.
Qed.
Lemma inv_init cfg : good cfg -> rinv cfg (sffs_init cfg).
Proof.
  intros (Gm & Gi & Gb & Gf). cbn [sffs_init rinv]. set (v := init_bits cfg) in *. unfold running_ok. cbn [kset kget]. rewrite Z.eqb_refl. split; [cbn; split; [constructor|exact I]|].
  split; [constructor; [split; [reflexivity|split; [exact Gi|reflexivity]]|constructor]|]. split; [left; reflexivity|]. split; [left; reflexivity|]. split.
  - constructor; [|constructor]. split; [exact Gi|]. eexists. split; [left; reflexivity|]. cbn [snd evaluated sscore]. destruct (Gf v Gi) as [F _]. apply dlt_false; [exact F|exact F|apply Rle_refl].
  - constructor; [left; reflexivity|constructor].
Qed.
Lemma max_le cfg k : (k < max_k cfg)%Z -> (k < Z.of_nat (cbits cfg))%Z.
Proof. unfold max_k. lia. Qed.
Lemma inv_step hw cfg s s' : good cfg -> rinv cfg s -> sffs_step hw cfg s s' -> rinv cfg s'.
Proof.
  intros G V St. destruct St as [k ks ev H|k ks ev H|k ks ev H|k ks ev tests new H R D|k ks ev tests new H R D|k ks ev H U|k ks ev tests new R|k ks ev U]; cbn [rinv] in *.
  - split; assumption.
  - destruct V as (So & F & I & IE & FE & FS). destruct G as (Gm & Gi & Gb & Gf).
    assert (FF : Forall (fun s => is_finite (sscore s) = true) (s_default :: map snd ks)).
    { constructor; [exact fin_max|]. apply Forall_map, Forall_forall. intros e He. rewrite Forall_forall in F. destruct (F e He) as (E & L & _). rewrite E. apply Gf, L. }
    destruct (best_ok (map snd ks) s_default FF) as [J B]. cbn zeta in J, B. set (best := fold_left keep_best (map snd ks) s_default) in *.
    assert (JB : In best (map snd ks)).
    { destruct J as [D|J]; [|exact J]. exfalso. apply Forall_inv_tail in B. rewrite Forall_forall in B. specialize (B (kget ks k) (in_map snd ks _ I)). rewrite D in B.
      rewrite Forall_forall in F. destruct (F _ I) as (E & L & _). cbn [snd] in *. rewrite E in B. cbn [evaluated sscore s_default] in B. destruct (Gf _ L) as [_ X]. congruence. }
    apply in_map_iff in JB. destruct JB as (e & Ee & He). rewrite <- Ee in *. rewrite Forall_forall in F, FS. destruct (F e He) as (E & L & _).
    split; [apply FS, He|]. split; [exact E|]. split; [exact IE|]. apply Forall_forall. intros v Hv. rewrite Forall_forall in FE. destruct (FE v Hv) as (Lv & e' & He' & Q). split; [exact Lv|].
    apply dle_trans with (sscore (snd e')); [apply Gf, Lv| | |exact Q|].
    + rewrite Forall_forall in FF. apply FF. right. apply in_map, He'.
    + rewrite E. apply Gf, L.
    + apply Forall_inv_tail in B. rewrite Forall_forall in B. apply B. apply in_map, He'.
  - exact V.
  - destruct V as [V K]. destruct (entry_k cfg k ks ev V) as [(E & L & C) KR]. cbn [fst snd] in *. pose proof (max_le cfg k K) as KB. assert (Gm : (0 <= cmin cfg)%Z) by apply G.
    destruct (get_state_ok hw cfg _ false tests new G L R) as (I1 & I2 & I3 & I4 & I5 & I6); [lia|].
    destruct (replace_ok cfg k (k - 1) ks ev tests new G ltac:(lia) V I1) as [A _]; [split; [exact I2|split; [exact I3|cbn [fst snd]; lia]]|exact I5|exact I6|].
    split; [apply A, D|lia].
  - destruct V as [V K]. destruct (entry_k cfg k ks ev V) as [(E & L & C) KR]. cbn [fst snd] in *. pose proof (max_le cfg k K) as KB. assert (Gm : (0 <= cmin cfg)%Z) by apply G.
    destruct (get_state_ok hw cfg _ false tests new G L R) as (I1 & I2 & I3 & I4 & I5 & I6); [lia|].
    destruct (replace_ok cfg k (k - 1) ks ev tests new G ltac:(lia) V I1) as [_ A]; [split; [exact I2|split; [exact I3|cbn [fst snd]; lia]]|exact I5|exact I6|].
    split; [apply A, D|exact K].
  - destruct V as [V K]. destruct (entry_k cfg k ks ev V) as [(E & L & C) KR]. cbn [fst snd] in *. destruct (candidates_ok cfg _ false L) as (t & Q & _). congruence.
  - destruct V as [V K]. destruct (entry_k cfg k ks ev V) as [(E & L & C) KR]. cbn [fst snd] in *. pose proof (max_le cfg k K) as KB.
    destruct (get_state_ok hw cfg _ true tests new G L R) as (I1 & I2 & I3 & I4 & I5 & I6); [lia|].
    destruct (replace_ok cfg k (k + 1) ks ev tests new G ltac:(lia) V I1) as [A1 A2]; [split; [exact I2|split; [exact I3|cbn [fst snd]; lia]]|exact I5|exact I6|].
    destruct (no_data (kget ks (k + 1)) || dlt (sscore new) (sscore (kget ks (k + 1)))) eqn:D; [apply A1; reflexivity|apply A2; reflexivity].
  - destruct V as [V K]. destruct (entry_k cfg k ks ev V) as [(E & L & C) KR]. cbn [fst snd] in *. destruct (candidates_ok cfg _ true L) as (t & Q & _). congruence.
Qed.
Lemma reach_ok hw cfg s : good cfg -> sffs_reach hw cfg s -> rinv cfg s.
Proof. intros G H. induction H as [|s s' _ IH St]; [apply inv_init, G|apply (inv_step hw cfg s s' G IH St)]. Qed.
Lemma step_exists hw cfg s : good cfg -> rinv cfg s -> (exists b ev, s = Finished b ev) \/ exists s', sffs_step hw cfg s s'.
Proof.
  intros G V. destruct s as [k ks ev|k ks ev|k ks ev|b ev|]; cbn [rinv] in V; [| | |left; eauto|destruct V].
  - right. destruct (Z_lt_le_dec k (max_k cfg)); eexists; [apply st_enter; assumption|apply st_finish; assumption].
  - right. destruct V as [V _]. destruct (entry_k cfg k ks ev V) as [(E & L & C) KR]. cbn [fst snd] in *. destruct (Z_lt_le_dec (cmin cfg) k); [|eexists; apply st_no_backward; assumption].
    destruct (get_state_exists hw cfg _ false L) as (t & new & R). destruct (no_data (kget ks (k - 1)) || dlt (sscore new) (sscore (kget ks (k - 1)))) eqn:D; eexists; [eapply st_backward; eassumption|eapply st_break; eassumption].
  - right. destruct V as [V _]. destruct (entry_k cfg k ks ev V) as [(E & L & C) KR]. cbn [fst snd] in *. destruct (get_state_exists hw cfg _ true L) as (t & new & R). eexists. eapply st_forward. exact R.
Qed.
(* ---- termination ---- *)
Fixpoint all_bits (n : nat) : list (list bool) := match n with O => [[]] | S m => map (cons false) (all_bits m) ++ map (cons true) (all_bits m) end.
Lemma all_bits_in n : forall v, length v = n -> In v (all_bits n).
Proof. induction n as [|n IH]; intros v H; [destruct v; [left; reflexivity|discriminate]|]. destruct v as [|[] v]; [discriminate| |]; cbn [all_bits]; apply in_app_iff; [right|left]; apply in_map, IH; cbn in H; lia. Qed.
Lemma all_bits_len n : forall v, In v (all_bits n) -> length v = n.
Proof. induction n as [|n IH]; intros v H; [destruct H as [<-|[]]; reflexivity|]. cbn [all_bits] in H. apply in_app_iff in H. destruct H as [H|H]; apply in_map_iff in H; destruct H as (u & <- & Hu); cbn [length]; f_equal; apply IH, Hu. Qed.
Definition rank_of (cfg : sffs_config) (s : sffs_state) : nat :=
  if no_data s then S (length (all_bits (cbits cfg))) else length (filter (fun v => dlt (cfitness cfg v) (sscore s)) (all_bits (cbits cfg))).
Definition total_rank (cfg : sffs_config) (ks : kmap) : nat := list_sum (map (fun j => rank_of cfg (kget ks (Z.of_nat j))) (seq 0 (S (cbits cfg)))).
Lemma filter_sub {A} (f g : A -> bool) l : (forall x, In x l -> f x = true -> g x = true) -> length (filter f l) <= length (filter g l).
Proof.
  induction l as [|a l IH]; intro H; [reflexivity|]. cbn [filter]. specialize (IH (fun x Hx => H x (or_intror Hx))). destruct (f a) eqn:E.
  - rewrite (H a (or_introl eq_refl) E). cbn [length]. lia.
  - destruct (g a); cbn [length]; lia.
Qed.
Lemma filter_sub_lt {A} (f g : A -> bool) l x : (forall x, In x l -> f x = true -> g x = true) -> In x l -> f x = false -> g x = true -> length (filter f l) < length (filter g l).
Proof.
  induction l as [|a l IH]; intros H I Fx Gx; [destruct I|]. cbn [filter]. destruct I as [->|I].
  - rewrite Fx, Gx. cbn [length]. pose proof (filter_sub f g l (fun x Hx => H x (or_intror Hx))). lia.
  - specialize (IH (fun x Hx => H x (or_intror Hx)) I Fx Gx). destruct (f a) eqn:E; [rewrite (H a (or_introl eq_refl) E); cbn [length]; lia|destruct (g a); cbn [length]; lia].
Qed.
Lemma rank_drops cfg new old : good cfg -> 0 < cbits cfg -> new = evaluated cfg (sdata new) -> length (sdata new) = cbits cfg -> (no_data old = false -> is_finite (sscore old) = true) ->
  no_data old || dlt (sscore new) (sscore old) = true -> rank_of cfg new < rank_of cfg old.
Proof.
  intros (_ & _ & _ & Gf) B0 E L FO D. unfold rank_of. assert (ND : no_data new = false) by (unfold no_data; destruct (sdata new); [cbn in L; lia|reflexivity]). rewrite ND.
  destruct (no_data old) eqn:NO; [pose proof (filter_length_le (fun v => dlt (cfitness cfg v) (sscore new)) (all_bits (cbits cfg))); lia|]. cbn [orb] in D. specialize (FO eq_refl).
  assert (FN : is_finite (sscore new) = true) by (rewrite E; apply Gf, L).
  apply filter_sub_lt with (x := sdata new).
  - intros v Hv Q. assert (Fv : is_finite (cfitness cfg v) = true) by (apply Gf, all_bits_len, Hv). apply dlt_iff in Q; [|assumption|assumption]. apply dlt_iff in D; [|assumption|assumption]. apply dlt_iff; [assumption|assumption|lra].
  - apply all_bits_in, L.
  - rewrite E at 2. cbn [evaluated sscore]. apply dlt_false; [apply Gf, L|apply Gf, L|apply Rle_refl].
  - rewrite E in D. exact D.
Qed.
Lemma sum_drops (f g : nat -> nat) n : forall a k, a <= k < a + n -> (forall j, j <> k -> f j = g j) -> f k < g k -> list_sum (map f (seq a n)) < list_sum (map g (seq a n)).
Proof.
  induction n as [|n IH]; intros a k R E L; [lia|]. cbn [seq map list_sum fold_right]. fold (list_sum (map f (seq (S a) n))). fold (list_sum (map g (seq (S a) n))). destruct (Nat.eq_dec a k) as [->|N].
  - replace (map f (seq (S k) n)) with (map g (seq (S k) n)); [lia|]. apply map_ext_in. intros j Hj. apply in_seq in Hj. symmetry. apply E. lia.
  - rewrite (E a N). specialize (IH (S a) k ltac:(lia) E L). lia.
Qed.
Lemma total_drops cfg ks j new : good cfg -> 0 < cbits cfg -> Forall (entry_ok cfg) ks -> new = evaluated cfg (sdata new) -> length (sdata new) = cbits cfg -> (0 <= j <= Z.of_nat (cbits cfg))%Z ->
  no_data (kget ks j) || dlt (sscore new) (sscore (kget ks j)) = true -> total_rank cfg (kset ks j new) < total_rank cfg ks.
Proof.
  intros G B0 F E L J D. unfold total_rank. apply sum_drops with (k := Z.to_nat j); [lia| |].
  - intros i Hi. rewrite kget_kset. destruct (Z.eqb_spec j (Z.of_nat i)); [lia|reflexivity].
  - rewrite kget_kset. rewrite Z2Nat.id by lia. rewrite Z.eqb_refl. apply rank_drops; try assumption. intro ND. destruct (in_kget ks j) as [Q|Q]; [|rewrite Q in ND; discriminate].
    rewrite Forall_forall in F. destruct (F _ Q) as (E' & L' & _). cbn [snd] in *. rewrite E'. apply G, L'.
Qed.
Definition sffs_measure (cfg : sffs_config) (s : rstate) : nat :=
  let m ks k pc := (3 * cbits cfg + 3) * total_rank cfg ks + 3 * Z.to_nat (Z.of_nat (cbits cfg) - k) + pc in
  match s with AtOuter k ks _ => m ks k 2 | AtInner k ks _ => m ks k 1 | AtForward k ks _ => m ks k 0 | _ => 0 end.
Lemma measure_drops hw cfg s s' : good cfg -> rinv cfg s -> sffs_step hw cfg s s' -> sffs_measure cfg s' < sffs_measure cfg s.
Proof.
  intros G V St. destruct St as [k ks ev H|k ks ev H|k ks ev H|k ks ev tests new H R D|k ks ev tests new H R D|k ks ev H U|k ks ev tests new R|k ks ev U]; cbn [rinv sffs_measure] in *.
  - lia.
  - lia.
  - lia.
  - destruct V as [V K]. destruct (entry_k cfg k ks ev V) as [(E & L & C) KR]. cbn [fst snd] in *. pose proof (max_le cfg k K) as KB. assert (Gm : (0 <= cmin cfg)%Z) by apply G.
    destruct (get_state_ok hw cfg _ false tests new G L R) as (I1 & I2 & I3 & I4 & _); [lia|].
    pose proof (total_drops cfg ks (k - 1) new G ltac:(lia) (proj1 (proj2 V)) I2 I3 ltac:(lia) D) as T. nia.
  - lia.
  - destruct V as [_ K]. pose proof (max_le cfg k K). lia.
  - destruct V as [V K]. destruct (entry_k cfg k ks ev V) as [(E & L & C) KR]. cbn [fst snd] in *. pose proof (max_le cfg k K) as KB.
    destruct (get_state_ok hw cfg _ true tests new G L R) as (I1 & I2 & I3 & I4 & _); [lia|].
    destruct (no_data (kget ks (k + 1)) || dlt (sscore new) (sscore (kget ks (k + 1)))) eqn:D; [|nia].
    pose proof (total_drops cfg ks (k + 1) new G ltac:(lia) (proj1 (proj2 V)) I2 I3 ltac:(lia) D) as T. nia.
  - destruct V as [_ K]. pose proof (max_le cfg k K). lia.
Qed.
