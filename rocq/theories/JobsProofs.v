From Coq Require Import Permutation.
From Verif Require Import Base JobsModel.

Lemma nth_split_upd {B} (l : list B) i a : nth_error l i = Some a ->
  exists l1 l2, l = l1 ++ a :: l2 /\ length l1 = i /\ forall b, upd l i b = l1 ++ b :: l2.
Proof.
  revert i; induction l as [|h t IH]; intros [|i] H; cbn in H; try discriminate.
  - injection H as ->. exists [], t. auto.
  - destruct (IH i H) as (l1 & l2 & -> & E & U). exists (h :: l1), l2. cbn. split; [reflexivity|].
    split; [congruence|]. intro b. rewrite U. reflexivity.
Qed.

Lemma length_upd {B} (l : list B) i a : length (upd l i a) = length l.
Proof. revert i; induction l; intros [|i]; cbn; auto. Qed.
Lemma nth_upd {B} (l : list B) i k a : nth_error (upd l i a) k =
  if (i =? k)%nat then option_map (fun _ => a) (nth_error l k) else nth_error l k.
Proof.
  revert i k; induction l as [|h t IH]; intros [|i] [|k]; cbn; try reflexivity.
  - destruct (i =? k)%nat; reflexivity.
  - apply IH.
Qed.

Lemma perm_flat {B C} (f : B -> list C) l1 a l2 : Permutation (flat_map f (l1 ++ a :: l2)) (f a ++ flat_map f (l1 ++ l2)).
Proof.
  rewrite !flat_map_app. cbn. rewrite !app_assoc. apply Permutation_app_tail, Permutation_app_comm.
Qed.

Section JobsProofs.
Context {J R A : Type}.
Variables (nt : nat) (Run : J -> R -> Prop) (micro : R -> list A) (jobs0 : list J).
Notation tpc := (tpc J R A). Notation state := (jstate J R A).

Definition running (t : tpc) : list J := match t with TRun j => [j] | _ => [] end.
Definition returning (t : tpc) : list R := match t with TCall r => [r] | _ => [] end.
Definition adding (t : tpc) : list A := match t with TWait u | TAdd u => u | _ => [] end.

Record inv (s : state) : Prop := mkinv {
  i_queue : jobs0 = jq s ++ jpopped s;
  i_popped : Permutation (jpopped s) (map fst (jran s) ++ flat_map running (jthr s));
  i_run : Forall (fun jr => Run (fst jr) (snd jr)) (jran s);
  i_called : Permutation (map snd (jran s)) (jcalled s ++ flat_map returning (jthr s));
  i_adds : Permutation (flat_map micro (jcalled s)) (jadds s ++ flat_map adding (jthr s));
  i_qlock : forall i, nth_error (jthr s) i = Some TLocked <-> jqlock s = Some i;
  i_clock : forall i, (exists u, nth_error (jthr s) i = Some (TAdd u)) <-> jclock s = Some i;
  i_exit : forall i, nth_error (jthr s) i = Some TExit -> jq s = [];
  i_main : match jmain s with
           | MSpawn k => (k <= nt)%nat /\ length (jthr s) = k
           | MJoin k => (k <= nt)%nat /\ length (jthr s) = nt /\ forall i, (i < k)%nat -> nth_error (jthr s) i = Some TExit
           | MReturned => (jobs0 = [] /\ jthr s = []) \/ length (jthr s) = nt /\ forall i, (i < nt)%nat -> nth_error (jthr s) i = Some TExit
           end
}.

Lemma inv_init : inv (jinit jobs0).
Proof.
  constructor; cbn; try reflexivity; auto.
  - symmetry; apply app_nil_r.
  - intro i. destruct i; split; discriminate.
  - intro i. split; [intros [u H]; destruct i; discriminate|discriminate].
  - intros i H. destruct i; discriminate.
  - destruct jobs0; cbn; [left; auto|lia].
Qed.

(* the thread that steps, its old and new pc *)
Lemma main_upd m (th : list tpc) i a b : nth_error th i = Some a -> a <> TExit ->
  match m with
  | MSpawn k => (k <= nt)%nat /\ length th = k
  | MJoin k => (k <= nt)%nat /\ length th = nt /\ forall i, (i < k)%nat -> nth_error th i = Some TExit
  | MReturned => (jobs0 = [] /\ th = []) \/ length th = nt /\ forall i, (i < nt)%nat -> nth_error th i = Some TExit
  end ->
  match m with
  | MSpawn k => (k <= nt)%nat /\ length (upd th i b) = k
  | MJoin k => (k <= nt)%nat /\ length (upd th i b) = nt /\ forall k', (k' < k)%nat -> nth_error (upd th i b) k' = Some TExit
  | MReturned => (jobs0 = [] /\ upd th i b = []) \/ length (upd th i b) = nt /\ forall k', (k' < nt)%nat -> nth_error (upd th i b) k' = Some TExit
  end.
Proof.
  intros Hi Ha. destruct m as [k|k|]; rewrite length_upd; auto.
  - intros (H1 & H2 & H3). split; [exact H1|]. split; [exact H2|]. intros k' Hk. rewrite nth_upd.
    destruct (Nat.eqb_spec i k') as [->|]; [|apply H3, Hk]. rewrite (H3 _ Hk) in Hi. congruence.
  - intros [[_ ->]|[H2 H3]]; [destruct i; discriminate|]. right. split; [exact H2|]. intros k' Hk. rewrite nth_upd.
    destruct (Nat.eqb_spec i k') as [->|]; [|apply H3, Hk]. rewrite (H3 _ Hk) in Hi. congruence.
Qed.

Lemma nth_upd_ne {B} (l : list B) i k a : i <> k -> nth_error (upd l i a) k = nth_error l k.
Proof. intros H. rewrite nth_upd. destruct (Nat.eqb_spec i k); congruence. Qed.
Lemma nth_upd_eq {B} (l : list B) i a b : nth_error l i = Some b -> nth_error (upd l i a) i = Some a.
Proof. intros H. rewrite nth_upd, Nat.eqb_refl, H. reflexivity. Qed.

(* moves of a thread that touch neither lock *)
Lemma qlock_keep (th : list tpc) i a b l : nth_error th i = Some a -> a <> TLocked -> b <> TLocked ->
  (forall k, nth_error th k = Some TLocked <-> l = Some k) ->
  forall k, nth_error (upd th i b) k = Some (TLocked : tpc) <-> l = Some k.
Proof.
  intros H Ha Hb Hl k. destruct (Nat.eq_dec i k) as [<-|Hn].
  - rewrite (nth_upd_eq _ _ _ _ H). rewrite <- Hl, H. split; congruence.
  - rewrite nth_upd_ne by exact Hn. apply Hl.
Qed.
Definition holds (t : tpc) : Prop := exists u, t = TAdd u.
Lemma clock_keep (th : list tpc) i (a b : tpc) l : nth_error th i = Some a -> (holds a <-> holds b) ->
  (forall k, (exists u, nth_error th k = Some (TAdd u)) <-> l = Some k) ->
  forall k, (exists u, nth_error (upd th i b) k = Some (TAdd u)) <-> l = Some k.
Proof.
  intros H Hab Hl k. destruct (Nat.eq_dec i k) as [<-|Hn].
  - rewrite (nth_upd_eq _ _ _ _ H). rewrite <- Hl, H. unfold holds in Hab.
    split; intros [u Hu]; injection Hu as Hu; [destruct Hab as [_ Hab]|destruct Hab as [Hab _]];
      (destruct Hab as [u' Hu']; [eauto|rewrite Hu'; eauto]).
  - rewrite nth_upd_ne by exact Hn. apply Hl.
Qed.
Lemma exit_keep th i (a b : tpc) (q : list J) : nth_error th i = Some a -> b <> TExit ->
  (forall k, nth_error th k = Some TExit -> q = []) ->
  forall k, nth_error (upd th i b) k = Some TExit -> q = [].
Proof.
  intros H Hb Hq k Hk. destruct (Nat.eq_dec i k) as [<-|Hn].
  - rewrite (nth_upd_eq _ _ _ _ H) in Hk. congruence.
  - rewrite nth_upd_ne in Hk by exact Hn. eauto.
Qed.

(* permutations: swap the contribution of one thread *)
Lemma perm_upd {C} (f : tpc -> list C) th i a b X Y (new : list C) :
  nth_error th i = Some a -> Permutation (new ++ f a) (Y ++ f b) ->
  forall Z, Permutation X (Z ++ flat_map f th) -> Permutation (new ++ X) (Y ++ Z ++ flat_map f (upd th i b)).
Proof.
  intros H Hab Z HX. destruct (nth_split_upd th i a H) as (l1 & l2 & -> & _ & U). rewrite U.
  rewrite HX, !perm_flat.
  transitivity ((new ++ f a) ++ Z ++ flat_map f (l1 ++ l2)).
  { rewrite <- app_assoc. apply Permutation_app_head. rewrite !app_assoc. apply Permutation_app_tail, Permutation_app_comm. }
  rewrite Hab, <- !app_assoc. apply Permutation_app_head. rewrite !app_assoc. apply Permutation_app_tail, Permutation_app_comm.
Qed.

Lemma holds_no (a b : tpc) : ~ holds a -> ~ holds b -> (holds a <-> holds b). Proof. tauto. Qed.

Ltac noholds := apply holds_no; intros [? ?]; discriminate.
Ltac pkeep f H := match goal with |- Permutation ?X (?Z ++ flat_map f (upd ?th ?i ?b)) =>
  eapply (perm_upd f th i _ b X [] [] H (Permutation_refl _) Z); assumption end.

Lemma inv_step s s' : inv s -> jstep nt Run micro s s' -> inv s'.
Proof.
  intros [I1 I2 I3 I4 I5 I6 I7 I8 I9] Hs. destruct Hs; cbn in *; constructor; cbn; try assumption.
  - (* spawn *) rewrite flat_map_app. cbn. rewrite app_nil_r. assumption.
  - rewrite flat_map_app. cbn. rewrite app_nil_r. assumption.
  - rewrite flat_map_app. cbn. rewrite app_nil_r. assumption.
  - intro i. destruct (Nat.lt_ge_cases i (length th)) as [Hl|Hl].
    + rewrite nth_error_app1 by exact Hl. apply I6.
    + rewrite nth_error_app2 by exact Hl. split; [intros E; destruct (i - length th)%nat as [|[|]]; discriminate|].
      intros E. apply I6 in E. assert (nth_error th i <> None) by congruence. apply nth_error_Some in H0. lia.
  - intro i. destruct (Nat.lt_ge_cases i (length th)) as [Hl|Hl].
    + rewrite nth_error_app1 by exact Hl. apply I7.
    + rewrite nth_error_app2 by exact Hl. split; [intros [u E]; destruct (i - length th)%nat as [|[|]]; discriminate|].
      intros E. apply I7 in E. destruct E as [u E]. assert (nth_error th i <> None) by congruence. apply nth_error_Some in H0. lia.
  - intros i E. destruct (Nat.lt_ge_cases i (length th)) as [Hl|Hl].
    + rewrite nth_error_app1 in E by exact Hl. eauto.
    + rewrite nth_error_app2 in E by exact Hl. destruct (i - length th)%nat as [|[|]]; discriminate.
  - rewrite app_length. cbn. lia.
  - (* spawned *) split; [lia|]. split; [apply I9|]. intros; lia.
  - (* join *) destruct I9 as (H1 & H2 & H3). split; [lia|]. split; [exact H2|]. intros i Hi.
    destruct (Nat.eq_dec i k) as [->|]; [assumption|]. apply H3. lia.
  - (* joined *) right. tauto.
  - (* lock *) pkeep running H.
  - pkeep returning H.
  - pkeep adding H.
  - intro k. destruct (Nat.eq_dec i k) as [<-|Hn].
    + rewrite (nth_upd_eq _ _ _ _ H). tauto.
    + rewrite nth_upd_ne by exact Hn. rewrite I6. split; congruence.
  - apply (clock_keep th i TLoop); [exact H|noholds|exact I7].
  - eapply exit_keep; [exact H|discriminate|exact I8].
  - eapply main_upd; [exact H|discriminate|exact I9].
  - (* empty *) pkeep running H.
  - pkeep returning H.
  - pkeep adding H.
  - intro k. destruct (Nat.eq_dec i k) as [<-|Hn].
    + rewrite (nth_upd_eq _ _ _ _ H). split; discriminate.
    + rewrite nth_upd_ne by exact Hn. rewrite I6. split; congruence.
  - apply (clock_keep th i TLocked); [exact H|noholds|exact I7].
  - intros; reflexivity.
  - eapply main_upd; [exact H|discriminate|exact I9].
  - (* pop *) rewrite <- app_assoc in I1. exact I1.
  - apply (perm_upd running th i TLocked (TRun j) p [] [j] H (Permutation_refl _) (map fst x) I2).
  - pkeep returning H.
  - pkeep adding H.
  - intro k. destruct (Nat.eq_dec i k) as [<-|Hn].
    + rewrite (nth_upd_eq _ _ _ _ H). split; discriminate.
    + rewrite nth_upd_ne by exact Hn. rewrite I6. split; congruence.
  - apply (clock_keep th i TLocked); [exact H|noholds|exact I7].
  - intros k E. exfalso. destruct (Nat.eq_dec i k) as [<-|Hn].
    + rewrite (nth_upd_eq _ _ _ _ H) in E. discriminate.
    + rewrite nth_upd_ne in E by exact Hn. apply I8 in E. destruct q; discriminate.
  - eapply main_upd; [exact H|discriminate|exact I9].
  - (* run *) apply (perm_upd running th i (TRun j) (TCall r) p [j] [] H (Permutation_refl _) (map fst x) I2).
  - constructor; assumption.
  - apply (perm_upd returning th i (TRun j) (TCall r) (map snd x) [] [r] H (Permutation_refl _) y I4).
  - pkeep adding H.
  - apply (qlock_keep th i (TRun j)); [exact H|discriminate|discriminate|exact I6].
  - apply (clock_keep th i (TRun j)); [exact H|noholds|exact I7].
  - eapply exit_keep; [exact H|discriminate|exact I8].
  - eapply main_upd; [exact H|discriminate|exact I9].
  - (* call0 *) pkeep running H.
  - apply (perm_upd returning th i (TCall r) TLoop (map snd x) [r] [] H (Permutation_refl _) y I4).
  - rewrite H0. cbn. pkeep adding H.
  - apply (qlock_keep th i (TCall r)); [exact H|discriminate|discriminate|exact I6].
  - apply (clock_keep th i (TCall r)); [exact H|noholds|exact I7].
  - eapply exit_keep; [exact H|discriminate|exact I8].
  - eapply main_upd; [exact H|discriminate|exact I9].
  - (* call *) pkeep running H.
  - apply (perm_upd returning th i (TCall r) (TWait (micro r)) (map snd x) [r] [] H (Permutation_refl _) y I4).
  - apply (perm_upd adding th i (TCall r) (TWait (micro r)) (flat_map micro y) [] (micro r) H) with (Z := a); [cbn; rewrite app_nil_r; reflexivity|exact I5].
  - apply (qlock_keep th i (TCall r)); [exact H|discriminate|discriminate|exact I6].
  - apply (clock_keep th i (TCall r)); [exact H|noholds|exact I7].
  - eapply exit_keep; [exact H|discriminate|exact I8].
  - eapply main_upd; [exact H|discriminate|exact I9].
  - (* clock *) pkeep running H.
  - pkeep returning H.
  - pkeep adding H.
  - apply (qlock_keep th i (TWait u)); [exact H|discriminate|discriminate|exact I6].
  - intro k. destruct (Nat.eq_dec i k) as [<-|Hn].
    + rewrite (nth_upd_eq _ _ _ _ H). split; eauto.
    + rewrite nth_upd_ne by exact Hn. rewrite I7. split; congruence.
  - eapply exit_keep; [exact H|discriminate|exact I8].
  - eapply main_upd; [exact H|discriminate|exact I9].
  - (* add *) pkeep running H.
  - pkeep returning H.
  - apply (perm_upd adding th i (TAdd (v :: u)) (TAdd u) (flat_map micro y) [v] [] H (Permutation_refl _) a I5).
  - apply (qlock_keep th i (TAdd (v :: u))); [exact H|discriminate|discriminate|exact I6].
  - apply (clock_keep th i (TAdd (v :: u))); [exact H|unfold holds; split; eauto|exact I7].
  - eapply exit_keep; [exact H|discriminate|exact I8].
  - eapply main_upd; [exact H|discriminate|exact I9].
  - (* cunlock *) pkeep running H.
  - pkeep returning H.
  - pkeep adding H.
  - apply (qlock_keep th i (TAdd [])); [exact H|discriminate|discriminate|exact I6].
  - intro k. destruct (Nat.eq_dec i k) as [<-|Hn].
    + rewrite (nth_upd_eq _ _ _ _ H). split; [intros [u E]; discriminate|discriminate].
    + rewrite nth_upd_ne by exact Hn. rewrite I7. split; congruence.
  - eapply exit_keep; [exact H|discriminate|exact I8].
  - eapply main_upd; [exact H|discriminate|exact I9].
Qed.

Lemma reach_inv s : jreach nt Run micro (jinit jobs0) s -> inv s.
Proof. induction 1; [apply inv_init|eapply inv_step; eassumption]. Qed.

(* ---------- completeness ---------- *)
Lemma flat_map_exits {C} (f : tpc -> list C) th : f TExit = [] ->
  (forall i, (i < length th)%nat -> nth_error th i = Some TExit) -> flat_map f th = [].
Proof.
  intros Hf. induction th as [|t th IH]; intros H; [reflexivity|]. cbn.
  assert (E : Some t = Some TExit) by (apply (H 0%nat); cbn; lia). injection E as ->. rewrite Hf.
  apply IH. intros i Hi. apply (H (S i)). cbn. lia.
Qed.

Lemma returned_complete s : jreach nt Run micro (jinit jobs0) s -> jmain s = MReturned -> (0 < nt)%nat ->
  jpopped s = jobs0 /\ Permutation (map fst (jran s)) jobs0 /\ Forall (fun jr => Run (fst jr) (snd jr)) (jran s) /\
  Permutation (jcalled s) (map snd (jran s)) /\ Permutation (jadds s) (flat_map micro (jcalled s)).
Proof.
  intros Hr Hm Hn. apply reach_inv in Hr. destruct Hr as [I1 I2 I3 I4 I5 I6 I7 I8 I9]. rewrite Hm in I9.
  assert (HE : forall i, (i < length (jthr s))%nat -> nth_error (jthr s) i = Some TExit).
  { destruct I9 as [[_ ->]|[E H]]; [cbn; lia|rewrite E; exact H]. }
  rewrite !flat_map_exits, !app_nil_r in * by (assumption || reflexivity).
  assert (Hq : jq s = []).
  { destruct I9 as [[E _]|[_ H]]; [rewrite E in I1; symmetry in I1; apply app_eq_nil in I1; tauto|].
    apply (I8 0%nat), H, Hn. }
  rewrite Hq in I1. cbn in I1. split; [congruence|]. rewrite I1. split; [symmetry; exact I2|].
  split; [exact I3|]. split; symmetry; assumption.
Qed.

Lemma zero_threads s : nt = 0%nat -> jreach nt Run micro (jinit jobs0) s -> jran s = [] /\ jcalled s = [] /\ jadds s = [].
Proof.
  intros H0 Hr.
  assert (H : jran s = [] /\ jcalled s = [] /\ jadds s = [] /\ jthr s = []); [|tauto].
  induction Hr as [|s s' Hr IH Hs]; [cbn; tauto|]. destruct IH as (E1 & E2 & E3 & E4).
  destruct Hs; cbn in *; subst;
    try (exfalso; match goal with H : nth_error [] ?i = Some _ |- _ => destruct i; discriminate H end); try lia; auto.
Qed.

(* ---------- mutual exclusion ---------- *)
Lemma exclusive_queue s i k : jreach nt Run micro (jinit jobs0) s ->
  nth_error (jthr s) i = Some TLocked -> nth_error (jthr s) k = Some TLocked -> i = k.
Proof. intros Hr H1 H2. apply reach_inv in Hr. apply (i_qlock _ Hr) in H1, H2. congruence. Qed.
Lemma exclusive_collector s i k u v : jreach nt Run micro (jinit jobs0) s ->
  nth_error (jthr s) i = Some (TAdd u) -> nth_error (jthr s) k = Some (TAdd v) -> i = k.
Proof.
  intros Hr H1 H2. apply reach_inv in Hr.
  assert (E1 : jclock s = Some i) by (apply (i_clock _ Hr); eauto).
  assert (E2 : jclock s = Some k) by (apply (i_clock _ Hr); eauto). congruence.
Qed.

(* ---------- progress ---------- *)
Lemma queue_holder_steps q c th m p x y a i : nth_error th i = Some TLocked ->
  exists s', jstep nt Run micro (mkj q (Some i) c th m p x y a) s'.
Proof.
  intros H. destruct q as [|j0 q0] using rev_ind; [eexists; eapply js_empty, H|eexists; eapply js_pop, H].
Qed.
Lemma collector_holder_steps q l th m p x y a i u : nth_error th i = Some (TAdd u) ->
  exists s', jstep nt Run micro (mkj q l (Some i) th m p x y a) s'.
Proof. intros H. destruct u; [eexists; eapply js_cunlock, H|eexists; eapply js_add, H]. Qed.

Lemma progress s : jreach nt Run micro (jinit jobs0) s -> (forall j, exists r, Run j r) ->
  jmain s = MReturned \/ exists s', jstep nt Run micro s s'.
Proof.
  intros Hr Htot. apply reach_inv in Hr. destruct Hr as [I1 I2 I3 I4 I5 I6 I7 I8 I9].
  destruct s as [q l c th m p x y a]; cbn in *. destruct m as [k|k|]; [right|right|left; reflexivity].
  - destruct (Nat.eq_dec k nt) as [->|]; [eexists; apply js_spawned|eexists; apply js_spawn; lia].
  - destruct I9 as (H1 & H2 & H3). destruct (Nat.eq_dec k nt) as [->|]; [eexists; apply js_joined|].
    destruct (nth_error th k) as [t|] eqn:Ek; [|apply nth_error_None in Ek; lia].
    destruct t as [| |j|r|u|u|].
    + destruct l as [i|]; [apply queue_holder_steps, I6; reflexivity|eexists; eapply js_lock, Ek].
    + assert (l = Some k) as -> by (apply I6; exact Ek). apply queue_holder_steps, Ek.
    + destruct (Htot j) as [r Hrun]. eexists; eapply js_run; eassumption.
    + destruct (micro r) as [|v u] eqn:Em; eexists; [eapply js_call0|eapply js_call]; try eassumption. congruence.
    + destruct c as [i|]; [|eexists; eapply js_clock, Ek].
      assert (exists u', nth_error th i = Some (TAdd u')) as [u' Hu'] by (apply I7; reflexivity).
      eapply collector_holder_steps, Hu'.
    + assert (c = Some k) as -> by (apply I7; eauto). eapply collector_holder_steps, Ek.
    + eexists; apply js_join; [lia|exact Ek].
Qed.

(* ---------- termination ---------- *)
Definition pending (t : tpc) : nat := match t with TRun _ => 1 | _ => 0 end.
Definition weight (t : tpc) : nat :=
  match t with
  | TLoop => 2 | TLocked => 1 | TRun _ => 0 | TCall r => 4 + length (micro r) + 2
  | TWait u => 4 + length u | TAdd u => 3 + length u | TExit => 0
  end.
Definition mweight (m : mpc) : nat :=
  match m with MSpawn k => 4 * (nt - k) + nt + 3 | MJoin k => nt - k + 1 | MReturned => 0 end.
Definition meas1 (s : state) : nat := 2 * length (jq s) + list_sum (map pending (jthr s)).
Definition meas2 (s : state) : nat := mweight (jmain s) + list_sum (map weight (jthr s)).

Lemma sum_upd (f : tpc -> nat) th i a b : nth_error th i = Some a ->
  (list_sum (map f (upd th i b)) + f a = list_sum (map f th) + f b)%nat.
Proof.
  intros H. destruct (nth_split_upd th i a H) as (l1 & l2 & -> & _ & U). rewrite U, !map_app, !list_sum_app.
  unfold list_sum. cbn. lia.
Qed.

Lemma list_sum_snoc l a : list_sum (l ++ [a]) = (list_sum l + a)%nat.
Proof. rewrite list_sum_app. cbn. lia. Qed.

Lemma step_decreases s s' : jstep nt Run micro s s' ->
  (meas1 s' < meas1 s)%nat \/ (meas1 s' = meas1 s /\ meas2 s' < meas2 s)%nat.
Proof.
  intros Hs. destruct Hs; unfold meas1, meas2; cbn [jq jthr jmain mweight];
  try match goal with H : nth_error _ ?i = Some ?t |- context [upd _ ?i ?b] =>
    pose proof (sum_upd pending _ _ _ b H); pose proof (sum_upd weight _ _ _ b H); cbn [pending weight] in * end.
  - right. rewrite !map_app, !list_sum_app. cbn. lia.
  - right. lia.
  - right. lia.
  - right. lia.
  - right. lia.
  - right. lia.
  - left. rewrite app_length. cbn [length]. lia.
  - left. lia.
  - right. lia.
  - right. lia.
  - right. lia.
  - right. cbn [length] in *. lia.
  - right. cbn [length] in *. lia.
Qed.

Lemma terminates : forall s, Acc (fun s' s => jstep nt Run micro s s') s.
Proof.
  intros s. remember (meas1 s) as n1 eqn:E1. remember (meas2 s) as n2 eqn:E2. revert n2 s E1 E2.
  induction n1 as [n1 IH1] using lt_wf_ind. intros n2. induction n2 as [n2 IH2] using lt_wf_ind.
  intros s -> ->. constructor. intros s' Hs. destruct (step_decreases s s' Hs) as [H|[E H]].
  - eapply IH1; [exact H|reflexivity|reflexivity].
  - eapply IH2; [exact H|symmetry; exact E|reflexivity].
Qed.

(* hence every execution can be completed *)
Lemma completes s : jreach nt Run micro (jinit jobs0) s -> (forall j, exists r, Run j r) ->
  exists s', jreach nt Run micro (jinit jobs0) s' /\ jmain s' = MReturned.
Proof.
  intros Hr Ht. induction (terminates s) as [s _ IH].
  destruct (progress s Hr Ht) as [Hm|[s' Hs]]; [eauto|].
  apply (IH s' Hs). eapply jr_step; eassumption.
Qed.
End JobsProofs.
