From Coq Require Import String Ascii Reals Lra Permutation Sorted.
From Verif Require Import Base FloatModel FloatLemmas ResultModel ResultSpec.

(* ---------- keys ---------- *)
Lemma ascii_compare_lt_trans a b c : Ascii.compare a b = Lt -> Ascii.compare b c = Lt -> Ascii.compare a c = Lt.
Proof. unfold Ascii.compare. rewrite !N.compare_lt_iff. lia. Qed.
Lemma ascii_compare_eq a b : Ascii.compare a b = Eq <-> a = b.
Proof.
  unfold Ascii.compare. rewrite N.compare_eq_iff. split; [|congruence].
  intros H. rewrite <- (ascii_N_embedding a), <- (ascii_N_embedding b), H. reflexivity.
Qed.
Lemma string_lt_trans a b c : String.compare a b = Lt -> String.compare b c = Lt -> String.compare a c = Lt.
Proof.
  revert b c; induction a as [|x a IH]; intros [|y b] [|z c]; cbn; try discriminate; auto.
  destruct (Ascii.compare x y) eqn:E1; try discriminate.
  - apply ascii_compare_eq in E1. subst y. destruct (Ascii.compare x z); try discriminate; auto. apply IH.
  - intros _. destruct (Ascii.compare y z) eqn:E2; try discriminate.
    + apply ascii_compare_eq in E2. subst z. rewrite E1. auto.
    + rewrite (ascii_compare_lt_trans _ _ _ E1 E2). auto.
Qed.
Lemma string_compare_refl a : String.compare a a = Eq.
Proof.
  induction a as [|x a IH]; cbn; [reflexivity|]. rewrite (proj2 (ascii_compare_eq x x) eq_refl). exact IH.
Qed.
Lemma string_ltb_iff a b : String.ltb a b = true <-> String.compare a b = Lt.
Proof. unfold String.ltb. destruct (String.compare a b); split; congruence. Qed.
Lemma string_total a b : a <> b -> String.compare a b = Lt \/ String.compare b a = Lt.
Proof.
  intros H. rewrite (String.compare_antisym b a). destruct (String.compare a b) eqn:E; cbn; auto.
  apply String.compare_eq_iff in E. contradiction.
Qed.

Lemma tt_index_inj a b : tt_index a = tt_index b -> a = b.
Proof. destruct a, b; cbn; congruence. Qed.
Lemma tt_eqb_iff a b : tt_eqb a b = true <-> a = b.
Proof. unfold tt_eqb. rewrite Nat.eqb_eq. split; [apply tt_index_inj|congruence]. Qed.

Definition klt (a b : test_key) : Prop :=
  (tt_index (k_type a) < tt_index (k_type b))%nat \/ (k_type a = k_type b /\ String.compare (k_name a) (k_name b) = Lt).
Lemma key_lt_iff a b : key_lt a b = true <-> klt a b.
Proof.
  unfold key_lt, klt. destruct (tt_eqb (k_type a) (k_type b)) eqn:E; cbn [negb].
  - apply tt_eqb_iff in E. rewrite E. destruct (String.eqb_spec (k_name a) (k_name b)) as [Es|Es]; cbn.
    + split; [discriminate|]. intros [H|[_ H]]; [lia|]. rewrite Es, string_compare_refl in H. discriminate.
    + rewrite string_ltb_iff. split; [tauto|]. intros [H|[_ H]]; [lia|exact H].
  - assert (k_type a <> k_type b) by (intros H; apply tt_eqb_iff in H; congruence).
    rewrite Nat.ltb_lt. tauto.
Qed.
Lemma klt_irrefl a : ~ klt a a.
Proof. intros [H|[_ H]]; [lia|]. rewrite string_compare_refl in H. discriminate. Qed.
Lemma klt_trans a b c : klt a b -> klt b c -> klt a c.
Proof.
  unfold klt. intros [H1|[E1 H1]] [H2|[E2 H2]].
  - left. lia.
  - left. rewrite <- E2. exact H1.
  - left. rewrite E1. exact H2.
  - right. split; [congruence|]. eapply string_lt_trans; eassumption.
Qed.
Lemma key_eta a b : k_type a = k_type b -> k_name a = k_name b -> a = b.
Proof. destruct a, b; cbn; congruence. Qed.
Lemma klt_total a b : a = b \/ klt a b \/ klt b a.
Proof.
  unfold klt. destruct (Nat.lt_trichotomy (tt_index (k_type a)) (tt_index (k_type b))) as [H|[H|H]]; auto.
  apply tt_index_inj in H. destruct (string_dec (k_name a) (k_name b)) as [E|E].
  - left. apply key_eta; assumption.
  - right. destruct (string_total _ _ E) as [Hs|Hs]; [left; auto|right; right; auto].
Qed.
Lemma key_lt_false a b : key_lt a b = false <-> ~ klt a b.
Proof. rewrite <- key_lt_iff. destruct (key_lt a b); split; congruence. Qed.

Lemma key_dec (a b : test_key) : {a = b} + {a <> b}.
Proof.
  destruct (tt_eqb (k_type a) (k_type b)) eqn:E.
  - apply tt_eqb_iff in E. destruct (string_dec (k_name a) (k_name b)) as [Es|Es].
    + left. apply key_eta; assumption.
    + right. congruence.
  - right. intros ->. assert (tt_eqb (k_type b) (k_type b) = true) by (apply tt_eqb_iff; reflexivity). congruence.
Qed.
Definition key_eqb (a b : test_key) : bool := if key_dec a b then true else false.
Lemma key_eqb_iff a b : key_eqb a b = true <-> a = b.
Proof. unfold key_eqb. destruct (key_dec a b); split; congruence. Qed.

Lemma equiv_eq k k0 : negb (key_lt k k0) && negb (key_lt k0 k) = key_eqb k k0.
Proof.
  destruct (key_eqb k k0) eqn:E.
  - apply key_eqb_iff in E. subst. assert (H : key_lt k0 k0 = false) by (apply key_lt_false, klt_irrefl). rewrite H. reflexivity.
  - apply andb_false_iff. destruct (klt_total k k0) as [H|[H|H]].
    + apply key_eqb_iff in H. congruence.
    + left. apply key_lt_iff in H. rewrite H. reflexivity.
    + right. apply key_lt_iff in H. rewrite H. reflexivity.
Qed.

Definition ksorted (m : result_map) : Prop := StronglySorted klt (map fst m).
Definition good_map (m : result_map) : Prop :=
  ksorted m /\ Forall (fun e => snd e <> [] /\ Forall (fun r => tr_key r = fst e) (snd e)) m.

Lemma map_get_cons k k0 v m : map_get ((k0, v) :: m) k = if key_eqb k k0 then v else map_get m k.
Proof. cbn. rewrite equiv_eq. reflexivity. Qed.

Lemma map_add_keys r m k : In k (map fst (map_add r m)) <-> k = tr_key r \/ In k (map fst m).
Proof.
  induction m as [|[k0 v] m IH]; cbn; [intuition|].
  destruct (key_lt (tr_key r) k0) eqn:E1; [cbn; intuition|].
  destruct (key_lt k0 (tr_key r)) eqn:E2; cbn.
  - rewrite IH. tauto.
  - assert (tr_key r = k0).
    { apply key_lt_false in E1, E2. destruct (klt_total (tr_key r) k0) as [H|[H|H]]; [exact H|contradiction|contradiction]. }
    subst k0. intuition.
Qed.

Lemma map_get_notin m k : ~ In k (map fst m) -> map_get m k = [].
Proof.
  induction m as [|[k0 v] m IH]; intros H; [reflexivity|]. rewrite map_get_cons.
  destruct (key_eqb k k0) eqn:E; [apply key_eqb_iff in E; subst; exfalso; apply H; left; reflexivity|].
  apply IH. intros Hi. apply H. right. exact Hi.
Qed.

Lemma map_add_get r m k : ksorted m -> map_get (map_add r m) k = if key_eqb k (tr_key r) then map_get m k ++ [r] else map_get m k.
Proof.
  unfold ksorted. induction m as [|[k0 v] m IH]; intros Hs.
  - cbn [map_add]. rewrite map_get_cons. destruct (key_eqb k (tr_key r)); reflexivity.
  - cbn [map fst] in Hs. apply StronglySorted_inv in Hs. destruct Hs as [Hs Hf].
    cbn [map_add]. destruct (key_lt (tr_key r) k0) eqn:E1.
    + rewrite map_get_cons. destruct (key_eqb k (tr_key r)) eqn:E; [|reflexivity].
      apply key_eqb_iff in E. subst k. rewrite map_get_notin; [reflexivity|].
      apply key_lt_iff in E1. cbn. intros [->|Hi]; [apply (klt_irrefl (tr_key r)), E1|].
      rewrite Forall_forall in Hf. apply Hf in Hi. apply (klt_irrefl k0). eapply klt_trans; eassumption.
    + destruct (key_lt k0 (tr_key r)) eqn:E2.
      * rewrite !map_get_cons, IH by exact Hs. destruct (key_eqb k k0) eqn:Ek; [|reflexivity].
        apply key_eqb_iff in Ek. subst k. destruct (key_eqb k0 (tr_key r)) eqn:E; [|reflexivity].
        apply key_eqb_iff in E. apply key_lt_iff in E2. rewrite <- E in E2. exfalso. eapply klt_irrefl, E2.
      * assert (tr_key r = k0) as <-.
        { apply key_lt_false in E1, E2. destruct (klt_total (tr_key r) k0) as [H|[H|H]]; [exact H|contradiction|contradiction]. }
        rewrite !map_get_cons. destruct (key_eqb k (tr_key r)); reflexivity.
Qed.

Lemma map_add_good r m : good_map m -> good_map (map_add r m).
Proof.
  unfold good_map, ksorted. induction m as [|[k0 v] m IH]; intros [Hs Hg].
  - cbn. split; [repeat constructor|]. repeat constructor. cbn. discriminate.
  - cbn [map fst] in Hs. apply StronglySorted_inv in Hs. destruct Hs as [Hs Hf].
    pose proof (Forall_inv Hg) as [Hv1 Hv2]. apply Forall_inv_tail in Hg. cbn [fst snd] in *.
    cbn [map_add]. destruct (key_lt (tr_key r) k0) eqn:E1; [|destruct (key_lt k0 (tr_key r)) eqn:E2].
    + apply key_lt_iff in E1. split.
      * cbn. constructor; [constructor; assumption|]. constructor; [exact E1|].
        eapply Forall_impl; [|exact Hf]. intros a Ha. eapply klt_trans; eassumption.
      * constructor; [cbn; split; [discriminate|repeat constructor]|]. constructor; [split; assumption|exact Hg].
    + apply key_lt_iff in E2. destruct (IH (conj Hs Hg)) as [IH1 IH2]. split.
      * cbn. constructor; [exact IH1|]. apply Forall_forall. intros k Hk. apply map_add_keys in Hk.
        destruct Hk as [->|Hk]; [exact E2|]. rewrite Forall_forall in Hf. apply Hf, Hk.
      * constructor; [split; assumption|exact IH2].
    + assert (tr_key r = k0) as E.
      { apply key_lt_false in E1, E2. destruct (klt_total (tr_key r) k0) as [H|[H|H]]; [exact H|contradiction|contradiction]. }
      split; [cbn; constructor; assumption|]. constructor; [|exact Hg]. cbn. split; [destruct v; discriminate|].
      apply Forall_app. split; [exact Hv2|]. repeat constructor. exact E.
Qed.

Definition add_all (h : list test_result) : result_map := fold_left (fun m r => map_add r m) h [].
Lemma add_all_snoc h r : add_all (h ++ [r]) = map_add r (add_all h).
Proof. unfold add_all. rewrite fold_left_app. reflexivity. Qed.
Lemma add_all_good h : good_map (add_all h).
Proof.
  induction h as [|r h IH] using rev_ind; [split; constructor|]. rewrite add_all_snoc. apply map_add_good, IH.
Qed.
Lemma add_all_get h k : map_get (add_all h) k = filter (fun r => key_eqb k (tr_key r)) h.
Proof.
  induction h as [|r h IH] using rev_ind; [reflexivity|]. rewrite add_all_snoc, map_add_get by apply add_all_good.
  rewrite IH, filter_app. cbn. destruct (key_eqb k (tr_key r)); [reflexivity|]. rewrite app_nil_r. reflexivity.
Qed.
Lemma add_all_keys h k : In k (map fst (add_all h)) <-> In k (map tr_key h).
Proof.
  induction h as [|r h IH] using rev_ind; [reflexivity|]. rewrite add_all_snoc, map_add_keys, IH, map_app, in_app_iff.
  cbn. intuition.
Qed.

(* a good map is determined by its keys' lists *)
Lemma good_map_entry m e : good_map m -> In e m -> map_get m (fst e) = snd e.
Proof.
  intros [Hs _]. unfold ksorted in Hs. induction m as [|[k0 v] m IH]; intros Hi; [destruct Hi|].
  cbn [map fst] in Hs. apply StronglySorted_inv in Hs. destruct Hs as [Hs Hf]. rewrite map_get_cons.
  destruct Hi as [<-|Hi]; cbn [fst snd].
  - assert (E : key_eqb k0 k0 = true) by (apply key_eqb_iff; reflexivity). rewrite E. reflexivity.
  - destruct (key_eqb (fst e) k0) eqn:E; [|apply IH; assumption].
    apply key_eqb_iff in E. rewrite Forall_forall in Hf. exfalso. apply (klt_irrefl k0), Hf. rewrite <- E. apply in_map, Hi.
Qed.

Lemma sorted_unique {B} (lt : B -> B -> Prop) (l l' : list B) : (forall a, ~ lt a a) -> (forall a b c, lt a b -> lt b c -> lt a c) ->
  StronglySorted lt l -> StronglySorted lt l' -> (forall x, In x l <-> In x l') -> l = l'.
Proof.
  intros Hirr Htr. revert l'. induction l as [|a l IH]; intros [|b l'] H1 H2 Hi.
  - reflexivity.
  - exfalso. apply (Hi b). left. reflexivity.
  - exfalso. apply (Hi a). left. reflexivity.
  - apply StronglySorted_inv in H1, H2. destruct H1 as [S1 F1], H2 as [S2 F2]. rewrite Forall_forall in F1, F2.
    assert (a = b) as <-.
    { destruct (proj1 (Hi a) (or_introl eq_refl)) as [E|E]; [congruence|].
      destruct (proj2 (Hi b) (or_introl eq_refl)) as [E'|E']; [congruence|].
      exfalso. apply (Hirr a). eapply Htr; [apply F1, E'|apply F2, E]. }
    f_equal. apply IH; [exact S1|exact S2|]. intro x. specialize (Hi x). cbn in Hi. split; intros Hx.
    + destruct (proj1 Hi (or_intror Hx)) as [->|]; [exfalso; apply (Hirr x), F1, Hx|assumption].
    + destruct (proj2 Hi (or_intror Hx)) as [->|]; [exfalso; apply (Hirr x), F2, Hx|assumption].
Qed.
