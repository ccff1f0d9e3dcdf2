(* Proofs about filter_to_show, get_failed_tests and the printed summary. *)
From Coq Require Import Reals Lra Permutation Sorted String Ascii.
From Verif Require Import Base FloatModel FloatLemmas ResultModel ResultSpec ResultProofs AnalysisProofs EvaluateModel EvalProofs StrengthProofs ProtocolProofs FormatModel FormatSpec.


Section F.
Variable L : libs.
Hypothesis G : good_log10 (l_log10 L).

Lemma sus_ok ra : vra ra -> suspicious L ra = Ok (susb L ra).
Proof.
  intros V. unfold susb, suspicious, has_suspicion. destruct (strength_total _ G _ V) as (f & -> & _). reflexivity.
Qed.
Lemma pass_ok ra : vra ra -> pass (l_log10 L) (ra_stat ra) = Ok (negb (failb L ra)).
Proof.
  intros V. unfold failb, pass. destruct (strength_total _ G _ V) as (f & -> & _). cbn [obind]. rewrite negb_involutive. reflexivity.
Qed.
Lemma fail_sus ra : vra ra -> failb L ra = true -> susb L ra = true.
Proof.
  intros V. unfold failb, susb, suspicious, has_suspicion, pass. destruct (strength_total _ G _ V) as (f & -> & _). cbn [obind].
  destruct (N.ltb_spec f 9); [discriminate|]. intros _. apply N.ltb_lt. lia.
Qed.
Lemma sus_anti a b : vra a -> vra b -> (two_sided (ra_stat a) <= two_sided (ra_stat b))%R -> susb L b = true -> susb L a = true.
Proof.
  intros Va Vb H. unfold susb, suspicious, has_suspicion.
  destruct (strength_total _ G _ Va) as (f & E & _). destruct (strength_total _ G _ Vb) as (f' & E' & _).
  pose proof (strength_antitone _ G _ _ f f' Va Vb H E E'). rewrite E, E'. cbn [obind]. rewrite !N.ltb_lt. lia.
Qed.
Lemma fail_anti a b : vra a -> vra b -> (two_sided (ra_stat a) <= two_sided (ra_stat b))%R -> failb L b = true -> failb L a = true.
Proof.
  intros Va Vb H. unfold failb, pass.
  destruct (strength_total _ G _ Va) as (f & E & _). destruct (strength_total _ G _ Vb) as (f' & E' & _).
  pose proof (strength_antitone _ G _ _ f f' Va Vb H E E'). rewrite E, E'. cbn [obind]. 
  destruct (N.ltb_spec f' 9), (N.ltb_spec f 9); try discriminate; auto; lia.
Qed.

Lemma ocount_ok {B} (f : B -> outcome bool) (g : B -> bool) l : Forall (fun a => f a = Ok (g a)) l ->
  ocount f l = Ok (N.of_nat (length (filter g l))).
Proof. induction 1 as [|a l Ha H IH]; [reflexivity|]. cbn [ocount filter]. rewrite Ha, IH. cbn [obind]. destruct (g a); cbn [length]; f_equal; lia. Qed.

Lemma show_loop_ok k ras : forall added, Forall vra ras -> (added < k)%N ->
  show_loop L k ras added = Ok (firstn (N.to_nat (k - added)) (filter (susb L) ras)).
Proof.
  induction ras as [|m ras IH]; intros added V H; [cbn; rewrite firstn_nil; reflexivity|].
  cbn [show_loop]. rewrite (sus_ok m (Forall_inv V)). apply Forall_inv_tail in V. cbn [obind filter]. destruct (susb L m).
  - destruct (N.eqb_spec (added + 1) k) as [E|Hne].
    + replace (N.to_nat (k - added)) with 1%nat by lia. reflexivity.
    + rewrite IH by (assumption || lia). cbn [obind app]. replace (N.to_nat (k - added)) with (S (N.to_nat (k - (added + 1)))) by lia. reflexivity.
  - destruct (N.eqb_spec added k) as [E|Hne]; [lia|]. rewrite IH by assumption. reflexivity.
Qed.

Lemma filter_sorted {B} (R : B -> B -> Prop) f l : StronglySorted R l -> StronglySorted R (filter f l).
Proof.
  induction 1 as [|a l S IH H]; cbn; [constructor|]. destruct (f a); [|exact IH]. constructor; [exact IH|].
  rewrite Forall_forall in *. intros x Hx. apply filter_In in Hx. apply H, Hx.
Qed.
Lemma Forall_filter {B} (P : B -> Prop) f l : Forall P l -> Forall P (filter f l).
Proof. rewrite !Forall_forall. intros H x Hx. apply filter_In in Hx. apply H, Hx. Qed.
Lemma show_entry_ok ras : ras <> [] -> Forall vra ras -> StronglySorted ple ras ->
  show_entry L ras = Ok (firstn 3 (filter (susb L) ras)).
Proof.
  intros Hn V S. unfold show_entry. rewrite (ocount_ok _ (susb L)) by (eapply Forall_impl; [|exact V]; intros; apply sus_ok; assumption).
  cbn [obind]. destruct ras as [|w ras]; [congruence|]. rewrite (sus_ok w (Forall_inv V)). cbn [obind].
  destruct (susb L w) eqn:Ew.
  - rewrite show_loop_ok; [|exact V|]. 
    + rewrite N.sub_0_r. f_equal. set (l := filter (susb L) (w :: ras)).
      destruct (Nat.le_gt_cases (length l) 3) as [Hl|Hl].
      * rewrite N.min_l by lia. rewrite Nat2N.id. rewrite firstn_all. symmetry. apply firstn_all2. exact Hl.
      * rewrite N.min_r by lia. reflexivity.
    + cbn [filter]. rewrite Ew. cbn [length]. lia.
  - assert (E : filter (susb L) (w :: ras) = []); [|rewrite E; reflexivity].
    destruct (filter (susb L) (w :: ras)) as [|x l] eqn:E; [reflexivity|exfalso].
    assert (Hx : In x (filter (susb L) (w :: ras))) by (rewrite E; left; reflexivity). apply filter_In in Hx. destruct Hx as [Hx Sx].
    destruct Hx as [<-|Hx]; [congruence|]. apply StronglySorted_inv in S. destruct S as [_ S]. rewrite Forall_forall in S, V.
    rewrite (sus_anti w x (V w (or_introl eq_refl)) (V x (or_intror Hx)) (S x Hx) Sx) in Ew. discriminate.
Qed.
End F.

Lemma sorted_ple L l : sorts (fun ra => valid_stat (ra_stat ra)) ra_lt (l_sort_ra L) -> Forall vra l ->
  Permutation l (l_sort_ra L l) /\ StronglySorted ple (l_sort_ra L l) /\ Forall vra (l_sort_ra L l).
Proof.
  intros Hs V. destruct (Hs l V) as [P S]. split; [exact P|].
  assert (V' : Forall vra (l_sort_ra L l)) by (eapply Permutation_Forall; eassumption). split; [|exact V'].
  clear - V' S. generalize dependent (l_sort_ra L l). clear. intros q S V'. induction S as [|a q S IH Ha]; [constructor|]. constructor; [apply IH; eapply Forall_inv_tail, V'|].
  pose proof (Forall_inv V') as Va. apply Forall_inv_tail in V'. rewrite Forall_forall in *. intros b Hb.
  specialize (Ha b Hb). specialize (V' b Hb). unfold ra_lt, ra_p in Ha.
  apply dlt_false in Ha; [|apply comparable_fin; assumption|apply comparable_fin; assumption].
  rewrite !comparable_val in Ha by assumption. exact Ha.
Qed.

Lemma concat_map_filter_nonempty {B C} (f : list B -> list C) gs : f [] = [] ->
  concat (map f (filter (fun g => match g with [] => false | _ => true end) gs)) = concat (map f gs).
Proof. intros H. induction gs as [|g gs IH]; [reflexivity|]. cbn. destruct g; cbn; rewrite IH; [rewrite H|]; reflexivity. Qed.

Lemma filter_concat_types L l t :
  filter (of_type t) (concat (map (fun t' => firstn 3 (filter (susb L) (filter (of_type t') l))) all_types)) =
  firstn 3 (filter (susb L) (filter (of_type t) l)).
Proof.
  assert (A : forall t' (n : nat) (x : list result_analysis), Forall (fun ra => of_type t' ra = true) x ->
     filter (of_type t) (firstn n x) = if tt_eqb t' t then firstn n x else []).
  { intros t' n x H. assert (H' : Forall (fun ra => of_type t' ra = true) (firstn n x)).
    { rewrite Forall_forall in *. intros y Hy. apply H. rewrite <- (firstn_skipn n x). apply in_or_app. left; exact Hy. }
    clear H. induction H' as [|a l0 Ha H' IH]; cbn; [destruct (tt_eqb t' t); reflexivity|]. unfold of_type in Ha |- *. apply tt_eqb_iff in Ha.
    rewrite Ha. unfold of_type in IH. rewrite IH. destruct (tt_eqb t' t); reflexivity. }
  assert (B : forall t', Forall (fun ra => of_type t' ra = true) (filter (susb L) (filter (of_type t') l))).
  { intro t'. apply Forall_forall. intros x Hx. apply filter_In in Hx. destruct Hx as [Hx _]. apply filter_In in Hx. apply Hx. }
  unfold all_types. cbn [map concat]. rewrite !filter_app, app_nil_r. rewrite !(fun t' => A t' 3%nat _ (B t')). destruct t; cbn; rewrite ?app_nil_r; reflexivity.
Qed.

Lemma filter_to_show_ok L results : good_sorts L -> good_log10 (l_log10 L) -> Forall vra results ->
  exists out, filter_to_show L results = Ok out /\ StronglySorted ple out /\ Forall vra out /\
    (forall t, exists rest, let shown := filter (of_type t) out in
       Permutation (filter (fun ra => of_type t ra && susb L ra) results) (shown ++ rest) /\
       length shown = Nat.min 3 (length (filter (fun ra => of_type t ra && susb L ra) results)) /\
       forall a b, In a shown -> In b rest -> ple a b).
Proof.
  intros [_ Hs] G V. destruct (sorted_ple L results Hs V) as (P & S & V'). set (srt := l_sort_ra L results) in *.
  set (f := fun g : list result_analysis => firstn 3 (filter (susb L) g)).
  assert (E : omapM (show_entry L) (per_test srt) = Ok (map f (per_test srt))).
  { apply omapM_ok. intros g Hg. unfold per_test in Hg. apply filter_In in Hg. destruct Hg as [Hg Hne]. apply in_map_iff in Hg. destruct Hg as (t & <- & _).
    apply show_entry_ok; [exact G| |apply Forall_filter, V'|apply filter_sorted, S]. intros E. rewrite E in Hne. discriminate. }
  assert (E2 : concat (map f (per_test srt)) = concat (map (fun t => f (filter (of_type t) srt)) all_types)).
  { unfold per_test. rewrite concat_map_filter_nonempty by reflexivity. rewrite map_map. reflexivity. }
  unfold filter_to_show. fold srt. rewrite E. cbn [obind]. rewrite E2.
  set (c := concat (map (fun t => f (filter (of_type t) srt)) all_types)).
  assert (Vc : Forall vra c).
  { unfold c. apply Forall_forall. intros x Hx. apply in_concat in Hx. destruct Hx as (y & Hy & Hx). apply in_map_iff in Hy. destruct Hy as (t & <- & _).
    unfold f in Hx. assert (In x (filter (susb L) (filter (of_type t) srt))) by (rewrite <- (firstn_skipn 3 (filter (susb L) (filter (of_type t) srt))); apply in_or_app; left; exact Hx).
    apply filter_In in H. destruct H as [H _]. apply filter_In in H. destruct H as [H _]. rewrite Forall_forall in V'. apply V', H. }
  destruct (sorted_ple L c Hs Vc) as (Pc & Sc & Vc'). exists (l_sort_ra L c). split; [reflexivity|]. split; [exact Sc|]. split; [exact Vc'|].
  intro t. set (q := filter (susb L) (filter (of_type t) srt)). exists (skipn 3 q). cbn zeta.
  assert (Pt : Permutation (filter (of_type t) (l_sort_ra L c)) (firstn 3 q)).
  { rewrite (filter_Perm (of_type t) _ _ (Permutation_sym Pc)). unfold c, f. rewrite filter_concat_types. reflexivity. }
  assert (Pq : Permutation (filter (fun ra => of_type t ra && susb L ra) results) q).
  { rewrite (filter_Perm _ _ _ P). fold srt. unfold q. clear. induction srt as [|a l IH]; cbn; [constructor|].
    destruct (of_type t a); cbn; [destruct (susb L a); [constructor|]; exact IH|exact IH]. }
  split; [rewrite Pq, Pt, firstn_skipn; reflexivity|]. split.
  - rewrite (Permutation_length Pt), (Permutation_length Pq). apply firstn_length.
  - intros a b Ha Hb. apply (Permutation_in _ Pt) in Ha.
    assert (Sq : StronglySorted ple q) by (unfold q; apply filter_sorted, filter_sorted, S).
    clear - Sq Ha Hb. revert Sq Ha Hb. generalize 3%nat as n. induction q as [|x q IH]; intros n Sq Ha Hb; [destruct n; destruct Ha|].
    destruct n as [|n]; [destruct Ha|]. cbn in Ha, Hb. apply StronglySorted_inv in Sq. destruct Sq as [Sq F].
    destruct Ha as [<-|Ha]; [|eapply IH; eassumption]. rewrite Forall_forall in F. apply F.
    rewrite <- (firstn_skipn n q). apply in_or_app. right; exact Hb.
Qed.

(* ---------- sets of strings ---------- *)
Lemma slt_irrefl a : ~ slt a a.
Proof. unfold slt. rewrite string_ltb_iff, string_compare_refl. discriminate. Qed.
Lemma slt_trans a b c : slt a b -> slt b c -> slt a c.
Proof. unfold slt. rewrite !string_ltb_iff. apply string_lt_trans. Qed.
Lemma slt_total a b : String.ltb a b = false -> String.ltb b a = false -> a = b.
Proof.
  intros H1 H2. destruct (string_dec a b) as [|Hn]; [assumption|]. exfalso.
  destruct (string_total a b Hn) as [H|H]; apply string_ltb_iff in H; congruence.
Qed.
Lemma set_insert_in x s y : In y (set_insert x s) <-> y = x \/ In y s.
Proof.
  induction s as [|z s IH]; cbn; [intuition|]. destruct (String.ltb x z) eqn:A; cbn; [intuition|].
  destruct (String.ltb z x) eqn:B; cbn; [rewrite IH; intuition|]. pose proof (slt_total _ _ A B). subst. intuition.
Qed.
Lemma set_insert_sorted x s : StronglySorted slt s -> StronglySorted slt (set_insert x s).
Proof.
  induction 1 as [|z s S IH H]; cbn; [repeat constructor|]. destruct (String.ltb x z) eqn:A.
  - constructor; [constructor; assumption|]. constructor; [exact A|]. eapply Forall_impl; [|exact H]. intros y Hy. eapply slt_trans; [exact A|exact Hy].
  - destruct (String.ltb z x) eqn:B; [|constructor; assumption]. constructor; [exact IH|].
    rewrite Forall_forall in *. intros y Hy. apply set_insert_in in Hy. destruct Hy as [->|Hy]; [exact B|apply H, Hy].
Qed.
Lemma set_contains_in x s : set_contains x s = true <-> In x s.
Proof.
  unfold set_contains. rewrite existsb_exists. split.
  - intros (y & Hy & H). apply andb_true_iff in H. destruct H as [A B]. apply negb_true_iff in A, B. rewrite (slt_total _ _ A B). exact Hy.
  - intros H. exists x. split; [exact H|]. assert (E : String.ltb x x = false).
    { destruct (String.ltb x x) eqn:E; [exfalso; apply (slt_irrefl x), E|reflexivity]. }
    rewrite E. reflexivity.
Qed.
Lemma sorted_NoDup s : StronglySorted slt s -> NoDup s.
Proof.
  induction 1 as [|a s S IH H]; constructor; [|exact IH]. intros Hi. rewrite Forall_forall in H. apply (slt_irrefl a), H, Hi.
Qed.

(* ---------- get_failed_tests ---------- *)
Lemma failed_ok L defs ras : good_log10 (l_log10 L) -> Forall vra ras ->
  exists names, get_failed_tests L defs ras =
      Ok (names ++ map (fun ra => (key_to_string defs (ra_key ra) ++ "*")%string)
            (filter (fun ra => failb L ra && is_meta ra && negb (set_contains (key_to_string defs (ra_key ra)) names)) ras)) /\
    StronglySorted slt names /\
    (forall s, In s names <-> exists ra, In ra ras /\ is_meta ra = false /\ failb L ra = true /\ s = key_to_string defs (ra_key ra)).
Proof.
  intros G V.
  assert (A : forall ras s0, Forall vra ras -> StronglySorted slt s0 -> exists names,
     ofold (fun s ra => p <- pass (l_log10 L) (ra_stat ra) ;;
             Ok (if p then s else if is_meta ra then s else set_insert (key_to_string defs (ra_key ra)) s)) ras s0 = Ok names /\
     StronglySorted slt names /\ (forall s, In s names <-> In s s0 \/ exists ra, In ra ras /\ is_meta ra = false /\ failb L ra = true /\ s = key_to_string defs (ra_key ra))).
  { clear ras V. induction ras as [|ra ras IH]; intros s0 V S.
    - exists s0. split; [reflexivity|]. split; [exact S|]. intro s. split; [auto|]. intros [H|(ra & [] & _)]; exact H.
    - cbn [ofold]. rewrite (pass_ok L G ra (Forall_inv V)). apply Forall_inv_tail in V. cbn [obind].
      set (s1 := if negb (failb L ra) then s0 else if is_meta ra then s0 else set_insert (key_to_string defs (ra_key ra)) s0).
      assert (S1 : StronglySorted slt s1) by (unfold s1; destruct (failb L ra); cbn [negb]; [destruct (is_meta ra); [exact S|apply set_insert_sorted, S]|exact S]).
      destruct (IH s1 V S1) as (names & E & SN & N). exists names. split; [exact E|]. split; [exact SN|]. intro s. rewrite N.
      assert (K : In s s1 <-> In s s0 \/ (is_meta ra = false /\ failb L ra = true /\ s = key_to_string defs (ra_key ra))).
      { unfold s1. destruct (failb L ra); cbn [negb]; [destruct (is_meta ra)|]; [intuition discriminate|rewrite set_insert_in; intuition|intuition discriminate]. }
      rewrite K. split.
      + intros [[H|(H1 & H2 & H3)]|(rb & H1 & H2)]; [left; exact H|right; exists ra; cbn; auto|right; exists rb; cbn; auto].
      + intros [H|(rb & [<-|H1] & H2)]; [auto|left; right; exact H2|right; exists rb; auto]. }
  destruct (A ras [] V ltac:(constructor)) as (names & E & SN & N). exists names.
  split; [|split; [exact SN|intro s; rewrite N; split; [intros [[]|H]; exact H|auto]]].
  unfold get_failed_tests. rewrite E. cbn [obind].
  assert (B : forall ras r0, Forall vra ras ->
    ofold (fun r ra => p <- pass (l_log10 L) (ra_stat ra) ;;
     Ok (if p then r else if negb (is_meta ra) then r
         else let name := key_to_string defs (ra_key ra) in
              if set_contains name names then r else r ++ [(name ++ "*")%string])) ras r0 =
    Ok (r0 ++ map (fun ra => (key_to_string defs (ra_key ra) ++ "*")%string)
            (filter (fun ra => failb L ra && is_meta ra && negb (set_contains (key_to_string defs (ra_key ra)) names)) ras))).
  { clear - G. induction ras as [|ra ras IH]; intros r0 V; [cbn; rewrite app_nil_r; reflexivity|].
    cbn [ofold]. rewrite (pass_ok L G ra (Forall_inv V)). apply Forall_inv_tail in V. cbn [obind filter].
    rewrite IH by exact V. destruct (failb L ra); cbn [negb andb]; [|reflexivity]. destruct (is_meta ra); cbn [negb andb]; [|reflexivity].
    cbn zeta. destruct (set_contains (key_to_string defs (ra_key ra)) names); cbn [negb]; [reflexivity|]. cbn [map]. rewrite <- app_assoc. reflexivity. }
  apply B, V.
Qed.

(* ---------- key names are injective ---------- *)
Fixpoint no_colon (s : string) : bool :=
  match s with EmptyString => true | String c s' => negb (Ascii.eqb c ":") && no_colon s' end.
Lemma colon_split a b x y : no_colon a = true -> no_colon b = true ->
  (a ++ (if String.eqb x "" then "" else ":" ++ x))%string = (b ++ (if String.eqb y "" then "" else ":" ++ y))%string -> a = b /\ x = y.
Proof.
  revert b; induction a as [|c a IH]; intros [|d b] Ha Hb H; cbn [append] in H.
  - destruct (String.eqb_spec x ""), (String.eqb_spec y ""); cbn in H; subst; try discriminate; [auto|]. injection H as ->. auto.
  - exfalso. cbn in Hb. apply andb_true_iff in Hb. destruct Hb as [Hb _]. destruct (String.eqb x ""); [discriminate|]. cbn in H. injection H as <- _. discriminate.
  - exfalso. cbn in Ha. apply andb_true_iff in Ha. destruct Ha as [Ha _]. destruct (String.eqb y ""); [discriminate|]. cbn in H. injection H as -> _. discriminate.
  - injection H as -> H. cbn in Ha, Hb. apply andb_true_iff in Ha, Hb. destruct (IH b (proj2 Ha) (proj2 Hb) H) as [-> ->]. auto.
Qed.
Lemma name_no_colon pow rt t : no_colon (get_test_name (get_tests pow rt) t) = true.
Proof. destruct t; reflexivity. Qed.
Lemma name_inj pow rt t t' : get_test_name (get_tests pow rt) t = get_test_name (get_tests pow rt) t' -> t = t'.
Proof. destruct t, t'; intro H; try reflexivity; discriminate H. Qed.
Lemma key_to_string_inj pow rt k k' : key_to_string (get_tests pow rt) k = key_to_string (get_tests pow rt) k' -> k = k'.
Proof.
  unfold key_to_string. intros H. apply colon_split in H; [|apply name_no_colon|apply name_no_colon].
  destruct H as [H1 H2]. apply name_inj in H1. apply key_eta; assumption.
Qed.

(* ---------- analyses of a battery ---------- *)
Definition meta_of (L : libs) (e : test_key * list test_result) (ra : result_analysis) : Prop :=
  ra_key ra = fst e.
Lemma analyses_keys L br ras : good_sorts L -> good_exp (l_exp L) -> ok_map (br_results br) -> get_analysis L br = Ok ras ->
  exists samples metas, Permutation ras (samples ++ metas) /\
    Forall (fun ra => is_meta ra = false) samples /\ Forall (fun ra => is_meta ra = true) metas /\
    map ra_key samples = map fst (br_results br) /\ map ra_key metas = map fst (br_results br).
Proof.
  intros S X O E. destruct (get_analysis_ok L br S X O) as (ras' & E' & _ & _ & _ & _ & rss & F & P). rewrite E in E'. injection E' as <-.
  unfold ok_map in O. clear E. revert ras P O. induction F as [|[k v] y l rss H F IH]; intros ras P O.
  - exists [], []. cbn in *. auto.
  - cbn [concat] in P. destruct (IH (concat rss) (Permutation_refl _) (Forall_inv_tail O)) as (ss & ms & Q & A & B & C & D).
    destruct (Forall_inv O) as (Hn & _ & Hv). cbn [snd] in *. destruct (entry_analysis L k v Hn Hv) as (wr & _ & _ & _ & Ey).
    rewrite H in Ey. injection Ey as ->.
    eexists (_ :: ss), (_ :: ms). split.
    + rewrite P, Q. cbn [app]. rewrite <- Permutation_middle. reflexivity.
    + split; [constructor; [reflexivity|exact A]|]. split; [constructor; [reflexivity|exact B]|]. cbn. split; f_equal; assumption.
Qed.
Lemma NoDup_map_inj {B C} (f : B -> C) l : (forall x y, In x l -> In y l -> f x = f y -> x = y) -> NoDup l -> NoDup (map f l).
Proof.
  intros Hf H. induction H as [|a l Hn H IH]; [constructor|]. cbn. constructor.
  - intros Hi. apply in_map_iff in Hi. destruct Hi as (b & E & Hb). apply Hf in E; [|right; exact Hb|left; reflexivity]. subst. contradiction.
  - apply IH. intros x y Hx Hy. apply Hf; right; assumption.
Qed.
Lemma app_star_inj a b : (a ++ "*")%string = (b ++ "*")%string -> a = b.
Proof.
  revert b; induction a as [|c a IH]; intros [|d b] H; cbn in H; try reflexivity.
  - injection H as -> H. destruct b; discriminate.
  - injection H as -> H. destruct a; discriminate.
  - injection H as -> H. rewrite (IH b H). reflexivity.
Qed.
Lemma filter_all_false {B} (f : B -> bool) l : Forall (fun x => f x = false) l -> filter f l = [].
Proof. induction 1 as [|a l H _ IH]; [reflexivity|]. cbn. rewrite H. exact IH. Qed.
Lemma NoDup_filter_map {B C} (f : B -> C) g l : NoDup (map f l) -> NoDup (map f (filter g l)).
Proof.
  induction l as [|a l IH]; cbn; [auto|]. intros H. inversion H as [|x y Hn HN]; subst. destruct (g a); cbn; [|apply IH, HN].
  constructor; [|apply IH, HN]. intros Hi. apply Hn. apply in_map_iff in Hi. destruct Hi as (b & E & Hb). apply filter_In in Hb.
  apply in_map_iff. exists b. split; [exact E|apply Hb].
Qed.
Lemma metas_nodup L pow rt br ras g : good_sorts L -> good_exp (l_exp L) -> ok_map (br_results br) -> good_map (br_results br) -> get_analysis L br = Ok ras ->
  NoDup (map (fun ra => (key_to_string (get_tests pow rt) (ra_key ra) ++ "*")%string) (filter (fun ra => is_meta ra && g ra) ras)).
Proof.
  intros S X O Gm E. destruct (analyses_keys L br ras S X O E) as (ss & ms & P & A & B & _ & D).
  eapply Permutation_NoDup; [apply Permutation_map, filter_Perm, Permutation_sym, P|].
  rewrite filter_app. rewrite (filter_all_false _ ss) by (eapply Forall_impl; [|exact A]; cbn; intros a ->; reflexivity). cbn [app].
  apply NoDup_filter_map.
  replace (map (fun ra => (key_to_string (get_tests pow rt) (ra_key ra) ++ "*")%string) ms)
    with (map (fun k => (key_to_string (get_tests pow rt) k ++ "*")%string) (map ra_key ms)) by (rewrite map_map; reflexivity).
  rewrite D. apply NoDup_map_inj; [intros x y _ _ H; apply app_star_inj in H; eapply key_to_string_inj, H|].
  destruct Gm as [KS _]. unfold ksorted in KS. clear - KS. induction KS as [|a l S IH H]; constructor; [|exact IH].
  intros Hi. rewrite Forall_forall in H. apply (klt_irrefl a), H, Hi.
Qed.

(* ---------- the summary ---------- *)
Lemma summary_ok L br : good_sorts L -> good_exp (l_exp L) -> good_log10 (l_log10 L) -> ok_map (br_results br) -> br_results br <> [] ->
  exists ras p, get_analysis L br = Ok ras /\ length ras = (2 * length (br_results br))%nat /\
    print_summary L br = Ok (Concluded p (Z.of_nat (length (filter (failb L) ras)))
                                (Z.of_nat (length (filter (fun ra => susb L ra && negb (failb L ra)) ras)))) /\
    (p = true <-> filter (failb L) ras = []).
Proof.
  intros S X G O Hne. destruct (get_analysis_ok L br S X O) as (ras & E & V & SS & A & B & rss & F & P).
  assert (Len : length ras = (2 * length (br_results br))%nat).
  { rewrite (Permutation_length P). clear - F O. unfold ok_map in O. induction F as [|[k v] y l rss H F IH]; [reflexivity|].
    cbn [concat length]. rewrite app_length, (IH (Forall_inv_tail O)). destruct (Forall_inv O) as (Hn & _ & Hv).
    destruct (entry_analysis L k v Hn Hv) as (wr & _ & _ & _ & Ey). rewrite H in Ey. injection Ey as ->. cbn. lia. }
  unfold print_summary. rewrite E. cbn [obind]. destruct (br_results br) as [|e m] eqn:Em; [congruence|].
  rewrite (ocount_ok _ (failb L)) by (eapply Forall_impl; [|exact V]; intros ra Hra; cbn; rewrite (pass_ok L G ra Hra); cbn; rewrite negb_involutive; reflexivity).
  cbn [obind]. rewrite (ocount_ok _ (susb L)) by (eapply Forall_impl; [|exact V]; intros ra Hra; apply sus_ok; assumption). cbn [obind].
  destruct ras as [|ra ras]; [cbn in Len; lia|]. rewrite (pass_ok L G ra (Forall_inv V)). cbn [obind].
  exists (ra :: ras), (negb (failb L ra)). split; [reflexivity|]. split; [exact Len|]. split.
  - f_equal. f_equal; [lia|].
    assert (K : forall l, Forall vra l -> (length (filter (susb L) l) = length (filter (failb L) l) + length (filter (fun ra => susb L ra && negb (failb L ra)) l))%nat).
    { intros l Hl. induction Hl as [|a l Ha Hl IH]; [reflexivity|]. cbn. pose proof (fail_sus L G a Ha). destruct (susb L a), (failb L a); cbn; try lia; specialize (H eq_refl); discriminate. }
    rewrite (K _ V). lia.
  - apply StronglySorted_inv in SS. destruct SS as [_ SS]. pose proof (Forall_inv V) as Va. apply Forall_inv_tail in V. split.
    + intros H. apply filter_all_false. apply negb_true_iff in H. constructor; [exact H|]. rewrite Forall_forall in *. intros b Hb.
      destruct (failb L b) eqn:Eb; [|reflexivity]. rewrite (fail_anti L G ra b Va (V b Hb) (SS b Hb) Eb) in H. discriminate.
    + cbn. intros H. destruct (failb L ra); [discriminate|reflexivity].
Qed.

(* ---------- the failure list and the verdict ---------- *)
Lemma built_ok h br : built_from h br -> ok_map (br_results br) /\ good_map (br_results br).
Proof. intros (E & V & Hl). rewrite E. split; [apply add_all_ok; assumption|apply add_all_good]. Qed.
Lemma failed_built L pow rt h br ras : good_sorts L -> good_exp (l_exp L) -> good_log10 (l_log10 L) -> built_from h br -> get_analysis L br = Ok ras ->
  let name ra := key_to_string (get_tests pow rt) (ra_key ra) in
  exists samples metas, get_failed_tests L (get_tests pow rt) ras = Ok (samples ++ metas) /\
    StronglySorted slt samples /\ NoDup samples /\ NoDup metas /\
    (forall s, In s samples <-> exists ra, In ra ras /\ ra_type ra = Sample /\ failb L ra = true /\ s = name ra) /\
    (forall s, In s metas <-> exists ra, In ra ras /\ ra_type ra = Meta /\ failb L ra = true /\ s = (name ra ++ "*")%string /\ ~ In (name ra) samples).
Proof.
  intros S X G B E name. destruct (built_ok h br B) as [O Gm].
  destruct (get_analysis_ok L br S X O) as (ras' & E' & V & _). rewrite E in E'. injection E' as <-.
  destruct (failed_ok L (get_tests pow rt) ras G V) as (names & Ef & SN & N).
  eexists names, _. split; [exact Ef|]. split; [exact SN|]. split; [apply sorted_NoDup, SN|]. split; [|split].
  - pose proof (metas_nodup L pow rt br ras (fun ra => failb L ra && negb (set_contains (name ra) names)) S X O Gm E) as H.
    erewrite filter_ext; [exact H|]. intro ra. cbv beta. change (key_to_string (get_tests pow rt) (ra_key ra)) with (name ra).
    destruct (failb L ra), (is_meta ra), (set_contains (name ra) names); reflexivity.
  - intro s. rewrite N. unfold is_meta. split; intros (ra & H1 & H2 & H3 & H4); exists ra; (split; [exact H1|]); (split; [|auto]);
      destruct (ra_type ra); try reflexivity; discriminate.
  - intro s. rewrite in_map_iff. split.
    + intros (ra & <- & H). apply filter_In in H. destruct H as [Hi H]. apply andb_true_iff in H. destruct H as [H H3]. apply andb_true_iff in H. destruct H as [H1 H2].
      exists ra. split; [exact Hi|]. split; [unfold is_meta in H2; destruct (ra_type ra); [discriminate|reflexivity]|]. split; [exact H1|]. split; [reflexivity|].
      rewrite <- set_contains_in. apply negb_true_iff in H3. unfold name. intros C. rewrite C in H3. discriminate.
    + intros (ra & Hi & H2 & H1 & -> & H3). exists ra. split; [reflexivity|]. apply filter_In. split; [exact Hi|]. rewrite H1. unfold is_meta. rewrite H2. cbn.
      apply negb_true_iff. destruct (set_contains _ names) eqn:C; [|reflexivity]. apply set_contains_in in C. contradiction.
Qed.
Lemma failed_verdict L pow rt h br ras : good_sorts L -> good_exp (l_exp L) -> good_log10 (l_log10 L) -> built_from h br -> h <> [] -> get_analysis L br = Ok ras ->
  battery_verdict L br = Ok (Some true) <-> get_failed_tests L (get_tests pow rt) ras = Ok [].
Proof.
  intros S X G B Hh E. destruct (built_ok h br B) as [O Gm].
  assert (Hne : br_results br <> []).
  { destruct B as (Eb & _ & _). intros Z. destruct h as [|r h]; [congruence|].
    assert (K : In (tr_key r) (map fst (add_all (r :: h)))) by (apply add_all_keys; left; reflexivity). unfold add_all in K. rewrite <- Eb, Z in K. destruct K. }
  destruct (summary_ok L br S X G O Hne) as (ras' & p & E' & Hl & Hs & Hp). rewrite E in E'. injection E' as <-.
  destruct (get_analysis_ok L br S X O) as (ras' & E' & V & _). rewrite E in E'. injection E' as <-.
  destruct (failed_built L pow rt h br ras S X G B E) as (ss & ms & Ef & _ & _ & _ & Hss & Hms).
  assert (Hv : battery_verdict L br = Ok (Some p)).
  { unfold battery_verdict, get_worst_statistic_analysis. rewrite E. cbn [obind]. unfold print_summary in Hs. rewrite E in Hs. cbn [obind] in Hs.
    destruct (br_results br) as [|e m]; [congruence|].
    destruct (ocount _ ras) as [a|]; [|discriminate]. cbn [obind] in Hs. destruct (ocount (suspicious L) ras) as [b|]; [|discriminate]. cbn [obind] in Hs.
    destruct ras as [|ra ras]; [discriminate|]. cbn [obind]. destruct (pass (l_log10 L) (ra_stat ra)) as [q|]; [|discriminate]. cbn [obind] in *.
    injection Hs as -> _ _. reflexivity. }
  rewrite Hv, Ef. split.
  - intros H. injection H as ->. assert (F := proj1 Hp eq_refl).
    assert (K : forall ra, In ra ras -> failb L ra = true -> False).
    { intros ra Hi Hf. assert (In ra (filter (failb L) ras)) by (apply filter_In; auto). rewrite F in H. destruct H. }
    destruct ss as [|s ss]; [|exfalso; destruct (proj1 (Hss s) (or_introl eq_refl)) as (ra & Hi & _ & Hf & _); eapply K; eassumption].
    destruct ms as [|s ms]; [reflexivity|exfalso; destruct (proj1 (Hms s) (or_introl eq_refl)) as (ra & Hi & _ & Hf & _); eapply K; eassumption].
  - intros H. injection H as H. apply app_eq_nil in H. destruct H as [-> ->]. f_equal. f_equal. apply Hp. apply filter_all_false.
    rewrite Forall_forall. intros ra Hi. destruct (failb L ra) eqn:Hf; [exfalso|reflexivity]. destruct (ra_type ra) eqn:Ht.
    + apply (Hss (key_to_string (get_tests pow rt) (ra_key ra))). exists ra. auto.
    + apply (Hms (key_to_string (get_tests pow rt) (ra_key ra) ++ "*")%string). exists ra. repeat split; auto.
Qed.
Lemma battery_tests_ok defs br : StronglySorted slt (battery_tests defs br) /\
  forall s, In s (battery_tests defs br) <-> exists e, In e (br_results br) /\ s = get_test_name defs (k_type (fst e)).
Proof.
  unfold battery_tests. assert (K : forall m s0, StronglySorted slt s0 ->
    StronglySorted slt (fold_left (fun s e => set_insert (get_test_name defs (k_type (fst e))) s) m s0) /\
    forall s, In s (fold_left (fun s (e : test_key * list test_result) => set_insert (get_test_name defs (k_type (fst e))) s) m s0) <-> In s s0 \/ exists e, In e m /\ s = get_test_name defs (k_type (fst e))).
  { induction m as [|e m IH]; intros s0 S0; cbn [fold_left].
    - split; [exact S0|]. intro s. split; [auto|]. intros [H|(e & [] & _)]; exact H.
    - destruct (IH _ (set_insert_sorted (get_test_name defs (k_type (fst e))) s0 S0)) as [A B]. split; [exact A|]. intro s. rewrite B, set_insert_in. split.
      + intros [[->|H]|(x & H & ->)]; [right; exists e; cbn; auto|left; exact H|right; exists x; cbn; auto].
      + intros [H|(x & [<-|H] & ->)]; [auto|auto|right; exists x; auto]. }
  destruct (K (br_results br) [] ltac:(constructor)) as [A B]. split; [exact A|]. intro s. rewrite B. split; [intros [[]|H]; exact H|auto].
Qed.
