(* Proofs about evaluation, verdicts and the multi-pass protocol. *)
From Coq Require Import Reals Lra Permutation Sorted String.
From Verif Require Import Base FloatModel FloatLemmas StreamModel JobsModel JobsProofs ResultModel ResultSpec ResultProofs AnalysisProofs EvaluateModel.

(* ---------- results of evaluate as multisets ---------- *)
Lemma runs_to_map (l : list (job * list test_result)) : Forall (fun jr => runs_to (fst jr) (snd jr)) l ->
  map snd l = map (fun j : job => j tt) (map fst l).
Proof. induction 1 as [|[j r] l H _ IH]; [reflexivity|]. cbn in *. rewrite IH, H. reflexivity. Qed.

Lemma flat_map_id {B} (l : list (list B)) : flat_map (fun r => r) l = concat l.
Proof. induction l; cbn; congruence. Qed.
Lemma flat_map_map' {B C D} (f : B -> C) (g : C -> list D) l : flat_map g (map f l) = flat_map (fun x => g (f x)) l.
Proof. induction l; cbn; congruence. Qed.

Lemma filter_Perm {B} (f : B -> bool) l l' : Permutation l l' -> Permutation (filter f l) (filter f l').
Proof.
  induction 1; cbn; [constructor|destruct (f x); [constructor|]; assumption| |etransitivity; eassumption].
  destruct (f x), (f y); try reflexivity. constructor.
Qed.

Lemma evaluate_adds mixed defs w n setup br :
  evaluate mixed defs w n setup br -> (1 <= ts_max_threads setup)%N ->
  (N.of_nat (length (create_test_jobs mixed defs n setup)) < 2 ^ 32)%N ->
  exists h, br_results br = add_all h /\ Permutation h (flat_map (fun j : job => j tt) (create_test_jobs mixed defs n setup)).
Proof.
  intros (s & Hr & Hm & ->) H1 H2. cbn [br_results]. set (jobs := create_test_jobs mixed defs n setup) in *.
  exists (rev (jadds s)). split; [reflexivity|]. rewrite <- Permutation_rev.
  assert (Hj : jobs = [] \/ jobs <> []) by (destruct jobs; [left; reflexivity|right; discriminate]).
  destruct Hj as [E|Hne].
  - rewrite E in *. assert (Z : effective_threads (ts_max_threads setup) (@nil job) = 0%nat).
    { unfold effective_threads. cbn. rewrite N.min_0_r. reflexivity. }
    destruct (zero_threads _ _ _ _ s Z Hr) as (_ & _ & ->). constructor.
  - assert (Hpos : (0 < effective_threads (ts_max_threads setup) jobs)%nat).
    { unfold effective_threads, wrap. rewrite N.mod_small by exact H2. destruct jobs; [congruence|]. cbn [length]. lia. }
    destruct (returned_complete _ _ _ _ s Hr Hm Hpos) as (_ & P2 & P3 & P4 & P5).
    rewrite P5. rewrite (Permutation_flat_map _ P4). rewrite (runs_to_map _ P3), flat_map_map'.
    apply Permutation_flat_map, P2.
Qed.

(* ---------- the worst analysis ---------- *)
Open Scope R_scope.
Lemma to_p_valid v : Forall (fun r => valid_stat (tr_stats r)) v -> Forall valid01 (to_p_values v).
Proof. intros H. unfold to_p_values. apply Forall_map. exact H. Qed.
Lemma to_p_len v : length (to_p_values v) = length v. Proof. apply map_length. Qed.

Lemma meta_valid L v : good_sorts L -> good_exp (l_exp L) -> v <> [] -> (N.of_nat (length v) < 2 ^ 64)%N ->
  Forall (fun r => valid_stat (tr_stats r)) v -> valid_stat (meta_stat L v).
Proof.
  intros [Hs _] He Hn Hl Hv. unfold valid_stat, meta_stat, kolmogorov_smirnov_stats. cbn [st_p]. rewrite to_p_len.
  apply ks_cdf_valid; [exact He| |split; [destruct v; [congruence|cbn [length]; lia]|exact Hl]].
  apply ks_distance_valid; [exact Hs|apply to_p_valid, Hv|rewrite to_p_len; exact Hl].
Qed.

Lemma omapM_ok {B C} (f : B -> outcome C) (g : B -> C) l : (forall x, In x l -> f x = Ok (g x)) -> omapM f l = Ok (map g l).
Proof.
  induction l as [|a l IH]; intros H; [reflexivity|]. cbn. rewrite (H a) by (left; reflexivity). cbn.
  rewrite IH by (intros x Hx; apply H; right; exact Hx). reflexivity.
Qed.
Lemma omapM_ex {B C} (f : B -> outcome C) l : (forall x, In x l -> exists y, f x = Ok y) ->
  exists ys, omapM f l = Ok ys /\ Forall2 (fun x y => f x = Ok y) l ys.
Proof.
  induction l as [|a l IH]; intros H; [exists []; split; [reflexivity|constructor]|].
  destruct (H a) as [y Hy]; [left; reflexivity|]. destruct IH as (ys & E & F); [intros x Hx; apply H; right; exact Hx|].
  exists (y :: ys). cbn. rewrite Hy. cbn. rewrite E. cbn. split; [reflexivity|]. constructor; assumption.
Qed.

(* the unsorted analyses *)
Lemma entry_analysis L k v : v <> [] -> Forall (fun r => valid_stat (tr_stats r)) v ->
  exists wr, In wr v /\ (forall r, In r v -> trp wr <= trp r) /\ get_worst_result v = Ok wr /\
  analyse_entry L (k, v) = Ok
   [ mkra Sample (tr_stream wr) k (tr_stats wr) v;
     mkra Meta ("meta analysis over " ++ to_string_N (N.of_nat (length v)) ++ " samples")%string k (meta_stat L v) v ].
Proof.
  intros Hn Hv. destruct (worst_defined v Hv Hn) as [wr Hw]. destruct (worst_is_min v wr Hv Hw) as [Hi Hmin].
  exists wr. split; [exact Hi|]. split; [exact Hmin|]. split; [exact Hw|]. unfold analyse_entry. cbn [snd fst]. rewrite Hw. reflexivity.
Qed.

Lemma get_analysis_ok L br : good_sorts L -> good_exp (l_exp L) -> ok_map (br_results br) ->
  exists ras, get_analysis L br = Ok ras /\
    Forall (fun ra => valid_stat (ra_stat ra)) ras /\
    StronglySorted (fun a b => two_sided (ra_stat a) <= two_sided (ra_stat b)) ras /\
    (forall ra, In ra ras -> analysed L (br_results br) (ra_stat ra)) /\
    (forall s, analysed L (br_results br) s -> exists ra, In ra ras /\ two_sided (ra_stat ra) <= two_sided s) /\
    exists rss, Forall2 (fun e y => analyse_entry L e = Ok y) (br_results br) rss /\ Permutation ras (concat rss).
Proof.
  intros Hs He Hm. unfold get_analysis. set (m := br_results br) in *. clearbody m. unfold ok_map in Hm. rewrite Forall_forall in Hm.
  destruct (omapM_ex (analyse_entry L) m) as (rss & E & F).
  { intros [k v] Hx. destruct (Hm _ Hx) as (Hn & _ & Hv). destruct (entry_analysis L k v Hn Hv) as (wr & _ & _ & _ & Hy). eauto. }
  rewrite E. cbn [obind].
  assert (A : forall ra, In ra (concat rss) -> exists e, In e m /\ exists y, analyse_entry L e = Ok y /\ In ra y).
  { intros ra H. apply in_concat in H. destruct H as (y & Hy & Hra). clear E.
    induction F as [|e y0 l ys H0 F IH]; [destruct Hy|]. destruct Hy as [<-|Hy].
    - exists e. split; [left; reflexivity|]. eauto.
    - destruct IH as (e' & He' & X); [intros x Hx; apply Hm; right; exact Hx|exact Hy|]. exists e'. split; [right; exact He'|exact X]. }
  assert (V : Forall (fun ra => valid_stat (ra_stat ra)) (concat rss)).
  { apply Forall_forall. intros ra H. destruct (A ra H) as ([k v] & Hi & y & Hy & Hra).
    destruct (Hm _ Hi) as (Hn & Hl & Hv). cbn [snd] in *. destruct (entry_analysis L k v Hn Hv) as (wr & Hw & _ & _ & Ey).
    rewrite Hy in Ey. injection Ey as ->. destruct Hra as [<-|[<-|[]]]; cbn.
    - rewrite Forall_forall in Hv. apply Hv, Hw.
    - apply meta_valid; assumption. }
  destruct Hs as [Hs1 Hs2]. destruct (Hs2 _ V) as [P S].
  exists (l_sort_ra L (concat rss)). split; [reflexivity|].
  assert (V' : Forall (fun ra => valid_stat (ra_stat ra)) (l_sort_ra L (concat rss))) by (eapply Permutation_Forall; eassumption).
  split; [exact V'|]. split.
  { clear - V' S. induction S as [|a l S IH Ha]; [constructor|]. constructor; [apply IH; eapply Forall_inv_tail, V'|].
    pose proof (Forall_inv V') as Va. apply Forall_inv_tail in V'. rewrite Forall_forall in *. intros b Hb.
    specialize (Ha b Hb). specialize (V' b Hb). unfold ra_lt, ra_p in Ha.
    apply dlt_false in Ha; [|apply comparable_fin; assumption|apply comparable_fin; assumption].
    rewrite !comparable_val in Ha by assumption. exact Ha. }
  split.
  { intros ra H. apply (Permutation_in _ (Permutation_sym P)) in H. destruct (A ra H) as ([k v] & Hi & y & Hy & Hra).
    destruct (Hm _ Hi) as (Hn & _ & Hv). cbn [snd] in *. destruct (entry_analysis L k v Hn Hv) as (wr & Hw & _ & _ & Ey).
    rewrite Hy in Ey. injection Ey as ->. exists k, v. split; [exact Hi|].
    destruct Hra as [<-|[<-|[]]]; cbn; [left; eauto|right; reflexivity]. }
  split.
  { intros s (k & v & Hi & Hcase). destruct (Hm _ Hi) as (Hn & _ & Hv). cbn [snd] in *.
    destruct (entry_analysis L k v Hn Hv) as (wr & Hw & Hmin & _ & Ey).
    assert (HI : forall ra, In ra [ mkra Sample (tr_stream wr) k (tr_stats wr) v;
      mkra Meta ("meta analysis over " ++ to_string_N (N.of_nat (length v)) ++ " samples")%string k (meta_stat L v) v ] -> In ra (concat rss)).
    { intros ra Hra. apply in_concat. clear - F Hi Ey Hra. induction F as [|e y0 l ys H0 F IH]; [destruct Hi|].
      destruct Hi as [->|Hi]; [rewrite Ey in H0; injection H0 as <-; eexists; split; [left; reflexivity|exact Hra]|].
      destruct (IH Hi) as (y & Hy & Hin). exists y. split; [right; exact Hy|exact Hin]. }
    destruct Hcase as [(r & Hr & ->)| ->].
    - eexists. split; [eapply Permutation_in; [exact P|apply HI; left; reflexivity]|]. cbn. apply (Hmin r Hr).
    - eexists. split; [eapply Permutation_in; [exact P|apply HI; right; left; reflexivity]|]. cbn. lra. }
  exists rss. split; [exact F|]. apply Permutation_sym, P.
Qed.

Lemma worst_analysis_ok L br : good_sorts L -> good_exp (l_exp L) -> ok_map (br_results br) ->
  exists a, get_worst_statistic_analysis L br = Ok a /\
    match a with
    | None => br_results br = []
    | Some st => valid_stat st /\ analysed L (br_results br) st /\ forall s, analysed L (br_results br) s -> two_sided st <= two_sided s
    end.
Proof.
  intros Hs He Hm. destruct (get_analysis_ok L br Hs He Hm) as (ras & E & V & S & A & B & _).
  unfold get_worst_statistic_analysis. rewrite E. cbn [obind].
  destruct ras as [|ra ras].
  - exists None. split; [reflexivity|]. destruct (br_results br) as [|[k v] m]; [reflexivity|]. exfalso.
    destruct (B (meta_stat L v)) as (ra & [] & _). exists k, v. split; [left; reflexivity|right; reflexivity].
  - exists (Some (ra_stat ra)). split; [reflexivity|]. split; [apply (Forall_inv V)|].
    split; [apply A; left; reflexivity|]. intros s Hsx. destruct (B s Hsx) as (rb & Hrb & Hle).
    destruct Hrb as [<-|Hrb]; [exact Hle|]. apply StronglySorted_inv in S. destruct S as [_ S].
    rewrite Forall_forall in S. specialize (S rb Hrb). cbn in S. lra.
Qed.

(* ---------- the strength is determined by the value ---------- *)
Lemma c1em10_ok : fin c1em10 /\ 0 < dval c1em10.
Proof.
  destruct (dconst_ok 7737125245533627 (-86)) as [V F].
  { apply (small_pow2 _ 1); [lia|]. unfold F2R, Fnum, Fexp. rewrite Rabs_right by (apply Rle_ge, Rmult_le_pos; [apply IZR_le; lia|apply bpow_ge_0]).
    replace (bpow radix2 1) with (IZR (2 ^ 87) * bpow radix2 (-86)) by (change (IZR (2 ^ 87)) with (bpow radix2 87); rewrite <- bpow_plus; reflexivity).
    apply Rmult_le_compat_r; [apply bpow_ge_0|apply IZR_le; lia]. }
  split; [exact F|]. unfold c1em10. rewrite V, rnd_id by (apply F64_F2R; [apply Z.leb_le; reflexivity|lia]).
  apply F2R_gt_0. cbn. lia.
Qed.

Lemma strength_ext log10 s s' : valid_stat s -> valid_stat s' -> two_sided s = two_sided s' ->
  get_failure_strength log10 s = get_failure_strength log10 s'.
Proof.
  intros V V' E. destruct c1em10_ok as [Fc Pc]. unfold get_failure_strength.
  rewrite <- (comparable_val s V), <- (comparable_val s' V') in E.
  pose proof (comparable_fin s V) as F. pose proof (comparable_fin s' V') as F'.
  set (p := get_comparable_p_value s) in *. set (p' := get_comparable_p_value s') in *.
  destruct (dlt p c1em10) eqn:D, (dlt p' c1em10) eqn:D'; [reflexivity| | |].
  - apply dlt_iff in D; [|assumption|assumption]. apply dlt_false in D'; [|assumption|assumption]. lra.
  - apply dlt_iff in D'; [|assumption|assumption]. apply dlt_false in D; [|assumption|assumption]. lra.
  - apply dlt_false in D; [|assumption|assumption]. f_equal. f_equal. f_equal.
    apply B2R_inj.
    + destruct p; try reflexivity; cbn in *; lra.
    + destruct p'; try reflexivity; cbn in *; lra.
    + exact E.
Qed.

(* ---------- schedule independence ---------- *)
Lemma good_same_keys m m' : good_map m -> good_map m' -> (forall k, Permutation (map_get m k) (map_get m' k)) ->
  map fst m = map fst m'.
Proof.
  intros [S1 G1] [S2 G2] H. apply (sorted_unique klt); [apply klt_irrefl|apply klt_trans|exact S1|exact S2|].
  assert (G : forall m1 m2, good_map m1 -> good_map m2 -> (forall k, Permutation (map_get m1 k) (map_get m2 k)) ->
    forall k, In k (map fst m1) -> In k (map fst m2)).
  { clear. intros m1 m2 G1 G2 H k Hk. destruct (in_dec key_dec k (map fst m2)) as [|Hn]; [assumption|exfalso].
    apply map_get_notin in Hn. specialize (H k). rewrite Hn in H. apply Permutation_sym, Permutation_nil in H.
    apply in_map_iff in Hk. destruct Hk as (e & <- & He). rewrite (good_map_entry m1 e G1 He) in H.
    destruct G1 as [_ G1]. rewrite Forall_forall in G1. destruct (G1 e He) as [X _]. exact (X H). }
  intro k. split; apply G; try (split; assumption); [exact H|intro; apply Permutation_sym, H].
Qed.

Lemma meta_perm L L' v v' : sorts finite_double dlt (l_sort_double L) -> sorts finite_double dlt (l_sort_double L') ->
  l_exp L = l_exp L' -> Permutation v v' -> (N.of_nat (length v) < 2 ^ 64)%N -> Forall (fun r => valid_stat (tr_stats r)) v ->
  meta_stat L v = meta_stat L' v'.
Proof.
  intros S S' E P Hl Hv. unfold meta_stat, kolmogorov_smirnov_stats. rewrite E.
  assert (Pp : Permutation (to_p_values v) (to_p_values v')) by apply Permutation_map, P.
  rewrite (Permutation_length Pp).
  rewrite (ks_perm (l_sort_double L) (l_sort_double L') _ _ S S' Pp (to_p_valid v Hv)) by (rewrite to_p_len; exact Hl).
  reflexivity.
Qed.

Lemma analysed_perm L L' m m' : sorts finite_double dlt (l_sort_double L) -> sorts finite_double dlt (l_sort_double L') ->
  l_exp L = l_exp L' -> good_map m -> good_map m' -> ok_map m ->
  (forall k, Permutation (map_get m k) (map_get m' k)) -> forall s, analysed L m s -> analysed L' m' s.
Proof.
  intros S S' E G G' O P s (k & v & Hi & Hc). unfold ok_map in O. rewrite Forall_forall in O.
  destruct (O _ Hi) as (_ & Hl & Hv). cbn [snd] in *.
  assert (Hk : In k (map fst m')) by (rewrite <- (good_same_keys m m' G G' P); apply in_map_iff; exists (k, v); auto).
  apply in_map_iff in Hk. destruct Hk as ([k' v'] & Ek & Hi'). cbn in Ek. subst k'.
  pose proof (P k) as Pk. rewrite (good_map_entry m _ G Hi : map_get m k = v) in Pk.
  rewrite (good_map_entry m' _ G' Hi' : map_get m' k = v') in Pk.
  exists k, v'. split; [exact Hi'|]. destruct Hc as [(r & Hr & ->)| ->].
  - left. exists r. split; [eapply Permutation_in; eassumption|reflexivity].
  - right. apply meta_perm; assumption.
Qed.

Lemma ok_map_perm m m' : good_map m -> good_map m' -> ok_map m -> (forall k, Permutation (map_get m k) (map_get m' k)) -> ok_map m'.
Proof.
  intros G G' O P. unfold ok_map in *. rewrite Forall_forall in *. intros [k v'] Hi'.
  assert (Hk : In k (map fst m)) by (rewrite (good_same_keys m m' G G' P); apply in_map_iff; exists (k, v'); auto).
  apply in_map_iff in Hk. destruct Hk as ([k' v] & Ek & Hi). cbn in Ek. subst k'.
  pose proof (P k) as Pk. rewrite (good_map_entry m _ G Hi : map_get m k = v) in Pk.
  rewrite (good_map_entry m' _ G' Hi' : map_get m' k = v') in Pk. destruct (O _ Hi) as (H1 & H2 & H3). cbn [snd] in *.
  split; [intros ->; apply Permutation_sym, Permutation_nil in Pk; auto|].
  split; [rewrite <- (Permutation_length Pk); exact H2|]. eapply Permutation_Forall; eassumption.
Qed.

Lemma verdict_perm L L' br br' : good_sorts L -> good_sorts L' -> good_exp (l_exp L) -> l_exp L = l_exp L' -> l_log10 L = l_log10 L' ->
  good_map (br_results br) -> good_map (br_results br') -> ok_map (br_results br) ->
  (forall k, Permutation (map_get (br_results br) k) (map_get (br_results br') k)) ->
  exists a a', get_worst_statistic_analysis L br = Ok a /\ get_worst_statistic_analysis L' br' = Ok a' /\
    option_map two_sided a = option_map two_sided a' /\
    battery_verdict L br = battery_verdict L' br'.
Proof.
  intros S S' He E1 E2 G G' O P. assert (O' := ok_map_perm _ _ G G' O P).
  assert (He' : good_exp (l_exp L')) by (rewrite <- E1; exact He).
  destruct (worst_analysis_ok L br S He O) as (a & Ha & Sa). destruct (worst_analysis_ok L' br' S' He' O') as (a' & Ha' & Sa').
  exists a, a'. split; [exact Ha|]. split; [exact Ha'|].
  pose proof (good_same_keys _ _ G G' P) as K.
  destruct a as [st|], a' as [st'|].
  - destruct Sa as (V & A & M). destruct Sa' as (V' & A' & M').
    assert (E : two_sided st = two_sided st').
    { apply Rle_antisym.
      - apply M. eapply analysed_perm; [apply S'|apply S|symmetry; exact E1|exact G'|exact G|exact O'|intro; apply Permutation_sym, P|exact A'].
      - apply M'. eapply analysed_perm; [apply S|apply S'|exact E1|exact G|exact G'|exact O|exact P|exact A]. }
    split; [cbn; rewrite E; reflexivity|]. unfold battery_verdict. rewrite Ha, Ha'. cbn [obind]. unfold pass. rewrite <- E2.
    rewrite (strength_ext (l_log10 L) st st' V V' E). reflexivity.
  - exfalso. rewrite Sa' in K. destruct (br_results br); [|discriminate]. destruct Sa as (_ & (k & v & [] & _) & _).
  - exfalso. rewrite Sa in K. destruct (br_results br'); [|discriminate]. destruct Sa' as (_ & (k & v & [] & _) & _).
  - split; [reflexivity|]. unfold battery_verdict. rewrite Ha, Ha'. reflexivity.
Qed.
