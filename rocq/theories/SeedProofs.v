(* Proofs about seeds, evenly spaced data streams and sources. *)
From Coq Require Import Sorted.
From Verif Require Import Base BitwiseModel BitwiseSpec WordLemmas WordBij BitwiseProofs StreamModel StreamSpec StreamProofs MixerModel MixerProofs PrngModel SeedModel.
Open Scope N_scope.
Notation asc := (StronglySorted N.lt).
Lemma default_mixer_total w : In w widths -> exists f, (forall x, is_word w x -> default_mixer w x = Ok (f x)) /\ word_bijection w f.
Proof.
  intros [<-|[<-|[<-|[<-|[]]]]].
  - exact mix8_xm3x_bij.
  - exact mix16_xm3x_bij.
  - exists default_mixer32. split; [reflexivity|]. pose proof mixers32_bij as M. rewrite Forall_forall in M.
    assert (I : exists nm, In (nm, default_mixer32) mixers32) by (unfold default_mixer32, mixers32; eexists; cbn [In]; repeat (try (left; reflexivity); right)). destruct I as (nm & I). exact (M _ I).
  - exists default_mixer64. split; [reflexivity|]. pose proof mixers64_bij as M. rewrite Forall_forall in M.
    assert (I : exists nm, In (nm, default_mixer64) mixers64) by (unfold default_mixer64, mixers64; eexists; cbn [In]; repeat (try (left; reflexivity); right)). destruct I as (nm & I). exact (M _ I).
Qed.
(* ---- sets ---- *)
Lemma set_in x s y : In y (set_insert x s) <-> y = x \/ In y s.
Proof.
  induction s as [|a s IH]; cbn [set_insert]; [cbn; intuition congruence|]. destruct (N.ltb_spec x a); [cbn; intuition congruence|]. destruct (N.eqb_spec x a) as [->|]; [cbn; intuition congruence|].
  cbn [In]. rewrite IH. tauto.
Qed.
Lemma set_asc x s : asc s -> asc (set_insert x s).
Proof.
  induction s as [|a s IH]; intro H; cbn [set_insert]; [repeat constructor|]. apply StronglySorted_inv in H. destruct H as [S F]. destruct (N.ltb_spec x a); [|destruct (N.eqb_spec x a)].
  - constructor; [constructor; assumption|]. constructor; [exact H|]. apply Forall_impl with (2 := F). intros b Hb. lia.
  - constructor; assumption.
  - constructor; [apply IH, S|]. apply Forall_forall. intros b Hb. apply set_in in Hb. rewrite Forall_forall in F. destruct Hb as [->|Hb]; [lia|apply F, Hb].
Qed.
Lemma set_length x s : (length (set_insert x s) <= S (length s))%nat /\ (length s <= length (set_insert x s))%nat.
Proof.
  induction s as [|a s IH]; cbn [set_insert length]; [lia|]. destruct (x <? a); [cbn [length]; lia|]. destruct (x =? a); cbn [length]; lia.
Qed.
Lemma asc_bound m : forall s a, asc s -> Forall (fun x => a <= x /\ x < m) s -> s <> [] -> a + N.of_nat (length s) <= m.
Proof.
  induction s as [|x s IH]; intros a S F NE; [congruence|]. apply StronglySorted_inv in S. destruct S as [S G]. pose proof (Forall_inv F) as Fx. cbn beta in Fx. cbn [length]. destruct s as [|y s]; [cbn [length]; lia|].
  specialize (IH (a + 1) S). assert (a + 1 + N.of_nat (length (y :: s)) <= m); [|lia]. apply IH; [|discriminate]. apply Forall_forall. intros z Hz. rewrite Forall_forall in F, G. specialize (F z (or_intror Hz)). specialize (G z Hz). lia.
Qed.
Lemma asc_words w s : asc s -> Forall (is_word w) s -> N.of_nat (length s) <= 2 ^ w.
Proof.
  intros S F. destruct s as [|x s]; [cbn; lia|]. pose proof (asc_bound (2 ^ w) (x :: s) 0 S) as B. rewrite N.add_0_l in B. apply B; [|discriminate]. apply Forall_impl with (2 := F). intros y Hy. unfold is_word in Hy. lia.
Qed.
Lemma asc_nodup s : asc s -> NoDup s.
Proof.
  induction s as [|x s IH]; intro S; [constructor|]. apply StronglySorted_inv in S. destruct S as [S F]. constructor; [|apply IH, S]. intro I. rewrite Forall_forall in F. specialize (F x I). lia.
Qed.
Lemma fold_insert l : forall s, asc s -> asc (fold_left (fun s x => set_insert x s) l s) /\ forall y, In y (fold_left (fun s x => set_insert x s) l s) <-> In y l \/ In y s.
Proof.
  induction l as [|x l IH]; intros s S; cbn [fold_left]; [split; [exact S|cbn; tauto]|]. destruct (IH (set_insert x s) (set_asc x s S)) as [A B]. split; [exact A|]. intro y. rewrite B, set_in. cbn [In]. intuition congruence.
Qed.
Lemma initial_ok w : In w widths -> asc (initial_set w) /\ Forall (is_word w) (initial_set w) /\ forall y, In y (initial_set w) <-> In y (get_rrc_permutations w 1).
Proof.
  intro W. destruct (fold_insert (get_rrc_permutations w 1) [] (SSorted_nil _)) as [A B]. fold (initial_set w) in A, B. split; [exact A|]. split; [|intro y; rewrite B; cbn [In]; tauto].
  apply Forall_forall. intros y Hy. apply B in Hy. destruct Hy as [Hy|[]]. unfold get_rrc_permutations in Hy. apply in_flat_map in Hy. destruct Hy as (t & _ & Hy). apply in_map_iff in Hy. destruct Hy as (r & <- & _).
  apply permute_bits; [exact W|]. unfold is_word. destruct W as [<-|[<-|[<-|[<-|[]]]]]; reflexivity.
Qed.
(* ---- the loop ---- *)
Section Fill.
Variables (w : N) (f : N -> N).
Hypothesis (W : In w widths) (M : forall x, is_word w x -> default_mixer w x = Ok (f x)) (B : word_bijection w f).
Lemma wrap_word x : is_word w (wrap w x).
Proof. unfold is_word, wrap. apply N.mod_lt, N.pow_nonzero. discriminate. Qed.
Lemma wrap_inj x a b : a < 2 ^ w -> b < 2 ^ w -> wrap w (x + a) = wrap w (x + b) -> a = b.
Proof.
  unfold wrap. assert (P : 2 ^ w <> 0) by (apply N.pow_nonzero; discriminate). revert P. generalize (2 ^ w). intros m P Ha Hb E.
  pose proof (N.div_mod (x + a) m P) as D1. pose proof (N.div_mod (x + b) m P) as D2. rewrite E in D1. pose proof (N.mod_lt (x + b) m P).
  assert ((x + a) / m = (x + b) / m \/ (x + a) / m <> (x + b) / m) as [Q|Q] by lia; [rewrite Q in D1; lia|]. exfalso. revert D1 D2. generalize dependent ((x + a) / m). generalize ((x + b) / m). generalize ((x + b) mod m). intros. nia.
Qed.
Lemma many_values (n : nat) added : N.of_nat n <= 2 ^ w -> (forall j, (j < n)%nat -> In (f (wrap w (1234 + N.of_nat j))) added) -> (n <= length added)%nat.
Proof.
  intros Hn H. rewrite <- (seq_length n 0). rewrite <- (map_length (fun j => f (wrap w (1234 + N.of_nat j)))). apply NoDup_incl_length.
  - assert (G : forall l, (forall j, In j l -> (j < n)%nat) -> NoDup l -> NoDup (map (fun j => f (wrap w (1234 + N.of_nat j))) l)).
    { induction l as [|j l IH]; intros R N0; [constructor|]. inversion N0 as [|? ? NI N1]; subst. cbn [map]. constructor; [|apply IH; [intros; apply R; right; assumption|exact N1]].
      intro I. apply in_map_iff in I. destruct I as (i & E & Hi). apply B in E; [|apply wrap_word|apply wrap_word]. apply wrap_inj in E; [|pose proof (R i (or_intror Hi)); lia|pose proof (R j (or_introl eq_refl)); lia].
      apply NI. replace j with i by lia. exact Hi. }
    apply G; [intros j Hj; apply in_seq in Hj; lia|apply seq_NoDup].
  - intros y Hy. apply in_map_iff in Hy. destruct Hy as (j & <- & Hj). apply in_seq in Hj. apply H. lia.
Qed.
Lemma fill_ok n : n <= 2 ^ w -> forall fuel i added, asc added -> Forall (is_word w) added -> (forall j, (j < i)%nat -> In (f (wrap w (1234 + N.of_nat j))) added) -> n <= N.of_nat (i + fuel) ->
  exists r, fill_set w n fuel (wrap w (1234 + N.of_nat i)) added = Ok (Some r) /\ asc r /\ Forall (is_word w) r /\ incl added r /\ N.of_nat (length r) = N.max n (N.of_nat (length added)).
Proof.
  intro Hn. induction fuel as [|fuel IH]; intros i added Sa F H E; cbn [fill_set].
  - destruct (N.ltb_spec (N.of_nat (length added)) n) as [L|L].
    + exfalso. pose proof (many_values (N.to_nat n) added ltac:(lia) ltac:(intros; apply H; lia)). lia.
    + exists added. repeat split; try assumption; [apply incl_refl|lia].
  - destruct (N.ltb_spec (N.of_nat (length added)) n) as [L|L]; [|exists added; repeat split; try assumption; [apply incl_refl|lia]].
    rewrite M by apply wrap_word. cbn [obind]. set (v := f (wrap w (1234 + N.of_nat i))).
    assert (WX : wrap w (wrap w (1234 + N.of_nat i) + 1) = wrap w (1234 + N.of_nat (S i))).
    { unfold wrap. rewrite N.add_mod_idemp_l by (apply N.pow_nonzero; discriminate). f_equal. lia. }
    rewrite WX. destruct (IH (S i) (set_insert v added)) as (r & R & S' & F' & I' & L').
    + apply set_asc, Sa.
    + apply Forall_forall. intros y Hy. apply set_in in Hy. destruct Hy as [->|Hy]; [unfold v; apply B, wrap_word|]. rewrite Forall_forall in F. apply F, Hy.
    + intros j Hj. apply set_in. destruct (Nat.eq_dec j i) as [->|]; [left; reflexivity|right; apply H; lia].
    + lia.
    + exists r. split; [exact R|]. split; [exact S'|]. split; [exact F'|]. split; [intros y Hy; apply I', set_in; right; exact Hy|]. pose proof (set_length v added). lia.
Qed.
Lemma fill_forever n : 2 ^ w < n -> forall fuel x added, asc added -> Forall (is_word w) added -> is_word w x -> fill_set w n fuel x added = Ok None.
Proof.
  intro Hn. induction fuel as [|fuel IH]; intros x added S F X; cbn [fill_set]; pose proof (asc_words w added S F); (destruct (N.ltb_spec (N.of_nat (length added)) n) as [L|L]; [|lia]); [reflexivity|].
  rewrite M by exact X. cbn [obind]. apply IH; [apply set_asc, S| |apply wrap_word]. apply Forall_forall. intros y Hy. apply set_in in Hy. destruct Hy as [->|Hy]; [apply B, X|]. rewrite Forall_forall in F. apply F, Hy.
Qed.
End Fill.
(* ---- seed words ---- *)
Lemma seed_words_length l : forall y, length (seed_words y l) = length l.
Proof. induction l as [|p l IH]; intro y; [reflexivity|]. cbn [seed_words length]. rewrite IH. reflexivity. Qed.
Lemma seed_words_primary l : forall y, map (fun sd : seed_data => sd 0%nat) (seed_words y l) = l.
Proof. induction l as [|p l IH]; intro y; [reflexivity|]. cbn [seed_words map nth]. rewrite IH. reflexivity. Qed.
Lemma seed_words_nth l : forall y k sd, nth_error (seed_words y l) k = Some sd -> forall i, (i < 3)%nat -> sd (S i) = mix64_mx3 (wrap 64 (y + 3 * N.of_nat k + N.of_nat i)).
Proof.
  induction l as [|p l IH]; intros y k sd H i Hi; [destruct k; discriminate|]. destruct k as [|k].
  - cbn [seed_words nth_error] in H. injection H as <-. do 3 (destruct i as [|i]; [cbn [nth]; do 2 f_equal; lia|]). lia.
  - cbn [seed_words nth_error] in H. rewrite (IH _ _ _ H i Hi). do 2 f_equal. lia.
Qed.
Lemma mx3_bij : word_bijection 64 mix64_mx3.
Proof. destruct (default_mixer_total 64 ltac:(cbn; tauto)) as (f & E & B). assert (Q : forall x, is_word 64 x -> f x = mix64_mx3 x) by (intros x Hx; specialize (E x Hx); change (default_mixer 64 x) with (@Ok N (mix64_mx3 x)) in E; congruence).
  destruct B as (B1 & B2 & B3). split; [intros x Hx; rewrite <- Q by exact Hx; apply B1, Hx|]. split; [intros x y Hx Hy Exy; apply B2; [exact Hx|exact Hy|rewrite !Q by assumption; exact Exy]|].
  intros y Hy. destruct (B3 y Hy) as (x & Hx & Ex). exists x. split; [exact Hx|]. rewrite <- Q by exact Hx. exact Ex. Qed.
Lemma generate_ok w n : In w widths -> (0 <= n < 2 ^ 31)%Z -> Z.to_N n <= 2 ^ w -> exists seeds, 
  (forall fuel, (Z.to_nat n <= fuel)%nat -> generate_seeds w n fuel = Ok (Some seeds)) /\ asc (map (fun sd : seed_data => sd 0%nat) seeds) /\ Forall (is_word w) (map (fun sd : seed_data => sd 0%nat) seeds) /\
  (forall x, In x (get_rrc_permutations w 1) -> In x (map (fun sd : seed_data => sd 0%nat) seeds)) /\ N.of_nat (length seeds) = N.max (Z.to_N n) (N.of_nat (length (initial_set w))) /\
  forall k sd i, nth_error seeds k = Some sd -> (i < 3)%nat -> sd (S i) = mix64_mx3 (wrap 64 (12345 + 3 * N.of_nat k + N.of_nat i)).
Proof.
  intros W Hn Hw. destruct (default_mixer_total w W) as (f & M & B). destruct (initial_ok w W) as (S & F & I).
  assert (NE : Z.to_N (n mod 2 ^ 64) = Z.to_N n) by (rewrite Z.mod_small by lia; reflexivity).
  assert (X : forall fuel, (Z.to_nat n <= fuel)%nat -> exists r, fill_set w (Z.to_N n) fuel (wrap w 1234) (initial_set w) = Ok (Some r) /\ asc r /\ Forall (is_word w) r /\ incl (initial_set w) r /\ N.of_nat (length r) = N.max (Z.to_N n) (N.of_nat (length (initial_set w)))).
  { intros fuel Hf. apply (fill_ok w f M B (Z.to_N n) Hw fuel 0 (initial_set w) S F); [intros j Hj; lia|lia]. }
  destruct (X (Z.to_nat n) (Nat.le_refl _)) as (r & R & S' & F' & I' & L').
  assert (MONO : forall n w fuel fuel' x added r, (fuel <= fuel')%nat -> fill_set w n fuel x added = Ok (Some r) -> fill_set w n fuel' x added = Ok (Some r)).
  { clear. intros n w. induction fuel as [|fuel IH]; intros fuel' x added r Hf H.
    - destruct fuel'; cbn [fill_set] in *; (destruct (N.of_nat (length added) <? n); [discriminate|exact H]).
    - destruct fuel' as [|fuel']; [lia|]. cbn [fill_set] in *. destruct (N.of_nat (length added) <? n); [|exact H]. destruct (default_mixer w x) as [v|]; [|discriminate]. cbn [obind] in *. apply IH; [lia|exact H]. }
  exists (seed_words 12345 r). split.
  - intros fuel Hf. unfold generate_seeds. rewrite NE. rewrite (MONO _ _ _ fuel _ _ r Hf R). reflexivity.
  - rewrite seed_words_primary. split; [exact S'|]. split; [exact F'|]. split; [intros x Hx; apply I', I, Hx|]. split; [rewrite seed_words_length; exact L'|].
    intros k sd i E Hi. rewrite (seed_words_nth r 12345 k sd E i Hi). reflexivity.
Qed.
Lemma generate_forever w n : In w widths -> (n < 0 \/ (0 <= n < 2 ^ 31 /\ 2 ^ Z.of_N w < n))%Z -> (- 2 ^ 31 <= n)%Z -> w <> 64 -> forall fuel, generate_seeds w n fuel = Ok None.
Proof.
  intros W H L N64 fuel. destruct (default_mixer_total w W) as (f & M & B). destruct (initial_ok w W) as (S & F & I). unfold generate_seeds.
  assert (P : (2 ^ Z.of_N w <= 2 ^ 32)%Z) by (apply Z.pow_le_mono_r; [lia|]; destruct W as [<-|[<-|[<-|[<-|[]]]]]; lia).
  assert (Q : 2 ^ w < Z.to_N (n mod 2 ^ 64)).
  { assert (ZW : Z.of_N (2 ^ w) = (2 ^ Z.of_N w)%Z) by (rewrite N2Z.inj_pow; reflexivity). destruct H as [H|[H1 H2]].
    - replace (n mod 2 ^ 64)%Z with (n + 2 ^ 64)%Z; [lia|]. symmetry. rewrite <- (Z.mod_add n 1) by lia. apply Z.mod_small. lia.
    - rewrite Z.mod_small by lia. lia. }
  rewrite (fill_forever w f M B _ Q fuel _ _ S F); [reflexivity|apply wrap_word].
Qed.
(* ---- prng setup ---- *)
Lemma rev_removelast {A} (l : list A) : rev (removelast l) = tl (rev l).
Proof.
  destruct l as [|a l] using rev_ind; [reflexivity|]. rewrite removelast_last, rev_app_distr. reflexivity.
Qed.
Lemma pop_ok w cp bits : forall seeds, (length bits <= length seeds)%nat ->
  pop_and_add w cp bits seeds = Ok (map (fun '(bit, sd) => ror_stream w (cp sd) bit) (combine bits (rev seeds)), rev (skipn (length bits) (rev seeds))).
Proof.
  induction bits as [|bit bits IH]; intros seeds L; [cbn [pop_and_add combine map length skipn]; rewrite rev_involutive; reflexivity|]. cbn [pop_and_add]. destruct (rev seeds) as [|sd rs] eqn:E.
  - apply (f_equal (@length _)) in E. rewrite rev_length in E. cbn [length] in *. lia.
  - assert (R : rev (removelast seeds) = rs) by (rewrite rev_removelast, E; reflexivity).
    rewrite IH; [|rewrite <- (rev_length (removelast seeds)), R; apply (f_equal (@length _)) in E; rewrite rev_length in E; cbn [length] in *; lia].
    rewrite R. cbn [obind fst snd combine map length skipn]. reflexivity.
Qed.
Lemma setup_ok w : In w widths -> exists seeds, length seeds = (4 * N.to_nat w)%nat /\
  StronglySorted (fun a b => b < a) (map (fun sd : seed_data => sd 0%nat) seeds) /\ Forall (fun sd : seed_data => sd 0%nat <> 0 /\ is_word w (sd 0%nat) /\ forall i, (i < 3)%nat -> is_word 64 (sd (S i))) seeds /\
  forall cp fuel, (1024 <= fuel)%nat -> create_prng_test_setup w cp fuel =
    Ok (Some (map (fun '(i, sd) => ror_stream w (cp sd) (if (S i <? N.to_nat w)%nat then Z.of_nat (S i) else 0%Z)) (combine (seq 0 (4 * N.to_nat w)) seeds))).
Proof.
  intro W. assert (SC : (0 <= seed_count w <= 1024)%Z /\ Z.to_N (seed_count w) <= 2 ^ w /\ (4 * Z.of_N w < seed_count w)%Z) by (destruct W as [<-|[<-|[<-|[<-|[]]]]]; vm_compute; repeat split; discriminate).
  destruct SC as (S1 & S2 & S3). destruct (generate_ok w (seed_count w) W ltac:(lia) S2) as (all & G & A & F & _ & LA & SW).
  set (m := (4 * N.to_nat w)%nat). assert (LM : (m < length all)%nat) by (unfold m; lia).
  exists (firstn m (rev all)). assert (LF : length (firstn m (rev all)) = m) by (apply firstn_length_le; rewrite rev_length; lia). split; [exact LF|].
  assert (RD : forall l, asc l -> StronglySorted (fun a b => b < a) (rev l)).
  { induction l as [|x l IH]; intro H; [constructor|]. apply StronglySorted_inv in H. destruct H as [Hs Hf]. cbn [rev]. specialize (IH Hs). clear Hs.
    assert (Hr : Forall (fun y => x < y) (rev l)) by (apply Forall_rev, Hf). revert IH Hr. generalize (rev l). induction l0 as [|y l0 IHl]; intros Hs Hr; cbn [app]; [repeat constructor|].
    apply StronglySorted_inv in Hs. destruct Hs as [H1 H2]. constructor; [apply IHl; [exact H1|exact (Forall_inv_tail Hr)]|]. apply Forall_app. split; [exact H2|]. constructor; [exact (Forall_inv Hr)|constructor]. }
  assert (SF : forall k l, StronglySorted (fun a b => b < a) l -> StronglySorted (fun a b => b < a) (firstn k l)).
  { induction k as [|k IH]; intros l H; [constructor|]. destruct l as [|x l]; [constructor|]. apply StronglySorted_inv in H. destruct H as [Hs Hf]. cbn [firstn]. constructor; [apply IH, Hs|].
    apply Forall_forall. intros y Hy. rewrite Forall_forall in Hf. apply Hf. rewrite <- (firstn_skipn k l). apply in_app_iff. left. exact Hy. }
  pose proof (RD _ A) as D. rewrite <- map_rev in D. split; [rewrite <- firstn_map; apply SF, D|]. split.
  - apply Forall_forall. intros sd Hs. split.
    + intro Z0. assert (SK : skipn m (rev all) <> []) by (intro Q; apply (f_equal (@length _)) in Q; rewrite skipn_length, rev_length in Q; cbn in Q; lia).
      destruct (skipn m (rev all)) as [|sd' rest] eqn:E; [congruence|]. rewrite <- (firstn_skipn m (rev all)), E, map_app in D. clear - D Hs Z0.
      revert D Hs. generalize (firstn m (rev all)). induction l as [|a l IH]; intros D Hs; [destruct Hs|]. cbn [map app] in D. apply StronglySorted_inv in D. destruct D as [D1 D2]. destruct Hs as [->|Hs]; [|exact (IH D1 Hs)].
      rewrite Forall_forall in D2. specialize (D2 (sd' 0%nat)). assert (sd' 0%nat < sd 0%nat); [|lia]. apply D2. apply in_app_iff. right. left. reflexivity.
    + assert (Hin : In sd all) by (apply in_rev; rewrite <- (firstn_skipn m (rev all)); apply in_app_iff; left; exact Hs). split.
      * rewrite Forall_forall in F. apply F. apply (in_map (fun sd : seed_data => sd 0%nat)). exact Hin.
      * intros i Hi. apply In_nth_error in Hin. destruct Hin as [k Hk]. rewrite (SW k sd i Hk Hi). apply mx3_bij, wrap_word.
  - intros cp fuel Hf. unfold create_prng_test_setup. rewrite G by lia. cbn [obind]. set (bits := map Z.of_nat (seq 1 (N.to_nat w - 1))). assert (LB : length bits = (N.to_nat w - 1)%nat) by (unfold bits; rewrite map_length, seq_length; reflexivity).
    rewrite pop_ok by (unfold m in *; lia). cbn [obind fst snd]. rewrite map_length, combine_length, rev_length, Nat.min_l by (unfold m in *; lia). rewrite LB.
    rewrite pop_ok by (rewrite repeat_length, rev_length, skipn_length, rev_length; unfold m in *; lia). cbn [obind fst snd]. do 2 f_equal. rewrite rev_involutive.
    assert (WP : (0 < N.to_nat w)%nat) by (destruct W as [<-|[<-|[<-|[<-|[]]]]]; lia).
    set (rs := rev all) in *. assert (LR : (m < length rs)%nat) by (unfold rs; rewrite rev_length; lia). fold m. clearbody rs. rewrite <- map_app.
    set (a := (N.to_nat w - 1)%nat) in *. assert (Am : (a <= m)%nat) by (unfold a, m; lia).
    assert (C : forall (A B : Type) (x y : list A) (r : list B), (length x + length y <= length r)%nat -> combine x r ++ combine y (skipn (length x) r) = combine (x ++ y) r).
    { clear. intros A B x. induction x as [|u x IH]; intros y r H; [reflexivity|]. destruct r as [|v r]; [cbn in H; lia|]. cbn [length skipn combine app]. f_equal. apply IH. cbn in H. lia. }
    rewrite <- LB at 2. rewrite C by (rewrite LB, repeat_length; lia).
    assert (T : forall (A : Type) (x : list A) r, combine x r = combine x (firstn (length x) r) :> list (A * seed_data)).
    { clear. intros A x. induction x as [|u x IH]; intro r; [reflexivity|]. destruct r as [|v r]; [reflexivity|]. cbn [combine length firstn]. rewrite IH. reflexivity. }
    rewrite T. replace (length (bits ++ repeat 0%Z (m - a))) with m by (rewrite app_length, repeat_length; lia).
    replace (bits ++ repeat 0%Z (m - a)) with (map (fun i => if (S i <? N.to_nat w)%nat then Z.of_nat (S i) else 0%Z) (seq 0 m)).
    + generalize (seq 0 m). generalize (firstn m rs). clear. intros r l. revert r. induction l as [|i l IH]; intros [|sd r]; try reflexivity. cbn [map combine]. rewrite IH. reflexivity.
    + replace m with (a + (m - a))%nat at 1 by lia. rewrite seq_app, map_app. f_equal.
      * unfold bits. fold a. rewrite <- seq_shift, map_map. apply map_ext_in. intros i Hi. apply in_seq in Hi. destruct (Nat.ltb_spec (S i) (N.to_nat w)); [reflexivity|unfold a in Hi; lia].
      * cbn [Nat.add]. assert (K : forall n b, (a <= b)%nat -> map (fun i => if (S i <? N.to_nat w)%nat then Z.of_nat (S i) else 0%Z) (seq b n) = repeat 0%Z n).
        { induction n as [|n IH]; intros b Hb; [reflexivity|]. cbn [seq map repeat]. rewrite IH by lia. f_equal. destruct (Nat.ltb_spec (S b) (N.to_nat w)); [unfold a in Hb; lia|reflexivity]. }
        apply K. lia.
Qed.
