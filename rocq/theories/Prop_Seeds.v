(* Properties C58-C59, C68: seeds of the generator tests, evenly spaced data streams, sources of the
   mixer and combiner tests (tool/src/util/test_setups.h, stream_sources.h). *)
From Coq Require Import Sorted.
From Verif Require Import Base BitwiseModel BitwiseSpec StreamModel StreamSpec StreamProofs MixerModel PrngModel PrngSpec SeedModel SeedProofs.
Open Scope N_scope.
Definition primary (sd : seed_data) : N := sd 0%nat.

(* ---- C58 ---- *)
(* The loop ends after at most n iterations, although it may draw values that are there already. *)
Theorem C58_generate_seeds : forall w n, In w widths -> (0 <= n < 2 ^ 31)%Z -> Z.to_N n <= 2 ^ w -> exists seeds,
  (forall fuel, (Z.to_nat n <= fuel)%nat -> generate_seeds w n fuel = Ok (Some seeds)) /\
  (Z.to_nat n <= length seeds)%nat /\ StronglySorted N.lt (map primary seeds) /\ Forall (is_word w) (map primary seeds) /\
  forall t r, (r < N.to_nat w)%nat -> In (permute w 1 (Z.of_nat r) t) (map primary seeds).
Proof.
  intros w n W Hn Hw. destruct (generate_ok w n W Hn Hw) as (seeds & G & A & F & R & L & _). exists seeds. split; [exact G|]. split; [lia|]. split; [exact A|]. split; [exact F|].
  intros t r Hr. apply R. unfold get_rrc_permutations. apply in_flat_map. exists t. split; [destruct t; cbn; tauto|]. apply (in_map (fun rot => permute w 1 rot t)). unfold rots. apply in_map, in_seq. lia.
Qed.
Print Assumptions C58_generate_seeds.
(* The number of seeds: n, or the 2w different permutations of 1 if that is more. *)
Theorem C58_seed_number : forall w n, In w widths -> (0 <= n < 2 ^ 31)%Z -> Z.to_N n <= 2 ^ w -> forall fuel seeds, (Z.to_nat n <= fuel)%nat -> generate_seeds w n fuel = Ok (Some seeds) ->
  N.of_nat (length seeds) = N.max (Z.to_N n) (2 * w).
Proof.
  intros w n W Hn Hw fuel seeds Hf G. destruct (generate_ok w n W Hn Hw) as (seeds' & G' & _ & _ & _ & L & _). rewrite (G' fuel Hf) in G. injection G as <-. rewrite L. f_equal.
  destruct W as [<-|[<-|[<-|[<-|[]]]]]; vm_compute; reflexivity.
Qed.
Print Assumptions C58_seed_number.
(* The secondary words of all the seeds are pairwise different. *)
Theorem C58_secondary_words : forall w n, In w widths -> (0 <= n < 2 ^ 31)%Z -> Z.to_N n <= 2 ^ w -> forall fuel seeds, (Z.to_nat n <= fuel)%nat -> generate_seeds w n fuel = Ok (Some seeds) ->
  forall k k' i i' sd sd', nth_error seeds k = Some sd -> nth_error seeds k' = Some sd' -> (1 <= i <= 3)%nat -> (1 <= i' <= 3)%nat -> sd i = sd' i' -> k = k' /\ i = i'.
Proof.
  intros w n W Hn Hw fuel seeds Hf G k k' i i' sd sd' E E' Hi Hi' Q. pose proof (C58_seed_number w n W Hn Hw fuel seeds Hf G) as L. destruct (generate_ok w n W Hn Hw) as (seeds' & G' & _ & _ & _ & _ & X). rewrite (G' fuel Hf) in G. injection G as <-.
  assert (K : (k < length seeds')%nat) by (apply nth_error_Some; congruence). assert (K' : (k' < length seeds')%nat) by (apply nth_error_Some; congruence).
  destruct i as [|i]; [lia|]. destruct i' as [|i']; [lia|]. rewrite (X k sd i E ltac:(lia)), (X k' sd' i' E' ltac:(lia)) in Q.
  assert (WB : w <= 64) by (destruct W as [<-|[<-|[<-|[<-|[]]]]]; lia).
  unfold wrap in Q. rewrite !N.mod_small in Q by (change (2 ^ 64) with 18446744073709551616; lia). apply mx3_bij in Q; unfold is_word; [lia|change (2 ^ 64) with 18446744073709551616; lia|change (2 ^ 64) with 18446744073709551616; lia].
Qed.
Print Assumptions C58_secondary_words.
(* Finding: asked for more seeds than there are words, or for a negative number, it never ends. *)
Theorem C58_too_many_seeds_refuted : forall w n, In w [8; 16; 32] -> (- 2 ^ 31 <= n < 0 \/ 2 ^ Z.of_N w < n < 2 ^ 31)%Z -> forall fuel, generate_seeds w n fuel = Ok None.
Proof.
  intros w n W H fuel. assert (W' : In w widths) by (cbn in *; tauto). assert (P : (0 < 2 ^ Z.of_N w)%Z) by (apply Z.pow_pos_nonneg; lia). apply generate_forever; [exact W'|lia|lia|]. cbn in W. intros ->. intuition discriminate.
Qed.
Print Assumptions C58_too_many_seeds_refuted.
(* The generator test uses 4w generators, made from 4w seeds whose primary words are non-zero and
   strictly descending, so pairwise distinct, and whose other words are words of 64 bits; the first w-1 streams are rotated by 1, 2, ..., w-1. *)
Theorem C58_prng_setup : forall w, In w widths -> exists seeds, length seeds = (4 * N.to_nat w)%nat /\
  StronglySorted (fun a b => b < a) (map primary seeds) /\ Forall (fun sd => primary sd <> 0 /\ is_word w (primary sd) /\ forall i, (1 <= i <= 3)%nat -> is_word 64 (sd i)) seeds /\
  forall (create_prng : seed_data -> stream N) (value : seed_data -> nat -> N) fuel, (forall sd, delivers (create_prng sd) (value sd)) -> (1024 <= fuel)%nat ->
    exists streams, create_prng_test_setup w create_prng fuel = Ok (Some streams) /\ length streams = (4 * N.to_nat w)%nat /\
    forall i s sd, nth_error streams i = Some s -> nth_error seeds i = Some sd ->
      delivers s (fun j => ror w (value sd j) (if (S i <? N.to_nat w)%nat then Z.of_nat (S i) else 0%Z)).
Proof.
  intros w W. destruct (setup_ok w W) as (seeds & L & S & F & C). exists seeds. split; [exact L|]. split; [exact S|]. split; [eapply Forall_impl; [|exact F]; intros sd (F1 & F2 & F3); split; [exact F1|]; split; [exact F2|]; intros [|i] Hi; [lia|apply F3; lia]|]. intros cp value fuel D Hf. eexists. split; [apply C, Hf|]. split.
  - rewrite map_length, combine_length, seq_length, L. lia.
  - intros i s sd E1 E2. assert (Hi : (i < 4 * N.to_nat w)%nat) by (rewrite <- L; apply nth_error_Some; congruence). rewrite nth_error_map in E1.
    assert (EC : nth_error (combine (seq 0 (4 * N.to_nat w)) seeds) i = Some (i, sd)).
    { clear - E2 Hi L. assert (G : forall (l : list nat) (r : list seed_data) k a b, nth_error l k = Some a -> nth_error r k = Some b -> nth_error (combine l r) k = Some (a, b)).
      { induction l as [|x l IH]; intros r k a b H1 H2; [destruct k; discriminate|]. destruct r as [|y r]; [destruct k; discriminate|]. destruct k as [|k]; cbn in *; [congruence|apply IH; assumption]. }
      apply G; [|exact E2]. rewrite (nth_error_nth' (seq 0 (4 * N.to_nat w)) 0%nat) by (rewrite seq_length; exact Hi). rewrite seq_nth by exact Hi. reflexivity. }
    rewrite EC in E1. cbn [option_map] in E1. injection E1 as <-. apply ror_delivers, D.
Qed.
Print Assumptions C58_prng_setup.
(* An application: each xorshift generator under test gets a seed for which its period is maximal. *)
Theorem C58_xorshift_seeds : forall sd, primary sd <> 0 -> (is_word 32 (primary sd) -> s32 sd 0 <> 0) /\ s64 sd 0 <> 0.
Proof. intros sd H. split; [|exact H]. intros B. unfold s32, wrap. fold (primary sd). rewrite N.mod_small by exact B. exact H. Qed.
Print Assumptions C58_xorshift_seeds.
Example C58_instance : (exists seeds, generate_seeds 8 254 254 = Ok (Some seeds) /\ length seeds = 254%nat) /\
  (exists seeds, generate_seeds 16 1024 1024 = Ok (Some seeds) /\ firstn 4 (map primary seeds) = [1; 2; 4; 8]) /\
  (exists seeds, generate_seeds 64 3 3 = Ok (Some seeds) /\ length seeds = 128%nat).
Proof. repeat split; eexists; (split; [vm_compute; reflexivity|reflexivity]). Qed.

(* ---- C59 ---- *)
(* sample_count streams; stream i delivers the data cyclically from position i * interval. *)
Theorem C59_streams : forall data sample_count, data <> [] -> (0 < sample_count < 2 ^ 31)%Z -> N.of_nat (length data) < 2 ^ 64 -> exists streams,
  create_evenly_seeded_stream data sample_count = Ok streams /\ length streams = Z.to_nat sample_count /\
  forall i s, nth_error streams i = Some s ->
    let start := N.of_nat i * (N.of_nat (length data) / Z.to_N sample_count) in
    start < N.of_nat (length data) /\ delivers s (fun j => nth (N.to_nat (wrap 64 (start + N.of_nat j) mod N.of_nat (length data))) data 0).
Proof.
  intros data sc NE Hsc L. unfold create_evenly_seeded_stream. destruct (Z.leb_spec sc 0); [lia|]. eexists. split; [reflexivity|]. split; [rewrite map_length, seq_length; reflexivity|].
  cbn zeta. intros i s E. set (start := N.of_nat i * (N.of_nat (length data) / Z.to_N sc)). rewrite nth_error_map in E. destruct (nth_error (seq 0 (Z.to_nat sc)) i) as [i'|] eqn:EI; [|discriminate]. cbn [option_map] in E. injection E as <-.
  assert (Hi : (i < Z.to_nat sc)%nat) by (rewrite <- (seq_length (Z.to_nat sc) 0); apply nth_error_Some; congruence). rewrite (nth_error_nth' _ 0%nat) in EI by (rewrite seq_length; exact Hi). rewrite seq_nth in EI by exact Hi. injection EI as <-. cbn [Nat.add].
  set (n := N.of_nat (length data)) in *. assert (NP : 0 < n) by (unfold n; destruct data; [congruence|cbn [length]; lia]).
  assert (B : start < n). { unfold start. pose proof (N.mul_div_le n (Z.to_N sc) ltac:(lia)) as D. revert D. generalize (n / Z.to_N sc). intros q D. destruct (N.eq_dec q 0); [subst; lia|nia]. }
  split; [exact B|]. unfold wrap at 1. fold start. rewrite N.mod_small by lia. apply data_delivers; [exact NE|]. unfold is_word. lia.
Qed.
Print Assumptions C59_streams.
Lemma even_at data sc i s : data <> [] -> (0 < sc < 2 ^ 31)%Z -> N.of_nat (length data) < 2 ^ 64 -> forall streams, create_evenly_seeded_stream data sc = Ok streams -> nth_error streams i = Some s ->
  (i < Z.to_nat sc)%nat /\ (i * N.to_nat (N.of_nat (length data) / Z.to_N sc) < length data)%nat /\
  delivers s (fun j => nth (N.to_nat (wrap 64 (N.of_nat (i * N.to_nat (N.of_nat (length data) / Z.to_N sc) + j)) mod N.of_nat (length data))) data 0).
Proof.
  intros NE Hsc L streams E Ei. destruct (C59_streams data sc NE Hsc L) as (streams' & E' & Ls & D). rewrite E in E'. injection E' as <-. destruct (D i s Ei) as [B Ds].
  assert (Hi : (i < length streams)%nat) by (apply nth_error_Some; congruence). rewrite Ls in Hi. split; [exact Hi|]. split; [lia|]. eapply delivers_ext; [|exact Ds]. intro j. cbn beta. do 4 f_equal. lia.
Qed.
Lemma chunks (n m k : nat) : (n <= m)%nat -> forall data : list N, (k * m <= length data)%nat ->
  data = concat (map (fun p => fst p ++ snd p) (combine (map (fun i => firstn n (skipn (i * m) data)) (seq 0 k)) (map (fun i => firstn (m - n) (skipn (i * m + n) data)) (seq 0 k)))) ++ skipn (k * m) data.
Proof.
  intros Hn data H. induction k as [|k IH]; [reflexivity|]. rewrite seq_S, !map_app. cbn [Nat.add map].
  assert (LC : forall (A B : Type) (a a' : list A) (b b' : list B), length a = length b -> combine (a ++ a') (b ++ b') = combine a b ++ combine a' b').
  { intros A B a. induction a as [|x a IHa]; intros a' [|y b] b' Q; try discriminate Q; [reflexivity|]. cbn [app combine]. rewrite IHa by (injection Q; auto). reflexivity. }
  rewrite LC by (rewrite !map_length; reflexivity). rewrite map_app, concat_app. cbn [combine map concat fst snd]. rewrite app_nil_r, <- app_assoc. rewrite IH at 1 by lia. f_equal.
  assert (SK : forall a b (l : list N), skipn a (skipn b l) = skipn (b + a) l) by (intros a b; induction b as [|b IHb]; intro l; [reflexivity|destruct l; [destruct a; reflexivity|apply IHb]]).
  replace (S k * m)%nat with (k * m + n + (m - n))%nat by lia. rewrite <- (SK (m - n)%nat (k * m + n)%nat), <- (SK n (k * m)%nat), <- app_assoc, firstn_skipn, firstn_skipn. reflexivity.
Qed.
Lemma even_bound_exact data sc : data <> [] -> (0 < sc < 2 ^ 31)%Z -> N.of_nat (length data) < 2 ^ 64 ->
  let interval := N.to_nat (N.of_nat (length data) / Z.to_N sc) in
  forall streams i s s', create_evenly_seeded_stream data sc = Ok streams -> nth_error streams i = Some s -> nth_error streams (S i) = Some s' ->
  exists f, delivers s f /\ delivers s' (fun j => f (interval + j)%nat).
Proof.
  intros NE Hsc L interval streams i s s' E Ei Ei'. destruct (even_at data sc i s NE Hsc L streams E Ei) as (_ & _ & D), (even_at data sc (S i) s' NE Hsc L streams E Ei') as (_ & _ & D').
  eexists. split; [exact D|]. eapply delivers_ext; [|exact D']. intro j. cbn beta. fold interval. do 5 f_equal. lia.
Qed.
Lemma even_no_overlap data sc : data <> [] -> (0 < sc < 2 ^ 31)%Z -> N.of_nat (length data) < 2 ^ 64 ->
  let interval := N.to_nat (N.of_nat (length data) / Z.to_N sc) in
  exists streams, create_evenly_seeded_stream data sc = Ok streams /\
  forall n, (n <= interval)%nat -> exists read unread tail,
    data = concat (map (fun p => fst p ++ snd p) (combine read unread)) ++ tail /\ length read = Z.to_nat sc /\ length unread = Z.to_nat sc /\
    Forall (fun l => length l = n) read /\ Forall (fun l => length l = (interval - n)%nat) unread /\
    forall i s, nth_error streams i = Some s -> forall g, exists s', draw n s g = Ok (nth i read [], s', g).
Proof.
  intros NE Hsc L interval. destruct (C59_streams data sc NE Hsc L) as (streams & E & Ls & _). exists streams. split; [exact E|]. intros n Hn.
  assert (T : (Z.to_nat sc * interval <= length data)%nat).
  { unfold interval. pose proof (N.mul_div_le (N.of_nat (length data)) (Z.to_N sc) ltac:(lia)) as M. revert M. generalize (N.of_nat (length data) / Z.to_N sc). intros q M. nia. }
  assert (I1 : forall i, (i < Z.to_nat sc)%nat -> (i * interval + interval <= length data)%nat).
  { intros i Hi. assert (S i * interval <= Z.to_nat sc * interval)%nat by (apply Nat.mul_le_mono_r; lia). lia. }
  do 3 eexists. split; [apply (chunks n interval (Z.to_nat sc) Hn data T)|]. split; [rewrite map_length, seq_length; reflexivity|]. split; [rewrite map_length, seq_length; reflexivity|]. split; [|split].
  - apply Forall_forall. intros l Hl. apply in_map_iff in Hl. destruct Hl as (i & <- & Hi). apply in_seq in Hi. specialize (I1 i ltac:(lia)). rewrite firstn_length, skipn_length. lia.
  - apply Forall_forall. intros l Hl. apply in_map_iff in Hl. destruct Hl as (i & <- & Hi). apply in_seq in Hi. specialize (I1 i ltac:(lia)). rewrite firstn_length, skipn_length. lia.
  - intros i s Ei g. destruct (even_at data sc i s NE Hsc L streams E Ei) as (Hi & _ & D). fold interval in D. destruct (delivers_draw n s _ g D) as (s' & X & _). exists s'. rewrite X. do 3 f_equal.
    specialize (I1 i Hi). rewrite (nth_indep _ [] (firstn n (skipn (0 * interval) data))) by (rewrite map_length, seq_length; exact Hi).
    rewrite (map_nth (fun i => firstn n (skipn (i * interval) data)) (seq 0 (Z.to_nat sc)) 0%nat i), seq_nth by exact Hi. cbn [Nat.add].
    apply (nth_ext _ _ 0 0); [rewrite map_length, seq_length, firstn_length, skipn_length; lia|]. intros j Hj. rewrite map_length, seq_length in Hj.
    set (h := fun j => nth (N.to_nat (wrap 64 (N.of_nat (i * interval + j)) mod N.of_nat (length data))) data 0). rewrite (nth_indep _ 0 (h 0%nat)) by (rewrite map_length, seq_length; exact Hj).
    rewrite (map_nth h), seq_nth by exact Hj. cbn [Nat.add]. unfold h, wrap. rewrite (N.mod_small _ (2 ^ 64)) by lia. rewrite N.mod_small by lia. rewrite Nat2N.id.
    assert (NF : forall (l : list N) a b, (a < b)%nat -> nth a (firstn b l) 0 = nth a l 0) by (induction l as [|x l IHl]; intros a b Hab; [rewrite firstn_nil; reflexivity|]; destruct b; [lia|]; destruct a; [reflexivity|]; cbn [firstn nth]; apply IHl; lia).
    assert (NS : forall (l : list N) a b, nth a (skipn b l) 0 = nth (b + a) l 0) by (induction l as [|x l IHl]; intros a b; [rewrite skipn_nil; destruct (b + a)%nat, a; reflexivity|]; destruct b; [reflexivity|apply IHl]).
    rewrite NF by exact Hj. rewrite NS. reflexivity.
Qed.
(* What the first n values of each sample are, side by side: for n up to size / sample_count they are
   disjoint pieces of the data, each followed by the values the sample did not get to. *)
Theorem C59_no_overlap : forall data sample_count, data <> [] -> (0 < sample_count < 2 ^ 31)%Z -> N.of_nat (length data) < 2 ^ 64 ->
  let interval := N.to_nat (N.of_nat (length data) / Z.to_N sample_count) in
  exists streams, create_evenly_seeded_stream data sample_count = Ok streams /\
  forall n, (n <= interval)%nat -> exists read unread tail,
    data = concat (map (fun p => fst p ++ snd p) (combine read unread)) ++ tail /\ length read = Z.to_nat sample_count /\ length unread = Z.to_nat sample_count /\
    Forall (fun l => length l = n) read /\ Forall (fun l => length l = (interval - n)%nat) unread /\
    forall i s, nth_error streams i = Some s -> forall g, exists s', draw n s g = Ok (nth i read [], s', g).
Proof. exact even_no_overlap. Qed.
Print Assumptions C59_no_overlap.
(* The bound is exact: one more value is the first value of the following sample. *)
Theorem C59_bound_exact : forall data sample_count, data <> [] -> (0 < sample_count < 2 ^ 31)%Z -> N.of_nat (length data) < 2 ^ 64 ->
  let interval := N.to_nat (N.of_nat (length data) / Z.to_N sample_count) in
  forall streams i s s', create_evenly_seeded_stream data sample_count = Ok streams -> nth_error streams i = Some s -> nth_error streams (S i) = Some s' ->
  exists f, delivers s f /\ delivers s' (fun j => f (interval + j)%nat).
Proof. exact even_bound_exact. Qed.
Print Assumptions C59_bound_exact.
(* The power of two in the warning, 2^floor(log2(interval)), is within the bound and twice that is not;
   likewise for the second warning, about the size of the data. *)
Theorem C59_warning : forall interval n, 0 < interval -> (n <= 2 ^ N.log2 interval -> n <= interval) /\ interval < 2 * 2 ^ N.log2 interval.
Proof. intros interval n H0. pose proof (N.log2_spec interval H0) as [A B]. rewrite N.pow_succ_r' in B. split; lia. Qed.
Print Assumptions C59_warning.
(* Finding: with fewer values than samples all the samples are the same; zero samples divide by zero. *)
Theorem C59_short_data_refuted : forall data sample_count, data <> [] -> (Z.of_nat (length data) < sample_count < 2 ^ 31)%Z -> exists streams f,
  create_evenly_seeded_stream data sample_count = Ok streams /\ length streams = Z.to_nat sample_count /\ forall s, In s streams -> delivers s f.
Proof.
  intros data sc NE H. destruct (C59_streams data sc NE ltac:(lia)) as (streams & E & L & D).
  { change (2 ^ 64) with 18446744073709551616. lia. }
  exists streams, (fun j => nth (N.to_nat (wrap 64 (N.of_nat j) mod N.of_nat (length data))) data 0). split; [exact E|]. split; [exact L|]. intros s Hs. destruct (In_nth_error streams s Hs) as (i & Ei). destruct (D i s Ei) as [_ Ds].
  rewrite (N.div_small (N.of_nat (length data)) (Z.to_N sc)) in Ds by lia. rewrite N.mul_0_r in Ds. exact Ds.
Qed.
Print Assumptions C59_short_data_refuted.
Example C59_instance : exists s0 s1 s2, create_evenly_seeded_stream [10; 11; 12; 13; 14; 15; 16] 3 = Ok [s0; s1; s2] /\
  (r <- draw 2 s0 0 ;; Ok (fst (fst r))) = Ok [10; 11] /\ (r <- draw 2 s1 0 ;; Ok (fst (fst r))) = Ok [12; 13] /\ (r <- draw 4 s2 0 ;; Ok (fst (fst r))) = Ok [14; 15; 16; 10].
Proof. do 3 eexists. split; [reflexivity|]. repeat split. Qed.

(* ---- C68 ---- *)
(* The mixer test feeds 4w streams: every rotation, reversal and complement of the counter 1, 2, 3 ... *)
Theorem C68_sources : forall w, In w widths -> length (create_sources w) = (4 * N.to_nat w)%nat /\
  forall k t r, nth_error rrc_types k = Some t -> (r < N.to_nat w)%nat -> exists s, nth_error (create_sources w) (k * N.to_nat w + r) = Some s /\
    delivers s (fun i => permute w (wrap w (wrap 64 (N.of_nat i + 1))) (Z.of_nat r) t).
Proof.
  intros w W. unfold create_sources. destruct (rrc_sources_spec w [counter_stream w 1 0]) as [L S]. split; [rewrite L; cbn [length]; lia|]. intros k t r Hk Hr.
  destruct (S 0%nat (counter_stream w 1 0) k t r _ eq_refl Hk Hr (counter_delivers w 1 0)) as (s & E & D). exists s. split; [exact E|]. eapply delivers_ext; [|exact D]. intro i. cbn beta. do 3 f_equal. lia.
Qed.
Print Assumptions C68_sources.
(* The combiner test: 3 + 3 * 4w streams.  The first three: x' = c x 0 from 0; c 0 i; c i 0 ... *)
Theorem C68_combiner_first : forall w c, In w widths -> length (create_combiner_sources w c) = (3 + 3 * (4 * N.to_nat w))%nat /\
  exists s0 s1 s2, firstn 3 (create_combiner_sources w c) = [s0; s1; s2] /\
    delivers s0 (fun i => Nat.iter (S i) (fun x => c x 0) 0) /\
    delivers s1 (fun i => c 0 (wrap w (wrap 64 (N.of_nat i + 1)))) /\ delivers s2 (fun i => c (wrap w (wrap 64 (N.of_nat i + 1))) 0).
Proof.
  intros w c W. unfold create_combiner_sources. split.
  - rewrite app_length, map_length, combine_length. destruct (rrc_sources_spec w [counter_stream w 1 1; counter_stream w 1 (2 ^ 32); counter_stream w 1 1]) as [L1 _].
    destruct (rrc_sources_spec w [counter_stream w 1 2; counter_stream w 1 (2 ^ 32); counter_stream w (2 ^ 64 - 1) 1]) as [L2 _]. rewrite L1, L2. cbn [length]. lia.
  - do 3 eexists. split; [reflexivity|]. split; [|split].
    + eapply delivers_ext; [|apply (incremental_delivers 0 (constant_stream 0) c (fun _ => 0)), constant_delivers]. intro i. induction i as [|i IH]; [reflexivity|]. cbn [acc_seq]. rewrite IH. reflexivity.
    + eapply delivers_ext; [|apply combined_delivers; [apply constant_delivers|apply counter_delivers]]. intro i. cbn beta. do 3 f_equal. lia.
    + eapply delivers_ext; [|apply combined_delivers; [apply counter_delivers|apply constant_delivers]]. intro i. cbn beta. f_equal. f_equal. f_equal. lia.
Qed.
Print Assumptions C68_combiner_first.
(* ... then, for each kind and rotation, the pairs (a, b) with a = i + 2 and, in turn, b = a + 1, b = a
   (both counting from 2^32 + 1) and b = 2 - a: both arguments are permuted in the same way. *)
Theorem C68_combiner_pairs : forall w c, In w widths -> forall m k t r, (m < 3)%nat -> nth_error rrc_types k = Some t -> (r < N.to_nat w)%nat ->
  exists s, nth_error (create_combiner_sources w c) (3 + (m * (4 * N.to_nat w) + (k * N.to_nat w + r))) = Some s /\
    delivers s (fun i => let a := (Z.of_nat i + nth m [2; 2 ^ 32 + 1; 2] 0)%Z in let b := nth m [a + 1; a; 2 - a]%Z 0%Z in
      let word z := wrap w (Z.to_N (z mod 2 ^ 64)) in c (permute w (word a) (Z.of_nat r) t) (permute w (word b) (Z.of_nat r) t)).
Proof.
  intros w c W m k t r Hm Hk Hr. unfold create_combiner_sources.
  set (A := [counter_stream w 1 1; counter_stream w 1 (2 ^ 32); counter_stream w 1 1]). set (B := [counter_stream w 1 2; counter_stream w 1 (2 ^ 32); counter_stream w (2 ^ 64 - 1) 1]).
  destruct (rrc_sources_spec w A) as [L1 S1], (rrc_sources_spec w B) as [L2 S2].
  assert (CA : exists sa fa, nth_error A m = Some sa /\ delivers sa fa /\ forall i, fa i = wrap w (Z.to_N ((Z.of_nat i + nth m [2; 2 ^ 32 + 1; 2] 0) mod 2 ^ 64)%Z)).
  { assert (ZM : forall x y, Z.of_N x = y -> wrap w (wrap 64 x) = wrap w (Z.to_N (y mod 2 ^ 64))) by (intros x y <-; unfold wrap; f_equal; change (2 ^ 64)%Z with (Z.of_N (2 ^ 64)); rewrite <- N2Z.inj_mod, N2Z.id; reflexivity).
    destruct m as [|[|[|m]]]; [| | |lia]; do 2 eexists; (split; [reflexivity|]); (split; [apply counter_delivers|]); intro i; cbn [nth]; apply ZM; lia. }
  assert (CB : exists sb fb, nth_error B m = Some sb /\ delivers sb fb /\ forall i, fb i = wrap w (Z.to_N (nth m [Z.of_nat i + nth m [2; 2 ^ 32 + 1; 2] 0 + 1; Z.of_nat i + nth m [2; 2 ^ 32 + 1; 2] 0; 2 - (Z.of_nat i + nth m [2; 2 ^ 32 + 1; 2] 0)] 0 mod 2 ^ 64)%Z)).
  { assert (ZM : forall x y, (Z.of_N x mod 2 ^ 64 = y mod 2 ^ 64)%Z -> wrap w (wrap 64 x) = wrap w (Z.to_N (y mod 2 ^ 64))) by (intros x y <-; unfold wrap; f_equal; change (2 ^ 64)%Z with (Z.of_N (2 ^ 64)); rewrite <- N2Z.inj_mod, N2Z.id; reflexivity).
    destruct m as [|[|[|m]]]; [| | |lia]; do 2 eexists; (split; [reflexivity|]); (split; [apply counter_delivers|]); intro i; cbn [nth]; apply ZM; [f_equal; lia|f_equal; lia|].
    replace (Z.of_N (1 + (N.of_nat i + 1) * (2 ^ 64 - 1)))%Z with (2 - (Z.of_nat i + 2) + (Z.of_nat i + 1) * 2 ^ 64)%Z by lia. apply Z.mod_add. lia. }
  destruct CA as (sa & fa & Ea & Da & Va), CB as (sb & fb & Eb & Db & Vb). destruct (S1 m sa k t r fa Ea Hk Hr Da) as (ra & Ra & DRa), (S2 m sb k t r fb Eb Hk Hr Db) as (rb & Rb & DRb).
  exists (combined_stream ra rb c). split.
  - rewrite nth_error_app2 by (cbn [length]; lia). cbn [length]. replace (3 + (m * (4 * N.to_nat w) + (k * N.to_nat w + r)) - 3)%nat with (m * (4 * N.to_nat w) + (k * N.to_nat w + r))%nat by lia. rewrite nth_error_map.
    assert (G : forall (l r : list (stream N)) k a b, nth_error l k = Some a -> nth_error r k = Some b -> nth_error (combine l r) k = Some (a, b)).
    { induction l as [|x l IH]; intros r0 k0 a b H1 H2; [destruct k0; discriminate|]. destruct r0 as [|y r0]; [destruct k0; discriminate|]. destruct k0 as [|k0]; cbn in *; [congruence|apply IH; assumption]. }
    rewrite (G _ _ _ _ _ Ra Rb). reflexivity.
  - eapply delivers_ext; [|apply combined_delivers; [exact DRa|exact DRb]]. intro i. cbn beta zeta. rewrite Va, Vb. reflexivity.
Qed.
Print Assumptions C68_combiner_pairs.
Example C68_instance : length (create_sources 8) = 32%nat /\ length (create_combiner_sources 32 N.lxor) = 387%nat /\
  exists s, nth_error (create_combiner_sources 8 N.add) (3 + 64) = Some s /\ (r <- draw 3 s 0 ;; Ok (fst (fst r))) = Ok [2; 258; 258].
Proof. split; [vm_compute; reflexivity|]. split; [vm_compute; reflexivity|]. eexists. split; [cbn; reflexivity|vm_compute; reflexivity]. Qed.
