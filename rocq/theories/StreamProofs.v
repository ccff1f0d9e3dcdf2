From Coq Require Import Permutation.
From Verif Require Import Base BitwiseModel BitwiseSpec WordLemmas WordBij BitwiseProofs StreamModel StreamSpec.
Open Scope N_scope.

Definition dv {St T : Type} (step : St -> world -> outcome (T * St * world)) c f :=
  forall n, delivers_n n step c f.

Lemma dv_coind {St T} (step : St -> world -> outcome (T * St * world)) (R : St -> (nat -> T) -> Prop) :
  (forall c f, R c f -> exists c', (forall g, step c g = Ok (f O, c', g)) /\ R c' (fun i => f (S i))) ->
  forall c f, R c f -> dv step c f.
Proof.
  intros H c f HR n. revert c f HR. induction n as [|n IH]; intros c f HR; [exact I|].
  destruct (H c f HR) as (c' & E & HR'). exists c'. split; [exact E|apply IH, HR'].
Qed.

Lemma dv_inv {St T} (step : St -> world -> outcome (T * St * world)) c f : dv step c f ->
  exists c', (forall g, step c g = Ok (f O, c', g)) /\ dv step c' (fun i => f (S i)).
Proof.
  intros H. destruct (H 1%nat) as (c' & E & _). exists c'. split; [exact E|].
  intros n. destruct (H (S n)) as (c2 & E2 & D). specialize (E 0). specialize (E2 0).
  rewrite E in E2. injection E2 as <-. exact D.
Qed.

Lemma dv_ext {St T} (step : St -> world -> outcome (T * St * world)) c f f' :
  (forall i, f i = f' i) -> dv step c f -> dv step c f'.
Proof.
  intros He Hd. apply (dv_coind step (fun c f' => exists f, (forall i, f i = f' i) /\ dv step c f)).
  - intros c0 f0 (f1 & E1 & D1). destruct (dv_inv step c0 f1 D1) as (c' & E & D).
    exists c'. split; [intro g; rewrite E, E1; reflexivity|].
    exists (fun i => f1 (S i)). split; [intro i; apply E1|exact D].
  - exists f. split; assumption.
Qed.

Lemma delivers_ext {T} (s : stream T) f f' : (forall i, f i = f' i) -> delivers s f -> delivers s f'.
Proof. apply dv_ext. Qed.

Definition advance {T} (s : stream T) (c : sstate s) : stream T := mkstream (sstate s) c (sstep s).

Lemma delivers_inv {T} (s : stream T) f : delivers s f ->
  exists c', (forall g, sstep s (scur s) g = Ok (f O, c', g)) /\
             (forall g, call s g = Ok (f O, advance s c', g)) /\
             delivers (advance s c') (fun i => f (S i)).
Proof.
  intros H. destruct (dv_inv (sstep s) (scur s) f H) as (c' & E & D). exists c'.
  split; [exact E|]. split; [|exact D]. intro g. unfold call. rewrite E. reflexivity.
Qed.

Lemma dv_unique {St T} (step : St -> world -> outcome (T * St * world)) c f f' :
  dv step c f -> dv step c f' -> forall i, f i = f' i.
Proof.
  intros H H' i. revert c f f' H H'. induction i as [|i IH]; intros c f f' H H';
    destruct (dv_inv step c f H) as (s1 & E1 & D1), (dv_inv step c f' H') as (s2 & E2 & D2);
    specialize (E1 0); specialize (E2 0); rewrite E1 in E2; injection E2 as E2 E3.
  - exact E2.
  - subst s2. apply (IH s1 (fun i => f (S i)) (fun i => f' (S i))); assumption.
Qed.

Lemma delivers_unique {T} (s : stream T) f f' : delivers s f -> delivers s f' -> forall i, f i = f' i.
Proof. apply dv_unique. Qed.

Lemma delivers_draw {T} n : forall (s : stream T) f g, delivers s f ->
  exists s', draw n s g = Ok (map f (seq 0 n), s', g) /\ delivers s' (fun i => f (n + i)%nat).
Proof.
  induction n as [|n IH]; intros s f g H.
  - exists s. split; [reflexivity|exact H].
  - destruct (delivers_inv s f H) as (c1 & _ & E1 & D1).
    destruct (IH _ (fun i => f (S i)) g D1) as (s2 & E2 & D2).
    exists s2. split.
    + cbn [draw]. rewrite E1. cbn [obind]. rewrite E2. cbn [obind seq map].
      rewrite <- seq_shift, map_map. reflexivity.
    + exact D2.
Qed.

(* ---------- ranged streams ---------- *)

Lemma iter_loop_ok {T} : forall k (s1 : stream T) (v : T) f idx e n g,
  idx + N.of_nat k = e -> e < 2 ^ 64 ->
  delivers s1 f ->
  iter_loop k (mkiter s1 v idx n) e g = Ok (firstn k (v :: map f (seq 0 k)), g).
Proof.
  induction k as [|k IH]; intros s1 v f idx e n g He Hb D.
  - cbn [iter_loop it_index]. destruct (N.eqb_spec idx e); [reflexivity|lia].
  - cbn [iter_loop it_index]. destruct (N.eqb_spec idx e); [lia|].
    destruct (delivers_inv s1 f D) as (c2 & _ & E2 & D2).
    unfold iter_next. cbn [it_s it_index it_n]. rewrite E2. cbn [obind].
    rewrite wrap_id by (unfold is_word; lia).
    rewrite (IH _ (f O) (fun i => f (S i)) (idx + 1) e n g); [|lia|lia|exact D2].
    cbn [obind it_value]. f_equal. f_equal. cbn [firstn seq map]. f_equal.
    destruct k as [|k]; [reflexivity|]. cbn [firstn]. f_equal.
    rewrite <- (seq_shift (S k)), map_map. reflexivity.
Qed.

Lemma range_for_ok {T} (s : stream T) f n g : delivers s f -> n < 2 ^ 64 ->
  range_for (mkranged s n) g = Ok (map f (seq 0 (N.to_nat n)), g).
Proof.
  intros D Hn. unfold range_for, rs_begin, rs_end, iter_new. cbn [rs_s rs_n].
  destruct (delivers_inv s f D) as (c1 & _ & E1 & D1). rewrite !E1. cbn [obind].
  rewrite E1. cbn [obind it_index].
  rewrite (iter_loop_ok (N.to_nat n) _ (f O) (fun i => f (S i)) 0 n n g); [|lia|lia|exact D1].
  f_equal. f_equal. destruct (N.to_nat n) as [|k]; [reflexivity|].
  change (firstn (S k) (f O :: map (fun i => f (S i)) (seq 0 (S k))))
    with (f O :: firstn k (map (fun i => f (S i)) (seq 0 (S k)))).
  change (map f (seq 0 (S k))) with (f O :: map f (seq 1 k)). f_equal.
  rewrite seq_S, map_app, firstn_app, map_length, seq_length, Nat.sub_diag. cbn [firstn].
  rewrite app_nil_r, firstn_all2 by (rewrite map_length, seq_length; lia).
  rewrite <- seq_shift, map_map. reflexivity.
Qed.

(* The shared-index stream is not repeatable. *)
Lemma shared_not_repeatable :
  exists data n g r1 g1 r2 g2,
    range_for (mkranged (shared_data_stream data) n) g = Ok (r1, g1) /\
    range_for (mkranged (shared_data_stream data) n) g1 = Ok (r2, g2) /\ r1 <> r2.
Proof.
  exists [10; 20; 30; 40], 1, 0, [10], 3, [40], 6.
  vm_compute. repeat split; try reflexivity; discriminate.
Qed.

(* ---------- sources ---------- *)

Lemma counter_delivers w inc start :
  delivers (counter_stream w inc start)
    (fun i => wrap w (wrap 64 (start + (N.of_nat i + 1) * inc))).
Proof.
  apply (dv_coind (sstep (counter_stream w inc start)) (fun st f =>
    forall i, f i = wrap w (wrap 64 (st + (N.of_nat i + 1) * inc)))).
  - intros st f Hf. exists (wrap 64 (st + inc)). split.
    + intro g. cbn. rewrite Hf. change (N.of_nat 0 + 1) with 1. rewrite N.mul_1_l. reflexivity.
    + intro i. rewrite Hf. f_equal. rewrite wrap_add_l. f_equal. lia.
  - reflexivity.
Qed.

Lemma constant_delivers c : delivers (constant_stream c) (fun _ => c).
Proof.
  apply (dv_coind (sstep (constant_stream c)) (fun st f => forall i, f i = c)).
  - intros st f Hf. exists st. split; [intro g; rewrite Hf; reflexivity|]. intro i. apply Hf.
  - reflexivity.
Qed.

Lemma at_ok' {A} (l : list A) i d : (i < length l)%nat -> at_ l i = Ok (nth i l d).
Proof. intros H. unfold at_. rewrite (nth_error_nth' l d H). reflexivity. Qed.

Lemma data_delivers data start : data <> [] -> is_word 64 start ->
  delivers (data_stream data start)
    (fun i => nth (N.to_nat (wrap 64 (start + N.of_nat i) mod N.of_nat (length data))) data 0).
Proof.
  intros Hd Hs.
  assert (Hl : N.of_nat (length data) <> 0) by (destruct data; [contradiction|cbn [length]; lia]).
  apply (dv_coind (sstep (data_stream data start)) (fun st f => is_word 64 st /\
    forall i, f i = nth (N.to_nat (wrap 64 (st + N.of_nat i) mod N.of_nat (length data))) data 0)).
  - intros st f (Hst & Hf). exists (wrap 64 (st + 1)). split.
    + intro g. cbn [sstep data_stream].
      destruct (N.eqb_spec (N.of_nat (length data)) 0); [contradiction|].
      rewrite (at_ok' _ _ 0) by (pose proof (N.mod_lt st _ Hl); lia). cbn [obind].
      rewrite Hf. change (N.of_nat 0) with 0. rewrite N.add_0_r, (wrap_id 64 st) by exact Hst. reflexivity.
    + split; [apply wrap_word|]. intro i. rewrite Hf, wrap_add_l.
      f_equal. f_equal. f_equal. f_equal. lia.
  - split; [exact Hs|reflexivity].
Qed.

Lemma data_empty_ub start g : call (data_stream [] start) g = UB.
Proof. reflexivity. Qed.

Lemma map_delivers {A B} (h : A -> B) s f : delivers s f -> delivers (map_stream h s) (fun i => h (f i)).
Proof.
  intros D. apply (dv_coind (sstep (map_stream h s)) (fun c f' => exists f, dv (sstep s) c f /\
    forall i, f' i = h (f i))).
  - intros c f' (f0 & D0 & Hf). destruct (dv_inv _ c f0 D0) as (c1 & E1 & D1).
    exists c1. split.
    + intro g. cbn [map_stream sstep]. rewrite E1. cbn [obind]. rewrite Hf. reflexivity.
    + exists (fun i => f0 (S i)). split; [exact D1|]. intro i. apply Hf.
  - exists f. split; [exact D|reflexivity].
Qed.

Lemma ror_delivers w s f r : delivers s f -> delivers (ror_stream w s r) (fun i => ror w (f i) r).
Proof.
  intros D. unfold ror_stream. destruct (Z.eqb_spec r 0) as [->|Hr].
  - apply (delivers_ext s f); [|exact D]. intro i. rewrite ror_rol_neg.
    change (- 0)%Z with 0%Z. symmetry. apply rol_0.
  - apply (map_delivers (fun v => ror w v r)), D.
Qed.

Lemma combined_delivers a b c fa fb : delivers a fa -> delivers b fb ->
  delivers (combined_stream a b c) (fun i => c (fa i) (fb i)).
Proof.
  intros Da Db. apply (dv_coind (sstep (combined_stream a b c)) (fun st f => exists fa fb,
    dv (sstep a) (fst st) fa /\ dv (sstep b) (snd st) fb /\ forall i, f i = c (fa i) (fb i))).
  - intros (ca, cb) f (fa0 & fb0 & Ha & Hb & Hf). cbn [fst snd] in *.
    destruct (dv_inv _ _ _ Ha) as (a1 & Ea & Ha1), (dv_inv _ _ _ Hb) as (b1 & Eb & Hb1).
    exists (a1, b1). split.
    + intro g. cbn [combined_stream sstep fst snd]. rewrite Ea. cbn [obind].
      rewrite Eb. cbn [obind]. rewrite Hf. reflexivity.
    + exists (fun i => fa0 (S i)), (fun i => fb0 (S i)).
      split; [exact Ha1|]. split; [exact Hb1|]. intro i. apply Hf.
  - exists fa, fb. repeat split; assumption.
Qed.

Lemma acc_seq_shift c seed f i : acc_seq c seed f (S i) = acc_seq c (c seed (f O)) (fun k => f (S k)) i.
Proof. induction i as [|i IH]; [reflexivity|]. cbn [acc_seq] in *. rewrite IH. reflexivity. Qed.

Lemma incremental_delivers seed s c f : delivers s f ->
  delivers (combined_incremental_stream seed s c) (acc_seq c seed f).
Proof.
  intros D. apply (dv_coind (sstep (combined_incremental_stream seed s c)) (fun st f' => exists f,
    dv (sstep s) (snd st) f /\ forall i, f' i = acc_seq c (fst st) f i)).
  - intros (x, c0) f' (f0 & D0 & Hf). cbn [fst snd] in *. destruct (dv_inv _ _ _ D0) as (c1 & E1 & D1).
    exists (c x (f0 O), c1). split.
    + intro g. cbn [combined_incremental_stream sstep fst snd]. rewrite E1. cbn [obind].
      rewrite Hf. reflexivity.
    + exists (fun i => f0 (S i)). split; [exact D1|]. intro i. rewrite Hf. apply acc_seq_shift.
  - exists f. split; [exact D|reflexivity].
Qed.

Lemma prng_from_mixer_delivers mix seed :
  delivers (prng_from_mixer mix seed) (fun i => Nat.iter (S i) mix seed).
Proof.
  apply (dv_coind (sstep (prng_from_mixer mix seed)) (fun x f => forall i, f i = Nat.iter (S i) mix x)).
  - intros x f Hf. exists (mix x). split; [intro g; rewrite Hf; reflexivity|].
    intro i. rewrite Hf. rewrite (iter_S_r (S i)). reflexivity.
  - reflexivity.
Qed.

(* ---------- bit isolation ---------- *)

Lemma word_of_bits_bound n b : word_of_bits n b < 2 ^ N.of_nat n.
Proof.
  induction n as [|n IH]; cbn [word_of_bits]; [cbn; lia|].
  rewrite Nat2N.inj_succ, N.pow_succ_r'. destruct (b n); lia.
Qed.

Lemma word_of_bits_bit n b i : N.testbit (word_of_bits n b) i =
  (i <? N.of_nat n) && b (N.to_nat i).
Proof.
  induction n as [|n IH]; cbn [word_of_bits].
  - rewrite N.bits_0. destruct (N.ltb_spec i (N.of_nat 0)); [lia|reflexivity].
  - pose proof (word_of_bits_bound n b : is_word (N.of_nat n) (word_of_bits n b)) as Hw.
    assert (HL : word_of_bits n b + (if b n then 2 ^ N.of_nat n else 0) =
                 N.lor (word_of_bits n b) (if b n then 2 ^ N.of_nat n else 0)).
    { destruct (b n); [|rewrite N.add_0_r, N.lor_0_r; reflexivity].
      rewrite <- N.lxor_lor; [apply N.add_nocarry_lxor|];
      apply N.bits_inj_0; intro k; rewrite N.land_spec;
      (destruct (N.eq_dec k (N.of_nat n)) as [->|Hk];
        [rewrite (word_high _ _ _ Hw) by lia; reflexivity
        |rewrite N.pow2_bits_false by lia; apply andb_false_r]). }
    rewrite HL, N.lor_spec, IH.
    destruct (N.ltb_spec i (N.of_nat n)) as [H|H].
    + destruct (N.ltb_spec i (N.of_nat (S n))); [|lia]. cbn [andb].
      destruct (b n); [rewrite N.pow2_bits_false by lia|rewrite N.bits_0]; apply orb_false_r.
    + cbn [andb orb]. destruct (N.ltb_spec i (N.of_nat (S n))) as [H2|H2]; cbn [andb].
      * replace i with (N.of_nat n) by lia. rewrite Nat2N.id.
        destruct (b n); [apply N.pow2_bits_true|apply N.bits_0].
      * destruct (b n); [apply N.pow2_bits_false; lia|apply N.bits_0].
Qed.

Lemma word_of_bits_word n b : is_word (N.of_nat n) (word_of_bits n b).
Proof.
  apply word_of_high. intros i Hi. rewrite word_of_bits_bit.
  destruct (N.ltb_spec i (N.of_nat n)); [lia|reflexivity].
Qed.

Lemma mask_test w v bit : bit < w -> (N.land v (wrap w (N.shiftl 1 bit)) =? 0) = negb (N.testbit v bit).
Proof.
  intros Hb.
  assert (E : N.land v (wrap w (N.shiftl 1 bit)) = if N.testbit v bit then 2 ^ bit else 0).
  { rewrite N.shiftl_1_l, wrap_id by (unfold is_word; apply N.pow_lt_mono_r; lia).
    apply N.bits_inj. intro i. rewrite N.land_spec.
    destruct (N.eq_dec i bit) as [->|Hi].
    - rewrite N.pow2_bits_true, andb_true_r. destruct (N.testbit v bit) eqn:E;
        [rewrite N.pow2_bits_true|rewrite N.bits_0]; congruence.
    - rewrite N.pow2_bits_false by lia. rewrite andb_false_r.
      destruct (N.testbit v bit); [rewrite N.pow2_bits_false by lia|rewrite N.bits_0]; reflexivity. }
  rewrite E. pose proof (pow2_ne0 bit). destruct (N.testbit v bit); destruct (N.eqb_spec (2 ^ bit) 0);
    try reflexivity; contradiction.
Qed.

Lemma word_of_bits_snoc f bit k :
  (if N.testbit (f k) bit
   then N.lor (word_of_bits k (fun j => N.testbit (f j) bit)) (N.shiftl 1 (N.of_nat k))
   else word_of_bits k (fun j => N.testbit (f j) bit))
  = word_of_bits (S k) (fun j => N.testbit (f j) bit).
Proof.
  apply N.bits_inj. intro i. rewrite (word_of_bits_bit (S k)).
  destruct (N.testbit (f k) bit) eqn:Ek.
  - rewrite N.lor_spec, word_of_bits_bit, N.shiftl_1_l.
    destruct (N.ltb_spec i (N.of_nat k)) as [H|H], (N.ltb_spec i (N.of_nat (S k))) as [H2|H2];
      cbn [andb orb]; try lia.
    + rewrite N.pow2_bits_false by lia. apply orb_false_r.
    + replace i with (N.of_nat k) by lia. rewrite N.pow2_bits_true, Nat2N.id. congruence.
    + apply N.pow2_bits_false. lia.
  - rewrite word_of_bits_bit.
    destruct (N.ltb_spec i (N.of_nat k)) as [H|H], (N.ltb_spec i (N.of_nat (S k))) as [H2|H2];
      cbn [andb orb]; try lia; try reflexivity.
    replace i with (N.of_nat k) by lia. rewrite Nat2N.id. congruence.
Qed.

Lemma isolate_loop_ok {St} (step : St -> world -> outcome (N * St * world)) w bit f : bit < w ->
  forall n k c, dv step c (fun i => f (k + i)%nat) ->
  exists c', (forall g, isolate_loop step (wrap w (N.shiftl 1 bit)) (map N.of_nat (seq k n))
     (word_of_bits k (fun j => N.testbit (f j) bit)) c g
    = Ok (word_of_bits (k + n) (fun j => N.testbit (f j) bit), c', g)) /\
    dv step c' (fun i => f (k + n + i)%nat).
Proof.
  intros Hb. induction n as [|n IH]; intros k c D1.
  - exists c. rewrite Nat.add_0_r. split; [reflexivity|exact D1].
  - destruct (dv_inv _ _ _ D1) as (c2 & E2 & D2). cbn beta in E2. rewrite Nat.add_0_r in E2.
    destruct (IH (S k) c2) as (c3 & E3 & D3).
    { eapply dv_ext; [|exact D2]. intro i. cbn beta. f_equal. lia. }
    exists c3. replace (k + S n)%nat with (S k + n)%nat by lia. split; [|exact D3].
    intro g. cbn [seq map isolate_loop]. rewrite E2. cbn [obind].
    rewrite mask_test by exact Hb. rewrite <- E3, <- word_of_bits_snoc.
    destruct (N.testbit (f k) bit); reflexivity.
Qed.

Lemma isolate_ok {St} (step : St -> world -> outcome (N * St * world)) w bit f c :
  0 < w <= 64 -> bit < w -> dv step c f ->
  exists c', (forall g, isolate_bit step w (Z.of_N bit) c g =
     Ok (word_of_bits (N.to_nat w) (fun j => N.testbit (f j) bit), c', g)) /\
     dv step c' (fun i => f (N.to_nat w + i)%nat).
Proof.
  intros Hw Hb D. unfold isolate_bit.
  destruct ((Z.of_N bit <? 0) || (64 <=? Z.of_N bit))%Z eqn:E; [lia|]. rewrite N2Z.id.
  exact (isolate_loop_ok step w bit f Hb (N.to_nat w) O c D).
Qed.

Lemma isolate_by_ref_ok w bit (s : stream N) f g : 0 < w <= 64 -> bit < w -> delivers s f ->
  exists s', isolate_bit_by_ref w s (Z.of_N bit) g =
     Ok (word_of_bits (N.to_nat w) (fun j => N.testbit (f j) bit), s', g) /\
     delivers s' (fun i => f (N.to_nat w + i)%nat).
Proof.
  intros Hw Hb D. unfold isolate_bit_by_ref.
  destruct (isolate_ok (sstep s) w bit f (scur s) Hw Hb D) as (c' & E & D').
  rewrite E. cbn [obind]. eexists. split; [reflexivity|exact D'].
Qed.

Lemma isolation_delivers w bit s f : 0 < w <= 64 -> bit < w -> delivers s f ->
  delivers (bit_isolation_stream w s (Z.of_N bit))
    (fun i => word_of_bits (N.to_nat w) (fun j => N.testbit (f (i * N.to_nat w + j)%nat) bit)).
Proof.
  intros Hw Hb D.
  apply (dv_coind (sstep (bit_isolation_stream w s (Z.of_N bit))) (fun c f' => exists f, dv (sstep s) c f /\
    forall i, f' i = word_of_bits (N.to_nat w) (fun j => N.testbit (f (i * N.to_nat w + j)%nat) bit))).
  - intros c f' (f0 & D0 & Hf).
    destruct (isolate_ok (sstep s) w bit f0 c Hw Hb D0) as (c1 & E1 & D1).
    exists c1. split.
    + intro g. cbn [bit_isolation_stream sstep]. rewrite E1, Hf. reflexivity.
    + exists (fun i => f0 (N.to_nat w + i)%nat). split; [exact D1|].
      intro i. rewrite Hf.
      replace (fun j => N.testbit (f0 (S i * N.to_nat w + j)%nat) bit) with
        (fun j => N.testbit (f0 (S i * N.to_nat w + j)%nat) bit) by reflexivity.
      assert (Hext : forall n b b', (forall j, b j = b' j) -> word_of_bits n b = word_of_bits n b').
      { clear. induction n as [|n IH]; intros b b' H; [reflexivity|]. cbn [word_of_bits].
        rewrite (IH b b' H), H. reflexivity. }
      apply Hext. intro j. f_equal. f_equal. lia.
  - exists f. split; [exact D|reflexivity].
Qed.

(* ---------- rotate / reverse / complement ---------- *)

Lemma bnot_word w c : is_word w (bnot w c).
Proof. apply wrap_word. Qed.

Lemma bnot_bit w c i : 0 < w -> is_word w c -> i < w -> N.testbit (bnot w c) i = negb (N.testbit c i).
Proof.
  intros Hw Hc Hi. unfold bnot. rewrite (wrap_id w c Hc).
  rewrite wrap_id by (unfold is_word; pose proof (pow2_pos w); lia).
  replace (2 ^ w - 1) with (N.ones w) by (rewrite N.ones_equiv; lia).
  assert (Hlog : N.log2 c < w).
  { destruct (N.eq_dec c 0) as [->|Hc0]; [cbn; lia|]. apply N.log2_lt_pow2; [lia|exact Hc]. }
  rewrite <- N.lnot_sub_low by exact Hlog. apply N.lnot_spec_low, Hi.
Qed.

Lemma bnot_involutive w c : 0 < w -> is_word w c -> bnot w (bnot w c) = c.
Proof.
  intros Hw Hc. apply (word_ext w); [apply bnot_word|exact Hc|]. intros i Hi.
  rewrite !bnot_bit by (assumption || apply bnot_word). apply negb_involutive.
Qed.

Lemma permute_bits w c rot t : In w widths -> is_word w c ->
  is_word w (permute w c rot t) /\
  forall i, i < w -> N.testbit (permute w c rot t) i =
    xorb (complements t)
      (N.testbit c (let j := Z.to_N ((Z.of_N i + rot) mod Z.of_N w) in
                    if mirrors t then w - 1 - j else j)).
Proof.
  intros Hw Hc. pose proof (widths_pos w Hw) as Hp.
  assert (Hj : forall i, i < w -> Z.to_N ((Z.of_N i + rot) mod Z.of_N w) < w).
  { intros i Hi. pose proof (Z.mod_pos_bound (Z.of_N i + rot) (Z.of_N w)). lia. }
  destruct (reverse_bits_moves w c Hw Hc) as [Rw Rb].
  destruct t; cbn [permute mirrors complements].
  - destruct (ror_moves w c rot Hp Hc) as [A B]. split; [exact A|].
    intros i Hi. rewrite (B i Hi), xorb_false_l. reflexivity.
  - destruct (ror_moves w _ rot Hp Rw) as [A B]. split; [exact A|].
    intros i Hi. rewrite (B i Hi), xorb_false_l. cbv zeta. rewrite Rb by (apply Hj, Hi). reflexivity.
  - destruct (ror_moves w _ rot Hp (bnot_word w c)) as [A B]. split; [exact A|].
    intros i Hi. rewrite (B i Hi), xorb_true_l. cbv zeta.
    rewrite bnot_bit by (assumption || apply Hj, Hi). reflexivity.
  - destruct (ror_moves w _ rot Hp (bnot_word w (reverse_bits w c))) as [A B]. split; [exact A|].
    intros i Hi. rewrite (B i Hi), xorb_true_l. cbv zeta.
    rewrite bnot_bit by (assumption || apply Hj, Hi). rewrite Rb by (apply Hj, Hi). reflexivity.
Qed.

Lemma permute_bijection w rot t : In w widths -> word_bijection w (fun c => permute w c rot t).
Proof.
  intros Hw. pose proof (widths_pos w Hw) as Hp.
  assert (Hr : word_bijection w (fun c => ror w c rot)).
  { apply (bij_intro w _ (fun c => rol w c rot)); intros x Hx.
    - apply ror_word; assumption.
    - apply rol_word; assumption.
    - apply rol_ror_id; assumption.
    - apply ror_rol_id; assumption. }
  assert (Hv : word_bijection w (reverse_bits w)).
  { apply (bij_intro w _ (reverse_bits w)); intros x Hx;
      try (apply reverse_bits_word; assumption); apply reverse_bits_involutive; assumption. }
  assert (Hn : word_bijection w (bnot w)).
  { apply (bij_intro w _ (bnot w)); intros x Hx;
      try (apply bnot_word); apply bnot_involutive; assumption. }
  destruct t; cbn [permute].
  - exact Hr.
  - exact (bij_comp w _ _ Hv Hr).
  - exact (bij_comp w _ _ Hn Hr).
  - exact (bij_comp w _ _ (bij_comp w _ _ Hv Hn) Hr).
Qed.

Lemma rots_length w : length (rots w) = N.to_nat w.
Proof. unfold rots. rewrite map_length, seq_length. reflexivity. Qed.

Lemma nth_rots w r : (r < N.to_nat w)%nat -> nth r (rots w) 0%Z = Z.of_nat r.
Proof.
  intros H. unfold rots. change 0%Z with (Z.of_nat 0). rewrite map_nth, seq_nth by exact H. reflexivity.
Qed.

Lemma nth_error_flat_map {A B} (f : A -> list B) m (l : list A) k r a :
  (forall x, In x l -> length (f x) = m) -> (r < m)%nat -> nth_error l k = Some a ->
  nth_error (flat_map f l) (k * m + r) = nth_error (f a) r.
Proof.
  revert k. induction l as [|x l IH]; intros [|k] Hl Hr Ha; cbn [nth_error] in Ha; try discriminate Ha.
  - injection Ha as ->. cbn [flat_map Nat.mul Nat.add]. apply nth_error_app1.
    rewrite Hl by (left; reflexivity). exact Hr.
  - cbn [flat_map]. rewrite nth_error_app2 by (rewrite Hl by (left; reflexivity); cbn; lia).
    rewrite Hl by (left; reflexivity). replace (S k * m + r - m)%nat with (k * m + r)%nat by (cbn; lia).
    apply IH; auto. intros y Hy. apply Hl. right. exact Hy.
Qed.

Lemma nth_error_rots w r : (r < N.to_nat w)%nat -> nth_error (rots w) r = Some (Z.of_nat r).
Proof.
  intros H. rewrite (nth_error_nth' _ 0%Z) by (rewrite rots_length; exact H).
  rewrite nth_rots by exact H. reflexivity.
Qed.

Lemma rrc_permutations_spec w x :
  length (get_rrc_permutations w x) = (4 * N.to_nat w)%nat /\
  forall k t r, nth_error rrc_types k = Some t -> (r < N.to_nat w)%nat ->
    nth_error (get_rrc_permutations w x) (k * N.to_nat w + r) = Some (permute w x (Z.of_nat r) t).
Proof.
  split.
  - unfold get_rrc_permutations. rewrite (flat_map_const_length _ (N.to_nat w)); [reflexivity|].
    intro t. rewrite map_length. apply rots_length.
  - intros k t r Hk Hr. unfold get_rrc_permutations.
    rewrite (nth_error_flat_map _ (N.to_nat w) _ _ _ t); [|intros; rewrite map_length; apply rots_length|exact Hr|exact Hk].
    rewrite nth_error_map, nth_error_rots by exact Hr. reflexivity.
Qed.

Lemma rrc_sources_spec w sources :
  length (create_rrc_sources w sources) = (length sources * (4 * N.to_nat w))%nat /\
  forall m s k t r f, nth_error sources m = Some s -> nth_error rrc_types k = Some t ->
    (r < N.to_nat w)%nat -> delivers s f ->
    exists s', nth_error (create_rrc_sources w sources) (m * (4 * N.to_nat w) + (k * N.to_nat w + r)) = Some s'
      /\ delivers s' (fun i => permute w (f i) (Z.of_nat r) t).
Proof.
  assert (L : forall s, length (flat_map (fun type => map (fun rot => add_rrc w s rot type) (rots w)) rrc_types)
              = (4 * N.to_nat w)%nat).
  { intro s. rewrite (flat_map_const_length _ (N.to_nat w)); [reflexivity|].
    intro t. rewrite map_length. apply rots_length. }
  split.
  - unfold create_rrc_sources. apply flat_map_const_length. exact L.
  - intros m s k t r f Hm Hk Hr D. unfold create_rrc_sources.
    assert (Hk4 : (k < 4)%nat).
    { change 4%nat with (length rrc_types). apply nth_error_Some. rewrite Hk. discriminate. }
    rewrite (nth_error_flat_map _ (4 * N.to_nat w) _ _ _ s); [|intros; apply L|nia|exact Hm].
    rewrite (nth_error_flat_map _ (N.to_nat w) _ _ _ t); [|intros; rewrite map_length; apply rots_length|exact Hr|exact Hk].
    rewrite nth_error_map, nth_error_rots by exact Hr.
    eexists. split; [reflexivity|]. apply (map_delivers (fun v => permute w v (Z.of_nat r) t)), D.
Qed.

(* ---------- pair data ---------- *)

Lemma serial_xy_ok {D} (resc : N -> D) n : forall s f g, delivers s f ->
  exists s', create_serial_xy_by_ref resc n s g =
    Ok (map (fun i => resc (f (2 * i)%nat)) (seq 0 n), map (fun i => resc (f (2 * i + 1)%nat)) (seq 0 n), s', g)
    /\ delivers s' (fun i => f (2 * n + i)%nat).
Proof.
  induction n as [|n IH]; intros s f g Hd.
  - exists s. split; [reflexivity|exact Hd].
  - destruct (delivers_inv s f Hd) as (c1 & _ & E1 & D1).
    destruct (delivers_inv _ _ D1) as (c2 & _ & E2 & D2).
    destruct (IH _ _ g D2) as (s3 & E3 & D3). exists s3. split.
    + cbn [create_serial_xy_by_ref]. rewrite E1. cbn [obind]. rewrite E2. cbn [obind].
      rewrite E3. cbn [obind seq map]. f_equal. f_equal. f_equal. f_equal.
      * f_equal. rewrite <- seq_shift, map_map. apply map_ext. intro i. f_equal. f_equal. lia.
      * f_equal. rewrite <- seq_shift, map_map. apply map_ext. intro i. f_equal. f_equal. lia.
    + eapply delivers_ext; [|exact D3]. intro i. cbn beta. f_equal. lia.
Qed.

(* Value of a w-bit word with one bit flipped. *)
Lemma flip_bit_value w v b : 0 < w <= 64 -> is_word w v -> b < w ->
  flip_bit w v (Z.of_N b) = Ok (N.lxor v (2 ^ b)).
Proof.
  intros Hw Hv Hb. destruct (flip_bit_spec w v b Hw Hv Hb) as (u & E & Hu & Hbits).
  rewrite E. f_equal. apply N.bits_inj. intro i. rewrite Hbits, N.lxor_spec.
  destruct (N.eqb_spec i b) as [->|Hi].
  - rewrite N.pow2_bits_true, xorb_true_r. reflexivity.
  - rewrite N.pow2_bits_false by lia. rewrite xorb_false_r. reflexivity.
Qed.

Lemma bit_flipped_ok {D} w (resc : N -> D) mix n : 0 < w <= 64 ->
  (forall x, is_word w (mix x)) -> forall s f g, delivers s f ->
  create_bit_flipped_xy w resc n s mix g =
    Ok (flat_map (fun i => map (fun b => resc (mix (f i))) (seq 0 (N.to_nat w))) (seq 0 n),
        flat_map (fun i => map (fun b => resc (mix (N.lxor (mix (f i)) (2 ^ N.of_nat b)))) (seq 0 (N.to_nat w))) (seq 0 n),
        g).
Proof.
  intros Hw Hm. unfold create_bit_flipped_xy. induction n as [|n IH]; intros s f g Hd; [reflexivity|].
  cbn [bit_flipped_loop]. destruct (delivers_inv s f Hd) as (c1 & _ & E1 & D1).
  rewrite E1. cbn [obind].
  assert (HF : omapM (fun bit => flip_bit w (mix (f O)) bit) (rots w) =
               Ok (map (fun b => N.lxor (mix (f O)) (2 ^ N.of_nat b)) (seq 0 (N.to_nat w)))).
  { unfold rots. rewrite (omapM_ok _ (fun z => N.lxor (mix (f O)) (2 ^ Z.to_N z))).
    - rewrite map_map. f_equal. apply map_ext. intro b. f_equal. f_equal. lia.
    - intros z Hz. apply in_map_iff in Hz. destruct Hz as (b & <- & Hb). apply in_seq in Hb.
      rewrite <- nat_N_Z. rewrite flip_bit_value by (auto; lia). rewrite N2Z.id. reflexivity. }
  rewrite HF. cbn [obind]. rewrite (IH _ _ g D1). cbn [obind seq flat_map].
  rewrite !map_map. rewrite <- seq_shift. rewrite !flat_map_concat_map, !map_map. reflexivity.
Qed.

(* ---------- concurrent use ---------- *)

Definition data_at (data : list N) (j : N) : N :=
  nth (N.to_nat (j mod N.of_nat (length data))) data 0.

Lemma at_data data j v : at_ data (N.to_nat (j mod N.of_nat (length data))) = Ok v -> v = data_at data j.
Proof.
  unfold at_, data_at. intros H.
  destruct (nth_error data _) as [u|] eqn:E; [|discriminate H]. injection H as <-.
  symmetry. apply nth_error_nth, E.
Qed.

Lemma shared_perm data k s s' : shared_steps data k s s' -> is_word 64 (sh_index s) ->
  sh_index s' = wrap 64 (sh_index s + N.of_nat k) /\
  Permutation (map (fun p => data_at data (snd p)) (sh_pending s') ++ map snd (sh_returned s'))
    ((map (fun p => data_at data (snd p)) (sh_pending s) ++ map snd (sh_returned s)) ++
     map (fun i => data_at data (wrap 64 (sh_index s + N.of_nat i))) (seq 0 k)).
Proof.
  intros H. induction H as [s|k i p r t s3 H IH|k i p1 p2 r t j v s3 Hv H IH]; intros Hw.
  - change (N.of_nat 0) with 0. rewrite N.add_0_r, wrap_id by exact Hw. split; [reflexivity|].
    cbn [seq map]. rewrite app_nil_r. reflexivity.
  - cbn [sh_index sh_pending sh_returned] in *. destruct IH as (I1 & I2); [apply wrap_word|].
    split.
    + rewrite I1, wrap_add_l. f_equal. lia.
    + rewrite I2. cbn [seq map snd fst app]. change (N.of_nat 0) with 0.
      rewrite N.add_0_r, (wrap_id 64 i Hw). rewrite <- seq_shift, map_map.
      rewrite (map_ext (fun i0 => data_at data (wrap 64 (wrap 64 (i + 1) + N.of_nat i0)))
                       (fun x => data_at data (wrap 64 (i + N.of_nat (S x))))).
      2:{ intro a. rewrite wrap_add_l. f_equal. f_equal. lia. }
      apply Permutation_middle.
  - cbn [sh_index sh_pending sh_returned] in *. destruct IH as (I1 & I2); [exact Hw|].
    split; [exact I1|]. rewrite I2. apply at_data in Hv. subst v. apply Permutation_app_tail.
    rewrite !map_app. cbn [map snd]. rewrite <- !app_assoc. apply Permutation_app_head.
    cbn [app]. rewrite <- Permutation_middle. reflexivity.
Qed.

Lemma shared_all_returned data k g g' r : is_word 64 g ->
  shared_steps data k (mkshared g [] []) (mkshared g' [] r) ->
  g' = wrap 64 (g + N.of_nat k) /\
  Permutation (map snd r)
    (map (fun i => nth (N.to_nat (wrap 64 (g + N.of_nat i) mod N.of_nat (length data))) data 0) (seq 0 k)).
Proof.
  intros Hg H. apply shared_perm in H; [|exact Hg].
  cbn [sh_index sh_pending sh_returned map app] in H. exact H.
Qed.

(* One caller alone gets the data in order, starting at the shared index. *)
Lemma shared_sequential data n : data <> [] -> forall g, is_word 64 g ->
  exists s', draw n (shared_data_stream data) g =
    Ok (map (fun i => nth (N.to_nat (wrap 64 (g + N.of_nat i) mod N.of_nat (length data))) data 0) (seq 0 n),
        s', wrap 64 (g + N.of_nat n)).
Proof.
  intros Hd.
  assert (Hl : N.of_nat (length data) <> 0) by (destruct data; [contradiction|cbn [length]; lia]).
  induction n as [|n IH]; intros g Hg.
  - exists (shared_data_stream data). cbn [draw]. change (N.of_nat 0) with 0.
    rewrite N.add_0_r, wrap_id by exact Hg. reflexivity.
  - destruct (IH (wrap 64 (g + 1)) (wrap_word _ _)) as (s' & E). exists s'. cbn [draw].
    replace (call (shared_data_stream data) g) with
      (Ok (nth (N.to_nat (g mod N.of_nat (length data))) data 0, shared_data_stream data, wrap 64 (g + 1))).
    2:{ unfold call, shared_data_stream. cbn [sstep scur sstate].
        destruct (N.eqb_spec (N.of_nat (length data)) 0); [contradiction|].
        rewrite (at_ok' _ _ 0) by (pose proof (N.mod_lt g _ Hl); lia). reflexivity. }
    cbn [obind]. rewrite E. cbn [obind seq map]. change (N.of_nat 0) with 0.
    rewrite N.add_0_r, (wrap_id 64 g Hg), wrap_add_l. rewrite <- seq_shift, map_map.
    replace (g + 1 + N.of_nat n) with (g + N.of_nat (S n)) by lia.
    do 4 f_equal. apply map_ext. intro a. rewrite wrap_add_l.
    f_equal. f_equal. f_equal. f_equal. lia.
Qed.
