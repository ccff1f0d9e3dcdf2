From Coq Require Import String FinFun Znumtheory.
From Verif Require Import Base BitwiseModel BitwiseSpec WordLemmas WordBij BitwiseProofs StreamModel StreamSpec
  MixerModel MixerProofs PrngModel PrngSpec PeriodProofs LinearProofs.
Open Scope N_scope.

(* ---------- generators as streams ---------- *)
Lemma stream_of_gen_delivers g sd : delivers (stream_of_gen g sd) (fun i => output g sd (N.of_nat i)).
Proof.
  intro n.
  assert (H : forall n c f, (forall i, f i = fst (gnext g (Nat.iter i (fun s => snd (gnext g s)) c))) ->
    delivers_n n (sstep (stream_of_gen g sd)) c f).
  { clear n. induction n as [|n IH]; intros c f Hf; cbn [delivers_n]; [exact I|].
    exists (snd (gnext g c)). split.
    - intro w. cbn [stream_of_gen sstep]. rewrite (Hf 0%nat). cbn [Nat.iter nat_rect].
      destruct (gnext g c) as [v s']. reflexivity.
    - apply IH. intro i. rewrite Hf, iter_S_r. reflexivity. }
  apply H. intro i. unfold output, state_at. rewrite Nat2N.id. reflexivity.
Qed.

(* ---------- affine generators ---------- *)
Lemma aff_orbit_bij a c w s0 : a mod 4 = 1 -> N.odd c = true -> is_word w s0 ->
  word_bijection w (fun i => Nat.iter (N.to_nat i) (fun s => wrap w (aff a c s)) s0).
Proof.
  intros Ha Hc Hs. set (F := fun i => Nat.iter (N.to_nat i) (fun s => wrap w (aff a c s)) s0).
  assert (HF : forall i, is_word w (F i)).
  { intro i. unfold F. destruct (N.to_nat i) as [|k]; [exact Hs|]. cbn. apply wrap_word. }
  assert (HE : forall i, F i = wrap w (Nat.iter (N.to_nat i) (aff a c) s0)).
  { intro i. rewrite <- (wrap_id w (F i)) by apply HF. apply iter_wrap_aff. }
  assert (G : forall i j, i < j -> is_word w j -> F i <> F j).
  { intros i j Hij Hj E. rewrite !HE in E.
    replace (N.to_nat j) with (N.to_nat (j - i) + N.to_nat i)%nat in E by lia.
    rewrite iter_add in E. symmetry in E. revert E. apply aff_no_return; auto; [lia|].
    rewrite N2Nat.id. unfold is_word in Hj. lia. }
  apply inj_bij; [intros i _; apply HF|]. intros i j Hi Hj E.
  destruct (N.lt_trichotomy i j) as [H|[H|H]]; [|exact H|]; exfalso.
  - exact (G i j H Hj E).
  - exact (G j i H Hi (eq_sym E)).
Qed.

Lemma aff_orbit_periodic a c w s0 i : a mod 4 = 1 -> N.odd c = true -> is_word w s0 ->
  Nat.iter (N.to_nat (i + 2 ^ w)) (fun s => wrap w (aff a c s)) s0 =
  Nat.iter (N.to_nat i) (fun s => wrap w (aff a c s)) s0.
Proof.
  intros Ha Hc Hs. rewrite N2Nat.inj_add, iter_add. f_equal.
  assert (H : is_word w (Nat.iter (N.to_nat (2 ^ w)) (fun s => wrap w (aff a c s)) s0)).
  { destruct (N.to_nat (2 ^ w)) as [|k]; [exact Hs|]. cbn. apply wrap_word. }
  rewrite <- (wrap_id _ _ H), iter_wrap_aff, aff_full_period by assumption. apply wrap_id, Hs.
Qed.

Lemma equi_slice w k m f out : word_bijection w f -> k + m <= w ->
  (forall i, out i = wrap m (N.shiftr (f i) k)) -> equidistributed m (2 ^ w) (2 ^ (w - m)) out.
Proof.
  intros Hf Hk Ho. split; [intro i; rewrite Ho; apply wrap_word|]. intros v Hv.
  destruct (slice_count w f k m v Hf Hk Hv) as (X & NX & HX & LX). exists X.
  split; [exact NX|]. split; [|exact LX]. intro i. rewrite HX, Ho. reflexivity.
Qed.

Lemma equi_full w f out : word_bijection w f -> (forall i, is_word w (f i)) -> (forall i, out i = f i) ->
  equidistributed w (2 ^ w) 1 out.
Proof.
  intros Hf Hw Ho. replace 1 with (2 ^ (w - w)) by (rewrite N.sub_diag; reflexivity).
  apply (equi_slice w 0 w f); [exact Hf|lia|]. intro i. rewrite N.shiftr_0_r, Ho. symmetry. apply wrap_id, Hw.
Qed.

(* counters *)
Definition corbit (w inc s0 : N) (i : N) : N :=
  Nat.iter (N.to_nat i) (fun s => wrap w (aff 1 inc s)) (wrap w (aff 1 inc s0)).

Lemma iter_ext {A} (f g : A -> A) n x : (forall y, f y = g y) -> Nat.iter n f x = Nat.iter n g x.
Proof. intros H. induction n as [|n IH]; [reflexivity|]. cbn. unfold Nat.iter in IH. rewrite IH. apply H. Qed.

Lemma counter_output w inc init mix sd i :
  output (counter_gen w inc init mix) sd i = mix (corbit w inc (init sd) i).
Proof.
  unfold output, state_at, counter_gen, corbit. cbn [gst ginit gnext fst snd]. f_equal.
  change (wrap w (Nat.iter (N.to_nat i) (fun s => wrap w (s + inc)) (init sd) + inc))
    with (Nat.iter (S (N.to_nat i)) (fun s => wrap w (s + inc)) (init sd)).
  rewrite iter_S_r. unfold aff. rewrite N.mul_1_r. apply iter_ext. intro y. rewrite N.mul_1_r. reflexivity.
Qed.

Lemma counter_bij w inc s0 mix : N.odd inc = true -> word_bijection w mix ->
  word_bijection w (fun i => mix (corbit w inc s0 i)).
Proof.
  intros Hc Hm. apply (bij_comp w (corbit w inc s0) mix); [|exact Hm].
  apply aff_orbit_bij; [reflexivity|exact Hc|apply wrap_word].
Qed.

Lemma counter_word w inc s0 i : is_word w (corbit w inc s0 i).
Proof. unfold corbit. destruct (N.to_nat i) as [|k]; [apply wrap_word|]. cbn. apply wrap_word. Qed.

Lemma counter_gen_full w inc init mix sd : N.odd inc = true -> word_bijection w mix ->
  periodic (2 ^ w) (output (counter_gen w inc init mix) sd) /\
  equidistributed w (2 ^ w) 1 (output (counter_gen w inc init mix) sd).
Proof.
  intros Hc Hm. split.
  - intro i. rewrite !counter_output. f_equal. apply aff_orbit_periodic; [reflexivity|exact Hc|apply wrap_word].
  - apply (equi_full w (fun i => mix (corbit w inc (init sd) i))).
    + apply counter_bij; assumption.
    + intro i. apply Hm, counter_word.
    + intro i. apply counter_output.
Qed.

Lemma truncated_output m k g sd i : output (truncated_gen m k g) sd i = wrap m (N.shiftr (output g sd i) k).
Proof.
  unfold output. replace (state_at (truncated_gen m k g) sd i) with (state_at g sd i).
  - cbn [truncated_gen gnext]. destruct (gnext g (state_at g sd i)). reflexivity.
  - unfold state_at. cbn [truncated_gen gst ginit]. apply iter_ext. intro s.
    cbn [truncated_gen gnext]. destruct (gnext g s). reflexivity.
Qed.

Lemma truncated_periodic m k g sd n : periodic n (output g sd) -> periodic n (output (truncated_gen m k g) sd).
Proof. intros H i. rewrite !truncated_output, H. reflexivity. Qed.

Lemma truncated_counter m k w inc init mix sd : N.odd inc = true -> word_bijection w mix -> k + m <= w ->
  periodic (2 ^ w) (output (truncated_gen m k (counter_gen w inc init mix)) sd) /\
  equidistributed m (2 ^ w) (2 ^ (w - m)) (output (truncated_gen m k (counter_gen w inc init mix)) sd).
Proof.
  intros Hc Hm Hk. split.
  - apply truncated_periodic, (counter_gen_full w inc init mix sd Hc Hm).
  - apply (equi_slice w k m (fun i => mix (corbit w inc (init sd) i))); [apply counter_bij; assumption|exact Hk|].
    intro i. rewrite truncated_output, counter_output. reflexivity.
Qed.

Lemma mix_in32 n f : In (n, f) mixers32 -> word_bijection 32 f.
Proof. apply in_mixers, mixers32_bij. Qed.
Lemma mix_in64 n f : In (n, f) mixers64 -> word_bijection 64 f.
Proof. apply in_mixers, mixers64_bij. Qed.

Lemma mx64_1 : word_bijection 64 mix64_mx1.
Proof. apply (mix_in64 "mix64::mx1"%string). apply (nth_error_In _ 0). reflexivity. Qed.
Lemma mx64_2 : word_bijection 64 mix64_mx2.
Proof. apply (mix_in64 "mix64::mx2"%string). apply (nth_error_In _ 1). reflexivity. Qed.
Lemma mx64_3 : word_bijection 64 mix64_mx3.
Proof. apply (mix_in64 "mix64::mx3"%string). apply (nth_error_In _ 2). reflexivity. Qed.
Lemma mx32_1 : word_bijection 32 mix32_mx1.
Proof. apply (mix_in32 "mix32::mx1"%string). apply (nth_error_In _ 0). reflexivity. Qed.
Lemma mx32_2 : word_bijection 32 mix32_mx2.
Proof. apply (mix_in32 "mix32::mx2"%string). apply (nth_error_In _ 1). reflexivity. Qed.
Lemma mx32_3 : word_bijection 32 mix32_mx3.
Proof. apply (mix_in32 "mix32::mx3"%string). apply (nth_error_In _ 2). reflexivity. Qed.
Lemma splitmix_bij : word_bijection 64 (fun x => let x := xshr 30 x in let x := mulw 64 0xBF58476D1CE4E5B9 x in
            let x := xshr 27 x in let x := mulw 64 0x94D049BB133111EB x in xshr 31 x).
Proof. exact (xmxmx64_bij 30 0xBF58476D1CE4E5B9 27 0x94D049BB133111EB 31 eq_refl eq_refl eq_refl eq_refl eq_refl). Qed.

Lemma counters64 g sd : In g [rng64_mx1; rng64_mx2; rng64_mx3; rng64_splitmix] ->
  periodic (2 ^ 64) (output g sd) /\ equidistributed 64 (2 ^ 64) 1 (output g sd).
Proof.
  intros [<-|[<-|[<-|[<-|[]]]]]; apply counter_gen_full; try reflexivity;
    [apply mx64_1|apply mx64_2|apply mx64_3|apply splitmix_bij].
Qed.

Lemma counters32 g sd : In g [rng32_mx1; rng32_mx2; rng32_mx3] ->
  periodic (2 ^ 32) (output g sd) /\ equidistributed 32 (2 ^ 32) 1 (output g sd).
Proof.
  intros [<-|[<-|[<-|[]]]]; apply counter_gen_full; try reflexivity; [apply mx32_1|apply mx32_2|apply mx32_3].
Qed.

Lemma counters32_64 g sd : In g [rng32_mx1_64; rng32_mx2_64; rng32_mx3_64; rng32_splitmix_64] ->
  periodic (2 ^ 64) (output g sd) /\ equidistributed 32 (2 ^ 64) (2 ^ 32) (output g sd).
Proof.
  intros [<-|[<-|[<-|[<-|[]]]]]; (apply (truncated_counter 32 0 64); [reflexivity| |intro; discriminate]);
    [apply mx64_1|apply mx64_2|apply mx64_3|apply splitmix_bij].
Qed.

Lemma splitmix_16 sd : periodic (2 ^ 64) (output rng16_splitmix_64 sd) /\
  equidistributed 16 (2 ^ 64) (2 ^ 48) (output rng16_splitmix_64 sd).
Proof. apply (truncated_counter 16 48 64); [reflexivity|apply splitmix_bij|intro; discriminate]. Qed.
Lemma splitmix_8 sd : periodic (2 ^ 64) (output rng8_splitmix_64 sd) /\
  equidistributed 8 (2 ^ 64) (2 ^ 56) (output rng8_splitmix_64 sd).
Proof. apply (truncated_counter 8 56 64); [reflexivity|apply splitmix_bij|intro; discriminate]. Qed.

(* ---------- pcg ---------- *)
Definition porbit (sd : seed_data) (i : N) : N :=
  Nat.iter (N.to_nat i) (fun s => wrap 64 (aff pcg_mult pcg_inc s)) (pcg_bump (wrap 64 (s64 sd 0 + pcg_inc))).

Lemma pcg_output out sd i : output (pcg_gen out) sd i = out (porbit sd i).
Proof. reflexivity. Qed.

Lemma porbit_bij sd : word_bijection 64 (porbit sd).
Proof. apply aff_orbit_bij; [reflexivity|reflexivity|apply wrap_word]. Qed.
Lemma porbit_word sd i : is_word 64 (porbit sd i).
Proof. unfold porbit. destruct (N.to_nat i) as [|k]; [apply wrap_word|]. cbn [Nat.iter nat_rect]. apply wrap_word. Qed.
Lemma porbit_periodic sd i : porbit sd (i + 2 ^ 64) = porbit sd i.
Proof. apply aff_orbit_periodic; [reflexivity|reflexivity|apply wrap_word]. Qed.

Lemma rxs_bij : word_bijection 64 pcg_rxs_m_xs_64.
Proof.
  apply (bij_ext 64 (fun x => fold_left (fun a f => f a)
    [(fun x => N.lxor x (N.shiftr x (5 + N.land (N.shiftr x (64 - 5)) 31)));
     mulw 64 12605985483714917081; xshr 43] x)); [reflexivity|].
  apply bij_list. apply Forall_cons; [|bij_steps].
  apply (bij_upper_w 64 (fun x => N.shiftr x (5 + N.land (N.shiftr x (64 - 5)) 31))).
  - intros x Hx. apply word_shiftr, Hx.
  - intros x y i Hx Hy Hj. rewrite !shiftr_testbit. destruct (N.lt_ge_cases i 59) as [Hi|Hi].
    + replace (N.land (N.shiftr x (64 - 5)) 31) with (N.land (N.shiftr y (64 - 5)) 31).
      * apply Hj. lia.
      * apply N.bits_inj. intro k. rewrite !N.land_spec, !shiftr_testbit. f_equal. symmetry. apply Hj. lia.
    + rewrite (word_high 64 x), (word_high 64 y) by (try assumption; lia). reflexivity.
Qed.

Lemma pcg64_full sd : periodic (2 ^ 64) (output rng64_pcg sd) /\ equidistributed 64 (2 ^ 64) 1 (output rng64_pcg sd).
Proof.
  split.
  - intro i. unfold rng64_pcg. rewrite !pcg_output, porbit_periodic. reflexivity.
  - apply (equi_full 64 (fun i => pcg_rxs_m_xs_64 (porbit sd i))).
    + apply (bij_comp 64 (porbit sd)); [apply porbit_bij|apply rxs_bij].
    + intro i. apply rxs_bij, porbit_word.
    + reflexivity.
Qed.

Lemma pcg_trunc m sd : m <= 64 ->
  periodic (2 ^ 64) (output (truncated_gen m 0 rng64_pcg) sd) /\ equidistributed m (2 ^ 64) (2 ^ (64 - m)) (output (truncated_gen m 0 rng64_pcg) sd).
Proof.
  intros Hm. split; [apply truncated_periodic, (proj1 (pcg64_full sd))|].
  apply (equi_slice 64 0 m (fun i => pcg_rxs_m_xs_64 (porbit sd i))).
  - apply (bij_comp 64 (porbit sd)); [apply porbit_bij|apply rxs_bij].
  - lia.
  - intro i. rewrite truncated_output. reflexivity.
Qed.

(* xsh_rr: the output is a field of a bijection of the state *)
Definition pack (t m l : N) : N := t * 2 ^ 59 + m * 2 ^ 27 + l.
Lemma unpack t m l : t < 32 -> m < 2 ^ 32 -> l < 2 ^ 27 ->
  is_word 64 (pack t m l) /\ pack t m l / 2 ^ 59 = t /\ wrap 32 (N.shiftr (pack t m l) 27) = m /\ pack t m l mod 2 ^ 27 = l.
Proof.
  unfold pack, is_word, wrap. rewrite N.shiftr_div_pow2. intros Ht Hm Hl.
  change (2 ^ 64) with 18446744073709551616. change (2 ^ 59) with 576460752303423488.
  change (2 ^ 32) with 4294967296 in *. change (2 ^ 27) with 134217728 in *.
  assert (E1 : (t * 576460752303423488 + m * 134217728 + l) / 134217728 = t * 4294967296 + m).
  { symmetry. apply (N.div_unique _ _ _ l); [exact Hl|]. lia. }
  split; [lia|]. split.
  - symmetry. apply (N.div_unique _ _ _ (m * 134217728 + l)); lia.
  - rewrite E1. split.
    + symmetry. apply (N.mod_unique _ _ t); lia.
    + symmetry. apply (N.mod_unique _ _ (t * 4294967296 + m)); lia.
Qed.
Lemma repack x : is_word 64 x -> x / 2 ^ 59 < 32 /\
  x = pack (x / 2 ^ 59) (wrap 32 (N.shiftr x 27)) (x mod 2 ^ 27).
Proof.
  unfold pack, is_word, wrap. rewrite N.shiftr_div_pow2. intros Hx. split.
  - apply N.div_lt_upper_bound; [discriminate|]. exact Hx.
  - assert (E : x / 2 ^ 59 = x / 2 ^ 27 / 2 ^ 32) by (rewrite N.div_div by discriminate; reflexivity).
    rewrite E. pose proof (N.div_mod' x (2 ^ 27)) as D1. pose proof (N.div_mod' (x / 2 ^ 27) (2 ^ 32)) as D2.
    change (2 ^ 59) with (2 ^ 32 * 2 ^ 27).
    set (A := 2 ^ 27) in *. set (B := 2 ^ 32) in *. set (q := x / A) in *. set (r := x mod A) in *.
    rewrite D1 at 1. rewrite D2 at 1. ring.
Qed.

Definition rrF (x : N) : N :=
  pack (x / 2 ^ 59) (ror 32 (wrap 32 (N.shiftr x 27)) (Z.of_N (x / 2 ^ 59))) (x mod 2 ^ 27).

Lemma rrF_bij : word_bijection 64 rrF.
Proof.
  assert (Hb : forall x, is_word 64 x -> x / 2 ^ 59 < 32 /\
     is_word 32 (ror 32 (wrap 32 (N.shiftr x 27)) (Z.of_N (x / 2 ^ 59))) /\ x mod 2 ^ 27 < 2 ^ 27).
  { intros x Hx. split; [apply repack, Hx|]. split; [apply ror_word; [reflexivity|apply wrap_word]|].
    apply N.mod_lt. discriminate. }
  apply inj_bij.
  - intros x Hx. destruct (Hb x Hx) as (A & B & C). apply unpack; assumption.
  - intros x y Hx Hy E. destruct (Hb x Hx) as (A & B & C), (Hb y Hy) as (A' & B' & C').
    destruct (unpack _ _ _ A B C) as (_ & T & M & LL), (unpack _ _ _ A' B' C') as (_ & T' & M' & LL').
    fold (rrF x) in *. fold (rrF y) in *.
    assert (ET : x / 2 ^ 59 = y / 2 ^ 59) by congruence.
    assert (EL : x mod 2 ^ 27 = y mod 2 ^ 27) by congruence.
    assert (EM : wrap 32 (N.shiftr x 27) = wrap 32 (N.shiftr y 27)).
    { rewrite <- (rol_ror_id 32 (wrap 32 (N.shiftr x 27)) (Z.of_N (x / 2 ^ 59))), <- M
        by (reflexivity || apply wrap_word).
      rewrite E, M', ET. apply rol_ror_id; [reflexivity|apply wrap_word]. }
    destruct (repack x Hx) as [_ ->], (repack y Hy) as [_ ->]. congruence.
Qed.

Lemma xsh_rr_field x : is_word 64 x -> pcg_xsh_rr_64_32 x = wrap 32 (N.shiftr (rrF (xshr 18 x)) 27).
Proof.
  intros Hx. pose proof (xshr_word 64 18 x Hx) as Hy.
  assert (E : N.land (N.shiftr x (64 - 5)) 31 = xshr 18 x / 2 ^ 59).
  { rewrite <- N.shiftr_div_pow2. apply N.bits_inj. intro i.
    rewrite N.land_spec, !shiftr_testbit. unfold xshr. rewrite N.lxor_spec, shiftr_testbit.
    rewrite (word_high 64 x (i + 59 + 18)) by (try assumption; lia). rewrite xorb_false_r.
    change 31 with (N.ones 5). change (64 - 5) with 59.
    destruct (N.lt_ge_cases i 5) as [H|H].
    - rewrite N.ones_spec_low by exact H. apply andb_true_r.
    - rewrite N.ones_spec_high, andb_false_r by exact H. symmetry. apply (word_high 64); [exact Hx|lia]. }
  unfold pcg_xsh_rr_64_32. rewrite E. fold (xshr 18 x).
  symmetry. apply unpack; [apply repack, Hy|apply ror_word; [reflexivity|apply wrap_word]|apply N.mod_lt; discriminate].
Qed.

Lemma pcg32_full sd : periodic (2 ^ 64) (output rng32_pcg_64 sd) /\
  equidistributed 32 (2 ^ 64) (2 ^ 32) (output rng32_pcg_64 sd).
Proof.
  split.
  - intro i. unfold rng32_pcg_64. rewrite !pcg_output, porbit_periodic. reflexivity.
  - apply (equi_slice 64 27 32 (fun i => rrF (xshr 18 (porbit sd i)))).
    + apply (bij_comp 64 (fun i => xshr 18 (porbit sd i))); [|apply rrF_bij].
      apply (bij_comp 64 (porbit sd)); [apply porbit_bij|apply bij_xshr; reflexivity].
    + intro; discriminate.
    + intro i. unfold rng32_pcg_64. rewrite pcg_output. apply xsh_rr_field, porbit_word.
Qed.

(* the state itself: all 2^64 states before the first repetition *)
Lemma pcg_state_full out sd : periodic (2 ^ 64) (state_at (pcg_gen out) sd) /\
  equidistributed 64 (2 ^ 64) 1 (state_at (pcg_gen out) sd).
Proof.
  split; [exact (porbit_periodic sd)|].
  apply (equi_full 64 (porbit sd)); [apply porbit_bij|apply porbit_word|reflexivity].
Qed.

(* ---------- sfc ---------- *)
Lemma addw_inj w c x y : is_word w x -> is_word w y -> wrap w (x + c) = wrap w (y + c) -> x = y.
Proof. intros Hx Hy E. destruct (bij_addw w c) as (_ & Hi & _). apply Hi; assumption. Qed.

Definition enc4 (w : N) (s : N * N * N * N) : N :=
  let '(a, b, c, d) := s in a + 2 ^ w * (b + 2 ^ w * (c + 2 ^ w * d)).
Lemma digits_inj P a b x y : a < P -> b < P -> a + P * x = b + P * y -> a = b /\ x = y.
Proof.
  intros Ha Hb E.
  assert (H1 : a = b).
  { rewrite <- (N.mod_small a P Ha), <- (N.mod_small b P Hb).
    rewrite <- (N.mod_add a x P) by lia. rewrite <- (N.mod_add b y P) by lia. f_equal. lia. }
  split; [exact H1|]. subst b. apply (N.mul_cancel_l _ _ P); lia.
Qed.
Lemma enc4_bound w s : words4 w s -> enc4 w s < 2 ^ (4 * w).
Proof.
  destruct s as [[[a b] c] d]. intros (Ha & Hb & Hc & Hd). unfold is_word, enc4 in *.
  replace (4 * w) with (w + (w + (w + w))) by lia. rewrite !N.pow_add_r.
  set (P := 2 ^ w) in *. clearbody P.
  assert (H1 : c + P * d < P * P) by nia. set (z := c + P * d) in *. clearbody z.
  assert (H2 : b + P * z < P * (P * P)) by nia. set (y := b + P * z) in *. clearbody y. nia.
Qed.
Lemma enc4_inj w s t : words4 w s -> words4 w t -> enc4 w s = enc4 w t -> s = t.
Proof.
  destruct s as [[[a b] c] d], t as [[[a' b'] c'] d']. intros (Ha & Hb & Hc & Hd) (Ha' & Hb' & Hc' & Hd') E.
  unfold is_word, enc4 in *.
  apply digits_inj in E; [|assumption|assumption]. destruct E as [-> E].
  apply digits_inj in E; [|assumption|assumption]. destruct E as [-> E].
  apply digits_inj in E; [|assumption|assumption]. destruct E as [-> ->]. reflexivity.
Qed.

Lemma reversible_words4 w f :
  (forall s, words4 w s -> words4 w (f s)) ->
  (forall s t, words4 w s -> words4 w t -> f s = f t -> s = t) -> reversible (words4 w) f.
Proof.
  intros Hv Hi. split; [exact Hv|]. split; [exact Hi|].
  apply (finite_reversible (words4 w) f (enc4 w) (2 ^ (4 * w)) Hv Hi); [apply enc4_bound|apply enc4_inj].
Qed.

Definition sfc_step (w p q r : N) (s : N * N * N * N) : N * N * N * N := snd (sfc_next w p q r s).

Lemma sfc_reversible w p q r : 0 < q -> 0 < r -> reversible (words4 w) (sfc_step w p q r).
Proof.
  intros Hq Hr. apply reversible_words4.
  - intros [[[a b] c] d] (Ha & Hb & Hc & Hd). unfold sfc_step. cbn [sfc_next snd words4].
    split; [apply word_lxor; [exact Hb|apply word_shiftr, Hb]|]. repeat split; apply wrap_word.
  - intros [[[a b] c] d] [[[a' b'] c'] d'] (Ha & Hb & Hc & Hd) (Ha' & Hb' & Hc' & Hd') E.
    unfold sfc_step in E. cbn [sfc_next snd] in E.
    injection E as E1 E2 E3 E4.
    apply (bij_xshr w q Hq) in E1; [|assumption|assumption]. subst b'.
    assert (c = c').
    { destruct (bij_add_shift w 0 r Hr) as (_ & Hi & _). apply Hi; [assumption|assumption|].
      rewrite !N.add_0_r, !wrap_add. exact E2. }
    subst c'.
    apply addw_inj in E4; [|assumption|assumption]. subst d'.
    rewrite !(N.add_comm (sfc_rotate w c p)) in E3. apply addw_inj in E3; [|apply wrap_word|apply wrap_word].
    rewrite <- !N.add_assoc in E3. apply addw_inj in E3; [|assumption|assumption]. subst a'. reflexivity.
Qed.

Lemma sfc_init_valid w p q r seed sd : 0 < w -> 0 < q -> 0 < r -> is_word w (seed sd) ->
  words4 w (ginit (sfc_gen w p q r seed) sd).
Proof.
  intros Hw Hq Hr Hs. cbn [sfc_gen ginit].
  apply (iter_valid (words4 w) (sfc_step w p q r)); [apply (sfc_reversible w p q r Hq Hr)|].
  cbn. repeat split; try exact Hs. unfold is_word. apply (N.lt_le_trans _ (2 ^ 1)); [reflexivity|].
  apply N.pow_le_mono_r; [discriminate|lia].
Qed.

Definition fourth (s : N * N * N * N) : N := let '(_, _, _, d) := s in d.

Lemma sfc_counter w p q r n s : fourth (Nat.iter n (sfc_step w p q r) s) =
  match n with O => fourth s | _ => wrap w (fourth s + N.of_nat n) end.
Proof.
  induction n as [|n IH]; [reflexivity|].
  change (Nat.iter (S n) (sfc_step w p q r) s) with (sfc_step w p q r (Nat.iter n (sfc_step w p q r) s)).
  assert (E : forall t, fourth (sfc_step w p q r t) = wrap w (fourth t + 1)) by (intros [[[? ?] ?] ?]; reflexivity).
  rewrite E, IH. destruct n; [reflexivity|]. rewrite wrap_add_l, <- N.add_assoc. f_equal. f_equal. lia.
Qed.

Lemma sfc_no_early_repeat w p q r n s : words4 w s -> Nat.iter n (sfc_step w p q r) s = s -> N.of_nat n mod 2 ^ w = 0.
Proof.
  intros Hs E. pose proof (sfc_counter w p q r n s) as H. rewrite E in H. destruct n as [|n]; [apply N.mod_0_l, pow2_ne0|].
  destruct s as [[[a b] c] d]. cbn [fourth] in H. destruct Hs as (_ & _ & _ & Hd).
  assert (Hx : wrap w (N.of_nat (S n)) = 0).
  { apply (addw_inj w d); [apply wrap_word|apply word_0|]. rewrite wrap_add_l, N.add_0_l, N.add_comm, <- H.
    symmetry. apply wrap_id, Hd. }
  exact Hx.
Qed.

Lemma sfc_period w p q r seed sd : 0 < w -> 0 < q -> 0 < r -> is_word w (seed sd) ->
  let g := sfc_gen w p q r seed in
  (forall i j, i <= j -> state_at g sd i = state_at g sd j -> (j - i) mod 2 ^ w = 0) /\
  (exists k, 0 < k /\ forall i, state_at g sd (i + k * 2 ^ w) = state_at g sd i).
Proof.
  intros Hw Hq Hr Hs g. pose proof (sfc_init_valid w p q r seed sd Hw Hq Hr Hs) as Hv.
  destruct (sfc_reversible w p q r Hq Hr) as (V & I & _). split.
  - intros i j Hij E. unfold state_at in E. cbn [g sfc_gen gst gnext] in E.
    apply (iter_cancel (words4 w) (sfc_step w p q r) V I) in E; [|exact Hv|lia].
    apply sfc_no_early_repeat in E; [|exact Hv]. rewrite <- E. f_equal. lia.
  - destruct (orbit_cycles (words4 w) (sfc_step w p q r) V I (enc4 w) (2 ^ (4 * w)) (enc4_bound w) (enc4_inj w)
      (ginit g sd) Hv) as (n & Hn & _ & En).
    pose proof (sfc_no_early_repeat _ _ _ _ _ _ Hv En) as Hm.
    apply N.mod_divide in Hm; [|apply pow2_ne0]. destruct Hm as [k Hk].
    exists k. split; [lia|]. intro i. rewrite <- Hk. unfold state_at.
    rewrite N2Nat.inj_add, Nat2N.id, iter_add. f_equal. exact En.
Qed.

(* ---------- xorshift ---------- *)
Lemma bij_xshl w k : 0 < k -> word_bijection w (xshl w k).
Proof.
  intros Hk. apply (bij_ext w (fun x => N.lxor (wrap w (x + 0)) (wrap w (N.shiftl x k)))).
  - intros x Hx. rewrite N.add_0_r, wrap_id by exact Hx. reflexivity.
  - apply bij_add_xor_shl, Hk.
Qed.
Lemma xorshift64_bij : word_bijection 64 xorshift64_step.
Proof.
  refine (bij_list 64 [xshl 64 13; xshr 7; xshl 64 17] _).
  repeat (apply Forall_cons; [first [apply bij_xshl; reflexivity|apply bij_xshr; reflexivity]|]). apply Forall_nil.
Qed.
Lemma xorshift32_bij : word_bijection 32 xorshift32_step.
Proof.
  refine (bij_list 32 [xshl 32 13; xshr 17; xshl 32 5] _).
  repeat (apply Forall_cons; [first [apply bij_xshl; reflexivity|apply bij_xshr; reflexivity]|]). apply Forall_nil.
Qed.
Lemma lxor_swap a b c d : N.lxor (N.lxor a b) (N.lxor c d) = N.lxor (N.lxor a c) (N.lxor b d).
Proof. rewrite !N.lxor_assoc. f_equal. rewrite <- !N.lxor_assoc. f_equal. apply N.lxor_comm. Qed.
Lemma xshl_lin w k x y : xshl w k (N.lxor x y) = N.lxor (xshl w k x) (xshl w k y).
Proof. unfold xshl. rewrite N.shiftl_lxor, wrap_lxor. apply lxor_swap. Qed.
Lemma xshr_lin k x y : xshr k (N.lxor x y) = N.lxor (xshr k x) (xshr k y).
Proof. unfold xshr. rewrite N.shiftr_lxor. apply lxor_swap. Qed.
Lemma xorshift64_lin x y : xorshift64_step (N.lxor x y) = N.lxor (xorshift64_step x) (xorshift64_step y).
Proof. unfold xorshift64_step. rewrite xshl_lin, xshr_lin, xshl_lin. reflexivity. Qed.
Lemma xorshift32_lin x y : xorshift32_step (N.lxor x y) = N.lxor (xorshift32_step x) (xorshift32_step y).
Proof. unfold xorshift32_step. rewrite xshl_lin, xshr_lin, xshl_lin. reflexivity. Qed.

(* every word is a sum of unit vectors *)
Lemma word_basis_ind w (P : N -> Prop) : P 0 -> (forall i, i < w -> P (2 ^ i)) ->
  (forall x y, is_word w x -> is_word w y -> P x -> P y -> P (N.lxor x y)) -> forall x, is_word w x -> P x.
Proof.
  intros H0 Hb Hx.
  assert (G : forall n x, N.of_nat n <= w -> is_word (N.of_nat n) x -> P x).
  { induction n as [|n IH]; intros x Hn Hw.
    - unfold is_word in Hw. change (2 ^ N.of_nat 0) with 1 in Hw. replace x with 0 by lia. exact H0.
    - set (k := N.of_nat n) in *.
      assert (Hr : is_word k (wrap k x)) by apply wrap_word.
      destruct (N.testbit x k) eqn:Eb.
      + replace x with (N.lxor (2 ^ k) (wrap k x)).
        * apply Hx; [unfold is_word; apply N.pow_lt_mono_r; lia|apply (word_mono k); [lia|exact Hr]|apply Hb; lia|].
          apply IH; [lia|exact Hr].
        * apply N.bits_inj. intro i. rewrite N.lxor_spec, wrap_testbit, N.pow2_bits_eqb.
          destruct (N.eqb_spec k i) as [<-|Hne].
          -- rewrite N.ltb_irrefl, Eb. reflexivity.
          -- destruct (N.ltb_spec i k); [cbn; destruct (N.testbit x i); reflexivity|]. cbn. symmetry. apply (word_high _ _ _ Hw). lia.
      + replace x with (wrap k x); [apply IH; [lia|exact Hr]|].
        apply N.bits_inj. intro i. rewrite wrap_testbit. destruct (N.ltb_spec i k); [reflexivity|]. cbn. symmetry.
        destruct (N.eq_dec i k) as [->|Hne]; [exact Eb|]. apply (word_high _ _ _ Hw). lia. }
  intros x Hw. apply (G (N.to_nat w)); rewrite N2Nat.id; [lia|exact Hw].
Qed.

Lemma annihilates w f p : (forall x y, f (N.lxor x y) = N.lxor (f x) (f y)) ->
  (forall x, is_word w x -> is_word w (f x)) ->
  forallb (fun i => act 0 N.lxor f p (2 ^ i) =? 0) (map N.of_nat (seq 0 (N.to_nat w))) = true ->
  forall x, is_word w x -> act 0 N.lxor f p x = 0.
Proof.
  intros Hl Hw Hall. rewrite forallb_forall in Hall. apply word_basis_ind.
  - apply (act_0 (is_word w)); auto using word_0, word_lxor, N.lxor_nilpotent, N.lxor_0_l, N.lxor_comm, N.lxor_assoc.
  - intros i Hi. apply N.eqb_eq, Hall. apply in_map_iff. exists (N.to_nat i). split; [lia|]. apply in_seq. lia.
  - intros x y Hx Hy Ex Ey.
    rewrite (act_add (is_word w)); auto using word_0, word_lxor, N.lxor_nilpotent, N.lxor_0_l, N.lxor_comm, N.lxor_assoc.
    rewrite Ex, Ey. reflexivity.
Qed.

Definition max_period_cert (w p : N) (f : N -> N) (T : positive) (qs : list (positive * N)) : bool :=
  forallb (fun i => act 0 N.lxor f p (2 ^ i) =? 0) (map N.of_nat (seq 0 (N.to_nat w))) &&
  (powx w p T =? 1) &&
  forallb (fun qu => (mulmod w p (snd qu) (N.lxor (powx w p (Z.to_pos (Zpos T / Zpos (fst qu)))) 1) =? 1)
                     && (0 <? Zpos T / Zpos (fst qu))%Z) qs.

Lemma max_period w p f T qs :
  (forall x y, f (N.lxor x y) = N.lxor (f x) (f y)) ->
  (forall x, is_word w x -> is_word w (f x)) ->
  max_period_cert w p f T qs = true ->
  Forall prime (map (fun qu => Zpos (fst qu)) qs) ->
  zprod (map (fun qu => Zpos (fst qu)) qs) = Zpos T ->
  (forall x, is_word w x -> Nat.iter (Pos.to_nat T) f x = x) /\
  (forall x d, is_word w x -> x <> 0 -> Nat.iter d f x = x -> (Zpos T | Z.of_nat d)%Z).
Proof.
  intros Hl Hw Hc Hp HT. unfold max_period_cert in Hc. apply andb_prop in Hc. destruct Hc as [Hc H3].
  apply andb_prop in Hc. destruct Hc as [H1 H2]. apply N.eqb_eq in H2.
  pose proof (annihilates w f p Hl Hw H1) as Hann.
  assert (Hret : forall x, is_word w x -> Nat.iter (Pos.to_nat T) f x = x).
  { intros x Hx. apply (return_cert (is_word w) 0 N.lxor f) with (n := w) (p := p);
      auto using word_0, word_lxor, N.lxor_nilpotent, N.lxor_0_l, N.lxor_comm, N.lxor_assoc. }
  split; [exact Hret|]. intros x d Hx Hne E.
  apply (period_divides (is_word w) 0 f (Zpos T) (map (fun qu => Zpos (fst qu)) qs)) with (x := x); auto; [lia|].
  intros q y Hin Hy Ey. apply in_map_iff in Hin. destruct Hin as ([q' u] & <- & Hin). cbn [fst] in Ey.
  rewrite forallb_forall in H3. specialize (H3 _ Hin). cbn [fst snd] in H3. apply andb_prop in H3.
  destruct H3 as [H3 H4]. apply N.eqb_eq in H3. apply Z.ltb_lt in H4.
  apply (no_return_cert (is_word w) 0 N.lxor f) with (n := w) (p := p) (e := Z.to_pos (Z.pos T / Z.pos q')) (u := u);
    auto using word_0, word_lxor, N.lxor_nilpotent, N.lxor_0_l, N.lxor_comm, N.lxor_assoc.
  rewrite <- Ey at 2. f_equal. rewrite <- (Z2Pos.id _ H4) at 2. reflexivity.
Qed.

Lemma prime_3 : prime 3. Proof. apply (prime_trial 3 1); [lia|lia|lia|reflexivity]. Qed.
Lemma prime_5 : prime 5. Proof. apply (prime_trial 5 2); [lia|lia|lia|reflexivity]. Qed.
Lemma prime_17 : prime 17. Proof. apply (prime_trial 17 4); [lia|lia|lia|reflexivity]. Qed.
Lemma prime_257 : prime 257. Proof. apply (prime_trial 257 16); [lia|lia|lia|reflexivity]. Qed.
Lemma prime_641 : prime 641. Proof. apply (prime_trial 641 25); [lia|lia|lia|reflexivity]. Qed.
Lemma prime_65537 : prime 65537. Proof. apply (prime_trial 65537 256); [lia|lia|lia|vm_compute; reflexivity]. Qed.
Lemma prime_6700417 : prime 6700417. Proof. apply (prime_trial 6700417 2588); [lia|lia|lia|vm_compute; reflexivity]. Qed.

Definition cert32 : list (positive * N) :=
  [(3%positive, 2585467165); (5%positive, 627944065); (17%positive, 1428936566); (257%positive, 2895861762);
   (65537%positive, 3511099410)].
Definition cert64 : list (positive * N) :=
  [(3%positive, 15511182550047884770); (5%positive, 11814715471047095913); (17%positive, 7202445018898142789);
   (257%positive, 9031751854939573325); (641%positive, 138158124418806406);
   (65537%positive, 17109817795786126257); (6700417%positive, 5204763322158105013)].

Lemma cert32_ok : max_period_cert 32 4299080257 xorshift32_step 4294967295 cert32 = true.
Proof. vm_compute. reflexivity. Qed.
Lemma cert64_ok : max_period_cert 64 18536486914334208513 xorshift64_step 18446744073709551615 cert64 = true.
Proof. vm_compute. reflexivity. Qed.

Lemma primes32 : Forall prime (map (fun qu => Zpos (fst qu)) cert32).
Proof. cbn. repeat (apply Forall_cons; [first [apply prime_3|apply prime_5|apply prime_17|apply prime_257|apply prime_65537]|]).
  apply Forall_nil. Qed.
Lemma primes64 : Forall prime (map (fun qu => Zpos (fst qu)) cert64).
Proof. cbn. repeat (apply Forall_cons; [first [apply prime_3|apply prime_5|apply prime_17|apply prime_257
    |apply prime_641|apply prime_65537|apply prime_6700417]|]).
  apply Forall_nil. Qed.

(* A step with these properties visits all non-zero words before repeating. *)
Lemma max_orbit w f T : (forall x, is_word w x -> is_word w (f x)) ->
  (forall x y, is_word w x -> is_word w y -> f x = f y -> x = y) -> f 0 = 0 ->
  T = 2 ^ w - 1 ->
  (forall x d, is_word w x -> x <> 0 -> Nat.iter d f x = x -> (Z.of_N T | Z.of_nat d)%Z) ->
  forall x, is_word w x -> x <> 0 ->
    (forall i, is_word w (Nat.iter i f x) /\ Nat.iter i f x <> 0) /\
    (forall v, is_word w v -> v <> 0 -> exists! i, i < T /\ Nat.iter (N.to_nat i) f x = v).
Proof.
  intros Hw Hi H0 HT Hd x Hx Hne.
  assert (Hv : forall i, is_word w (Nat.iter i f x)) by (intro i; apply (iter_valid (is_word w) f Hw), Hx).
  assert (Hz : forall i, Nat.iter i f x <> 0).
  { intros i E. apply Hne. apply (iter_inj (is_word w) f Hw Hi i); [exact Hx|apply word_0|].
    rewrite E. clear - H0. induction i as [|i IH]; [reflexivity|]. cbn. unfold Nat.iter in IH. rewrite <- IH. symmetry; exact H0. }
  split; [intro i; split; auto|]. intros v Hvw Hvne.
  pose proof (pow2_ne0 w) as Pw.
  assert (Hlt : forall i j, i < j -> j < T -> Nat.iter (N.to_nat i) f x <> Nat.iter (N.to_nat j) f x).
  { intros i j Hij Hj E. apply (iter_cancel (is_word w) f Hw Hi) in E; [|exact Hx|lia].
    apply Hd in E; [|exact Hx|exact Hne]. apply Z.divide_pos_le in E; lia. }
  assert (Hinj : forall i j, i < T -> j < T -> Nat.iter (N.to_nat i) f x = Nat.iter (N.to_nat j) f x -> i = j).
  { intros i j Hi' Hj' E. destruct (N.lt_trichotomy i j) as [H|[H|H]]; [|exact H|]; exfalso.
    - exact (Hlt i j H Hj' E).
    - exact (Hlt j i H Hi' (eq_sym E)). }
  assert (B : word_bijection w (fun i => if i =? T then 0 else Nat.iter (N.to_nat i) f x)).
  { apply inj_bij.
    - intros i _. destruct (i =? T); [apply word_0|apply Hv].
    - intros i j Wi Wj E. unfold is_word in Wi, Wj. destruct (N.eqb_spec i T), (N.eqb_spec j T); subst.
      + reflexivity.
      + exfalso. symmetry in E. exact (Hz _ E).
      + exfalso. exact (Hz _ E).
      + apply Hinj; [lia|lia|exact E]. }
  destruct B as (_ & _ & Hs). destruct (Hs v Hvw) as (i & Wi & E). unfold is_word in Wi.
  destruct (N.eqb_spec i T) as [Ei|Ei]; [congruence|].
  exists i. split; [split; [lia|exact E]|]. intros j [Hj Ej]. apply Hinj; [lia|exact Hj|congruence].
Qed.

Lemma xorshift32_max : forall x d, is_word 32 x -> x <> 0 -> Nat.iter d xorshift32_step x = x ->
  (Z.of_N (2 ^ 32 - 1) | Z.of_nat d)%Z.
Proof.
  destruct (max_period 32 4299080257 xorshift32_step 4294967295 cert32 xorshift32_lin
    (proj1 xorshift32_bij) cert32_ok primes32 eq_refl) as [_ H]. exact H.
Qed.
Lemma xorshift64_max : forall x d, is_word 64 x -> x <> 0 -> Nat.iter d xorshift64_step x = x ->
  (Z.of_N (2 ^ 64 - 1) | Z.of_nat d)%Z.
Proof.
  destruct (max_period 64 18536486914334208513 xorshift64_step 18446744073709551615 cert64 xorshift64_lin
    (proj1 xorshift64_bij) cert64_ok primes64 eq_refl) as [_ H]. exact H.
Qed.
Lemma xorshift32_ret x : is_word 32 x -> Nat.iter (N.to_nat (2 ^ 32 - 1)) xorshift32_step x = x.
Proof.
  destruct (max_period 32 4299080257 xorshift32_step 4294967295 cert32 xorshift32_lin
    (proj1 xorshift32_bij) cert32_ok primes32 eq_refl) as [H _]. exact (H x).
Qed.
Lemma xorshift64_ret x : is_word 64 x -> Nat.iter (N.to_nat (2 ^ 64 - 1)) xorshift64_step x = x.
Proof.
  destruct (max_period 64 18536486914334208513 xorshift64_step 18446744073709551615 cert64 xorshift64_lin
    (proj1 xorshift64_bij) cert64_ok primes64 eq_refl) as [H _]. exact (H x).
Qed.

Lemma xorshift_output (f : N -> N) init sd i :
  output (mkgen N init (fun x => let x' := f x in (x', x'))) sd i = Nat.iter (N.to_nat i) f (f (init sd)).
Proof.
  unfold output, state_at. cbn [gst ginit gnext fst snd].
  change (f (Nat.iter (N.to_nat i) (fun x => f x) (init sd))) with (Nat.iter (S (N.to_nat i)) f (init sd)).
  apply iter_S_r.
Qed.

Lemma xorshift_gen_max w f init sd : word_bijection w f -> f 0 = 0 ->
  (forall x d, is_word w x -> x <> 0 -> Nat.iter d f x = x -> (Z.of_N (2 ^ w - 1) | Z.of_nat d)%Z) ->
  (forall x, is_word w x -> Nat.iter (N.to_nat (2 ^ w - 1)) f x = x) ->
  is_word w (init sd) -> init sd <> 0 ->
  let out := output (mkgen N init (fun x => let x' := f x in (x', x'))) sd in
  (forall i, out i <> 0) /\ periodic (2 ^ w - 1) out /\
  (forall v, is_word w v -> v <> 0 -> exists! i, i < 2 ^ w - 1 /\ out i = v).
Proof.
  intros (Hw & Hi & _) H0 Hd Hret Hs Hne out.
  assert (Hs1 : is_word w (f (init sd))) by (apply Hw, Hs).
  assert (Hn1 : f (init sd) <> 0).
  { intros E. apply Hne, Hi; [exact Hs|apply word_0|]. rewrite E. symmetry; exact H0. }
  destruct (max_orbit w f (2 ^ w - 1) Hw Hi H0 eq_refl Hd (f (init sd)) Hs1 Hn1) as [A B].
  split; [|split].
  - intro i. unfold out. rewrite xorshift_output. apply A.
  - intro i. unfold out. rewrite !xorshift_output, N2Nat.inj_add, iter_add. f_equal. apply Hret, Hs1.
  - intros v Hv Hvn. destruct (B v Hv Hvn) as (i & [Hi1 Hi2] & Hu). exists i. split.
    + split; [exact Hi1|]. unfold out. rewrite xorshift_output. exact Hi2.
    + intros j [Hj Ej]. apply Hu. split; [exact Hj|]. unfold out in Ej. rewrite xorshift_output in Ej. exact Ej.
Qed.

Lemma xorshift64_gen sd : is_word 64 (s64 sd 0) -> s64 sd 0 <> 0 ->
  let out := output rng64_xorshift sd in
  (forall i, out i <> 0) /\ periodic (2 ^ 64 - 1) out /\
  (forall v, is_word 64 v -> v <> 0 -> exists! i, i < 2 ^ 64 - 1 /\ out i = v).
Proof.
  intros H1 H2. apply (xorshift_gen_max 64 xorshift64_step (fun sd => s64 sd 0) sd xorshift64_bij eq_refl
    xorshift64_max xorshift64_ret H1 H2).
Qed.
Lemma xorshift32_gen sd : s32 sd 0 <> 0 ->
  let out := output rng32_xorshift sd in
  (forall i, out i <> 0) /\ periodic (2 ^ 32 - 1) out /\
  (forall v, is_word 32 v -> v <> 0 -> exists! i, i < 2 ^ 32 - 1 /\ out i = v).
Proof.
  intros H2. apply (xorshift_gen_max 32 xorshift32_step (fun sd => s32 sd 0) sd xorshift32_bij eq_refl
    xorshift32_max xorshift32_ret (wrap_word 32 _) H2).
Qed.

Lemma xorshift_zero_stuck f init sd : f 0 = 0 -> init sd = 0 ->
  forall i, output (mkgen N init (fun x => let x' := f x in (x', x'))) sd i = 0.
Proof.
  intros H0 Hs i. rewrite xorshift_output, Hs, H0.
  induction (N.to_nat i) as [|k IH]; [reflexivity|]. cbn [Nat.iter nat_rect]. fold (Nat.iter k f 0). rewrite IH. exact H0.
Qed.

(* ---------- two and four word linear generators ---------- *)
Definition enc2 (w : N) (s : N * N) : N := fst s + 2 ^ w * snd s.
Lemma enc2_bound w s : words2 w s -> enc2 w s < 2 ^ (2 * w).
Proof.
  destruct s as [a b]. intros [Ha Hb]. unfold is_word, enc2 in *. cbn [fst snd] in *.
  replace (2 * w) with (w + w) by lia. rewrite N.pow_add_r. nia.
Qed.
Lemma enc2_inj w s t : words2 w s -> words2 w t -> enc2 w s = enc2 w t -> s = t.
Proof.
  destruct s as [a b], t as [a' b']. intros [Ha Hb] [Ha' Hb'] E. unfold is_word, enc2 in *. cbn [fst snd] in *.
  apply digits_inj in E; [|assumption|assumption]. destruct E as [-> ->]. reflexivity.
Qed.
Lemma reversible_words2 w f :
  (forall s, words2 w s -> words2 w (f s)) ->
  (forall s t, words2 w s -> words2 w t -> f s = f t -> s = t) -> reversible (words2 w) f.
Proof.
  intros Hv Hi. split; [exact Hv|]. split; [exact Hi|].
  apply (finite_reversible (words2 w) f (enc2 w) (2 ^ (2 * w)) Hv Hi); [apply enc2_bound|apply enc2_inj].
Qed.

Lemma lxor_cancel_r a b c : N.lxor a c = N.lxor b c -> a = b.
Proof.
  intros E. apply (f_equal (fun z => N.lxor z c)) in E. rewrite !N.lxor_assoc, N.lxor_nilpotent, !N.lxor_0_r in E. exact E.
Qed.
Lemma lxor_cancel_l a b c : N.lxor c a = N.lxor c b -> a = b.
Proof. rewrite !(N.lxor_comm c). apply lxor_cancel_r. Qed.

Lemma rol_inj w a b k : 0 < w -> is_word w a -> is_word w b -> rol w a k = rol w b k -> a = b.
Proof. intros Hw Ha Hb E. rewrite <- (ror_rol_id w a k Hw Ha), <- (ror_rol_id w b k Hw Hb), E. reflexivity. Qed.

Lemma xshl_word w k x : is_word w x -> is_word w (xshl w k x).
Proof. intros Hx. apply word_lxor; [exact Hx|apply wrap_word]. Qed.

Lemma xorshift128_reversible : reversible (words2 64) xorshift128_step.
Proof.
  apply reversible_words2.
  - intros [a b] [Ha Hb]. unfold xorshift128_step, words2. cbn [fst snd] in *. split; [exact Hb|].
    pose proof (xshl_word 64 23 a Ha) as Hz. set (z := xshl 64 23 a) in *. clearbody z.
    auto 10 using word_shiftr, word_lxor.
  - intros [a b] [a' b'] [Ha Hb] [Ha' Hb'] E. unfold xorshift128_step in E. cbn [fst snd] in *.
    injection E as E1 E2. subst b'. apply lxor_cancel_r in E2.
    assert (E3 : xshr 18 (xshl 64 23 a) = xshr 18 (xshl 64 23 a')).
    { unfold xshr. apply (lxor_cancel_r _ _ b).
      rewrite !(N.lxor_assoc _ _ b), !(N.lxor_comm _ b), <- !N.lxor_assoc. exact E2. }
    apply (bij_xshr 64 18 eq_refl) in E3; [|apply xshl_word, Ha|apply xshl_word, Ha'].
    apply (bij_xshl 64 23 eq_refl) in E3; [|exact Ha|exact Ha']. subst a'. reflexivity.
Qed.

Lemma xoroshiro128_reversible : reversible (words2 64) xoroshiro128_step.
Proof.
  apply reversible_words2.
  - intros [a b] [Ha Hb]. unfold xoroshiro128_step, words2. cbn [fst snd] in *.
    assert (Hs : is_word 64 (N.lxor b a)) by (apply word_lxor; assumption).
    assert (Hr : is_word 64 (rol 64 a 55)) by (apply rol_word; [reflexivity|exact Ha]).
    split; [repeat apply word_lxor; auto using wrap_word|].
    apply rol_word; [reflexivity|exact Hs].
  - intros [a b] [a' b'] [Ha Hb] [Ha' Hb'] E. unfold xoroshiro128_step in E. cbn [fst snd] in *.
    injection E as E1 E2.
    apply rol_inj in E2; [|reflexivity|apply word_lxor; assumption|apply word_lxor; assumption].
    rewrite E2 in E1. apply lxor_cancel_r, lxor_cancel_r in E1.
    apply rol_inj in E1; [|reflexivity|assumption|assumption]. subst a'.
    apply lxor_cancel_r in E2. subst b'. reflexivity.
Qed.

Lemma xoshiro128_reversible : reversible (words4 32) xoshiro128_step.
Proof.
  apply reversible_words4.
  - intros [[[a b] c] d] (Ha & Hb & Hc & Hd). cbn [xoshiro128_step words4].
    assert (Hr : is_word 32 (rol 32 (N.lxor d b) 11)) by (apply rol_word; [reflexivity|apply word_lxor; assumption]).
    pose proof (wrap_word 32 (N.shiftl b 9)) as Hw.
    split; [|split; [|split]]; [| | |exact Hr]; auto using word_lxor.
  - intros [[[a b] c] d] [[[a' b'] c'] d'] (Ha & Hb & Hc & Hd) (Ha' & Hb' & Hc' & Hd') E.
    cbn [xoshiro128_step] in E. injection E as E1 E2 E3 E4.
    apply rol_inj in E4; [|reflexivity|apply word_lxor; assumption|apply word_lxor; assumption].
    rewrite E4 in E1. apply lxor_cancel_r in E1. subst a'.
    (* b ^ (c^a) and (c^a) ^ (b << 9) determine b: their sum is b ^ (b << 9) *)
    assert (Eb : xshl 32 9 b = xshl 32 9 b').
    { unfold xshl.
      assert (H : N.lxor (N.lxor b (N.lxor c a)) (N.lxor (N.lxor c a) (wrap 32 (N.shiftl b 9))) =
                  N.lxor (N.lxor b' (N.lxor c' a)) (N.lxor (N.lxor c' a) (wrap 32 (N.shiftl b' 9)))) by congruence.
      assert (G : forall x y z, N.lxor (N.lxor x y) (N.lxor y z) = N.lxor x z).
      { intros x y z. rewrite N.lxor_assoc. f_equal. rewrite <- N.lxor_assoc, N.lxor_nilpotent. apply N.lxor_0_l. }
      rewrite !G in H. exact H. }
    apply (bij_xshl 32 9 eq_refl) in Eb; [|assumption|assumption]. subst b'.
    apply lxor_cancel_r in E4. subst d'. apply lxor_cancel_r, lxor_cancel_r in E3. subst c'. reflexivity.
Qed.

(* consequences of reversibility for a generator *)
Lemma reversible_orbit {S} (valid : S -> Prop) f (enc : S -> N) n (zero : S) :
  reversible valid f -> (forall s, valid s -> enc s < n) ->
  (forall s t, valid s -> valid t -> enc s = enc t -> s = t) -> valid zero -> f zero = zero ->
  forall s, valid s ->
    (s <> zero -> forall i, Nat.iter i f s <> zero) /\
    exists p, 0 < p /\ p <= n /\ forall i, Nat.iter (N.to_nat (i + p)) f s = Nat.iter (N.to_nat i) f s.
Proof.
  intros (Hv & Hi & _) He Hinj Hz Hz0 s Hs. split.
  - intros Hne i E. apply Hne, (iter_inj valid f Hv Hi i); [exact Hs|exact Hz|]. rewrite E.
    clear - Hz0. induction i as [|i IH]; [reflexivity|]. cbn [Nat.iter nat_rect]. fold (Nat.iter i f zero).
    rewrite <- IH. symmetry. exact Hz0.
  - destruct (orbit_cycles valid f Hv Hi enc n He Hinj s Hs) as (p & Hp & Hpn & E).
    exists (N.of_nat p). split; [lia|]. split; [exact Hpn|]. intro i.
    rewrite N2Nat.inj_add, Nat2N.id, iter_add, E. reflexivity.
Qed.

Lemma mixer_gen_cycles w mix init sd : word_bijection w mix -> is_word w (init sd) ->
  exists p, 0 < p /\ p <= 2 ^ w /\ periodic p (output (mixer_gen mix init) sd).
Proof.
  intros (Hw & Hi & _) Hs. unfold mixer_gen.
  destruct (orbit_cycles (is_word w) mix Hw Hi (fun x => x) (2 ^ w)) with (s := mix (init sd)) as (p & Hp & Hpn & E); auto.
  exists (N.of_nat p). split; [lia|]. split; [exact Hpn|]. intro i.
  rewrite !xorshift_output, N2Nat.inj_add, Nat2N.id, iter_add, E. reflexivity.
Qed.

(* ---------- remaining corollaries ---------- *)
Lemma pcg16_full sd : periodic (2 ^ 64) (output rng16_pcg_64 sd) /\ equidistributed 16 (2 ^ 64) (2 ^ 48) (output rng16_pcg_64 sd).
Proof. apply (pcg_trunc 16 sd). discriminate. Qed.
Lemma pcg8_full sd : periodic (2 ^ 64) (output rng8_pcg_64 sd) /\ equidistributed 8 (2 ^ 64) (2 ^ 56) (output rng8_pcg_64 sd).
Proof. apply (pcg_trunc 8 sd). discriminate. Qed.

Lemma sfc_all_reversible w p q r : In (w, p, q, r) [(64, 24, 11, 3); (32, 21, 9, 3); (16, 6, 5, 3)] ->
  reversible (words4 w) (fun s => snd (sfc_next w p q r s)).
Proof.
  intros H. apply (sfc_reversible w p q r).
  - cbn [In] in H. destruct H as [E|[E|[E|[]]]]; injection E as <- <- <- <-; reflexivity.
  - destruct H as [E|[E|[E|[]]]]; injection E as <- <- <- <-; reflexivity.
Qed.

Lemma sfc64_period sd : valid_seed sd ->
  (forall i j, i <= j -> state_at rng64_sfc_256 sd i = state_at rng64_sfc_256 sd j -> (j - i) mod 2 ^ 64 = 0) /\
  (exists k, 0 < k /\ forall i, state_at rng64_sfc_256 sd (i + k * 2 ^ 64) = state_at rng64_sfc_256 sd i).
Proof. intros H. apply (sfc_period 64 24 11 3 (fun sd => s64 sd 0) sd eq_refl eq_refl eq_refl (H 0%nat)). Qed.
Lemma sfc32_period sd : valid_seed sd ->
  (forall i j, i <= j -> state_at rng32_sfc_128 sd i = state_at rng32_sfc_128 sd j -> (j - i) mod 2 ^ 32 = 0) /\
  (exists k, 0 < k /\ forall i, state_at rng32_sfc_128 sd (i + k * 2 ^ 32) = state_at rng32_sfc_128 sd i).
Proof. intros H. apply (sfc_period 32 21 9 3 (fun sd => s32 sd 0) sd eq_refl eq_refl eq_refl (wrap_word 32 _)). Qed.
Lemma sfc16_period sd : valid_seed sd ->
  (forall i j, i <= j -> state_at rng16_sfc_64 sd i = state_at rng16_sfc_64 sd j -> (j - i) mod 2 ^ 16 = 0) /\
  (exists k, 0 < k /\ forall i, state_at rng16_sfc_64 sd (i + k * 2 ^ 16) = state_at rng16_sfc_64 sd i).
Proof. intros H. apply (sfc_period 16 6 5 3 (fun sd => s16 sd 0) sd eq_refl eq_refl eq_refl (wrap_word 16 _)). Qed.

Lemma xorshift_bij_lin :
  (word_bijection 32 xorshift32_step /\ forall x y, xorshift32_step (N.lxor x y) = N.lxor (xorshift32_step x) (xorshift32_step y)) /\
  (word_bijection 64 xorshift64_step /\ forall x y, xorshift64_step (N.lxor x y) = N.lxor (xorshift64_step x) (xorshift64_step y)).
Proof.
  split; split; [apply xorshift32_bij|apply xorshift32_lin|apply xorshift64_bij|apply xorshift64_lin].
Qed.
Lemma xorshift64_gen_valid sd : valid_seed sd -> s64 sd 0 <> 0 ->
  (forall i, output rng64_xorshift sd i <> 0) /\ periodic (2 ^ 64 - 1) (output rng64_xorshift sd) /\
  (forall v, is_word 64 v -> v <> 0 -> exists! i, i < 2 ^ 64 - 1 /\ output rng64_xorshift sd i = v).
Proof. intros H Hn. exact (xorshift64_gen sd (H 0%nat) Hn). Qed.
Lemma xorshift32_stuck : exists sd, valid_seed sd /\ s64 sd 0 <> 0 /\ forall i, output rng32_xorshift sd i = 0.
Proof.
  exists (fun _ => 2 ^ 32). split; [intro; reflexivity|]. split; [discriminate|].
  intro i. apply (xorshift_zero_stuck xorshift32_step (fun sd => s32 sd 0)); reflexivity.
Qed.

Lemma xorshift128plus_orbit sd : valid_seed sd ->
  ((s64 sd 0, s64 sd 1) <> (0, 0) -> forall i, state_at rng64_xorshift128plus sd i <> (0, 0)) /\
  exists p, 0 < p /\ p <= 2 ^ 128 /\ forall i, state_at rng64_xorshift128plus sd (i + p) = state_at rng64_xorshift128plus sd i.
Proof.
  intros H.
  destruct (reversible_orbit (words2 64) xorshift128_step (enc2 64) (2 ^ 128) (0, 0) xorshift128_reversible
    (enc2_bound 64) (enc2_inj 64) (conj (word_0 64) (word_0 64)) eq_refl (s64 sd 0, s64 sd 1)) as [A B].
  - split; [apply (H 0%nat)|apply (H 1%nat)].
  - split; [|exact B]. intros Hn i. exact (A Hn (N.to_nat i)).
Qed.
Lemma xoroshiro128plus_orbit sd : valid_seed sd ->
  ((s64 sd 0, s64 sd 1) <> (0, 0) -> forall i, state_at rng64_xoroshiro128plus sd i <> (0, 0)) /\
  exists p, 0 < p /\ p <= 2 ^ 128 /\ forall i, state_at rng64_xoroshiro128plus sd (i + p) = state_at rng64_xoroshiro128plus sd i.
Proof.
  intros H.
  destruct (reversible_orbit (words2 64) xoroshiro128_step (enc2 64) (2 ^ 128) (0, 0) xoroshiro128_reversible
    (enc2_bound 64) (enc2_inj 64) (conj (word_0 64) (word_0 64)) eq_refl (s64 sd 0, s64 sd 1)) as [A B].
  - split; [apply (H 0%nat)|apply (H 1%nat)].
  - split; [|exact B]. intros Hn i. exact (A Hn (N.to_nat i)).
Qed.
Lemma xoshiro_orbit sd :
  (quad sd <> (0, 0, 0, 0) -> forall i, Nat.iter (N.to_nat i) xoshiro128_step (quad sd) <> (0, 0, 0, 0)) /\
  exists p, 0 < p /\ p <= 2 ^ 128 /\ forall i,
    Nat.iter (N.to_nat (i + p)) xoshiro128_step (quad sd) = Nat.iter (N.to_nat i) xoshiro128_step (quad sd).
Proof.
  destruct (reversible_orbit (words4 32) xoshiro128_step (enc4 32) (2 ^ 128) (0, 0, 0, 0) xoshiro128_reversible
    (enc4_bound 32) (enc4_inj 32)) with (s := quad sd) as [A B].
  - repeat split.
  - reflexivity.
  - repeat split; apply wrap_word.
  - split; [|exact B]. intros Hn i. exact (A Hn (N.to_nat i)).
Qed.
Lemma xoshiro_plus_state sd i : state_at rng32_xoshiro128plus sd i = Nat.iter (N.to_nat i) xoshiro128_step (quad sd).
Proof. apply iter_ext. intros [[[a b] c] d]. reflexivity. Qed.
Lemma xoshiro_plusplus_state sd i : state_at rng32_xoshiro128plusplus sd i = Nat.iter (N.to_nat i) xoshiro128_step (quad sd).
Proof. apply iter_ext. intros [[[a b] c] d]. reflexivity. Qed.
Lemma xoshiro128plus_orbit sd :
  ((s32 sd 0, s32 sd 1, s32 sd 2, s32 sd 3) <> (0, 0, 0, 0) -> forall i, state_at rng32_xoshiro128plus sd i <> (0, 0, 0, 0)) /\
  exists p, 0 < p /\ p <= 2 ^ 128 /\ forall i, state_at rng32_xoshiro128plus sd (i + p) = state_at rng32_xoshiro128plus sd i.
Proof.
  destruct (xoshiro_orbit sd) as [A (p & P1 & P2 & P3)]. split; [intros Hn i; rewrite xoshiro_plus_state; apply A, Hn|].
  exists p. split; [exact P1|]. split; [exact P2|]. intro i. rewrite !xoshiro_plus_state. apply P3.
Qed.
Lemma xoshiro128plusplus_orbit sd :
  ((s32 sd 0, s32 sd 1, s32 sd 2, s32 sd 3) <> (0, 0, 0, 0) -> forall i, state_at rng32_xoshiro128plusplus sd i <> (0, 0, 0, 0)) /\
  exists p, 0 < p /\ p <= 2 ^ 128 /\ forall i, state_at rng32_xoshiro128plusplus sd (i + p) = state_at rng32_xoshiro128plusplus sd i.
Proof.
  destruct (xoshiro_orbit sd) as [A (p & P1 & P2 & P3)]. split; [intros Hn i; rewrite xoshiro_plusplus_state; apply A, Hn|].
  exists p. split; [exact P1|]. split; [exact P2|]. intro i. rewrite !xoshiro_plusplus_state. apply P3.
Qed.
