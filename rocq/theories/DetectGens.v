(* The lowest bits of the linear generators come from feedback registers. *)
From Coq Require Import Lia Reals.
From Verif Require Import Base WordLemmas BitwiseModel BitwiseSpec BitwiseProofs WordBij MixerModel MixerProofs LfsrSpec PrngModel PrngSpec PrngProofs Period128Gens RecurrenceProofs DetectSpec.
Open Scope N_scope.

Definition units (w : N) : list N := map (fun i => 2 ^ N.of_nat i) (seq 0 (N.to_nat w)).
Lemma units_len w : length (units w) = N.to_nat w.
Proof. unfold units. rewrite map_length, seq_length. reflexivity. Qed.
Lemma units_in w i : i < w -> In (2 ^ i) (units w).
Proof. intros H. apply in_map_iff. exists (N.to_nat i). rewrite N2Nat.id. split; [reflexivity|]. apply in_seq. lia. Qed.
Lemma units_word w b : In b (units w) -> is_word w b.
Proof. intros H. apply in_map_iff in H. destruct H as (i & <- & Hi). apply in_seq in Hi. unfold is_word. apply N.pow_lt_mono_r; lia. Qed.

Lemma lfsr_more r r' b : (r <= r')%nat -> lfsr_bits r b -> lfsr_bits r' b.
Proof.
  intros H [taps HT]. exists (fun j => (j <=? r)%nat && taps j). intros i Hi. rewrite (HT i) by lia.
  assert (G : forall k, (r <= k)%nat -> xsum (fun j => (S j <=? r)%nat && taps (S j) && b (i - S j)%nat) k = xsum (fun j => taps (S j) && b (i - S j)%nat) r).
  { induction 1 as [|k Hk IH].
    - apply LfsrProofs.xsum_ext. intros j Hj. replace (S j <=? r)%nat with true by (symmetry; apply Nat.leb_le; lia). reflexivity.
    - cbn [xsum]. rewrite IH. replace (S k <=? r)%nat with false by (symmetry; apply Nat.leb_gt; lia). apply Bool.xorb_false_r. }
  symmetry. apply G, H.
Qed.

(* one word *)
Lemma one_word w step k s : (forall x, is_word w x -> is_word w (step x)) -> (forall x y, step (N.lxor x y) = N.lxor (step x) (step y)) -> is_word w s ->
  lfsr_bits (N.to_nat w) (fun i => N.testbit (Nat.iter i step s) k).
Proof.
  intros HV HL Hs. destruct (linear_recurrence N (is_word w) N.lxor 0 (units w) step (fun x => N.testbit x k)) as (r & taps & Hr & H).
  - intros P P0 PB PA. apply word_basis_ind; [exact P0| |exact PA]. intros i Hi. apply PB, units_in, Hi.
  - intros x y. apply word_lxor.
  - apply word_0.
  - exact HV.
  - intros x y _ _. apply HL.
  - specialize (HL 0 0). rewrite N.lxor_nilpotent in HL. rewrite N.lxor_nilpotent in HL. exact HL.
  - intros x y _ _. apply N.lxor_spec.
  - apply N.bits_0.
  - rewrite units_len in Hr. apply (lfsr_more r); [exact Hr|]. exists taps. intros i Hi. apply (H s Hs i Hi).
Qed.

(* two and four words *)
Lemma two_words step f s : (forall x, words2 64 x -> words2 64 (step x)) -> (forall x y, words2 64 x -> words2 64 y -> step (lx2 x y) = lx2 (step x) (step y)) ->
  (forall x y, words2 64 x -> words2 64 y -> f (lx2 x y) = xorb (f x) (f y)) -> words2 64 s ->
  lfsr_bits 128 (fun i => f (Nat.iter i step s)).
Proof.
  intros HV HL HF Hs. assert (Z : words2 64 (0, 0)) by (split; apply word_0).
  destruct (linear_recurrence (N * N) (words2 64) lx2 (0, 0) (map (fun b => (b, 0)) (units 64) ++ map (fun b => (0, b)) (units 64)) step f) as (r & taps & Hr & H).
  - intros P P0 PB PA [a b] [Ha Hb]. cbn [fst snd] in *.
    assert (A : P (a, 0)).
    { revert a Ha. apply word_basis_ind; [exact P0|intros i Hi; apply PB, in_or_app; left; apply (in_map (fun b => (b, 0))), units_in, Hi|].
      intros x y Hx Hy Px Py. apply (PA (x, 0) (y, 0)); try assumption; split; try assumption; apply word_0. }
    assert (B : P (0, b)).
    { revert b Hb. apply word_basis_ind; [exact P0|intros i Hi; apply PB, in_or_app; right; apply (in_map (fun b => (0, b))), units_in, Hi|].
      intros x y Hx Hy Px Py. apply (PA (0, x) (0, y)); try assumption; split; try assumption; apply word_0. }
    replace (a, b) with (lx2 (a, 0) (0, b)) by (unfold lx2; cbn [fst snd]; rewrite N.lxor_0_r; reflexivity).
    apply PA; try assumption; split; cbn [fst snd]; try assumption; apply word_0.
  - intros x y [Ha Hb] [Ha' Hb']. split; apply word_lxor; assumption.
  - exact Z.
  - exact HV.
  - exact HL.
  - specialize (HL (0, 0) (0, 0) Z Z). change (lx2 (0, 0) (0, 0)) with (0, 0) in HL. rewrite HL. unfold lx2. rewrite !N.lxor_nilpotent. reflexivity.
  - exact HF.
  - specialize (HF (0, 0) (0, 0) Z Z). change (lx2 (0, 0) (0, 0)) with (0, 0) in HF. rewrite HF. apply Bool.xorb_nilpotent.
  - rewrite app_length, !map_length, units_len in Hr. apply (lfsr_more r); [exact Hr|]. exists taps. intros i Hi. apply (H s Hs i Hi).
Qed.
Lemma four_words step f s : (forall x, words4 32 x -> words4 32 (step x)) -> (forall x y, words4 32 x -> words4 32 y -> step (lx4 x y) = lx4 (step x) (step y)) ->
  (forall x y, words4 32 x -> words4 32 y -> f (lx4 x y) = xorb (f x) (f y)) -> words4 32 s ->
  lfsr_bits 128 (fun i => f (Nat.iter i step s)).
Proof.
  intros HV HL HF Hs. assert (Z : words4 32 (0, 0, 0, 0)) by (repeat split; apply word_0).
  destruct (linear_recurrence (N * N * N * N) (words4 32) lx4 (0, 0, 0, 0) (map (fun b => (b, 0, 0, 0)) (units 32) ++ map (fun b => (0, b, 0, 0)) (units 32) ++ map (fun b => (0, 0, b, 0)) (units 32) ++ map (fun b => (0, 0, 0, b)) (units 32)) step f) as (r & taps & Hr & H).
  - intros P P0 PB PA [[[a b] c] d] (Ha & Hb & Hc & Hd).
    assert (W0 : is_word 32 0) by apply word_0.
    assert (A : P (a, 0, 0, 0)).
    { revert a Ha. apply word_basis_ind; [exact P0|intros i Hi; apply PB, in_or_app; left; apply (in_map (fun b => (b, 0, 0, 0))), units_in, Hi|].
      intros x y Hx Hy Px Py. apply (PA (x, 0, 0, 0) (y, 0, 0, 0)); try assumption; repeat split; assumption. }
    assert (B : P (0, b, 0, 0)).
    { revert b Hb. apply word_basis_ind; [exact P0|intros i Hi; apply PB, in_or_app; right; apply in_or_app; left; apply (in_map (fun b => (0, b, 0, 0))), units_in, Hi|].
      intros x y Hx Hy Px Py. apply (PA (0, x, 0, 0) (0, y, 0, 0)); try assumption; repeat split; assumption. }
    assert (C : P (0, 0, c, 0)).
    { revert c Hc. apply word_basis_ind; [exact P0|intros i Hi; apply PB, in_or_app; right; apply in_or_app; right; apply in_or_app; left; apply (in_map (fun b => (0, 0, b, 0))), units_in, Hi|].
      intros x y Hx Hy Px Py. apply (PA (0, 0, x, 0) (0, 0, y, 0)); try assumption; repeat split; assumption. }
    assert (D : P (0, 0, 0, d)).
    { revert d Hd. apply word_basis_ind; [exact P0|intros i Hi; apply PB, in_or_app; right; apply in_or_app; right; apply in_or_app; right; apply (in_map (fun b => (0, 0, 0, b))), units_in, Hi|].
      intros x y Hx Hy Px Py. apply (PA (0, 0, 0, x) (0, 0, 0, y)); try assumption; repeat split; assumption. }
    replace (a, b, c, d) with (lx4 (lx4 (a, 0, 0, 0) (0, b, 0, 0)) (lx4 (0, 0, c, 0) (0, 0, 0, d))) by (unfold lx4; rewrite !N.lxor_0_r; reflexivity).
    apply PA; [| |apply PA|apply PA]; try assumption; unfold lx4; repeat split; rewrite ?N.lxor_0_r, ?N.lxor_0_l; assumption.
  - intros [[[a b] c] d] [[[a' b'] c'] d'] (Ha & Hb & Hc & Hd) (Ha' & Hb' & Hc' & Hd'). repeat split; apply word_lxor; assumption.
  - exact Z.
  - exact HV.
  - exact HL.
  - specialize (HL (0, 0, 0, 0) (0, 0, 0, 0) Z Z). change (lx4 (0, 0, 0, 0) (0, 0, 0, 0)) with (0, 0, 0, 0) in HL. rewrite HL. destruct (step (0, 0, 0, 0)) as [[[a b] c] d]. unfold lx4. rewrite !N.lxor_nilpotent. reflexivity.
  - exact HF.
  - specialize (HF (0, 0, 0, 0) (0, 0, 0, 0) Z Z). change (lx4 (0, 0, 0, 0) (0, 0, 0, 0)) with (0, 0, 0, 0) in HF. rewrite HF. apply Bool.xorb_nilpotent.
  - rewrite !app_length, !map_length, units_len in Hr. apply (lfsr_more r); [exact Hr|]. exists taps. intros i Hi. apply (H s Hs i Hi).
Qed.
Lemma add_bit0 w a b : 0 < w -> N.testbit (wrap w (a + b)) 0 = xorb (N.testbit a 0) (N.testbit b 0).
Proof. intros Hw. rewrite wrap_testbit. replace (0 <? w) with true by (symmetry; apply N.ltb_lt, Hw). cbn [andb]. apply N.add_bit0. Qed.

Lemma xorshift64_lfsr sd k : is_word 64 (s64 sd 0) -> lfsr_bits 64 (fun i => N.testbit (output rng64_xorshift sd (N.of_nat i)) k).
Proof.
  intros H. pose proof (one_word 64 xorshift64_step k (xorshift64_step (s64 sd 0)) (proj1 xorshift64_bij) xorshift64_lin (proj1 xorshift64_bij _ H)) as [taps T].
  exists taps. intros i Hi. unfold rng64_xorshift. rewrite xorshift_output, Nat2N.id. rewrite (T i Hi). apply LfsrProofs.xsum_ext. intros j _. rewrite xorshift_output, Nat2N.id. reflexivity.
Qed.
Lemma xorshift32_lfsr sd k : lfsr_bits 32 (fun i => N.testbit (output rng32_xorshift sd (N.of_nat i)) k).
Proof.
  pose proof (one_word 32 xorshift32_step k (xorshift32_step (s32 sd 0)) (proj1 xorshift32_bij) xorshift32_lin (proj1 xorshift32_bij _ (wrap_word 32 _))) as [taps T].
  exists taps. intros i Hi. unfold rng32_xorshift. rewrite xorshift_output, Nat2N.id. rewrite (T i Hi). apply LfsrProofs.xsum_ext. intros j _. rewrite xorshift_output, Nat2N.id. reflexivity.
Qed.
Lemma xorshift32_64_lfsr sd : is_word 64 (s64 sd 0) -> lfsr_bits 64 (fun i => N.testbit (output rng32_xorshift_64 sd (N.of_nat i)) 0).
Proof.
  intros H. destruct (xorshift64_lfsr sd 32 H) as [taps T]. exists taps. intros i Hi. unfold rng32_xorshift_64.
  assert (E : forall z, N.testbit (output (truncated_gen 32 32 rng64_xorshift) sd z) 0 = N.testbit (output rng64_xorshift sd z) 32).
  { intro z. rewrite truncated_output, wrap_testbit, N.shiftr_spec'. reflexivity. }
  rewrite E, (T i Hi). apply LfsrProofs.xsum_ext. intros j _. rewrite E. reflexivity.
Qed.
Lemma xorshift128plus_lfsr sd : is_word 64 (s64 sd 0) -> is_word 64 (s64 sd 1) -> lfsr_bits 128 (fun i => N.testbit (output rng64_xorshift128plus sd (N.of_nat i)) 0).
Proof.
  intros H H1. destruct (two_words xorshift128_step (fun s => xorb (N.testbit (snd s) 0) (N.testbit (fst s) 0)) (s64 sd 0, s64 sd 1) (proj1 xorshift128_reversible) xorshift128_lin) as [taps T].
  - intros [a b] [a' b'] _ _. unfold lx2. cbn [fst snd]. rewrite !N.lxor_spec. destruct (N.testbit a 0), (N.testbit b 0), (N.testbit a' 0), (N.testbit b' 0); reflexivity.
  - split; assumption.
  - assert (E : forall i, N.testbit (output rng64_xorshift128plus sd (N.of_nat i)) 0 = xorb (N.testbit (snd (Nat.iter i xorshift128_step (s64 sd 0, s64 sd 1))) 0) (N.testbit (fst (Nat.iter i xorshift128_step (s64 sd 0, s64 sd 1))) 0)).
    { intro i. unfold output, state_at. rewrite Nat2N.id. cbn [rng64_xorshift128plus gnext ginit gst fst snd]. rewrite add_bit0 by reflexivity. reflexivity. }
    exists taps. intros i Hi. rewrite E, (T i Hi). apply LfsrProofs.xsum_ext. intros j _. rewrite E. reflexivity.
Qed.
Lemma xoroshiro128plus_lfsr sd : is_word 64 (s64 sd 0) -> is_word 64 (s64 sd 1) -> lfsr_bits 128 (fun i => N.testbit (output rng64_xoroshiro128plus sd (N.of_nat i)) 0).
Proof.
  intros H H1. destruct (two_words xoroshiro128_step (fun s => xorb (N.testbit (fst s) 0) (N.testbit (snd s) 0)) (s64 sd 0, s64 sd 1) (proj1 xoroshiro128_reversible) xoroshiro128_lin) as [taps T].
  - intros [a b] [a' b'] _ _. unfold lx2. cbn [fst snd]. rewrite !N.lxor_spec. destruct (N.testbit a 0), (N.testbit b 0), (N.testbit a' 0), (N.testbit b' 0); reflexivity.
  - split; assumption.
  - assert (E : forall i, N.testbit (output rng64_xoroshiro128plus sd (N.of_nat i)) 0 = xorb (N.testbit (fst (Nat.iter i xoroshiro128_step (s64 sd 0, s64 sd 1))) 0) (N.testbit (snd (Nat.iter i xoroshiro128_step (s64 sd 0, s64 sd 1))) 0)).
    { intro i. unfold output, state_at. rewrite Nat2N.id. cbn [rng64_xoroshiro128plus gnext ginit gst fst snd]. rewrite add_bit0 by reflexivity. reflexivity. }
    exists taps. intros i Hi. rewrite E, (T i Hi). apply LfsrProofs.xsum_ext. intros j _. rewrite E. reflexivity.
Qed.
Lemma xoshiro128plus_lfsr sd : lfsr_bits 128 (fun i => N.testbit (output rng32_xoshiro128plus sd (N.of_nat i)) 0).
Proof.
  destruct (four_words xoshiro128_step (fun s => let '(a, _, _, d) := s in xorb (N.testbit a 0) (N.testbit d 0)) (quad sd) (proj1 xoshiro128_reversible) xoshiro128_lin) as [taps T].
  - intros [[[a b] c] d] [[[a' b'] c'] d'] _ _. unfold lx4. rewrite !N.lxor_spec. destruct (N.testbit a 0), (N.testbit d 0), (N.testbit a' 0), (N.testbit d' 0); reflexivity.
  - repeat split; apply wrap_word.
  - assert (E : forall i, N.testbit (output rng32_xoshiro128plus sd (N.of_nat i)) 0 = (let '(a, _, _, d) := Nat.iter i xoshiro128_step (quad sd) in xorb (N.testbit a 0) (N.testbit d 0))).
    { intro i. unfold output. rewrite xoshiro_plus_state, Nat2N.id. cbn [rng32_xoshiro128plus gnext]. destruct (Nat.iter i xoshiro128_step (quad sd)) as [[[a b] c] d]. cbn [fst]. apply add_bit0. reflexivity. }
    exists taps. intros i Hi. rewrite E, (T i Hi). apply LfsrProofs.xsum_ext. intros j _. rewrite E. reflexivity.
Qed.
