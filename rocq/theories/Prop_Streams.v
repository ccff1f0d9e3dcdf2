(* Properties C08-C10, C12-C14, C63: streams (core/src/stream.h, streams.h, rrc.h, rrc_streams.h). *)
From Coq Require Import Permutation.
From Verif Require Import Base BitwiseModel BitwiseSpec StreamModel StreamSpec StreamProofs.
Open Scope N_scope.

(* ---- C08 ---- *)
(* A range-for over ranged_stream(s, n) visits exactly the first n values of s and leaves the
   world unchanged; as it is a function of (s, n) only, any later iteration sees the same. *)
Theorem C08_ranged_stream_first_n : forall (T : Type) (s : stream T) f n g g', delivers s f -> n < 2 ^ 64 ->
  range_for (mkranged s n) g = Ok (map f (seq 0 (N.to_nat n)), g) /\
  range_for (mkranged s n) g' = Ok (map f (seq 0 (N.to_nat n)), g').
Proof. intros. split; apply range_for_ok; assumption. Qed.
Print Assumptions C08_ranged_stream_first_n.

(* Drawing from the caller's own copy after an iteration starts at value 0 again. *)
Theorem C08_iteration_does_not_consume : forall (T : Type) (s : stream T) f n m g, delivers s f -> n < 2 ^ 64 ->
  (r <- range_for (mkranged s n) g ;; let '(_, g') := r in
   d <- draw m s g' ;; let '(vs, _, _) := d in Ok vs) = Ok (map f (seq 0 m)).
Proof.
  intros T s f n m g D Hn. rewrite (range_for_ok s f n g D Hn). cbn [obind].
  destruct (delivers_draw m s f g D) as (s' & E & _). rewrite E. reflexivity.
Qed.
Print Assumptions C08_iteration_does_not_consume.

(* It fails for the one stream that shares its position: create_stream_from_data_thread_safe. *)
Theorem C08_thread_safe_stream_not_repeatable_refuted :
  exists data n g r1 g1 r2 g2,
    range_for (mkranged (shared_data_stream data) n) g = Ok (r1, g1) /\
    range_for (mkranged (shared_data_stream data) n) g1 = Ok (r2, g2) /\ r1 <> r2.
Proof. exact shared_not_repeatable. Qed.
Print Assumptions C08_thread_safe_stream_not_repeatable_refuted.

Example C08_instance : delivers (data_stream [7; 8; 9] 0)
    (fun i => nth (N.to_nat (wrap 64 (0 + N.of_nat i) mod 3)) [7; 8; 9] 0)
  /\ range_for (mkranged (data_stream [7; 8; 9] 0) 5) 0 = Ok ([7; 8; 9; 7; 8], 0).
Proof. split; [apply (data_delivers [7; 8; 9] 0); [discriminate|reflexivity]|vm_compute; reflexivity]. Qed.

(* ---- C09 ---- *)
Theorem C09_data_stream_cycles : forall data start, data <> [] -> is_word 64 start ->
  delivers (data_stream data start)
    (fun i => nth (N.to_nat (wrap 64 (start + N.of_nat i) mod N.of_nat (length data))) data 0).
Proof. exact data_delivers. Qed.
Print Assumptions C09_data_stream_cycles.

Theorem C09_empty_data_is_ub : forall start g, call (data_stream [] start) g = UB.
Proof. exact data_empty_ub. Qed.
Print Assumptions C09_empty_data_is_ub.

Example C09_instance : [5; 6] <> [] /\ is_word 64 1 /\
  (r <- draw 3 (data_stream [5; 6] 1) 0 ;; Ok (fst (fst r))) = Ok [6; 5; 6].
Proof. split; [discriminate|]. split; vm_compute; reflexivity. Qed.

(* ---- C10 ---- *)
Theorem C10_counter_values : forall w inc start,
  delivers (counter_stream w inc start)
    (fun i => wrap w (wrap 64 (start + (N.of_nat i + 1) * inc))).
Proof. exact counter_delivers. Qed.
Print Assumptions C10_counter_values.

Theorem C10_constant : forall c, delivers (constant_stream c) (fun _ => c).
Proof. exact constant_delivers. Qed.
Print Assumptions C10_constant.

Theorem C10_bit_reverse : forall w s f, delivers s f ->
  delivers (bit_reverse_stream w s) (fun i => reverse_bits w (f i)).
Proof. intros w s f. apply map_delivers. Qed.
Print Assumptions C10_bit_reverse.

Theorem C10_byteswap : forall w s f, delivers s f ->
  delivers (byteswap_stream w s) (fun i => byteswap w (f i)).
Proof. intros w s f. apply map_delivers. Qed.
Print Assumptions C10_byteswap.

Theorem C10_ror : forall w s f r, delivers s f -> delivers (ror_stream w s r) (fun i => ror w (f i) r).
Proof. exact ror_delivers. Qed.
Print Assumptions C10_ror.

Theorem C10_mixer : forall s f mix, delivers s f -> delivers (stream_from_mixer s mix) (fun i => mix (f i)).
Proof. intros s f mix. apply map_delivers. Qed.
Print Assumptions C10_mixer.

Theorem C10_combined : forall a b c fa fb, delivers a fa -> delivers b fb ->
  delivers (combined_stream a b c) (fun i => c (fa i) (fb i)).
Proof. exact combined_delivers. Qed.
Print Assumptions C10_combined.

Theorem C10_combined_incremental : forall seed s c f, delivers s f ->
  delivers (combined_incremental_stream seed s c) (acc_seq c seed f).
Proof. exact incremental_delivers. Qed.
Print Assumptions C10_combined_incremental.

Theorem C10_prng_from_mixer : forall mix seed,
  delivers (prng_from_mixer mix seed) (fun i => Nat.iter (S i) mix seed).
Proof. exact prng_from_mixer_delivers. Qed.
Print Assumptions C10_prng_from_mixer.

Theorem C10_bit_isolation : forall w bit s f, 0 < w <= 64 -> bit < w -> delivers s f ->
  delivers (bit_isolation_stream w s (Z.of_N bit))
    (fun i => word_of_bits (N.to_nat w) (fun j => N.testbit (f (i * N.to_nat w + j)%nat) bit)).
Proof. exact isolation_delivers. Qed.
Print Assumptions C10_bit_isolation.

Theorem C10_isolate_by_ref_consumes_w : forall w bit (s : stream N) f g, 0 < w <= 64 -> bit < w -> delivers s f ->
  exists s', isolate_bit_by_ref w s (Z.of_N bit) g =
     Ok (word_of_bits (N.to_nat w) (fun j => N.testbit (f j) bit), s', g) /\
     delivers s' (fun i => f (N.to_nat w + i)%nat).
Proof. exact isolate_by_ref_ok. Qed.
Print Assumptions C10_isolate_by_ref_consumes_w.

Theorem C10_get_raw_by_ref : forall (T : Type) n (s : stream T) f g, delivers s f ->
  exists s', draw n s g = Ok (map f (seq 0 n), s', g) /\ delivers s' (fun i => f (n + i)%nat).
Proof. intros T n s f g. apply delivers_draw. Qed.
Print Assumptions C10_get_raw_by_ref.

(* word_of_bits means what it should: bit j of the result is b j. *)
Theorem C10_word_of_bits_meaning : forall n b i,
  N.testbit (word_of_bits n b) i = (i <? N.of_nat n) && b (N.to_nat i).
Proof. exact word_of_bits_bit. Qed.
Print Assumptions C10_word_of_bits_meaning.

Example C10_instance :
  (r <- draw 2 (bit_isolation_stream 8 (counter_stream 8 1 0) 1) 0 ;; Ok (fst (fst r))) = Ok [0x66; 0x66]
  /\ (r <- draw 3 (ror_stream 8 (counter_stream 8 1 0) 1) 0 ;; Ok (fst (fst r))) = Ok [0x80; 1; 0x81].
Proof. vm_compute. split; reflexivity. Qed.

(* ---- C12 ---- *)
(* In every interleaving in which all calls have returned, the k calls returned, as a multiset,
   exactly the k consecutive positions starting at the shared index. *)
Theorem C12_thread_safe_hands_out_each_once : forall data k g g' r, is_word 64 g ->
  shared_steps data k (mkshared g [] []) (mkshared g' [] r) ->
  g' = wrap 64 (g + N.of_nat k) /\
  Permutation (map snd r)
    (map (fun i => nth (N.to_nat (wrap 64 (g + N.of_nat i) mod N.of_nat (length data))) data 0) (seq 0 k)).
Proof. exact shared_all_returned. Qed.
Print Assumptions C12_thread_safe_hands_out_each_once.

(* At any moment of any interleaving: with the k calls that have begun, every one of the k consecutive
   positions is either claimed by exactly one call still under way or has been returned by one. *)
Theorem C12_any_time : forall data k g s', is_word 64 g -> shared_steps data k (mkshared g [] []) s' ->
  let value j := nth (N.to_nat (j mod N.of_nat (length data))) data 0 in
  sh_index s' = wrap 64 (g + N.of_nat k) /\ (length (sh_pending s') + length (sh_returned s') = k)%nat /\
  Permutation (map (fun p => value (snd p)) (sh_pending s') ++ map snd (sh_returned s')) (map (fun i => value (wrap 64 (g + N.of_nat i))) (seq 0 k)).
Proof.
  intros data k g s' Hg H. apply shared_perm in H; [|exact Hg]. cbn [sh_index sh_pending sh_returned map app] in H. destruct H as [I P]. cbn zeta. split; [exact I|]. split; [|exact P].
  apply Permutation_length in P. rewrite app_length, !map_length, seq_length in P. exact P.
Qed.
Print Assumptions C12_any_time.
(* So the values returned so far are never more often the same data element than it occurs there:
   with distinct data and at most as many calls as data, no value is returned twice. *)
Lemma NoDup_map_inj {A B : Type} (f : A -> B) l : (forall x y, In x l -> In y l -> f x = f y -> x = y) -> NoDup l -> NoDup (map f l).
Proof.
  intros I H. induction H as [|x l X H IH]; [constructor|]. cbn [map]. constructor.
  - intro C. apply in_map_iff in C. destruct C as (y & E & Hy). apply X. rewrite (I x y (or_introl eq_refl) (or_intror Hy) (eq_sym E)). exact Hy.
  - apply IH. intros a b Ha Hb. apply I; right; assumption.
Qed.
Theorem C12_no_duplicates : forall data k g s', is_word 64 g -> NoDup data -> (k <= length data)%nat -> g + N.of_nat k <= 2 ^ 64 ->
  shared_steps data k (mkshared g [] []) s' -> NoDup (map snd (sh_returned s')).
Proof.
  intros data k g s' Hg ND Hk Hw H. destruct (C12_any_time data k g s' Hg H) as (_ & _ & P). cbn zeta in P.
  assert (Q : NoDup (map (fun i => nth (N.to_nat (wrap 64 (g + N.of_nat i) mod N.of_nat (length data))) data 0) (seq 0 k))).
  { apply NoDup_map_inj; [|apply seq_NoDup]. intros i j Hi Hj E. apply in_seq in Hi. apply in_seq in Hj. destruct data as [|d0 data]; [cbn [length] in *; lia|]. set (data' := d0 :: data) in *. assert (L : N.of_nat (length data') <> 0) by (cbn [data' length]; lia).
    assert (B : forall z, (N.to_nat (z mod N.of_nat (length data')) < length data')%nat) by (intro z; pose proof (N.mod_lt z _ L); lia).
    apply (proj1 (NoDup_nth data' 0) ND) in E; [|apply B|apply B]. apply N2Nat.inj in E. unfold wrap in E; rewrite !(N.mod_small _ (2 ^ 64)) in E by lia.
    assert (Hk' : N.of_nat k <= N.of_nat (length data')) by lia. clear - L E Hi Hj Hk'. revert L E Hk'. generalize (N.of_nat (length data')). intros n L E Hn.
    pose proof (N.div_mod (g + N.of_nat i) n L) as D1. pose proof (N.div_mod (g + N.of_nat j) n L) as D2. pose proof (N.mod_lt (g + N.of_nat i) n L) as M1. rewrite <- E in D2. revert D1 D2 M1. generalize ((g + N.of_nat i) / n) ((g + N.of_nat j) / n) ((g + N.of_nat i) mod n). intros a b r D1 D2 M1. destruct (N.lt_trichotomy a b) as [T|[T|T]]; nia. }
  symmetry in P. apply Permutation_NoDup in P; [|exact Q]. revert P. generalize (map snd (sh_returned s')). induction (sh_pending s') as [|p l IH]; intros r P; [exact P|]. inversion P. apply IH. assumption.
Qed.
Print Assumptions C12_no_duplicates.

Theorem C12_sequential_use : forall data n, data <> [] -> forall g, is_word 64 g ->
  exists s', draw n (shared_data_stream data) g =
    Ok (map (fun i => nth (N.to_nat (wrap 64 (g + N.of_nat i) mod N.of_nat (length data))) data 0) (seq 0 n),
        s', wrap 64 (g + N.of_nat n)).
Proof. exact shared_sequential. Qed.
Print Assumptions C12_sequential_use.

Example C12_instance :   (* two callers, the second overtakes the first *)
  shared_steps [10; 20; 30] 2 (mkshared 0 [] []) (mkshared 2 [] [(1%nat, 10); (2%nat, 20)]).
Proof.
  apply shs_claim with (t := 1%nat). apply shs_claim with (t := 2%nat).
  apply (shs_finish [10; 20; 30] 0 _ [] [(1%nat, 0)] [] 2%nat _ 20); [reflexivity|].
  apply (shs_finish [10; 20; 30] 0 _ [] [] [(2%nat, 20)] 1%nat 0 10); [reflexivity|].
  apply shs_refl.
Qed.

(* ---- C13 ---- *)
Theorem C13_permute_bits : forall w c rot t, In w widths -> is_word w c ->
  is_word w (permute w c rot t) /\
  forall i, i < w -> N.testbit (permute w c rot t) i =
    xorb (complements t)
      (N.testbit c (let j := Z.to_N ((Z.of_N i + rot) mod Z.of_N w) in
                    if mirrors t then w - 1 - j else j)).
Proof. exact permute_bits. Qed.
Print Assumptions C13_permute_bits.

Theorem C13_permute_bijection : forall w rot t, In w widths -> word_bijection w (fun c => permute w c rot t).
Proof. exact permute_bijection. Qed.
Print Assumptions C13_permute_bijection.

Theorem C13_all_permutations_enumerated : forall w x,
  length (get_rrc_permutations w x) = (4 * N.to_nat w)%nat /\
  forall k t r, nth_error rrc_types k = Some t -> (r < N.to_nat w)%nat ->
    nth_error (get_rrc_permutations w x) (k * N.to_nat w + r) = Some (permute w x (Z.of_nat r) t).
Proof. exact rrc_permutations_spec. Qed.
Print Assumptions C13_all_permutations_enumerated.

Example C13_instance : permute 8 0x01 1 ReverseComplement = 0xbf /\
  nth_error (get_rrc_permutations 8 0x01) (3 * 8 + 1) = Some 0xbf.
Proof. vm_compute. split; reflexivity. Qed.

(* ---- C14 ---- *)
Theorem C14_rrc_sources : forall w sources,
  length (create_rrc_sources w sources) = (length sources * (4 * N.to_nat w))%nat /\
  forall m s k t r f, nth_error sources m = Some s -> nth_error rrc_types k = Some t ->
    (r < N.to_nat w)%nat -> delivers s f ->
    exists s', nth_error (create_rrc_sources w sources) (m * (4 * N.to_nat w) + (k * N.to_nat w + r)) = Some s'
      /\ delivers s' (fun i => permute w (f i) (Z.of_nat r) t).
Proof. exact rrc_sources_spec. Qed.
Print Assumptions C14_rrc_sources.

Example C14_instance : length (create_rrc_sources 8 [constant_stream 3; counter_stream 8 1 0]) = 64%nat.
Proof. vm_compute. reflexivity. Qed.

(* ---- C63 ---- *)
Theorem C63_serial_pairs : forall (D : Type) (resc : N -> D) n s f g, delivers s f ->
  exists s', create_serial_xy_by_ref resc n s g =
    Ok (map (fun i => resc (f (2 * i)%nat)) (seq 0 n), map (fun i => resc (f (2 * i + 1)%nat)) (seq 0 n), s', g)
    /\ delivers s' (fun i => f (2 * n + i)%nat).
Proof. intros D resc n s f g. apply serial_xy_ok. Qed.
Print Assumptions C63_serial_pairs.

(* What the code computes: mixer(v) against mixer applied to mixer(v) with one bit flipped. *)
Theorem C63_bit_flipped_pairs : forall (D : Type) w (resc : N -> D) mix n, 0 < w <= 64 ->
  (forall x, is_word w (mix x)) -> forall s f g, delivers s f ->
  create_bit_flipped_xy w resc n s mix g =
    Ok (flat_map (fun i => map (fun b => resc (mix (f i))) (seq 0 (N.to_nat w))) (seq 0 n),
        flat_map (fun i => map (fun b => resc (mix (N.lxor (mix (f i)) (2 ^ N.of_nat b)))) (seq 0 (N.to_nat w))) (seq 0 n),
        g).
Proof. intros D w resc mix n. apply bit_flipped_ok. Qed.
Print Assumptions C63_bit_flipped_pairs.

(* It is not the avalanche pairing mixer(v) / mixer(v with bit b flipped). *)
Theorem C63_not_flips_of_the_input_refuted :
  exists w mix s f, (forall x, is_word w (mix x)) /\ delivers s f /\
    forall g, create_bit_flipped_xy w (fun x => x) 1 s mix g <>
      Ok (map (fun b => mix (f O)) (seq 0 (N.to_nat w)),
          map (fun b => mix (N.lxor (f O) (2 ^ N.of_nat b))) (seq 0 (N.to_nat w)), g).
Proof.
  exists 8, (fun x => wrap 8 (x + 1)), (constant_stream 0), (fun _ => 0).
  split; [intro x; apply WordLemmas.wrap_word|]. split; [apply constant_delivers|].
  intros g. vm_compute. discriminate.
Qed.
Print Assumptions C63_not_flips_of_the_input_refuted.

Example C63_instance : create_bit_flipped_xy 8 (fun x => x) 1 (constant_stream 4) (fun x => wrap 8 (3 * x)) 0
  = Ok (repeat 12 8, [39; 42; 24; 12; 84; 132; 228; 164], 0).
Proof. vm_compute. reflexivity. Qed.
