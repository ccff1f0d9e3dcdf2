(* Properties C15-C17, C57: mixers, combiners, search constructions. *)
From Coq Require Import String.
From Verif Require Import Base BitwiseModel BitwiseSpec BitVectorModel BitVectorSpec MixerModel MixerSpec MixerProofs
  BitVectorProofs.
Open Scope N_scope.

(* ---- C15 ---- *)
Theorem C15_mixers32_bijective : Forall (fun nm => word_bijection 32 (snd nm)) mixers32.
Proof. exact mixers32_bij. Qed.
Print Assumptions C15_mixers32_bijective.

Theorem C15_mixers64_bijective : Forall (fun nm => word_bijection 64 (snd nm)) mixers64.
Proof. exact mixers64_bij. Qed.
Print Assumptions C15_mixers64_bijective.

(* The narrow mixers multiply as signed int; they are defined for every input and bijective. *)
Theorem C15_mix8_bijective :
  exists f, (forall x, is_word 8 x -> mix8_xm3x x = Ok (f x)) /\ word_bijection 8 f.
Proof. exact mix8_xm3x_bij. Qed.
Print Assumptions C15_mix8_bijective.

Theorem C15_mix16_bijective :
  exists f, (forall x, is_word 16 x -> mix16_xm3x x = Ok (f x)) /\ word_bijection 16 f.
Proof. exact mix16_xm3x_bij. Qed.
Print Assumptions C15_mix16_bijective.

(* The same, one mixer at a time. *)
Theorem C15_each_mixer32 : word_bijection 32 mix32_mx1 /\ word_bijection 32 mix32_mx2 /\ word_bijection 32 mix32_mx3 /\
  word_bijection 32 mix32_prospector /\ word_bijection 32 mix32_prospector_boost /\ word_bijection 32 mix32_murmur /\
  word_bijection 32 mix32_h2_sql /\ word_bijection 32 mix32_wang_1 /\ word_bijection 32 mix32_jenkins.
Proof.
  pose proof mixers32_bij as H. unfold mixers32 in H. repeat (let X := fresh in pose proof (Forall_inv H) as X; apply Forall_inv_tail in H; cbn [snd] in X).
  repeat (match goal with |- _ /\ _ => split | _ => assumption end).
Qed.
Print Assumptions C15_each_mixer32.
Theorem C15_each_mixer64 : word_bijection 64 mix64_mx1 /\ word_bijection 64 mix64_mx2 /\ word_bijection 64 mix64_mx3 /\
  word_bijection 64 mix64_nasam /\ word_bijection 64 mix64_moremur /\ word_bijection 64 mix64_lea64 /\ word_bijection 64 mix64_degski64 /\
  word_bijection 64 mix64_split_mix_v13 /\ word_bijection 64 mix64_split_mix /\ word_bijection 64 mix64_murmur3 /\
  word_bijection 64 mix64_xxh3 /\ word_bijection 64 mix64_fast_hash.
Proof.
  pose proof mixers64_bij as H. unfold mixers64 in H. repeat (let X := fresh in pose proof (Forall_inv H) as X; apply Forall_inv_tail in H; cbn [snd] in X).
  repeat (match goal with |- _ /\ _ => split | _ => assumption end).
Qed.
Print Assumptions C15_each_mixer64.

Example C15_instance : List.length mixers32 = 9%nat /\ List.length mixers64 = 12%nat
  /\ In ("mix64::mx3"%string, mix64_mx3) mixers64
  /\ mix64_mx3 0 = 0
  /\ mix8_xm3x 1 <> mix8_xm3x 2 /\ mix64_mx3 1 <> mix64_mx3 2.
Proof.
  split; [reflexivity|]. split; [reflexivity|]. split; [apply (nth_error_In _ 2); reflexivity|].
  vm_compute. repeat split; try reflexivity; try discriminate.
Qed.

(* ---- C16 ---- *)
Theorem C16_nasam_bijective : word_bijection 64 mix64_nasam.
Proof. exact nasam_bij. Qed.
Print Assumptions C16_nasam_bijective.

Theorem C16_moremur_bijective : word_bijection 64 mix64_moremur.
Proof. exact moremur_bij. Qed.
Print Assumptions C16_moremur_bijective.

Theorem C16_wang_1_bijective : word_bijection 32 mix32_wang_1.
Proof. exact wang_1_bij. Qed.
Print Assumptions C16_wang_1_bijective.

Theorem C16_jenkins_bijective : word_bijection 32 mix32_jenkins.
Proof. exact jenkins_bij. Qed.
Print Assumptions C16_jenkins_bijective.

Example C16_instance : mix32_jenkins 0 = 0x6b4ed927 /\ mix64_nasam 0 = 0 /\ mix64_nasam 1 <> mix64_nasam 2.
Proof. vm_compute. repeat split; try reflexivity; discriminate. Qed.

(* ---- C17 ---- *)
Theorem C17_mx_combiners_bijective_in_each_argument :
  forall f, In f [combine32_mx1; combine32_mx2; combine32_mx3] ->
    (forall y, is_word 32 y -> word_bijection 32 (fun x => f x y)) /\
    (forall x, is_word 32 x -> word_bijection 32 (fun y => f x y)).
Proof. exact mx_combiners_both. Qed.
Print Assumptions C17_mx_combiners_bijective_in_each_argument.

Theorem C17_boost_bijective_in_second : forall x, is_word 32 x ->
  word_bijection 32 (fun y => combine32_boost x y).
Proof. exact combine32_boost_y. Qed.
Print Assumptions C17_boost_bijective_in_second.

(* Finding: boost's combiner loses information of its first argument. *)
Theorem C17_boost_bijective_in_first_refuted :
  exists x x' y, is_word 32 x /\ is_word 32 x' /\ is_word 32 y /\ x <> x' /\
    combine32_boost x y = combine32_boost x' y.
Proof. exact boost_collision. Qed.
Print Assumptions C17_boost_bijective_in_first_refuted.

Example C17_instance : combine32_mx1 1 2 <> combine32_mx1 2 1 /\ List.length combiners32 = 4%nat.
Proof. vm_compute. split; [discriminate|reflexivity]. Qed.

(* ---- C57 ---- *)
(* Every word width except 16: bijective exactly for non-zero shifts and an odd multiplier. *)
Theorem C57_constructions_bijective_iff : forall w mixer shifts m,
  In w [8; 32; 64] -> is_word w m -> Forall (fun c => c < w) shifts ->
  is_construction w m shifts mixer ->
  ((exists f, (forall x, is_word w x -> mixer x = Ok (f x)) /\ word_bijection w f)
   <-> (~ In 0 shifts /\ N.odd m = true)).
Proof. exact constructions_iff. Qed.
Print Assumptions C57_constructions_bijective_iff.

(* 16 bit words: the multiplication is done in signed int, so multipliers above 2^15 overflow. *)
Theorem C57_constructions_16_bijective_iff : forall mixer shifts m,
  is_word 16 m -> Forall (fun c => c < 16) shifts ->
  is_construction 16 m shifts mixer ->
  ((exists f, (forall x, is_word 16 x -> mixer x = Ok (f x)) /\ word_bijection 16 f)
   <-> (~ In 0 shifts /\ N.odd m = true /\ m <= 32768)).
Proof. exact constructions16_iff. Qed.
Print Assumptions C57_constructions_16_bijective_iff.

Theorem C57_even_multiplier_collides : forall w mixer shifts m,
  In w widths -> is_word w m -> Forall (fun c => c < w) shifts ->
  is_construction w m shifts mixer -> N.odd m = false ->
  exists x y, is_word w x /\ is_word w y /\ x <> y /\ mixer x = Ok 0 /\ mixer y = Ok 0.
Proof. exact constructions_even. Qed.
Print Assumptions C57_even_multiplier_collides.

Theorem C57_large_16bit_multiplier_overflows : forall mixer shifts m,
  is_word 16 m -> 32768 < m -> Forall (fun c => 0 < c < 16) shifts ->
  is_construction 16 m shifts mixer ->
  exists x, is_word 16 x /\ mixer x = UB.
Proof. exact constructions16_ub. Qed.
Print Assumptions C57_large_16bit_multiplier_overflows.

(* The shift constants are the first n fields of log2(w) bits, the multiplier the next w bits. *)
Theorem C57_constants_decoded : forall w bv l n, In w widths -> observes bv l ->
  let s := N.to_nat (N.log2 w) in
  (n * s + N.to_nat w <= List.length l)%nat ->
  to_constants w bv n =
    Ok (map (fun k => value_lsb (firstn s (skipn (k * s) l))) (seq 0 n),
        value_lsb (firstn (N.to_nat w) (skipn (n * s) l))).
Proof. exact to_constants_decodes. Qed.
Print Assumptions C57_constants_decoded.

(* The decoded constants always are in-range shifts and a word. *)
Theorem C57_decoded_constants_in_range : forall w bv l n cs m, In w widths -> observes bv l ->
  (n * N.to_nat (N.log2 w) + N.to_nat w <= List.length l)%nat ->
  to_constants w bv n = Ok (cs, m) ->
  Forall (fun c => c < w) cs /\ is_word w m /\ List.length cs = n.
Proof. exact to_constants_range. Qed.
Print Assumptions C57_decoded_constants_in_range.

Example C57_instance :
  is_construction 32 1159349557 [16; 14; 13] (xm2x_mixer 32 16 14 13 1159349557)
  /\ xm2x_mixer 32 16 14 13 1159349557 12345 = Ok (mix32_mx2 12345)
  /\ (exists x, xmx_mixer 16 8 7 65535 x = UB)
  /\ exists bv, bv_add bv_empty 0x1ffffffffff 45 = Ok bv /\ to_constants 32 bv 2 = Ok ([31; 31], 0x7fffffff).
Proof.
  split; [reflexivity|]. split; [vm_compute; reflexivity|].
  split; [exists 0xff00; vm_compute; reflexivity|].
  eexists. vm_compute. split; reflexivity.
Qed.
