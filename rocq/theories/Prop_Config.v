(* Property C108: the search configurations: number of bits, printed code, printed constants. *)
From Coq Require Import NArith ZArith List String Ascii Lia.
From Verif Require Import Base BitwiseModel BitwiseSpec BitVectorModel BitVectorSpec BitVectorProofs MixerModel MixerProofs ResultModel LimitProofs ConfigModel ConfigSpec ConfigProofs.
Import ListNotations.
Open Scope N_scope.

(* ---- C108: the printed code of a found mixer is the mixer that was tested ---- *)
Ltac step H := match type of H with obind ?a _ = Ok _ => let E := fresh "E" in destruct a eqn:E; [cbn [obind] in H|discriminate H] end.
Lemma code_intro w ls f : w <> 8 -> (forall x y, is_word w x -> f x = Ok y -> run_code w ls x = Ok y) -> code_of w (texts w ls) f.
Proof. intros Hw H. exists ls. split; [apply read_code_texts, Hw|exact H]. Qed.
Lemma in_wide w : In w [16; 32; 64] -> In w widths /\ w <> 8.
Proof. intros [<-|[<-|[<-|[]]]]; (split; [cbn; tauto|discriminate]). Qed.
(* xmx and xm3x: the text is C++ code for the mixer, whatever the constants are (for 16-bit words wherever the mixer does not overflow). *)
Theorem C108_code : forall w c1 c2 c3 c4 m, In w [16; 32; 64] -> is_word w m ->
  code_of w (xmx_to_str w c1 c2 m) (xmx_mixer w c1 c2 m) /\ code_of w (xm3x_to_str w c1 c2 c3 c4 m) (xm3x_mixer w c1 c2 c3 c4 m).
Proof.
  intros w c1 c2 c3 c4 m Hw Hm. destruct (in_wide w Hw) as [W W8]. rewrite xmx_texts, xm3x_texts. split; apply code_intro; try exact W8; intros x y Hx H.
  - unfold xmx_mixer in H. step H. step H. cbn [run_code]. rewrite (run_shift w c1 x _ W E). cbn [obind]. rewrite (run_times_ull w m _ _ W Hm E0). cbn [obind]. rewrite (run_shift w c2 _ _ W H). reflexivity.
  - unfold xm3x_mixer in H. step H. step H. step H. step H. step H. step H. cbn [run_code]. rewrite (run_shift w c1 x _ W E). cbn [obind]. rewrite (run_times_ull w m _ _ W Hm E0). cbn [obind]. rewrite (run_shift w c2 _ _ W E1). cbn [obind].
    rewrite (run_times_ull w m _ _ W Hm E2). cbn [obind]. rewrite (run_shift w c3 _ _ W E3). cbn [obind]. rewrite (run_times_ull w m _ _ W Hm E4). cbn [obind]. rewrite (run_shift w c4 _ _ W H). reflexivity.
Qed.
Print Assumptions C108_code.
(* xm2x, whose multiplier is printed without a suffix: the same for multipliers below 2^31, or below 2^63 and 64-bit words. *)
Theorem C108_code_xm2x : forall w c1 c2 c3 m, In w [16; 32; 64] -> is_word w m -> m < 2 ^ 31 \/ (w = 64 /\ m < 2 ^ 63) ->
  code_of w (xm2x_to_str w c1 c2 c3 m) (xm2x_mixer w c1 c2 c3 m).
Proof.
  intros w c1 c2 c3 m Hw Hm B. destruct (in_wide w Hw) as [W W8]. rewrite xm2x_texts. apply code_intro; [exact W8|]. intros x y Hx H.
  unfold xm2x_mixer in H. step H. step H. step H. step H. cbn [run_code]. rewrite (run_shift w c1 x _ W E). cbn [obind]. pose proof (xshr_word w c1 x _ Hx E) as X1. rewrite (run_times w m _ _ W Hm X1 B E0). cbn [obind].
  pose proof (mul_word w m _ _ E0) as X2. rewrite (run_shift w c2 _ _ W E1). cbn [obind]. pose proof (xshr_word w c2 _ _ X2 E1) as X3. rewrite (run_times w m _ _ W Hm X3 B E2). cbn [obind]. rewrite (run_shift w c3 _ _ W H). reflexivity.
Qed.
Print Assumptions C108_code_xm2x.
(* Other multipliers: 32-bit words are multiplied as signed long, which overflows for some x, although the mixer itself is
   defined for every x; for 64 bits the literal is too large. *)
Theorem C108_xm2x_refuted : forall c1 c2 c3 m, 0 < c1 < 32 -> c2 < 32 -> c3 < 32 -> 2 ^ 31 < m < 2 ^ 32 ->
  (forall x, is_word 32 x -> exists y, xm2x_mixer 32 c1 c2 c3 m x = Ok y) /\
  exists ls, read_code (xm2x_to_str 32 c1 c2 c3 m) = Some ls /\ exists x, is_word 32 x /\ run_code 32 ls x = UB.
Proof.
  intros c1 c2 c3 m H1 H2 H3 Hm. split.
  - intros x Hx. unfold xm2x_mixer. rewrite xshr_assign_ok by lia. cbn [obind]. unfold mul_assign. change (32 <? 32) with false. cbn iota. cbn [obind]. rewrite xshr_assign_ok by lia. cbn [obind]. rewrite xshr_assign_ok by lia. eexists. reflexivity.
  - rewrite xm2x_texts. eexists. split; [apply read_code_texts; discriminate|].
    assert (W : is_word 32 (2 ^ 32 - 1)) by (unfold is_word; cbn; lia).
    destruct (bij_xshr 32 c1 ltac:(lia)) as (_ & _ & S). destruct (S (2 ^ 32 - 1) W) as (x & Hx & E).
    exists x. split; [exact Hx|]. cbn [run_code run_line]. change (32 <? 32) with false. cbn iota. replace (c1 <? 32) with true by (symmetry; apply N.ltb_lt; lia). cbn [obind].
    unfold xshr in E. rewrite E. replace (m <? 2 ^ 31) with false by (symmetry; apply N.ltb_ge; lia). replace (m <? 2 ^ 63) with true by (symmetry; apply N.ltb_lt; eapply N.lt_trans; [apply Hm|reflexivity]). change (32 <? 64) with true. cbn iota.
    replace ((2 ^ 32 - 1) * m <? 2 ^ 63) with false; [reflexivity|]. symmetry. apply N.ltb_ge. apply N.le_trans with ((2 ^ 32 - 1) * (2 ^ 31 + 1)); [vm_compute; discriminate|]. apply N.mul_le_mono_l. lia.
Qed.
Print Assumptions C108_xm2x_refuted.
Theorem C108_xm2x_64_refuted : forall c1 c2 c3 m, 2 ^ 63 <= m -> exists ls, read_code (xm2x_to_str 64 c1 c2 c3 m) = Some ls /\ forall x, run_code 64 ls x = UB.
Proof.
  intros c1 c2 c3 m Hm. rewrite xm2x_texts. eexists. split; [apply read_code_texts; discriminate|]. intros x. cbn [run_code run_line]. change (64 <? 32) with false. cbn iota. destruct (c1 <? 64); [|reflexivity]. cbn [obind].
  replace (m <? 2 ^ 31) with false by (symmetry; apply N.ltb_ge; eapply N.le_trans; [|exact Hm]; discriminate). replace (m <? 2 ^ 63) with false by (symmetry; apply N.ltb_ge; exact Hm). reflexivity.
Qed.
Print Assumptions C108_xm2x_64_refuted.
(* 8-bit words: the constants are printed as characters; the text is no code. *)
Theorem C108_bytes_refuted : forall c1 c2 c3 c4 m, c1 < 8 ->
  read_code (xmx_to_str 8 c1 c2 m) = None /\ read_code (xm2x_to_str 8 c1 c2 c3 m) = None /\ read_code (xm3x_to_str 8 c1 c2 c3 c4 m) = None.
Proof.
  intros c1 c2 c3 c4 m H. assert (K : forall s f, read_lines f (shift_line 8 c1 ++ s)%string = None).
  { intros s f. unfold shift_line. change (number 8 c1) with (String (ascii_of_N c1) EmptyString). rewrite !app_assoc_s.
    assert (R : read_line ("    x ^= x >> " ++ String (ascii_of_N c1) EmptyString ++ ";" ++ newline ++ s)%string = None).
    { unfold read_line. rewrite cut_app. unfold read_number. cbn [String.append digits]. replace (is_digit (ascii_of_N c1)) with false; [reflexivity|].
      symmetry. unfold is_digit. rewrite N_ascii_embedding by lia. replace (48 <=? c1) with false by (symmetry; apply N.leb_gt; lia). reflexivity. }
    destruct f as [|f]; [reflexivity|]. cbn [String.append read_lines]. cbn [String.append] in R. rewrite R. reflexivity. }
  unfold xmx_to_str, xm2x_to_str, xm3x_to_str, read_code. rewrite !K. auto.
Qed.
Print Assumptions C108_bytes_refuted.

(* The number of bits of a configuration is just what the constants take: every vector of that size has texts, those of the mixer that is tested. *)
Lemma log2_w w : In w widths -> shift_sizeof w = Z.of_nat (N.to_nat (N.log2 w)).
Proof. apply shift_sizeof_val. Qed.
Theorem C108_bits : forall w bv l, In w widths -> observes bv l ->
  let shift_at k := value_lsb (firstn (N.to_nat (N.log2 w)) (skipn (k * N.to_nat (N.log2 w)) l)) in
  let last := value_lsb (skipn (length l - N.to_nat w) l) in
  (Z.of_nat (length l) = xmx_bits w -> xmx_text w bv = Ok (xmx_to_str w (shift_at 0%nat) (shift_at 1%nat) last, xmx_to_arr_str w (shift_at 0%nat) (shift_at 1%nat) last)) /\
  (Z.of_nat (length l) = xm2x_bits w -> xm2x_text w bv = Ok (xm2x_to_str w (shift_at 0%nat) (shift_at 1%nat) (shift_at 2%nat) last, xm2x_to_arr_str w (shift_at 0%nat) (shift_at 1%nat) (shift_at 2%nat) last)) /\
  (Z.of_nat (length l) = xm3x_bits w -> xm3x_text w bv = Ok (xm3x_to_str w (shift_at 0%nat) (shift_at 1%nat) (shift_at 2%nat) (shift_at 3%nat) last, xm3x_to_arr_str w (shift_at 0%nat) (shift_at 1%nat) (shift_at 2%nat) (shift_at 3%nat) last)).
Proof.
  intros w bv l Hw Ho shift_at last.
  assert (K : forall n, Z.of_nat (length l) = (Z.of_nat n * shift_sizeof w + Z.of_N w)%Z -> to_constants w bv n = Ok (map shift_at (seq 0 n), last)).
  { intros n Hl. rewrite (log2_w w Hw) in Hl. assert (L : length l = (n * N.to_nat (N.log2 w) + N.to_nat w)%nat) by lia.
    rewrite (to_constants_decodes w bv l n Hw Ho) by lia. unfold last. rewrite L. replace (n * N.to_nat (N.log2 w) + N.to_nat w - N.to_nat w)%nat with (n * N.to_nat (N.log2 w))%nat by lia.
    rewrite (firstn_all2 (skipn (n * N.to_nat (N.log2 w)) l)) by (rewrite skipn_length; lia). reflexivity. }
  unfold xmx_text, xm2x_text, xm3x_text, xmx_bits, xm2x_bits, xm3x_bits. split; [|split]; intros Hl; rewrite K by exact Hl; reflexivity.
Qed.
Print Assumptions C108_bits.

(* The printed list of constants determines them. *)
Lemma comma_inj a b r s : (to_string_N a ++ ", " ++ r = to_string_N b ++ ", " ++ s)%string -> a = b /\ r = s.
Proof.
  intros H. change (", " ++ r)%string with (String "," (String " " r)) in H. change (", " ++ s)%string with (String "," (String " " s)) in H.
  assert (E : read_number (to_string_N a ++ String "," (String " " r))%string = read_number (to_string_N b ++ String "," (String " " s))%string) by (rewrite H; reflexivity).
  rewrite !read_number_spec in E by reflexivity. injection E as -> ->. auto.
Qed.
Theorem C108_constants : forall w c1 c2 c3 c4 m c1' c2' c3' c4' m', w <> 8 ->
  (xmx_to_arr_str w c1 c2 m = xmx_to_arr_str w c1' c2' m' -> (c1, c2, m) = (c1', c2', m')) /\
  (xm2x_to_arr_str w c1 c2 c3 m = xm2x_to_arr_str w c1' c2' c3' m' -> (c1, c2, c3, m) = (c1', c2', c3', m')) /\
  (xm3x_to_arr_str w c1 c2 c3 c4 m = xm3x_to_arr_str w c1' c2' c3' c4' m' -> (c1, c2, c3, c4, m) = (c1', c2', c3', c4', m')).
Proof.
  intros w c1 c2 c3 c4 m c1' c2' c3' c4' m' W. unfold xmx_to_arr_str, xm2x_to_arr_str, xm3x_to_arr_str. rewrite !(number_eq w) by exact W.
  split; [|split]; intros H; repeat (apply comma_inj in H; destruct H as [-> H]); apply to_string_inj in H; subst; reflexivity.
Qed.
Print Assumptions C108_constants.
Example C108_instance : xm2x_to_arr_str 32 16 14 13 1159349557 = "16, 14, 13, 1159349557"%string /\ In 32 [16; 32; 64] /\ is_word 32 1159349557 /\ 1159349557 < 2 ^ 31 /\
  run_code 32 [Shift 16; Times false 1159349557; Shift 14; Times false 1159349557; Shift 13] 12345 = Ok (mix32_mx2 12345) /\ read_code (xm2x_to_str 32 16 14 13 1159349557) = Some [Shift 16; Times false 1159349557; Shift 14; Times false 1159349557; Shift 13] /\
  xmx_bits 64 = 76%Z /\ xm3x_bits 64 = 88%Z /\ (exists bv, observes bv (repeat false 47)) /\ Z.of_nat (length (repeat false 47)) = xm2x_bits 32.
Proof.
  repeat split; try (vm_compute; reflexivity); try (right; left; reflexivity).
  destruct (bit_vector_refines 47 []) as (bv0 & bv & E0 & E & O); [vm_compute; discriminate|exact I|exists bv; exact O].
Qed.
