From Coq Require Import String Znumtheory Zpow_facts.
From Verif Require Import Base BitwiseModel BitwiseSpec WordLemmas WordBij BitwiseProofs
  BitVectorModel BitVectorSpec MixerModel MixerSpec.
Open Scope N_scope.

(* ---------- elementary bijections ---------- *)

Lemma bij_upper_w w h :
  (forall x, is_word w x -> is_word w (h x)) ->
  (forall x y i, is_word w x -> is_word w y -> (forall j, i < j -> N.testbit x j = N.testbit y j) ->
                 N.testbit (h x) i = N.testbit (h y) i) ->
  word_bijection w (fun x => N.lxor x (h x)).
Proof.
  intros Hw Hh. apply inj_bij.
  - intros x Hx. apply word_lxor; auto.
  - intros x y Hx Hy E.
    assert (H : forall n i, w - N.of_nat n <= i -> N.testbit x i = N.testbit y i).
    { induction n as [|n IH]; intros i Hi.
      - rewrite (word_high w x i Hx), (word_high w y i Hy) by lia. reflexivity.
      - destruct (N.le_gt_cases (w - N.of_nat n) i) as [H|H]; [apply IH, H|].
        assert (Eb : N.testbit (N.lxor x (h x)) i = N.testbit (N.lxor y (h y)) i) by (rewrite E; reflexivity).
        rewrite !N.lxor_spec in Eb. rewrite (Hh x y i Hx Hy) in Eb by (intros j Hj; apply IH; lia).
        destruct (N.testbit x i), (N.testbit y i), (N.testbit (h y) i); cbn in Eb; congruence. }
    apply (word_ext w); auto. intros i Hi. apply (H (N.to_nat w)). lia.
Qed.

Lemma bij_upper w h :
  (forall x, is_word w x -> is_word w (h x)) ->
  (forall x y i, (forall j, i < j -> N.testbit x j = N.testbit y j) ->
                 N.testbit (h x) i = N.testbit (h y) i) ->
  word_bijection w (fun x => N.lxor x (h x)).
Proof. intros Hw Hh. apply bij_upper_w; [exact Hw|]. intros x y i _ _. apply Hh. Qed.

Lemma bij_xshr w k : 0 < k -> word_bijection w (xshr k).
Proof.
  intros Hk. apply (bij_upper w (fun x => N.shiftr x k)).
  - intros x Hx. apply word_shiftr, Hx.
  - intros x y i H. rewrite !shiftr_testbit. apply H. lia.
Qed.

Lemma bij_xshr2 w k l : 0 < k -> 0 < l ->
  word_bijection w (fun x => N.lxor x (N.lxor (N.shiftr x k) (N.shiftr x l))).
Proof.
  intros Hk Hl. apply (bij_upper w (fun x => N.lxor (N.shiftr x k) (N.shiftr x l))).
  - intros x Hx. apply word_lxor; apply word_shiftr, Hx.
  - intros x y i H. rewrite !N.lxor_spec, !shiftr_testbit. f_equal; apply H; lia.
Qed.

Lemma pow2_rel_prime w c : N.odd c = true -> rel_prime (Z.of_N (2 ^ w)) (Z.of_N c).
Proof.
  intros Hc. rewrite N2Z.inj_pow. apply rel_prime_sym, rel_prime_Zpower_r; [lia|].
  apply rel_prime_sym. apply prime_rel_prime; [apply prime_2|]. intros [q Hq].
  rewrite N.odd_spec in Hc || apply N.odd_spec in Hc. destruct Hc as [m ->]. lia.
Qed.

Lemma odd_mul_inj_Z (P c x y : Z) : (0 < P)%Z -> rel_prime P c -> (0 <= x < P)%Z -> (0 <= y < P)%Z ->
  ((x * c) mod P = (y * c) mod P)%Z -> x = y.
Proof.
  intros HP Hc Hx Hy E.
  assert (D : (P | c * (x - y))%Z).
  { apply Z.mod_divide; [intros ->; revert HP; apply Z.lt_irrefl|].
    rewrite Z.mul_comm, Z.mul_sub_distr_r, Zminus_mod, E, Z.sub_diag. apply Z.mod_0_l.
    intros ->; revert HP; apply Z.lt_irrefl. }
  apply Gauss in D; [|exact Hc]. destruct D as [q Hq].
  assert (q = 0 \/ q <= -1 \/ 1 <= q)%Z as [->|[H|H]] by lia; nia.
Qed.

Lemma odd_mul_inj w c x y : N.odd c = true -> is_word w x -> is_word w y ->
  wrap w (x * c) = wrap w (y * c) -> x = y.
Proof.
  intros Hc Hx Hy E. unfold wrap, is_word in *. apply N2Z.inj.
  apply (f_equal Z.of_N) in E. rewrite !N2Z.inj_mod, !N2Z.inj_mul in E.
  pose proof (pow2_rel_prime w c Hc) as R. pose proof (pow2_ne0 w) as Hn.
  apply (odd_mul_inj_Z (Z.of_N (2 ^ w)) (Z.of_N c)); [|exact R| | |exact E].
  - apply N2Z.inj_lt in Hx. eapply Z.le_lt_trans; [apply (N2Z.is_nonneg x)|exact Hx].
  - split; [apply N2Z.is_nonneg|apply N2Z.inj_lt, Hx].
  - split; [apply N2Z.is_nonneg|apply N2Z.inj_lt, Hy].
Qed.

Lemma bij_mulw w c : N.odd c = true -> word_bijection w (mulw w c).
Proof.
  intros Hc. apply inj_bij.
  - intros x _. apply wrap_word.
  - intros x y Hx Hy E. exact (odd_mul_inj w c x y Hc Hx Hy E).
Qed.

Lemma bij_addw w c : word_bijection w (addw w c).
Proof.
  apply inj_bij.
  - intros x _. apply wrap_word.
  - intros x y Hx Hy E. unfold addw in E.
    apply (odd_mul_inj w 1 x y eq_refl Hx Hy). rewrite !N.mul_1_r.
    set (c' := 2 ^ w - wrap w c).
    assert (Hz : wrap w (c + c') = 0).
    { unfold c'. rewrite <- wrap_add_l. unfold wrap at 1.
      pose proof (wrap_word w c). unfold is_word in *. replace (wrap w c + (2 ^ w - wrap w c)) with (2 ^ w) by lia.
      apply N.mod_same, pow2_ne0. }
    assert (H : forall z, wrap w (wrap w (z + c) + c') = wrap w z).
    { intro z. rewrite wrap_add_l, <- N.add_assoc, <- wrap_add_r, Hz, N.add_0_r. reflexivity. }
    rewrite <- (H x), <- (H y), E. reflexivity.
Qed.

Lemma bij_xorc w c : is_word w c -> word_bijection w (fun x => N.lxor x c).
Proof.
  intros Hc. apply (bij_intro w _ (fun x => N.lxor x c)); intros x Hx.
  - apply word_lxor; assumption.
  - apply word_lxor; assumption.
  - rewrite N.lxor_assoc, N.lxor_nilpotent, N.lxor_0_r. reflexivity.
  - rewrite N.lxor_assoc, N.lxor_nilpotent, N.lxor_0_r. reflexivity.
Qed.

Lemma bij_list w fs : Forall (word_bijection w) fs ->
  word_bijection w (fun x => fold_left (fun a f => f a) fs x).
Proof.
  induction 1 as [|f fs Hf Hfs IH]; [apply bij_id|]. cbn [fold_left].
  exact (bij_comp w f _ Hf IH).
Qed.

(* x + c + (x << k) is an odd multiple plus a constant. *)
Lemma add_shift_affine w c k x : wrap w (wrap w (x + c) + wrap w (N.shiftl x k)) =
  addw w c (mulw w (1 + 2 ^ k) x).
Proof.
  unfold addw, mulw. rewrite wrap_add, wrap_add_l, N.shiftl_mul_pow2. f_equal. lia.
Qed.

Lemma bij_add_shift w c k : 0 < k -> word_bijection w (fun x => wrap w (wrap w (x + c) + wrap w (N.shiftl x k))).
Proof.
  intros Hk. apply (bij_ext w (fun x => addw w c (mulw w (1 + 2 ^ k) x))).
  - intros x _. symmetry. apply add_shift_affine.
  - apply bij_comp; [|apply bij_addw]. apply bij_mulw.
    replace k with (N.succ (k - 1)) by lia. rewrite N.pow_succ_r', N.odd_add_mul_2. reflexivity.
Qed.

Lemma testbit_add_low x c i :
  N.testbit (x + c) i = xorb (N.testbit x i) (N.testbit (x mod 2 ^ i + c) i).
Proof.
  rewrite !N.testbit_odd, !N.shiftr_div_pow2.
  pose proof (pow2_ne0 i). rewrite (N.div_mod' x (2 ^ i)) at 1.
  replace (2 ^ i * (x / 2 ^ i) + x mod 2 ^ i + c) with (x mod 2 ^ i + c + (x / 2 ^ i) * 2 ^ i) by lia.
  rewrite N.div_add by assumption. rewrite N.odd_add, xorb_comm. reflexivity.
Qed.

Lemma bij_lower w f :
  (forall x, is_word w x -> is_word w (f x)) ->
  (forall x y i, i < w -> (forall j, j < i -> N.testbit x j = N.testbit y j) ->
      N.testbit (f x) i = N.testbit (f y) i -> N.testbit x i = N.testbit y i) ->
  word_bijection w f.
Proof.
  intros Hw Hf. apply inj_bij; [exact Hw|]. intros x y Hx Hy E.
  assert (H : forall n i, i < w -> i < N.of_nat n -> N.testbit x i = N.testbit y i).
  { induction n as [|n IH]; intros i Hi Hn; [lia|].
    apply Hf; [exact Hi| |rewrite E; reflexivity]. intros j Hj. apply IH; lia. }
  apply (word_ext w); auto. intros i Hi. apply (H (N.to_nat w)); lia.
Qed.

Lemma mod_pow2_ext x y i : (forall j, j < i -> N.testbit x j = N.testbit y j) -> x mod 2 ^ i = y mod 2 ^ i.
Proof.
  intros H. apply N.bits_inj. intro j. destruct (N.lt_ge_cases j i) as [Hj|Hj].
  - rewrite !N.mod_pow2_bits_low by exact Hj. apply H, Hj.
  - rewrite !N.mod_pow2_bits_high by exact Hj. reflexivity.
Qed.

Lemma bij_add_xor_shl w c k : 0 < k ->
  word_bijection w (fun x => N.lxor (wrap w (x + c)) (wrap w (N.shiftl x k))).
Proof.
  intros Hk. apply bij_lower.
  - intros x _. apply word_lxor; apply wrap_word.
  - intros x y i Hi Hl E. rewrite !N.lxor_spec, !wrap_testbit, !shiftl_testbit in E.
    destruct (N.ltb_spec i w); [|lia]. cbn [andb] in E.
    rewrite (testbit_add_low x), (testbit_add_low y), (mod_pow2_ext x y i Hl) in E.
    replace ((k <=? i) && N.testbit x (i - k)) with ((k <=? i) && N.testbit y (i - k)) in E.
    2:{ destruct (N.leb_spec k i); [|reflexivity]. cbn [andb]. symmetry. apply Hl. lia. }
    set (a := N.testbit (y mod 2 ^ i + c) i) in *. set (b := (k <=? i) && N.testbit y (i - k)) in *.
    destruct (N.testbit x i), (N.testbit y i), a, b; cbn in E; congruence.
Qed.

(* ---------- xor of rotations (nasam) ---------- *)

Lemma rol_lxor w x y r : 0 < w -> is_word w x -> is_word w y ->
  rol w (N.lxor x y) r = N.lxor (rol w x r) (rol w y r).
Proof.
  intros Hw Hx Hy. pose proof (word_lxor w x y Hx Hy) as Hxy.
  destruct (rol_moves w x r Hw Hx) as [A1 A2], (rol_moves w y r Hw Hy) as [B1 B2],
    (rol_moves w _ r Hw Hxy) as [C1 C2].
  apply (word_ext w); [exact C1|apply word_lxor; assumption|]. intros i Hi.
  rewrite (C2 i Hi), !N.lxor_spec, (A2 i Hi), (B2 i Hi). reflexivity.
Qed.

Definition xrot (w : N) (a b : Z) (x : N) : N := N.lxor x (N.lxor (ror w x a) (ror w x b)).

Lemma xrot_word w a b x : 0 < w -> is_word w x -> is_word w (xrot w a b x).
Proof. intros Hw Hx. apply word_lxor; [exact Hx|]. apply word_lxor; apply ror_word; assumption. Qed.

Lemma xrot_twice w a b x : 0 < w -> is_word w x -> xrot w a b (xrot w a b x) = xrot w (a + a) (b + b) x.
Proof.
  intros Hw Hx. unfold xrot. rewrite !ror_rol_neg.
  assert (Ha : is_word w (rol w x (- a))) by (apply rol_word; assumption).
  assert (Hb : is_word w (rol w x (- b))) by (apply rol_word; assumption).
  assert (Hab : is_word w (N.lxor (rol w x (- a)) (rol w x (- b)))) by (apply word_lxor; assumption).
  rewrite !rol_lxor, !rol_rol by assumption.
  replace (- a + - a)%Z with (- (a + a))%Z by lia. replace (- b + - b)%Z with (- (b + b))%Z by lia.
  replace (- b + - a)%Z with (- a + - b)%Z by lia.
  apply N.bits_inj. intro i. rewrite !N.lxor_spec.
  destruct (N.testbit x i), (N.testbit (rol w x (- a)) i), (N.testbit (rol w x (- b)) i),
    (N.testbit (rol w x (- a + - b)) i), (N.testbit (rol w x (- (a + a))) i),
    (N.testbit (rol w x (- (b + b))) i); reflexivity.
Qed.

Lemma bij_xrot64 a b : word_bijection 64 (xrot 64 a b).
Proof.
  apply inj_bij.
  - intros x Hx. apply xrot_word; [lia|exact Hx].
  - assert (Hinj : forall a b, (forall x y, is_word 64 x -> is_word 64 y ->
        xrot 64 (a + a) (b + b) x = xrot 64 (a + a) (b + b) y -> x = y) ->
        forall x y, is_word 64 x -> is_word 64 y -> xrot 64 a b x = xrot 64 a b y -> x = y).
    { intros a' b' H x y Hx Hy E. apply H; auto. rewrite <- !xrot_twice by (lia || assumption).
      rewrite E. reflexivity. }
    assert (Hid : forall z, is_word 64 z -> forall a b,
      xrot 64 (a * Z.of_N 64) (b * Z.of_N 64) z = z).
    { intros z Hz a' b'. unfold xrot. rewrite !ror_rol_neg, <- !Z.mul_opp_l, !rol_width by lia.
      rewrite N.lxor_nilpotent, N.lxor_0_r. reflexivity. }
    assert (Hpow : forall n a b, (forall x y, is_word 64 x -> is_word 64 y ->
        xrot 64 (a * 2 ^ Z.of_nat n) (b * 2 ^ Z.of_nat n) x = xrot 64 (a * 2 ^ Z.of_nat n) (b * 2 ^ Z.of_nat n) y -> x = y) ->
        forall x y, is_word 64 x -> is_word 64 y -> xrot 64 a b x = xrot 64 a b y -> x = y).
    { induction n as [|n IH]; intros a' b' H.
      - change (2 ^ Z.of_nat 0)%Z with 1%Z in H. rewrite !Z.mul_1_r in H. exact H.
      - apply Hinj, IH. rewrite Nat2Z.inj_succ, Z.pow_succ_r in H by lia.
        replace ((a' + a') * 2 ^ Z.of_nat n)%Z with (a' * (2 * 2 ^ Z.of_nat n))%Z by ring.
        replace ((b' + b') * 2 ^ Z.of_nat n)%Z with (b' * (2 * 2 ^ Z.of_nat n))%Z by ring. exact H. }
    apply (Hpow 6%nat). intros x y Hx Hy E. change (2 ^ Z.of_nat 6)%Z with (Z.of_N 64) in E.
    rewrite !Hid in E by assumption. exact E.
Qed.

(* ---------- the mixers ---------- *)

Ltac bij_step :=
  first [ apply bij_xshr; lia
        | apply bij_mulw; reflexivity
        | apply bij_addw
        | apply bij_xshr2; lia
        | apply bij_xrot64
        | apply bij_add_shift; lia
        | apply bij_add_xor_shl; lia
        | apply bij_xorc; reflexivity ].
Ltac bij_steps := repeat (apply Forall_cons; [bij_step|]); apply Forall_nil.

Lemma xmxmx64_bij a c b d e : 0 < a -> 0 < b -> 0 < e -> N.odd c = true -> N.odd d = true ->
  word_bijection 64 (xmxmx64 a c b d e).
Proof.
  intros Ha Hb He Hc Hd.
  refine (bij_list 64 [xshr a; mulw 64 c; xshr b; mulw 64 d; xshr e] _).
  repeat (apply Forall_cons; [first [apply bij_xshr; assumption|apply bij_mulw; assumption]|]).
  apply Forall_nil.
Qed.

Lemma bij_xor_const_shr w c k : 0 < k -> is_word w c ->
  word_bijection w (fun x => N.lxor (N.lxor x c) (N.shiftr x k)).
Proof.
  intros Hk Hc. apply (bij_ext w (fun x => N.lxor (xshr k x) c)).
  - intros x _. unfold xshr. rewrite !N.lxor_assoc. f_equal. apply N.lxor_comm.
  - apply (bij_comp w (xshr k) (fun x => N.lxor x c)); [apply bij_xshr, Hk|apply bij_xorc, Hc].
Qed.

Lemma mixers32_bij : Forall (fun nm => word_bijection 32 (snd nm)) mixers32.
Proof.
  unfold mixers32. repeat apply Forall_cons; try apply Forall_nil; cbn [snd].
  - refine (bij_list 32 [xshr 16; mulw 32 2471660141; xshr 14] _). bij_steps.
  - refine (bij_list 32 [xshr 16; mulw 32 1159349557; xshr 14; mulw 32 1159349557; xshr 13] _). bij_steps.
  - refine (bij_list 32 [xshr 16; mulw 32 1159349557; xshr 14; mulw 32 1159349557; xshr 16;
                         mulw 32 1159349557; xshr 14] _). bij_steps.
  - refine (bij_list 32 [xshr 15; mulw 32 0x2c1b3c6d; xshr 12; mulw 32 0x297a2d39; xshr 15] _). bij_steps.
  - refine (bij_list 32 [xshr 16; mulw 32 0x21f0aaad; xshr 15; mulw 32 0x735a2d97; xshr 15] _). bij_steps.
  - refine (bij_list 32 [xshr 16; mulw 32 0x85ebca6b; xshr 13; mulw 32 0xc2b2ae35; xshr 16] _). bij_steps.
  - apply (bij_ext 32 (fun x => fold_left (fun a f => f a)
      [xshr 16; mulw 32 0x45d9f3b; xshr 16; mulw 32 0x45d9f3b; xshr 16] x)).
    + intros x _. cbn [fold_left]. unfold mix32_h2_sql, xshr. cbv zeta.
      rewrite !(N.lxor_comm _ (N.shiftr _ 16)). reflexivity.
    + refine (bij_list 32 _ _). bij_steps.
  - refine (bij_list 32 [fun x => N.lxor (N.lxor x 61) (N.shiftr x 16); mulw 32 9; xshr 4;
                         mulw 32 0x27d4eb2d; xshr 15] _).
    apply Forall_cons; [apply bij_xor_const_shr; [lia|reflexivity]|]. bij_steps.
  - refine (bij_list 32 [
      (fun x => wrap 32 (wrap 32 (x + 0x7ed55d16) + wrap 32 (N.shiftl x 12)));
      (fun x => N.lxor (N.lxor x 0xc761c23c) (N.shiftr x 19));
      (fun x => wrap 32 (wrap 32 (x + 0x165667b1) + wrap 32 (N.shiftl x 5)));
      (fun x => N.lxor (wrap 32 (x + 0xd3a2646c)) (wrap 32 (N.shiftl x 9)));
      (fun x => wrap 32 (wrap 32 (x + 0xfd7046c5) + wrap 32 (N.shiftl x 3)));
      (fun x => N.lxor (N.lxor x 0xb55a4f09) (N.shiftr x 16))] _).
    repeat (apply Forall_cons; [first [apply bij_xor_const_shr; [lia|reflexivity] | bij_step]|]).
    apply Forall_nil.
Qed.

Lemma mixers64_bij : Forall (fun nm => word_bijection 64 (snd nm)) mixers64.
Proof.
  unfold mixers64. repeat apply Forall_cons; try apply Forall_nil; cbn [snd];
    try (apply xmxmx64_bij; reflexivity).
  - refine (bij_list 64 [xshr 32; mulw 64 0xe9846af9b1a615d; xshr 29] _). bij_steps.
  - refine (bij_list 64 [xshr 32; mulw 64 0xbea225f9eb34556d; xshr 29; mulw 64 0xbea225f9eb34556d;
      xshr 32; mulw 64 0xbea225f9eb34556d; xshr 29] _). bij_steps.
  - refine (bij_list 64 [xrot 64 25 47; mulw 64 0x9E6C63D0676A9A99;
      (fun x => N.lxor x (N.lxor (N.shiftr x 23) (N.shiftr x 51))); mulw 64 0x9E6D62D06F6A9A9B;
      (fun x => N.lxor x (N.lxor (N.shiftr x 23) (N.shiftr x 51)))] _). bij_steps.
  - refine (bij_list 64 [xshr 37; mulw 64 0x165667919E3779F9; xshr 32] _). bij_steps.
  - refine (bij_list 64 [xshr 23; mulw 64 0x2127599bf4325c37; xshr 47] _). bij_steps.
Qed.

(* ---------- narrow mixers and the search constructions ---------- *)

Lemma mul_assign_ok w c x : is_word w x -> (w < 32 -> x * c <= 2147483647) ->
  mul_assign w c x = Ok (mulw w c x).
Proof.
  intros Hx H. unfold mul_assign. destruct (N.ltb_spec w 32) as [L|L]; [|reflexivity].
  destruct (N.ltb_spec 2147483647 (x * c)); [|reflexivity]. specialize (H L). lia.
Qed.

Lemma xshr_word w k x : is_word w x -> is_word w (xshr k x).
Proof. intros Hx. apply word_lxor; [exact Hx|apply word_shiftr, Hx]. Qed.

Lemma mulw_word w c x : is_word w (mulw w c x).
Proof. apply wrap_word. Qed.

Lemma mix8_xm3x_bij : exists f, (forall x, is_word 8 x -> mix8_xm3x x = Ok (f x)) /\ word_bijection 8 f.
Proof.
  exists (fun x => fold_left (fun a f => f a)
    [xshr 4; mulw 8 119; xshr 3; mulw 8 119; xshr 4; mulw 8 119; xshr 3] x). split.
  - intros x Hx. unfold mix8_xm3x. cbv zeta. cbn [obind fold_left].
    assert (Hb : forall z, is_word 8 z -> 8 < 32 -> z * 119 <= 2147483647)
      by (unfold is_word; intros z Hz _; change (2 ^ 8) with 256 in Hz; lia).
    repeat (rewrite mul_assign_ok; [cbn [obind]|..|apply Hb];
      try (repeat first [apply xshr_word|apply mulw_word|exact Hx])). reflexivity.
  - apply bij_list. bij_steps.
Qed.

Lemma mix16_xm3x_bij : exists f, (forall x, is_word 16 x -> mix16_xm3x x = Ok (f x)) /\ word_bijection 16 f.
Proof.
  exists (fun x => fold_left (fun a f => f a)
    [xshr 8; mulw 16 13487; xshr 7; mulw 16 13487; xshr 8; mulw 16 13487; xshr 7] x). split.
  - intros x Hx. unfold mix16_xm3x. cbv zeta. cbn [obind fold_left].
    assert (Hb : forall z, is_word 16 z -> 16 < 32 -> z * 13487 <= 2147483647)
      by (unfold is_word; intros z Hz _; change (2 ^ 16) with 65536 in Hz; lia).
    repeat (rewrite mul_assign_ok; [cbn [obind]|..|apply Hb];
      try (repeat first [apply xshr_word|apply mulw_word|exact Hx])). reflexivity.
  - apply bij_list. bij_steps.
Qed.

(* ---------- combiners ---------- *)

Lemma combine_split (C : N) (post : list (N -> N)) :
  N.odd C = true -> is_word 32 C -> Forall (word_bijection 32) post ->
  let f := fun x y => fold_left (fun a g => g a) post (N.lxor x (mulw 32 C (xshr 16 y))) in
  (forall y, is_word 32 y -> word_bijection 32 (fun x => f x y)) /\
  (forall x, is_word 32 x -> word_bijection 32 (f x)).
Proof.
  intros HC HCw Hp f. split.
  - intros y Hy. refine (bij_comp 32 (fun x => N.lxor x (mulw 32 C (xshr 16 y))) _ _ (bij_list 32 post Hp)).
    apply bij_xorc, mulw_word.
  - intros x Hx.
    apply (bij_ext 32 (fun y => fold_left (fun a g => g a) post
       (fold_left (fun a g => g a) [xshr 16; mulw 32 C; fun z => N.lxor z x] y))).
    + intros y _. unfold f. cbn [fold_left]. rewrite (N.lxor_comm x). reflexivity.
    + refine (bij_comp 32 _ _ (bij_list 32 _ _) (bij_list 32 post Hp)).
      apply Forall_cons; [apply bij_xshr; lia|]. apply Forall_cons; [apply bij_mulw, HC|].
      apply Forall_cons; [apply bij_xorc, Hx|]. apply Forall_nil.
Qed.

Definition both_bij (f : N -> N -> N) : Prop :=
  (forall y, is_word 32 y -> word_bijection 32 (fun x => f x y)) /\
  (forall x, is_word 32 x -> word_bijection 32 (f x)).

Lemma combine32_mx_both : both_bij combine32_mx1 /\ both_bij combine32_mx2 /\ both_bij combine32_mx3.
Proof.
  split; [|split].
  - refine (combine_split 2471660141 [addw 32 2471660141; xshr 14; mulw 32 2471660141; xshr 13] eq_refl eq_refl _).
    bij_steps.
  - refine (combine_split 1159349557 [addw 32 1159349557; xshr 14; mulw 32 1159349557; xshr 13;
      mulw 32 1159349557; xshr 16] eq_refl eq_refl _). bij_steps.
  - refine (combine_split 1159349557 [addw 32 1159349557; xshr 14; mulw 32 1159349557; xshr 13;
      mulw 32 1159349557; xshr 16; mulw 32 1159349557; xshr 14] eq_refl eq_refl _). bij_steps.
Qed.

Lemma combine32_boost_y x : is_word 32 x -> word_bijection 32 (combine32_boost x).
Proof.
  intros Hx.
  apply (bij_ext 32 (fun y => fold_left (fun a g => g a)
    [xshr 16; mulw 32 0x21f0aaad; xshr 15; mulw 32 0x735a2d97; xshr 15; addw 32 0x9e3779b9;
     addw 32 (wrap 32 (N.shiftl x 6)); addw 32 (N.shiftr x 2); fun z => N.lxor z x] y)).
  - intros y _. cbn [fold_left]. unfold combine32_boost, boost_hash, addw. cbv zeta.
    rewrite (N.lxor_comm x). reflexivity.
  - apply bij_list. do 8 (apply Forall_cons; [bij_step|]). apply Forall_cons; [apply bij_xorc, Hx|].
    apply Forall_nil.
Qed.

Lemma combine32_boost_x_collision :
  combine32_boost 8191 0 = combine32_boost 8434 0.
Proof. vm_compute. reflexivity. Qed.

(* ---------- constructions of the search tool ---------- *)

(* xor-shift by each constant in turn, with a multiplication between two xor-shifts *)
Fixpoint chain (w m : N) (c : N) (cs : list N) (x : N) : outcome N :=
  x <- xshr_assign w c x ;;
  match cs with
  | [] => Ok x
  | c' :: cs' => x <- mul_assign w m x ;; chain w m c' cs' x
  end.

Lemma obind_ret {A} (m : outcome A) : obind m Ok = m.
Proof. destruct m; reflexivity. Qed.

Lemma xmx_chain w c1 c2 m x : xmx_mixer w c1 c2 m x = chain w m c1 [c2] x.
Proof.
  unfold xmx_mixer. cbn [chain]. destruct (xshr_assign w c1 x) as [y|]; [|reflexivity]. cbn [obind].
  destruct (mul_assign w m y) as [z|]; [|reflexivity]. cbn [obind]. symmetry. apply obind_ret.
Qed.
Lemma xm2x_chain w c1 c2 c3 m x : xm2x_mixer w c1 c2 c3 m x = chain w m c1 [c2; c3] x.
Proof.
  unfold xm2x_mixer. cbn [chain]. destruct (xshr_assign w c1 x) as [y|]; [|reflexivity]. cbn [obind].
  destruct (mul_assign w m y) as [z|]; [|reflexivity]. cbn [obind].
  exact (xmx_chain w c2 c3 m z).
Qed.
Lemma xm3x_chain w c1 c2 c3 c4 m x : xm3x_mixer w c1 c2 c3 c4 m x = chain w m c1 [c2; c3; c4] x.
Proof.
  unfold xm3x_mixer. cbn [chain]. destruct (xshr_assign w c1 x) as [y|]; [|reflexivity]. cbn [obind].
  destruct (mul_assign w m y) as [z|]; [|reflexivity]. cbn [obind].
  exact (xm2x_chain w c2 c3 c4 m z).
Qed.

Lemma xshr_assign_ok w k x : k < w -> xshr_assign w k x = Ok (xshr k x).
Proof. intros H. unfold xshr_assign, promoted. destruct (N.leb_spec (N.max w 32) k); [lia|reflexivity]. Qed.

Lemma widths_cases w : In w widths -> w = 8 \/ w = 16 \/ w = 32 \/ w = 64.
Proof. cbn. intuition congruence. Qed.

Lemma mul_assign_defined w m x : In w widths -> is_word w x -> is_word w m -> (w = 16 -> m <= 32768) ->
  mul_assign w m x = Ok (mulw w m x).
Proof.
  intros Hw Hx Hm H16. apply mul_assign_ok; [exact Hx|]. intros L. unfold is_word in *.
  destruct (widths_cases w Hw) as [->|[->|[->| ->]]]; try lia.
  - change (2 ^ 8) with 256 in *. nia.
  - change (2 ^ 16) with 65536 in *. specialize (H16 eq_refl). nia.
Qed.

Lemma chain_bij w m cs : forall c, In w widths -> is_word w m -> N.odd m = true -> (w = 16 -> m <= 32768) ->
  Forall (fun c => 0 < c < w) (c :: cs) ->
  exists f, (forall x, is_word w x -> chain w m c cs x = Ok (f x)) /\ word_bijection w f.
Proof.
  induction cs as [|c' cs IH]; intros c Hw Hm Ho H16 Hc; inversion_clear Hc as [|? ? Hc0 Hcs].
  - exists (xshr c). split; [|apply bij_xshr; lia]. intros x Hx. cbn [chain].
    rewrite xshr_assign_ok by lia. reflexivity.
  - destruct (IH c' Hw Hm Ho H16 Hcs) as (g & Hg & Bg).
    exists (fun x => g (mulw w m (xshr c x))). split.
    + intros x Hx. cbn [chain]. rewrite xshr_assign_ok by lia. cbn [obind].
      rewrite mul_assign_defined by (try assumption; apply xshr_word; assumption). cbn [obind].
      apply Hg, mulw_word.
    + refine (bij_comp w (fun x => mulw w m (xshr c x)) g _ Bg).
      apply (bij_comp w (xshr c) (mulw w m)); [apply bij_xshr; lia|apply bij_mulw, Ho].
Qed.

Lemma xshr_0 k : xshr k 0 = 0.
Proof. unfold xshr. rewrite N.shiftr_0_l. reflexivity. Qed.
Lemma xshr_by0 x : xshr 0 x = 0.
Proof. unfold xshr. rewrite N.shiftr_0_r. apply N.lxor_nilpotent. Qed.
Lemma mul_assign_0 w m : mul_assign w m 0 = Ok 0.
Proof.
  unfold mul_assign, mulw. rewrite N.mul_0_l. destruct (w <? 32); [cbn|]; f_equal; apply wrap_small;
    apply (wrap_word w 0) || (pose proof (pow2_ne0 w); unfold is_word; lia).
Qed.

Lemma chain_0 w m cs : forall c, Forall (fun c => c < w) (c :: cs) -> chain w m c cs 0 = Ok 0.
Proof.
  induction cs as [|c' cs IH]; intros c Hc; inversion_clear Hc as [|? ? Hc0 Hcs]; cbn [chain];
    rewrite xshr_assign_ok, xshr_0 by assumption; cbn [obind]; [reflexivity|].
  rewrite mul_assign_0. cbn [obind]. apply IH, Hcs.
Qed.

(* A zero shift destroys everything. *)
Lemma chain_zero_shift w m cs : forall c x, Forall (fun c => c < w) (c :: cs) -> In 0 (c :: cs) ->
  chain w m c cs x = Ok 0 \/ chain w m c cs x = UB.
Proof.
  induction cs as [|c' cs IH]; intros c x Hc Hin; inversion_clear Hc as [|? ? Hc0 Hcs]; cbn [chain];
    rewrite xshr_assign_ok by assumption; cbn [obind].
  - destruct Hin as [->|[]]. rewrite xshr_by0. left; reflexivity.
  - destruct (N.eq_dec c 0) as [->|Hne].
    + rewrite xshr_by0, mul_assign_0. cbn [obind]. left. apply chain_0, Hcs.
    + destruct Hin as [->|Hin]; [congruence|].
      destruct (mul_assign w m (xshr c x)) as [z|]; [|right; reflexivity]. cbn [obind]. apply IH; assumption.
Qed.

Lemma chain_zero_shift_defined w m cs : forall c x, In w widths -> w <> 16 -> is_word w m -> is_word w x ->
  Forall (fun c => c < w) (c :: cs) -> In 0 (c :: cs) ->
  chain w m c cs x = Ok 0.
Proof.
  induction cs as [|c' cs IH]; intros c x Hw Hne Hm Hx Hc Hin; inversion_clear Hc as [|? ? Hc0 Hcs]; cbn [chain];
    rewrite xshr_assign_ok by assumption; cbn [obind].
  - destruct Hin as [->|[]]. rewrite xshr_by0. reflexivity.
  - destruct (N.eq_dec c 0) as [->|Hnz].
    + rewrite xshr_by0, mul_assign_0. cbn [obind]. apply chain_0, Hcs.
    + destruct Hin as [->|Hin]; [congruence|].
      rewrite mul_assign_defined by (try assumption; try (intro; contradiction); apply xshr_word; assumption).
      cbn [obind]. apply IH; try assumption. apply mulw_word.
Qed.

(* An even multiplier merges two inputs. *)
Lemma chain_even w m c c' cs : In w widths -> is_word w m -> N.odd m = false ->
  Forall (fun c => c < w) (c :: c' :: cs) ->
  exists x y, is_word w x /\ is_word w y /\ x <> y /\ chain w m c (c' :: cs) x = Ok 0 /\
              chain w m c (c' :: cs) y = Ok 0.
Proof.
  intros Hw Hm He Hc. inversion_clear Hc as [|? ? Hc0 Hcs].
  assert (H0 : is_word w 0) by (unfold is_word; pose proof (pow2_ne0 w); lia).
  destruct (N.eq_dec c 0) as [->|Hne].
  - exists 0, 1. split; [exact H0|]. split.
    { destruct (widths_cases w Hw) as [->|[->|[->| ->]]]; reflexivity. }
    split; [discriminate|].
    split; cbn [chain]; rewrite xshr_assign_ok, xshr_by0 by assumption; cbn [obind];
      rewrite mul_assign_0; cbn [obind]; apply chain_0, Hcs.
  - destruct (bij_xshr w c ltac:(lia)) as (_ & _ & Hs).
    set (t := 2 ^ (w - 1)).
    assert (Ht : is_word w t).
    { unfold t. destruct (widths_cases w Hw) as [->|[->|[->| ->]]]; reflexivity. }
    destruct (Hs t Ht) as (y & Hy & Ey).
    assert (t <> 0) by (unfold t; apply pow2_ne0).
    exists 0, y. split; [exact H0|]. split; [exact Hy|]. split.
    { intros <-. rewrite xshr_0 in Ey. congruence. }
    split; [apply chain_0; constructor; assumption|].
    cbn [chain]. rewrite xshr_assign_ok, Ey by assumption. cbn [obind].
    assert (Eo : mul_assign w m t = Ok (mulw w m t)).
    { apply mul_assign_ok; [exact Ht|]. intros L. unfold is_word, t in *.
      destruct (widths_cases w Hw) as [->|[->|[->| ->]]]; try lia.
      - change (2 ^ 8) with 256 in *. change (2 ^ (8 - 1)) with 128. nia.
      - change (2 ^ 16) with 65536 in *. change (2 ^ (16 - 1)) with 32768. nia. }
    rewrite Eo. cbn [obind].
    assert (Em : mulw w m t = 0).
    { assert (Hev : exists h, m = 2 * h).
      { assert (Hev : N.even m = true) by (rewrite <- N.negb_odd, He; reflexivity).
        apply N.even_spec in Hev. destruct Hev as [h Hh]. exists h. exact Hh. }
      destruct Hev as [h ->]. unfold mulw, wrap, t.
      replace (2 ^ (w - 1) * (2 * h)) with (h * 2 ^ w).
      - apply N.mod_mul, pow2_ne0.
      - assert (Hp : w <> 0) by (destruct (widths_cases w Hw) as [->|[->|[->| ->]]]; discriminate).
        replace w with (N.succ (w - 1)) at 1 by lia. rewrite N.pow_succ_r'. lia. }
    rewrite Em. apply chain_0, Hcs.
Qed.

(* 16-bit words are multiplied as signed int: a large multiplier overflows for some input. *)
Lemma chain_16_ub m c c' cs : is_word 16 m -> 32768 < m -> 0 < c < 16 ->
  exists x, is_word 16 x /\ chain 16 m c (c' :: cs) x = UB.
Proof.
  intros Hm Hlt Hc. destruct (bij_xshr 16 c ltac:(lia)) as (_ & _ & Hs).
  destruct (Hs 65535 eq_refl) as (x & Hx & Ex). exists x. split; [exact Hx|]. cbn [chain].
  rewrite xshr_assign_ok, Ex by lia. cbn [obind]. unfold mul_assign. cbn [N.ltb N.compare Pos.compare Pos.compare_cont].
  change (16 <? 32) with true. cbv iota.
  destruct (N.ltb_spec 2147483647 (65535 * m)); [reflexivity|lia].
Qed.

(* ---------- decoding the search bit vector ---------- *)

Lemma omapM_ok {A B} (f : A -> outcome B) (g : A -> B) l :
  (forall a, In a l -> f a = Ok (g a)) -> omapM f l = Ok (map g l).
Proof.
  induction l as [|a l IH]; intros H; [reflexivity|]. cbn [omapM map].
  rewrite (H a) by (left; reflexivity). cbn [obind]. rewrite IH; [reflexivity|].
  intros b Hb. apply H. right; exact Hb.
Qed.

Lemma shift_sizeof_val w : In w widths -> shift_sizeof w = Z.of_nat (N.to_nat (N.log2 w)).
Proof. intros Hw. destruct (widths_cases w Hw) as [->|[->|[->| ->]]]; reflexivity. Qed.

Lemma to_constants_decodes w bv l n : In w widths -> observes bv l ->
  let s := N.to_nat (N.log2 w) in
  (n * s + N.to_nat w <= length l)%nat ->
  to_constants w bv n =
    Ok (map (fun k => value_lsb (firstn s (skipn (k * s) l))) (seq 0 n),
        value_lsb (firstn (N.to_nat w) (skipn (n * s) l))).
Proof.
  intros Hw (_ & _ & _ & _ & Hget) s Hlen. unfold to_constants. rewrite (shift_sizeof_val w Hw). fold s.
  assert (Hs : (s <= N.to_nat w)%nat).
  { unfold s. destruct (widths_cases w Hw) as [->|[->|[->| ->]]]; apply Nat.leb_le; reflexivity. }
  rewrite (omapM_ok _ (fun k => value_lsb (firstn s (skipn (k * s) l)))).
  - cbn [obind]. rewrite <- Nat2Z.inj_mul, <- (N_nat_Z w).
    rewrite (Hget w (n * s)%nat (N.to_nat w) Hw (le_n _) Hlen). reflexivity.
  - intros k Hk. apply in_seq in Hk. rewrite <- Nat2Z.inj_mul. apply (Hget w); [exact Hw|exact Hs|nia].
Qed.

Lemma value_lsb_bound l : value_lsb l < 2 ^ N.of_nat (length l).
Proof.
  induction l as [|b l IH]; [reflexivity|]. cbn [value_lsb length]. rewrite Nat2N.inj_succ, N.pow_succ_r'.
  destruct b; lia.
Qed.

Lemma to_constants_range w bv l n cs m : In w widths -> observes bv l ->
  (n * N.to_nat (N.log2 w) + N.to_nat w <= length l)%nat ->
  to_constants w bv n = Ok (cs, m) ->
  Forall (fun c => c < w) cs /\ is_word w m /\ length cs = n.
Proof.
  intros Hw Ho Hl E. rewrite (to_constants_decodes w bv l n Hw Ho Hl) in E. injection E as <- <-.
  split; [|split].
  - apply Forall_forall. intros c Hc. apply in_map_iff in Hc. destruct Hc as (k & <- & Hk). apply in_seq in Hk.
    eapply N.lt_le_trans; [apply value_lsb_bound|]. rewrite firstn_length, skipn_length.
    replace w with (2 ^ N.log2 w) at 3.
    + apply N.pow_le_mono_r; [discriminate|]. lia.
    + destruct (widths_cases w Hw) as [->|[->|[->| ->]]]; reflexivity.
  - unfold is_word. eapply N.lt_le_trans; [apply value_lsb_bound|]. rewrite firstn_length, skipn_length.
    apply N.pow_le_mono_r; [discriminate|]. lia.
  - rewrite map_length, seq_length. reflexivity.
Qed.

Lemma construction_chain w m shifts mixer : is_construction w m shifts mixer ->
  exists c c' cs, shifts = c :: c' :: cs /\ forall x, mixer x = chain w m c (c' :: cs) x.
Proof.
  intros H. destruct shifts as [|c1 [|c2 [|c3 [|c4 [|c5 t]]]]]; cbn in H; try contradiction; subst;
    (eexists _, _, _; split; [reflexivity|]); intro x;
    [apply xmx_chain|apply xm2x_chain|apply xm3x_chain].
Qed.

Lemma no_zero_Forall w l : Forall (fun c => c < w) l -> ~ In 0 l -> Forall (fun c => 0 < c < w) l.
Proof.
  intros H Hn. apply Forall_forall. intros c Hc. rewrite Forall_forall in H. specialize (H c Hc).
  assert (c <> 0) by (intros ->; contradiction). lia.
Qed.

Lemma constructions_even w mixer shifts m :
  In w widths -> is_word w m -> Forall (fun c => c < w) shifts ->
  is_construction w m shifts mixer -> N.odd m = false ->
  exists x y, is_word w x /\ is_word w y /\ x <> y /\ mixer x = Ok 0 /\ mixer y = Ok 0.
Proof.
  intros Hw Hm Hs Hc He. destruct (construction_chain _ _ _ _ Hc) as (c & c' & cs & -> & E).
  destruct (chain_even w m c c' cs Hw Hm He Hs) as (x & y & Hx & Hy & Hn & Ex & Ey).
  exists x, y. rewrite !E. auto.
Qed.

Lemma constructions16_ub mixer shifts m :
  is_word 16 m -> 32768 < m -> Forall (fun c => 0 < c < 16) shifts ->
  is_construction 16 m shifts mixer -> exists x, is_word 16 x /\ mixer x = UB.
Proof.
  intros Hm Hl Hs Hc. destruct (construction_chain _ _ _ _ Hc) as (c & c' & cs & -> & E).
  inversion_clear Hs as [|? ? H0 _].
  destruct (chain_16_ub m c c' cs Hm Hl H0) as (x & Hx & Ex). exists x. rewrite E. auto.
Qed.

Lemma not_inj_not_bij w mixer f x y v : (forall x, is_word w x -> mixer x = Ok (f x)) -> word_bijection w f ->
  is_word w x -> is_word w y -> x <> y -> mixer x = Ok v -> mixer y = Ok v -> False.
Proof.
  intros H (_ & Hi & _) Hx Hy Hn Ex Ey. apply Hn, Hi; auto.
  rewrite (H x Hx) in Ex. rewrite (H y Hy) in Ey. congruence.
Qed.

Lemma zero_one_words w : In w widths -> is_word w 0 /\ is_word w 1.
Proof. intros Hw. destruct (widths_cases w Hw) as [->|[->|[->| ->]]]; split; reflexivity. Qed.

Lemma zero_shift_not_bij w mixer shifts m f : In w widths -> is_word w m ->
  Forall (fun c => c < w) shifts -> is_construction w m shifts mixer -> In 0 shifts ->
  (forall x, is_word w x -> mixer x = Ok (f x)) -> word_bijection w f -> False.
Proof.
  intros Hw Hm Hs Hc Hin Hf Bf. destruct (construction_chain _ _ _ _ Hc) as (c & c' & cs & -> & E).
  destruct (zero_one_words w Hw) as [H0 H1].
  assert (H : forall x, is_word w x -> mixer x = Ok 0).
  { intros x Hx. destruct (chain_zero_shift w m (c' :: cs) c x Hs Hin) as [Ez|Ez]; rewrite <- E in Ez; [exact Ez|].
    rewrite (Hf x Hx) in Ez. discriminate. }
  apply (not_inj_not_bij w mixer f 0 1 0 Hf Bf H0 H1); [discriminate|apply H, H0|apply H, H1].
Qed.

Lemma constructions_iff w mixer shifts m :
  In w [8; 32; 64] -> is_word w m -> Forall (fun c => c < w) shifts ->
  is_construction w m shifts mixer ->
  ((exists f, (forall x, is_word w x -> mixer x = Ok (f x)) /\ word_bijection w f)
   <-> (~ In 0 shifts /\ N.odd m = true)).
Proof.
  intros Hw Hm Hs Hc.
  assert (Hw' : In w widths) by (cbn in *; intuition).
  assert (Hn : w <> 16) by (cbn in Hw; intros ->; intuition discriminate).
  split.
  - intros (f & Hf & Bf). split.
    + intros Hin. exact (zero_shift_not_bij w mixer shifts m f Hw' Hm Hs Hc Hin Hf Bf).
    + destruct (N.odd m) eqn:Ho; [reflexivity|]. exfalso.
      destruct (constructions_even w mixer shifts m Hw' Hm Hs Hc Ho) as (x & y & Hx & Hy & Hne & Ex & Ey).
      exact (not_inj_not_bij w mixer f x y 0 Hf Bf Hx Hy Hne Ex Ey).
  - intros [Hz Ho]. destruct (construction_chain _ _ _ _ Hc) as (c & c' & cs & -> & E).
    destruct (chain_bij w m (c' :: cs) c Hw' Hm Ho) as (f & Hf & Bf); [intro; contradiction| |].
    + apply no_zero_Forall; assumption.
    + exists f. split; [|exact Bf]. intros x Hx. rewrite E. apply Hf, Hx.
Qed.

Lemma constructions16_iff mixer shifts m :
  is_word 16 m -> Forall (fun c => c < 16) shifts ->
  is_construction 16 m shifts mixer ->
  ((exists f, (forall x, is_word 16 x -> mixer x = Ok (f x)) /\ word_bijection 16 f)
   <-> (~ In 0 shifts /\ N.odd m = true /\ m <= 32768)).
Proof.
  intros Hm Hs Hc. assert (Hw' : In 16 widths) by (cbn; tauto).
  split.
  - intros (f & Hf & Bf).
    assert (Hz : ~ In 0 shifts).
    { intros Hin. exact (zero_shift_not_bij 16 mixer shifts m f Hw' Hm Hs Hc Hin Hf Bf). }
    split; [exact Hz|]. split.
    + destruct (N.odd m) eqn:Ho; [reflexivity|]. exfalso.
      destruct (constructions_even 16 mixer shifts m Hw' Hm Hs Hc Ho) as (x & y & Hx & Hy & Hne & Ex & Ey).
      exact (not_inj_not_bij 16 mixer f x y 0 Hf Bf Hx Hy Hne Ex Ey).
    + destruct (N.le_gt_cases m 32768) as [H|H]; [exact H|]. exfalso.
      destruct (constructions16_ub mixer shifts m Hm H (no_zero_Forall 16 shifts Hs Hz) Hc) as (x & Hx & Ex).
      rewrite (Hf x Hx) in Ex. discriminate.
  - intros (Hz & Ho & Hle). destruct (construction_chain _ _ _ _ Hc) as (c & c' & cs & -> & E).
    destruct (chain_bij 16 m (c' :: cs) c Hw' Hm Ho) as (f & Hf & Bf); [intros _; exact Hle| |].
    + apply no_zero_Forall; assumption.
    + exists f. split; [|exact Bf]. intros x Hx. rewrite E. apply Hf, Hx.
Qed.

Lemma in_mixers {w} (l : list (string * (N -> N))) n f :
  Forall (fun nm => word_bijection w (snd nm)) l -> In (n, f) l -> word_bijection w f.
Proof. intros H Hin. rewrite Forall_forall in H. exact (H _ Hin). Qed.

Lemma nasam_bij : word_bijection 64 mix64_nasam.
Proof. apply (in_mixers mixers64 "mix64::nasam"%string _ mixers64_bij). apply (nth_error_In _ 3). reflexivity. Qed.
Lemma moremur_bij : word_bijection 64 mix64_moremur.
Proof. apply (in_mixers mixers64 "mix64::moremur"%string _ mixers64_bij). apply (nth_error_In _ 4). reflexivity. Qed.
Lemma wang_1_bij : word_bijection 32 mix32_wang_1.
Proof. apply (in_mixers mixers32 "mix32::wang_1"%string _ mixers32_bij). apply (nth_error_In _ 7). reflexivity. Qed.
Lemma jenkins_bij : word_bijection 32 mix32_jenkins.
Proof. apply (in_mixers mixers32 "mix32::jenkins"%string _ mixers32_bij). apply (nth_error_In _ 8). reflexivity. Qed.

Lemma mx_combiners_both f : In f [combine32_mx1; combine32_mx2; combine32_mx3] ->
    (forall y, is_word 32 y -> word_bijection 32 (fun x => f x y)) /\
    (forall x, is_word 32 x -> word_bijection 32 (fun y => f x y)).
Proof.
  destruct combine32_mx_both as (A & B & C). intros [<-|[<-|[<-|[]]]]; assumption.
Qed.

Lemma boost_collision : exists x x' y, is_word 32 x /\ is_word 32 x' /\ is_word 32 y /\ x <> x' /\
    combine32_boost x y = combine32_boost x' y.
Proof.
  exists 8191, 8434, 0. repeat split; try reflexivity. discriminate.
Qed.
