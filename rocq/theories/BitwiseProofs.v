From Verif Require Import Base BitwiseModel BitwiseSpec WordLemmas.
Open Scope N_scope.

(* ---------- rotations ---------- *)

Lemma rotl_pos_word w x r : is_word w x -> is_word w (rotl_pos w x r).
Proof. intros H. apply word_lor; [apply wrap_word|apply word_shiftr, H]. Qed.
Lemma rotr_pos_word w x r : is_word w x -> is_word w (rotr_pos w x r).
Proof. intros H. apply word_lor; [apply word_shiftr, H|apply wrap_word]. Qed.

Lemma rotl_pos_bit w x r i : is_word w x -> 0 < r < w -> i < w ->
  N.testbit (rotl_pos w x r) i = N.testbit x (if r <=? i then i - r else i + (w - r)).
Proof.
  intros Hx Hr Hi. unfold rotl_pos.
  rewrite N.lor_spec, wrap_testbit, shiftl_testbit, shiftr_testbit.
  destruct (N.ltb_spec i w); [|lia]. cbn [andb].
  destruct (N.leb_spec r i); cbn [andb orb]; [|reflexivity].
  rewrite (word_high w x (i + (w - r)) Hx) by lia. apply orb_false_r.
Qed.

Lemma rotr_pos_bit w x r i : is_word w x -> 0 < r < w -> i < w ->
  N.testbit (rotr_pos w x r) i = N.testbit x (if i + r <? w then i + r else i + r - w).
Proof.
  intros Hx Hr Hi. unfold rotr_pos.
  rewrite N.lor_spec, wrap_testbit, shiftl_testbit, shiftr_testbit.
  destruct (N.ltb_spec i w); [|lia]. cbn [andb].
  destruct (N.ltb_spec (i + r) w) as [H1|H1].
  - destruct (N.leb_spec (w - r) i); [lia|]. cbn [andb]. apply orb_false_r.
  - rewrite (word_high w x (i + r) Hx) by lia. cbn [orb].
    destruct (N.leb_spec (w - r) i); [|lia]. cbn [andb]. f_equal. lia.
Qed.

Lemma rem_decomp (r w : Z) : (0 < w)%Z ->
  exists q, r = (w * q + Z.rem r w)%Z /\ (- w < Z.rem r w < w)%Z.
Proof.
  intros Hw. exists (Z.quot r w). split.
  - apply Z.quot_rem'.
  - pose proof (Z.rem_bound_abs r w ltac:(lia)). lia.
Qed.

Lemma rol_moves w v r : 0 < w -> is_word w v ->
  moves_bits w (fun i => Z.to_N ((Z.of_N i - r) mod Z.of_N w)) v (rol w v r).
Proof.
  intros Hw Hv. unfold rol, std_rotl.
  destruct (rem_decomp r (Z.of_N w) ltac:(lia)) as (q & Hq & Hb).
  set (s := Z.rem r (Z.of_N w)) in *. cbv zeta.
  assert (Hmod : forall i, ((Z.of_N i - r) mod Z.of_N w = (Z.of_N i - s) mod Z.of_N w)%Z).
  { intro i. rewrite Hq.
    replace (Z.of_N i - (Z.of_N w * q + s))%Z with (Z.of_N i - s + (- q) * Z.of_N w)%Z by ring.
    apply Z.mod_add. lia. }
  destruct (Z.eqb_spec s 0) as [E|E]; [|destruct (Z.ltb_spec 0 s) as [P|P]].
  - split; [exact Hv|]. intros i Hi. rewrite Hmod, E, Z.sub_0_r, Z.mod_small by lia.
    rewrite N2Z.id. reflexivity.
  - split; [apply rotl_pos_word, Hv|]. intros i Hi.
    rewrite rotl_pos_bit by (try assumption; lia). f_equal. rewrite Hmod.
    destruct (N.leb_spec (Z.to_N s) i) as [H|H].
    + rewrite Z.mod_small by lia. lia.
    + rewrite <- (Z.mod_add _ 1) by lia. rewrite Z.mod_small by lia. lia.
  - split; [apply rotr_pos_word, Hv|]. intros i Hi.
    rewrite rotr_pos_bit by (try assumption; lia). f_equal. rewrite Hmod.
    destruct (N.ltb_spec (i + Z.to_N (- s)) w) as [H|H].
    + rewrite Z.mod_small by lia. lia.
    + rewrite <- (Z.mod_add _ (-1)) by lia. rewrite Z.mod_small by lia. lia.
Qed.

Lemma std_rotr_rotl w x s : std_rotr w x s = std_rotl w x (- s).
Proof.
  unfold std_rotr, std_rotl. cbv zeta.
  destruct (Z.eqb_spec (Z.of_N w) 0) as [E|E].
  - rewrite E. destruct s; reflexivity.
  - rewrite Z.rem_opp_l by exact E. rewrite Z.opp_involutive.
    set (r := Z.rem s (Z.of_N w)).
    destruct (Z.eqb_spec r 0) as [E0|E0], (Z.eqb_spec (- r) 0) as [E1|E1]; try lia.
    destruct (Z.ltb_spec 0 r), (Z.ltb_spec 0 (- r)); try lia; reflexivity.
Qed.

Lemma ror_rol_neg w v r : ror w v r = rol w v (- r).
Proof. apply std_rotr_rotl. Qed.

Lemma ror_moves w v r : 0 < w -> is_word w v ->
  moves_bits w (fun i => Z.to_N ((Z.of_N i + r) mod Z.of_N w)) v (ror w v r).
Proof.
  intros Hw Hv. rewrite ror_rol_neg. destruct (rol_moves w v (- r) Hw Hv) as [H1 H2].
  split; [exact H1|]. intros i Hi. rewrite (H2 i Hi), Z.sub_opp_r. reflexivity.
Qed.

Lemma rol_rol w v a b : 0 < w -> is_word w v -> rol w (rol w v a) b = rol w v (a + b).
Proof.
  intros Hw Hv. destruct (rol_moves w v a Hw Hv) as [A1 A2].
  destruct (rol_moves w (rol w v a) b Hw A1) as [B1 B2].
  destruct (rol_moves w v (a + b) Hw Hv) as [C1 C2].
  apply (word_ext w); [exact B1|exact C1|]. intros i Hi.
  rewrite (B2 i Hi), (C2 i Hi), A2.
  - f_equal. f_equal. rewrite Z2N.id by (apply Z.mod_pos_bound; lia).
    rewrite Zminus_mod_idemp_l. f_equal. lia.
  - pose proof (Z.mod_pos_bound (Z.of_N i - b) (Z.of_N w)). lia.
Qed.

Lemma rol_0 w v : rol w v 0 = v.
Proof. unfold rol, std_rotl. cbv zeta. destruct w; reflexivity. Qed.

Lemma rol_width w v q : 0 < w -> rol w v (q * Z.of_N w) = v.
Proof.
  intros Hw. unfold rol, std_rotl. cbv zeta. rewrite Z.rem_mul by lia. reflexivity.
Qed.

Lemma ror_rol_id w v r : 0 < w -> is_word w v -> ror w (rol w v r) r = v.
Proof.
  intros Hw Hv. rewrite ror_rol_neg, rol_rol by assumption.
  rewrite Z.add_opp_diag_r. apply rol_0.
Qed.
Lemma rol_ror_id w v r : 0 < w -> is_word w v -> rol w (ror w v r) r = v.
Proof.
  intros Hw Hv. rewrite ror_rol_neg, rol_rol by assumption.
  rewrite Z.add_opp_diag_l. apply rol_0.
Qed.
Lemma rol_word w v r : 0 < w -> is_word w v -> is_word w (rol w v r).
Proof. intros Hw Hv. apply (rol_moves w v r Hw Hv). Qed.
Lemma ror_word w v r : 0 < w -> is_word w v -> is_word w (ror w v r).
Proof. intros Hw Hv. apply (ror_moves w v r Hw Hv). Qed.

(* ---------- single bits ---------- *)

Lemma flip_bit_spec w v b : 0 < w <= 64 -> is_word w v -> b < w ->
  exists v', flip_bit w v (Z.of_N b) = Ok v' /\ is_word w v' /\
    (forall i, N.testbit v' i = if i =? b then negb (N.testbit v i) else N.testbit v i).
Proof.
  intros Hw Hv Hb. unfold flip_bit.
  destruct ((Z.of_N b <? 0) || (64 <=? Z.of_N b))%Z eqn:E; [lia|].
  eexists. split; [reflexivity|]. split; [apply wrap_word|]. intros i.
  rewrite wrap_testbit, N.lxor_spec, shiftl_testbit, N2Z.id.
  destruct (N.eqb_spec i b) as [->|Hi].
  - destruct (N.ltb_spec b w); [|lia]. destruct (N.leb_spec b b); [|lia].
    rewrite N.sub_diag. cbn [andb]. change (N.testbit 1 0) with true. apply xorb_true_r.
  - destruct (N.leb_spec b i) as [Hbi|Hbi]; cbn [andb].
    + replace (i - b) with (N.succ (i - b - 1)) by lia.
      rewrite (word_high 1 1 (N.succ (i - b - 1))) by (unfold is_word; lia || lia).
      rewrite xorb_false_r. destruct (N.ltb_spec i w); [reflexivity|].
      symmetry. apply (word_high w); assumption.
    + rewrite xorb_false_r. destruct (N.ltb_spec i w); [reflexivity|].
      symmetry. apply (word_high w); assumption.
Qed.

Lemma flip_bit_ub w v b : (b < 0 \/ 64 <= b)%Z <-> flip_bit w v b = UB.
Proof.
  unfold flip_bit. destruct ((b <? 0) || (64 <=? b))%Z eqn:E.
  - split; [reflexivity|]. lia.
  - split; [lia|discriminate].
Qed.

Lemma flip_bit_involutive w v b v' : 0 < w <= 64 -> is_word w v -> b < w ->
  flip_bit w v (Z.of_N b) = Ok v' -> flip_bit w v' (Z.of_N b) = Ok v.
Proof.
  intros Hw Hv Hb H. destruct (flip_bit_spec w v b Hw Hv Hb) as (u & E & Hu & Hbits).
  rewrite E in H. injection H as <-.
  destruct (flip_bit_spec w u b Hw Hu Hb) as (z & E2 & Hz & Hbits2).
  rewrite E2. f_equal. apply N.bits_inj. intro i. rewrite Hbits2, Hbits.
  destruct (i =? b); [apply negb_involutive|reflexivity].
Qed.

Lemma land_1_testbit x : (N.land x 1 =? 1) = N.testbit x 0.
Proof.
  change 1 with (N.ones 1). rewrite N.land_ones. change (2 ^ 1) with 2.
  change (N.ones 1) with 1.
  rewrite N.bit0_odd. rewrite <- N.bit0_mod, N.bit0_odd. destruct (N.odd x); reflexivity.
Qed.

Lemma is_bit_set_spec w v b : b < promoted w ->
  is_bit_set w v (Z.of_N b) = Ok (N.testbit v b).
Proof.
  intros Hb. unfold is_bit_set.
  destruct ((Z.of_N b <? 0) || (Z.of_N (promoted w) <=? Z.of_N b))%Z eqn:E; [lia|].
  rewrite land_1_testbit, N2Z.id, shiftr_testbit. reflexivity.
Qed.

Lemma is_bit_set_ub w v b : (b < 0 \/ Z.of_N (promoted w) <= b)%Z <-> is_bit_set w v b = UB.
Proof.
  unfold is_bit_set. destruct ((b <? 0) || (Z.of_N (promoted w) <=? b))%Z eqn:E.
  - split; [reflexivity|]. lia.
  - split; [lia|discriminate].
Qed.

Lemma bits_lsb_S n v : bits_lsb (S n) v = N.odd v :: bits_lsb n (N.div2 v).
Proof.
  unfold bits_lsb. cbn [seq map]. rewrite N.bit0_odd. f_equal.
  rewrite <- seq_shift, map_map. apply map_ext. intro i.
  rewrite Nat2N.inj_succ, N.div2_spec, shiftr_testbit. f_equal. lia.
Qed.

Lemma count_true_cons b l : count_true (b :: l) = ((if b then 1 else 0) + count_true l)%nat.
Proof. unfold count_true. cbn [filter]. destruct b; reflexivity. Qed.

Lemma bits_lsb_0 n : count_true (bits_lsb n 0) = O.
Proof.
  induction n as [|n IH]; [reflexivity|]. rewrite bits_lsb_S, count_true_cons. exact IH.
Qed.

Lemma popcount_pos_spec p : forall n, N.pos p < 2 ^ N.of_nat n ->
  N.to_nat (popcount_pos p) = count_true (bits_lsb n (N.pos p)).
Proof.
  induction p as [p IH|p IH|]; intros [|n] H; try (cbn in H; lia);
    rewrite bits_lsb_S, count_true_cons; rewrite Nat2N.inj_succ in H.
  - cbn [N.odd N.div2 popcount_pos]. rewrite N2Nat.inj_succ.
    rewrite (IH n); [reflexivity|].
    rewrite N.pow_succ_r' in H. lia.
  - cbn [N.odd N.div2 popcount_pos].
    rewrite (IH n); [reflexivity|].
    rewrite N.pow_succ_r' in H. lia.
  - cbn [N.odd N.div2]. rewrite bits_lsb_0. reflexivity.
Qed.

Lemma bit_count_spec w x : is_word w x ->
  N.to_nat (bit_count x) = count_true (bits_lsb (N.to_nat w) x).
Proof.
  intros Hx. destruct x as [|p]; cbn [bit_count].
  - rewrite bits_lsb_0. reflexivity.
  - apply popcount_pos_spec. rewrite N2Nat.id. exact Hx.
Qed.

(* ---------- reversal and byte swapping ---------- *)

Definition e_swap_stage (w m1 m2 k : N) (e : bexp) : bexp :=
  BOr (BShr k (BAnd m1 e)) (BWrap w (BShl k (BAnd m2 e))).
Definition e_swap_stage' (w m k : N) (e : bexp) : bexp :=
  BOr (BAnd m (BShr k e)) (BWrap w (BShl k (BAnd m e))).
Definition e_swap_stage16 (m k : N) (e : bexp) : bexp :=
  BWrap 16 (BOr (BAnd m (BShr k e)) (BShl k (BAnd m e))).

Definition e_rev16 : bexp :=
  let e := e_swap_stage16 0x0F0F 4 (e_swap_stage16 0x3333 2 (e_swap_stage16 0x5555 1 BX)) in
  BWrap 16 (BOr (BShr 8 e) (BShl 8 e)).
Definition e_rev32 : bexp :=
  let e := e_swap_stage' 32 0x00FF00FF 8 (e_swap_stage' 32 0x0F0F0F0F 4
            (e_swap_stage' 32 0x33333333 2 (e_swap_stage' 32 0x55555555 1 BX))) in
  BOr (BShr 16 e) (BWrap 32 (BShl 16 e)).
Definition e_rev64 : bexp :=
  let e := e_swap_stage 64 0xffff0000ffff0000 0x0000ffff0000ffff 16
           (e_swap_stage 64 0xff00ff00ff00ff00 0x00ff00ff00ff00ff 8
           (e_swap_stage 64 0xf0f0f0f0f0f0f0f0 0x0f0f0f0f0f0f0f0f 4
           (e_swap_stage 64 0xcccccccccccccccc 0x3333333333333333 2
           (e_swap_stage 64 0xaaaaaaaaaaaaaaaa 0x5555555555555555 1 BX)))) in
  BOr (BShr 32 e) (BWrap 64 (BShl 32 e)).

Lemma reverse16_moves x : is_word 16 x ->
  moves_bits 16 (fun i => 15 - i) x (reverse_bits16 x).
Proof.
  intros _. change (reverse_bits16 x) with (bden e_rev16 x). split; [apply wrap_word|].
  intros i Hi. refine (bmoves_sound 16 e_rev16 (fun i => 15 - i) _ x i Hi). vm_compute. reflexivity.
Qed.

Lemma reverse32_moves x : is_word 32 x ->
  moves_bits 32 (fun i => 31 - i) x (reverse_bits32 x).
Proof.
  intros _. change (reverse_bits32 x) with (bden e_rev32 x). split.
  - cbv zeta. apply word_lor; [|apply wrap_word]. apply word_shiftr.
    apply word_lor; [|apply wrap_word]. apply word_land_r. unfold is_word. reflexivity.
  - intros i Hi. refine (bmoves_sound 32 e_rev32 (fun i => 31 - i) _ x i Hi). vm_compute. reflexivity.
Qed.

Lemma reverse64_moves x : is_word 64 x ->
  moves_bits 64 (fun i => 63 - i) x (reverse_bits64 x).
Proof.
  intros _. change (reverse_bits64 x) with (bden e_rev64 x). split.
  - apply word_lor; [|apply wrap_word]. apply word_shiftr.
    apply word_lor; [|apply wrap_word]. apply word_shiftr, word_land_r. unfold is_word. reflexivity.
  - intros i Hi. refine (bmoves_sound 64 e_rev64 (fun i => 63 - i) _ x i Hi). vm_compute. reflexivity.
Qed.

Lemma reverse8_moves x : is_word 8 x ->
  moves_bits 8 (fun i => 7 - i) x (reverse_bits8 x).
Proof.
  intros Hx. split; [apply wrap_word|]. intros i Hi.
  assert (H : forallb (fun x => forallb (fun i =>
      Bool.eqb (N.testbit (reverse_bits8 x) i) (N.testbit x (7 - i))) (below 8)) (below 256) = true)
    by (vm_compute; reflexivity).
  apply eqb_prop. exact (forall_below 8 _ (forall_below 256 _ H x Hx) i Hi).
Qed.

Lemma reverse_bits_moves w x : In w widths -> is_word w x ->
  moves_bits w (fun i => w - 1 - i) x (reverse_bits w x).
Proof.
  intros Hw Hx. destruct Hw as [<-|[<-|[<-|[<-|[]]]]].
  - exact (reverse8_moves x Hx).
  - exact (reverse16_moves x Hx).
  - exact (reverse32_moves x Hx).
  - exact (reverse64_moves x Hx).
Qed.

Lemma widths_pos w : In w widths -> 0 < w.
Proof. intros [<-|[<-|[<-|[<-|[]]]]]; reflexivity. Qed.

Lemma reverse_bits_word w x : In w widths -> is_word w x -> is_word w (reverse_bits w x).
Proof. intros Hw Hx. apply (reverse_bits_moves w x Hw Hx). Qed.

Lemma reverse_bits_involutive w x : In w widths -> is_word w x ->
  reverse_bits w (reverse_bits w x) = x.
Proof.
  intros Hw Hx. destruct (reverse_bits_moves w x Hw Hx) as [A1 A2].
  destruct (reverse_bits_moves w _ Hw A1) as [B1 B2].
  apply (word_ext w); [exact B1|exact Hx|]. intros i Hi.
  rewrite (B2 i Hi), A2 by lia. f_equal. lia.
Qed.

Definition e_byte_swap : bexp :=
  BOr (BOr (BOr (BOr (BOr (BOr (BOr
    (BShr 56 (BAnd 0xff00000000000000 BX))
    (BShr 40 (BAnd 0x00ff000000000000 BX)))
    (BShr 24 (BAnd 0x0000ff0000000000 BX)))
    (BShr 8 (BAnd 0x000000ff00000000 BX)))
    (BWrap 64 (BShl 8 (BAnd 0x00000000ff000000 BX))))
    (BWrap 64 (BShl 24 (BAnd 0x0000000000ff0000 BX))))
    (BWrap 64 (BShl 40 (BAnd 0x000000000000ff00 BX))))
    (BWrap 64 (BShl 56 (BAnd 0x00000000000000ff BX))).

Lemma byte_swap_moves x : is_word 64 x -> moves_bits 64 (byte_mirror 64) x (byte_swap x).
Proof.
  intros _. change (byte_swap x) with (bden e_byte_swap x). split.
  - repeat (apply word_lor; [|apply wrap_word]).
    repeat apply word_lor; apply word_shiftr, word_land_r; unfold is_word; reflexivity.
  - intros i Hi. refine (bmoves_sound 64 e_byte_swap (byte_mirror 64) _ x i Hi).
    vm_compute. reflexivity.
Qed.

Lemma to_bytes_length n v : length (to_bytes n v) = n.
Proof. revert v; induction n as [|n IH]; intro v; [reflexivity|]. cbn [to_bytes length]. rewrite IH. reflexivity. Qed.

Lemma to_bytes_small n v : Forall (fun b => b < 256) (to_bytes n v).
Proof.
  revert v; induction n as [|n IH]; intro v; [constructor|].
  cbn [to_bytes]. constructor; [|apply IH]. apply N.mod_lt. lia.
Qed.

Lemma to_bytes_nth n v j : (j < n)%nat -> nth j (to_bytes n v) 0 = N.shiftr v (8 * N.of_nat j) mod 256.
Proof.
  revert v j. induction n as [|n IH]; intros v j Hj; [lia|].
  destruct j as [|j]; cbn [to_bytes nth].
  - change (N.of_nat 0) with 0. rewrite N.mul_0_r, N.shiftr_0_r. reflexivity.
  - rewrite IH by lia. f_equal. change 256 with (2 ^ 8). rewrite <- N.shiftr_div_pow2.
    rewrite N.shiftr_shiftr. f_equal. lia.
Qed.

Lemma of_bytes_bit bs : Forall (fun b => b < 256) bs -> forall i,
  N.testbit (of_bytes bs) i = N.testbit (nth (N.to_nat (i / 8)) bs 0) (i mod 8).
Proof.
  induction bs as [|b bs IH]; intros HF i; cbn [of_bytes].
  - replace (nth (N.to_nat (i / 8)) [] 0) with 0 by (destruct (N.to_nat (i / 8)); reflexivity).
    rewrite !N.bits_0. reflexivity.
  - inversion HF as [|? ? Hb HF']; subst. specialize (IH HF').
    assert (Hlor : b + 256 * of_bytes bs = N.lor b (N.shiftl (of_bytes bs) 8)).
    { rewrite <- N.lxor_lor; [rewrite <- N.add_nocarry_lxor|].
      - rewrite N.shiftl_mul_pow2. change (2 ^ 8) with 256. lia.
      - apply N.bits_inj_0. intro k. rewrite N.land_spec, shiftl_testbit.
        destruct (N.leb_spec 8 k); [|apply andb_false_r].
        rewrite (word_high 8 b k) by (assumption || exact Hb). reflexivity.
      - apply N.bits_inj_0. intro k. rewrite N.land_spec, shiftl_testbit.
        destruct (N.leb_spec 8 k); [|apply andb_false_r].
        rewrite (word_high 8 b k) by (assumption || exact Hb). reflexivity. }
    rewrite Hlor, N.lor_spec, shiftl_testbit.
    destruct (N.leb_spec 8 i) as [H|H]; cbn [andb].
    + rewrite (word_high 8 b i) by (assumption || exact Hb). cbn [orb]. rewrite IH.
      replace (N.to_nat (i / 8)) with (S (N.to_nat ((i - 8) / 8))).
      * cbn [nth]. f_equal. replace i with (i - 8 + 1 * 8) at 2 by lia.
        rewrite N.mod_add by lia. reflexivity.
      * replace i with (i - 8 + 1 * 8) at 2 by lia. rewrite N.div_add by lia. lia.
    + rewrite orb_false_r. rewrite N.div_small, N.mod_small by exact H. reflexivity.
Qed.

Lemma byteswap_moves n x : is_word (8 * N.of_nat n) x ->
  moves_bits (8 * N.of_nat n) (byte_mirror (8 * N.of_nat n)) x (byteswap (8 * N.of_nat n) x).
Proof.
  intros Hx. unfold byteswap, byte_mirror.
  replace (8 * N.of_nat n / 8) with (N.of_nat n) by (rewrite N.mul_comm, N.div_mul; lia).
  rewrite Nat2N.id.
  assert (HF : Forall (fun b => b < 256) (rev (to_bytes n x))).
  { apply Forall_rev, to_bytes_small. }
  split.
  - apply word_of_high. intros i Hi. rewrite of_bytes_bit by exact HF.
    rewrite nth_overflow; [apply N.bits_0|]. rewrite rev_length, to_bytes_length.
    assert (N.of_nat n <= i / 8); [|lia]. apply N.div_le_lower_bound; lia.
  - intros i Hi. rewrite of_bytes_bit by exact HF.
    assert (Hd : i / 8 < N.of_nat n) by (apply N.div_lt_upper_bound; lia).
    rewrite rev_nth by (rewrite to_bytes_length; lia).
    rewrite to_bytes_length, to_bytes_nth by lia.
    change 256 with (2 ^ 8). pose proof (N.mod_lt i 8 ltac:(lia)).
    rewrite N.mod_pow2_bits_low by lia. rewrite shiftr_testbit. f_equal. lia.
Qed.

Lemma byteswap_moves_w w x : In w widths -> is_word w x ->
  moves_bits w (byte_mirror w) x (byteswap w x).
Proof.
  intros Hw Hx. destruct Hw as [<-|[<-|[<-|[<-|[]]]]].
  - exact (byteswap_moves 1 x Hx).
  - exact (byteswap_moves 2 x Hx).
  - exact (byteswap_moves 4 x Hx).
  - exact (byteswap_moves 8 x Hx).
Qed.

Lemma byte_mirror_invol w i : In w widths -> i < w ->
  byte_mirror w (byte_mirror w i) = i /\ byte_mirror w i < w.
Proof.
  intros Hw Hi.
  assert (H : forallb (fun w => forallb (fun i =>
     (byte_mirror w (byte_mirror w i) =? i) && (byte_mirror w i <? w)) (below w)) widths = true)
    by (vm_compute; reflexivity).
  rewrite forallb_forall in H. specialize (forall_below w _ (H w Hw) i Hi). cbn beta.
  rewrite andb_true_iff, N.eqb_eq, N.ltb_lt. tauto.
Qed.

Lemma byteswap_involutive w x : In w widths -> is_word w x -> byteswap w (byteswap w x) = x.
Proof.
  intros Hw Hx. destruct (byteswap_moves_w w x Hw Hx) as [A1 A2].
  destruct (byteswap_moves_w w _ Hw A1) as [B1 B2].
  apply (word_ext w); [exact B1|exact Hx|]. intros i Hi.
  destruct (byte_mirror_invol w i Hw Hi) as [M1 M2].
  rewrite (B2 i Hi), A2 by exact M2. rewrite M1. reflexivity.
Qed.

Lemma byte_swap_byteswap x : is_word 64 x -> byte_swap x = byteswap 64 x.
Proof.
  intros Hx. destruct (byte_swap_moves x Hx) as [A1 A2].
  destruct (byteswap_moves_w 64 x ltac:(cbn; tauto) Hx) as [B1 B2].
  apply (word_ext 64); [exact A1|exact B1|]. intros i Hi. rewrite (A2 i Hi), (B2 i Hi). reflexivity.
Qed.

(* ---------- powers of two ---------- *)

Lemma size_le w x : is_word w x -> N.size x <= w.
Proof.
  intros Hx. destruct (N.eq_dec x 0) as [->|Hx0]; [cbn; lia|].
  rewrite N.size_log2 by exact Hx0. unfold is_word in Hx.
  apply N.le_succ_l. apply N.log2_lt_pow2; lia.
Qed.

Lemma w_lt_pow2 w : w < 2 ^ w.
Proof. apply N.pow_gt_lin_r. lia. Qed.

Lemma bit_width_size w x : is_word w x -> bit_width w x = N.size x.
Proof.
  intros Hx. pose proof (size_le w x Hx). unfold bit_width, countl_zero.
  rewrite wrap_id; [lia|]. unfold is_word. pose proof (w_lt_pow2 w). lia.
Qed.

Lemma bit_width_least w x : is_word w x ->
  x < 2 ^ bit_width w x /\ forall b, x < 2 ^ b -> bit_width w x <= b.
Proof.
  intros Hx. rewrite (bit_width_size w x Hx). split; [apply N.size_gt|].
  intros b Hb. apply size_le. exact Hb.
Qed.

Lemma one_shl_ok w k : k < w -> one_shl w k = Ok (2 ^ k).
Proof.
  intros Hk. unfold one_shl, promoted. destruct (N.leb_spec (N.max w 32) k); [lia|].
  rewrite wrap_wrap_le by lia. rewrite N.shiftl_1_l, wrap_id; [reflexivity|].
  unfold is_word. apply N.pow_lt_mono_r; lia.
Qed.

Lemma bit_floor_spec w x : is_word w x -> x <> 0 ->
  exists p, bit_floor w x = Ok p /\ word_pow2 w p /\ p <= x /\
            forall q, word_pow2 w q -> q <= x -> q <= p.
Proof.
  intros Hx Hx0. pose proof (size_le w x Hx) as Hs. unfold bit_floor.
  destruct (N.eqb_spec x 0) as [|_]; [contradiction|].
  rewrite (bit_width_size w x Hx), (N.size_log2 x Hx0) in *.
  replace (N.succ (N.log2 x) - 1) with (N.log2 x) by lia.
  rewrite one_shl_ok by lia. eexists. split; [reflexivity|].
  pose proof (N.log2_spec x ltac:(lia)) as [L1 L2].
  split; [exists (N.log2 x); split; [lia|reflexivity]|]. split; [exact L1|].
  intros q (k & Hk & ->) Hq. apply N.pow_le_mono_r; [lia|].
  apply N.log2_le_pow2 in Hq; lia.
Qed.

Lemma bit_floor_0 w : bit_floor w 0 = Ok 0.
Proof. reflexivity. Qed.

Lemma bit_ceil_0 w : bit_ceil w 0 = Ok 0.
Proof. reflexivity. Qed.

Lemma bit_ceil_spec w x : 0 < w -> x <> 0 -> x <= 2 ^ (w - 1) ->
  exists p, bit_ceil w x = Ok p /\ word_pow2 w p /\ x <= p /\
            forall q, word_pow2 w q -> x <= q -> p <= q.
Proof.
  intros Hw Hx0 Hx.
  assert (Hx' : x < 2 ^ w).
  { eapply N.le_lt_trans; [exact Hx|]. apply N.pow_lt_mono_r; lia. }
  assert (Hpw : is_word w (x - 1)) by (unfold is_word; lia).
  unfold bit_ceil. destruct (N.eqb_spec x 0) as [|_]; [contradiction|].
  rewrite (bit_width_size w _ Hpw).
  assert (Hs : N.size (x - 1) <= w - 1) by (apply size_le; unfold is_word; lia).
  rewrite one_shl_ok by lia. eexists. split; [reflexivity|].
  pose proof (N.size_gt (x - 1)) as G.
  split; [exists (N.size (x - 1)); split; [lia|reflexivity]|]. split; [lia|].
  intros q (k & Hk & ->) Hq. apply N.pow_le_mono_r; [lia|]. apply size_le. unfold is_word. lia.
Qed.

Lemma bit_ceil_over w x : In w widths -> is_word w x -> 2 ^ (w - 1) < x ->
  bit_ceil w x = if w <? 32 then Ok 0 else UB.
Proof.
  intros Hw Hx Hg. pose proof (widths_pos w Hw) as Hp.
  assert (Hx0 : x <> 0) by (pose proof (pow2_pos (w - 1)); lia).
  assert (Hpw : is_word w (x - 1)) by (unfold is_word in *; lia).
  unfold bit_ceil. destruct (N.eqb_spec x 0) as [|_]; [contradiction|].
  rewrite (bit_width_size w _ Hpw).
  assert (Hs : N.size (x - 1) = w).
  { apply N.le_antisymm; [apply size_le, Hpw|].
    destruct (N.le_gt_cases w (N.size (x - 1))) as [H|H]; [exact H|].
    pose proof (N.size_gt (x - 1)) as G.
    assert (2 ^ N.size (x - 1) <= 2 ^ (w - 1)) by (apply N.pow_le_mono_r; lia). lia. }
  rewrite Hs. clear - Hw. destruct Hw as [<-|[<-|[<-|[<-|[]]]]]; vm_compute; reflexivity.
Qed.

(* ---------- bit traversal ---------- *)

Lemma omapM_ok {A B} (f : A -> outcome B) (g : A -> B) l :
  (forall a, In a l -> f a = Ok (g a)) -> omapM f l = Ok (map g l).
Proof.
  induction l as [|a l IH]; intros H; [reflexivity|].
  cbn [omapM map]. rewrite H by (left; reflexivity). cbn [obind].
  rewrite IH; [reflexivity|]. intros x Hx. apply H. right. exact Hx.
Qed.

Lemma word_bits_ok w v : word_bits w v = Ok (bits_lsb (N.to_nat w) v).
Proof.
  unfold word_bits, bits_lsb. apply omapM_ok. intros b Hb. apply in_seq in Hb.
  rewrite <- nat_N_Z. apply is_bit_set_spec. unfold promoted. lia.
Qed.

Lemma for_each_bit_ok w data :
  for_each_bit w data = Ok (flat_map (bits_lsb (N.to_nat w)) data).
Proof.
  induction data as [|v vs IH]; [reflexivity|].
  cbn [for_each_bit flat_map]. rewrite word_bits_ok. cbn [obind]. rewrite IH. reflexivity.
Qed.

Lemma bits_lsb_length n v : length (bits_lsb n v) = n.
Proof. unfold bits_lsb. rewrite map_length, seq_length. reflexivity. Qed.

Lemma flat_map_const_length {A B} (f : A -> list B) n l :
  (forall a, length (f a) = n) -> length (flat_map f l) = (length l * n)%nat.
Proof.
  intros H. induction l as [|a l IH]; [reflexivity|].
  cbn [flat_map length Nat.mul]. rewrite app_length, IH, H. reflexivity.
Qed.

Lemma upd_length {A} (l : list A) i a : length (upd l i a) = length l.
Proof. revert i; induction l as [|h t IH]; intros [|i]; cbn [upd length]; auto. Qed.

Lemma upd_app_at {A} (l1 l2 : list A) h a : upd (l1 ++ h :: l2) (length l1) a = l1 ++ a :: l2.
Proof. induction l1 as [|x l1 IH]; [reflexivity|]. cbn [app length upd]. rewrite IH. reflexivity. Qed.

(* The state after reading [pre] (already inside a block) is the block prefix. *)
Lemma block_fold n (Hn : (0 < n)%nat) bits : forall pre stale out,
  length (pre ++ stale) = n -> (length pre < n)%nat ->
  exists blocks pre' stale',
    ofold block_step bits (length pre, pre ++ stale, out) =
      Ok (length pre', pre' ++ stale', rev blocks ++ out) /\
    length (pre' ++ stale') = n /\ (length pre' < n)%nat /\
    Forall (fun b => length b = n) blocks /\
    pre ++ bits = concat blocks ++ pre'.
Proof.
  induction bits as [|b bits IH]; intros pre stale out Hl Hp.
  - exists [], pre, stale. cbn. rewrite app_nil_r. repeat split; auto.
  - cbn [ofold]. unfold block_step at 1.
    destruct stale as [|s0 stale]; [rewrite app_nil_r in Hl; lia|].
    rewrite Hl. destruct (Nat.ltb_spec (length pre) n); [|lia].
    rewrite upd_app_at.
    replace (length (pre ++ b :: stale)) with n
      by (rewrite <- Hl, !app_length; reflexivity).
    destruct (Nat.eqb_spec (S (length pre)) n) as [E|E].
    + cbn [obind]. assert (stale = []) as ->.
      { rewrite app_length in Hl. cbn [length] in Hl. destruct stale; [reflexivity|cbn [length] in Hl; lia]. }
      destruct (IH [] (pre ++ [b]) ((pre ++ [b]) :: out)) as (bl & p' & s' & E' & L1 & L2 & F & C).
      { cbn [app]. rewrite app_length. cbn [length]. lia. } { cbn. lia. }
      cbn [app length] in E'. rewrite E'.
      exists ((pre ++ [b]) :: bl), p', s'. split.
      * cbn [rev]. rewrite <- app_assoc. reflexivity.
      * split; [exact L1|]. split; [exact L2|]. split.
        -- constructor; [rewrite app_length; cbn [length]; lia|exact F].
        -- cbn [concat]. cbn [app] in C. rewrite <- app_assoc, <- C, <- app_assoc. reflexivity.
    + cbn [obind].
      destruct (IH (pre ++ [b]) stale out) as (bl & p' & s' & E' & L1 & L2 & F & C).
      { rewrite <- Hl, !app_length. cbn [length]. lia. } { rewrite app_length. cbn [length]. lia. }
      rewrite <- app_assoc in E'. cbn [app] in E'.
      replace (length (pre ++ [b])) with (S (length pre)) in E' by (rewrite app_length; cbn [length]; lia).
      rewrite E'. exists bl, p', s'. split; [reflexivity|].
      split; [exact L1|]. split; [exact L2|]. split; [exact F|].
      rewrite <- C, <- app_assoc. reflexivity.
Qed.

Lemma for_each_bit_block_ok w data n : (0 < n)%nat ->
  exists blocks, for_each_bit_block w data n = Ok blocks /\
    chopped n (flat_map (bits_lsb (N.to_nat w)) data) blocks.
Proof.
  intros Hn. unfold for_each_bit_block. rewrite for_each_bit_ok. cbn [obind].
  destruct (block_fold n Hn (flat_map (bits_lsb (N.to_nat w)) data) [] (repeat false n) [])
    as (bl & p' & s' & E & L1 & L2 & F & C).
  { cbn [app]. apply repeat_length. } { exact Hn. }
  cbn [app length] in E. rewrite E. cbn [obind snd]. exists bl. split.
  - rewrite app_nil_r, rev_involutive. reflexivity.
  - split; [exact F|]. exists p'. split; [exact C|exact L2].
Qed.

Lemma for_each_bit_block_0 w data : 0 < w -> data <> [] -> for_each_bit_block w data 0 = UB.
Proof.
  intros Hw Hd. unfold for_each_bit_block. rewrite for_each_bit_ok. cbn [obind].
  destruct data as [|v vs]; [contradiction|]. cbn [flat_map].
  destruct (N.to_nat w) as [|n] eqn:E; [lia|]. rewrite bits_lsb_S. reflexivity.
Qed.

Lemma value_lsb_app l1 l2 :
  value_lsb (l1 ++ l2) = value_lsb l1 + 2 ^ N.of_nat (length l1) * value_lsb l2.
Proof.
  induction l1 as [|b l1 IH].
  - cbn [app value_lsb length]. change (2 ^ N.of_nat 0) with 1. lia.
  - cbn [app value_lsb length]. rewrite IH, Nat2N.inj_succ, N.pow_succ_r'. destruct b; lia.
Qed.

Lemma value_lsb_bound l : value_lsb l < 2 ^ N.of_nat (length l).
Proof.
  induction l as [|b l IH]; [cbn; lia|].
  cbn [value_lsb length]. rewrite Nat2N.inj_succ, N.pow_succ_r'. destruct b; lia.
Qed.

Lemma value_lsb_bit l i : N.testbit (value_lsb l) i = nth (N.to_nat i) l false.
Proof.
  revert i. induction l as [|b l IH]; intro i.
  - cbn [value_lsb]. rewrite N.bits_0. destruct (N.to_nat i); reflexivity.
  - cbn [value_lsb]. rewrite testbit_double_add. destruct i as [|p]; [reflexivity|].
    rewrite IH. replace (N.to_nat (N.pos p)) with (S (N.to_nat (N.pred (N.pos p)))) by lia.
    reflexivity.
Qed.

Lemma lor_shift_value l (b : bool) :
  N.lor (value_lsb l) (N.shiftl (if b then 1 else 0) (N.of_nat (length l))) = value_lsb (l ++ [b]).
Proof.
  apply N.bits_inj. intro i. rewrite N.lor_spec, shiftl_testbit, !value_lsb_bit.
  destruct (N.leb_spec (N.of_nat (length l)) i) as [H|H]; cbn [andb].
  - rewrite nth_overflow by lia. cbn [orb]. rewrite app_nth2 by lia.
    replace (N.to_nat (i - N.of_nat (length l))) with (N.to_nat i - length l)%nat by lia.
    replace (i - N.of_nat (length l)) with (N.of_nat (N.to_nat i - length l)) by lia.
    destruct (N.to_nat i - length l)%nat as [|k]; cbn [nth].
    + destruct b; reflexivity.
    + match goal with |- _ = ?m => replace m with false by (destruct k; reflexivity) end.
      destruct b; [|apply N.bits_0]. apply (word_high 1); [unfold is_word; cbn; lia|lia].
  - rewrite orb_false_r. rewrite app_nth1 by lia. reflexivity.
Qed.

Lemma window_fold n (Hn : (0 < n <= 64)%nat) bits : forall pre out,
  (length pre < n)%nat ->
  exists blocks pre',
    ofold (window_step (Z.of_nat n)) bits (Z.of_nat (length pre), value_lsb pre, out) =
      Ok (Z.of_nat (length pre'), value_lsb pre', rev (map value_lsb blocks) ++ out) /\
    (length pre' < n)%nat /\
    Forall (fun b => length b = n) blocks /\
    pre ++ bits = concat blocks ++ pre'.
Proof.
  induction bits as [|b bits IH]; intros pre out Hp.
  - exists [], pre. cbn. rewrite app_nil_r. repeat split; auto.
  - cbn [ofold]. unfold window_step at 1.
    destruct (Z.leb_spec 64 (Z.of_nat (length pre))); [lia|].
    replace (Z.to_N (Z.of_nat (length pre))) with (N.of_nat (length pre)) by lia.
    rewrite lor_shift_value.
    destruct (Z.eqb_spec (Z.of_nat (length pre) + 1) (Z.of_nat n)) as [E|E]; cbn [obind].
    + destruct (IH [] (value_lsb (pre ++ [b]) :: out)) as (bl & p' & E' & L & F & C); [cbn; lia|].
      cbn [length value_lsb] in E'. change (Z.of_nat 0) with 0%Z in E'. rewrite E'.
      exists ((pre ++ [b]) :: bl), p'. split.
      * cbn [map rev]. rewrite <- app_assoc. reflexivity.
      * split; [exact L|]. split.
        -- constructor; [rewrite app_length; cbn [length]; lia|exact F].
        -- cbn [concat]. cbn [app] in C. rewrite <- app_assoc, <- C, <- app_assoc. reflexivity.
    + destruct (IH (pre ++ [b]) out) as (bl & p' & E' & L & F & C).
      { rewrite app_length. cbn [length]. lia. }
      replace (Z.of_nat (length (pre ++ [b]))) with (Z.of_nat (length pre) + 1)%Z in E'
        by (rewrite app_length; cbn [length]; lia).
      rewrite E'. exists bl, p'. split; [reflexivity|]. split; [exact L|]. split; [exact F|].
      rewrite <- C, <- app_assoc. reflexivity.
Qed.

Lemma sliding_bit_window_ok w data n : (0 < n <= 64)%nat ->
  exists blocks, sliding_bit_window w data (Z.of_nat n) = Ok (map value_lsb blocks) /\
    chopped n (flat_map (bits_lsb (N.to_nat w)) data) blocks.
Proof.
  intros Hn. unfold sliding_bit_window. rewrite for_each_bit_ok. cbn [obind].
  destruct (window_fold n Hn (flat_map (bits_lsb (N.to_nat w)) data) [] []) as (bl & p' & E & L & F & C).
  { cbn. lia. }
  cbn [app length value_lsb] in E. change (Z.of_nat 0) with 0%Z in E. rewrite E. cbn [obind snd].
  exists bl. split.
  - rewrite app_nil_r, rev_involutive. reflexivity.
  - split; [exact F|]. exists p'. split; [exact C|exact L].
Qed.

(* A chopping is unique. *)
Lemma chopped_unique {A} n (l : list A) b1 b2 : chopped n l b1 -> chopped n l b2 -> b1 = b2.
Proof.
  revert l b2. induction b1 as [|x b1 IH]; intros l b2 (F1 & t1 & E1 & L1) (F2 & t2 & E2 & L2).
  - destruct b2 as [|y b2]; [reflexivity|]. inversion F2; subst.
    cbn [concat app] in E2. rewrite E2 in L1. rewrite !app_length in L1. lia.
  - inversion F1 as [|? ? Hx F1']; subst. destruct b2 as [|y b2].
    + cbn [concat app] in E2. rewrite <- E2 in L2. rewrite !app_length in L2. lia.
    + inversion F2 as [|? ? Hy F2']; subst. cbn [concat] in E2. rewrite <- !app_assoc in E2.
      assert (x = y /\ concat b1 ++ t1 = concat b2 ++ t2) as [-> E].
      { clear - E2 Hy. revert y Hy E2. induction x as [|a x IHx]; intros [|b y] Hy E2; try discriminate Hy.
        - split; [reflexivity|exact E2].
        - cbn [app] in E2. injection E2 as -> E2. injection Hy as Hy.
          destruct (IHx y Hy E2) as [-> E]. split; [reflexivity|exact E]. }
      f_equal. apply (IH (concat b1 ++ t1)).
      * split; [exact F1'|]. exists t1. split; [reflexivity|exact L1].
      * split; [exact F2'|]. exists t2. split; [exact E|exact L2].
Qed.
