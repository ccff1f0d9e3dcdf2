(* The correlation tests of a stream. *)
From Coq Require Import String Reals Lra Lia Permutation.
From Flocq Require Import Core BinarySingleNaN.
From Verif Require Import Base FloatModel FloatLemmas ResultModel ResultSpec CollectModel StatsModel RescaleProofs StatsProofs CouponFloatProofs StatFormulas EvaluateModel CommandModel CorrModel CorrSpec CorrCount CorrKendall CorrProofs CorrPearson CorrPearson2 ErrorSpec SetupProofs.
Open Scope R_scope.

Lemma format_multiple x : F64 x -> bpow radix2 (-400) <= Rabs x -> exists m : Z, x = IZR m * bpow radix2 (-500).
Proof.
  intros F B. assert (M : (-400 < mag radix2 x)%Z) by (apply mag_gt_bpow, B).
  set (e := cexp radix2 (FLT_exp (-1074) 53) x). assert (E : (-500 <= e)%Z) by (unfold e, cexp, FLT_exp; lia).
  set (m := Ztrunc (scaled_mantissa radix2 (FLT_exp (-1074) 53) x)). exists (m * 2 ^ (e + 500))%Z.
  assert (V : x = IZR m * bpow radix2 e) by (unfold F64, generic_format in F; exact F). rewrite mult_IZR, IZR_pow2 by lia.
  rewrite Rmult_assoc, <- bpow_plus. replace (e + 500 + -500)%Z with e by lia. exact V.
Qed.
Lemma rescale_usual w x : (0 < w <= 64)%N -> is_word w x -> usual (rescale_type_to_01 w x).
Proof.
  intros Hw Hx. destruct (rescale_range w x Hw Hx) as (F & B & E). split; [exact F|]. split.
  { rewrite Rabs_pos_eq by lra. apply Rle_trans with 1; [lra|]. change 1 with (bpow radix2 0). apply bpow_le. lia. }
  destruct (N.eq_dec x 0) as [->|Nx].
  - exists 0%Z. rewrite E. cbn. rewrite (rnd_id 0 F64_0). unfold Rdiv. rewrite Rmult_0_l, (rnd_id 0 F64_0). ring.
  - apply format_multiple; [apply dval_format|]. rewrite Rabs_pos_eq by lra. rewrite E.
    assert (H1 : 1 <= rnd (IZR (Z.of_N x))) by (rewrite <- (rnd_id 1 F64_1); apply rnd_mono, IZR_le; lia).
    assert (W64 : (2 ^ w <= 2 ^ 64)%N) by (apply N.pow_le_mono_r; lia). unfold is_word in Hx.
    assert (H2 : rnd (IZR (Z.of_N (2 ^ w - 1))) <= bpow radix2 64).
    { rewrite <- (rnd_id (bpow radix2 64)) by (apply F64_bpow; lia). apply rnd_mono. rewrite <- IZR_pow2 by lia. apply IZR_le. change (2 ^ 64)%Z with (Z.of_N (2 ^ 64)). lia. }
    assert (H3 : 1 <= rnd (IZR (Z.of_N (2 ^ w - 1)))) by (rewrite <- (rnd_id 1 F64_1); apply rnd_mono, IZR_le; lia).
    apply Rle_trans with (bpow radix2 (-64)); [apply bpow_le; lia|]. rewrite <- (rnd_id (bpow radix2 (-64))) by (apply F64_bpow; lia). apply rnd_mono.
    change (bpow radix2 (-64)) with (/ bpow radix2 64). apply Rle_trans with (1 * / rnd (IZR (Z.of_N (2 ^ w - 1)))); [rewrite Rmult_1_l; apply Rinv_le_contravar; lra|].
    apply Rmult_le_compat_r; [apply Rlt_le, Rinv_0_lt_compat; lra|exact H1].
Qed.
Lemma rescale_unit w x : (0 < w <= 64)%N -> is_word w x -> is_finite (rescale_type_to_01 w x) = true /\ 0 <= dval (rescale_type_to_01 w x) <= 1.
Proof. intros Hw Hx. destruct (rescale_range w x Hw Hx) as (F & B & _). split; assumption. Qed.

(* the states of the split test *)
Lemma corr_split stats max w n stream : (0 < max)%N ->
  let runs := if (n <=? max)%N then 1%nat else N.to_nat (N.max 2 (n / max)) in
  let size := N.to_nat (N.min n max) in
  exists subs, correlation_test stats max w n stream = Ok subs /\ length subs = runs /\ forall i, (i < runs)%nat ->
    let xy := create_serial_xy w stream (2 * size * i) size in
    option_map sub_stats (nth_error subs i) = Some (match stats (fst xy) (snd xy) with Ok r => r | UB => None end).
Proof.
  intros Hm runs size. unfold correlation_test. destruct (N.leb_spec n max) as [H|H].
  - unfold split_test. replace (n <=? max)%N with true by (symmetry; apply N.leb_le, H). cbn [create_serial_xy].
    eexists. split; [cbn; reflexivity|]. unfold runs, size. replace (N.min n max) with n by lia. split; [reflexivity|].
    intros i Hi. replace i with 0%nat by lia. rewrite Nat.mul_0_r. cbn. reflexivity.
  - set (f := fun (size : N) (pos : nat) => let '(xs, ys) := create_serial_xy w stream pos (N.to_nat size) in (match stats xs ys with Ok r => r | UB => None end, (pos + 2 * N.to_nat size)%nat)).
    destruct (split_spec n max f 0%nat (conj Hm H)) as (subs & E & Ls & _ & Hs).
    exists subs. change (fun size0 pos => let '(xs, ys) := create_serial_xy w stream pos (N.to_nat size0) in (match stats xs ys with Ok r => r | UB => None end, (pos + 2 * N.to_nat size0)%nat)) with f. rewrite E. split; [reflexivity|]. split; [exact Ls|].
    assert (St : forall i, Nat.iter i (fun s => snd (f max s)) 0%nat = (2 * size * i)%nat).
    { unfold size. replace (N.min n max) with max by lia. induction i as [|i IH]; [cbn; lia|]. cbn [Nat.iter]. change (snd (f max (Nat.iter i (fun s => snd (f max s)) 0%nat)) = (2 * N.to_nat max * S i)%nat). rewrite IH. cbn. lia. }
    intros i Hi. rewrite (Hs i Hi), St. unfold size. replace (N.min n max) with max by lia. reflexivity.
Qed.
Lemma serial_lengths w stream pos size : length (fst (create_serial_xy w stream pos size)) = size /\ length (snd (create_serial_xy w stream pos size)) = size.
Proof. cbn. rewrite !map_length, seq_length. split; reflexivity. Qed.
Lemma serial_forall (Q : double -> Prop) w stream pos size : (forall i, Q (rescale_type_to_01 w (stream i))) -> Forall Q (fst (create_serial_xy w stream pos size)) /\ Forall Q (snd (create_serial_xy w stream pos size)).
Proof. intros H. cbn. split; apply Forall_map, Forall_forall; intros; apply H. Qed.
