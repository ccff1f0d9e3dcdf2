(* The uniform test: number of bins and expected counts. *)
From Coq Require Import Reals Lra String.
From Flocq Require Import Core BinarySingleNaN.
From Verif Require Import Base FloatModel FloatLemmas ResultModel CollectModel CollectSpec CollectProofs Collect2Proofs RescaleProofs Collect3Proofs StatsModel StatsProofs ErrorSpec StatFormulas EvaluateModel EvaluateSpec LimitProofs TestsModel TestsSpec TestsProofs.
Open Scope R_scope.

Lemma nearby_val m x : dval (Bnearbyint m x) = IZR (round_mode m (dval x)) /\ (fin x -> fin (Bnearbyint m x)).
Proof.
  destruct (Bnearbyint_correct 53 1024 _ m x) as (V & F & _). split.
  - unfold dval at 1. rewrite V. unfold round, scaled_mantissa, F2R, cexp, FIX_exp. cbn [Fnum Fexp bpow Z.opp]. rewrite !Rmult_1_r. reflexivity.
  - unfold fin. rewrite F. trivial.
Qed.
Lemma ceil_N x : fin x -> 0 <= dval x <= bpow radix2 62 -> N_of_double 64 (dceil x) = Ok (Z.to_N (Zceil (dval x))).
Proof.
  intros F B. destruct (nearby_val mode_UP x) as [V Fn]. specialize (Fn F). fold (dceil x) in V, Fn. cbn [round_mode] in V.
  assert (B0 : (0 <= Zceil (dval x))%Z) by (rewrite <- (Zceil_IZR 0); apply Zceil_le; apply B).
  assert (B1 : (Zceil (dval x) <= 2 ^ 62)%Z) by (apply Zceil_glb; rewrite IZR_pow2 by lia; apply B).
  rewrite N_of_double_trunc; [|exact Fn|rewrite V; apply IZR_le, B0|].
  - rewrite V, Zfloor_IZR. reflexivity.
  - rewrite V. apply IZR_lt. apply Z.le_lt_trans with (1 := B1). reflexivity.
Qed.
Lemma c04_ok : let c := dconst 7205759403792794 (-54) in fin c /\ 0 < dval c <= 1 /\ Rabs (dval c - 2 / 5) <= / 2 ^ 53.
Proof.
  intros c. destruct (dconst_ok 7205759403792794 (-54)) as [V F].
  { unfold F2R. cbn [Fnum Fexp]. apply (small_bpow _ 53); [lia|]. rewrite Rabs_pos_eq by (apply Rmult_le_pos; [lra|apply bpow_ge_0]).
    change 53%Z with (107 + -54)%Z. rewrite bpow_plus. apply Rmult_le_compat_r; [apply bpow_ge_0|]. rewrite <- IZR_pow2 by lia. apply IZR_le. vm_compute. discriminate. }
  fold c in V, F. rewrite rnd_id in V by (apply F64_F2R; lia).
  assert (V' : dval c = 7205759403792794 / 18014398509481984) by (rewrite V; unfold F2R; cbn [Fnum Fexp]; change (bpow radix2 (-54)) with (/ 18014398509481984); reflexivity).
  split; [exact F|]. rewrite V'. split; [lra|]. replace (2 ^ 53) with 9007199254740992 by (cbn; lra). apply Rabs_le. lra.
Qed.

Lemma ln_1p x : 0 <= x <= 1 -> x / 2 <= ln (1 + x).
Proof.
  intros Hx. rewrite <- (ln_exp (x / 2)). apply ln_le; [apply exp_pos|].
  assert (E : exp (x / 2) * exp (- (x / 2)) = 1) by (rewrite <- exp_plus; replace (x / 2 + - (x / 2)) with 0 by ring; apply exp_0).
  pose proof (exp_ineq1_le (- (x / 2))) as I. pose proof (exp_pos (x / 2)) as P.
  apply (Rmult_le_reg_r (1 - x / 2)); [lra|]. apply Rle_trans with 1; [|nra]. rewrite <- E. apply Rmult_le_compat_l; lra.
Qed.
Lemma ln2_pos : 0 < ln 2.
Proof. rewrite <- ln_1. apply ln_increasing; lra. Qed.
Lemma ln_bpow k : (0 <= k)%Z -> ln (bpow radix2 k) = IZR k * ln 2.
Proof.
  intros Hk. rewrite <- (Z2Nat.id k Hk) at 1. rewrite LibInst.bpow_nat, ln_pow by lra. rewrite INR_IZR_INZ, Z2Nat.id by exact Hk. reflexivity.
Qed.
(* ceil (log2 m) *)
Lemma ceil_log2 M m : good_math M -> (1 < m)%N -> (m <= 2 ^ 30)%N ->
  N_of_double 64 (dceil (m_log2 M (double_of_N m))) = Ok (N.log2_up m).
Proof.
  intros G Hm Hb. assert (B53 : (m <= 2 ^ 53)%N) by (apply N.le_trans with (1 := Hb); discriminate).
  destruct (double_of_N_exact m B53) as [Vm Fm].
  pose proof (N.log2_up_spec m Hm) as [L1 L2]. set (K := N.log2_up m) in *.
  assert (K1 : (1 <= K)%N) by (pose proof (N.log2_up_pos m Hm); fold K in H; lia).
  assert (K30 : (K <= 30)%N) by (apply (N.log2_up_le_mono m (2 ^ 30)) in Hb; rewrite N.log2_up_pow2 in Hb by lia; exact Hb).
  change (Ok (N.log2_up m)) with (Ok K). clearbody K.
  replace (N.pred K) with (K - 1)%N in L1 by lia.
  assert (X : fin (m_log2 M (double_of_N m)) /\ IZR (Z.of_N K) - 1 < dval (m_log2 M (double_of_N m)) <= IZR (Z.of_N K)).
  { destruct (N.eq_dec m (2 ^ K)) as [e|Hne].
    - rewrite e. destruct (gm_log2_exact M G K ltac:(lia)) as [F V]. split; [exact F|]. rewrite V. lra.
    - assert (BM : 1 <= dval (double_of_N m) <= bpow radix2 53).
      { rewrite Vm. split; [apply IZR_le; lia|]. rewrite <- IZR_pow2 by lia. apply IZR_le. change (2 ^ 53)%Z with (Z.of_N (2 ^ 53)). apply N2Z.inj_le, B53. }
      destruct (gm_log2 M G (double_of_N m) Fm BM) as [F A].
      split; [exact F|]. apply Rabs_le_inv in A. rewrite Vm in A. pose proof ln2_pos as P2. pose proof ln2_lt1 as P2'.
      assert (Rm : bpow radix2 (Z.of_N K - 1) + 1 <= IZR (Z.of_N m) <= bpow radix2 (Z.of_N K) - 1).
      { rewrite <- !IZR_pow2 by lia. rewrite <- minus_IZR, <- plus_IZR. split; apply IZR_le.
        - replace (2 ^ (Z.of_N K - 1))%Z with (Z.of_N (2 ^ (K - 1))) by (rewrite N2Z.inj_pow, N2Z.inj_sub by lia; reflexivity). lia.
        - replace (2 ^ Z.of_N K)%Z with (Z.of_N (2 ^ K)) by (rewrite N2Z.inj_pow; reflexivity). lia. }
      pose proof (bpow_gt_0 radix2 (Z.of_N K)) as PK. pose proof (bpow_gt_0 radix2 (Z.of_N K - 1)) as PK1.
      assert (T : bpow radix2 (-40) < bpow radix2 (- Z.of_N K) ) by (apply bpow_lt; lia).
      assert (I0 : bpow radix2 (Z.of_N K - 1) * bpow radix2 (1 - Z.of_N K) = 1) by (rewrite <- bpow_plus; replace (Z.of_N K - 1 + (1 - Z.of_N K))%Z with 0%Z by lia; reflexivity).
      assert (I1 : bpow radix2 (Z.of_N K) * bpow radix2 (- Z.of_N K) = 1) by (rewrite <- bpow_plus; replace (Z.of_N K + - Z.of_N K)%Z with 0%Z by lia; reflexivity).
      assert (H2 : bpow radix2 (1 - Z.of_N K) = 2 * bpow radix2 (- Z.of_N K)) by (replace (1 - Z.of_N K)%Z with (1 + - Z.of_N K)%Z by lia; rewrite bpow_plus; reflexivity).
      assert (Hx : bpow radix2 (1 - Z.of_N K) <= 1) by (change 1 with (bpow radix2 0); apply bpow_le; lia).
      pose proof (bpow_gt_0 radix2 (- Z.of_N K)) as Px.
      split.
      + assert (LB : (IZR (Z.of_N K) - 1) * ln 2 + bpow radix2 (- Z.of_N K) <= ln (IZR (Z.of_N m))).
        { apply Rle_trans with (ln (bpow radix2 (Z.of_N K - 1) * (1 + bpow radix2 (1 - Z.of_N K)))).
          - rewrite ln_mult by lra. rewrite ln_bpow, minus_IZR by lia. pose proof (ln_1p (bpow radix2 (1 - Z.of_N K)) ltac:(lra)). lra.
          - apply ln_le; [apply Rmult_lt_0_compat; lra|]. lra. }
        assert (D : (IZR (Z.of_N K) - 1) + bpow radix2 (- Z.of_N K) <= ln (IZR (Z.of_N m)) / ln 2).
        { apply (Rmult_le_reg_r (ln 2)); [exact P2|]. unfold Rdiv. rewrite Rmult_assoc, Rinv_l by lra. nra. }
        lra.
      + assert (UB : ln (IZR (Z.of_N m)) <= IZR (Z.of_N K) * ln 2 - bpow radix2 (- Z.of_N K)).
        { apply Rle_trans with (ln (bpow radix2 (Z.of_N K) * exp (- bpow radix2 (- Z.of_N K)))).
          - apply ln_le; [lra|]. pose proof (exp_ineq1_le (- bpow radix2 (- Z.of_N K))). nra.
          - rewrite ln_mult by (try apply exp_pos; lra). rewrite ln_bpow, ln_exp by lia. lra. }
        assert (D : ln (IZR (Z.of_N m)) / ln 2 <= IZR (Z.of_N K) - bpow radix2 (- Z.of_N K)).
        { apply (Rmult_le_reg_r (ln 2)); [exact P2|]. unfold Rdiv. rewrite Rmult_assoc, Rinv_l by lra. nra. }
        lra. }
  destruct X as [F [A B]].
  assert (KR : 1 <= IZR (Z.of_N K) <= 30) by (split; apply IZR_le; lia).
  rewrite ceil_N; [|exact F|].
  - f_equal. rewrite (Zceil_imp (Z.of_N K)); [apply N2Z.id|]. rewrite minus_IZR. split; assumption.
  - split; [lra|]. apply Rle_trans with 64; [lra|]. change 64 with (bpow radix2 6). apply bpow_le. lia.
Qed.

Lemma bin_count_ok M w n : good_math M -> In w widths -> (1 <= n < 2 ^ 64)%N ->
  exists K, (1 <= K <= 28)%N /\ bin_count_pow2 M w n = Ok (2 ^ (N.min K w))%N /\
    2 * Rpower (IZR (Z.of_N n)) (2 / 5) * (1 - / 2 ^ 38) <= bpow radix2 (Z.of_N K) < 4 * Rpower (IZR (Z.of_N n)) (2 / 5) * (1 + / 2 ^ 38) + 2.
Proof.
  intros G Hw Hn. destruct c04_ok as (Fc & Bc & Nc). set (c := dconst 7205759403792794 (-54)) in *.
  destruct (dbl_N n Hn) as (FX & BX & NX). destruct (gm_pow M G) as (G1 & _ & _). destruct (G1 (double_of_N n) c FX Fc BX Bc) as [FP EP].
  unfold bin_count_pow2, get_bin_count_mathematica. fold c. set (P := m_pow M (double_of_N n) c) in *. set (X := dval (double_of_N n)) in *.
  assert (BN : 1 <= IZR (Z.of_N n) <= IZR (2 ^ 64)).
  { split; [apply (IZR_le 1); lia|apply IZR_le, Z.lt_le_incl, (proj1 (N2Z.inj_lt n (2 ^ 64))), Hn]. }
  destruct (Rpower_near (IZR (Z.of_N n)) X (2 / 5) (dval c) BN NX ltac:(lra) Nc Bc (proj1 BX)) as [E1 E2].
  set (Y := Rpower (IZR (Z.of_N n)) (2 / 5)) in *. set (Z0 := Rpower X (dval c)) in *.
  assert (C40 : / 2 ^ 45 = / 35184372088832 /\ / 2 ^ 44 = / 17592186044416 /\ / 2 ^ 40 = / 1099511627776 /\ / 2 ^ 38 = / 274877906944) by (repeat split; f_equal; cbn; lra).
  destruct C40 as (C45 & C44 & C40 & C38). rewrite C45, C44 in *. rewrite C40 in EP. rewrite C38.
  assert (Y1 : 1 <= Y).
  { unfold Y. replace 1 with (Rpower (IZR (Z.of_N n)) 0) by (apply Rpower_O; lra). destruct (Req_dec (IZR (Z.of_N n)) 1) as [->|]; [|apply Rlt_le, Rpower_lt; lra].
    unfold Rpower. rewrite ln_1, !Rmult_0_r. lra. }
  assert (YU : Y <= bpow radix2 26).
  { unfold Y. apply Rle_trans with (Rpower (IZR (2 ^ 64)) (2 / 5)); [apply Rle_Rpower_l; lra|].
    unfold Rpower. change (IZR (2 ^ 64)) with (bpow radix2 64). rewrite ln_bpow by lia. rewrite <- (exp_ln (bpow radix2 26)) by apply bpow_gt_0. apply exp_le. rewrite ln_bpow by lia. pose proof ln2_pos. lra. }
  apply Rabs_le_inv in EP.
  assert (PB : Y * (1 - / 549755813888) <= dval P <= Y * (1 + / 549755813888)) by nra.
  change (bpow radix2 26) with 67108864 in YU.
  destruct (double_of_N_exact 2 ltac:(discriminate)) as [V2 F2]. change (IZR (Z.of_N 2)) with 2 in V2.
  destruct (dmul_ok (double_of_N 2) P F2 FP) as [Vq Fq].
  { rewrite V2. apply (small_bpow _ 30); [lia|]. change (bpow radix2 30) with 1073741824. rewrite Rabs_pos_eq; nra. }
  assert (Eq : dval (dmul (double_of_N 2) P) = 2 * dval P).
  { rewrite Vq, V2. change 2 with (bpow radix2 1). rewrite rnd_scale; [f_equal; apply rnd_id, dval_format|lia|nra|].
    right. apply Rle_trans with (bpow radix2 (-1)); [apply bpow_le; lia|]. change (bpow radix2 (-1)) with (/ 2). nra. }
  rewrite ceil_N; [|exact Fq|].
  2:{ rewrite Eq. split; [nra|]. apply Rle_trans with 1073741824; [nra|]. change 1073741824 with (bpow radix2 30). apply bpow_le. lia. }
  cbn [obind]. rewrite Eq. set (mz := Zceil (2 * dval P)).
  assert (MZ : IZR mz - 1 < 2 * dval P <= IZR mz).
  { split; [|apply Zceil_ub]. unfold mz. pose proof (Zceil_lb (2 * dval P)). lra. }
  assert (M2 : (2 <= mz)%Z).
  { assert (1 < mz)%Z; [|lia]. apply lt_IZR. apply Rlt_le_trans with (2 * dval P); [nra|apply MZ]. }
  assert (MU : (mz <= 2 ^ 28)%Z).
  { unfold mz. apply Zceil_glb. rewrite IZR_pow2 by lia. change (bpow radix2 28) with 268435456. nra. }
  set (m := Z.to_N mz). assert (Em : Z.of_N m = mz) by (unfold m; rewrite Z2N.id; lia).
  assert (Hm : (1 < m)%N) by lia. assert (Hm28 : (m <= 2 ^ 28)%N) by (apply N2Z.inj_le; rewrite Em; exact MU).
  rewrite (ceil_log2 M m G Hm) by (apply N.le_trans with (1 := Hm28); discriminate). cbn [obind].
  pose proof (N.log2_up_spec m Hm) as [L1 L2]. pose proof (N.log2_up_pos m Hm) as L0.
  assert (L28 : (N.log2_up m <= 28)%N) by (apply (N.log2_up_le_mono m (2 ^ 28)) in Hm28; rewrite N.log2_up_pow2 in Hm28 by lia; exact Hm28).
  set (K := N.log2_up m) in *. exists K. split; [lia|]. split.
  - destruct (N.leb_spec 64 K); [lia|]. destruct (N.eqb_spec w 64) as [->|Hw64]; [rewrite N.min_l by lia; reflexivity|].
    f_equal. destruct (N.le_ge_cases K w) as [L|L]; [rewrite (N.min_l K w L)|rewrite (N.min_r K w L)].
    + apply N.min_l, N.pow_le_mono_r; [discriminate|exact L].
    + apply N.min_r, N.pow_le_mono_r; [discriminate|exact L].
  - assert (B : IZR (Z.of_N m) <= bpow radix2 (Z.of_N K) < 2 * IZR (Z.of_N m)).
    { rewrite <- IZR_pow2 by lia. rewrite <- (mult_IZR 2). change (2 ^ Z.of_N K)%Z with (Z.of_N 2 ^ Z.of_N K)%Z. rewrite <- N2Z.inj_pow. split; [apply IZR_le; lia|apply IZR_lt].
      replace K with (N.succ (N.pred K)) by lia. rewrite N.pow_succ_r'. lia. }
    rewrite Em in B. split; nra.
Qed.

Lemma div_pow2 n k : (1 <= n <= 2 ^ 53)%N -> (k <= 63)%N -> let e := ddiv (double_of_N n) (double_of_N (2 ^ k)) in
  fin e /\ dval e = IZR (Z.of_N n) / IZR (Z.of_N (2 ^ k)) /\ bpow radix2 (-64) <= dval e <= bpow radix2 53.
Proof.
  intros Hn Hk e. destruct (double_of_N_exact n (proj2 Hn)) as [Vn Fn].
  assert (P : IZR (Z.of_N (2 ^ k)) = bpow radix2 (Z.of_N k)) by (rewrite N2Z.inj_pow; apply IZR_pow2; lia).
  assert (P2 : dval (double_of_N (2 ^ k)) = bpow radix2 (Z.of_N k) /\ fin (double_of_N (2 ^ k))).
  { destruct (double_of_N_ok (2 ^ k)) as [V F]; [apply N.pow_lt_mono_r; lia|]. split; [|exact F]. rewrite V, P. apply rnd_id, F64_bpow. lia. }
  destruct P2 as [V2 F2].
  assert (Hb : 1 <= IZR (Z.of_N n) <= bpow radix2 53).
  { split; [apply (IZR_le 1); lia|]. rewrite <- IZR_pow2 by lia. apply IZR_le. change (2 ^ 53)%Z with (Z.of_N (2 ^ 53)). apply N2Z.inj_le, Hn. }
  assert (Pk : 1 <= bpow radix2 (Z.of_N k) <= bpow radix2 64) by (split; [change 1 with (bpow radix2 0)|]; apply bpow_le; lia).
  assert (EQ : IZR (Z.of_N n) / bpow radix2 (Z.of_N k) = F2R (Float radix2 (Z.of_N n) (- Z.of_N k))) by (unfold F2R; cbn [Fnum Fexp]; rewrite bpow_opp; reflexivity).
  assert (Fr : F64 (IZR (Z.of_N n) / bpow radix2 (Z.of_N k))).
  { rewrite EQ. apply F64_F2R; [|lia]. rewrite Z.abs_eq by lia. change (2 ^ 53)%Z with (Z.of_N (2 ^ 53)). apply N2Z.inj_le, Hn. }
  assert (B : bpow radix2 (-64) <= IZR (Z.of_N n) / bpow radix2 (Z.of_N k) <= bpow radix2 53).
  { split.
    - change (bpow radix2 (-64)) with (/ bpow radix2 64). apply Rle_trans with (/ bpow radix2 (Z.of_N k)); [apply Rinv_le; lra|]. unfold Rdiv. rewrite <- (Rmult_1_l (/ bpow radix2 (Z.of_N k))) at 1.
      apply Rmult_le_compat_r; [apply Rlt_le, Rinv_0_lt_compat; lra|lra].
    - apply Rle_trans with (2 := proj2 Hb). apply (Rmult_le_reg_r (bpow radix2 (Z.of_N k))); [lra|]. unfold Rdiv. rewrite Rmult_assoc, Rinv_l by lra. nra. }
  destruct (ddiv_ok (double_of_N n) (double_of_N (2 ^ k)) Fn ltac:(rewrite V2; lra)) as [Ve Fe].
  { rewrite Vn, V2. apply (small_bpow _ 53); [lia|]. rewrite Rabs_pos_eq; [apply B|]. apply Rle_trans with (2 := proj1 B). apply bpow_ge_0. }
  fold e in Ve, Fe. rewrite Vn, V2, (rnd_id _ Fr) in Ve. rewrite P, Ve. split; [exact Fe|]. split; [reflexivity|exact B].
Qed.

Lemma map_const_seq {A} (c : A) m k : map (fun _ => c) (seq k m) = repeat c m.
Proof. revert k. induction m as [|m IH]; intro k; [reflexivity|]. cbn [seq map repeat]. rewrite IH. reflexivity. Qed.
Lemma values_len stream n : length (values stream n) = N.to_nat n.
Proof. unfold values. rewrite map_length, seq_length. reflexivity. Qed.
Lemma values_words w stream n : (forall i, is_word w (stream i)) -> Forall (is_word w) (values stream n).
Proof. intros H. apply Forall_forall. intros x Hx. apply in_map_iff in Hx. destruct Hx as (i & <- & _). apply H. Qed.
Lemma total_bounds h i b : total h = b -> (nth i h 0 <= b)%N.
Proof. intros <-. revert i. induction h as [|a h IH]; intros i; [destruct i; cbn; lia|]. destruct i as [|i]; cbn [nth total fold_right]; [lia|]. specialize (IH i). unfold total in IH. lia. Qed.
Lemma total_forall h b : (total h <= b)%N -> Forall (fun c => c <= b)%N h.
Proof.
  intros H. apply Forall_forall. intros x Hx. apply (In_nth _ _ 0%N) in Hx. destruct Hx as (i & _ & <-). eapply N.le_trans; [apply (total_bounds h i (total h) eq_refl)|exact H].
Qed.
Lemma filter_repeat {A} (p : A -> bool) c m : length (filter p (repeat c m)) = if p c then m else O.
Proof. induction m as [|m IH]; [destruct (p c); reflexivity|]. cbn [repeat filter]. destruct (p c); cbn [length]; rewrite IH; reflexivity. Qed.

(* the chi-square test of counts that are all expected equally often *)
Lemma flat_test cdf os c : (Z.of_nat (length os) <= 2 ^ 50)%Z -> (total os <= 2 ^ 53)%N -> fin c -> bpow radix2 (-64) <= dval c <= bpow radix2 64 ->
  chi2_test cdf 0 os (repeat (dval c) (length os)) (chi2_stats cdf (length os) (to_data os) (fun _ => c) d0).
Proof.
  intros Hl Ht Fc Bc. rewrite <- (proj1 d0_val). apply chi2_is_test.
  - exact Hl.
  - reflexivity.
  - rewrite map_const_seq. reflexivity.
  - intros i Hi. apply to_data_ok; [exact Hi|]. apply total_forall, Ht.
  - intros _ _. exact Fc.
  - intros _ _ _. exact Bc.
Qed.
Lemma flat_exists cdf os c r : 0 < c -> (2 <= length os)%nat -> chi2_test cdf 0 os (repeat c (length os)) r -> r <> None.
Proof.
  intros Hc Hl [_ H] ->. cbn zeta in H. rewrite filter_repeat in H. rewrite Rlt_bool_true in H by exact Hc. lia.
Qed.

Lemma uniform_ok M cdf w n stream : good_math M -> In w widths -> (1 <= n <= 2 ^ 53)%N -> (forall i, is_word w (stream i)) ->
  exists K os s, (1 <= K <= 28)%N /\
    2 * Rpower (IZR (Z.of_N n)) (2 / 5) * (1 - / 2 ^ 38) <= bpow radix2 (Z.of_N K) < 4 * Rpower (IZR (Z.of_N n)) (2 / 5) * (1 + / 2 ^ 38) + 2 /\
    let k := N.min K w in
    uniform_test M cdf w n stream = Ok [mksub "" (Some s)] /\
    N.of_nat (length os) = (2 ^ k)%N /\ total os = n /\
    (forall i, (i < 2 ^ k)%N -> nth (N.to_nat i) os 0%N = count (fun x => match bin_index w (2 ^ k) x with Ok j => (j =? i)%N | UB => false end) (values stream n)) /\
    chi2_test cdf 0 os (repeat (IZR (Z.of_N n) / IZR (Z.of_N (2 ^ k))) (length os)) (Some s).
Proof.
  intros G Hw Hn Hs. assert (Hn' : (1 <= n < 2 ^ 64)%N) by (split; [apply Hn|]; apply N.le_lt_trans with (1 := proj2 Hn); reflexivity).
  destruct (bin_count_ok M w n G Hw Hn') as (K & BK & EB & BB).
  assert (W : (8 <= w <= 64)%N) by (cbn in Hw; intuition lia).
  set (k := N.min K w) in *. assert (Hk : (1 <= k <= 28)%N) by lia.
  assert (Hm : (1 <= 2 ^ k <= 2 ^ 28)%N) by (split; [change 1%N with (2 ^ 0)%N|]; apply N.pow_le_mono_r; lia).
  destruct (bins_ok w (2 ^ k) (values stream n)) as (os & Eo & Lo & To & Co); [lia| |apply values_words, Hs|].
  { split; [apply Hm|]. apply N.le_trans with (1 := proj2 Hm). discriminate. }
  rewrite values_len, N2Nat.id in To.
  destruct (div_pow2 n k Hn ltac:(lia)) as (Fe & Ve & Be). set (e := ddiv (double_of_N n) (double_of_N (2 ^ k))) in *.
  assert (T : chi2_test cdf 0 os (repeat (dval e) (length os)) (chi2_stats cdf (length os) (to_data os) (fun _ => e) d0)).
  { apply flat_test; [|rewrite To; apply Hn|exact Fe|].
    - apply Z.le_trans with (2 ^ 28)%Z; [|discriminate]. rewrite <- nat_N_Z, Lo. change (2 ^ 28)%Z with (Z.of_N (2 ^ 28)). apply N2Z.inj_le, Hm.
    - split; [apply Be|]. apply Rle_trans with (1 := proj2 Be). apply bpow_le. lia. }
  assert (NE : chi2_stats cdf (length os) (to_data os) (fun _ => e) d0 <> None).
  { eapply flat_exists; [|  |exact T].
    - apply Rlt_le_trans with (2 := proj1 Be). apply bpow_gt_0.
    - assert (2 <= 2 ^ k)%N; [|lia]. change 2%N with (2 ^ 1)%N at 1. apply N.pow_le_mono_r; lia. }
  destruct (chi2_stats cdf (length os) (to_data os) (fun _ => e) d0) as [s|] eqn:ES; [|congruence].
  exists K, os, s. split; [exact BK|]. split; [exact BB|]. cbn zeta. fold k. split; [|split; [exact Lo|split; [exact To|split; [exact Co|]]]].
  - unfold uniform_test, chi2_uniform_stats. rewrite EB. cbn [obind]. rewrite Eo. cbn [obind]. fold e. rewrite ES. reflexivity.
  - rewrite <- Ve. exact T.
Qed.
