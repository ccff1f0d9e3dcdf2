(* The results of the serial avalanche test, row by row. *)
From Coq Require Import String Reals Lra Lia.
From Flocq Require Import Core BinarySingleNaN.
From Verif Require Import Base BitwiseModel BitwiseSpec FloatModel FloatLemmas ResultModel CollectModel CollectSpec CollectProofs Collect2Proofs RescaleProofs Collect3Proofs CouponFloatProofs StatsModel StatsSpec StatsProofs StatFormulas.
Open Scope R_scope.

(* std::pow(2, w) is exact *)
Definition exact_pow2_at (pow : double -> double -> double) (w : N) : Prop := pow (double_of_N 2) (double_of_N w) = dconst 1 (Z.of_N w).

Lemma choose_row_bound w k : (w <= 64)%N -> (k <= N.to_nat w)%nat -> (choose (N.to_nat w) k <= 2 ^ 63)%N.
Proof.
  intros Hw Hk. destruct (N.eq_dec w 64) as [->|Hn].
  - change (N.to_nat 64) with 64%nat in *. rewrite <- pascal_ok by exact Hk.
    assert (A : forallb (fun x => (x <=? 2 ^ 63)%N) (pascal_row 64) = true) by (vm_compute; reflexivity).
    rewrite forallb_forall in A. apply N.leb_le, A, nth_In. rewrite pascal_len. lia.
  - apply N.le_trans with (1 := choose_le_pow (N.to_nat w) k). rewrite N2Nat.id. apply N.pow_le_mono_r; lia.
Qed.
(* relative accuracy of the binomial coefficient, up to 64-bit words *)
Lemma binomial_relative w k : (w <= 64)%N -> (k <= N.to_nat w)%nat -> exists r, binomial_coefficient w (N.of_nat k) = Ok r /\ (1 <= r <= 2 ^ 63 + 2 ^ 40)%N /\
  approx (bpow radix2 (-43)) (IZR (Z.of_N r)) (IZR (Z.of_N (choose (N.to_nat w) k))).
Proof.
  intros Hw Hk. pose proof (choose_row_bound w k Hw Hk) as CB. pose proof (choose_pos (N.to_nat w) k Hk) as C1.
  destruct (N.lt_ge_cases (12 * N.of_nat k * choose (N.to_nat w) k) (2 ^ 53)) as [S|S].
  - exists (choose (N.to_nat w) k). split; [|split; [lia|apply approx_refl, bpow_ge_0]]. rewrite (binomial_exact w (N.of_nat k)); [rewrite Nat2N.id; reflexivity|lia|lia|rewrite Nat2N.id; exact S].
  - destruct (binomial_accurate w (N.of_nat k)) as (r & E & A); [lia|lia|rewrite Nat2N.id; exact CB|]. rewrite Nat2N.id in A. exists r. split; [exact E|].
    set (C := choose (N.to_nat w) k) in *. assert (Kb : 0 <= IZR (Z.of_N (N.of_nat k)) <= 64) by (split; apply IZR_le; lia). set (K := IZR (Z.of_N (N.of_nat k))) in *.
    assert (Cb : 1 <= IZR (Z.of_N C) <= 9223372036854775808) by (split; apply IZR_le; lia).
    assert (S' : 9007199254740992 <= 12 * K * IZR (Z.of_N C)). { unfold K. rewrite <- !mult_IZR. apply IZR_le. lia. }
    set (X := IZR (Z.of_N C)) in *. change (bpow radix2 (-53)) with (/ 9007199254740992) in A.
    assert (D : Rabs (IZR (Z.of_N r) - X) <= 768 * / 9007199254740992 * X). { apply Rle_trans with (1 := A). assert (K * X <= 64 * X) by (apply Rmult_le_compat_r; lra). nra. }
    split.
    + apply Rabs_le_inv in D. split.
      * assert (0 < IZR (Z.of_N r)) by lra. apply lt_IZR in H. lia.
      * assert (IZR (Z.of_N r) <= 9223373136366403584) by lra. apply le_IZR in H. lia.
    + unfold approx. rewrite (Rabs_pos_eq X) by lra. apply Rle_trans with (1 := D). apply Rmult_le_compat_r; [lra|]. change (bpow radix2 (-43)) with (/ 8796093022208). lra.
Qed.

Section Pow.
Variables (pow : double -> double -> double) (cdf : double -> double -> double).
(* probability of k heads in w flips *)
Lemma flip_coin_ok w k : (w <= 64)%N -> (k <= N.to_nat w)%nat -> exact_pow2_at pow w ->
  exists p, flip_coin_pdf pow w (N.of_nat k) = Ok p /\ fin p /\ bpow radix2 (-64) <= dval p <= 2 /\
    approx (bpow radix2 (-42)) (dval p) (IZR (Z.of_N (choose (N.to_nat w) k)) / bpow radix2 (Z.of_N w)).
Proof.
  intros Hw Hk HP. destruct (binomial_relative w k Hw Hk) as (r & E & Br & Ar). unfold flip_coin_pdf. rewrite E. cbn [obind]. rewrite HP. eexists. split; [reflexivity|].
  assert (F1 : F2R (Float radix2 1 (Z.of_N w)) = bpow radix2 (Z.of_N w)) by (unfold F2R; cbn [Fnum Fexp]; ring).
  destruct (dconst_ok 1 (Z.of_N w)) as [VP FP]. { rewrite F1. apply small_bpow with 64%Z; [lia|]. rewrite Rabs_pos_eq by apply bpow_ge_0. apply bp_le. lia. }
  rewrite F1, rnd_id in VP by (apply F64_bpow; lia).
  destruct (double_of_N_ok r) as [Vr Fr]; [lia|].
  assert (Rr : 1 <= IZR (Z.of_N r) <= 9223373136366403584) by (split; apply IZR_le; lia).
  assert (T1 : bpow radix2 (-1000) <= 1) by (change 1 with (bpow radix2 0); apply bp_le; lia).
  assert (Brr : 1 <= rnd (IZR (Z.of_N r)) <= 18446744073709551616). { change 18446744073709551616 with (bpow radix2 64). apply rnd_between; [apply F64_1|apply F64_bpow; lia|]. change (bpow radix2 64) with 18446744073709551616. lra. }
  pose proof (choose_le_pow (N.to_nat w) k) as CP. rewrite N2Nat.id in CP. pose proof (choose_pos (N.to_nat w) k Hk) as C1. set (C := choose (N.to_nat w) k) in *.
  assert (CW : 1 <= IZR (Z.of_N C) <= bpow radix2 (Z.of_N w)). { rewrite <- IZR_pow2 by lia. split; apply IZR_le; [lia|]. rewrite <- (N2Z.inj_pow 2). lia. }
  assert (Ar2 : approx (bpow radix2 (-43) + u + bpow radix2 (-43) * u) (rnd (IZR (Z.of_N r))) (IZR (Z.of_N C))).
  { apply approx_trans with (IZR (Z.of_N r)); [apply bpow_ge_0|exact Ar|]. apply rnd_err. right. rewrite Rabs_pos_eq; lra. }
  set (W := bpow radix2 (Z.of_N w)) in *. assert (W1 : 1 <= W <= bpow radix2 64) by (unfold W; split; [change 1 with (bpow radix2 0); apply bp_le; lia|apply bp_le; lia]).
  assert (IW : bpow radix2 (-64) <= / W <= 1). { split; [change (-64)%Z with (- (64))%Z; rewrite bpow_opp; apply Rinv_le; lra|]. rewrite <- Rinv_1. apply Rinv_le; lra. }
  set (R1 := rnd (IZR (Z.of_N r))) in *.
  assert (U1 : R1 <= 2 * W). { unfold approx in Ar2. rewrite (Rabs_pos_eq (IZR (Z.of_N C))) in Ar2 by lra. apply Rabs_le_inv in Ar2. change (bpow radix2 (-43)) with (/ 8796093022208) in Ar2. rewrite u_val in Ar2. nra. }
  assert (Q : bpow radix2 (-64) <= R1 / W <= 2).
  { unfold Rdiv. pose proof (bpow_gt_0 radix2 (-64)). split; [nra|]. apply Rmult_le_reg_r with W; [lra|]. rewrite Rmult_assoc, Rinv_l by lra. lra. }
  pose proof (bpow_gt_0 radix2 (-64)) as P64. pose proof two64 as T64.
  destruct (ddiv_ok (double_of_N r) (dconst 1 (Z.of_N w))) as [Vp Fp]; [exact Fr|rewrite VP; lra|rewrite VP, Vr; fold R1; apply small_num; lra|]. rewrite VP, Vr in Vp. fold R1 in Vp.
  split; [exact Fp|]. rewrite Vp. split; [apply rnd_between; [apply F64_bpow; lia|apply (F64_Z 2); lia|exact Q]|].
  assert (Aq : approx (bpow radix2 (-43) + u + bpow radix2 (-43) * u) (R1 / W) (IZR (Z.of_N C) / W)) by (apply approx_div, Ar2).
  eapply approx_le; [|apply approx_trans with (2 := Aq) (b := u); [apply Rlt_le, u_pos|apply rnd_err; right; rewrite Rabs_pos_eq by lra; apply Rle_trans with (2 := proj1 Q); apply bp_le; lia]].
  rewrite u_val. change (bpow radix2 (-43)) with (/ 8796093022208). change (bpow radix2 (-42)) with (/ 4398046511104). lra.
Qed.

(* what the model expects of pairs whose words have c and k bits set, among n pairs *)
Definition expected_pairs (w : N) (n : N) (c k : nat) : R :=
  IZR (Z.of_N n) * (IZR (Z.of_N (choose (N.to_nat w) c)) / bpow radix2 (Z.of_N w)) * (IZR (Z.of_N (choose (N.to_nat w) k)) / bpow radix2 (Z.of_N w)).

Lemma serial_expected_ok w n c p : (w <= 64)%N -> (c <= N.to_nat w)%nat -> exact_pow2_at pow w -> (1 <= n <= 2 ^ 53)%N -> flip_coin_pdf pow w (N.of_nat c) = Ok p ->
  exists e, serial_expected pow w (dmul (double_of_N n) p) (S (N.to_nat w)) = Ok e /\ length e = S (N.to_nat w) /\
    forall k, (k <= N.to_nat w)%nat -> fin (nth k e d0) /\ 0 <= dval (nth k e d0) /\ approx (bpow radix2 (-40)) (dval (nth k e d0)) (expected_pairs w n c k).
Proof.
  intros Hw Hc HP Hn Ep. destruct (flip_coin_ok w c Hw Hc HP) as (p' & Ep' & Fp & Bp & Ap). rewrite Ep in Ep'. injection Ep' as <-.
  destruct (double_of_N_exact n) as [Vn Fn]; [lia|]. assert (Rn : 1 <= IZR (Z.of_N n) <= 9007199254740992) by (split; apply IZR_le; lia).
  pose proof (bpow_gt_0 radix2 (-64)) as P64. pose proof two64 as T64.
  assert (Bnp : bpow radix2 (-64) <= IZR (Z.of_N n) * dval p <= 18014398509481984) by (split; nra).
  destruct (dmul_ok (double_of_N n) p) as [Vt Ft]; [exact Fn|exact Fp|rewrite Vn; apply small_num; lra|]. rewrite Vn in Vt.
  assert (Bt : bpow radix2 (-64) <= dval (dmul (double_of_N n) p) <= 18014398509481984). { rewrite Vt. change 18014398509481984 with (bpow radix2 54). apply rnd_between; [apply F64_bpow; lia|apply F64_bpow; lia|]. exact Bnp. }
  set (t := dmul (double_of_N n) p) in *.
  assert (ONE : forall k, (k <= N.to_nat w)%nat -> exists e, (q <- flip_coin_pdf pow w (N.of_nat k) ;; Ok (dmul t q)) = Ok e /\ fin e /\ 0 <= dval e /\ approx (bpow radix2 (-40)) (dval e) (expected_pairs w n c k)).
  { intros k Hk. destruct (flip_coin_ok w k Hw Hk HP) as (q & Eq & Fq & Bq & Aq). rewrite Eq. cbn [obind]. eexists. split; [reflexivity|].
    assert (Btq : bpow radix2 (-128) <= dval t * dval q <= 36028797018963968). { split; [|nra]. change (-128)%Z with (-64 + -64)%Z. rewrite bpow_plus. apply Rmult_le_compat; lra. }
    pose proof (bpow_gt_0 radix2 (-128)) as P128.
    destruct (dmul_ok t q) as [Ve Fe]; [exact Ft|exact Fq|apply small_num; lra|]. split; [exact Fe|]. split; [rewrite Ve; apply (rnd_between _ 0 36028797018963968); [apply F64_0|change 36028797018963968 with (bpow radix2 55); apply F64_bpow; lia|lra]|].
    set (b := bpow radix2 (-42)) in *. assert (Pb : 0 <= b) by apply bpow_ge_0.
    assert (At : approx (b + u + b * u) (dval t) (IZR (Z.of_N n) * (IZR (Z.of_N (choose (N.to_nat w) c)) / bpow radix2 (Z.of_N w)))).
    { apply approx_trans with (IZR (Z.of_N n) * dval p); [apply Rlt_le, u_pos| |rewrite Vt; apply rnd_err; right; rewrite Rabs_pos_eq by lra; apply Rle_trans with (2 := proj1 Bnp); apply bp_le; lia].
      replace b with (0 + b + 0 * b) at 1 by ring. apply approx_mult; [lra|exact Pb|apply approx_refl; lra|exact Ap]. }
    assert (Pt : 0 <= b + u + b * u) by (pose proof u_pos; nra).
    assert (Atq := approx_mult _ _ _ _ _ _ Pt Pb At Aq).
    unfold expected_pairs. eapply approx_le; [|apply approx_trans with (2 := Atq) (b := u); [apply Rlt_le, u_pos|rewrite Ve; apply rnd_err; right; rewrite Rabs_pos_eq by lra; apply Rle_trans with (2 := proj1 Btq); apply bp_le; lia]].
    unfold b. rewrite u_val. change (bpow radix2 (-42)) with (/ 4398046511104). change (bpow radix2 (-40)) with (/ 1099511627776). lra. }
  assert (ALL : forall size s0, (s0 + size <= S (N.to_nat w))%nat -> exists e, omapM (fun k => q <- flip_coin_pdf pow w (N.of_nat k) ;; Ok (dmul t q)) (seq s0 size) = Ok e /\ length e = size /\
     forall j, (j < size)%nat -> fin (nth j e d0) /\ 0 <= dval (nth j e d0) /\ approx (bpow radix2 (-40)) (dval (nth j e d0)) (expected_pairs w n c (s0 + j))).
  { induction size as [|size IH]; intros s0 Hs; [exists []; split; [reflexivity|]; split; [reflexivity|intros; lia]|].
    destruct (ONE s0 ltac:(lia)) as (e0 & E0 & H0). destruct (IH (S s0) ltac:(lia)) as (e & E & L & H). exists (e0 :: e). cbn [seq omapM]. rewrite E0. cbn [obind]. rewrite E. cbn [obind].
    split; [reflexivity|]. split; [cbn [length]; lia|]. intros [|j] Hj; [rewrite Nat.add_0_r; exact H0|]. cbn [nth]. replace (s0 + S j)%nat with (S s0 + j)%nat by lia. apply H. lia. }
  destruct (ALL (S (N.to_nat w)) O ltac:(lia)) as (e & E & L & H). exists e. split; [exact E|]. split; [exact L|]. intros k Hk. apply (H k). lia.
Qed.

(* the cut at 0.35, decided exactly for the four word widths *)
Lemma fraction_cut w m : In w [8; 16; 32; 64]%N -> (m <= S (N.to_nat w))%nat ->
  dlt (ddiv (double_of_N (N.of_nat m)) (double_of_N (N.of_nat (S (N.to_nat w))))) (dconst 6305039478318694 (-54)) = (20 * m <? 7 * S (N.to_nat w))%nat.
Proof.
  intros Hw Hm.
  assert (A : forallb (fun w => forallb (fun m => Bool.eqb (dlt (ddiv (double_of_N (N.of_nat m)) (double_of_N (N.of_nat (S (N.to_nat w))))) (dconst 6305039478318694 (-54))) (20 * m <? 7 * S (N.to_nat w))%nat) (seq 0 (S (S (N.to_nat w))))) [8; 16; 32; 64]%N = true) by (vm_compute; reflexivity).
  rewrite forallb_forall in A. specialize (A w Hw). rewrite forallb_forall in A. apply Bool.eqb_prop, A, in_seq. lia.
Qed.

Lemma merge_len_le observed expected t os es : length observed = length expected -> dlt d0 t = true -> merge_bins observed expected t = Ok (os, es) -> (length os <= length observed)%nat.
Proof.
  intros Hl Ht H. unfold merge_bins in H. destruct (length expected <? length observed)%nat; [discriminate|].
  assert (G : forall l s, (length (fst (fst (fst (fold_left (merge_step t) l s)))) <= length l + length (fst (fst (fst s))))%nat).
  { induction l as [|x l IH]; intros s; cbn [fold_left length]; [lia|]. specialize (IH (merge_step t s x)).
    assert (length (fst (fst (fst (merge_step t s x)))) <= S (length (fst (fst (fst s)))))%nat.
    { destruct s as [[[ro re] o] e]. unfold merge_step. destruct (dle t (dadd e (snd x))); cbn; lia. } lia. }
  specialize (G (combine observed expected) ([], [], 0%N, d0)). rewrite combine_length in G. cbn [fst length] in G.
  destruct (fold_left (merge_step t) (combine observed expected) ([], [], 0%N, d0)) as [[[ro re] o] e] eqn:E. cbn [fst] in G.
  destruct ro as [|r0 ro]; [injection H as <- <-; cbn; lia|]. destruct re as [|e0 re]; [injection H as <- <-; cbn; lia|].
  injection H as <- _. change (rev ro ++ [wrap 64 (r0 + o)])%list with (rev (wrap 64 (r0 + o) :: ro)). rewrite rev_length. cbn [length] in *. lia.
Qed.
Lemma merge_defined observed expected t : (length observed <= length expected)%nat -> exists os es, merge_bins observed expected t = Ok (os, es).
Proof.
  intros H. unfold merge_bins. destruct (Nat.ltb_spec (length expected) (length observed)); [lia|].
  destruct (fold_left _ _ _) as [[[ro re] o] e]. destruct ro; [eexists _, _; reflexivity|]. destruct re; eexists _, _; reflexivity.
Qed.

Theorem serial_rows w n data : In w [8; 16; 32; 64]%N -> (1 <= n <= 2 ^ 53)%N -> exact_pow2_at pow w -> Forall (is_word w) data ->
  exists counts (result : nat -> option statistic), serial_avalanche_count w data = Ok counts /\
    serial_avalanche pow cdf w n data = Ok (flat_map (fun c => match result c with Some s => [(serial_label c, s)] | None => [] end) (seq 0 (N.to_nat w))) /\
    forall c, (c < N.to_nat w)%nat -> exists expected os es,
      length expected = S (N.to_nat w) /\ Forall (fun x => fin x /\ 0 <= dval x) expected /\
      (forall k, (k <= N.to_nat w)%nat -> approx (bpow radix2 (-40)) (dval (nth k expected d0)) (expected_pairs w n c k)) /\
      merge_bins (nth c counts []) expected (double_of_N 5) = Ok (os, es) /\
      result c = if (20 * length os <? 7 * S (N.to_nat w))%nat then None
                 else chi2_stats cdf (length os) (fun i => double_of_N (nth i os 0%N)) (fun i => nth i es d0) d0.
Proof.
  intros Hw Hn HP HD. destruct (serial_ok w data) as (counts & EC & L & LR & _); [exact HD|].
  assert (W64 : (w <= 64)%N) by (destruct Hw as [<-|[<-|[<-|[<-|[]]]]]; lia).
  assert (ROW : forall c, (c < N.to_nat w)%nat -> exists res expected os es, serial_entry pow cdf w n counts c = Ok match res with Some s => [(serial_label c, s)] | None => [] end /\
      length expected = S (N.to_nat w) /\ Forall (fun x => fin x /\ 0 <= dval x) expected /\
      (forall k, (k <= N.to_nat w)%nat -> approx (bpow radix2 (-40)) (dval (nth k expected d0)) (expected_pairs w n c k)) /\
      merge_bins (nth c counts []) expected (double_of_N 5) = Ok (os, es) /\
      res = if (20 * length os <? 7 * S (N.to_nat w))%nat then None
                 else chi2_stats cdf (length os) (fun i => double_of_N (nth i os 0%N)) (fun i => nth i es d0) d0).
  { intros c Hc. destruct (flip_coin_ok w c W64 ltac:(lia) HP) as (p & Ep & _). destruct (serial_expected_ok w n c p W64 ltac:(lia) HP Hn Ep) as (e & Ee & Le & He).
    assert (LRc : length (nth c counts []) = S (N.to_nat w)). { rewrite Forall_forall in LR. apply LR, nth_In. lia. }
    assert (D5 : dlt d0 (double_of_N 5) = true) by (vm_compute; reflexivity).
    destruct (merge_defined (nth c counts []) e (double_of_N 5)) as (os & es & EM); [lia|].
    set (res := if (20 * length os <? 7 * S (N.to_nat w))%nat then None else chi2_stats cdf (length os) (fun i => double_of_N (nth i os 0%N)) (fun i => nth i es d0) d0).
    exists res, e, os, es. split; [|split; [exact Le|split; [apply Forall_forall; intros x Hx; apply (In_nth _ _ d0) in Hx; destruct Hx as (j & Hj & <-); destruct (He j ltac:(lia)) as (HF & HZ & _); split; assumption|split; [intros k Hk; apply He, Hk|split; [exact EM|reflexivity]]]]].
    unfold serial_entry. rewrite Ep. cbn [obind]. unfold at_. rewrite (nth_error_nth' counts []) by lia. cbn [obind].
    unfold serial_avalanche_stats. rewrite LRc, Ee. cbn [obind]. rewrite EM. cbn [obind].
    rewrite fraction_cut; [|exact Hw|rewrite <- LRc; apply merge_len_le with e (double_of_N 5) es; [lia|exact D5|exact EM]].
    unfold res. destruct (20 * length os <? 7 * S (N.to_nat w))%nat; cbn [obind]; reflexivity. }
  assert (CH : forall m, (m <= N.to_nat w)%nat -> exists result : nat -> option statistic,
     omapM (serial_entry pow cdf w n counts) (seq 0 m) = Ok (map (fun c => match result c with Some s => [(serial_label c, s)] | None => [] end) (seq 0 m)) /\
     forall c, (c < m)%nat -> exists expected os es, length expected = S (N.to_nat w) /\ Forall (fun x => fin x /\ 0 <= dval x) expected /\
      (forall k, (k <= N.to_nat w)%nat -> approx (bpow radix2 (-40)) (dval (nth k expected d0)) (expected_pairs w n c k)) /\
      merge_bins (nth c counts []) expected (double_of_N 5) = Ok (os, es) /\
      result c = if (20 * length os <? 7 * S (N.to_nat w))%nat then None
                 else chi2_stats cdf (length os) (fun i => double_of_N (nth i os 0%N)) (fun i => nth i es d0) d0).
  { induction m as [|m IH]; intros Hm; [exists (fun _ => None); split; [reflexivity|intros; lia]|].
    destruct (IH ltac:(lia)) as (f & E & H). destruct (ROW m ltac:(lia)) as (res & e & os & es & E' & H').
    exists (fun c => if (c =? m)%nat then res else f c). split.
    - rewrite seq_S, map_app. cbn [Nat.add map]. rewrite Nat.eqb_refl.
      assert (APP : forall l1 l2 r1 r2, omapM (serial_entry pow cdf w n counts) l1 = Ok r1 -> omapM (serial_entry pow cdf w n counts) l2 = Ok r2 -> omapM (serial_entry pow cdf w n counts) (l1 ++ l2) = Ok (r1 ++ r2)).
      { induction l1 as [|a l1 IHl]; intros l2 r1 r2 X Y; cbn [omapM app] in *; [injection X as <-; exact Y|].
        destruct (serial_entry pow cdf w n counts a); [|discriminate]. cbn [obind] in *. destruct (omapM _ l1) as [q|] eqn:Q; [|discriminate]. cbn [obind] in X. injection X as <-.
        rewrite (IHl l2 q r2 eq_refl Y). reflexivity. }
      apply APP; [|cbn [omapM]; rewrite E'; reflexivity]. rewrite E. f_equal. apply map_ext_in. intros c Hc. apply in_seq in Hc. destruct (Nat.eqb_spec c m); [lia|reflexivity].
    - intros c Hc. destruct (Nat.eqb_spec c m) as [->|Hne]; [exists e, os, es; exact H'|apply H; lia]. }
  destruct (CH (N.to_nat w) (le_n _)) as (result & E & H). exists counts, result. split; [exact EC|]. split; [|exact H].
  unfold serial_avalanche. rewrite EC. cbn [obind]. rewrite serial_results_eq, E. cbn [obind]. rewrite flat_map_concat_map. reflexivity.
Qed.
End Pow.
