(* The two avalanche tests of mixers. *)
From Coq Require Import Reals Lra String.
From Flocq Require Import Core BinarySingleNaN.
From Verif Require Import Base BitwiseModel BitwiseSpec FloatModel FloatLemmas ResultModel CollectModel CollectSpec CollectProofs Collect2Proofs RescaleProofs Collect3Proofs CouponProofs CouponFloatProofs StatsModel StatsSpec StatsProofs ErrorSpec StatFormulas SerialProofs EvaluateModel EvaluateSpec TestsModel TestsSpec TestsProofs TestsUniform TestsGap TestsCoupon.
Open Scope R_scope.

Lemma good_pow2_at M w : good_math M -> (w <= 64)%N -> exact_pow2_at (m_pow M) w.
Proof.
  intros G Hw. destruct (gm_pow_two M G w Hw) as [F V].
  assert (F1 : F2R (Float radix2 1 (Z.of_N w)) = bpow radix2 (Z.of_N w)) by (unfold F2R; cbn [Fnum Fexp]; ring).
  destruct (dconst_ok 1 (Z.of_N w)) as [VP FP]. { rewrite F1. apply small_bpow with 64%Z; [lia|]. rewrite Rabs_pos_eq by apply bpow_ge_0. apply bpow_le. lia. }
  rewrite F1, rnd_id in VP by (apply F64_bpow; lia).
  apply pos_eq; try assumption; rewrite V; [apply bpow_gt_0|symmetry; exact VP].
Qed.

(* the expected number of flips that change c of the w output bits, among n * w *)

Lemma sac_expected_ok pow w n : (w <= 64)%N -> exact_pow2_at pow w -> (1 <= n * w <= 2 ^ 53)%N ->
  exists e, omapM (fun i => p <- flip_coin_pdf pow w (N.of_nat i) ;; Ok (dmul (dmul (double_of_N n) (double_of_N w)) p)) (seq 0 (S (N.to_nat w))) = Ok e /\ length e = S (N.to_nat w) /\
    forall k, (k <= N.to_nat w)%nat -> fin (nth k e d0) /\ bpow radix2 (-64) <= dval (nth k e d0) <= bpow radix2 64 /\ approx (bpow radix2 (-40)) (dval (nth k e d0)) (sac_expected w n k).
Proof.
  intros Hw HP Hn.
  assert (Hw1 : (1 <= w)%N) by (destruct w; lia). assert (Hn1 : (n <= 2 ^ 53)%N) by (apply N.le_trans with (2 := proj2 Hn); clear - Hw1; nia). destruct (double_of_N_exact n Hn1) as [Vn Fn]. destruct (double_of_N_exact w ltac:(lia)) as [Vw Fw].
  assert (RT : 1 <= IZR (Z.of_N (n * w)) <= 9007199254740992) by (split; apply IZR_le; lia).
  assert (EM : dval (double_of_N n) * dval (double_of_N w) = IZR (Z.of_N (n * w))) by (rewrite Vn, Vw, N2Z.inj_mul, mult_IZR; reflexivity).
  pose proof two64 as T64.
  destruct (dmul_ok (double_of_N n) (double_of_N w) Fn Fw) as [Vt Ft]; [rewrite EM; apply small_num; lra|].
  rewrite EM, rnd_id in Vt by (apply F64_Z; lia).
  set (t := dmul (double_of_N n) (double_of_N w)) in *.
  assert (ONE : forall k, (k <= N.to_nat w)%nat -> exists e, (q <- flip_coin_pdf pow w (N.of_nat k) ;; Ok (dmul t q)) = Ok e /\ fin e /\ bpow radix2 (-64) <= dval e <= bpow radix2 64 /\ approx (bpow radix2 (-40)) (dval e) (sac_expected w n k)).
  { intros k Hk. destruct (flip_coin_ok pow w k Hw Hk HP) as (q & Eq & Fq & Bq & Aq). rewrite Eq. cbn [obind]. eexists. split; [reflexivity|].
    pose proof (bpow_gt_0 radix2 (-64)) as P64.
    assert (Btq : bpow radix2 (-64) <= dval t * dval q <= 18014398509481984) by (rewrite Vt; split; nra).
    destruct (dmul_ok t q) as [Ve Fe]; [exact Ft|exact Fq|apply small_num; lra|]. split; [exact Fe|]. split.
    { rewrite Ve. apply rnd_between; [apply F64_bpow; lia|apply F64_bpow; lia|]. change (bpow radix2 64) with 18446744073709551616. lra. }
    set (b := bpow radix2 (-42)) in *. assert (Pb : 0 <= b) by apply bpow_ge_0.
    assert (Atq : approx (0 + b + 0 * b) (dval t * dval q) (sac_expected w n k)).
    { unfold sac_expected. apply approx_mult; [lra|exact Pb|rewrite Vt; apply approx_refl; lra|]. rewrite N2Z.inj_pow. change (Z.of_N 2) with 2%Z. rewrite IZR_pow2 by lia. exact Aq. }
    eapply approx_le; [|apply approx_trans with (2 := Atq) (b := u); [apply Rlt_le, u_pos|rewrite Ve; apply rnd_err; right; rewrite Rabs_pos_eq by lra; apply Rle_trans with (2 := proj1 Btq); apply bp_le; lia]].
    unfold b. rewrite u_val. change (bpow radix2 (-42)) with (/ 4398046511104). change (bpow radix2 (-40)) with (/ 1099511627776). lra. }
  assert (ALL : forall size s0, (s0 + size <= S (N.to_nat w))%nat -> exists e, omapM (fun k => q <- flip_coin_pdf pow w (N.of_nat k) ;; Ok (dmul t q)) (seq s0 size) = Ok e /\ length e = size /\
     forall j, (j < size)%nat -> fin (nth j e d0) /\ bpow radix2 (-64) <= dval (nth j e d0) <= bpow radix2 64 /\ approx (bpow radix2 (-40)) (dval (nth j e d0)) (sac_expected w n (s0 + j))).
  { induction size as [|size IH]; intros s0 Hs; [exists []; split; [reflexivity|]; split; [reflexivity|intros; lia]|].
    destruct (ONE s0 ltac:(lia)) as (e0 & E0 & H0). destruct (IH (S s0) ltac:(lia)) as (e & E & L & H). exists (e0 :: e). cbn [seq omapM]. rewrite E0. cbn [obind]. rewrite E. cbn [obind].
    split; [reflexivity|]. split; [cbn [length]; lia|]. intros [|j] Hj; [rewrite Nat.add_0_r; exact H0|]. cbn [nth]. replace (s0 + S j)%nat with (S s0 + j)%nat by lia. apply H. lia. }
  destruct (ALL (S (N.to_nat w)) O ltac:(lia)) as (e & E & L & H). exists e. split; [exact E|]. split; [exact L|]. intros k Hk. apply (H k). lia.
Qed.

Theorem sac_ok' M cdf w n stream mix : good_math M -> (0 < w <= 64)%N -> (1 <= n)%N -> (n * w <= 2 ^ 53)%N -> (forall i, is_word w (stream i)) -> (forall x, is_word w x -> is_word w (mix x)) ->
  exists os es r, length os = S (N.to_nat w) /\ length es = S (N.to_nat w) /\ total os = (n * w)%N /\
    (forall c, (c <= N.to_nat w)%nat -> nth c os 0%N = count (fun p => (bit_count (output_change mix (fst p) (snd p)) =? N.of_nat c)%N) (flips w (values stream n)) /\
       within 40 (nth c es 0) (sac_expected w n c)) /\
    chi2_test cdf 5 os es r /\ sac_test M cdf w n stream mix = Ok [mksub "" r].
Proof.
  intros G Hw Hn1 Hn Hs Hm.
  destruct (sac_ok w mix (values stream n) Hw Hm (values_words w stream n Hs)) as (os & Eo & Lo & Co & To).
  rewrite values_len, N2Nat.id in To.
  destruct (sac_expected_ok (m_pow M) w n ltac:(lia) (good_pow2_at M w G ltac:(lia)) (conj (N.mul_le_mono 1 n 1 w Hn1 ltac:(lia)) Hn)) as (e & Ee & Le & He).
  destruct (double_of_N_exact 5 ltac:(discriminate)) as [V5 F5].
  set (es := map (fun i => dval (nth i e d0)) (seq 0 (length os))).
  exists os, es, (chi2_stats cdf (length os) (to_data os) (fun i => nth i e d0) (double_of_N 5)).
  split; [exact Lo|]. split; [unfold es; rewrite map_length, seq_length; exact Lo|]. split; [exact To|]. split; [|split].
  - intros c Hc. split; [apply Co, Hc|]. unfold es. rewrite (nth_indep _ 0 (dval (nth 0%nat e d0))) by (rewrite map_length, seq_length; lia). rewrite (map_nth (fun i => dval (nth i e d0))), seq_nth by lia. cbn [plus].
    apply (He c Hc).
  - replace 5 with (dval (double_of_N 5)) by exact V5. apply chi2_is_test; [rewrite Lo; lia|exact F5|reflexivity| | |].
    + intros i Hi. apply to_data_ok; [exact Hi|]. apply Forall_forall. intros x Hx. apply (In_nth _ _ 0%N) in Hx. destruct Hx as (j & Hj & <-). pose proof (total_bounds os j _ To). lia.
    + intros i Hi. apply He. lia.
    + intros i Hi _. apply He. lia.
  - unfold sac_test. rewrite Eo. cbn [obind]. unfold avalanche_sac_stats. rewrite Lo, Ee. cbn [obind]. reflexivity.
Qed.

(* at least two bins are used from 32 words on, whatever the width (8, 16, 32, 64) *)
Lemma sac_bins : forall w, In w [8; 16; 32; 64]%N -> forall c, (c = N.to_nat w / 2 \/ c = N.to_nat w / 2 + 1)%nat -> (11 * 2 ^ w <= 16 * w * (w * choose (N.to_nat w) c))%N.
Proof.
  intros w Hw c Hc. assert (A : forallb (fun w => forallb (fun c => (11 * 2 ^ w <=? 16 * w * (w * nth c (pascal_row (N.to_nat w)) 0))%N) [N.to_nat w / 2; N.to_nat w / 2 + 1]%nat) [8; 16; 32; 64]%N = true) by (vm_compute; reflexivity).
  rewrite forallb_forall in A. specialize (A w Hw). rewrite forallb_forall in A. assert (I : In c [N.to_nat w / 2; N.to_nat w / 2 + 1]%nat) by (destruct Hc as [->| ->]; cbn [In]; tauto).
  specialize (A c I). apply N.leb_le in A. rewrite pascal_ok in A; [exact A|]. destruct Hw as [<-|[<-|[<-|[<-|[]]]]]; destruct Hc as [->| ->]; apply Nat.leb_le; reflexivity.
Qed.
Lemma sac_present cdf w n os es r : In w [8; 16; 32; 64]%N -> (8 * w <= n)%N -> length es = S (N.to_nat w) ->
  (forall c, (c <= N.to_nat w)%nat -> within 40 (nth c es 0) (sac_expected w n c)) -> chi2_test cdf 5 os es r -> r <> None.
Proof.
  intros Hw Hn Le HW T.
  assert (Hw4 : (4 <= N.to_nat w)%nat) by (destruct Hw as [<-|[<-|[<-|[<-|[]]]]]; apply Nat.leb_le; reflexivity).
  assert (Hd : (N.to_nat w / 2 + 1 <= N.to_nat w)%nat) by (destruct Hw as [<-|[<-|[<-|[<-|[]]]]]; apply Nat.leb_le; reflexivity).
  assert (GG : forall c, (c = N.to_nat w / 2 \/ c = N.to_nat w / 2 + 1)%nat -> 5 < nth c es 0).
  { intros c Hc. pose proof (sac_bins w Hw c Hc) as B. specialize (HW c ltac:(lia)). unfold within in HW.
    change (bpow radix2 (- (40))) with (/ 1099511627776) in HW.
    assert (X : 11 / 2 <= sac_expected w n c).
    { unfold sac_expected. assert (W0 : (0 < 2 ^ w)%N) by (apply N.neq_0_lt_0, N.pow_nonzero; discriminate). set (p2 := (2 ^ w)%N) in *. set (C := choose (N.to_nat w) c) in *.
      assert (P2 : 0 < IZR (Z.of_N p2)) by (apply IZR_lt; lia).
      assert (Q : (11 * p2 <= 2 * (n * w * C))%N) by nia.
      apply (Rmult_le_reg_r (IZR (Z.of_N p2))); [exact P2|]. replace (IZR (Z.of_N (n * w)) * (IZR (Z.of_N C) / IZR (Z.of_N p2)) * IZR (Z.of_N p2)) with (IZR (Z.of_N (n * w)) * IZR (Z.of_N C)) by (field; lra).
      assert (Q' : IZR (Z.of_N (11 * p2)) <= IZR (Z.of_N (2 * (n * w * C)))) by (apply IZR_le; lia).
      rewrite !N2Z.inj_mul, !mult_IZR in Q'. rewrite !N2Z.inj_mul, !mult_IZR. change (IZR (Z.of_N 11)) with 11 in Q'. change (IZR (Z.of_N 2)) with 2 in Q'. lra. }
    set (x := sac_expected w n c) in *. rewrite (Rabs_pos_eq x) in HW by lra. apply Rabs_le_inv in HW. lra. }
  apply (two_bins cdf 5 os es r (N.to_nat w / 2) (N.to_nat w / 2 + 1) T); [lia|apply GG; left; reflexivity|apply GG; right; reflexivity].
Qed.

Lemma filter_len_le {A} (f : A -> bool) l : (length (filter f l) <= length l)%nat.
Proof. induction l as [|a l IH]; [cbn; lia|]. cbn [filter]. destruct (f a); cbn [length]; lia. Qed.
Theorem bic_ok' cdf w n stream mix : (2 <= w <= 64)%N -> (1 <= n <= 2 ^ 52)%N -> (forall i, is_word w (stream i)) -> (forall x, is_word w x -> is_word w (mix x)) ->
  exists os s, length os = (N.to_nat w * N.to_nat w)%nat /\
    (forall j k, (j < N.to_nat w)%nat -> (k < N.to_nat w)%nat -> nth (j * N.to_nat w + k) os 0%N = (2 * count (fun s => N.testbit (output_change mix s j) (N.of_nat k)) (values stream n))%N) /\
    chi2_test cdf 0 os (repeat (IZR (Z.of_N n)) (N.to_nat w * N.to_nat w)) (Some s) /\ bic_test cdf w n stream mix = Ok [mksub "" (Some s)].
Proof.
  intros Hw Hn Hs Hm.
  destruct (bic_ok w mix (values stream n) ltac:(lia) Hm (values_words w stream n Hs)) as (cs & Ec & Lc & Cc).
  assert (Hn53 : (n <= 2 ^ 53)%N) by (apply N.le_trans with (1 := proj2 Hn); discriminate).
  destruct (double_of_N_exact n Hn53) as [Vn Fn]. destruct (double_of_N_exact 2 ltac:(discriminate)) as [V2 F2].
  set (W := N.to_nat w) in *. assert (HW : (2 <= W <= 64)%nat) by lia.
  assert (Bc : forall i, (i < length cs)%nat -> (nth i cs 0 <= n)%N).
  { intros i Hi. rewrite Lc in Hi. rewrite (Nat.div_mod i W) by lia. rewrite (Nat.mul_comm W). rewrite Cc; [|apply Nat.div_lt_upper_bound; lia|apply Nat.mod_upper_bound; lia].
    unfold count. assert (L := filter_len_le (fun s => N.testbit (output_change mix s (i / W)) (N.of_nat (i mod W))) (values stream n)). rewrite values_len in L. lia. }
  set (os := map (N.mul 2) cs). assert (Lo : length os = length cs) by (unfold os; apply map_length).
  assert (No : forall i, nth i os 0%N = (2 * nth i cs 0)%N) by (intro i; unfold os; change 0%N with (2 * 0)%N at 1; apply map_nth).
  assert (D : forall i, (i < length cs)%nat -> fin (dmul (to_data cs i) (double_of_N 2)) /\ dval (dmul (to_data cs i) (double_of_N 2)) = IZR (Z.of_N (2 * nth i cs 0%N))).
  { intros i Hi. pose proof (Bc i Hi) as B. destruct (double_of_N_exact (nth i cs 0%N)) as [Vc Fc]; [lia|]. unfold to_data.
    assert (E : dval (double_of_N (nth i cs 0%N)) * dval (double_of_N 2) = IZR (Z.of_N (2 * nth i cs 0%N))) by (rewrite Vc, V2, N2Z.inj_mul, mult_IZR; change (IZR (Z.of_N 2)) with 2; ring).
    destruct (dmul_ok (double_of_N (nth i cs 0%N)) (double_of_N 2) Fc F2) as [V F].
    - rewrite E. apply (small_bpow _ 53); [lia|]. rewrite Rabs_pos_eq by (apply IZR_le; lia). rewrite <- IZR_pow2 by lia. apply IZR_le. lia.
    - split; [exact F|]. rewrite V, E. apply rnd_id, F64_Z. lia. }
  assert (T : chi2_test cdf (dval d0) os (repeat (IZR (Z.of_N n)) (W * W)) (chi2_stats cdf (length os) (fun i => dmul (to_data cs i) (double_of_N 2)) (fun _ => double_of_N n) d0)).
  { destruct d0_val as [V0 F0]. apply chi2_is_test; [rewrite Lo, Lc; nia|exact F0| | |intros; exact Fn|].
    - rewrite Lo, Lc, map_const_seq, Vn. reflexivity.
    - intros i Hi. rewrite Lo in Hi. rewrite No. split; [pose proof (Bc i Hi); lia|]. apply D, Hi.
    - intros i Hi _. rewrite Vn. split.
      + apply Rle_trans with 1; [change 1 with (bpow radix2 0); apply bpow_le; lia|apply (IZR_le 1); lia].
      + rewrite <- IZR_pow2 by lia. apply IZR_le. lia. }
  destruct d0_val as [V0 _]. rewrite V0 in T.
  assert (RN : 1 <= IZR (Z.of_N n)) by (apply (IZR_le 1); lia).
  destruct (chi2_stats cdf (length os) (fun i => dmul (to_data cs i) (double_of_N 2)) (fun _ => double_of_N n) d0) as [s|] eqn:E.
  - exists os, s. split; [rewrite Lo; exact Lc|]. split; [intros j k Hj Hk; rewrite No, (Cc j k Hj Hk); reflexivity|]. split; [exact T|].
    unfold bic_test. rewrite Ec. cbn [obind]. unfold avalanche_bic_stats. rewrite <- Lo, E. reflexivity.
  - exfalso. destruct T as [LT T]. cbn iota zeta in T.
    pose proof (filter_two (Rlt_bool 0) (repeat (IZR (Z.of_N n)) (W * W)) 0 1 (IZR (Z.of_N n))) as F. rewrite repeat_length in F.
    rewrite !nth_repeat in F. assert (P0 : 0 < IZR (Z.of_N n)) by lra. specialize (F ltac:(nia) (Rlt_bool_true 0 _ P0) (Rlt_bool_true 0 _ P0)). cbn beta iota zeta in T. exact (Nat.lt_irrefl _ (Nat.lt_le_trans _ _ _ F T)).
Qed.
