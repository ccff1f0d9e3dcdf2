(* The serial avalanche test. *)
From Coq Require Import Reals Lra String.
From Flocq Require Import Core BinarySingleNaN.
From Verif Require Import Base BitwiseModel BitwiseSpec FloatModel FloatLemmas ResultModel CollectModel CollectSpec CollectProofs Collect2Proofs RescaleProofs Collect3Proofs CouponProofs CouponFloatProofs StatsModel StatsSpec StatsProofs ErrorSpec StatFormulas SerialProofs EvaluateModel EvaluateSpec TestsModel TestsSpec TestsProofs TestsUniform TestsGap TestsCoupon TestsAval TestsRank.
Open Scope R_scope.

Lemma b64 : bpow radix2 64 = 512 * bpow radix2 55.
Proof. change 64%Z with (9 + 55)%Z. rewrite bpow_plus. reflexivity. Qed.
Lemma b55 : bpow radix2 55 = 4 * bpow radix2 53.
Proof. change 55%Z with (2 + 53)%Z. rewrite bpow_plus. reflexivity. Qed.
Lemma group_range (g : list (N * double)) B : fin B -> dval B = bpow radix2 55 -> Forall (fun x => fin (snd x) /\ 0 <= dval (snd x) <= bpow radix2 55) g -> (length g <= 200)%nat ->
  fin (group_expected g) /\ 0 <= dval (group_expected g) <= INR (length g) * bpow radix2 55.
Proof.
  intros _ _ H. unfold group_expected.
  assert (G : forall l k acc, Forall (fun x => fin x /\ 0 <= dval x <= bpow radix2 55) l -> (k + length l <= 200)%nat -> fin acc -> 0 <= dval acc <= INR k * bpow radix2 55 ->
     fin (fold_left dadd l acc) /\ 0 <= dval (fold_left dadd l acc) <= INR (k + length l) * bpow radix2 55).
  { induction l as [|x l IH]; intros k acc HF HL Fa Ba; cbn [fold_left length]; [rewrite Nat.add_0_r; split; assumption|]. cbn [length] in HL. inversion HF as [|? ? [Fx Bx] HF']; subst.
    pose proof (bpow_gt_0 radix2 55) as P55.
    assert (KS : INR (S k) = INR k + 1) by apply S_INR. assert (K200 : 0 <= INR (S k) <= 200) by (split; [apply pos_INR|rewrite INR_IZR_INZ; apply IZR_le; lia]).
    assert (BS : 0 <= dval acc + dval x <= INR (S k) * bpow radix2 55) by (rewrite KS; lra).
    destruct (dadd_ok acc x Fa Fx) as [V F].
    - apply (small_bpow _ 64); [lia|]. rewrite Rabs_pos_eq by apply BS. rewrite b64. nra.
    - replace (k + S (length l))%nat with (S k + length l)%nat by lia. apply IH; [exact HF'|lia|exact F|]. rewrite V. apply rnd_between; [apply F64_0| |exact BS].
      rewrite INR_IZR_INZ. change (IZR (Z.of_nat (S k)) * bpow radix2 55) with (F2R (Float radix2 (Z.of_nat (S k)) 55)). apply F64_F2R; lia. }
  intros HL. destruct d0_val as [V0 F0]. pose proof (G (map snd g) 0%nat d0) as K. rewrite map_length in K. cbn [plus] in K. apply K; [|exact HL|exact F0|rewrite V0; cbn [INR]; lra].
  apply (proj2 (Forall_map snd _ _)). exact H.
Qed.
Lemma total_app_le a b : (total a <= total (a ++ b) /\ total b <= total (a ++ b))%N.
Proof. rewrite total_app. lia. Qed.
Lemma in_concat_total (segs : list (list (N * double))) rest g : In g segs -> (group_observed g <= group_observed (concat segs ++ rest))%N.
Proof.
  intros H. unfold group_observed. rewrite map_app, total_app. assert (total (map fst g) <= total (map fst (concat segs)))%N; [|lia].
  induction segs as [|a segs IH]; [contradiction|]. cbn [concat]. rewrite map_app, total_app. destruct H as [->|H]; [lia|]. specialize (IH H). lia.
Qed.
Lemma in_concat_len {A} (segs : list (list A)) g : In g segs -> (length g <= length (concat segs))%nat.
Proof. induction segs as [|a segs IH]; [contradiction|]. cbn [concat]. rewrite app_length. intros [->|H]; [lia|]. specialize (IH H). lia. Qed.
Lemma wrap_le w x : (wrap w x <= x)%N.
Proof. unfold wrap. apply N.mod_le. apply N.pow_nonzero. discriminate. Qed.

(* merged bins: counts and expectations in range *)
Lemma merge_range (cdf : double -> double -> double) observed expected os es : length observed = length expected -> (length observed <= 65)%nat -> (total observed <= 2 ^ 53)%N -> Forall (fun x => fin x /\ 0 <= dval x <= bpow radix2 55) expected ->
  merge_bins observed expected (double_of_N 5) = Ok (os, es) ->
  length os = length es /\ (length os <= 65)%nat /\ Forall (fun c => c <= 2 ^ 53)%N os /\ Forall (fun x => fin x /\ 5 <= dval x <= bpow radix2 64) es.
Proof.
  intros Hl H65 HT HE EM. assert (D5 : dlt d0 (double_of_N 5) = true) by (vm_compute; reflexivity).
  assert (L1 := merge_len_le cdf cdf observed expected (double_of_N 5) os es Hl D5 EM).
  assert (NN : Forall nonneg expected) by (eapply Forall_impl; [|exact HE]; intros x [F B]; left; split; [exact F|apply B]).
  destruct (merge_totals observed expected (double_of_N 5) Hl D5 NN) as (os' & es' & EM' & L2 & G5 & _). rewrite EM in EM'. injection EM' as <- <-.
  split; [exact L2|]. split; [lia|].
  destruct (merge_ok observed expected (double_of_N 5) Hl D5) as (segs & rest & (C1 & C2 & C3) & M0 & M1).
  assert (CB : Forall (fun x : N * double => fin (snd x) /\ 0 <= dval (snd x) <= bpow radix2 55) (combine observed expected)) by (apply (proj1 (Forall_map snd (fun x => fin x /\ 0 <= dval x <= bpow radix2 55) _)); rewrite combine_snd; assumption).
  assert (CT : group_observed (combine observed expected) = total observed) by (unfold group_observed; rewrite combine_fst by exact Hl; reflexivity).
  assert (CL : length (combine observed expected) = length observed) by (rewrite combine_length; lia).
  destruct (dconst_ok 1 55) as [VB FB]. { apply (small_bpow _ 64); [lia|]. unfold F2R. cbn [Fnum Fexp]. rewrite Rmult_1_l, Rabs_pos_eq by apply bpow_ge_0. apply bpow_le. lia. }
  assert (VB' : dval (dconst 1 55) = bpow radix2 55) by (rewrite VB; unfold F2R; cbn [Fnum Fexp]; rewrite Rmult_1_l; apply rnd_id, F64_bpow; lia).
  assert (GR : forall g, (length g <= length (concat segs ++ rest))%nat -> Forall (fun x : N * double => fin (snd x) /\ 0 <= dval (snd x) <= bpow radix2 55) g -> fin (group_expected g) /\ 0 <= dval (group_expected g) <= INR 65 * bpow radix2 55).
  { intros g Lg Fg. rewrite <- C1, CL in Lg. destruct (group_range g (dconst 1 55) FB VB' Fg ltac:(lia)) as [F B]. split; [exact F|]. split; [apply B|]. apply Rle_trans with (1 := proj2 B). apply Rmult_le_compat_r; [apply bpow_ge_0|]. apply le_INR. lia. }
  assert (IN : forall g, In g segs -> Forall (fun x : N * double => fin (snd x) /\ 0 <= dval (snd x) <= bpow radix2 55) g).
  { intros g Hg. rewrite C1 in CB. apply Forall_app in CB. destruct CB as [CB _]. rewrite Forall_forall in CB |- *. intros x Hx. apply CB, in_concat. exists g. tauto. }
  assert (RS : Forall (fun x : N * double => fin (snd x) /\ 0 <= dval (snd x) <= bpow radix2 55) rest) by (rewrite C1 in CB; apply Forall_app in CB; apply CB).
  assert (V5 : dval (double_of_N 5) = 5 /\ fin (double_of_N 5)) by (destruct (double_of_N_exact 5 ltac:(discriminate)) as [V F]; split; [exact V|exact F]). destruct V5 as [V5 F5].
  assert (FIN : Forall (fun x => fin x /\ dval x <= bpow radix2 64) es).
  { destruct segs as [|last init _] using rev_ind; [rewrite M0 in EM by reflexivity; injection EM as <- <-; constructor|].
    rewrite (M1 init last eq_refl) in EM. injection EM as <- <-. apply Forall_app.
    assert (E64 : INR 65 * bpow radix2 55 + INR 65 * bpow radix2 55 <= bpow radix2 64) by (rewrite b64; rewrite INR_IZR_INZ; change (IZR (Z.of_nat 65)) with 65; pose proof (bpow_gt_0 radix2 55); lra).
    assert (P65 : 0 <= INR 65 * bpow radix2 55) by (apply Rmult_le_pos; [apply pos_INR|apply bpow_ge_0]).
    split.
    - apply Forall_map, Forall_forall. intros g Hg. destruct (GR g) as [F B]; [|apply IN, in_or_app; left; exact Hg|split; [exact F|lra]].
      rewrite app_length. pose proof (in_concat_len (init ++ [last]) g ltac:(apply in_or_app; left; exact Hg)). lia.
    - constructor; [|constructor]. destruct (GR last) as [Fl Bl]; [|apply IN, in_or_app; right; left; reflexivity|].
      { rewrite app_length. pose proof (in_concat_len (init ++ [last]) last ltac:(apply in_or_app; right; left; reflexivity)). lia. }
      destruct (GR rest) as [Fr Br]; [rewrite app_length; lia|exact RS|].
      destruct (dadd_ok _ _ Fl Fr) as [V F]; [apply (small_bpow _ 64); [lia|]; rewrite Rabs_pos_eq by lra; lra|]. split; [exact F|]. rewrite V. rewrite <- (rnd_id (bpow radix2 64)) by (apply F64_bpow; lia). apply rnd_mono. lra. }
  split.
  - destruct segs as [|last init _] using rev_ind; [rewrite M0 in EM by reflexivity; injection EM as <- <-; constructor|].
    rewrite (M1 init last eq_refl) in EM. injection EM as <- <-. rewrite C1 in CT. apply Forall_app. split.
    + apply Forall_map, Forall_forall. intros g Hg. eapply N.le_trans; [apply wrap_le|]. eapply N.le_trans; [apply (in_concat_total (init ++ [last]) rest); apply in_or_app; left; exact Hg|]. rewrite CT. exact HT.
    + constructor; [|constructor]. eapply N.le_trans; [apply wrap_le|]. apply N.le_trans with (2 := HT). rewrite <- CT. unfold group_observed. rewrite concat_app. cbn [concat]. rewrite app_nil_r, !map_app, !total_app. lia.
  - rewrite Forall_forall in FIN, G5 |- *. intros x Hx. destruct (FIN x Hx) as [F B]. split; [exact F|]. split; [|exact B]. specialize (G5 x Hx). apply dle_iff in G5; [|exact F5|exact F]. rewrite V5 in G5. exact G5.
Qed.

(* expected number of pairs with c and k bits set, of n *)
Lemma pairs_expected_eq w n c k : pairs_expected w n c k = expected_pairs w n c k.
Proof. unfold pairs_expected, expected_pairs. rewrite N2Z.inj_pow. change (Z.of_N 2) with 2%Z. rewrite IZR_pow2 by lia. reflexivity. Qed.
Lemma pairs_expected_range w n c k : (n <= 2 ^ 53)%N -> 0 <= pairs_expected w n c k <= bpow radix2 53.
Proof.
  intros Hn. unfold pairs_expected.
  assert (F : forall j, 0 <= IZR (Z.of_N (choose (N.to_nat w) j)) / IZR (Z.of_N (2 ^ w)) <= 1).
  { intros j. pose proof (choose_le_pow (N.to_nat w) j) as C. rewrite N2Nat.id in C. assert (P : 0 < IZR (Z.of_N (2 ^ w))) by (apply IZR_lt; assert (2 ^ w <> 0)%N by (apply N.pow_nonzero; discriminate); lia).
    split; [apply Rmult_le_pos; [apply IZR_le; lia|apply Rlt_le, Rinv_0_lt_compat, P]|]. apply (Rmult_le_reg_r (IZR (Z.of_N (2 ^ w)))); [exact P|]. unfold Rdiv. rewrite Rmult_assoc, Rinv_l, Rmult_1_r, Rmult_1_l by lra. apply IZR_le. lia. }
  pose proof (F c) as Fc. pose proof (F k) as Fk. assert (Rn : 0 <= IZR (Z.of_N n) <= bpow radix2 53) by (split; [apply IZR_le; lia|rewrite <- IZR_pow2 by lia; apply IZR_le; lia]).
  set (a := IZR (Z.of_N (choose (N.to_nat w) c)) / _) in *. set (b := IZR (Z.of_N (choose (N.to_nat w) k)) / _) in *. set (m := IZR (Z.of_N n)) in *. clearbody a b m.
  assert (0 <= m * a <= bpow radix2 53) by (split; [apply Rmult_le_pos; lra|]; apply Rle_trans with (m * 1); [apply Rmult_le_compat_l; lra|lra]).
  split; [apply Rmult_le_pos; lra|]. apply Rle_trans with (m * a * 1); [apply Rmult_le_compat_l; lra|lra].
Qed.

Theorem serial_test_ok M cdf w n stream : good_math M -> In w [8; 16; 32; 64]%N -> (1 <= n <= 2 ^ 53)%N -> (forall i, is_word w (stream i)) ->
  exists (result : nat -> option statistic),
    serial_avalanche_test M cdf w n stream = Ok (flat_map (fun c => reported ("bit(" ++ to_string_N (N.of_nat c) ++ ")") (result c)) (seq 0 (N.to_nat w))) /\
    forall c, (c < N.to_nat w)%nat -> exists observed expected os es,
      length observed = S (N.to_nat w) /\ length expected = S (N.to_nat w) /\
      (forall k, (k <= N.to_nat w)%nat ->
         nth k observed 0%N = count (fun p => (bit_count (fst p) =? N.of_nat c)%N && (bit_count (snd p) =? N.of_nat k)%N) (pairs (values stream (2 * n))) /\
         within 40 (dval (nth k expected d0)) (pairs_expected w n c k)) /\
      merge_bins observed expected (double_of_N 5) = Ok (os, es) /\
      if (20 * length os <? 7 * S (N.to_nat w))%nat then result c = None else chi2_test cdf 0 os (map dval es) (result c).
Proof.
  intros G Hw Hn Hs.
  assert (W64 : (8 <= w <= 64)%N) by (destruct Hw as [<-|[<-|[<-|[<-|[]]]]]; lia).
  assert (WD := values_words w stream (2 * n) Hs).
  destruct (serial_rows (m_pow M) cdf w n (values stream (2 * n)) Hw Hn (good_pow2_at M w G ltac:(lia)) WD) as (counts & result & EC & ER & HR).
  destruct (serial_ok w (values stream (2 * n)) WD) as (counts' & EC' & LC & LR & CC & TT). rewrite EC in EC'. injection EC' as <-.
  exists result. split.
  { unfold serial_avalanche_test. rewrite ER. cbn [obind]. f_equal. rewrite !flat_map_concat_map, concat_map, map_map. f_equal. apply map_ext. intros c. unfold reported, serial_label. destruct (result c); reflexivity. }
  intros c Hc. destruct (HR c Hc) as (expected & os & es & Le & Fe & Ae & EM & Rc). exists (nth c counts []), expected, os, es.
  assert (Lrow : length (nth c counts []) = S (N.to_nat w)) by (rewrite Forall_forall in LR; apply LR, nth_In; lia).
  split; [exact Lrow|]. split; [exact Le|]. split; [|split; [exact EM|]].
  - intros k Hk. split.
    + specialize (CC (N.of_nat c) (N.of_nat k) ltac:(lia) ltac:(lia)). rewrite !Nat2N.id in CC. exact CC.
    + rewrite pairs_expected_eq. apply Ae, Hk.
  - rewrite Rc. destruct (Nat.ltb_spec (20 * length os) (7 * S (N.to_nat w))) as [|C]; [reflexivity|].
    assert (TR : (total (nth c counts []) <= 2 ^ 53)%N).
    { apply N.le_trans with (total (map total counts)).
      - pose proof (total_bounds (map total counts) c _ eq_refl) as B. change 0%N with (total []) in B. rewrite map_nth in B. exact B.
      - rewrite TT, values_len. rewrite <- (N2Nat.id n) in Hn. assert ((N.to_nat (2 * n) / 2 = N.to_nat n)%nat) as -> by (rewrite N2Nat.inj_mul; change (N.to_nat 2) with 2%nat; rewrite Nat.mul_comm; apply Nat.div_mul; lia). apply Hn. }
    assert (FE : Forall (fun x => fin x /\ 0 <= dval x <= bpow radix2 55) expected).
    { rewrite Forall_forall in Fe |- *. intros x Hx. destruct (Fe x Hx) as [F P]. split; [exact F|]. split; [exact P|]. apply (In_nth _ _ d0) in Hx. destruct Hx as (k & Hk & <-).
      specialize (Ae k ltac:(lia)). rewrite <- pairs_expected_eq in Ae. pose proof (pairs_expected_range w n c k (proj2 Hn)) as PR. unfold approx in Ae. rewrite (Rabs_pos_eq (pairs_expected w n c k)) in Ae by apply PR.
      apply Rabs_le_inv in Ae. assert (bpow radix2 (-40) <= 1) by (change 1 with (bpow radix2 0); apply bpow_le; lia). rewrite b55. set (q := pairs_expected w n c k) in *. pose proof (bpow_gt_0 radix2 (-40)).
      assert (bpow radix2 (-40) * q <= 1 * q) by (apply Rmult_le_compat_r; lra). lra. }
    destruct (merge_range cdf (nth c counts []) expected os es ltac:(lia) ltac:(lia) TR FE EM) as (L1 & L2 & O53 & E64).
    destruct d0_val as [V0 F0]. rewrite <- V0 at 1. apply (chi2_is_test cdf os (fun i => double_of_N (nth i os 0%N)) (fun i => nth i es d0)); [lia|exact F0| | | |].
    + rewrite L1. rewrite <- (map_nth_seq es d0) at 1. rewrite map_map. reflexivity.
    + intros i Hi. apply (to_data_ok os i Hi O53).
    + intros i Hi. rewrite Forall_forall in E64. apply E64, nth_In. lia.
    + intros i Hi _. rewrite Forall_forall in E64. destruct (E64 (nth i es d0)) as [_ B]; [apply nth_In; lia|]. split; [|apply B]. apply Rle_trans with 5; [|apply B]. apply Rle_trans with 1; [change 1 with (bpow radix2 0); apply bpow_le; lia|lra].
Qed.
