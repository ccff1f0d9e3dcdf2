(* Proofs about draw_histogram. *)
From Coq Require Import Reals Lra.
From Flocq Require Import Relative.
From Verif Require Import Base FloatModel FloatLemmas ResultModel ResultSpec AnalysisProofs KsProofs LibInst LimitProofs FormatModel FormatSpec.
Open Scope R_scope.

Lemma dN_exact i : (i <= 2 ^ 53)%N -> dval (double_of_N i) = IZR (Z.of_N i) /\ fin (double_of_N i).
Proof. apply double_of_N_exact. Qed.

(* ---------- bars ---------- *)
Lemma bar_unique x a b : bar x a -> bar x b -> a = b.
Proof.
  intros [A1 A2] [B1 B2]. destruct (N.lt_trichotomy a b) as [H|[H|H]]; [|exact H|].
  - rewrite (B1 a H) in A2. discriminate.
  - rewrite (A1 b H) in B2. discriminate.
Qed.
Lemma bar_ceil x : fin x -> 0 <= dval x <= 1000 -> bar x (Z.to_N (Zceil (dval x))).
Proof.
  intros F B. assert (C0 : (0 <= Zceil (dval x))%Z). { apply le_IZR. eapply Rle_trans; [apply B|apply Zceil_ub]. }
  assert (C1 : (Zceil (dval x) <= 1000)%Z). { apply Zceil_glb. apply B. }
  assert (S : forall i, (Z.of_N i <= 1000)%Z -> dval (double_of_N i) = IZR (Z.of_N i) /\ fin (double_of_N i)).
  { intros i Hi. apply dN_exact. apply N2Z.inj_le. eapply Z.le_trans; [exact Hi|]. discriminate. }
  split.
  - intros i Hi. destruct (S i ltac:(lia)) as [V Fi]. apply dlt_iff; [exact Fi|exact F|]. rewrite V.
    apply Rnot_le_lt. intros H. apply Zceil_glb in H. lia.
  - destruct (S (Z.to_N (Zceil (dval x))) ltac:(lia)) as [V Fi]. apply dlt_false; [exact Fi|exact F|]. rewrite V.
    rewrite Z2N.id by exact C0. apply Zceil_ub.
Qed.

(* ---------- the scale ---------- *)
Lemma scale_small m : (m <= 80)%N -> dval (hist_scale m) = 1 /\ fin (hist_scale m).
Proof.
  intros H. unfold hist_scale. destruct (N.eq_dec m 0) as [->|Hz]; [split; [|reflexivity]; apply d1_val|].
  destruct (dN_exact 80 ltac:(discriminate)) as [V8 F8]. destruct (dN_exact m ltac:(eapply N.le_trans; [exact H|discriminate])) as [Vm Fm].
  assert (M : 1 <= IZR (Z.of_N m) <= 80) by (split; [apply (IZR_le 1)|apply (IZR_le _ 80)]; lia).
  assert (Q : 1 <= 80 / IZR (Z.of_N m) <= 80).
  { split; apply (Rmult_le_reg_r (IZR (Z.of_N m))); try lra; unfold Rdiv; rewrite Rmult_assoc, Rinv_l by lra; lra. }
  destruct (ddiv_ok (double_of_N 80) (double_of_N m) F8) as [V F].
  - rewrite Vm. lra.
  - rewrite V8, Vm. cbn [Z.of_N]. apply (small_pow2 _ 7); [lia|]. change (bpow radix2 7) with 128. rewrite Rabs_right by lra. lra.
  - rewrite V8, Vm in V. cbn [Z.of_N] in V. destruct d1_val as [V1 F1]. destruct (dmin_val d1 _ F1 F) as [VM FM]. rewrite VM, V, V1. split; [|exact FM].
    apply Rmin_left. rewrite <- (rnd_id 1 F64_1). apply rnd_mono. apply Q.
Qed.
Lemma scale_large m : (80 < m <= 2 ^ 53)%N -> fin (hist_scale m) /\ dval (hist_scale m) = rnd (80 / IZR (Z.of_N m)) /\
  0 <= dval (hist_scale m) <= 1 /\ dval (hist_scale m) * IZR (Z.of_N m) <= 80 + / 4.
Proof.
  intros [H1 H2]. unfold hist_scale.
  destruct (dN_exact 80 ltac:(discriminate)) as [V8 F8]. destruct (dN_exact m H2) as [Vm Fm].
  assert (M : 81 <= IZR (Z.of_N m) <= bpow radix2 53).
  { split; [apply (IZR_le 81); lia|]. change (bpow radix2 53) with (IZR (Z.of_N (2 ^ 53))). apply IZR_le, N2Z.inj_le, H2. }
  assert (Q : 0 < 80 / IZR (Z.of_N m) < 1).
  { split; apply (Rmult_lt_reg_r (IZR (Z.of_N m))); try lra; unfold Rdiv; rewrite Rmult_assoc, Rinv_l by lra; lra. }
  destruct (ddiv_ok (double_of_N 80) (double_of_N m) F8) as [V F].
  - rewrite Vm. lra.
  - rewrite V8, Vm. cbn [Z.of_N]. apply small_1. rewrite Rabs_right by lra. lra.
  - rewrite V8, Vm in V. cbn [Z.of_N] in V. destruct d1_val as [V1 F1]. destruct (dmin_val d1 _ F1 F) as [VM FM].
    assert (R : 0 <= rnd (80 / IZR (Z.of_N m)) <= 1) by (apply rnd_between; [apply F64_0|apply F64_1|lra]).
    rewrite VM, V, V1. rewrite Rmin_right by lra. split; [exact FM|]. split; [reflexivity|]. split; [exact R|].
    assert (E : Rabs (rnd (80 / IZR (Z.of_N m)) - 80 / IZR (Z.of_N m)) <= bpow radix2 (-53) * (80 / IZR (Z.of_N m))).
    { pose proof (relative_error_N_FLT radix2 (-1074) 53 eq_refl (fun x => negb (Z.even x)) (80 / IZR (Z.of_N m))) as H.
      assert (Ea : Rabs (80 / IZR (Z.of_N m)) = 80 / IZR (Z.of_N m)) by (apply Rabs_right; lra).
      assert (Mb : bpow radix2 (-1074 + 53 - 1) <= Rabs (80 / IZR (Z.of_N m))).
      { rewrite Ea. apply (Rle_trans _ (bpow radix2 (-53))); [apply bpow_le; lia|]. change (-53)%Z with (- (53))%Z. rewrite (bpow_opp radix2 53).
        unfold Rdiv. rewrite <- (Rmult_1_l (/ bpow radix2 53)). apply Rmult_le_compat; [lra|apply Rlt_le, Rinv_0_lt_compat, bpow_gt_0|lra|].
        apply Rinv_le_contravar; lra. }
      specialize (H Mb). rewrite Ea in H. eapply Rle_trans; [exact H|]. apply Rmult_le_compat_r; [lra|]. right. rewrite bpow_plus.
      change (bpow radix2 1) with 2. change (-(53))%Z with (-53)%Z. lra. }
    apply Rabs_le_inv in E. destruct E as [_ E].
    assert (P : 80 / IZR (Z.of_N m) * IZR (Z.of_N m) = 80) by (unfold Rdiv; rewrite Rmult_assoc, Rinv_l by lra; lra).
    assert (B : bpow radix2 (-53) <= / 1024) by (change (/ 1024) with (bpow radix2 (-10)); apply bpow_le; lia).
    assert (T : rnd (80 / IZR (Z.of_N m)) * IZR (Z.of_N m) <= (80 / IZR (Z.of_N m) + bpow radix2 (-53) * (80 / IZR (Z.of_N m))) * IZR (Z.of_N m)).
    { apply Rmult_le_compat_r; lra. }
    assert (X : (80 / IZR (Z.of_N m) + bpow radix2 (-53) * (80 / IZR (Z.of_N m))) * IZR (Z.of_N m) = 80 + bpow radix2 (-53) * 80).
    { rewrite Rmult_plus_distr_r, Rmult_assoc, P. reflexivity. }
    rewrite X in T. lra.
Qed.
Lemma scale_bounds m : (m <= 2 ^ 53)%N -> fin (hist_scale m) /\ 0 <= dval (hist_scale m) <= 1 /\
  dval (hist_scale m) * IZR (Z.of_N m) <= 80 + / 4.
Proof.
  intros H. destruct (N.le_gt_cases m 80) as [Hs|Hl].
  - destruct (scale_small m Hs) as [V F]. rewrite V. split; [exact F|]. split; [lra|].
    assert (IZR (Z.of_N m) <= 80) by (apply (IZR_le _ 80); lia). lra.
  - destruct (scale_large m (conj Hl H)) as (F & _ & B & C). auto.
Qed.
Lemma scaled_ok m b : (m <= 2 ^ 53)%N -> (b <= m)%N ->
  fin (dmul (hist_scale m) (double_of_N b)) /\ dval (dmul (hist_scale m) (double_of_N b)) = rnd (dval (hist_scale m) * IZR (Z.of_N b)) /\
  0 <= dval (dmul (hist_scale m) (double_of_N b)) <= 80 + / 4.
Proof.
  intros Hm Hb. destruct (scale_bounds m Hm) as (F & B & C). destruct (dN_exact b ltac:(eapply N.le_trans; eassumption)) as [Vb Fb].
  assert (B0 : 0 <= IZR (Z.of_N b) <= IZR (Z.of_N m)) by (split; [apply (IZR_le 0)|apply IZR_le]; lia).
  assert (P : 0 <= dval (hist_scale m) * IZR (Z.of_N b) <= 80 + / 4).
  { split; [apply Rmult_le_pos; lra|]. eapply Rle_trans; [|exact C]. apply Rmult_le_compat_l; lra. }
  destruct (dmul_ok (hist_scale m) (double_of_N b) F Fb) as [V FM].
  - rewrite Vb. apply (small_pow2 _ 7); [lia|]. change (bpow radix2 7) with 128. rewrite Rabs_right; lra.
  - rewrite Vb in V. split; [exact FM|]. split; [exact V|]. rewrite V. apply rnd_between; [apply F64_0| |exact P].
    replace (80 + / 4) with (F2R (Float radix2 321 (-2))) by (unfold F2R; cbn; lra). apply F64_F2R; lia.
Qed.

(* ---------- the bins ---------- *)
Lemma hist_index_ok r : valid01 r -> exists j, hist_index r = Ok j /\ (j < 30)%nat /\
  INR j <= 30 * dval r + bpow radix2 (-48) /\ (30 * dval r < INR j + 1 \/ j = 29%nat).
Proof.
  intros [F B]. unfold hist_index. destruct (dN_exact 30 ltac:(discriminate)) as [V3 F3].
  destruct (dmul_ok r (double_of_N 30) F F3) as [V FM].
  { rewrite V3. cbn [Z.of_N]. apply (small_pow2 _ 5); [lia|]. change (bpow radix2 5) with 32. rewrite Rabs_right; lra. }
  rewrite V3 in V. cbn [Z.of_N] in V. set (x := dmul r (double_of_N 30)) in *.
  assert (X : 0 <= dval x <= 30).
  { rewrite V. apply rnd_between; [apply F64_0|apply (F64_Z 30); lia|lra]. }
  rewrite (N_of_double_trunc 64 x FM (proj1 X)) by (eapply Rle_lt_trans; [apply X|]; apply (IZR_lt 30); reflexivity).
  cbn [obind]. eexists. split; [reflexivity|].
  assert (Z0 : (0 <= Zfloor (dval x))%Z) by (apply Zfloor_lub; apply X).
  assert (E : Rabs (rnd (dval r * 30) - dval r * 30) <= bpow radix2 (-48)).
  { destruct (Req_dec (dval r * 30) 0) as [->|Hz].
    { rewrite (rnd_id 0 F64_0). replace (0 - 0) with 0 by ring. rewrite Rabs_R0. apply bpow_ge_0. }
    eapply Rle_trans; [apply error_le_half_ulp; typeclasses eauto|]. rewrite ulp_neq_0 by exact Hz.
    assert (Hc : (cexp radix2 (SpecFloat.fexp 53 1024) (dval r * 30) <= -48)%Z).
    { unfold cexp, SpecFloat.fexp, SpecFloat.emin. assert (mag radix2 (dval r * 30) <= 5)%Z; [|lia].
      apply mag_le_bpow; [exact Hz|]. change (bpow radix2 5) with 32. rewrite Rabs_right; lra. }
    apply (bpow_le radix2) in Hc. pose proof (bpow_gt_0 radix2 (-48)). lra. }
  rewrite <- V in E. apply Rabs_le_inv in E.
  pose proof (Zfloor_lb (dval x)) as L. pose proof (Zfloor_ub (dval x)) as U.
  set (z := Zfloor (dval x)) in *. clearbody z.
  assert (J : INR (N.to_nat (N.min (Z.to_N z) 29)) = IZR (Z.min z 29)).
  { rewrite INR_IZR_INZ. f_equal. lia. }
  split; [lia|]. rewrite J. split.
  - assert (IZR (Z.min z 29) <= IZR z) by (apply IZR_le; lia). lra.
  - destruct (Z_le_gt_dec z 29) as [Hz|Hz]; [left|right; lia]. rewrite Z.min_l by lia.
    apply Rnot_le_lt. intros H. assert (HH : rnd (IZR (z + 1)) <= rnd (dval r * 30)) by (apply rnd_mono; rewrite plus_IZR; lra).
    rewrite rnd_id in HH; [rewrite <- V, plus_IZR in HH; lra|]. apply F64_Z. 
    assert (0 <= z + 1 <= 30)%Z by lia. rewrite Z.abs_eq by lia. eapply Z.le_trans; [apply H0|discriminate].
Qed.

Definition total (l : list N) : N := fold_right N.add 0%N l.
Lemma total_upd l i b : nth_error l i = Some b -> total (upd l i (b + 1)%N) = (total l + 1)%N.
Proof. unfold total. revert i. induction l as [|a l IH]; intros [|i] H; cbn in H; try discriminate; cbn [upd fold_right]; [injection H as ->; lia|]. rewrite (IH i H). lia. Qed.
Definition inrange (m : N) (l : list N) := Forall (fun b => b <= m)%N l.
Lemma upd_Forall {B} (P : B -> Prop) l i b : Forall P l -> P b -> Forall P (upd l i b).
Proof. intros H Hb. revert i. induction H as [|a l Ha H IH]; intros [|i]; cbn; constructor; auto. Qed.
Lemma upd_length {B} (l : list B) i b : length (upd l i b) = length l.
Proof. revert i; induction l; intros [|i]; cbn; auto. Qed.
Lemma nth_upd_N (l : list N) i j b : nth_error l i <> None -> nth j (upd l i b) 0%N = if (i =? j)%nat then b else nth j l 0%N.
Proof.
  revert i j; induction l as [|a l IH]; intros [|i] [|j] H; cbn in *; try congruence; try reflexivity. apply IH, H.
Qed.

Lemma hist_bins_ok data : Forall valid01 data -> exists bins m, hist_bins data = Ok (bins, m) /\ length bins = 30%nat /\
  total bins = N.of_nat (length data) /\ Forall (fun b => b <= m)%N bins /\ (In m bins \/ m = 0%N) /\
  forall j, nth j bins 0%N = N.of_nat (length (filter (in_bin j) data)).
Proof.
  intros H. unfold hist_bins.
  assert (G : forall data bins m n cnt, Forall valid01 data -> length bins = 30%nat -> total bins = n -> Forall (fun b => b <= m)%N bins -> (In m bins \/ m = 0%N) ->
    (forall j, nth j bins 0%N = cnt j) ->
    exists bins' m', ofold hist_step data (bins, m) = Ok (bins', m') /\ length bins' = 30%nat /\ total bins' = (n + N.of_nat (length data))%N /\
      Forall (fun b => b <= m')%N bins' /\ (In m' bins' \/ m' = 0%N) /\ forall j, nth j bins' 0%N = (cnt j + N.of_nat (length (filter (in_bin j) data)))%N).
  { clear. induction data as [|r data IH]; intros bins m n cnt HV HL HT HF HM HC.
    - exists bins, m. cbn. split; [reflexivity|]. split; [exact HL|]. split; [lia|]. split; [exact HF|]. split; [exact HM|]. intro j. rewrite HC. lia.
    - pose proof (Forall_inv HV) as Hr. apply Forall_inv_tail in HV. destruct (hist_index_ok r Hr) as (i & Ei & Hi & _).
      cbn [ofold hist_step]. rewrite Ei. cbn [obind]. unfold at_. destruct (nth_error bins i) as [b|] eqn:Eb; [|apply nth_error_None in Eb; lia].
      cbn [obind]. 
      destruct (IH (upd bins i (b + 1)%N) (N.max (b + 1) m) (n + 1)%N (fun j => if (i =? j)%nat then (b + 1)%N else cnt j) HV) as (bins' & m' & E & A1 & A2 & A3 & A4 & A5).
      + rewrite upd_length. exact HL.
      + rewrite (total_upd _ _ _ Eb). lia.
      + apply upd_Forall; [|lia]. eapply Forall_impl; [|exact HF]. cbn. intros; lia.
      + left. destruct (N.max_spec (b + 1) m) as [[Hlt ->]|[Hge ->]].
        * (* m > b+1: m in bins other than index i *)
          destruct HM as [HM|HM]; [|lia]. apply In_nth_error in HM. destruct HM as [k Hk].
          assert (k <> i) by (intros ->; rewrite Hk in Eb; injection Eb as ->; lia).
          assert (X : nth_error (upd bins i (b + 1)%N) k = Some m).
          { clear - Hk H. revert i k Hk H. induction bins as [|a l IHl]; intros [|i] [|k] Hk H; cbn in *; try discriminate; auto; try congruence; apply IHl; congruence. }
          eapply nth_error_In, X.
        * assert (X : nth_error (upd bins i (b + 1)%N) i = Some (b + 1)%N).
          { clear - Eb. revert i Eb. induction bins as [|a l IHl]; intros [|i] Eb; cbn in *; try discriminate; auto. }
          eapply nth_error_In, X.
      + intro j. rewrite nth_upd_N by congruence. destruct (i =? j)%nat; [reflexivity|apply HC].
      + exists bins', m'. split; [exact E|]. split; [exact A1|]. split; [rewrite A2; cbn [length]; lia|]. split; [exact A3|]. split; [exact A4|].
        intro j. rewrite A5. cbn [filter]. unfold in_bin at 2. rewrite Ei. destruct (i =? j)%nat eqn:Ej; [|lia].
        apply Nat.eqb_eq in Ej. subst j. cbn [length]. rewrite <- (HC i). rewrite (nth_error_nth _ _ 0%N Eb). lia. }
  destruct (G data (repeat 0%N 30) 0%N 0%N (fun _ => 0%N) H) as (bins & m & E & A1 & A2 & A3 & A4 & A5).
  - reflexivity.
  - reflexivity.
  - repeat constructor; lia.
  - right; reflexivity.
  - intro j. do 31 (destruct j; [reflexivity|]). reflexivity.
  - exists bins, m. split; [exact E|]. split; [exact A1|]. split; [exact A2|]. split; [exact A3|]. split; [exact A4|]. exact A5.
Qed.

Lemma total_ge l b : In b l -> (b <= total l)%N.
Proof. unfold total. induction l as [|a l IH]; cbn [In fold_right]; [tauto|]. intros [->|H]; [lia|]. specialize (IH H). lia. Qed.

Lemma draws_ok data : Forall valid01 data -> (N.of_nat (length data) <= 2 ^ 53)%N ->
  exists bins m lines, hist_bins data = Ok (bins, m) /\ draws_histogram data lines /\
    lines = map (fun b => Z.to_N (Zceil (rnd (dval (hist_scale m) * IZR (Z.of_N b))))) bins /\
    (forall lines', draws_histogram data lines' -> lines' = lines) /\
    Forall (fun s => s <= 81)%N lines /\ (m <= 2 ^ 53)%N.
Proof.
  intros HV HL. destruct (hist_bins_ok data HV) as (bins & m & E & A1 & A2 & A3 & A4 & _).
  assert (Hm : (m <= 2 ^ 53)%N).
  { destruct A4 as [A4| ->]; [|discriminate]. apply total_ge in A4. rewrite A2 in A4. eapply N.le_trans; eassumption. }
  exists bins, m. eexists. split; [exact E|].
  assert (HB : Forall (fun b => bar (dmul (hist_scale m) (double_of_N b)) (Z.to_N (Zceil (rnd (dval (hist_scale m) * IZR (Z.of_N b)))))
       /\ (Z.to_N (Zceil (rnd (dval (hist_scale m) * IZR (Z.of_N b)))) <= 81)%N) bins).
  { eapply Forall_impl; [|exact A3]. intros b Hb. cbn in Hb. destruct (scaled_ok m b Hm Hb) as (F & V & B).
    rewrite <- V. split; [apply bar_ceil; [exact F|lra]|].
    assert (Zceil (dval (dmul (hist_scale m) (double_of_N b))) <= 81)%Z by (apply Zceil_glb; lra). lia. }
  split; [|split; [reflexivity|split]].
  - exists bins, m. split; [exact E|]. clear - HB. induction HB as [|b l Hb HB IH]; cbn; constructor; [apply Hb|exact IH].
  - intros lines' (bins' & m' & E' & F'). rewrite E in E'. injection E' as <- <-. clear - HB F'.
    revert lines' F'. induction HB as [|b l Hb HB IH]; intros lines' F'; inversion F'; subst; [reflexivity|]. cbn. f_equal.
    + eapply bar_unique; [eassumption|apply Hb].
    + apply IH. assumption.
  - split; [|exact Hm]. apply Forall_map. eapply Forall_impl; [|exact HB]. intros b Hb. apply Hb.
Qed.

Lemma rnd_lower a b : F64 a -> a <= b -> a <= rnd b.
Proof. intros H H'. rewrite <- (rnd_id a H). apply rnd_mono, H'. Qed.
Lemma IZR53 : IZR (2 ^ 53) = 2 ^ 53.
Proof. rewrite (pow_IZR 2 53). reflexivity. Qed.
Lemma pos_scaled m b : (m <= 2 ^ 53)%N -> (1 <= b <= m)%N -> 0 < rnd (dval (hist_scale m) * IZR (Z.of_N b)).
Proof.
  intros Hm [Hb1 Hb]. assert (B1 : 1 <= IZR (Z.of_N b)) by (apply (IZR_le 1); lia).
  assert (K : bpow radix2 (-60) <= dval (hist_scale m)).
  { destruct (N.le_gt_cases m 80) as [H|H].
    - destruct (scale_small m H) as [-> _]. apply (bpow_le radix2 (-60) 0). lia.
    - destruct (scale_large m (conj H Hm)) as (_ & -> & _). apply rnd_lower; [apply F64_bpow; lia|].
      assert (M : IZR (Z.of_N m) <= 2 ^ 53) by (rewrite <- IZR53; apply IZR_le; apply (proj1 (N2Z.inj_le m (2 ^ 53))), Hm).
      assert (P : 0 < IZR (Z.of_N m)) by (apply (IZR_lt 0); lia).
      apply (Rmult_le_reg_r (IZR (Z.of_N m))); [exact P|]. unfold Rdiv. rewrite Rmult_assoc, Rinv_l, Rmult_1_r by lra.
      change (-60)%Z with (- Z.of_nat 60)%Z. rewrite (bpow_neg 60). assert (/ 2 ^ 60 * 2 ^ 53 <= 1) by lra.
      assert (/ 2 ^ 60 * IZR (Z.of_N m) <= / 2 ^ 60 * 2 ^ 53) by (apply Rmult_le_compat_l; lra). lra. }
  apply Rlt_le_trans with (bpow radix2 (-60)); [apply bpow_gt_0|]. apply rnd_lower; [apply F64_bpow; lia|].
  rewrite <- (Rmult_1_r (bpow radix2 (-60))). apply Rmult_le_compat; [apply bpow_ge_0|lra|exact K|exact B1].
Qed.
Lemma drawing_ok data : Forall valid01 data -> (N.of_nat (length data) <= 2 ^ 53)%N ->
  exists bins m lines, hist_bins data = Ok (bins, m) /\ draws_histogram data lines /\
    (forall lines', draws_histogram data lines' -> lines' = lines) /\
    length lines = 30%nat /\ Forall (fun s => s <= 81)%N lines /\
    (forall j, nth j bins 0%N = 0%N <-> nth j lines 0%N = 0%N) /\
    (forall i j, (nth i bins 0 <= nth j bins 0)%N -> (nth i lines 0 <= nth j lines 0)%N) /\
    ((m <= 80)%N -> lines = bins).
Proof.
  intros HV HL. destruct (draws_ok data HV HL) as (bins & m & lines & E & D & El & U & B & Hm).
  destruct (hist_bins_ok data HV) as (bins' & m' & E' & A1 & A2 & A3 & A4 & _). rewrite E in E'. injection E' as <- <-.
  set (f := fun b => Z.to_N (Zceil (rnd (dval (hist_scale m) * IZR (Z.of_N b))))) in *.
  assert (F0 : f 0%N = 0%N) by (unfold f; cbn [Z.of_N]; rewrite Rmult_0_r, (rnd_id 0 F64_0), (Zceil_IZR 0); reflexivity).
  assert (EN : forall j, nth j lines 0%N = f (nth j bins 0%N)) by (intro j; rewrite El, <- F0 at 1; rewrite map_nth; reflexivity).
  assert (NB : forall j, (nth j bins 0 <= m)%N).
  { intro j. destruct (Nat.lt_ge_cases j (length bins)) as [H|H]; [rewrite Forall_forall in A3; apply A3, nth_In, H|rewrite nth_overflow by exact H; lia]. }
  exists bins, m, lines. split; [exact E|]. split; [exact D|]. split; [exact U|]. split; [rewrite El, map_length; exact A1|]. split; [exact B|].
  split; [|split].
  - intro j. rewrite EN. specialize (NB j). destruct (N.eq_dec (nth j bins 0%N) 0) as [->|Hz]; [rewrite F0; tauto|]. split; [contradiction|].
    intros H. exfalso. pose proof (pos_scaled m (nth j bins 0%N) Hm ltac:(lia)) as P. unfold f in H.
    assert (0 < Zceil (rnd (dval (hist_scale m) * IZR (Z.of_N (nth j bins 0%N)))))%Z by (apply lt_IZR; eapply Rlt_le_trans; [exact P|apply Zceil_ub]). lia.
  - intros i j H. rewrite !EN. unfold f.
    assert (Zceil (rnd (dval (hist_scale m) * IZR (Z.of_N (nth i bins 0%N)))) <= Zceil (rnd (dval (hist_scale m) * IZR (Z.of_N (nth j bins 0%N)))))%Z; [|lia].
    apply Zceil_le. apply rnd_mono. apply Rmult_le_compat_l; [apply (scale_bounds m Hm)|]. apply IZR_le. lia.
  - intros H80. rewrite El. rewrite <- (map_id bins) at 2. apply map_ext_in. intros b Hb. unfold f. destruct (scale_small m H80) as [-> _].
    rewrite Rmult_1_l. rewrite Forall_forall in A3. specialize (A3 b Hb).
    rewrite rnd_id; [rewrite Zceil_IZR; lia|]. apply F64_Z. lia.
Qed.

(* computing drawings *)
Definition barb (x : double) (s : N) : bool :=
  forallb (fun i => dlt (double_of_N (N.of_nat i)) x) (seq 0 (N.to_nat s)) && negb (dlt (double_of_N s) x).
Lemma barb_bar x s : barb x s = true -> bar x s.
Proof.
  unfold barb. rewrite andb_true_iff, forallb_forall, negb_true_iff. intros [A B]. split; [|exact B].
  intros i Hi. rewrite <- (N2Nat.id i). apply A. apply in_seq. lia.
Qed.
Definition drawb (data : list double) (lines : list N) : bool :=
  match hist_bins data with
  | Ok (bins, m) => (length bins =? length lines)%nat &&
      forallb (fun p => barb (dmul (hist_scale m) (double_of_N (fst p))) (snd p)) (combine bins lines)
  | UB => false
  end.
Lemma drawb_draws data lines : drawb data lines = true -> draws_histogram data lines.
Proof.
  unfold drawb. destruct (hist_bins data) as [[bins m]|] eqn:E; [|discriminate]. rewrite andb_true_iff. intros [A B].
  apply Nat.eqb_eq in A. exists bins, m. split; [exact E|]. clear E. revert lines A B.
  induction bins as [|b bins IH]; intros [|s lines] A B; cbn in A; try discriminate; [constructor|].
  cbn [combine forallb fst snd] in B. apply andb_true_iff in B. destruct B as [B1 B2]. constructor; [apply barb_bar, B1|]. apply IH; [lia|exact B2].
Qed.
Lemma valid_two_powers : valid01 (dconst 1 (-1)) /\ valid01 (dconst 1 (-2)).
Proof.
  split; (split; [reflexivity|]); unfold dval; cbn.
  - change (B2R _) with (F2R (Float radix2 4503599627370496 (-53))). unfold F2R; cbn. lra.
  - change (B2R _) with (F2R (Float radix2 4503599627370496 (-54))). unfold F2R; cbn. lra.
Qed.
Lemma eighty_refuted : exists data lines, Forall valid01 data /\ draws_histogram data lines /\ In 81%N lines.
Proof.
  exists (repeat (dconst 1 (-1)) 147), (upd (repeat 0%N 30) 15 81%N). split; [|split].
  - apply Forall_forall. intros x Hx. apply repeat_spec in Hx. subst. apply valid_two_powers.
  - apply drawb_draws. vm_compute. reflexivity.
  - vm_compute. repeat (try (left; reflexivity); right).
Qed.
Lemma hist_instance : Forall valid01 [dconst 1 (-1); dconst 1 (-2)] /\ draws_histogram [dconst 1 (-1); dconst 1 (-2)]
   [0;0;0;0;0;0;0;1;0;0;0;0;0;0;0;1;0;0;0;0;0;0;0;0;0;0;0;0;0;0]%N.
Proof.
  split; [constructor; [apply valid_two_powers|constructor; [apply valid_two_powers|constructor]]|].
  apply drawb_draws. vm_compute. reflexivity.
Qed.
