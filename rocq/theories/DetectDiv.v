(* The divisibility test detects a stuck lowest bit. *)
From Coq Require Import String Reals Lra Lia.
From Flocq Require Import Core BinarySingleNaN.
From Verif Require Import Base WordLemmas BitwiseModel BitwiseSpec FloatModel FloatLemmas StreamModel StreamSpec ResultModel ResultSpec EvaluateModel CollectModel CollectSpec StatsSpec ErrorSpec ErrorSpec
  TestsModel TestsSpec TestsUniform TestsDiv BatterySpec BatteryProofs DistModel DistSpec DetectSpec DetectProofs.
Open Scope R_scope.

Definition even (v : N) : bool := (v mod 2 =? 0)%N.
Lemma even_bit v : even v = negb (N.testbit v 0).
Proof. unfold even. rewrite <- N.bit0_mod. destruct (N.testbit v 0); reflexivity. Qed.
Lemma even_all stream n b : (forall i, N.testbit (stream i) 0 = b) -> Forall (fun v => even v = negb b) (values stream n).
Proof. intros H. apply Forall_forall. intros v Hv. apply in_map_iff in Hv. destruct Hv as (i & <- & _). rewrite even_bit, H. reflexivity. Qed.
Lemma count_even l c : Forall (fun v => even v = c) l -> count even l = if c then N.of_nat (length l) else 0%N.
Proof.
  unfold count. induction 1 as [|v l H _ IH]; [destruct c; reflexivity|]. cbn [filter length]. rewrite H. destruct c; [|exact IH]. cbn [length]. lia.
Qed.
Lemma chi2_cons t o os e es : chi2_sum t (o :: os) (e :: es) = (if Rlt_bool t e then (IZR (Z.of_N o) - e) ^ 2 / e else 0) + chi2_sum t os es.
Proof. reflexivity. Qed.
Lemma chi2_zeros t es : 0 <= t -> forall E, (forall x, In x E -> t < x) -> forall os rest, es = E ++ rest -> length os = length es -> Forall (eq 0%N) os -> rsum E <= chi2_sum t os es.
Proof.
  intros Ht E. revert es. induction E as [|e E IH]; intros es HE os rest -> HL HZ; [apply (chi2_sum_nonneg t os _ Ht)|].
  destruct os as [|o os]; [discriminate HL|]. cbn [app]. rewrite chi2_cons. change (rsum (e :: E)) with (e + rsum E).
  apply Forall_inv in HZ as Z0. apply Forall_inv_tail in HZ. rewrite <- Z0. assert (P : t < e) by (apply HE; left; reflexivity). rewrite Rlt_bool_true by exact P.
  apply Rplus_le_compat; [change (IZR (Z.of_N 0)) with 0; apply Req_le; field; lra|]. apply (IH (E ++ rest)) with (rest := rest); [intros x Hx; apply HE; right; exact Hx|reflexivity|cbn [app length] in HL; lia|exact HZ].
Qed.
Lemma cut_fives (l : list N) segs rest : Forall (fun v => even v = true) l -> cut_into (fun s => (5 <= count even s)%N) l segs rest ->
  Forall (fun s => length s = 5%nat) segs /\ (length l / 5 = length segs)%nat.
Proof.
  intros HF (E & Hs & Hr).
  assert (A : Forall (fun s => length s = 5%nat) segs).
  { apply Forall_forall. intros s Hin. rewrite Forall_forall in Hs. destruct (Hs s Hin) as [C P].
    assert (FS : Forall (fun v => even v = true) s).
    { apply Forall_forall. intros v Hv. rewrite Forall_forall in HF. apply HF. rewrite E. apply in_or_app. left. apply in_concat. exists s. split; assumption. }
    rewrite (count_even s true FS) in C. destruct (Nat.eq_dec (length s) 5) as [L|L]; [exact L|exfalso].
    apply (P (firstn 5 s) (skipn 5 s)); [symmetry; apply firstn_skipn| |].
    - intros Q. apply (f_equal (@length _)) in Q. rewrite skipn_length in Q. cbn in Q. lia.
    - rewrite (count_even _ true); [rewrite firstn_length; lia|]. apply Forall_forall. intros v Hv. rewrite Forall_forall in FS. apply FS. rewrite <- (firstn_skipn 5 s). apply in_or_app. left. exact Hv. }
  split; [exact A|]. assert (FR : Forall (fun v => even v = true) rest) by (rewrite E in HF; apply Forall_app in HF; apply HF).
  assert (LR : (length rest < 5)%nat).
  { specialize (Hr rest []). rewrite app_nil_r in Hr. specialize (Hr eq_refl). rewrite (count_even rest true FR) in Hr. lia. }
  assert (LC : length (concat segs) = (length segs * 5)%nat).
  { clear - A. induction A as [|s segs H _ IH]; [reflexivity|]. cbn [concat length]. rewrite app_length, H, IH. lia. }
  rewrite E, app_length, LC. rewrite Nat.div_add_l by lia. rewrite Nat.div_small by exact LR. lia.
Qed.
Lemma div_stuck M exp w n stream : good_lib M exp -> samples n -> (4096 <= n)%N -> stuck_low stream -> alarm (divisibility_test M (chi2_cdf M exp) w n stream).
Proof.
  intros G Hn Hn4 [b Hb]. unfold samples in Hn. change (2 ^ 26)%N with 67108864%N in Hn.
  destruct (div_ok M (chi2_cdf M exp) w n stream (proj1 G)) as (segs & rest & os & r & Cut & L & T & X & E); [change (2 ^ 44)%N with 17592186044416%N; lia|].
  pose proof (div_present _ n os r ltac:(lia) X) as NN. destruct r as [s|]; [clear NN|contradiction].
  replace (n <? 1000)%N with false in E by (symmetry; apply N.ltb_ge; lia). exists [mksub "d2"%string (Some s)], "d2"%string, s. split; [exact E|]. split; [left; reflexivity|].
  apply (alarm_chi2 M exp 5 os (div_expected n) s G); [lra|rewrite L; lia|exact X|].
  apply Rle_trans with 264.
  { assert (B : (length (filter (Rlt_bool 5) (div_expected n)) <= 16)%nat) by (apply Nat.le_trans with (length (div_expected n)); [generalize (div_expected n); clear; induction l as [|x l IH]; [cbn; lia|]; cbn [filter]; destruct (Rlt_bool 5 x); cbn [length]; lia|unfold div_expected; rewrite map_length, seq_length; lia]).
    apply le_INR in B. replace (INR 16) with 16 in B by (cbn; lra). lra. }
  set (t := IZR (Z.of_N (n / 10))). assert (Ht : 409 <= t) by (apply (IZR_le 409); change 409%Z with (Z.of_N 409); apply N2Z.inj_le, N.div_le_lower_bound; lia).
  pose proof (even_all stream n b Hb) as FE. destruct b; cbn [negb] in FE.
  - (* all odd *)
    assert (S0 : segs = []).
    { destruct segs as [|s0 segs]; [reflexivity|exfalso]. destruct Cut as (Ec & Fc & _). apply Forall_inv in Fc. destruct Fc as [C _].
      fold even in C. change (5 <= count even s0)%N in C. rewrite (count_even s0 false) in C; [lia|]. rewrite Ec in FE. apply Forall_app in FE. destruct FE as [FE _]. cbn [concat] in FE. apply Forall_app in FE. apply FE. }
    assert (Z0 : Forall (eq 0%N) os).
    { apply Forall_forall. intros x Hx. destruct (In_nth _ _ 0%N Hx) as (i & Hi & <-). rewrite (T i Hi), S0. reflexivity. }
    apply Rle_trans with (rsum (map (fun k => IZR (nb_ideal k) / 1048576 * t) (seq 0 9))).
    + cbn [seq map]. unfold rsum. cbn [fold_right].
      replace (nb_ideal 0) with 32768%Z by reflexivity. replace (nb_ideal 1) with 81920%Z by reflexivity. replace (nb_ideal 2) with 122880%Z by reflexivity. replace (nb_ideal 3) with 143360%Z by reflexivity. replace (nb_ideal 4) with 143360%Z by reflexivity.
      replace (nb_ideal 5) with 129024%Z by reflexivity. replace (nb_ideal 6) with 107520%Z by reflexivity. replace (nb_ideal 7) with 84480%Z by reflexivity. replace (nb_ideal 8) with 63360%Z by reflexivity. lra.
    + apply (chi2_zeros 5 (div_expected n)) with (rest := map (fun k => IZR (nb_ideal k) / 1048576 * t) (seq 9 7)); [lra| |unfold div_expected; fold t; rewrite <- map_app; reflexivity|rewrite L; reflexivity|exact Z0].
      intros x Hx. apply in_map_iff in Hx. destruct Hx as (k & <- & Hk). apply in_seq in Hk. assert (Q : (32768 <= nb_ideal k)%Z) by (do 9 (destruct k as [|k]; [vm_compute; discriminate|]); lia). apply IZR_le in Q.
      assert (32768 / 1048576 * 409 <= IZR (nb_ideal k) / 1048576 * t) by (apply Rmult_le_compat; lra). lra.
  - (* all even *)
    destruct (cut_fives _ _ _ FE Cut) as [F5 N5]. rewrite values_len in N5.
    assert (O0 : nth 0 os 0%N = (n / 5)%N).
    { rewrite (T O) by (rewrite L; lia). rewrite L. replace (filter _ segs) with segs; [rewrite <- N5, <- (N2Nat.id (n / 5)); f_equal; symmetry; apply N2Nat.inj_div|].
      symmetry. clear - F5. induction F5 as [|s segs H _ IH]; [reflexivity|]. cbn [filter]. rewrite H, IH. reflexivity. }
    eapply Rle_trans; [|apply (chi2_term 5 os (div_expected n) 0); [lra|rewrite L; reflexivity|rewrite L; lia|]].
    + rewrite O0. change (nth 0 (div_expected n) 0) with (IZR (nb_ideal 0) / 1048576 * t). replace (nb_ideal 0) with 32768%Z by reflexivity.
      assert (D : 2 * t <= IZR (Z.of_N (n / 5))).
      { unfold t. rewrite <- (mult_IZR 2). apply IZR_le. change 2%Z with (Z.of_N 2). rewrite <- N2Z.inj_mul. apply N2Z.inj_le. apply N.div_le_lower_bound; [lia|]. pose proof (N.mul_div_le n 10 ltac:(lia)). lia. }
      set (o := IZR (Z.of_N (n / 5))) in *. set (e := 32768 / 1048576 * t) in *. assert (He : 12 <= e <= t) by (unfold e; lra). clearbody e.
      apply (Rmult_le_reg_r e); [lra|]. replace ((o - e) ^ 2 / e * e) with ((o - e) ^ 2) by (field; lra).
      apply Rle_trans with (t * e); [apply Rmult_le_compat_r; lra|]. apply Rle_trans with (t ^ 2); [rewrite <- Rsqr_pow2; apply Rmult_le_compat_l; lra|]. apply pow_incr. lra.
    + change (nth 0 (div_expected n) 0) with (IZR (nb_ideal 0) / 1048576 * t). replace (nb_ideal 0) with 32768%Z by reflexivity. lra.
Qed.
