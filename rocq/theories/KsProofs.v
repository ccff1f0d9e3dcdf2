(* The Kolmogorov-Smirnov distance: exact supremum over the reals and the error of the double loop. *)
From Coq Require Import Reals Lra Permutation Sorted.
From Verif Require Import Base FloatModel FloatLemmas ResultModel ResultSpec AnalysisProofs.
Open Scope R_scope.

Definition RN (n : nat) : R := INR n.

(* the exact loop *)
Definition ksR_step (n : nat) (m : R) (id : nat * R) : R :=
  Rmax (Rmax (Rabs (INR (fst id) / INR n - snd id)) (Rabs (INR (fst id + 1) / INR n - snd id))) m.
Definition ksR_loop (n k : nat) (l : list R) (m : R) : R := fold_left (ksR_step n) (combine (seq k (length l)) l) m.

Lemma ksR_cons n k d l m : ksR_loop n k (d :: l) m = ksR_loop n (S k) l (ksR_step n m (k, d)).
Proof. reflexivity. Qed.
Definition term0 n k d := Rabs (INR k / INR n - d).
Lemma ksR_ge n l : forall k m, m <= ksR_loop n k l m /\
  forall i d, nth_error l i = Some d -> term0 n (k + i) d <= ksR_loop n k l m /\ term0 n (k + i + 1) d <= ksR_loop n k l m.
Proof.
  induction l as [|d l IH]; intros k m; [split; [apply Rle_refl|intros [|i] d H; discriminate]|].
  rewrite ksR_cons. destruct (IH (S k) (ksR_step n m (k, d))) as [A B]. unfold ksR_step in A at 1. cbn [fst snd] in A.
  set (E := ksR_loop n (S k) l (ksR_step n m (k, d))) in *. clearbody E.
  pose proof (Rmax_l (Rabs (INR k / INR n - d)) (Rabs (INR (k + 1) / INR n - d))) as A1.
  pose proof (Rmax_r (Rabs (INR k / INR n - d)) (Rabs (INR (k + 1) / INR n - d))) as A2.
  set (X := Rmax (Rabs (INR k / INR n - d)) (Rabs (INR (k + 1) / INR n - d))) in *. pose proof (Rmax_l X m) as A3. pose proof (Rmax_r X m) as A4.
  split; [lra|]. intros [|i] d' H.
  - cbn in H. injection H as <-. unfold term0. rewrite Nat.add_0_r. split; lra.
  - cbn in H. destruct (B i d' H) as [B1 B2]. replace (k + S i)%nat with (S k + i)%nat by lia. split; assumption.
Qed.
Lemma ksR_attained n l : forall k m, ksR_loop n k l m = m \/
  exists i d, nth_error l i = Some d /\ (ksR_loop n k l m = term0 n (k + i) d \/ ksR_loop n k l m = term0 n (k + i + 1) d).
Proof.
  induction l as [|d l IH]; intros k m; [left; reflexivity|]. rewrite ksR_cons.
  destruct (IH (S k) (ksR_step n m (k, d))) as [E|(i & d' & Hi & E)].
  - rewrite E. unfold ksR_step. cbn [fst snd].
    unfold Rmax at 1 3 5. destruct (Rle_dec (Rmax _ _) m); [left; reflexivity|right].
    exists 0%nat, d. split; [reflexivity|]. unfold Rmax, term0. rewrite Nat.add_0_r. destruct (Rle_dec _ _); tauto.
  - right. exists (S i), d'. split; [exact Hi|]. replace (k + S i)%nat with (S k + i)%nat by lia. exact E.
Qed.

(* counting in a sorted list *)
Definition cnt (l : list R) (x : R) : nat := length (filter (fun d => if Rle_dec d x then true else false) l).
Lemma cnt_sorted l x : StronglySorted Rle l -> forall i d, nth_error l i = Some d -> (d <= x <-> (i < cnt l x)%nat).
Proof.
  unfold cnt. induction l as [|a l IH]; intros HS i d H; [destruct i; discriminate|].
  apply StronglySorted_inv in HS. destruct HS as [HS HF]. cbn [filter].
  destruct (Rle_dec a x) as [Ha|Ha].
  - cbn [length]. destruct i as [|i]; cbn in H; [injection H as <-; split; [lia|auto]|].
    rewrite (IH HS i d H). lia.
  - assert (E : filter (fun d0 => if Rle_dec d0 x then true else false) l = []).
    { clear - HF Ha. induction HF as [|b l Hb HF IH]; [reflexivity|]. cbn. destruct (Rle_dec b x); [lra|exact IH]. }
    rewrite E. cbn [length]. split; [|lia]. intros Hd. exfalso. apply Ha.
    destruct i as [|i]; cbn in H; [injection H as <-; exact Hd|].
    rewrite Forall_forall in HF. apply nth_error_In, HF in H. lra.
Qed.
Lemma cnt_le l x : (cnt l x <= length l)%nat.
Proof. unfold cnt. induction l as [|a l IH]; cbn; [lia|]. destruct (Rle_dec a x); cbn; lia. Qed.

Lemma unif_le x : uniform_cdf x <= 1.
Proof. unfold uniform_cdf. apply Rmax_lub; [lra|apply Rmin_r]. Qed.
Lemma unif_ge x : 0 <= uniform_cdf x.
Proof. apply Rmax_l. Qed.
Lemma unif_id x : 0 <= x <= 1 -> uniform_cdf x = x.
Proof. intros H. unfold uniform_cdf. rewrite Rmin_left by lra. apply Rmax_right. lra. Qed.
Lemma unif_mono x y : x <= y -> uniform_cdf x <= uniform_cdf y.
Proof. intros H. unfold uniform_cdf. apply Rmax_lub; [apply Rmax_l|]. eapply Rle_trans; [|apply Rmax_r]. apply Rle_min_compat_r. exact H. Qed.

Lemma div_le a b n : 0 < n -> a <= b -> a / n <= b / n.
Proof. intros Hn H. unfold Rdiv. apply Rmult_le_compat_r; [apply Rlt_le, Rinv_0_lt_compat, Hn|exact H]. Qed.

Lemma sorted_sup l : StronglySorted Rle l -> Forall (fun d => 0 <= d <= 1) l -> (1 <= length l)%nat ->
  sup_distance l (ksR_loop (length l) 0 l 0).
Proof.
  intros HS HF Hn. set (n := length l) in *. assert (Pn : 0 < INR n) by (apply lt_0_INR; lia).
  destruct (ksR_ge n l 0 0) as [G0 G]. set (E := ksR_loop n 0 l 0) in *. rewrite Forall_forall in HF.
  assert (Ec : forall x, ecdf l x = INR (cnt l x) / INR n) by reflexivity. split.
  - (* upper bound *) intros y [x ->]. rewrite Ec. pose proof (cnt_le l x) as Hc. fold n in Hc.
    pose proof (cnt_sorted l x HS) as Hcs. set (c := cnt l x) in *. clearbody c.
    pose proof (unif_le x) as U1. pose proof (unif_ge x) as U0.
    apply Rabs_le. split.
    + (* U - c/n <= E *)
      destruct (Nat.eq_dec c n) as [->|Hne].
      { replace (INR n / INR n) with 1 by (field; lra). lra. }
      destruct (nth_error l c) as [d|] eqn:Ed; [|apply nth_error_None in Ed; fold n in Ed; lia].
      assert (Hd : x < d). { apply Rnot_le_lt. intros Hle. apply (Hcs c d Ed) in Hle. lia. }
      destruct (G c d Ed) as [T _]. unfold term0 in T. rewrite Nat.add_0_l in T. apply Rabs_le_inv in T.
      assert (Hu : uniform_cdf x <= d).
      { rewrite <- (unif_id d) by (apply HF; eapply nth_error_In, Ed). apply unif_mono. lra. }
      lra.
    + (* c/n - U <= E *)
      destruct c as [|c]; [replace (INR 0 / INR n) with 0 by (cbn; field; lra); lra|].
      destruct (nth_error l c) as [d|] eqn:Ed; [|apply nth_error_None in Ed; fold n in Ed; lia].
      assert (Hd : d <= x) by (apply (Hcs c d Ed); lia).
      destruct (G c d Ed) as [_ T]. unfold term0 in T. rewrite Nat.add_0_l in T. apply Rabs_le_inv in T.
      assert (Hu : d <= uniform_cdf x).
      { rewrite <- (unif_id d) by (apply HF; eapply nth_error_In, Ed). apply unif_mono. lra. }
      replace (c + 1)%nat with (S c) in T by lia. lra.
  - (* least *) intros B HB.
    assert (HB' : forall x, Rabs (INR (cnt l x) / INR n - uniform_cdf x) <= B) by (intro x; apply HB; exists x; rewrite Ec; reflexivity).
    assert (B0 : 0 <= B) by (eapply Rle_trans; [apply Rabs_pos|apply (HB' 0)]).
    assert (T1 : forall i d, nth_error l i = Some d -> INR (i + 1) / INR n - d <= B).
    { intros i d Hd. specialize (HB' d). rewrite unif_id in HB' by (apply HF; eapply nth_error_In, Hd).
      assert (Hi : (i < cnt l d)%nat) by (apply (cnt_sorted l d HS i d Hd); lra).
      apply Rabs_le_inv in HB'. assert (INR (i + 1) / INR n <= INR (cnt l d) / INR n); [|lra].
      apply div_le; [exact Pn|]. apply le_INR. lia. }
    assert (T2 : forall i d, nth_error l i = Some d -> d - INR i / INR n <= B).
    { intros i d Hd. assert (Hd01 : 0 <= d <= 1) by (apply HF; eapply nth_error_In, Hd).
      assert (I0 : 0 <= INR i / INR n) by (apply Rmult_le_pos; [apply pos_INR|apply Rlt_le, Rinv_0_lt_compat, Pn]).
      apply Rnot_lt_le. intros Hlt.
      (* pick x < d, x >= 0 with x - i/n > B *)
      set (x := (Rmax 0 (B + INR i / INR n) + d) / 2).
      assert (Hm : Rmax 0 (B + INR i / INR n) < d) by (apply Rmax_lub_lt; lra).
      pose proof (Rmax_l 0 (B + INR i / INR n)) as M1. pose proof (Rmax_r 0 (B + INR i / INR n)) as M2.
      assert (Hx : 0 <= x < d) by (unfold x; lra). assert (Hx2 : B + INR i / INR n < x) by (unfold x; lra).
      specialize (HB' x). rewrite unif_id in HB' by lra.
      assert (Hc : (cnt l x <= i)%nat).
      { apply Nat.nlt_ge. intros Hc. apply (cnt_sorted l x HS i d Hd) in Hc. lra. }
      assert (INR (cnt l x) / INR n <= INR i / INR n) by (apply div_le; [exact Pn|apply le_INR, Hc]).
      apply Rabs_le_inv in HB'. lra. }
    destruct (ksR_attained n l 0 0) as [Ea|(i & d & Hi & Ea)]; fold E in Ea; [rewrite Ea; exact B0|].
    pose proof (T1 i d Hi) as X1. pose proof (T2 i d Hi) as X2.
    assert (INR i / INR n <= INR (i + 1) / INR n) by (apply div_le; [exact Pn|apply le_INR; lia]).
    rewrite Nat.add_0_l in Ea. unfold term0 in Ea. destruct Ea as [->| ->]; apply Rabs_le; lra.
Qed.

Lemma filter_perm {B} (f : B -> bool) l l' : Permutation l l' -> length (filter f l) = length (filter f l').
Proof.
  induction 1; cbn; auto; [destruct (f x); cbn; auto| |congruence]. destruct (f x), (f y); cbn; auto.
Qed.
Lemma sup_distance_perm l l' D : Permutation l l' -> sup_distance l D -> sup_distance l' D.
Proof.
  intros HP. unfold sup_distance. assert (E : forall x, ecdf l x = ecdf l' x).
  { intro x. unfold ecdf. rewrite (filter_perm _ _ _ HP), (Permutation_length HP). reflexivity. }
  intros [H1 H2]. split.
  - intros y [x ->]. apply H1. exists x. rewrite E. reflexivity.
  - intros b Hb. apply H2. intros y [x ->]. apply Hb. exists x. rewrite E. reflexivity.
Qed.

(* ---------- rounding error ---------- *)
Definition u54 : R := bpow radix2 (-54).
Lemma rnd_err a : Rabs a <= 1 -> Rabs (rnd a - a) <= u54.
Proof.
  intros Ha. destruct (Req_dec (Rabs a) 1) as [E|Hne].
  - assert (F : F64 a).
    { unfold Rabs in E. destruct (Rcase_abs a); [replace a with (-(1)) by lra; apply (F64_opp 1 F64_1)|rewrite E; apply F64_1]. }
    rewrite (rnd_id a F). replace (a - a) with 0 by ring. rewrite Rabs_R0. apply bpow_ge_0.
  - assert (Hlt : Rabs a < 1) by lra. destruct (Req_dec a 0) as [->|Hz].
    { rewrite (rnd_id 0 F64_0). replace (0 - 0) with 0 by ring. rewrite Rabs_R0. apply bpow_ge_0. }
    eapply Rle_trans; [apply error_le_half_ulp; typeclasses eauto|].
    rewrite ulp_neq_0 by exact Hz. unfold u54. change (-54)%Z with (-53 - 1)%Z.
    assert (Hc : (cexp radix2 (SpecFloat.fexp 53 1024) a <= -53)%Z).
    { unfold cexp, SpecFloat.fexp, SpecFloat.emin. assert (mag radix2 a <= 0)%Z; [|lia].
      apply mag_le_bpow; [exact Hz|]. exact Hlt. }
    apply (bpow_le radix2) in Hc. unfold Z.sub. rewrite bpow_plus. change (bpow radix2 (-(1))) with (/ 2). lra.
Qed.

Lemma frac_err n i : (1 <= n <= 2 ^ 53)%N -> (i <= n)%N ->
  Rabs (dval (frac n i) - IZR (Z.of_N i) / IZR (Z.of_N n)) <= u54.
Proof.
  intros [H1 H2] Hi. assert (H64 : (1 <= n < 2 ^ 64)%N) by (split; [exact H1|eapply N.le_lt_trans; [exact H2|reflexivity]]).
  destruct (frac_ok n i H64 Hi) as [_ V]. rewrite V.
  rewrite (rnd_id (IZR (Z.of_N i))), (rnd_id (IZR (Z.of_N n))).
  - apply rnd_err. apply Rabs_le.
    assert (0 < IZR (Z.of_N n)) by (apply (IZR_lt 0); lia). assert (0 <= IZR (Z.of_N i)) by (apply (IZR_le 0); lia).
    assert (IZR (Z.of_N i) <= IZR (Z.of_N n)) by (apply IZR_le; lia).
    assert (0 <= IZR (Z.of_N i) / IZR (Z.of_N n) <= 1); [|lra].
    split; [apply Rmult_le_pos; [assumption|apply Rlt_le, Rinv_0_lt_compat; assumption]|].
    apply (Rmult_le_reg_r (IZR (Z.of_N n))); [assumption|]. unfold Rdiv. rewrite Rmult_assoc, Rinv_l by lra. lra.
  - apply F64_Z. rewrite Z.abs_eq by apply N2Z.is_nonneg. apply (proj1 (N2Z.inj_le n (2 ^ 53))), H2.
  - apply F64_Z. rewrite Z.abs_eq by apply N2Z.is_nonneg. apply (proj1 (N2Z.inj_le i (2 ^ 53))). eapply N.le_trans; eassumption.
Qed.

Lemma Rmax_lip a b c d e : Rabs (a - c) <= e -> Rabs (b - d) <= e -> Rabs (Rmax a b - Rmax c d) <= e.
Proof.
  intros H1 H2. apply Rabs_le_inv in H1, H2. apply Rabs_le. unfold Rmax. destruct (Rle_dec a b), (Rle_dec c d); lra.
Qed.
Lemma Rabs_lip a c e : Rabs (a - c) <= e -> Rabs (Rabs a - Rabs c) <= e.
Proof. intros H. eapply Rle_trans; [apply Rabs_triang_inv2|exact H]. Qed.

Lemma term_err n i d : (1 <= n <= 2 ^ 53)%N -> (i <= n)%N -> valid01 d ->
  Rabs (dval (dabs (dsub (frac n i) d)) - Rabs (IZR (Z.of_N i) / IZR (Z.of_N n) - dval d)) <= 2 * u54.
Proof.
  intros Hn Hi Hd. assert (H64 : (1 <= n < 2 ^ 64)%N) by (split; [apply Hn|eapply N.le_lt_trans; [apply Hn|reflexivity]]).
  destruct (frac_ok n i H64 Hi) as [Vf _]. pose proof (frac_err n i Hn Hi) as E1.
  destruct (dist_ok (frac n i) d Vf Hd) as [_ ->]. apply Rabs_lip.
  assert (E2 : Rabs (rnd (dval (frac n i) - dval d) - (dval (frac n i) - dval d)) <= u54).
  { apply rnd_err. destruct Vf as [_ Vf], Hd as [_ Hd]. apply Rabs_le. lra. }
  apply Rabs_le_inv in E1, E2. apply Rabs_le. lra.
Qed.

Lemma INR_N n : INR n = IZR (Z.of_N (N.of_nat n)).
Proof. rewrite INR_IZR_INZ, nat_N_Z. reflexivity. Qed.

Lemma loop_err n l : forall k m mR, (1 <= n)%nat -> (N.of_nat n <= 2 ^ 53)%N -> (k + length l <= n)%nat -> Forall valid01 l -> valid01 m ->
  Rabs (dval m - mR) <= 2 * u54 ->
  Rabs (dval (fold_left (ks_step (double_of_N (N.of_nat n))) (combine (seq k (length l)) l) m) - ksR_loop n k (map dval l) mR) <= 2 * u54.
Proof.
  induction l as [|d l IH]; intros k m mR H1 H2 Hk HF Hm He; [exact He|].
  cbn [length seq combine fold_left map]. rewrite ksR_cons. cbn [length] in Hk.
  pose proof (Forall_inv HF) as Hd. apply Forall_inv_tail in HF.
  assert (Hn : (1 <= N.of_nat n <= 2 ^ 53)%N) by (split; [lia|exact H2]).
  assert (H64 : (1 <= N.of_nat n < 2 ^ 64)%N) by (split; [lia|eapply N.le_lt_trans; [exact H2|reflexivity]]).
  pose proof (proj1 (frac_ok (N.of_nat n) (N.of_nat k) H64 ltac:(lia))) as V0.
  pose proof (proj1 (frac_ok (N.of_nat n) (N.of_nat k + 1) H64 ltac:(lia))) as V1.
  pose proof (proj1 (dist_ok _ d V0 Hd)) as D0. pose proof (proj1 (dist_ok _ d V1 Hd)) as D1.
  destruct (dmax01 _ _ D0 D1) as [DM DMv]. destruct (dmax01 _ _ DM Hm) as [DN DNv].
  apply IH; [exact H1|exact H2|lia|exact HF| |].
  - rewrite ks_step_frac. exact DN.
  - rewrite ks_step_frac, DNv, DMv. unfold ksR_step. cbn [fst snd].
    apply Rmax_lip; [|exact He]. apply Rmax_lip.
    + rewrite !INR_N. apply term_err; [exact Hn|lia|exact Hd].
    + rewrite !INR_N. replace (N.of_nat (k + 1)) with (N.of_nat k + 1)%N by lia. apply term_err; [exact Hn|lia|exact Hd].
Qed.

Lemma ks_correct sort l : sorts finite_double dlt sort -> Forall valid01 l -> (1 <= length l)%nat -> (N.of_nat (length l) <= 2 ^ 53)%N ->
  exists D, sup_distance (map dval l) D /\ Rabs (dval (ks_distance sort l) - D) <= bpow radix2 (-53).
Proof.
  intros Hs Hv H1 H2. assert (Hf : Forall fin l) by (eapply Forall_impl; [|exact Hv]; apply valid01_fin).
  destruct (sort_vals sort l Hs Hf) as (S1 & P1 & _). pose proof (Permutation_length P1) as L1.
  assert (Hv' : Forall valid01 (sort l)) by (eapply Permutation_Forall; eassumption).
  exists (ksR_loop (length (sort l)) 0 (map dval (sort l)) 0). split.
  - apply (sup_distance_perm (map dval (sort l))); [apply Permutation_map, Permutation_sym, P1|].
    rewrite <- (map_length dval (sort l)). apply sorted_sup; [exact S1| |rewrite map_length, <- L1; exact H1].
    apply Forall_map. eapply Forall_impl; [|exact Hv']. intros x [_ Hx]. exact Hx.
  - replace (bpow radix2 (-53)) with (2 * u54) by (unfold u54; change (-53)%Z with (1 + -54)%Z; rewrite bpow_plus; reflexivity).
    unfold ks_distance. apply loop_err; [rewrite <- L1; exact H1|rewrite <- L1; exact H2|lia|exact Hv'|apply valid01_d0|].
    change (dval d0) with 0. replace (0 - 0) with 0 by ring. rewrite Rabs_R0.
    apply Rmult_le_pos; [lra|apply bpow_ge_0].
Qed.
