(* Kendall's test: the results depend on the order of the values only. *)
From Coq Require Import String Reals Lra Lia Permutation.
From Flocq Require Import Core BinarySingleNaN.
From Verif Require Import Base FloatModel FloatLemmas ResultModel ResultSpec CollectModel StatsModel RescaleProofs StatsProofs CouponFloatProofs StatFormulas EvaluateModel CommandModel CorrModel CorrSpec CorrCount CorrKendall ErrorSpec SetupProofs.
Open Scope R_scope.

Section K.
Variable erfc : double -> double.
Hypothesis HE : erfc_bounded erfc.
Variables (xs ys : list double).
Hypotheses (Ux : Forall usual xs) (Uy : Forall usual ys) (L : length xs = length ys) (B : (N.of_nat (length xs) <= 2 ^ 26)%N).
Let P := points xs ys.
Let nx := N.of_nat (count_pairs (differ fst) P).
Let ny := N.of_nat (count_pairs (differ snd) P).
Let is := (Z.of_nat (count_pairs concordant P) - Z.of_nat (count_pairs discordant P))%Z.
Lemma conc_differ : forall p q : R * R, (concordant p q = true -> differ fst p q = true /\ differ snd p q = true) /\ (discordant p q = true -> differ fst p q = true /\ differ snd p q = true).
Proof.
  intros p q. unfold concordant, discordant, differ. split; intros H.
  - destruct (Rlt_bool_spec 0 ((fst p - fst q) * (snd p - snd q))) as [K|]; [|discriminate]. split; rewrite Req_bool_false; try reflexivity; intros E; rewrite E in K; lra.
  - destruct (Rlt_bool_spec ((fst p - fst q) * (snd p - snd q)) 0) as [K|]; [|discriminate]. split; rewrite Req_bool_false; try reflexivity; intros E; rewrite E in K; lra.
Qed.
Lemma conc_disc p q : concordant p q = true -> discordant p q = true -> False.
Proof.
  unfold concordant, discordant. destruct (Rlt_bool_spec 0 ((fst p - fst q) * (snd p - snd q))); [|discriminate].
  destruct (Rlt_bool_spec ((fst p - fst q) * (snd p - snd q)) 0); [|discriminate]. lra.
Qed.
Lemma is_le : (Z.abs is <= Z.of_N nx)%Z /\ (Z.abs is <= Z.of_N ny)%Z.
Proof.
  unfold is, nx, ny.
  pose proof (count_pairs_sum concordant discordant (differ fst) P (fun a b H => proj1 (proj1 (conc_differ a b) H)) (fun a b H => proj1 (proj2 (conc_differ a b) H)) conc_disc).
  pose proof (count_pairs_sum concordant discordant (differ snd) P (fun a b H => proj2 (proj1 (conc_differ a b) H)) (fun a b H => proj2 (proj2 (conc_differ a b) H)) conc_disc). lia.
Qed.
Lemma cnt_le f : (N.of_nat (count_pairs f P) <= 2 ^ 52)%N.
Proof.
  pose proof (count_pairs_bound f P) as H. unfold P in *. rewrite points_len in H by exact L. change (2 ^ 26)%N with 67108864%N in B. change (2 ^ 52)%N with 4503599627370496%N. nia.
Qed.
Lemma P_len : length P = length xs. Proof. apply points_len, L. Qed.

Lemma kendall_ok : (2 <= length xs)%nat -> match kendall_correlation_stats erfc xs ys with
  | UB => False
  | Ok None => count_pairs (differ fst) P = 0%nat \/ count_pairs (differ snd) P = 0%nat
  | Ok (Some s) => count_pairs (differ fst) P <> 0%nat /\ count_pairs (differ snd) P <> 0%nat /\ st_type s = Z_score /\
      fin (st_value s) /\ within 48 (dval (st_value s)) (kendall_z P) /\ Rabs (dval (st_value s)) <= bpow radix2 15 /\
      st_p s = normal_two_tailed_cdf erfc (st_value s) /\ st_df s = double_of_N (N.of_nat (length xs))
  end.
Proof.
  intros N2. rewrite kendall_counts by assumption. unfold counts, kendall_finish. fold P nx ny is.
  destruct (N.eqb_spec nx 0) as [E|E]; [left; unfold nx in E; lia|]. destruct (N.eqb_spec ny 0) as [E'|E']; [right; unfold ny in E'; lia|]. cbn [orb].
  split; [unfold nx in E; lia|]. split; [unfold ny in E'; lia|]. split; [reflexivity|]. cbn [st_value st_p st_df].
  assert (H1 : (1 <= nx <= 2 ^ 52)%N) by (split; [lia|apply cnt_le]). assert (H2 : (1 <= ny <= 2 ^ 52)%N) by (split; [lia|apply cnt_le]).
  destruct is_le as [I1 I2]. destruct (tau_ok nx ny is H1 H2 I1 I2) as (Ft & Bt & At & Gt).
  destruct (z_ok (length xs) N2 B (tau nx ny is) _ Ft Bt At Gt) as (Fz & Az & Bz).
  split; [exact Fz|]. split; [|split; [exact Bz|split; reflexivity]].
  unfold within. unfold approx, e48 in Az. 
  replace (kendall_z P) with (IZR is / den nx ny / sqrt (varR (length xs))); [exact Az|].
  unfold kendall_z, kendall_tau, varR. rewrite P_len, (den_val nx ny is H1 H2).
  assert (Ei : IZR is = INR (count_pairs concordant P) - INR (count_pairs discordant P)) by (unfold is; rewrite minus_IZR, <- !INR_IZR_INZ; reflexivity).
  assert (En : forall k, IZR (Z.of_N (N.of_nat k)) = INR k) by (intros k; rewrite INR_IZR_INZ; f_equal; lia).
  rewrite Ei. unfold nx, ny. rewrite !En. reflexivity.
Qed.
End K.
Lemma kendall_short erfc xs ys : (length xs < 2)%nat -> kendall_correlation_stats erfc xs ys = Ok None.
Proof. intros H. unfold kendall_correlation_stats. destruct (Nat.ltb_spec (length xs) 2); [reflexivity|lia]. Qed.

(* ---- only the order matters ---- *)
Lemma nth_points xs ys i : length xs = length ys -> (i < length xs)%nat -> nth i (points xs ys) (0, 0) = (dval (nth i xs d0), dval (nth i ys d0)).
Proof.
  intros L Hi. unfold points. rewrite combine_nth by (rewrite !map_length; exact L). destruct d0_val as [V _]. rewrite <- V, !map_nth. reflexivity.
Qed.
Ltac sgn := repeat match goal with |- context [Rlt_bool ?a ?b] => destruct (Rlt_bool_spec a b) | |- context [Req_bool ?a ?b] => destruct (Req_bool_spec a b) end.
Definition sg (a b : R) : Z := if Rlt_bool a b then (-1)%Z else if Rlt_bool b a then 1%Z else 0%Z.
Lemma sg_cases a b : (a < b /\ sg a b = (-1)%Z) \/ (a = b /\ sg a b = 0%Z) \/ (b < a /\ sg a b = 1%Z).
Proof. unfold sg. destruct (Rlt_bool_spec a b); [left; auto|]. destruct (Rlt_bool_spec b a); [right; right; auto|right; left; split; [lra|reflexivity]]. Qed.
Lemma concordant_sg p q : concordant p q = (0 <? sg (fst p) (fst q) * sg (snd p) (snd q))%Z.
Proof.
  unfold concordant. destruct (sg_cases (fst p) (fst q)) as [[H ->]|[[H ->]|[H ->]]], (sg_cases (snd p) (snd q)) as [[K ->]|[[K ->]|[K ->]]]; cbn;
    first [apply Rlt_bool_true; nra | apply Rlt_bool_false; nra].
Qed.
Lemma discordant_sg p q : discordant p q = (sg (fst p) (fst q) * sg (snd p) (snd q) <? 0)%Z.
Proof.
  unfold discordant. destruct (sg_cases (fst p) (fst q)) as [[H ->]|[[H ->]|[H ->]]], (sg_cases (snd p) (snd q)) as [[K ->]|[[K ->]|[K ->]]]; cbn;
    first [apply Rlt_bool_true; nra | apply Rlt_bool_false; nra].
Qed.
Lemma differ_sg g p q : differ g p q = negb (sg (g p) (g q) =? 0)%Z.
Proof. unfold differ. destruct (sg_cases (g p) (g q)) as [[H ->]|[[H ->]|[H ->]]]; cbn; [rewrite Req_bool_false by lra|rewrite Req_bool_true by lra|rewrite Req_bool_false by lra]; reflexivity. Qed.
Lemma sg_same a b a' b' : (a < b <-> a' < b') -> (b < a <-> b' < a') -> sg a b = sg a' b'.
Proof. intros H K. destruct (sg_cases a b) as [[I ->]|[[I ->]|[I ->]]], (sg_cases a' b') as [[J ->]|[[J ->]|[J ->]]]; try reflexivity; exfalso; destruct H as [H1 H2], K as [K1 K2]; lra || (try specialize (H1 I); try specialize (H2 J); try specialize (K1 I); try specialize (K2 J); lra). Qed.
Lemma sg_rev a b : sg b a = (- sg a b)%Z.
Proof. destruct (sg_cases a b) as [[I ->]|[[I ->]|[I ->]]], (sg_cases b a) as [[J ->]|[[J ->]|[J ->]]]; try reflexivity; lra. Qed.
Lemma order_sg xs xs' i j : same_order xs xs' -> (i < length xs)%nat -> (j < length xs)%nat -> sg (dval (nth i xs d0)) (dval (nth j xs d0)) = sg (dval (nth i xs' d0)) (dval (nth j xs' d0)).
Proof. intros [_ H] Hi Hj. apply sg_same; apply H; assumption. Qed.
Lemma rev_sg xs xs' i j : reversed_order xs xs' -> (i < length xs)%nat -> (j < length xs)%nat -> sg (dval (nth i xs d0)) (dval (nth j xs d0)) = (- sg (dval (nth i xs' d0)) (dval (nth j xs' d0)))%Z.
Proof. intros [_ H] Hi Hj. rewrite <- sg_rev. apply sg_same; apply H; assumption. Qed.
Lemma counts_order xs ys xs' ys' : length xs = length ys -> same_order xs xs' -> same_order ys ys' -> counts (points xs ys) = counts (points xs' ys').
Proof.
  intros L SX SY. assert (LX : length xs = length xs') by apply SX. assert (LY : length ys = length ys') by apply SY. unfold counts.
  assert (C : forall f : R * R -> R * R -> bool, (forall p q p' q', sg (fst p) (fst q) = sg (fst p') (fst q') -> sg (snd p) (snd q) = sg (snd p') (snd q') -> f p q = f p' q') -> count_pairs f (points xs ys) = count_pairs f (points xs' ys')).
  { intros f Hf. apply (count_pairs_ext f f (0, 0) (0, 0)); [rewrite !points_len by congruence; exact LX|]. intros i j Hij. rewrite points_len in Hij by exact L.
    rewrite !nth_points by lia. apply Hf; cbn [fst snd]; [apply order_sg; [exact SX|lia|lia]|apply order_sg; [exact SY|lia|lia]]. }
  rewrite (C (differ fst)), (C (differ snd)), (C concordant), (C discordant); [reflexivity| | | |].
  - intros p q p' q' H K. rewrite !discordant_sg, H, K. reflexivity.
  - intros p q p' q' H K. rewrite !concordant_sg, H, K. reflexivity.
  - intros p q p' q' H K. rewrite !differ_sg, K. reflexivity.
  - intros p q p' q' H K. rewrite !differ_sg, H. reflexivity.
Qed.
Lemma counts_swap xs ys : length xs = length ys -> let '(a, b, c) := counts (points xs ys) in counts (points ys xs) = (b, a, c).
Proof.
  intros L. unfold counts.
  assert (C : forall f g : R * R -> R * R -> bool, (forall a b c d, f (a, b) (c, d) = g (b, a) (d, c)) -> count_pairs f (points ys xs) = count_pairs g (points xs ys)).
  { intros f g H. apply (count_pairs_ext f g (0, 0) (0, 0)); [rewrite !points_len by congruence; congruence|]. intros i j Hij. rewrite points_len in Hij by congruence. rewrite !nth_points by lia. apply H. }
  rewrite (C (differ fst) (differ snd)), (C (differ snd) (differ fst)), (C concordant concordant), (C discordant discordant); [reflexivity| | | |]; intros; try reflexivity.
  - rewrite !discordant_sg. cbn [fst snd]. rewrite Z.mul_comm. reflexivity.
  - rewrite !concordant_sg. cbn [fst snd]. rewrite Z.mul_comm. reflexivity.
Qed.
Lemma counts_reverse xs ys xs' : length xs = length ys -> reversed_order xs xs' -> let '(a, b, c) := counts (points xs ys) in counts (points xs' ys) = (a, b, (- c)%Z).
Proof.
  intros L SX. assert (LX : length xs = length xs') by apply SX. unfold counts.
  assert (C : forall f g : R * R -> R * R -> bool, (forall p q p' q', sg (fst p) (fst q) = (- sg (fst p') (fst q'))%Z -> snd p = snd p' -> snd q = snd q' -> f p' q' = g p q) -> count_pairs f (points xs' ys) = count_pairs g (points xs ys)).
  { intros f g H. apply (count_pairs_ext f g (0, 0) (0, 0)); [rewrite !points_len by congruence; congruence|]. intros i j Hij. rewrite points_len in Hij by congruence. rewrite !nth_points by (congruence || lia).
    apply H; try reflexivity. cbn [fst]. apply rev_sg; [exact SX|lia|lia]. }
  rewrite (C (differ fst) (differ fst)), (C (differ snd) (differ snd)), (C concordant discordant), (C discordant concordant); [f_equal; lia| | | |]; intros p q p' q' H K1 K2.
  - rewrite discordant_sg, concordant_sg, H, K1, K2. lia.
  - rewrite discordant_sg, concordant_sg, H, K1, K2. lia.
  - rewrite !differ_sg, K1, K2. reflexivity.
  - rewrite !differ_sg, H. f_equal. lia.
Qed.
Lemma counts_perm xs ys xs' ys' : Permutation (points xs ys) (points xs' ys') -> counts (points xs ys) = counts (points xs' ys').
Proof.
  intros H. unfold counts. assert (SD : forall g (p q : R * R), differ g p q = differ g q p). { intros g p q. rewrite !differ_sg, (sg_rev (g p)). f_equal. lia. }
  assert (SS : forall p q, concordant p q = concordant q p /\ discordant p q = discordant q p).
  { intros p q. rewrite !concordant_sg, !discordant_sg, (sg_rev (fst p)), (sg_rev (snd p)). split; lia. }
  rewrite (count_pairs_perm (differ fst) _ _ (SD fst) H), (count_pairs_perm (differ snd) _ _ (SD snd) H), (count_pairs_perm concordant _ _ (fun p q => proj1 (SS p q)) H), (count_pairs_perm discordant _ _ (fun p q => proj2 (SS p q)) H). reflexivity.
Qed.
Lemma kendall_eq erfc xs ys xs' ys' : Forall usual xs -> Forall usual ys -> Forall usual xs' -> Forall usual ys' -> length xs = length ys -> length xs' = length ys' -> length xs = length xs' ->
  (N.of_nat (length xs) <= 2 ^ 26)%N -> counts (points xs ys) = counts (points xs' ys') -> kendall_correlation_stats erfc xs ys = kendall_correlation_stats erfc xs' ys'.
Proof.
  intros Ux Uy Ux' Uy' L L' LL B E. destruct (Nat.lt_ge_cases (length xs) 2) as [H|H]; [rewrite !kendall_short by lia; reflexivity|].
  rewrite !kendall_counts by (assumption || lia || (rewrite <- LL; assumption)). rewrite E, LL. reflexivity.
Qed.

(* ---- reversal ---- *)
Definition clamp1 (r : R) : R := Rmax (-1) (Rmin 1 r).
Lemma adjust_val d : fin d -> Rabs (dval d) <= 1 + / 2 ^ 20 -> fin (adjust_correlation d) /\ dval (adjust_correlation d) = clamp1 (dval d).
Proof.
  intros F D. set (t := clamp1 (dval d)). apply Rabs_le_inv in D. assert (S20 : / 2 ^ 20 <= / 2) by (apply Rinv_le_contravar; [lra|simpl; lra]).
  assert (T : Rabs t <= 1). { unfold t, clamp1. apply Rabs_le. split; [apply Rmax_l|apply Rmax_lub; [lra|apply Rmin_l]]. }
  assert (A : approx (/ 2 ^ 20) (dval d) t).
  { unfold approx, t, clamp1. destruct (Rle_or_lt 1 (dval d)) as [C|C]; [rewrite Rmin_left, Rmax_right, Rabs_R1, Rabs_pos_eq by lra; lra|]. rewrite Rmin_right by lra.
    destruct (Rle_or_lt (-1) (dval d)) as [C'|C']; [rewrite Rmax_right, Rminus_diag_eq, Rabs_R0 by lra; apply Rmult_le_pos; [lra|apply Rabs_pos]|].
    rewrite Rmax_left by lra. rewrite (Rabs_left1 (-1)), Rabs_left1 by lra. lra. }
  assert (E0 : 0 <= / 2 ^ 20 <= / 2 ^ 20) by lra.
  destruct (adjust_ok d t _ F T E0 A) as (F' & _ & _ & _). split; [exact F'|].
  unfold t, clamp1, adjust_correlation. destruct d1_val as [V1 F1]. pose proof (dneg_fin _ F1) as Fm. pose proof (dneg_val d1) as Vm. rewrite V1 in Vm.
  assert (K1 : dle (dneg d1) d = true <-> -1 <= dval d) by (rewrite dle_iff by assumption; rewrite Vm; reflexivity).
  assert (K2 : dle d d1 = true <-> dval d <= 1) by (rewrite dle_iff by assumption; rewrite V1; reflexivity).
  assert (Bd : Rabs (dval d) <= 4) by (apply Rabs_le; lra). 
  destruct (Rle_or_lt (-1) (dval d)) as [C1|C1].
  - rewrite (proj2 K1 C1). cbn [andb]. destruct (Rle_or_lt (dval d) 1) as [C2|C2].
    + rewrite (proj2 K2 C2). rewrite Rmin_right, Rmax_right by lra. reflexivity.
    + destruct (dle d d1) eqn:K; [apply proj1 in K2; specialize (K2 eq_refl); lra|].
      rewrite is_near_far; [| assumption.. |rewrite Vm; apply Rabs_le; lra|rewrite Vm, Rabs_pos_eq; lra].
      rewrite is_near_val; [| assumption.. |rewrite V1; apply Rabs_le; lra|].
      2:{ rewrite V1, pow2_20. apply Rabs_le, rnd_between; [apply F64_opp, F64_bpow; lia|apply F64_bpow; lia|]. rewrite <- pow2_20. lra. }
      rewrite Rmin_left, Rmax_right by lra. exact V1.
  - destruct (dle (dneg d1) d) eqn:K; [apply proj1 in K1; specialize (K1 eq_refl); lra|]. cbn [andb].
    rewrite is_near_val; [| assumption.. |rewrite Vm; apply Rabs_le; lra|].
    2:{ rewrite Vm, pow2_20. apply Rabs_le, rnd_between; [apply F64_opp, F64_bpow; lia|apply F64_bpow; lia|]. rewrite <- pow2_20. lra. }
    rewrite Rmin_right, Rmax_left by lra. exact Vm.
Qed.
Lemma clamp1_opp r : clamp1 (- r) = - clamp1 r.
Proof.
  unfold clamp1. destruct (Rle_or_lt r (-1)); [rewrite (Rmin_left 1 (- r)), Rmax_right, (Rmin_right 1 r), (Rmax_left (-1) r) by lra; lra|].
  destruct (Rle_or_lt r 1); [rewrite (Rmin_right 1 (- r)), (Rmin_right 1 r), !Rmax_right by lra; lra|].
  rewrite (Rmin_right 1 (- r)), (Rmax_left (-1) (- r)), (Rmin_left 1 r), Rmax_right by lra. lra.
Qed.
Lemma two_tailed_abs erfc z z' : fin z -> fin z' -> Rabs (dval z) = Rabs (dval z') -> normal_two_tailed_cdf erfc z = normal_two_tailed_cdf erfc z'.
Proof. intros F F' E. unfold normal_two_tailed_cdf. rewrite (dabs_inj z z' F F' E). reflexivity. Qed.

Lemma finish_reverse erfc n n1 n2 is : (2 <= n)%nat -> (N.of_nat n <= 2 ^ 26)%N -> (n1 <= 2 ^ 52)%N -> (n2 <= 2 ^ 52)%N -> (Z.abs is <= Z.of_N n1)%Z -> (Z.abs is <= Z.of_N n2)%Z ->
  match kendall_finish erfc n (n1, n2, is), kendall_finish erfc n (n1, n2, (- is)%Z) with
  | None, None => True
  | Some s, Some s' => dval (st_value s') = - dval (st_value s) /\ fin (st_value s') /\ st_p s' = st_p s /\ st_df s' = st_df s
  | _, _ => False
  end.
Proof.
  intros Hn Hn' H1 H2 I1 I2. unfold kendall_finish. destruct (N.eqb_spec n1 0) as [|E1]; [exact I|]. destruct (N.eqb_spec n2 0) as [|E2]; [exact I|]. cbn [orb st_value st_p st_df].
  assert (G1 : (1 <= n1 <= 2 ^ 52)%N) by (split; [lia|exact H1]). assert (G2 : (1 <= n2 <= 2 ^ 52)%N) by (split; [lia|exact H2]).
  pose proof (tau_ok n1 n2 is G1 G2 I1 I2) as (Ft & Bt & At & Gt). pose proof (tau_ok n1 n2 (- is) G1 G2 ltac:(lia) ltac:(lia)) as (Ft' & Bt' & At' & Gt').
  pose proof (raw_tau_ok n1 n2 is G1 G2 I1 I2) as (Fr & Ar & _). pose proof (raw_tau_ok n1 n2 (- is) G1 G2 ltac:(lia) ltac:(lia)) as (Fr' & Ar' & _).
  destruct (den_ok n1 n2 is G1 G2) as (Fp & Ap & Bp). destruct (den_ge n1 n2 is G1 G2 I1 I2) as [Dg1 Dg2].
  assert (RB : forall r, Rabs (dval r) <= 1 + / 2 ^ 20 \/ ~ Rabs (dval r) <= 1 + / 2 ^ 20) by (intro; apply Classical_Prop.classic).
  assert (Z53 : (Z.abs is <= 2 ^ 53)%Z). { change (2 ^ 52)%N with 4503599627370496%N in *. change (2 ^ 53)%Z with 9007199254740992%Z. lia. }
  destruct (double_of_Z_ok is Z53) as [Vi Fi]. destruct (double_of_Z_ok (- is) ltac:(lia)) as [Vi' Fi'].
  set (p := dmul (dsqrt (double_of_N n1)) (dsqrt (double_of_N n2))) in *.
  assert (I : 0 < / dval p <= 1). { split; [apply Rinv_0_lt_compat; lra|]. rewrite <- Rinv_1. apply Rinv_le_contravar; lra. }
  assert (Bi : Rabs (IZR is / dval p) <= bpow radix2 53).
  { unfold Rdiv. rewrite Rabs_mult, (Rabs_pos_eq (/ _)) by lra. assert (Rabs (IZR is) <= bpow radix2 53) by (rewrite <- abs_IZR, <- IZR_pow2 by lia; apply IZR_le, Z53). pose proof (Rabs_pos (IZR is)). nra. }
  assert (RV : dval (raw_tau n1 n2 (- is)) = - dval (raw_tau n1 n2 is)).
  { unfold raw_tau. fold p. destruct (ddiv_ok (double_of_Z is) p Fi) as [V _]; [lra|rewrite Vi; apply small_bpow with 53%Z; [lia|exact Bi]|].
    destruct (ddiv_ok (double_of_Z (- is)) p Fi') as [V' _]; [lra|rewrite Vi'; apply small_bpow with 53%Z; [lia|]; rewrite opp_IZR; unfold Rdiv; rewrite Ropp_mult_distr_l_reverse, Rabs_Ropp; exact Bi|].
    rewrite V, V', Vi, Vi', opp_IZR. unfold Rdiv. rewrite Ropp_mult_distr_l_reverse. apply rnd_opp. }
  assert (RS : Rabs (dval (raw_tau n1 n2 is)) <= 1 + / 2 ^ 20).
  { unfold approx in Ar. assert (Q : Rabs (IZR is / den n1 n2) <= 1). { unfold Rdiv. rewrite Rabs_mult, (Rabs_pos_eq (/ den n1 n2)) by (apply Rlt_le, Rinv_0_lt_compat; lra). apply Rmult_le_reg_r with (den n1 n2); [lra|]. rewrite Rmult_assoc, Rinv_l by lra. lra. }
    apply Rabs_le_inv in Q as Q'. apply Rabs_le_inv in Ar. pose proof (Rabs_pos (IZR is / den n1 n2)). apply Rabs_le. rewrite u_val in Ar. lra. }
  destruct (adjust_val _ Fr RS) as [Fa Va]. destruct (adjust_val _ Fr') as [Fa' Va']; [rewrite RV, Rabs_Ropp; exact RS|].
  fold (tau n1 n2 is) in Fa, Va. fold (tau n1 n2 (- is)) in Fa', Va'. rewrite RV, clamp1_opp, <- Va in Va'.
  fold (raw_tau n1 n2 is). fold (raw_tau n1 n2 (- is)). fold (tau n1 n2 is). fold (tau n1 n2 (- is)). fold (var n).
  destruct (sd_ok n Hn Hn') as (Fs & _ & Bs). pose proof (bpow_gt_0 radix2 (-15)) as P15.
  destruct (z_ok n Hn Hn' _ _ Fa Bt At Gt) as (Fz & _ & Bz). destruct (z_ok n Hn Hn' _ _ Fa' Bt' At' Gt') as (Fz' & _ & _).
  assert (J : 0 < / dval (dsqrt (var n)) <= bpow radix2 15). { split; [apply Rinv_0_lt_compat; lra|]. change 15%Z with (- (-15))%Z. rewrite bpow_opp. apply Rinv_le_contravar; lra. }
  assert (Sm : Rabs (dval (tau n1 n2 is) / dval (dsqrt (var n))) <= bpow radix2 15). { unfold Rdiv. rewrite Rabs_mult, (Rabs_pos_eq (/ _)) by lra. pose proof (Rabs_pos (dval (tau n1 n2 is))). nra. }
  assert (ZV : dval (ddiv (tau n1 n2 (- is)) (dsqrt (var n))) = - dval (ddiv (tau n1 n2 is) (dsqrt (var n)))).
  { destruct (ddiv_ok (tau n1 n2 is) (dsqrt (var n)) Fa) as [V _]; [lra|apply small_bpow with 15%Z; [lia|exact Sm]|].
    assert (Q : dval (tau n1 n2 (- is)) / dval (dsqrt (var n)) = - (dval (tau n1 n2 is) / dval (dsqrt (var n)))) by (rewrite Va'; unfold Rdiv; ring).
    destruct (ddiv_ok (tau n1 n2 (- is)) (dsqrt (var n)) Fa') as [V' _]; [lra|rewrite Q; apply small_bpow with 15%Z; [lia|]; rewrite Rabs_Ropp; exact Sm|]. rewrite V, V', Q. apply rnd_opp. }
  split; [exact ZV|]. split; [exact Fz'|]. split; [|reflexivity]. apply two_tailed_abs; [exact Fz'|exact Fz|]. etransitivity; [exact (f_equal Rabs ZV)|apply Rabs_Ropp].
Qed.
