(* The binomial distribution: no NaN, growth in k. *)
From Coq Require Import Reals Lra Lia List.
From Flocq Require Import Core BinarySingleNaN.
From Verif Require Import Base FloatModel FloatLemmas ErrorSpec ResultModel ResultSpec CollectModel StatsModel StatsProofs CouponFloatProofs RescaleProofs LimitProofs TestsPerm DistModel DistSpec DistSeries CorrPearson CorrPearson2 OtherModel OtherSpec GProofs.
Import ListNotations.
Open Scope R_scope.

(* not NaN and not negative *)
Definition nonneg (x : double) : Prop := is_nan x = false /\ dle d0 x = true.
Lemma sign_pos' (x : double) : 0 < dval x -> Bsign x = false.
Proof.
  intros H. destruct x as [sx|sx| |sx mx ex Hx]; unfold dval in H; cbn in H; try lra. cbn. destruct sx; [|reflexivity]. exfalso.
  assert (F2R (Float radix2 (Z.neg mx) ex) < 0) by (apply F2R_lt_0; reflexivity). cbn in H0. unfold F2R in *. cbn in *. lra.
Qed.
Lemma fin_not_nan (x : double) : fin x -> is_nan x = false.
Proof. destruct x; intros F; try discriminate F; reflexivity. Qed.
Lemma nonneg_fin x : fin x -> 0 <= dval x -> nonneg x.
Proof. intros F H. split; [destruct x; cbn in F; try discriminate; reflexivity|]. apply dle_iff; [reflexivity|exact F|exact H]. Qed.
Lemma nonneg_cases x : nonneg x -> x = B754_infinity false \/ fin x /\ 0 <= dval x.
Proof.
  intros [N D]. destruct x as [s|s| |s m e H]; try discriminate N.
  - right. split; [reflexivity|]. change (dval (B754_zero s)) with 0. lra.
  - left. destruct s; [discriminate D|reflexivity].
  - right. split; [reflexivity|]. apply dle_iff in D; [exact D|reflexivity|reflexivity].
Qed.
Lemma dle_inf x : nonneg x -> dle x (B754_infinity false) = true.
Proof. intros H. destruct (nonneg_cases x H) as [->|[F P]]; [reflexivity|]. destruct x as [s|s| |s m e B]; try discriminate F; [destruct s; reflexivity|]. destruct s; reflexivity. Qed.
Lemma dle_refl x : nonneg x -> dle x x = true.
Proof. intros H. destruct (nonneg_cases x H) as [->|[F P]]; [reflexivity|]. apply dle_iff; [exact F|exact F|lra]. Qed.
Lemma dle_tr x y z : nonneg x -> nonneg y -> nonneg z -> dle x y = true -> dle y z = true -> dle x z = true.
Proof.
  intros X Y Z H1 H2. destruct (nonneg_cases z Z) as [->|[Fz Pz]]; [apply dle_inf, X|].
  destruct (nonneg_cases y Y) as [->|[Fy Py]]; [exfalso; destruct z as [s|s| |[] m e B]; try discriminate Fz; try (destruct s); discriminate H2|].
  destruct (nonneg_cases x X) as [->|[Fx Px]]; [exfalso; destruct y as [s|s| |[] m e B]; try discriminate Fy; try (destruct s); discriminate H1|].
  apply dle_iff in H1, H2; try assumption. apply dle_iff; [assumption|assumption|lra].
Qed.
Lemma nonneg_add x y : nonneg x -> nonneg y -> nonneg (dadd x y) /\ dle x (dadd x y) = true.
Proof.
  intros X Y. destruct (nonneg_cases x X) as [->|[Fx Px]].
  - destruct (nonneg_cases y Y) as [->|[Fy Py]]; [repeat split; reflexivity|]. destruct y as [s|s| |s m e B]; try discriminate Fy; repeat split; reflexivity.
  - destruct (nonneg_cases y Y) as [->|[Fy Py]].
    + assert (E : dadd x (B754_infinity false) = B754_infinity false) by (destruct x as [s|s| |s m e B]; try discriminate Fx; reflexivity). rewrite E. repeat split; try reflexivity. apply dle_inf, X.
    + pose proof (Bplus_correct 53 1024 _ _ mode_NE x y Fx Fy) as H. cbn [round_mode] in H. fold (dval x) (dval y) (rnd (dval x + dval y)) in H. fold (dadd x y) in H.
      destruct (Rlt_bool_spec (Rabs (rnd (dval x + dval y))) (bpow radix2 1024)) as [L|L].
      * destruct H as (V & F & _). fold (dval (dadd x y)) in V. assert (XY : dval x <= dval (dadd x y)) by (rewrite V, <- (rnd_id (dval x) (dval_format x)) at 1; apply rnd_mono; lra).
        split; [apply nonneg_fin; [exact F|lra]|]. apply dle_iff; [exact Fx|exact F|exact XY].
      * destruct H as (V & S). assert (P : 0 < dval x \/ 0 < dval y).
        { destruct (Rle_lt_or_eq_dec _ _ Px) as [A|A]; [left; exact A|]. destruct (Rle_lt_or_eq_dec _ _ Py) as [B|B]; [right; exact B|]. exfalso. rewrite <- A, <- B, Rplus_0_r, (rnd_id 0 F64_0), Rabs_R0 in L. pose proof (bpow_gt_0 radix2 1024). lra. }
        assert (SX : Bsign x = false).
        { destruct P as [P|P]; [|rewrite S]; [apply sign_pos' in P; exact P|apply sign_pos' in P; exact P]. }
        rewrite SX in V. assert (E : dadd x y = B754_infinity false) by (destruct (dadd x y) as [s|s| |s m e B]; cbn in V; try discriminate V; [inversion V; reflexivity]).
        rewrite E. repeat split; try reflexivity. apply dle_inf, X.
Qed.

Section Lib.
Variables (log exp erfc : double -> double).
Hypothesis G : good_dist log exp erfc.
Hypothesis X : exp_nonneg exp.
Variables (n : N) (lp lq : double).
Hypothesis Hn : (n < 2 ^ 32)%N.
Hypothesis Hp : fin lp /\ Rabs (dval lp) <= 64.
Hypothesis Hq : fin lq /\ Rabs (dval lq) <= 64.
Notation loop := (binomial_cdf_loop log exp n lp lq).

Lemma log_count j : (1 <= j < 2 ^ 32)%N -> fin (log (double_of_N j)) /\ Rabs (dval (log (double_of_N j))) <= 23.
Proof.
  intros H. destruct (double_of_N_exact j ltac:(lia)) as [V F]. assert (J : 1 <= IZR (Z.of_N j) <= bpow radix2 32) by (change (bpow radix2 32) with (IZR (2 ^ 32)); split; apply IZR_le; lia).
  destruct (gd_log _ _ _ G _ F) as [Fl El]; [lra|]. split; [exact Fl|]. rewrite V in El.
  assert (0 <= ln (IZR (Z.of_N j))) by (rewrite <- ln_1; apply ln_le; lra). assert (ln (IZR (Z.of_N j)) <= ln (bpow radix2 32)) by (apply ln_le; lra). rewrite ln_pow2 in *. pose proof ln2_upper.
  apply Rabs_le_inv in El. change (bpow radix2 (-40)) with (/ 1099511627776) in El. apply Rabs_le. lra.
Qed.
Lemma wrap_range x : (wrap 32 x < 2 ^ 32)%N. Proof. apply N.mod_lt. lia. Qed.
Lemma wrap_le i : (1 <= i <= n + 1)%N -> wrap 32 (n + 2 ^ 32 - i + 1) = (n + 1 - i)%N.
Proof. intros H. unfold wrap. replace (n + 2 ^ 32 - i + 1)%N with ((n + 1 - i) + 1 * 2 ^ 32)%N by lia. rewrite N.mod_add by lia. apply N.mod_small. lia. Qed.
Lemma wrap_le' i : (1 <= i <= n)%N -> wrap 32 (n + 2 ^ 32 - i) = (n - i)%N.
Proof. intros H. unfold wrap. replace (n + 2 ^ 32 - i)%N with ((n - i) + 1 * 2 ^ 32)%N by lia. rewrite N.mod_add by lia. apply N.mod_small. lia. Qed.
Definition bok (i : N) (b : double) : Prop := (fin b /\ Rabs (dval b) <= 64 * IZR (Z.of_N i)) \/ b = B754_infinity true.
Definition bnext (i : N) (b : double) : double := dadd b (dsub (log (double_of_N (wrap 32 (n + 2 ^ 32 - i + 1)))) (log (double_of_N i))).
Definition arg (i : N) (b : double) : double := dadd (dadd b (dmul (double_of_N i) lp)) (dmul (double_of_N (wrap 32 (n + 2 ^ 32 - i))) lq).
Lemma loop_S i left b cdf : loop i (S left) b cdf = loop (i + 1) left (bnext i b) (dadd cdf (exp (arg i (bnext i b)))).
Proof. reflexivity. Qed.
Lemma minus_inf_fin x : fin x -> dadd (B754_infinity true) x = B754_infinity true /\ dadd x (B754_infinity true) = B754_infinity true /\ dsub (B754_infinity true) x = B754_infinity true.
Proof. intros F. destruct x as [s|s| |s m e B]; try discriminate F; repeat split; reflexivity. Qed.
Lemma bnext_ok i b : (1 <= i < 2 ^ 31)%N -> bok i b -> bok (i + 1) (bnext i b) /\ (b = B754_infinity true \/ i = (n + 1)%N -> bnext i b = B754_infinity true).
Proof.
  intros Hi Hb. unfold bnext. destruct (log_count i ltac:(lia)) as [Fi Li]. set (j := wrap 32 (n + 2 ^ 32 - i + 1)) in *. assert (Hj : (j < 2 ^ 32)%N) by apply wrap_range.
  assert (I1 : 1 <= IZR (Z.of_N i) <= 2147483648) by (change 2147483648 with (IZR (2 ^ 31)); split; apply IZR_le; lia).
  destruct (N.eq_dec j 0) as [Z|Z].
  - assert (L : log (double_of_N j) = B754_infinity true). { destruct (double_of_N_exact j ltac:(lia)) as [V F]. apply (gd_log_0 _ _ _ G); [exact F|]. rewrite V, Z. reflexivity. }
    rewrite L. destruct (minus_inf_fin _ Fi) as (_ & _ & ->).
    assert (E : dadd b (B754_infinity true) = B754_infinity true) by (destruct Hb as [[F _]| ->]; [apply minus_inf_fin, F|reflexivity]). rewrite E. split; [right; reflexivity|reflexivity].
  - destruct (log_count j ltac:(lia)) as [Fj Lj].
    assert (B1 : Rabs (dval (log (double_of_N j)) - dval (log (double_of_N i))) <= 46) by (apply Rabs_le_inv in Li, Lj; apply Rabs_le; lra).
    destruct (dsub_ok _ _ Fj Fi) as [Vd Fd]; [apply small_R with 46; lra|].
    assert (B2 : Rabs (dval (dsub (log (double_of_N j)) (log (double_of_N i)))) <= 46). { rewrite Vd. apply Rabs_le. apply Rabs_le_inv in B1. apply rnd_between; [apply (F64_Z (-46)); lia|apply (F64_Z 46); lia|exact B1]. }
    destruct Hb as [[F Bb]| ->].
    + assert (B3 : Rabs (dval b + dval (dsub (log (double_of_N j)) (log (double_of_N i)))) <= 64 * IZR (Z.of_N i) + 46) by (eapply Rle_trans; [apply Rabs_triang|]; lra).
      destruct (dadd_ok b _ F Fd) as [Va Fa]; [apply small_R with (64 * 2147483648 + 46); lra|]. split.
      * left. split; [exact Fa|]. rewrite Va. replace (64 * IZR (Z.of_N (i + 1))) with (IZR (64 * Z.of_N i + 64)) by (rewrite plus_IZR, mult_IZR, N2Z.inj_add, plus_IZR; change (IZR (Z.of_N 1)) with 1; ring).
        apply Rabs_le. rewrite <- opp_IZR. apply rnd_between; [apply F64_Z; lia|apply F64_Z; lia|]. rewrite opp_IZR, plus_IZR, mult_IZR. apply Rabs_le_inv in B3. lra.
      * intros [E|E]; [rewrite E in F; discriminate F|]. exfalso. apply Z. unfold j. rewrite E. rewrite wrap_le by lia. lia.
    + destruct (minus_inf_fin _ Fd) as (-> & _ & _). split; [right; reflexivity|reflexivity].
Qed.
Lemma arg_ok i b : (1 <= i < 2 ^ 31)%N -> bok (i + 1) b -> is_nan (arg i b) = false /\ (b = B754_infinity true -> arg i b = B754_infinity true).
Proof.
  intros Hi Hb. unfold arg. set (j := wrap 32 (n + 2 ^ 32 - i)) in *. assert (Hj : (j < 2 ^ 32)%N) by apply wrap_range. destruct Hp as [Fp Bp]. destruct Hq as [Fq Bq].
  assert (MUL : forall k l, (k < 2 ^ 32)%N -> fin l -> Rabs (dval l) <= 64 -> fin (dmul (double_of_N k) l) /\ Rabs (dval (dmul (double_of_N k) l)) <= 274877906944).
  { intros k l Hk Fl Bl. destruct (double_of_N_exact k ltac:(lia)) as [V F]. assert (KB : 0 <= IZR (Z.of_N k) <= 4294967296) by (change 4294967296 with (IZR (2 ^ 32)); split; apply IZR_le; lia).
    assert (B : Rabs (dval (double_of_N k) * dval l) <= 274877906944). { rewrite V, Rabs_mult, Rabs_pos_eq by lra. replace 274877906944 with (4294967296 * 64) by lra. apply Rmult_le_compat; [lra|apply Rabs_pos|lra|exact Bl]. }
    destruct (dmul_ok _ l F Fl) as [Vm Fm]; [apply small_R with 274877906944; lra|]. split; [exact Fm|]. rewrite Vm. apply Rabs_le. apply Rabs_le_inv in B. apply rnd_between; [apply (F64_Z (-274877906944)); lia|apply (F64_Z 274877906944); lia|exact B]. }
  destruct (MUL i lp ltac:(lia) Fp Bp) as [F1 B1]. destruct (MUL j lq Hj Fq Bq) as [F2 B2].
  assert (I1 : IZR (Z.of_N (i + 1)) <= 2147483649) by (apply IZR_le; lia).
  destruct Hb as [[F Bb]| ->].
  - destruct (dadd_ok b _ F F1) as [Va Fa]; [apply small_R with 1000000000000; [eapply Rle_trans; [apply Rabs_triang|]; lra|lra]|].
    assert (B3 : Rabs (dval (dadd b (dmul (double_of_N i) lp))) <= 1000000000000). { rewrite Va. apply Rabs_le. apply rnd_between; [apply (F64_Z (-1000000000000)); lia|apply (F64_Z 1000000000000); lia|]. apply Rabs_le_inv in Bb, B1. lra. }
    destruct (dadd_ok _ _ Fa F2) as [Vb Fb]; [apply small_R with 2000000000000; [eapply Rle_trans; [apply Rabs_triang|]; lra|lra]|].
    split; [|intros E; rewrite E in F; discriminate F]. apply fin_not_nan, Fb.
  - destruct (minus_inf_fin _ F1) as (-> & _ & _). destruct (minus_inf_fin _ F2) as (-> & _ & _). split; reflexivity.
Qed.
Definition zeroval (x : double) : Prop := fin x /\ dval x = 0.
(* equal, or finite with the same value *)
Definition same (x y : double) : Prop := x = y \/ fin x /\ fin y /\ dval x = dval y.
Lemma same_add0 x z : nonneg x -> zeroval z -> same (dadd x z) x.
Proof.
  intros H [Fz Vz]. destruct (nonneg_cases x H) as [->|[Fx Px]]; [left; destruct z as [s|s| |s m e B]; try discriminate Fz; reflexivity|].
  right. pose proof (Bplus_correct 53 1024 _ _ mode_NE x z Fx Fz) as C. cbn [round_mode] in C. fold (dval x) (dval z) (rnd (dval x + dval z)) in C. fold (dadd x z) in C.
  rewrite Vz, Rplus_0_r, (rnd_id _ (dval_format x)) in C. rewrite Rlt_bool_true in C by apply (abs_B2R_lt_emax 53 1024 x). destruct C as (V & F & _). repeat split; assumption.
Qed.
Lemma loop_run l1 : forall i b cdf, (1 <= i)%N -> (i + N.of_nat l1 <= 2 ^ 31)%N -> bok i b -> nonneg cdf ->
  exists b' cdf', bok (i + N.of_nat l1) b' /\ nonneg cdf' /\ dle cdf cdf' = true /\ (forall l2, loop i (l1 + l2) b cdf = loop (i + N.of_nat l1) l2 b' cdf') /\
    (b = B754_infinity true \/ (i <= n + 1 < i + N.of_nat l1)%N -> b' = B754_infinity true) /\ (b = B754_infinity true -> same cdf' cdf).
Proof.
  induction l1 as [|l1 IH]; intros i b cdf I1 I2 Hb Hc.
  - exists b, cdf. cbn [N.of_nat]. rewrite N.add_0_r. split; [exact Hb|]. split; [exact Hc|]. split; [apply dle_refl, Hc|]. split; [intros l2; reflexivity|]. split; [intros [H|H]; [exact H|lia]|]. intros _. left. reflexivity.
  - destruct (bnext_ok i b ltac:(lia) Hb) as [Hb' Bi]. destruct (arg_ok i (bnext i b) ltac:(lia) Hb') as [Na Ai].
    assert (NX : nonneg (exp (arg i (bnext i b)))) by (destruct (X _ Na) as [A B]; split; assumption).
    destruct (nonneg_add cdf _ Hc NX) as [Nc Lc].
    destruct (IH (i + 1)%N (bnext i b) (dadd cdf (exp (arg i (bnext i b)))) ltac:(lia) ltac:(lia) Hb' Nc) as (b' & cdf' & P1 & P2 & P3 & P4 & P5 & P6).
    exists b', cdf'. replace (i + N.of_nat (S l1))%N with (i + 1 + N.of_nat l1)%N by lia. split; [exact P1|]. split; [exact P2|]. split; [apply dle_tr with (dadd cdf (exp (arg i (bnext i b)))); assumption|].
    split; [intros l2; cbn [plus]; rewrite loop_S; apply P4|]. split.
    + intros [H|H]; [apply P5; left; apply Bi; left; exact H|]. destruct (N.eq_dec i (n + 1)) as [E|E]; [apply P5; left; apply Bi; right; exact E|]. apply P5. right. lia.
    + intros H. specialize (Bi (or_introl H)). specialize (P6 Bi).
      assert (Z : same (dadd cdf (exp (arg i (bnext i b)))) cdf). { apply same_add0; [exact Hc|]. rewrite (Ai Bi). exact (gd_exp_inf _ _ _ G). }
      destruct P6 as [->|(A & B & C)]; [exact Z|]. destruct Z as [Z|(A' & B' & C')]; [rewrite Z in B, C; right; repeat split; assumption|]. right. split; [exact A|]. split; [exact B'|]. congruence.
Qed.
End Lib.
