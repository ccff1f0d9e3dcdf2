(* The coupon expectations are accurate, and the gap probabilities for the two halves are exact. *)
From Coq Require Import Reals Lra.
From Flocq Require Import Core BinarySingleNaN Relative.
From Verif Require Import Base FloatModel FloatLemmas CollectSpec CouponModel CouponSpec CouponProofs RescaleProofs.
Open Scope R_scope.

Definition approx (a x y : R) : Prop := Rabs (x - y) <= a * Rabs y.
Lemma approx_le a b x y : a <= b -> approx a x y -> approx b x y.
Proof. intros H A. unfold approx in *. apply Rle_trans with (1 := A). apply Rmult_le_compat_r; [apply Rabs_pos|exact H]. Qed.
Lemma approx_trans a b x y z : 0 <= b -> approx a x y -> approx b z x -> approx (a + b + a * b) z y.
Proof.
  intros Hb A B. unfold approx in *. replace (z - y) with ((z - x) + (x - y)) by ring. apply Rle_trans with (1 := Rabs_triang _ _).
  assert (X : Rabs x <= (1 + a) * Rabs y). { replace x with ((x - y) + y) by ring. apply Rle_trans with (1 := Rabs_triang _ _). lra. }
  assert (b * Rabs x <= b * ((1 + a) * Rabs y)) by (apply Rmult_le_compat_l; assumption). lra.
Qed.
Lemma approx_mult a b x y x' y' : 0 <= a -> 0 <= b -> approx a x y -> approx b x' y' -> approx (a + b + a * b) (x * x') (y * y').
Proof.
  intros Ha Hb A B. unfold approx in *. replace (x * x' - y * y') with ((x - y) * x' + y * (x' - y')) by ring. apply Rle_trans with (1 := Rabs_triang _ _). rewrite !Rabs_mult.
  assert (X : Rabs x' <= (1 + b) * Rabs y'). { replace x' with ((x' - y') + y') by ring. apply Rle_trans with (1 := Rabs_triang _ _). lra. }
  pose proof (Rabs_pos y). pose proof (Rabs_pos y'). pose proof (Rabs_pos x'). pose proof (Rabs_pos (x - y)).
  assert (Rabs (x - y) * Rabs x' <= (a * Rabs y) * ((1 + b) * Rabs y')) by (apply Rmult_le_compat; assumption).
  assert (Rabs y * Rabs (x' - y') <= Rabs y * (b * Rabs y')) by (apply Rmult_le_compat_l; assumption). lra.
Qed.
Lemma approx_inv b q Q : 0 <= b <= / 2 -> 0 < Q -> approx b q Q -> approx (2 * b) (/ q) (/ Q) /\ 0 < q.
Proof.
  intros Hb HQ A. unfold approx in *. rewrite (Rabs_pos_eq Q) in A by lra. apply Rabs_le_inv in A.
  assert (Hq : Q / 2 <= q) by nra. split; [|lra].
  assert (E : / q - / Q = (Q - q) * (/ q * / Q)) by (field; lra). rewrite E, Rabs_mult.
  assert (Pq : 0 < / q) by (apply Rinv_0_lt_compat; lra). assert (PQ : 0 < / Q) by (apply Rinv_0_lt_compat; lra).
  rewrite (Rabs_pos_eq (/ q * / Q)) by nra. rewrite (Rabs_pos_eq (/ Q)) by lra.
  assert (Rabs (Q - q) <= b * Q) by (apply Rabs_le; lra).
  apply Rle_trans with (b * Q * (/ q * / Q)); [apply Rmult_le_compat_r; [nra|assumption]|].
  replace (b * Q * (/ q * / Q)) with (b * / q) by (field; lra).
  assert (/ q <= 2 * / Q). { apply Rmult_le_reg_l with q; [lra|]. rewrite Rinv_r by lra. replace (q * (2 * / Q)) with (2 * q * / Q) by ring. apply Rmult_le_reg_r with Q; [exact HQ|]. rewrite Rmult_assoc, Rinv_l by lra. lra. }
  replace (2 * b * / Q) with (b * (2 * / Q)) by ring. apply Rmult_le_compat_l; lra.
Qed.
Lemma rnd_approx x : bpow radix2 (-1000) <= x -> approx (bpow radix2 (-53)) (rnd x) x.
Proof.
  intros H. unfold approx, rnd. change (SpecFloat.fexp 53 1024) with (FLT_exp (3 - 1024 - 53) 53).
  replace (bpow radix2 (-53)) with (/ 2 * bpow radix2 (- 53 + 1)).
  - apply relative_error_N_FLT; [lia|]. pose proof (bpow_gt_0 radix2 (-1000)). rewrite Rabs_pos_eq by lra. apply Rle_trans with (2 := H). apply bpow_le. lia.
  - rewrite bpow_plus. change (bpow radix2 1) with 2. change (bpow radix2 (-(53))) with (bpow radix2 (-53)). field.
Qed.

(* what is assumed of the library: relative errors of tgamma at n+1 and of pow at integers *)
Definition good_tgamma (tgamma : double -> double) : Prop := forall n, (1 <= n <= 29)%nat ->
  let v := tgamma (double_of_N (N.of_nat n + 1)) in fin v /\ approx (bpow radix2 (-49)) (dval v) (IZR (Z.of_N (fact n))).
Definition good_pow (pow : double -> double -> double) : Prop := forall b n, (1 <= b <= 29)%N -> (n <= 29)%N ->
  let v := pow (double_of_N b) (double_of_N n) in fin v /\ approx (bpow radix2 (-52)) (dval v) (IZR (Z.of_N (b ^ n))).

Lemma bpow_small_consts : bpow radix2 (-49) = / 562949953421312 /\ bpow radix2 (-52) = / 4503599627370496 /\ bpow radix2 (-53) = / 9007199254740992 /\ bpow radix2 (-48) = / 281474976710656.
Proof. exact (conj (bpow_opp radix2 49) (conj (bpow_opp radix2 52) (conj (bpow_opp radix2 53) (bpow_opp radix2 48)))). Qed.
Lemma fact_pos n : (1 <= fact n)%N.
Proof. induction n as [|n IH]; [cbn; lia|]. cbn [fact]. nia. Qed.
Lemma coupon_entry f q s F Q : fin f -> fin q -> approx (bpow radix2 (-49)) (dval f) F -> approx (bpow radix2 (-52)) (dval q) Q ->
  1 <= F <= bpow radix2 128 -> 1 <= Q <= bpow radix2 256 -> (1 <= s < 2 ^ 64)%N ->
  let p := dmul (ddiv f q) (double_of_N s) in fin p /\ approx (bpow radix2 (-48)) (dval p) (F / Q * IZR (Z.of_N s)).
Proof.
  intros Ff Fq Af Aq HF HQ Hs p. destruct bpow_small_consts as (C49 & C52 & C53 & C48).
  rewrite C49 in Af. rewrite C52 in Aq.
  assert (Hb : 0 <= / 4503599627370496 <= / 2) by lra. assert (HQ0 : 0 < Q) by lra. destruct (approx_inv _ _ Q Hb HQ0 Aq) as [Ai Pq].
  assert (Pf : F / 2 <= dval f <= 2 * F) by (unfold approx in Af; rewrite (Rabs_pos_eq F) in Af by lra; apply Rabs_le_inv in Af; lra).
  assert (Pq2 : Q / 2 <= dval q <= 2 * Q) by (unfold approx in Aq; rewrite (Rabs_pos_eq Q) in Aq by lra; apply Rabs_le_inv in Aq; lra).
  assert (Ha1 : 0 <= / 562949953421312) by lra. assert (Ha2 : 0 <= 2 * / 4503599627370496) by lra. pose proof (approx_mult _ _ _ _ _ _ Ha1 Ha2 Af Ai) as A1. change (dval f * / dval q) with (dval f / dval q) in A1. change (F * / Q) with (F / Q) in A1.
  assert (Q1 : bpow radix2 (-300) <= dval f / dval q).
  { apply Rmult_le_reg_r with (dval q); [lra|]. replace (dval f / dval q * dval q) with (dval f) by (field; lra).
    apply Rle_trans with (bpow radix2 (-300) * bpow radix2 257); [apply Rmult_le_compat_l; [apply bpow_ge_0|]|].
    - replace (bpow radix2 257) with (bpow radix2 256 * 2) by (change 2 with (bpow radix2 1); rewrite <- bpow_plus; reflexivity). lra.
    - rewrite <- bpow_plus. apply Rle_trans with (bpow radix2 (-1)); [apply bpow_le; lia|change (bpow radix2 (-1)) with (/ 2); lra]. }
  assert (Q2 : dval f / dval q <= bpow radix2 130).
  { apply Rmult_le_reg_r with (dval q); [lra|]. replace (dval f / dval q * dval q) with (dval f) by (field; lra).
    replace (bpow radix2 130) with (bpow radix2 128 * 4) by (change 4 with (bpow radix2 2); rewrite <- bpow_plus; reflexivity). pose proof (bpow_gt_0 radix2 128). nra. }
  destruct (ddiv_ok f q Ff ltac:(lra)) as [Ed Fd]; [apply (small_bpow _ 130); [lia|]; rewrite Rabs_pos_eq; [exact Q2|pose proof (bpow_gt_0 radix2 (-300)); lra]|].
  assert (B0 : bpow radix2 (-1000) <= dval f / dval q) by (apply Rle_trans with (2 := Q1); apply bpow_le; lia).
  pose proof (approx_trans _ _ _ _ _ (bpow_ge_0 radix2 (-53)) A1 (rnd_approx _ B0)) as A2. rewrite <- Ed in A2. set (d := ddiv f q) in *.
  assert (D1 : bpow radix2 (-300) <= dval d <= bpow radix2 130) by (rewrite Ed; apply rnd_between; [apply F64_bpow; lia|apply F64_bpow; lia|lra]).
  destruct (double_of_N_ok s ltac:(lia)) as [Es Fs]. assert (S1 : 1 <= IZR (Z.of_N s)) by (apply IZR_le; lia).
  assert (As : approx (bpow radix2 (-53)) (dval (double_of_N s)) (IZR (Z.of_N s))) by (rewrite Es; apply rnd_approx; apply Rle_trans with (bpow radix2 0); [apply bpow_le; lia|exact S1]).
  assert (S2' : 1 <= dval (double_of_N s) <= bpow radix2 64).
  { rewrite Es. apply rnd_between; [exact F64_1|apply F64_bpow; lia|]. split; [exact S1|]. rewrite <- IZR_pow2 by lia. apply IZR_le. change (2 ^ 64)%Z with (Z.of_N (2 ^ 64)). lia. }
  match type of A2 with approx ?a _ _ => assert (Ha3 : 0 <= a) by (rewrite C53; lra) end. pose proof (approx_mult _ _ _ _ _ _ Ha3 (bpow_ge_0 radix2 (-53)) A2 As) as A3.
  pose proof (bpow_gt_0 radix2 (-300)) as P300.
  assert (B1 : bpow radix2 (-300) <= dval d * dval (double_of_N s)) by nra.
  destruct (dmul_ok d (double_of_N s) Fd Fs) as [Ep Fp].
  { apply (small_bpow _ 194); [lia|]. rewrite Rabs_pos_eq by lra. replace (bpow radix2 194) with (bpow radix2 130 * bpow radix2 64) by (rewrite <- bpow_plus; reflexivity). apply Rmult_le_compat; lra. }
  assert (B2 : bpow radix2 (-1000) <= dval d * dval (double_of_N s)) by (apply Rle_trans with (2 := B1); apply bpow_le; lia).
  pose proof (approx_trans _ _ _ _ _ (bpow_ge_0 radix2 (-53)) A3 (rnd_approx _ B2)) as A4. rewrite <- Ep in A4.
  split; [exact Fp|]. eapply approx_le; [|exact A4]. rewrite C53, C48. lra.
Qed.
(* the recorded entries *)
Lemma coupon_loop_ok tgamma pow d : good_tgamma tgamma -> good_pow pow -> (1 <= d <= 29)%nat ->
  forall left i sum, (d <= i)%nat -> (i + left <= 30)%nat ->
  exists ps last, coupon_loop pow (tgamma (double_of_N (N.of_nat d + 1))) (N.of_nat d) (N.of_nat i) left sum = Ok (ps ++ [last]) /\ (length ps <= left)%nat /\
    forall k, (k < length ps)%nat -> (1 <= S2 (i + k - 1) (d - 1) < 2 ^ 64)%N ->
      fin (nth k ps d0) /\ approx (bpow radix2 (-48)) (dval (nth k ps d0)) (IZR (Z.of_N (fact d * S2 (i + k - 1) (d - 1))) / IZR (Z.of_N (N.of_nat d ^ N.of_nat (i + k)))).
Proof.
  intros GT GP Hd. induction left as [|left IH]; intros i sum Hi Hl; cbn [coupon_loop].
  - eexists [], _. split; [reflexivity|]. split; [cbn; lia|]. cbn. lia.
  - destruct (dlt sum (dconst 8917127262193582 (-53))); [|eexists [], _; split; [reflexivity|]; split; [cbn; lia|cbn; lia]].
    unfold stirling_second_kind. destruct (Z.ltb_spec (Z.of_N (N.of_nat i) - 1) 0); [lia|]. cbn [obind].
    set (p := dmul (ddiv _ _) _). destruct (IH (S i) (dadd sum p) ltac:(lia) ltac:(lia)) as (ps & last & E & L & H0). replace (N.of_nat i + 1)%N with (N.of_nat (S i)) by lia. rewrite E. cbn [obind].
    exists (p :: ps), last. split; [reflexivity|]. split; [cbn [length]; lia|]. intros [|k] Hk HS.
    + cbn [nth]. rewrite Nat.add_0_r in *. unfold p. replace (Z.to_nat (Z.of_N (N.of_nat i) - 1)) with (i - 1)%nat by lia. replace (Z.of_N (N.of_nat d) - 1)%Z with (Z.of_nat (d - 1)) by lia.
      rewrite stirling_nat_pos by lia. unfold wrap. rewrite N.mod_small by apply HS.
      destruct (GT d Hd) as [Ff Af]. destruct (GP (N.of_nat d) (N.of_nat i) ltac:(lia) ltac:(lia)) as [Fq Aq].
      destruct (coupon_entry _ _ (S2 (i - 1) (d - 1)) _ _ Ff Fq Af Aq) as [Fp Ap]; [| |exact HS|].
      * split; [apply IZR_le; pose proof (fact_pos d); lia|]. rewrite <- IZR_pow2 by lia. apply IZR_le.
        assert (Hf : (fact d <= fact 29)%N).
        { assert (M : forall a b, (a <= b)%nat -> (fact a <= fact b)%N) by (intros a b Hab; induction Hab as [|b Hab IHb]; [lia|]; cbn [fact]; pose proof (fact_pos b); nia). apply M. lia. }
        change (2 ^ 128)%Z with (Z.of_N (2 ^ 128)). apply N2Z.inj_le. eapply N.le_trans; [exact Hf|]. vm_compute. discriminate.
      * assert (Hp : (N.of_nat d ^ N.of_nat i <> 0)%N) by (apply N.pow_nonzero; lia). split; [apply IZR_le; lia|]. rewrite <- IZR_pow2 by lia. apply IZR_le.
        change (2 ^ 256)%Z with (Z.of_N (2 ^ 256)). apply N2Z.inj_le. apply N.le_trans with (29 ^ N.of_nat i)%N; [apply N.pow_le_mono_l; lia|].
        apply N.le_trans with (29 ^ 29)%N; [apply N.pow_le_mono_r; lia|]. vm_compute. discriminate.
      * split; [exact Fp|]. replace (IZR (Z.of_N (fact d * S2 (i - 1) (d - 1))) / IZR (Z.of_N (N.of_nat d ^ N.of_nat i))) with (IZR (Z.of_N (fact d)) / IZR (Z.of_N (N.of_nat d ^ N.of_nat i)) * IZR (Z.of_N (S2 (i - 1) (d - 1)))); [exact Ap|].
        rewrite N2Z.inj_mul, mult_IZR. unfold Rdiv. ring.
    + cbn [length] in Hk. replace (i + S k)%nat with (S i + k)%nat in * by lia. apply H0; [lia|exact HS].
Qed.

(* ---- gap probabilities ---- *)
Lemma gap_prob_step pow a b i fuel sum p sum' : dlt sum (dconst 8917127262193582 (-53)) = true ->
  dmul (dsub b a) (pow (dadd (dsub d1 b) a) (double_of_N i)) = p -> dadd sum p = sum' ->
  gap_prob_loop pow a b i (S fuel) sum = match gap_prob_loop pow a b (i + 1) fuel sum' with Some l => Some (p :: l) | None => None end.
Proof. intros H1 H2 H3. cbn [gap_prob_loop]. rewrite H1, H2, H3. reflexivity. Qed.
Definition half_pow (i : N) : double := dconst 1 (- Z.of_N i).
(* pow(0.5, i) is exact *)
Definition exact_half_pow (pow : double -> double -> double) : Prop := forall i, (i <= 16)%N -> pow dhalf (double_of_N i) = half_pow i.
Lemma sf_eq (x y : double) : B2SF x = B2SF y -> x = y.
Proof. apply B2SF_inj. Qed.
Lemma gap_probs_gen pow a b : exact_half_pow pow -> dsub b a = dhalf -> dadd (dsub d1 b) a = dhalf -> forall fuel, (8 <= fuel)%nat ->
  generate_gap_probabilities pow a b fuel = Some (map half_pow [1; 2; 3; 4; 5; 6; 7; 7]%N).
Proof.
  intros HP E1 E2 fuel Hf. unfold generate_gap_probabilities. do 8 (destruct fuel as [|fuel]; [lia|]).
  set (f8 := S fuel).
  assert (ST : forall i fu s s' , (i <= 16)%N -> dlt s (dconst 8917127262193582 (-53)) = true -> dadd s (half_pow (i + 1)) = s' -> dmul dhalf (half_pow i) = half_pow (i + 1) ->
     gap_prob_loop pow a b i (S fu) s = match gap_prob_loop pow a b (i + 1) fu s' with Some l => Some (half_pow (i + 1) :: l) | None => None end).
  { intros i fu s s' Hi Hs Hd Hm. apply gap_prob_step; [exact Hs| |exact Hd]. rewrite E1, E2, HP by exact Hi. exact Hm. }
  rewrite (ST 0%N _ d0 (dconst 1 (-1))) by (lia || (apply sf_eq; vm_compute; reflexivity) || (vm_compute; reflexivity)).
  rewrite (ST 1%N _ _ (dconst 3 (-2))) by (lia || (apply sf_eq; vm_compute; reflexivity) || (vm_compute; reflexivity)).
  rewrite (ST 2%N _ _ (dconst 7 (-3))) by (lia || (apply sf_eq; vm_compute; reflexivity) || (vm_compute; reflexivity)).
  rewrite (ST 3%N _ _ (dconst 15 (-4))) by (lia || (apply sf_eq; vm_compute; reflexivity) || (vm_compute; reflexivity)).
  rewrite (ST 4%N _ _ (dconst 31 (-5))) by (lia || (apply sf_eq; vm_compute; reflexivity) || (vm_compute; reflexivity)).
  rewrite (ST 5%N _ _ (dconst 63 (-6))) by (lia || (apply sf_eq; vm_compute; reflexivity) || (vm_compute; reflexivity)).
  rewrite (ST 6%N _ _ (dconst 127 (-7))) by (lia || (apply sf_eq; vm_compute; reflexivity) || (vm_compute; reflexivity)).
  unfold f8. cbn [gap_prob_loop]. replace (dlt (dconst 127 (-7)) (dconst 8917127262193582 (-53))) with false by (vm_compute; reflexivity).
  replace (dsub d1 (dconst 127 (-7))) with (half_pow 7) by (apply sf_eq; vm_compute; reflexivity). reflexivity.
Qed.
Lemma gap_probs_lower pow : exact_half_pow pow -> forall fuel, (8 <= fuel)%nat -> generate_gap_probabilities pow d0 dhalf fuel = Some (map half_pow [1; 2; 3; 4; 5; 6; 7; 7]%N).
Proof. intros H. apply gap_probs_gen; [exact H| |]; apply sf_eq; vm_compute; reflexivity. Qed.
Lemma gap_probs_upper pow : exact_half_pow pow -> forall fuel, (8 <= fuel)%nat -> generate_gap_probabilities pow dhalf d1 fuel = Some (map half_pow [1; 2; 3; 4; 5; 6; 7; 7]%N).
Proof. intros H. apply gap_probs_gen; [exact H| |]; apply sf_eq; vm_compute; reflexivity. Qed.
Lemma half_pow_val i : (i <= 1000)%N -> fin (half_pow i) /\ dval (half_pow i) = / IZR (2 ^ Z.of_N i).
Proof.
  intros Hi. unfold half_pow. assert (E : F2R (Float radix2 1 (- Z.of_N i)) = bpow radix2 (- Z.of_N i)) by (unfold F2R; cbn [Fnum Fexp]; ring).
  destruct (dconst_ok 1 (- Z.of_N i)) as [Ed F].
  - rewrite E. apply (small_bpow _ 0); [lia|]. rewrite Rabs_pos_eq by apply bpow_ge_0. apply bpow_le. lia.
  - split; [exact F|]. rewrite Ed, E, rnd_id by (apply F64_bpow; lia). rewrite bpow_opp, IZR_pow2 by lia. reflexivity.
Qed.
(* an empty interval: the loop never ends *)
Lemma gap_probs_empty pow a : fin a -> (forall x y, fin (pow x y) /\ 0 <= dval (pow x y)) -> forall fuel, generate_gap_probabilities pow a a fuel = None.
Proof.
  intros Fa HP fuel. unfold generate_gap_probabilities.
  assert (Z : dsub a a = d0 \/ dsub a a = B754_zero true).
  { destruct (dsub_ok a a Fa Fa) as [E F]; [unfold small; rewrite Rminus_diag_eq, Rabs_R0 by reflexivity; apply bpow_ge_0|].
    rewrite Rminus_diag_eq, (rnd_id 0 F64_0) in E by reflexivity. destruct (dsub a a) as [[|]|s| |s m e B]; [right; reflexivity|left; reflexivity|discriminate F|discriminate F|].
    exfalso. cbn in E. apply eq_0_F2R in E. destruct s; discriminate E. }
  assert (M : forall x : double, fin x -> exists s, dmul (dsub a a) x = B754_zero s).
  { intros x Fx. destruct Z as [-> | ->]; destruct x; try discriminate; eexists; reflexivity. }
  assert (G : forall fu i, gap_prob_loop pow a a i fu d0 = None).
  { induction fu as [|f IH]; intro i; [reflexivity|]. cbn [gap_prob_loop]. replace (dlt d0 (dconst 8917127262193582 (-53))) with true by (vm_compute; reflexivity).
    destruct (M (pow (dadd (dsub d1 a) a) (double_of_N i)) (proj1 (HP _ _))) as (s & ->). replace (dadd d0 (B754_zero s)) with d0 by (destruct s; reflexivity). rewrite IH. reflexivity. }
  apply G.
Qed.
