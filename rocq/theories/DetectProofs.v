(* Tests that raise an alarm for certain. *)
From Coq Require Import String Reals Lra Lia.
From Flocq Require Import Core BinarySingleNaN.
From Verif Require Import Base WordLemmas BitwiseModel BitwiseSpec FloatModel FloatLemmas StreamModel ResultModel ResultSpec CollectModel CollectSpec CollectProofs Collect2Proofs RescaleProofs StatsModel ErrorSpec LimitProofs LfsrSpec LfsrCount TestsRank
  EvaluateModel CommandModel CommandSpec TestsModel TestsSpec TestsProofs TestsUniform TestsAval BatterySpec BatteryProofs DistModel DistSpec DistReal DistReal2 DistProofs DetectSpec.
Open Scope R_scope.

Lemma alarm_chi2 M exp t os es s : good_lib M exp -> 0 <= t -> (Z.of_nat (length os) <= 1000000)%Z -> chi2_test (chi2_cdf M exp) t os es (Some s) ->
  4 * INR (length (filter (Rlt_bool t) es)) + 200 <= chi2_sum t os es -> alarming s.
Proof.
  intros (_ & G & X) Ht Hl T Hs.
  assert (V : valid_stat s).
  { apply (chi2_valid (chi2_cdf M exp) t os es (Some s)); try assumption; [|change (2 ^ 50)%Z with 1125899906842624%Z; lia].
    intros x k Fx Hx (Fk & m & Hm & Vk). destruct (chi2_form _ exp _ G x k m Fx Fk Hx Hm Vk) as (p & Hp & E & _). unfold chi2_cdf. rewrite E. apply one_minus, Hp. }
  split; [apply T|]. split; [exact V|]. destruct T as [LE T]. cbn zeta in T. set (k := length (filter (Rlt_bool t) es)) in *.
  destruct T as (K & _ & F1 & V1 & F2 & V2 & P).
  assert (KL : (k <= length os)%nat) by (rewrite LE; subst k; clear; induction es as [|e es IH]; cbn; [lia|destruct (Rlt_bool t e); cbn; lia]).
  rewrite P. unfold chi2_cdf. 
  assert (VZ : dval (st_df s) = IZR (Z.of_nat k - 1)) by (rewrite V1, INR_IZR_INZ; f_equal; lia).
  apply Rle_trans with (bpow radix2 (-49)); [|change (bpow radix2 (-49)) with (/ 562949953421312); apply Rinv_le_contravar; simpl; lra].
  set (q := chi2_sum t os es) in *. apply Rabs_le_inv in V2.
  assert (LI : INR (length os) <= 1000000) by (rewrite INR_IZR_INZ; apply (IZR_le _ 1000000); exact Hl).
  assert (E' : 2 * (INR (length os) + 4) * bpow radix2 (-53) * q <= / 10000000 * q).
  { apply Rmult_le_compat_r; [pose proof (pos_INR k); lra|]. change (bpow radix2 (-53)) with (/ 9007199254740992). lra. }
  assert (KI : INR k = IZR (Z.of_nat k - 1) + 1) by (rewrite INR_IZR_INZ, minus_IZR; ring).
  assert (KB : IZR (Z.of_nat k - 1) <= 1000000) by (apply IZR_le; lia). assert (K0 : 1 <= IZR (Z.of_nat k - 1)) by (apply (IZR_le 1); lia).
  apply (chi2_far _ _ _ G _ _ (Z.of_nat k - 1) F2 F1); try assumption; try lia; [lra|]. lra.
Qed.

(* one bin *)
Lemma chi2_term t os es i : 0 <= t -> length os = length es -> (i < length os)%nat -> t < nth i es 0 ->
  (IZR (Z.of_N (nth i os 0%N)) - nth i es 0) ^ 2 / nth i es 0 <= chi2_sum t os es.
Proof.
  intros Ht. revert es i. unfold chi2_sum. induction os as [|o os IH]; intros [|e es] i HL Hi He; cbn [length] in *; try lia.
  cbn [combine map fst snd]. change (rsum (?a :: ?l)) with (a + rsum l).
  assert (T : forall b : N * R, 0 <= (if Rlt_bool t (snd b) then (IZR (Z.of_N (fst b)) - snd b) ^ 2 / snd b else 0)).
  { intros [a b]. cbn [fst snd]. destruct (Rlt_bool_spec t b); [apply Rmult_le_pos; [apply pow2_ge_0|left; apply Rinv_0_lt_compat; lra]|lra]. }
  destruct i as [|i]; cbn [nth] in *.
  - rewrite Rlt_bool_true by exact He. assert (0 <= rsum (map (fun b => if Rlt_bool t (snd b) then (IZR (Z.of_N (fst b)) - snd b) ^ 2 / snd b else 0) (combine os es))); [|lra].
    apply rsum_nonneg. apply Forall_forall. intros x Hx. apply in_map_iff in Hx. destruct Hx as (b & <- & _). apply T.
  - specialize (IH es i ltac:(lia) ltac:(lia) He). pose proof (T (o, e)) as T0. cbn [fst snd] in T0. lra.
Qed.

(* bins that are empty although something is expected *)
Lemma flat_zeros os c : 0 < c -> INR (length (filter (N.eqb 0) os)) * c <= chi2_sum 0 os (repeat c (length os)).
Proof.
  intros Hc. unfold chi2_sum. induction os as [|o os IH]; [cbn; lra|]. cbn [length repeat combine map fst snd filter]. change (rsum (?a :: ?l)) with (a + rsum l).
  rewrite Rlt_bool_true by exact Hc. destruct (N.eqb_spec 0 o) as [<-|N0].
  - cbn [length]. rewrite S_INR. change (IZR (Z.of_N 0)) with 0. replace ((0 - c) ^ 2 / c) with c by (field; lra). lra.
  - assert (0 <= (IZR (Z.of_N o) - c) ^ 2 / c) by (apply Rmult_le_pos; [apply pow2_ge_0|left; apply Rinv_0_lt_compat; lra]). lra.
Qed.
Lemma zeros_ge os E : NoDup E -> (forall i, In i E -> (i < length os)%nat /\ nth i os 0%N = 0%N) -> (length E <= length (filter (N.eqb 0) os))%nat.
Proof.
  intros ND H. rewrite <- (map_nth_seq os 0%N) at 1. rewrite filter_len_map. apply NoDup_incl_length; [exact ND|]. intros i Hi. destruct (H i Hi) as [L Z].
  apply filter_In. split; [apply in_seq; lia|rewrite Z; reflexivity].
Qed.

(* ---- uniform ---- *)
Lemma Rpower_25 n : samples n -> 16 <= Rpower (IZR (Z.of_N n)) (2 / 5) <= 2048 /\ 64 * Rpower (IZR (Z.of_N n)) (2 / 5) <= IZR (Z.of_N n).
Proof.
  intros Hn. assert (B : 1024 <= IZR (Z.of_N n) <= 67108864) by (split; apply IZR_le; unfold samples in Hn; change (2 ^ 26)%N with 67108864%N in Hn; lia).
  set (x := IZR (Z.of_N n)) in *. assert (L10 : ln 1024 = 10 * ln 2) by (change 1024 with (bpow radix2 10); rewrite ln_bpow by lia; reflexivity).
  assert (L26 : ln 67108864 = 26 * ln 2) by (change 67108864 with (bpow radix2 26); rewrite ln_bpow by lia; reflexivity).
  assert (A1 : ln 1024 <= ln x) by (apply ln_mono; lra). assert (A2 : ln x <= ln 67108864) by (apply ln_mono; lra).
  pose proof ln2_pos as P2. unfold Rpower.
  assert (E4 : exp (4 * ln 2) = 16) by (replace 4 with (IZR 4) by reflexivity; rewrite <- ln_bpow by lia; rewrite exp_ln by apply bpow_gt_0; reflexivity).
  assert (E11 : exp (11 * ln 2) = 2048) by (replace 11 with (IZR 11) by reflexivity; rewrite <- ln_bpow by lia; rewrite exp_ln by apply bpow_gt_0; reflexivity).
  assert (E6 : exp (6 * ln 2) = 64) by (replace 6 with (IZR 6) by reflexivity; rewrite <- ln_bpow by lia; rewrite exp_ln by apply bpow_gt_0; reflexivity).
  split; [split|].
  - rewrite <- E4. apply exp_le. lra.
  - rewrite <- E11. apply exp_le. lra.
  - rewrite <- E6, <- exp_plus. apply Rle_trans with (exp (ln x)); [apply exp_le; lra|rewrite exp_ln by lra; lra].
Qed.

Lemma uniform_alarm M exp w n stream : good_lib M exp -> In w widths -> samples n -> (forall i, is_word w (stream i)) ->
  (forall k, (5 <= k <= w)%N -> (k <= 28)%N -> 2 * Rpower (IZR (Z.of_N n)) (2 / 5) * (1 - / 2 ^ 38) <= IZR (Z.of_N (2 ^ k)) \/ k = w ->
    exists E, NoDup E /\ (2 ^ (k - 1) <= N.of_nat (length E) + 1)%N /\ forall i, In i E -> (N.of_nat i < 2 ^ k)%N /\
      forall j, (N.of_nat j < n)%N -> bin_index w (2 ^ k) (stream j) <> Ok (N.of_nat i)) ->
  alarm (uniform_test M (chi2_cdf M exp) w n stream).
Proof.
  intros G Hw Hn Hs HE. pose proof Hn as Hn'. unfold samples in Hn'. change (2 ^ 26)%N with 67108864%N in Hn'.
  assert (N53 : (1 <= n <= 2 ^ 53)%N) by (change (2 ^ 53)%N with 9007199254740992%N; lia).
  destruct (uniform_ok M (chi2_cdf M exp) w n stream (proj1 G) Hw N53 Hs) as (K & os & s & BK & [B1 B2] & E & L & _ & C & T). cbn zeta in *.
  destruct (Rpower_25 n Hn) as [[Y1 Y2] Y3]. set (Y := Rpower (IZR (Z.of_N n)) (2 / 5)) in *.
  assert (C38 : / 2 ^ 38 = / 274877906944) by (f_equal; cbn; lra). rewrite C38 in *.
  assert (NR : 1024 <= IZR (Z.of_N n)) by (apply IZR_le; lia).
  assert (W : (8 <= w <= 64)%N) by (cbn in Hw; intuition lia).
  assert (K5 : (5 <= K)%N).
  { apply N2Z.inj_le. assert (bpow radix2 4 < bpow radix2 (Z.of_N K)); [|apply lt_bpow in H; lia]. apply Rlt_le_trans with (2 := B1). change (bpow radix2 4) with 16. lra. }
  set (k := N.min K w) in *. assert (k5 : (5 <= k <= w)%N) by lia.
  assert (PK : IZR (Z.of_N (2 ^ k)) = bpow radix2 (Z.of_N k)) by (rewrite N2Z.inj_pow; apply IZR_pow2; lia).
  assert (LU : 32 <= IZR (Z.of_N (2 ^ k)) <= 4 * Y * (1 + / 274877906944) + 2).
  { rewrite PK. split; [apply (bpow_le radix2 5); lia|]. apply Rle_trans with (2 := Rlt_le _ _ B2). apply bpow_le. lia. }
  destruct (HE k k5 ltac:(lia)) as (Em & ND & LE & HEm).
  { destruct (N.le_ge_cases K w); [left; rewrite PK; unfold k; rewrite N.min_l by assumption; exact B1|right; unfold k; lia]. }
  exists [mksub "" (Some s)], ""%string, s. split; [exact E|]. split; [left; reflexivity|].
  assert (LR : INR (length os) = IZR (Z.of_N (2 ^ k))) by (rewrite INR_IZR_INZ, <- L, nat_N_Z; reflexivity).
  set (c := IZR (Z.of_N n) / IZR (Z.of_N (2 ^ k))) in *. assert (Hc : 0 < c) by (apply Rdiv_lt_0_compat; lra).
  apply (alarm_chi2 M exp 0 os (repeat c (length os)) s G (Rle_refl 0)); [|exact T|].
  { apply le_IZR. rewrite <- INR_IZR_INZ, LR. lra. }
  rewrite filter_repeat, Rlt_bool_true by exact Hc. rewrite LR.
  apply Rle_trans with (2 := flat_zeros os c Hc).
  assert (Z : (length Em <= length (filter (N.eqb 0) os))%nat).
  { apply zeros_ge; [exact ND|]. intros i Hi. destruct (HEm i Hi) as [Li Ni]. split; [lia|]. rewrite <- (Nat2N.id i). rewrite C by exact Li. unfold count.
    replace (filter _ (values stream n)) with (@nil N); [reflexivity|]. symmetry. unfold values.
    assert (Q : forall l, (forall j, In j l -> (N.of_nat j < n)%N) -> filter (fun x => match bin_index w (2 ^ k) x with Ok j => (j =? N.of_nat i)%N | UB => false end) (map stream l) = []).
    { induction l as [|j l IH]; intros Hl; [reflexivity|]. cbn [map filter]. pose proof (Ni j (Hl j (or_introl eq_refl))) as NE.
      destruct (bin_index w (2 ^ k) (stream j)) as [b|]; [|apply IH; intros; apply Hl; right; assumption].
      destruct (N.eqb_spec b (N.of_nat i)) as [->|]; [congruence|]. apply IH. intros; apply Hl; right; assumption. }
    apply Q. intros j Hj. apply in_seq in Hj. lia. }
  assert (H2 : IZR (Z.of_N (2 ^ k)) / 2 - 1 <= INR (length (filter (N.eqb 0) os))).
  { apply le_INR in Z. apply Rle_trans with (2 := Z). rewrite INR_IZR_INZ. replace (2 ^ k)%N with (2 * 2 ^ (k - 1))%N by (rewrite <- N.pow_succ_r'; f_equal; lia).
    rewrite N2Z.inj_mul, mult_IZR. apply N2Z.inj_le in LE. apply IZR_le in LE. rewrite N2Z.inj_add, plus_IZR, nat_N_Z in LE. simpl (Z.of_N 2). simpl (Z.of_N 1) in LE. lra. }
  apply Rle_trans with ((IZR (Z.of_N (2 ^ k)) / 2 - 1) * c); [|apply Rmult_le_compat_r; [lra|exact H2]].
  set (Lr := IZR (Z.of_N (2 ^ k))) in *. replace ((Lr / 2 - 1) * c) with (IZR (Z.of_N n) / 2 - IZR (Z.of_N n) / Lr) by (unfold c; field; lra).
  assert (IZR (Z.of_N n) / Lr <= IZR (Z.of_N n) / 32) by (apply Rmult_le_compat_l; [lra|apply Rinv_le_contravar; lra]). lra.
Qed.

(* the bins of words in the lower and in the upper half *)
Lemma low_bin w k x : (8 <= w <= 64)%N -> (5 <= k <= w)%N -> (k <= 53)%N -> (x < 2 ^ (w - 1))%N -> exists b, bin_index w (2 ^ k) x = Ok b /\ (b <= 2 ^ (k - 1))%N.
Proof.
  intros Hw Hk Hk' Hx. assert (E2 : (2 ^ w = 2 * 2 ^ (w - 1))%N) by (rewrite <- N.pow_succ_r'; f_equal; lia).
  assert (E3 : (2 ^ k = 2 * 2 ^ (k - 1))%N) by (rewrite <- N.pow_succ_r'; f_equal; lia).
  assert (Hm : (1 <= 2 ^ k <= 2 ^ 53)%N) by (split; [change 1%N with (2 ^ 0)%N|]; apply N.pow_le_mono_r; lia).
  assert (P1 : (1 <= 2 ^ (w - 1))%N) by (change 1%N with (2 ^ 0)%N; apply N.pow_le_mono_r; lia).
  assert (Wx : is_word w x) by (unfold is_word; lia). rewrite bin_index_val by (assumption || lia). eexists. split; [reflexivity|].
  destruct (scaled_ok w (2 ^ k) x ltac:(lia) Hm Wx) as (_ & E & _). destruct (rescale_range w x ltac:(lia) Wx) as (_ & R & V).
  assert (H : dval (rescale_type_to_01 w x) <= / 2).
  { rewrite V. rewrite <- (rnd_id (/ 2)) by (change (/ 2) with (bpow radix2 (-1)); apply F64_bpow; lia). apply rnd_mono.
    set (B := rnd (IZR (Z.of_N (2 ^ w - 1)))). assert (B1 : 1 <= B) by (unfold B; rewrite <- (rnd_id 1 F64_1); apply rnd_mono, IZR_le; lia).
    apply Rmult_le_reg_r with B; [lra|]. replace (rnd (IZR (Z.of_N x)) / B * B) with (rnd (IZR (Z.of_N x))) by (field; lra).
    assert (BE : B = 2 * rnd (IZR (Z.of_N (2 ^ w - 1)) / 2)).
    { unfold B. replace 2 with (bpow radix2 1) at 1 by reflexivity. rewrite <- rnd_scale; [f_equal; change (bpow radix2 1) with 2; field|lia| |].
      - assert (0 <= IZR (Z.of_N (2 ^ w - 1))) by (apply (IZR_le 0); lia). lra.
      - right. assert (1 <= IZR (Z.of_N (2 ^ w - 1))) by (apply (IZR_le 1); lia). apply Rle_trans with (bpow radix2 (-1)); [apply bpow_le; lia|]. change (bpow radix2 (-1)) with (/ 2). lra. }
    rewrite BE. replace (/ 2 * (2 * rnd (IZR (Z.of_N (2 ^ w - 1)) / 2))) with (rnd (IZR (Z.of_N (2 ^ w - 1)) / 2)) by field. apply rnd_mono.
    assert (IZR (Z.of_N x) * 2 <= IZR (Z.of_N (2 ^ w - 1))); [|lra]. rewrite <- mult_IZR. apply IZR_le. lia. }
  assert (S : dval (scaled w (2 ^ k) x) <= IZR (Z.of_N (2 ^ (k - 1)))).
  { rewrite E. assert (F : F64 (IZR (Z.of_N (2 ^ (k - 1))))) by (rewrite N2Z.inj_pow, IZR_pow2 by lia; apply F64_bpow; lia). rewrite <- (rnd_id _ F). apply rnd_mono.
    rewrite E3, N2Z.inj_mul, mult_IZR. assert (0 <= IZR (Z.of_N (2 ^ (k - 1)))) by (apply (IZR_le 0); lia). simpl (Z.of_N 2). nra. }
  assert (F : (Zfloor (dval (scaled w (2 ^ k) x)) <= Z.of_N (2 ^ (k - 1)))%Z) by (rewrite <- (Zfloor_IZR (Z.of_N _)); apply Zfloor_le, S). lia.
Qed.
Lemma high_bin w k x : (8 <= w <= 64)%N -> (5 <= k <= w)%N -> (k <= 53)%N -> is_word w x -> (2 ^ (w - 1) <= x)%N -> exists b, bin_index w (2 ^ k) x = Ok b /\ (2 ^ (k - 1) <= b)%N.
Proof.
  intros Hw Hk Hk' Wx Hx. assert (E2 : (2 ^ w = 2 * 2 ^ (w - 1))%N) by (rewrite <- N.pow_succ_r'; f_equal; lia).
  assert (E3 : (2 ^ k = 2 * 2 ^ (k - 1))%N) by (rewrite <- N.pow_succ_r'; f_equal; lia).
  assert (Hm : (1 <= 2 ^ k <= 2 ^ 53)%N) by (split; [change 1%N with (2 ^ 0)%N|]; apply N.pow_le_mono_r; lia).
  assert (P1 : (1 <= 2 ^ (w - 1))%N) by (change 1%N with (2 ^ 0)%N; apply N.pow_le_mono_r; lia).
  assert (P2 : (1 <= 2 ^ (k - 1))%N) by (change 1%N with (2 ^ 0)%N; apply N.pow_le_mono_r; lia).
  rewrite bin_index_val by (assumption || lia). eexists. split; [reflexivity|].
  destruct (scaled_ok w (2 ^ k) x ltac:(lia) Hm Wx) as (_ & E & _). destruct (rescale_range w x ltac:(lia) Wx) as (_ & R & V).
  assert (H : / 2 <= dval (rescale_type_to_01 w x)).
  { rewrite V. rewrite <- (rnd_id (/ 2)) by (change (/ 2) with (bpow radix2 (-1)); apply F64_bpow; lia). apply rnd_mono.
    set (B := rnd (IZR (Z.of_N (2 ^ w - 1)))). assert (B1 : 1 <= B) by (unfold B; rewrite <- (rnd_id 1 F64_1); apply rnd_mono, IZR_le; lia).
    apply Rmult_le_reg_r with B; [lra|]. replace (rnd (IZR (Z.of_N x)) / B * B) with (rnd (IZR (Z.of_N x))) by (field; lra).
    assert (BU : B <= bpow radix2 (Z.of_N w)).
    { unfold B. rewrite <- (rnd_id (bpow radix2 (Z.of_N w))) by (apply F64_bpow; lia). apply rnd_mono. rewrite <- IZR_pow2 by lia. change 2%Z with (Z.of_N 2). rewrite <- N2Z.inj_pow. apply IZR_le. lia. }
    assert (XL : bpow radix2 (Z.of_N (w - 1)) <= rnd (IZR (Z.of_N x))).
    { rewrite <- (rnd_id (bpow radix2 (Z.of_N (w - 1)))) by (apply F64_bpow; lia). apply rnd_mono. rewrite <- IZR_pow2 by lia. change 2%Z with (Z.of_N 2). rewrite <- N2Z.inj_pow. apply IZR_le. lia. }
    replace (Z.of_N w) with (1 + Z.of_N (w - 1))%Z in BU by lia. rewrite bpow_plus in BU. change (bpow radix2 1) with 2 in BU. lra. }
  assert (S : IZR (Z.of_N (2 ^ (k - 1))) <= dval (scaled w (2 ^ k) x)).
  { rewrite E. assert (F : F64 (IZR (Z.of_N (2 ^ (k - 1))))) by (rewrite N2Z.inj_pow, IZR_pow2 by lia; apply F64_bpow; lia). rewrite <- (rnd_id _ F). apply rnd_mono.
    rewrite E3, N2Z.inj_mul, mult_IZR. assert (0 <= IZR (Z.of_N (2 ^ (k - 1)))) by (apply (IZR_le 0); lia). simpl (Z.of_N 2). nra. }
  assert (F : (Z.of_N (2 ^ (k - 1)) <= Zfloor (dval (scaled w (2 ^ k) x)))%Z) by (rewrite <- (Zfloor_IZR (Z.of_N (2 ^ (k - 1)))); apply Zfloor_le, S). lia.
Qed.
Lemma top_bit w x : (1 <= w)%N -> is_word w x -> N.testbit x (w - 1) = (2 ^ (w - 1) <=? x)%N.
Proof.
  intros Hw Wx. unfold is_word in Wx. assert (E2 : (2 ^ w = 2 * 2 ^ (w - 1))%N) by (rewrite <- N.pow_succ_r'; f_equal; lia).
  rewrite N.testbit_eqb. destruct (N.leb_spec (2 ^ (w - 1)) x) as [L|L].
  - replace (x / 2 ^ (w - 1))%N with 1%N; [reflexivity|]. apply (N.div_unique x (2 ^ (w - 1)) 1 (x - 2 ^ (w - 1))); lia.
  - rewrite N.div_small by exact L. reflexivity.
Qed.

Lemma uniform_stuck M exp w n stream : good_lib M exp -> In w widths -> samples n -> (forall i, is_word w (stream i)) -> stuck_top w stream ->
  alarm (uniform_test M (chi2_cdf M exp) w n stream).
Proof.
  intros G Hw Hn Hs [b Hb]. apply uniform_alarm; try assumption. intros k Hk Hk28 _. assert (W : (8 <= w <= 64)%N) by (cbn in Hw; intuition lia).
  assert (E3 : (2 ^ k = 2 * 2 ^ (k - 1))%N) by (rewrite <- N.pow_succ_r'; f_equal; lia).
  assert (P2 : (1 <= 2 ^ (k - 1))%N) by (change 1%N with (2 ^ 0)%N; apply N.pow_le_mono_r; lia).
  set (h := N.to_nat (2 ^ (k - 1))).
  destruct b.
  - exists (seq 0 h). split; [apply seq_NoDup|]. rewrite seq_length. split; [lia|]. intros i Hi. apply in_seq in Hi. split; [lia|]. intros j _ E.
    specialize (Hb j). rewrite top_bit in Hb by (try apply Hs; lia). apply N.leb_le in Hb.
    destruct (high_bin w k (stream j) W Hk ltac:(lia) (Hs j) Hb) as (c & Ec & Lc). rewrite Ec in E. injection E as ->. lia.
  - exists (seq (S h) (h - 1)). split; [apply seq_NoDup|]. rewrite seq_length. split; [lia|]. intros i Hi. apply in_seq in Hi. split; [lia|]. intros j _ E.
    specialize (Hb j). rewrite top_bit in Hb by (try apply Hs; lia). apply N.leb_gt in Hb.
    destruct (low_bin w k (stream j) W Hk ltac:(lia) Hb) as (c & Ec & Lc). rewrite Ec in E. injection E as ->. lia.
Qed.
Lemma uniform_few M exp w n stream : good_lib M exp -> In w widths -> samples n -> (forall i, is_word w (stream i)) -> few_values w n stream ->
  alarm (uniform_test M (chi2_cdf M exp) w n stream).
Proof.
  intros G Hw Hn Hs (vs & Hv & L1 & L2). apply uniform_alarm; try assumption. intros k Hk Hk28 Hor. assert (W : (8 <= w <= 64)%N) by (cbn in Hw; intuition lia).
  assert (E3 : (2 ^ k = 2 * 2 ^ (k - 1))%N) by (rewrite <- N.pow_succ_r'; f_equal; lia).
  set (hit := map (fun x => match bin_index w (2 ^ k) x with Ok b => N.to_nat b | UB => O end) vs).
  exists (filter (fun i => negb (existsb (Nat.eqb i) hit)) (seq 0 (N.to_nat (2 ^ k)))). split; [apply NoDup_filter, seq_NoDup|]. split.
  - assert (LH : (N.of_nat (length hit) <= 2 ^ (k - 1) + 1)%N).
    { unfold hit. rewrite map_length. destruct Hor as [Hor| ->]; [|lia]. destruct (Rpower_25 n Hn) as [[Y1 Y2] Y3]. set (Y := Rpower (IZR (Z.of_N n)) (2 / 5)) in *.
      replace (/ 2 ^ 38) with (/ 274877906944) in Hor by (f_equal; cbn; lra). rewrite E3, N2Z.inj_mul, mult_IZR in Hor. simpl (Z.of_N 2) in Hor.
      apply N2Z.inj_le, le_IZR. rewrite nat_N_Z, <- INR_IZR_INZ, N2Z.inj_add, plus_IZR. simpl (Z.of_N 1). lra. }
    assert (SP : forall (p : nat -> bool) l, length l = (length (filter p l) + length (filter (fun i => negb (p i)) l))%nat).
    { clear. induction l as [|a l IH]; cbn; [reflexivity|]. destruct (p a); cbn; lia. }
    pose proof (SP (fun i => existsb (Nat.eqb i) hit) (seq 0 (N.to_nat (2 ^ k)))) as SE. rewrite seq_length in SE.
    assert (LF : (length (filter (fun i => existsb (Nat.eqb i) hit) (seq 0 (N.to_nat (2 ^ k)))) <= length hit)%nat).
    { apply NoDup_incl_length; [apply NoDup_filter, seq_NoDup|]. intros i Hi. apply filter_In in Hi. destruct Hi as [_ Hi]. apply existsb_exists in Hi. destruct Hi as (j & Hj & Ej). apply Nat.eqb_eq in Ej. subst. exact Hj. }
    lia.
  - intros i Hi. apply filter_In in Hi. destruct Hi as [Hi NH]. apply in_seq in Hi. split; [lia|]. intros j Hj E. apply negb_true_iff in NH.
    assert (existsb (Nat.eqb i) hit = true); [|congruence]. apply existsb_exists. exists i. split; [|apply Nat.eqb_refl]. unfold hit. apply in_map_iff. exists (stream j). rewrite E, Nat2N.id. split; [reflexivity|]. apply Hv, Hj.
Qed.

(* ---- bit independence ---- *)
Lemma flat_extreme os n : (0 < n)%N -> INR (length (filter (fun o => (o =? 0) || (o =? 2 * n))%N os)) * IZR (Z.of_N n) <= chi2_sum 0 os (repeat (IZR (Z.of_N n)) (length os)).
Proof.
  intros Hn. set (c := IZR (Z.of_N n)). assert (Hc : 0 < c) by (apply IZR_lt; lia).
  unfold chi2_sum. induction os as [|o os IH]; [cbn; lra|]. cbn [length repeat combine map fst snd filter]. change (rsum (?a :: ?l)) with (a + rsum l).
  rewrite Rlt_bool_true by exact Hc. destruct (N.eqb_spec o 0) as [->|N0]; [|destruct (N.eqb_spec o (2 * n)) as [->|N1]]; cbn [orb].
  - cbn [length]. rewrite S_INR. change (IZR (Z.of_N 0)) with 0. replace ((0 - c) ^ 2 / c) with c by (field; lra). lra.
  - cbn [length]. rewrite S_INR. rewrite N2Z.inj_mul, mult_IZR. fold c. simpl (Z.of_N 2). replace ((2 * c - c) ^ 2 / c) with c by (field; lra). lra.
  - assert (0 <= (IZR (Z.of_N o) - c) ^ 2 / c) by (apply Rmult_le_pos; [apply pow2_ge_0|left; apply Rinv_0_lt_compat; lra]). lra.
Qed.
Lemma matches_ge (p : N -> bool) os E : NoDup E -> (forall i, In i E -> (i < length os)%nat /\ p (nth i os 0%N) = true) -> (length E <= length (filter p os))%nat.
Proof.
  intros ND H. rewrite <- (map_nth_seq os 0%N) at 1. rewrite filter_len_map. apply NoDup_incl_length; [exact ND|]. intros i Hi. destruct (H i Hi) as [L Z].
  apply filter_In. split; [apply in_seq; lia|exact Z].
Qed.
Lemma count_all {A} (p : A -> bool) l b : (forall x, In x l -> p x = b) -> count p l = (if b then N.of_nat (length l) else 0)%N.
Proof.
  intros H. unfold count. induction l as [|x l IH]; [destruct b; reflexivity|]. cbn [filter]. rewrite (H x (or_introl eq_refl)).
  specialize (IH (fun y Hy => H y (or_intror Hy))). destruct b; [cbn [length]; lia|exact IH].
Qed.
(* cells that are constant: flipping input bit j always changes output bit k, or never *)
Lemma bic_alarm M exp w n stream mix E : good_lib M exp -> In w widths -> samples n -> (forall i, is_word w (stream i)) -> (forall x, is_word w x -> is_word w (mix x)) ->
  NoDup E -> (4 * (w * w) + 200 <= N.of_nat (length E) * n)%N -> (forall i, In i E -> (i < N.to_nat w * N.to_nat w)%nat /\ exists b, forall s, is_word w s -> N.testbit (output_change mix s (i / N.to_nat w)) (N.of_nat (i mod N.to_nat w)) = b) ->
  alarm (bic_test (chi2_cdf M exp) w n stream mix).
Proof.
  intros G Hw Hn Hs Hm ND HL HE. assert (W : (8 <= w <= 64)%N) by (cbn in Hw; intuition lia). unfold samples in Hn. change (2 ^ 26)%N with 67108864%N in Hn.
  destruct (bic_ok' (chi2_cdf M exp) w n stream mix ltac:(lia) ltac:(change (2 ^ 52)%N with 4503599627370496%N; lia) Hs Hm) as (os & s & L & C & T & Et).
  exists [mksub "" (Some s)], ""%string, s. split; [exact Et|]. split; [left; reflexivity|]. set (v := N.to_nat w) in *. assert (V : (8 <= v <= 64)%nat) by lia. rewrite <- L in T.
  assert (Hc : 0 < IZR (Z.of_N n)) by (apply IZR_lt; lia). assert (NR : 1024 <= IZR (Z.of_N n)) by (apply IZR_le; lia).
  assert (V2 : (length os <= 4096)%nat) by (rewrite L; nia).
  apply (alarm_chi2 M exp 0 os _ s G (Rle_refl 0) ltac:(lia) T).
  rewrite filter_repeat, Rlt_bool_true by exact Hc. apply Rle_trans with (2 := flat_extreme os n ltac:(lia)).
  assert (Z : (length E <= length (filter (fun o => (o =? 0) || (o =? 2 * n))%N os))%nat).
  { apply matches_ge; [exact ND|]. intros i Hi. destruct (HE i Hi) as (A & b & Hb). split; [rewrite L; exact A|].
    assert (V0 : v <> 0%nat) by lia. pose proof (Nat.div_mod i v V0) as D. pose proof (Nat.mod_upper_bound i v V0) as U.
    assert (Q : (i / v < v)%nat) by (apply Nat.div_lt_upper_bound; [exact V0|exact A]).
    replace i with (i / v * v + i mod v)%nat at 1 2 by lia. rewrite (C _ _ Q U).
    rewrite (count_all _ _ b); [|intros x Hx; apply Hb; pose proof (values_words w stream n Hs) as F; rewrite Forall_forall in F; apply F, Hx].
    rewrite values_len, N2Nat.id. destruct b; [rewrite N.eqb_refl; apply orb_true_r|reflexivity]. }
  apply le_INR in Z. apply Rle_trans with (INR (length E) * IZR (Z.of_N n)); [|apply Rmult_le_compat_r; lra].
  apply N2Z.inj_le in HL. apply IZR_le in HL. rewrite N2Z.inj_add, !N2Z.inj_mul, nat_N_Z, plus_IZR, !mult_IZR in HL. rewrite L, mult_INR, !INR_IZR_INZ. unfold v. rewrite N_nat_Z. simpl (Z.of_N 4) in HL. simpl (Z.of_N 200) in HL. lra.
Qed.

Lemma bic_cell M exp w n stream mix j k b : good_lib M exp -> In w widths -> samples n -> (forall i, is_word w (stream i)) -> (forall x, is_word w x -> is_word w (mix x)) ->
  (4 * (w * w) + 200 <= n)%N -> (j < N.to_nat w)%nat -> (k < N.to_nat w)%nat -> (forall s, is_word w s -> N.testbit (output_change mix s j) (N.of_nat k) = b) ->
  alarm (bic_test (chi2_cdf M exp) w n stream mix).
Proof.
  intros G Hw Hn Hs Hm L Hj Hk Hb. apply (bic_alarm M exp w n stream mix [(j * N.to_nat w + k)%nat]); try assumption.
  - constructor; [intros []|constructor].
  - cbn [length]. lia.
  - intros i [<-|[]]. split; [nia|]. exists b. rewrite (Nat.mul_comm j), Nat.add_comm. assert (V0 : N.to_nat w <> 0%nat) by lia.
    rewrite (Nat.mul_comm (N.to_nat w)), Nat.div_add, Nat.mod_add, Nat.div_small, Nat.mod_small by assumption. exact Hb.
Qed.
Lemma bic_affine M exp w n stream mix : good_lib M exp -> In w widths -> samples n -> (forall i, is_word w (stream i)) -> (forall x, is_word w x -> is_word w (mix x)) ->
  affine w mix -> alarm (bic_test (chi2_cdf M exp) w n stream mix).
Proof.
  intros G Hw Hn Hs Hm HA. assert (W : (8 <= w <= 64)%N) by (cbn in Hw; intuition lia). unfold samples in Hn.
  apply (bic_alarm M exp w n stream mix (seq 0 (N.to_nat w * N.to_nat w))); try assumption; [apply seq_NoDup| |].
  - rewrite seq_length. nia.
  - intros i Hi. apply in_seq in Hi. split; [lia|]. set (j := (i / N.to_nat w)%nat). exists (N.testbit (N.lxor (mix (2 ^ N.of_nat j)%N) (mix 0%N)) (N.of_nat (i mod N.to_nat w))).
    intros s Ws. f_equal. unfold output_change. assert (P : is_word w (2 ^ N.of_nat j)).
    { unfold is_word. apply N.pow_lt_mono_r; [lia|]. assert (j < N.to_nat w)%nat by (apply Nat.div_lt_upper_bound; lia). lia. }
    rewrite (HA (mix s) (2 ^ N.of_nat j)%N) by (try apply Hm; assumption). apply N.bits_inj. intro z. rewrite !N.lxor_spec.
    destruct (N.testbit (mix (mix s)) z), (N.testbit (mix (2 ^ N.of_nat j)%N) z), (N.testbit (mix 0%N) z); reflexivity.
Qed.
Lemma row_count v j : (0 < v)%nat -> (j <= v)%nat -> length (filter (fun i => (i mod v <? i / v)%nat) (seq (j * v) v)) = j.
Proof.
  intros Hv Hj. replace (seq (j * v) v) with (map (fun k => j * v + k)%nat (seq 0 v)).
  - rewrite filter_len_map. rewrite (filter_ext_in _ (fun k => (k <? j)%nat)).
    + clear Hv. assert (G : forall n b, length (filter (fun k => (k <? j)%nat) (seq b n)) = Nat.min n (j - b)).
      { induction n as [|n IH]; intros b; [reflexivity|]. cbn [seq filter]. destruct (Nat.ltb_spec b j); cbn [length]; rewrite IH; lia. }
      rewrite G. lia.
    + intros k Hk. apply in_seq in Hk. rewrite Nat.div_add_l by lia. rewrite Nat.div_small by lia. rewrite Nat.add_comm, Nat.mod_add by lia. rewrite Nat.mod_small by lia. f_equal. lia.
  - generalize (j * v)%nat. clear. intros b. transitivity (seq (b + 0) v); [|f_equal; lia]. generalize 0%nat. induction v as [|v IH]; intros c; [reflexivity|]. cbn [seq map]. f_equal. rewrite IH. f_equal. lia.
Qed.
Lemma triangle v r : (0 < v)%nat -> (r <= v)%nat -> (2 * length (filter (fun i => (i mod v <? i / v)%nat) (seq 0 (r * v))) + r = r * r)%nat.
Proof.
  intros Hv. induction r as [|r IH]; intros Hr; [reflexivity|]. specialize (IH ltac:(lia)). replace (S r * v)%nat with (r * v + v)%nat by lia.
  rewrite seq_app, filter_app, app_length, Nat.add_0_l. rewrite row_count by lia. lia.
Qed.
Lemma bic_low M exp w n stream mix : good_lib M exp -> In w widths -> samples n -> (forall i, is_word w (stream i)) -> (forall x, is_word w x -> is_word w (mix x)) ->
  low_to_high w mix -> alarm (bic_test (chi2_cdf M exp) w n stream mix).
Proof.
  intros G Hw Hn Hs Hm HA. assert (W : (8 <= w <= 64)%N) by (cbn in Hw; intuition lia). unfold samples in Hn.
  set (v := N.to_nat w). apply (bic_alarm M exp w n stream mix (filter (fun i => (i mod v <? i / v)%nat) (seq 0 (v * v)))); try assumption; [apply NoDup_filter, seq_NoDup| |].
  - assert (C : (w * w <= 3 * N.of_nat (length (filter (fun i => (i mod v <? i / v)%nat) (seq 0 (v * v)))))%N).
    { pose proof (triangle v v ltac:(unfold v; lia) ltac:(lia)) as T. unfold v in *. nia. }
    nia.
  - intros i Hi. apply filter_In in Hi. destruct Hi as [Hi Ht]. apply in_seq in Hi. apply Nat.ltb_lt in Ht. fold v. split; [lia|]. set (j := (i / v)%nat) in *. set (k := (i mod v)%nat) in *. exists false.
    assert (Hj : (j < v)%nat) by (apply Nat.div_lt_upper_bound; lia).
    intros s Ws. unfold output_change. rewrite N.lxor_spec.
    assert (P : is_word w (2 ^ N.of_nat j)) by (unfold is_word; apply N.pow_lt_mono_r; [lia|]; lia).
    assert (E : (mix (mix s) mod 2 ^ N.of_nat j = mix (N.lxor (mix s) (2 ^ N.of_nat j)) mod 2 ^ N.of_nat j)%N).
    { apply HA; [apply Hm, Ws|apply word_lxor; [apply Hm, Ws|exact P]|]. apply N.bits_inj. intro z. destruct (N.lt_ge_cases z (N.of_nat j)) as [L|L].
      - rewrite !N.mod_pow2_bits_low by exact L. rewrite N.lxor_spec, N.pow2_bits_false by lia. destruct (N.testbit (mix s) z); reflexivity.
      - rewrite !N.mod_pow2_bits_high by exact L. reflexivity. }
    apply (f_equal (fun z => N.testbit z (N.of_nat k))) in E. rewrite !N.mod_pow2_bits_low in E by lia. rewrite E. apply xorb_nilpotent.
Qed.

(* ---- linear complexity ---- *)
Lemma used_bins (p : R -> bool) es (W : list nat) : (forall i, (i < length es)%nat -> p (nth i es 0) = true -> In i W) -> (length (filter p es) <= length W)%nat.
Proof.
  intros H. rewrite <- (map_nth_seq es 0) at 1. rewrite filter_len_map. apply NoDup_incl_length; [apply NoDup_filter, seq_NoDup|]. intros i Hi.
  apply filter_In in Hi. destruct Hi as [Hi P]. apply in_seq in Hi. apply H; [lia|exact P].
Qed.
Lemma lc_center bs : (8 <= bs)%nat -> lc_prob bs ((bs + 1) / 2) = / 2.
Proof.
  intros H0. unfold lc_prob, lc_count. assert (Hd := Nat.div_mod (bs + 1) 2 ltac:(lia)). assert (Hm := Nat.mod_upper_bound (bs + 1) 2 ltac:(lia)).
  set (h := ((bs + 1) / 2)%nat) in *. set (m := ((bs + 1) mod 2)%nat) in *.
  destruct (Nat.eqb_spec h 0); [lia|]. destruct (Nat.ltb_spec bs h); [lia|].
  assert (E : exists x, (if (2 * h <=? bs)%nat then (2 ^ (2 * h - 1))%nat else (2 ^ (2 * bs - 2 * h))%nat) = (2 ^ x)%nat /\ bs = S x) by (destruct (Nat.leb_spec (2 * h) bs); eexists; (split; [reflexivity|lia])).
  destruct E as (x & -> & ->). rewrite INR_IZR_INZ, pow2_nat_Z, Nat2Z.inj_succ, Z.pow_succ_r by lia. rewrite mult_IZR. assert (IZR (2 ^ Z.of_nat x) <> 0) by (apply not_0_IZR; apply Z.pow_nonzero; lia). field. assumption.
Qed.
Lemma lc_used bs L b : (8 <= bs)%nat -> (L <= bs)%nat -> 0 <= b <= 1151 -> 5 < b * lc_prob bs L -> (bs <= 2 * L + 8 /\ 2 * L <= bs + 8)%nat.
Proof.
  intros H0 HL Hb H. unfold lc_prob in H. assert (P : 0 < IZR (2 ^ Z.of_nat bs)) by (apply IZR_lt, Z.pow_pos_nonneg; lia).
  assert (C : 256 * INR (lc_count bs L) > IZR (2 ^ Z.of_nat bs)).
  { assert (Q : 0 <= INR (lc_count bs L)) by apply pos_INR. set (c := INR (lc_count bs L)) in *. set (q := IZR (2 ^ Z.of_nat bs)) in *.
    assert (5 * q < b * c) by (apply Rmult_lt_compat_r with (r := q) in H; [|exact P]; replace (b * (c / q) * q) with (b * c) in H by (field; lra); exact H). nra. }
  rewrite INR_IZR_INZ in C. change 256 with (IZR 256) in C. rewrite <- mult_IZR in C. apply lt_IZR in C.
  assert (E : forall x, Z.of_nat (lc_count bs L) = (2 ^ Z.of_nat x)%Z -> (bs < x + 8)%nat).
  { intros x Ex. rewrite Ex in C. change 256%Z with (2 ^ 8)%Z in C. rewrite <- Z.pow_add_r in C by lia. apply Z.pow_lt_mono_r_iff in C; lia. }
  unfold lc_count in *. destruct (Nat.eqb_spec L 0) as [->|N0].
  - specialize (E O eq_refl). lia.
  - destruct (Nat.ltb_spec bs L); [lia|]. destruct (Nat.leb_spec (2 * L) bs).
    + specialize (E (2 * L - 1)%nat (pow2_nat_Z _)). lia.
    + specialize (E (2 * bs - 2 * L)%nat (pow2_nat_Z _)). lia.
Qed.
Lemma lc_lfsr M exp w n stream r : good_lib M exp -> In w widths -> samples n -> (8192 <= n)%N -> lfsr_bits r (fun i => N.testbit (stream i) 0) -> (2 * N.of_nat r < n / 1024)%N ->
  alarm (linear_complexity_sub_test M (chi2_cdf M exp) w n stream).
Proof.
  intros G Hw Hn Hn8 [taps HT] Hr. unfold samples in Hn. change (2 ^ 26)%N with 67108864%N in Hn.
  destruct (lc_test_ok' M (chi2_cdf M exp) w n stream (proj1 G) Hw ltac:(change (2 ^ 53)%N with 9007199254740992%N; lia)) as [_ B].
  destruct (B Hn8) as (bs & b & lc & es & s & Eb & _ & Hb & LC & Le & He & T & E). clear B.
  assert (B8 : (8 <= n / 1024)%N) by (apply N.div_le_lower_bound; lia). assert (BU : (n / 1024 <= 65536)%N) by (apply N.div_le_upper_bound; lia).
  eexists _, _, s. split; [exact E|]. split; [left; reflexivity|].
  assert (HB : 1024 <= IZR (Z.of_N b) <= 1151) by (split; apply IZR_le; lia).
  set (os := map _ _) in T. assert (Lo : length os = S bs) by (unfold os; rewrite map_length, seq_length; reflexivity).
  apply (alarm_chi2 M exp 5 os es s G ltac:(lra) ltac:(lia) T).
  assert (P1000 : bpow radix2 (-1000) <= / 2) by (change (/ 2) with (bpow radix2 (-1)); apply bpow_le; lia).
  set (c := ((bs + 1) / 2)%nat). assert (Hd := Nat.div_mod (bs + 1) 2 ltac:(lia)). assert (Hm := Nat.mod_upper_bound (bs + 1) 2 ltac:(lia)). fold c in Hd.
  assert (Ec : nth c es 0 = IZR (Z.of_N b) / 2).
  { specialize (He c ltac:(lia)). unfold c in He at 1. rewrite lc_center in He by lia. rewrite Rle_bool_true in He by exact P1000. rewrite He. unfold c. rewrite lc_center by lia. reflexivity. }
  assert (Oc : nth c os 0%N = 0%N).
  { unfold os. rewrite (nth_indep _ 0%N ((fun L => count (fun k => Nat.eqb (lc (map (fun i => N.testbit (stream i) 0) (seq (k * bs) bs))) L) (seq 0 (N.to_nat b))) 0%nat)) by (rewrite map_length, seq_length; lia).
    rewrite (map_nth (fun L => count (fun k => Nat.eqb (lc (map (fun i => N.testbit (stream i) 0) (seq (k * bs) bs))) L) (seq 0 (N.to_nat b)))), seq_nth by lia. cbn [Nat.add].
    rewrite (count_all _ _ false); [reflexivity|]. intros k _. apply Nat.eqb_neq. destruct (LC (map (fun i => N.testbit (stream i) 0) (seq (k * bs) bs))) as [_ MI].
    assert (GEN : generates r taps (map (fun i => N.testbit (stream i) 0) (seq (k * bs) bs))).
    { intros i Hi. rewrite map_length, seq_length in Hi.
      assert (NT : forall i, (i < bs)%nat -> nth i (map (fun i => N.testbit (stream i) 0) (seq (k * bs) bs)) false = N.testbit (stream (k * bs + i)%nat) 0).
      { intros z Hz. rewrite (nth_indep _ false ((fun i => N.testbit (stream i) 0) 0%nat)) by (rewrite map_length, seq_length; exact Hz). rewrite (map_nth (fun i => N.testbit (stream i) 0)), seq_nth by exact Hz. reflexivity. }
      rewrite NT by lia. rewrite HT by lia. apply LfsrProofs.xsum_ext. intros j Hj. rewrite NT by lia. do 3 f_equal. lia. }
    specialize (MI r taps GEN). lia. }
  assert (U : (length (filter (Rlt_bool 5) es) <= 20)%nat).
  { rewrite <- (seq_length 20 (bs / 2 - 6)). apply used_bins. intros i Hi P. rewrite Le in Hi. specialize (He i ltac:(lia)). destruct (Rlt_bool_spec 5 (nth i es 0)) as [P'|]; [|discriminate].
    destruct (Rle_bool (bpow radix2 (-1000)) (lc_prob bs i)).
    - rewrite He in P'. destruct (lc_used bs i (IZR (Z.of_N b)) ltac:(lia) ltac:(lia) ltac:(lra) P'). assert (Hd' := Nat.div_mod bs 2 ltac:(lia)). assert (Hm' := Nat.mod_upper_bound bs 2 ltac:(lia)). apply in_seq. lia.
    - assert (bpow radix2 (-900) <= 1) by (change 1 with (bpow radix2 0); apply bpow_le; lia). lra. }
  apply le_INR in U. replace (INR 20) with 20 in U by (simpl; lra).
  pose proof (chi2_term 5 os es c ltac:(lra) ltac:(lia) ltac:(lia)) as X. rewrite Oc, Ec in X. specialize (X ltac:(lra)). change (IZR (Z.of_N 0)) with 0 in X.
  replace ((0 - IZR (Z.of_N b) / 2) ^ 2 / (IZR (Z.of_N b) / 2)) with (IZR (Z.of_N b) / 2) in X by (field; lra). lra.
Qed.
