(* The chi-square p-value is a probability. *)
From Coq Require Import Reals Lra Lia Psatz ZArith List.
From Flocq Require Import Core BinarySingleNaN Relative.
From Verif Require Import Base FloatModel FloatLemmas ResultModel ResultSpec CollectModel StatsModel StatsProofs CouponFloatProofs StatFormulas DistModel DistSpec DistReal DistReal2 DistSeries DistLentz DistGamma DistLarge.
Open Scope R_scope.

Lemma dbl_min x : 0 < dval x -> bpow radix2 (-1074) <= dval x.
Proof.
  intros Hx. destruct (Rle_or_lt (bpow radix2 (-1074)) (dval x)) as [|Hlt]; [assumption|exfalso].
  pose proof (abs_B2R_ge_emin 53 1024 x) as A.
  destruct x as [sx|sx| |sx mx ex Hb]; cbn in Hx; try lra. cbn in A. specialize (A eq_refl).
  change (SpecFloat.emin 53 1024) with (-1074)%Z in A. rewrite Rabs_right in A by lra. unfold dval in Hlt. cbn in Hlt. lra.
Qed.
Lemma ln_low x : 0 < dval x -> -746 <= ln (dval x).
Proof.
  intros Hx. pose proof (dbl_min x Hx) as H. pose proof (bpow_gt_0 radix2 (-1074)) as P.
  apply Rle_trans with (ln (bpow radix2 (-1074))); [|apply ln_mono; assumption].
  assert (E : bpow radix2 (-1074) = / 2 ^ (Z.to_nat 1074)).
  { change (-1074)%Z with (- (1074))%Z. rewrite bpow_opp. f_equal. rewrite <- (Z2Nat.id 1074) at 1 by lia. rewrite bpow_powerRZ, <- pow_powerRZ. reflexivity. }
  rewrite E, ln_Rinv by (apply pow_lt; lra). rewrite ln_pow by lra. rewrite INR_IZR_INZ, Z2Nat.id by lia. pose proof ln2_up. lra.
Qed.

Section Dist.
Variables (log exp erfc : double -> double).
Hypothesis G : good_dist log exp erfc.
Lemma H_log x : fin x -> 0 < dval x -> fin (log x) /\ Rabs (dval (log x) - ln (dval x)) <= bpow radix2 (-40).
Proof. apply (gd_log _ _ _ G). Qed.
Lemma log_pos_near x A : fin x -> 0 < dval x -> Rabs (ln (dval x)) <= A -> near_R (log x) (ln (dval x)) (bpow radix2 (-40)) A.
Proof. intros F P B. destruct (H_log x F P) as [FL EL]. repeat split; assumption. Qed.
Lemma exp_prob x : fin x -> dval x <= 0 -> valid01 (exp x).
Proof. intros F H. exact (gd_exp _ _ _ G x F H). Qed.

(* s * log z - z - log_gamma t + or - log v, in floating point and exactly *)
Lemma exponent_near (plus : bool) s z t v m mt : fin s -> (1 <= m <= 1100000)%Z -> dval s = IZR m / 2 -> fin t -> (1 <= mt <= 1200000)%Z -> dval t = IZR mt / 2 ->
  fin z -> 0 < dval z <= 17179869184 -> fin v -> / 2 <= dval v <= 1000000000000 ->
  let b := dsub (dsub (dmul s (log z)) z) (log_gamma log t) in
  let B := dval s * ln (dval z) - dval z - log_gamma_R (dval t) in
  let r := if plus then dadd b (log v) else dsub b (log v) in
  fin r /\ dval r <= (if plus then B + ln (dval v) else B - ln (dval v)) + / 1000.
Proof.
  intros Fs Hm Vs Ft Hmt Vt Fz Hz Fv Hv. cbv zeta.
  assert (Sr : Rabs (dval s) <= 550000).
  { rewrite Vs. destruct Hm as [M1 M2]. apply IZR_le in M1, M2. apply Rabs_le. lra. }
  assert (N1 : near_R (log z) (ln (dval z)) (/ 1000000000000) 746).
  { apply (near_le _ _ (bpow radix2 (-40)) 746); [|rewrite c40; lra|lra]. apply log_pos_near; [exact Fz|lra|]. apply Rabs_le. split; [apply ln_low; lra|].
    pose proof (ln_pow2 34 (dval z)) as L. replace (2 ^ 34) with 17179869184 in L by (simpl; lra). specialize (L ltac:(lra)). rewrite INR_IZR_INZ in L. change (Z.of_nat 34) with 34%Z in L. lra. }
  assert (N2 : near_R (log v) (ln (dval v)) (/ 1000000000000) 40).
  { apply (near_le _ _ (bpow radix2 (-40)) 40); [|rewrite c40; lra|lra]. apply log_pos_near; [exact Fv|lra|]. apply Rabs_le. split.
    - apply Rle_trans with (ln (/ 2)); [|apply ln_mono; lra]. rewrite ln_Rinv by lra. pose proof ln2_up. lra.
    - pose proof (ln_pow2 40 (dval v)) as L. replace (2 ^ 40) with 1099511627776 in L by (simpl; lra). specialize (L ltac:(lra)). rewrite INR_IZR_INZ in L. change (Z.of_nat 40) with 40%Z in L. lra. }
  pose proof (log_gamma_near log t mt H_log Ft Hmt Vt) as N3.
  pose proof u_tiny as U. pose proof tau_le as T. pose proof tau_pos as T0.
  assert (N4 := near_mul s (log z) (dval s) (ln (dval z)) (/ 1000000000000) 550000 746 Fs eq_refl Sr N1 ltac:(lra) ltac:(unfold vast; lra)).
  apply (near_le _ _ _ _ (/ 1000000) 410300000) in N4; [|lra|lra].
  assert (N5 := near_sub _ _ _ _ _ _ _ _ N4 (near_exact z (dval z) 17179869184 Fz eq_refl ltac:(apply Rabs_le; lra)) ltac:(unfold vast; lra)).
  apply (near_le _ _ _ _ (/ 10000) 20000000000) in N5; [|lra|lra].
  assert (N6 := near_sub _ _ _ _ _ _ _ _ N5 N3 ltac:(unfold vast; lra)).
  apply (near_le _ _ _ _ (/ 5000) 30000000000) in N6; [|lra|lra].
  destruct plus.
  - assert (N7 := near_add _ _ _ _ _ _ _ _ N6 N2 ltac:(unfold vast; lra)). apply (near_le _ _ _ _ (/ 1000) 40000000000) in N7; [|lra|lra].
    destruct N7 as (F & E & _). split; [exact F|]. apply Rabs_le_inv in E. lra.
  - assert (N7 := near_sub _ _ _ _ _ _ _ _ N6 N2 ltac:(unfold vast; lra)). apply (near_le _ _ _ _ (/ 1000) 40000000000) in N7; [|lra|lra].
    destruct N7 as (F & E & _). split; [exact F|]. apply Rabs_le_inv in E. lra.
Qed.

Variables (s z : double) (m : Z).
Hypothesis Fs : fin s.
Hypothesis Fz : fin z.
Hypothesis Hm : (1 <= m <= 1100000)%Z.
Hypothesis Vs : dval s = IZR m / 2.
Lemma s_rng : / 2 <= dval s <= 550000.
Proof. rewrite Vs. destruct Hm as [M1 M2]. apply IZR_le in M1, M2. lra. Qed.
Lemma s1_ok : fin (dadd s d1) /\ dval (dadd s d1) = IZR (m + 2) / 2 /\ dval (dadd s d1) = dval s + 1.
Proof.
  pose proof s_rng as R. destruct d1_val as [V1 FD]. destruct (dadd_ok s d1 Fs FD) as [V F].
  - apply (small_R _ vast); [rewrite V1; apply Rabs_le; unfold vast; lra|unfold vast; lra].
  - assert (E : dval s + dval d1 = IZR (m + 2) / 2) by (rewrite V1, Vs, plus_IZR; lra).
    rewrite E in V. rewrite rnd_id in V by (apply F64_half; lia). split; [exact F|]. split; [exact V|]. rewrite V, <- E, V1. reflexivity.
Qed.
Lemma half_s : half_int (dval s).
Proof. exists m. split; [lia|exact Vs]. Qed.
(* the number below s *)
Definition Js : nat := Z.to_nat ((m - 1) / 2).
Lemma J_s : INR Js < dval s <= INR Js + 1.
Proof.
  unfold Js. rewrite INR_IZR_INZ, Z2Nat.id by (apply Z.div_pos; lia). rewrite Vs.
  pose proof (Z.div_mod (m - 1) 2 ltac:(lia)) as D. pose proof (Z.mod_pos_bound (m - 1) 2 ltac:(lia)) as B. set (q := ((m - 1) / 2)%Z) in *. 
  assert (L1 : (2 * q + 1 <= m)%Z) by lia. assert (L2 : (m <= 2 * q + 2)%Z) by lia. apply IZR_le in L1, L2. rewrite plus_IZR, mult_IZR in L1, L2. lra.
Qed.

(* z = 0: the exponent is - infinity *)
Lemma series_zero : dval z = 0 -> fin (kf_gammap_series log exp s z) /\ dval (kf_gammap_series log exp s z) = 0.
Proof.
  intros Z0. pose proof s_rng as R. destruct s1_ok as (F1 & V1 & V1'). unfold kf_gammap_series. set (v := gammap_loop s z (N.to_nat (max_iterations - 1)) 1 d1 d1).
  assert (Hv : fin v /\ 1 <= dval v).
  { destruct (Z.eq_dec m 1) as [E|E].
    - assert (Vh : dval s = / 2) by (rewrite Vs, E; lra). destruct (series_half s z Fs Fz Vh ltac:(lra)) as [Fv Hv]. fold v in Fv, Hv. split; [exact Fv|lra].
    - destruct (series_le s z m Fs Fz ltac:(lia) Vs ltac:(lra)) as [Fv Hv]. fold v in Fv, Hv. split; [exact Fv|lra]. }
  destruct Hv as [Fv Hv].
  rewrite (gd_log_0 _ _ _ G z Fz Z0).
  pose proof (log_gamma_near log (dadd s d1) (m + 2) H_log F1 ltac:(lia) V1) as (FG & _).
  destruct (H_log v Fv ltac:(lra)) as [FL _].
  assert (E : dadd (dsub (dsub (dmul s (B754_infinity true)) z) (log_gamma log (dadd s d1))) (log v) = B754_infinity true).
  { revert R FG FL. generalize (log_gamma log (dadd s d1)) (log v). revert Fs Fz. clear. intros Fs Fz a b R FG FL.
    assert (E : dmul s (B754_infinity true) = B754_infinity true).
    { destruct s as [sx|sx| |sx mx ex Hb]; try discriminate Fs.
      - cbn in R. lra.
      - destruct sx; [|reflexivity]. exfalso. unfold dval in R. cbn [B2R SpecFloat.cond_Zopp Z.opp] in R. assert (Q := F2R_lt_0 radix2 (Float radix2 (Z.neg mx) ex) eq_refl). lra. }
    rewrite E. clear E. destruct z; try discriminate Fz; destruct a; try discriminate FG; destruct b; try discriminate FL; reflexivity. }
  rewrite E. exact (gd_exp_inf _ _ _ G).
Qed.
(* the series *)
Lemma series_exponent : 0 < dval z -> dval z <= 1 \/ dval z < dval s -> exists e, kf_gammap_series log exp s z = exp e /\ fin e /\ dval e <= - 9 / 1000.
Proof.
  intros Hz Hb. pose proof s_rng as R. destruct s1_ok as (F1 & V1 & V1').
  assert (S : let v := gammap_loop s z (N.to_nat (max_iterations - 1)) 1 d1 d1 in fin v /\ 1 <= dval v <= 1000000000000 /\
    (0 < dval z -> dval s * ln (dval z) - dval z - log_gamma_R (dval s + 1) + ln (dval v) <= -10 / 1000)).
  { destruct (Z.eq_dec m 1) as [E|E].
    - assert (Vh : dval s = / 2) by (rewrite Vs, E; lra). destruct (series_half s z Fs Fz Vh ltac:(lra)) as [Fv Hv]. cbv zeta. split; [exact Fv|]. split; [lra|]. intros Hp.
      rewrite Vh. apply exponent_p_half; lra.
    - assert (H1 : 1 <= dval s) by (rewrite Vs; assert (2 <= m)%Z as M by lia; apply IZR_le in M; lra).
      destruct (series_le s z m Fs Fz ltac:(lia) Vs ltac:(lra)) as [Fv Hv]. cbv zeta. split; [exact Fv|]. split.
      + assert (Q : sqrt (2 * dval s) <= 2000) by (apply Rle_trans with (sqrt (2000 * 2000)); [apply sqrt_le_1_alt; lra|rewrite sqrt_square; lra]). lra.
      + intros Hp. pose proof (exponent_p (dval s) (dval z) (dval (gammap_loop s z (N.to_nat (max_iterations - 1)) 1 d1 d1)) half_s ltac:(lra) ltac:(lra) ltac:(lra)). lra. }
  cbv zeta in S. unfold kf_gammap_series. set (v := gammap_loop s z (N.to_nat (max_iterations - 1)) 1 d1 d1) in *. destruct S as (Fv & Hv & HE).
  specialize (HE Hz).
  destruct (exponent_near true s z (dadd s d1) v m (m + 2) Fs Hm Vs F1 ltac:(lia) V1 Fz ltac:(lra) Fv ltac:(lra)) as [F E]. cbv zeta iota in E, F. rewrite V1' in E.
  eexists. split; [reflexivity|]. split; [exact F|]. lra.
Qed.
Lemma series_prob : 0 <= dval z -> dval z <= 1 \/ dval z < dval s -> valid01 (kf_gammap_series log exp s z).
Proof.
  intros Hz Hb. destruct (Req_dec (dval z) 0) as [Z0|Z0].
  - destruct (series_zero Z0) as [F V]. split; [exact F|]. fold (dval (kf_gammap_series log exp s z)). rewrite V. lra.
  - destruct (series_exponent ltac:(lra) Hb) as (e & -> & F & L). apply exp_prob; [exact F|lra].
Qed.

(* the continued fraction *)
Lemma cf_exponent_small : dval z <= 17179869184 -> 1 <= dval z -> dval s <= dval z -> exists e, kf_gammaq_cf log exp s z = exp e /\ fin e /\ dval e <= - 19 / 1000 /\ (4 * dval s + 100 <= dval z -> dval e <= -35).
Proof.
  intros Hz H1 Hsz. pose proof s_rng as R. pose proof J_s as HJ.
  destruct (lentz_value s z m Js Fs Fz Hm Vs Hz HJ Hsz H1) as (Fv & Lv & Bv). unfold kf_gammaq_cf.
  set (v := gammaq_loop s z (N.to_nat (max_iterations - 1)) 1 (dsub (dadd d1 z) s) d0 (dsub (dadd d1 z) s)) in *.
  assert (HE : dval s * ln (dval z) - dval z - log_gamma_R (dval s) - ln (dval v) <= -20 / 1000 /\
    (4 * dval s + 100 <= dval z -> dval s * ln (dval z) - dval z - log_gamma_R (dval s) - ln (dval v) <= -36)).
  { destruct (Z.eq_dec m 1) as [E|E].
    - assert (Vh : dval s = / 2) by (rewrite Vs, E; lra). rewrite Vh. unfold Js in Lv. rewrite E in Lv. change (Z.to_nat ((1 - 1) / 2)) with O in Lv. cbn [fall] in Lv. unfold Rdiv in Lv. rewrite Rinv_1, Rmult_1_r in Lv. split; [apply exponent_q_half; [exact H1|exact Lv]|]. intros Hf. pose proof (exponent_q_half_far _ _ H1 Lv). lra.
    - assert (Hs1 : 1 <= dval s) by (rewrite Vs; assert (2 <= m)%Z as M by lia; apply IZR_le in M; lra).
      split; [apply (exponent_q _ _ _ Js); [exact half_s|lra|exact Hsz|exact HJ|exact Lv]|]. intros Hf. assert (Q := exponent_q_far (dval s) (dval z) (dval v) Js half_s ltac:(lra) ltac:(lra) HJ Lv). apply Rle_trans with (1 := Q). lra. }
  destruct (exponent_near false s z s v m m Fs Hm Vs Fs ltac:(lia) Vs Fz ltac:(lra) Fv Bv) as [F E]. cbv zeta iota in E, F.
  eexists. split; [reflexivity|]. split; [exact F|]. destruct HE as [HE HF]. split; [lra|]. intros Hf. specialize (HF Hf). lra.
Qed.
Lemma cf_exponent_large : 17000000000 <= dval z <= b1023 -> exists e, kf_gammaq_cf log exp s z = exp e /\ fin e /\ dval e <= -35.
Proof.
  intros Hz. pose proof s_rng as R. destruct (large_value s z m Fs Fz Hm Vs Hz) as (Fv & Bv). unfold kf_gammaq_cf.
  set (v := gammaq_loop s z (N.to_nat (max_iterations - 1)) 1 (dsub (dadd d1 z) s) d0 (dsub (dadd d1 z) s)) in *.
  pose proof b1023_large as BL.
  assert (LB : ln (3 / 2 * b1023) <= 711).
  { assert (P : 0 < 3 / 2 * b1023) by lra.
    pose proof (ln_pow2 (Z.to_nat 1024) (3 / 2 * b1023)) as L. rewrite INR_IZR_INZ, Z2Nat.id in L by lia. 
    assert (Q : 3 / 2 * b1023 <= 2 ^ Z.to_nat 1024).
    { rewrite pow_powerRZ, Z2Nat.id by lia. change 2 with (IZR radix2) at 2. rewrite <- bpow_powerRZ. change 1024%Z with (1023 + 1)%Z. rewrite bpow_plus. change (bpow radix2 1) with 2. lra. }
    specialize (L ltac:(lra)). lra. }
  assert (L0 : forall x, fin x -> 4 <= dval x <= 3 / 2 * b1023 -> fin (log x) /\ 0 <= dval (log x) <= 712).
  { intros x Fx Hx. destruct (H_log x Fx ltac:(lra)) as [F E]. split; [exact F|]. rewrite c40 in E. apply Rabs_le_inv in E.
    assert (L4 : ln 4 <= ln (dval x)) by (apply ln_mono; lra). assert (ln (dval x) <= ln (3 / 2 * b1023)) by (apply ln_mono; lra).
    assert (1 <= ln 4). { replace 4 with (2 * 2) by lra. rewrite ln_mult by lra. pose proof (ln_upper (/ 2) ltac:(lra)) as Q. rewrite ln_Rinv in Q by lra. lra. } lra. }
  assert (Bk : fin (log v) /\ -1 <= dval (log v) <= 712).
  { destruct (H_log v Fv ltac:(lra)) as [F E]. split; [exact F|]. rewrite c40 in E. apply Rabs_le_inv in E.
    assert (0 <= ln (dval v)) by (rewrite <- ln_1; apply ln_mono; lra). assert (ln (dval v) <= ln (3 / 2 * b1023)) by (apply ln_mono; lra). lra. }
  destruct (L0 z Fz ltac:(lra)) as [Fl Bl]. destruct Bk as [Fk Bk].
  pose proof (log_gamma_near log s m H_log Fs ltac:(lia) Vs) as N. pose proof (near_bound _ _ _ _ N) as BG. destruct N as (FG & _). apply Rabs_le_inv in BG.
  (* s * log z *)
  assert (P1 : 0 <= dval s * dval (log z) <= 391600000).
  { split; [apply Rmult_le_pos; lra|]. replace 391600000 with (550000 * 712) by lra. apply Rmult_le_compat; lra. }
  destruct (dmul_big s (log z) Fs Fl) as [V1 F1]; [unfold big; apply Rabs_le; lra|].
  apply (rnd_between _ _ _ (F64_Z 0 ltac:(lia)) (F64_Z 391600000 ltac:(lia))) in P1. rewrite <- V1 in P1. set (p := dmul s (log z)) in *. clearbody p.
  assert (P2 : - (IZR 4 / 4 * b1023) <= dval p - dval z <= -16000000000) by lra.
  destruct (dsub_big p z F1 Fz) as [V2 F2]; [unfold big; apply Rabs_le; lra|].
  apply (rnd_between _ _ _ (F64_opp _ (F64_big 4 ltac:(lia))) (F64_Z (-16000000000) ltac:(lia))) in P2. rewrite <- V2 in P2. set (r := dsub p z) in *. clearbody r.
  assert (P3 : - (IZR 5 / 4 * b1023) <= dval r - dval (log_gamma log s) <= -15000000000) by lra.
  destruct (dsub_big r (log_gamma log s) F2 FG) as [V3 F3]; [unfold big; apply Rabs_le; lra|].
  apply (rnd_between _ _ _ (F64_opp _ (F64_big 5 ltac:(lia))) (F64_Z (-15000000000) ltac:(lia))) in P3. rewrite <- V3 in P3. set (q := dsub r (log_gamma log s)) in *. clearbody q.
  assert (P4 : - (IZR 6 / 4 * b1023) <= dval q - dval (log v) <= -14000000000) by lra.
  destruct (dsub_big q (log v) F3 Fk) as [V4 F4]; [unfold big; apply Rabs_le; lra|].
  apply (rnd_between _ _ _ (F64_opp _ (F64_big 6 ltac:(lia))) (F64_Z (-14000000000) ltac:(lia))) in P4. rewrite <- V4 in P4.
  eexists. split; [reflexivity|]. split; [exact F4|lra].
Qed.
Lemma cf_exponent : 1 <= dval z <= b1023 -> dval s <= dval z -> exists e, kf_gammaq_cf log exp s z = exp e /\ fin e /\ dval e <= - 19 / 1000 /\ (4 * dval s + 100 <= dval z -> dval e <= -35).
Proof.
  intros Hz Hs. destruct (Rle_or_lt (dval z) 17179869184) as [L|L]; [apply cf_exponent_small; lra|].
  destruct cf_exponent_large as (e & E & F & B); [lra|]. exists e. repeat split; auto; lra.
Qed.

Lemma one_minus x : valid01 x -> valid01 (dsub d1 x).
Proof.
  intros [F B]. fold (fin x) in F. fold (dval x) in B. destruct d1_val as [V1 F1].
  destruct (dsub_ok d1 x F1 F) as [V F']; [apply (small_R _ vast); [rewrite V1; apply Rabs_le; unfold vast; lra|unfold vast; lra]|].
  split; [exact F'|]. fold (dval (dsub d1 x)). rewrite V, V1. apply rnd_between; [exact F64_0|apply (F64_Z 1); lia|lra].
Qed.
Lemma gammap_prob : 0 <= dval z <= b1023 -> valid01 (kf_gammap log exp s z).
Proof.
  intros Hz. unfold kf_gammap. destruct d1_val as [V1 F1]. destruct (dle z d1) eqn:A; cbn [orb].
  { apply (dle_iff z d1 Fz F1) in A. apply series_prob; lra. }
  apply (dle_false z d1 Fz F1) in A. destruct (dlt z s) eqn:B.
  { apply (dlt_iff z s Fz Fs) in B. apply series_prob; lra. }
  apply (dlt_false z s Fz Fs) in B. apply one_minus. destruct cf_exponent as (e & -> & F & L & _); [lra|lra|]. apply exp_prob; [exact F|lra].
Qed.
(* with an accurate exponential function *)
Lemma c50 : bpow radix2 (-50) = / 1125899906842624. Proof. reflexivity. Qed.
Lemma gammap_below : accurate_exp exp -> 0 <= dval z < dval s -> dval (kf_gammap log exp s z) <= 992 / 1000.
Proof.
  intros X Hz. unfold kf_gammap. destruct d1_val as [V1 F1].
  assert (B : (dle z d1 || dlt z s)%bool = true) by (apply Bool.orb_true_iff; right; apply (dlt_iff z s Fz Fs); lra). rewrite B.
  destruct (Req_dec (dval z) 0) as [Z0|Z0]; [rewrite (proj2 (series_zero Z0)); lra|].
  destruct (series_exponent ltac:(lra) ltac:(lra)) as (e & -> & F & L). pose proof (X e F ltac:(lra)) as A. rewrite c50 in A. apply Rabs_le_inv in A.
  assert (Rtrigo_def.exp (dval e) <= / (1 + 9 / 1000)); [|lra].
  assert (M : Rtrigo_def.exp (dval e) <= Rtrigo_def.exp (- (9 / 1000))) by (destruct (Req_dec (dval e) (- (9 / 1000))) as [->|]; [lra|left; apply exp_increasing; lra]).
  apply Rle_trans with (1 := M). rewrite exp_Ropp. apply Rinv_le_contravar; [lra|]. apply exp_ineq1_le.
Qed.
Lemma gammap_far : accurate_exp exp -> 4 * dval s + 100 <= dval z <= b1023 -> dval (dsub d1 (kf_gammap log exp s z)) <= bpow radix2 (-49).
Proof.
  intros X Hz. pose proof s_rng as R. unfold kf_gammap. destruct d1_val as [V1 F1].
  assert (B : (dle z d1 || dlt z s)%bool = false).
  { apply Bool.orb_false_iff. split; [apply (dle_false z d1 Fz F1); lra|apply (dlt_false z s Fz Fs); lra]. }
  rewrite B. destruct cf_exponent as (e & -> & F & L & K); [lra|lra|]. specialize (K ltac:(lra)). pose proof (X e F ltac:(lra)) as A. rewrite c50 in A. apply Rabs_le_inv in A.
  destruct (gd_exp _ _ _ G e F ltac:(lra)) as [FE BE].
  assert (M : Rtrigo_def.exp (dval e) <= / 1125899906842624).
  { apply Rle_trans with (Rtrigo_def.exp (-35)); [destruct (Req_dec (dval e) (-35)) as [->|]; [lra|left; apply exp_increasing; lra]|].
    change (-35) with (- (35)). rewrite exp_Ropp. apply Rinv_le_contravar; [lra|]. rewrite <- (exp_ln 1125899906842624) by lra.
    pose proof (ln_pow2 50 1125899906842624) as Q. replace (2 ^ 50) with 1125899906842624 in Q by (simpl; lra). specialize (Q ltac:(lra)). rewrite INR_IZR_INZ in Q. change (Z.of_nat 50) with 50%Z in Q.
    left. apply exp_increasing. lra. }
  set (q := exp e) in *. clearbody q. change (bpow radix2 (-49)) with (/ 562949953421312).
  destruct (dsub_ok d1 q F1 FE) as [V F']; [apply (small_R _ vast); [rewrite V1; apply Rabs_le; unfold vast; lra|unfold vast; lra]|]. rewrite V1 in V.
  assert (LB : 1 - / 562949953421312 <= dval (dsub d1 q) <= 1).
  { rewrite V. apply rnd_between; [|apply (F64_Z 1); lia|lra].
    replace (1 - / 562949953421312) with (F2R (Float radix2 562949953421311 (-49))) by (unfold F2R; cbn [Fnum Fexp]; change (bpow radix2 (-49)) with (/ 562949953421312); lra). apply F64_F2R; lia. }
  set (p := dsub d1 q) in *. clearbody p.
  destruct (dsub_ok d1 p F1 F') as [V' _]; [apply (small_R _ vast); [rewrite V1; apply Rabs_le; unfold vast; lra|unfold vast; lra]|]. rewrite V', V1.
  assert (Q : 0 <= 1 - dval p <= / 562949953421312) by lra. apply (rnd_between _ 0 (/ 562949953421312)) in Q; [lra|exact F64_0|apply (F64_bpow (-49)); lia].
Qed.
Lemma regularized_prob : 0 <= dval z <= b1023 -> valid01 (gamma_regularized log exp s z) /\ gamma_regularized log exp s z = dsub d1 (kf_gammap log exp s z).
Proof.
  intros Hz. assert (E : is_near s d0 = false).
  { apply (is_near_0_false s Fs). pose proof s_rng as R. rewrite Rabs_right by lra.
    apply Rle_lt_trans with (/ 4); [|lra].
    destruct (dconst_ok 4722366482869645 (-72)) as [V F].
    - apply (small_R _ vast); [|unfold vast; lra]. unfold F2R; cbn [Fnum Fexp]. change (bpow radix2 (-72)) with (/ 4722366482869645213696). apply Rabs_le. unfold vast. lra.
    - rewrite V. apply (rnd_between _ 0 (/ 4)); [exact F64_0|apply (F64_bpow (-2)); lia|]. unfold F2R; cbn [Fnum Fexp]. change (bpow radix2 (-72)) with (/ 4722366482869645213696). lra. }
  unfold gamma_regularized. rewrite E. cbn [andb]. split; [apply one_minus, gammap_prob, Hz|reflexivity].
Qed.
End Dist.

(* the product of finite numbers is finite or infinite *)
Lemma dmul_pos x y : fin x -> fin y -> 0 < dval x -> 0 < dval y ->
  (fin (dmul x y) /\ dval (dmul x y) = rnd (dval x * dval y)) \/ dmul x y = B754_infinity false.
Proof.
  intros Fx Fy Px Py. pose proof (Bmult_correct 53 1024 _ _ mode_NE x y) as H. fold (dval x) (dval y) in H. cbn [round_mode] in H. fold (rnd (dval x * dval y)) in H.
  destruct (Rlt_bool (Rabs (rnd (dval x * dval y))) (bpow radix2 1024)) eqn:L.
  - destruct H as (V & F & _). left. split; [unfold fin, dmul; rewrite F; unfold fin in Fx, Fy; rewrite Fx, Fy; reflexivity|exact V].
  - right. assert (Sg : forall a, fin a -> 0 < dval a -> Bsign a = false).
    { clear. intros a Fa Pa. destruct a as [sx|sx| |sx mx ex Hb]; try discriminate Fa; [cbn in Pa; lra|]. destruct sx; [|reflexivity]. exfalso.
      unfold dval in Pa. cbn [B2R SpecFloat.cond_Zopp Z.opp] in Pa. assert (Q := F2R_lt_0 radix2 (Float radix2 (Z.neg mx) ex) eq_refl). lra. }
    rewrite (Sg x Fx Px), (Sg y Fy Py) in H. cbn in H. apply B2SF_inj. exact H.
Qed.

Section Chi2.
Variables (log exp erfc : double -> double).
Hypothesis G : good_dist log exp erfc.
Variables (x k : double) (m : Z).
Hypothesis Fx : fin x.
Hypothesis Fk : fin k.
Hypothesis Hx : 0 <= dval x.
Hypothesis Hm : (1 <= m <= 2 ^ 53)%Z.
Hypothesis Vk : dval k = IZR m.
Lemma k_rng : 1 <= dval k <= 9007199254740992.
Proof. rewrite Vk. destruct Hm as [A B]. apply IZR_le in A, B. split; assumption. Qed.
Lemma half_prob e : fin e -> 0 <= dval e <= 2 -> valid01 (ddiv e (double_of_N 2)).
Proof.
  intros Fe He. destruct (double_of_N_exact 2) as [V F]; [lia|]. change (IZR (Z.of_N 2)) with 2 in V.
  destruct (ddiv_ok e (double_of_N 2) Fe ltac:(rewrite V; lra)) as [V' F']; [rewrite V; apply (small_R _ vast); [apply Rabs_le; unfold vast; lra|unfold vast; lra]|].
  split; [exact F'|]. fold (dval (ddiv e (double_of_N 2))). rewrite V', V. apply rnd_between; [exact F64_0|apply (F64_Z 1); lia|lra].
Qed.
(* the argument of erfc *)
Definition zscore : double := dsub (dsqrt (dmul (double_of_N 2) x)) (dsqrt (dsub (dmul (double_of_N 2) k) d1)).
Lemma sub_ok : fin (dsqrt (dsub (dmul (double_of_N 2) k) d1)) /\ 0 <= dval (dsqrt (dsub (dmul (double_of_N 2) k) d1)) <= 140000000.
Proof.
  pose proof k_rng as R. destruct (double_of_N_exact 2) as [V2 F2]; [lia|]. change (IZR (Z.of_N 2)) with 2 in V2. destruct d1_val as [V1 F1].
  destruct (dmul_ok (double_of_N 2) k F2 Fk) as [V F]; [rewrite V2; apply (small_R _ vast); [apply Rabs_le; unfold vast; lra|unfold vast; lra]|]. rewrite V2 in V.
  assert (B : 2 <= dval (dmul (double_of_N 2) k) <= 18014398509481984).
  { rewrite V. apply rnd_between; [apply (F64_Z 2); lia|apply (F64_bpow 54); lia|lra]. }
  destruct (dsub_ok (dmul (double_of_N 2) k) d1 F F1) as [V' F']; [rewrite V1; apply (small_R _ vast); [apply Rabs_le; unfold vast; lra|unfold vast; lra]|]. rewrite V1 in V'.
  assert (B' : 0 <= dval (dsub (dmul (double_of_N 2) k) d1) <= 18014398509481984).
  { rewrite V'. apply rnd_between; [exact F64_0|apply (F64_bpow 54); lia|lra]. }
  destruct (dsqrt_ok _ F' (proj1 B')) as [Fq Vq]. split; [exact Fq|]. rewrite Vq. apply rnd_between; [exact F64_0|apply (F64_Z 140000000); lia|]. split; [apply sqrt_pos|].
  apply Rle_trans with (sqrt (140000000 * 140000000)); [apply sqrt_le_1_alt; lra|rewrite sqrt_square; lra].
Qed.
Lemma erfc_arg : is_nan (ddiv (dneg zscore) (dsqrt (double_of_N 2))) = false.
Proof.
  destruct sub_ok as [Fb Bb]. unfold zscore. set (b := dsqrt (dsub (dmul (double_of_N 2) k) d1)) in *. clearbody b.
  destruct (double_of_N_exact 2) as [V2 F2]; [lia|]. change (IZR (Z.of_N 2)) with 2 in V2.
  assert (FIN : fin (dmul (double_of_N 2) x) -> 0 <= dval (dmul (double_of_N 2) x) -> is_nan (ddiv (dneg (dsub (dsqrt (dmul (double_of_N 2) x)) b)) (dsqrt (double_of_N 2))) = false).
  { set (y := dmul (double_of_N 2) x). clearbody y. intros Fy Py. destruct (dsqrt_ok y Fy Py) as [Fq Vq].
    assert (Bq : 0 <= dval (dsqrt y) <= bpow radix2 600).
    { rewrite Vq. apply rnd_between; [exact F64_0|apply F64_bpow; lia|]. split; [apply sqrt_pos|].
      replace (bpow radix2 600) with (sqrt (bpow radix2 600 * bpow radix2 600)) by (apply sqrt_square, bpow_ge_0). apply sqrt_le_1_alt. rewrite <- bpow_plus.
      pose proof (abs_B2R_lt_emax 53 1024 y) as L. fold (dval y) in L. rewrite Rabs_right in L by lra. apply Rle_trans with (bpow radix2 1024); [lra|apply bpow_le; lia]. }
    assert (L6 : 140000000 <= bpow radix2 600) by (apply Rle_trans with (bpow radix2 30); [change (bpow radix2 30) with 1073741824; lra|apply bpow_le; lia]).
    assert (SB : forall a, Rabs a <= bpow radix2 600 -> small a) by (intros a Ha; apply (small_bpow _ 600); [lia|exact Ha]).
    destruct (dsub_ok (dsqrt y) b Fq Fb) as [V F]; [apply SB, Rabs_le; lra|].
    assert (B : - bpow radix2 600 <= dval (dsub (dsqrt y) b) <= bpow radix2 600).
    { rewrite V. apply rnd_between; [apply F64_opp, F64_bpow; lia|apply F64_bpow; lia|lra]. }
    set (t := dsub (dsqrt y) b) in *. clearbody t. destruct sqrt_two as [Fs Bs].
    assert (Fn : fin (dneg t)) by (unfold fin, dneg; rewrite is_finite_Bopp; exact F). assert (Vn : dval (dneg t) = - dval t) by (apply B2R_Bopp).
    destruct (ddiv_ok (dneg t) (dsqrt (double_of_N 2)) Fn ltac:(lra)) as [V' F'].
    - apply SB. rewrite Vn. unfold Rdiv. rewrite Rabs_mult, Rabs_Ropp. rewrite <- (Rmult_1_r (bpow radix2 600)). apply Rmult_le_compat; try apply Rabs_pos; [apply Rabs_le; lra|].
      rewrite Rabs_right by (apply Rle_ge, Rlt_le, Rinv_0_lt_compat; lra). rewrite <- Rinv_1. apply Rinv_le_contravar; lra.
    - destruct (ddiv (dneg t) (dsqrt (double_of_N 2))); [reflexivity|reflexivity|discriminate F'|reflexivity]. }
  destruct (Req_dec (dval x) 0) as [E|E].
  - destruct (dmul_ok (double_of_N 2) x F2 Fx) as [V F]; [rewrite V2, E; apply (small_R _ vast); [apply Rabs_le; unfold vast; lra|unfold vast; lra]|].
    apply FIN; [exact F|]. rewrite V, V2, E, Rmult_0_r, (rnd_id 0 F64_0). lra.
  - destruct (dmul_pos (double_of_N 2) x F2 Fx ltac:(lra) ltac:(lra)) as [[F V]|I].
    + apply FIN; [exact F|]. rewrite V, V2. rewrite <- (rnd_id 0 F64_0). apply rnd_mono. lra.
    + rewrite I. change (dsqrt (B754_infinity false)) with (B754_infinity false : double). 
      assert (E' : dsub (B754_infinity false) b = B754_infinity false) by (destruct b; try discriminate Fb; reflexivity). rewrite E'. vm_compute. reflexivity.
Qed.
Lemma normal_prob : valid01 (normal_cdf erfc zscore).
Proof. unfold normal_cdf. destruct (gd_erfc _ _ _ G _ erfc_arg) as [F B]. apply half_prob; assumption. Qed.
Lemma k_not_0 : is_near k d0 = false.
Proof.
  apply (is_near_0_false k Fk). pose proof k_rng as R. rewrite Rabs_right by lra.
  apply Rle_lt_trans with (/ 4); [|lra].
  destruct (dconst_ok 4722366482869645 (-72)) as [V F].
  - apply (small_R _ vast); [|unfold vast; lra]. unfold F2R; cbn [Fnum Fexp]. change (bpow radix2 (-72)) with (/ 4722366482869645213696). apply Rabs_le. unfold vast. lra.
  - rewrite V. apply (rnd_between _ 0 (/ 4)); [exact F64_0|apply (F64_bpow (-2)); lia|]. unfold F2R; cbn [Fnum Fexp]. change (bpow radix2 (-72)) with (/ 4722366482869645213696). lra.
Qed.
(* both branches: 1 - a probability *)
Lemma half_args : (m < 1100000)%Z -> let s := dmul (dconst 1 (-1)) k in let z := dmul (dconst 1 (-1)) x in
  fin s /\ dval s = IZR m / 2 /\ fin z /\ 0 <= dval z <= b1023 /\ (dval x = 0 -> dval z = 0).
Proof.
  intros Lm. cbv zeta. destruct (dconst_ok 1 (-1)) as [VH FH].
  { apply (small_R _ vast); [|unfold vast; lra]. unfold F2R; cbn [Fnum Fexp]. change (bpow radix2 (-1)) with (/ 2). apply Rabs_le. unfold vast. lra. }
  replace (F2R {| Fnum := 1; Fexp := -1 |}) with (/ 2) in VH by (unfold F2R; cbn [Fnum Fexp]; change (bpow radix2 (-1)) with (/ 2); lra).
  rewrite rnd_id in VH by (apply (F64_bpow (-1)); lia).
  pose proof k_rng as R. destruct (dmul_ok (dconst 1 (-1)) k FH Fk) as [Vs Fs]; [rewrite VH; apply (small_R _ vast); [apply Rabs_le; unfold vast; lra|unfold vast; lra]|].
  assert (Vs' : dval (dmul (dconst 1 (-1)) k) = IZR m / 2).
  { rewrite Vs, VH, Vk. replace (/ 2 * IZR m) with (IZR m / 2) by lra. apply rnd_id, F64_half. lia. }
  pose proof (abs_B2R_lt_emax 53 1024 x) as L. fold (dval x) in L. rewrite Rabs_right in L by lra. change 1024%Z with (1023 + 1)%Z in L. rewrite bpow_plus in L. change (bpow radix2 1) with 2 in L.
  pose proof (bpow_gt_0 radix2 1023) as P.
  destruct (dmul_ok (dconst 1 (-1)) x FH Fx) as [Vz Fz]; [rewrite VH; apply (small_bpow _ 1023); [lia|]; apply Rabs_le; lra|].
  split; [exact Fs|]. split; [exact Vs'|]. split; [exact Fz|]. rewrite Vz, VH. split.
  - apply rnd_between; [exact F64_0|apply F64_bpow; lia|lra].
  - intros ->. rewrite Rmult_0_r. apply rnd_id, F64_0.
Qed.
Lemma chi2_form : exists p, valid01 p /\ chi2_distribution_cdf log exp erfc x k = dsub d1 p /\ ((m < 1100000)%Z -> dval x = 0 -> dval p = 0).
Proof.
  unfold chi2_distribution_cdf. rewrite k_not_0. destruct (double_of_N_exact 1100000) as [VT FT]; [lia|]. change (IZR (Z.of_N 1100000)) with 1100000 in VT.
  destruct (dle (double_of_N 1100000) k) eqn:T.
  - apply (dle_iff _ _ FT Fk) in T. rewrite VT, Vk in T. apply le_IZR in T. exists (normal_cdf erfc zscore). split; [exact normal_prob|]. split; [reflexivity|lia].
  - apply (dle_false _ _ FT Fk) in T. rewrite VT, Vk in T. apply lt_IZR in T. destruct (half_args T) as (Fs & Vs & Fz & Bz & Z0). 
    destruct (regularized_prob log exp erfc G _ _ m Fs Fz ltac:(lia) Vs Bz) as [_ E]. rewrite E. eexists. split; [|split; [reflexivity|]].
    + apply (gammap_prob log exp erfc G _ _ m); auto. lia.
    + intros _ X0. specialize (Z0 X0). 
      set (s := dmul (dconst 1 (-1)) k) in *. set (z := dmul (dconst 1 (-1)) x) in *. clearbody s z.
      unfold kf_gammap. destruct d1_val as [V1 F1]. assert (A : dle z d1 = true) by (apply (dle_iff z d1 Fz F1); lra). rewrite A. cbn [orb].
      apply (series_zero log exp erfc G s z m); auto. lia.
Qed.

Lemma chi2_exact : (m < 1100000)%Z -> let s := dmul (dconst 1 (-1)) k in let z := dmul (dconst 1 (-1)) x in
  chi2_distribution_cdf log exp erfc x k = dsub d1 (kf_gammap log exp s z).
Proof.
  intros T. destruct (half_args T) as (Fs & Vs & Fz & Bz & Z0). cbv zeta. unfold chi2_distribution_cdf. rewrite k_not_0. destruct (double_of_N_exact 1100000) as [VT FT]; [lia|]. change (IZR (Z.of_N 1100000)) with 1100000 in VT.
  assert (D : dle (double_of_N 1100000) k = false) by (apply (dle_false _ _ FT Fk); rewrite VT, Vk; apply IZR_lt, T). rewrite D.
  apply (regularized_prob log exp erfc G _ _ m); auto. lia.
Qed.
(* halving x *)
Lemma half_x : (m < 1100000)%Z -> let z := dmul (dconst 1 (-1)) x in
  (dval x < IZR m -> dval z < IZR m / 2) /\ (4 * IZR m + 200 <= dval x -> 4 * (IZR m / 2) + 100 <= dval z).
Proof.
  intros T. cbv zeta. destruct (dconst_ok 1 (-1)) as [VH FH].
  { apply (small_R _ vast); [|unfold vast; lra]. unfold F2R; cbn [Fnum Fexp]. change (bpow radix2 (-1)) with (/ 2). apply Rabs_le. unfold vast. lra. }
  replace (F2R {| Fnum := 1; Fexp := -1 |}) with (/ 2) in VH by (unfold F2R; cbn [Fnum Fexp]; change (bpow radix2 (-1)) with (/ 2); lra).
  rewrite rnd_id in VH by (apply (F64_bpow (-1)); lia).
  pose proof (abs_B2R_lt_emax 53 1024 x) as L. fold (dval x) in L. rewrite Rabs_right in L by lra. change 1024%Z with (1023 + 1)%Z in L. rewrite bpow_plus in L. change (bpow radix2 1) with 2 in L.
  pose proof (bpow_gt_0 radix2 1023) as P.
  destruct (dmul_ok (dconst 1 (-1)) x FH Fx) as [Vz Fz]; [rewrite VH; apply (small_bpow _ 1023); [lia|]; apply Rabs_le; lra|].
  rewrite Vz, VH. destruct Hm as [M1 _]. split; intros H.
  - pose proof (rnd_abs (/ 2 * dval x)) as E. rewrite (Rabs_right (/ 2 * dval x)) in E by lra. apply Rabs_le_inv in E. pose proof tau_le as T1. rewrite u_val in E.
    destruct (Rle_or_lt (dval x) (/ 10)) as [S|S]; [apply IZR_le in M1; lra|].
    assert (F : F64 (/ 2 * dval x)).
    { destruct (FLT_format_generic radix2 (-1074) 53 (dval x) (dval_format x)) as [[t e] E1 E2 E3]. cbn [Fnum Fexp] in E2, E3.
      assert (E4 : (-1074 < e)%Z).
      { destruct (Z.eq_dec e (-1074)) as [->|]; [|lia]. exfalso. rewrite E1 in S. unfold F2R in S. cbn [Fnum Fexp] in S.
        assert (IZR t <= bpow radix2 53) by (change (bpow radix2 53) with (IZR (2 ^ 53)); apply IZR_le; change (2 ^ 53)%Z with (Zpower radix2 53); lia).
        assert (IZR t * bpow radix2 (-1074) <= bpow radix2 53 * bpow radix2 (-1074)) by (apply Rmult_le_compat_r; [apply bpow_ge_0|assumption]).
        rewrite <- bpow_plus in H1. assert (bpow radix2 (53 + -1074) <= bpow radix2 (-10)) by (apply bpow_le; lia). change (bpow radix2 (-10)) with (/ 1024) in H2. lra. }
      replace (/ 2 * dval x) with (F2R (Float radix2 t (e - 1))).
      - apply F64_F2R; [change (2 ^ 53)%Z with (Zpower radix2 53); lia|lia].
      - rewrite E1. unfold F2R. cbn [Fnum Fexp]. replace (e - 1)%Z with (e + -1)%Z by lia. rewrite bpow_plus. change (bpow radix2 (-1)) with (/ 2). lra. }
    rewrite (rnd_id _ F). lra.
  - replace (4 * (IZR m / 2) + 100) with (IZR (2 * m + 100)) by (rewrite plus_IZR, mult_IZR; lra). rewrite <- (rnd_id (IZR (2 * m + 100))) by (apply F64_Z; lia). apply rnd_mono. rewrite plus_IZR, mult_IZR. lra.
Qed.
Lemma chi2_below : accurate_exp exp -> (m < 1100000)%Z -> dval x < IZR m -> 8 / 1000 - / 1000000 <= dval (chi2_distribution_cdf log exp erfc x k).
Proof.
  intros X T H. rewrite (chi2_exact T). destruct (half_args T) as (Fs & Vs & Fz & Bz & Z0). destruct (half_x T) as [HB _]. specialize (HB H).
  set (s := dmul (dconst 1 (-1)) k) in *. set (z := dmul (dconst 1 (-1)) x) in *. clearbody s z.
  pose proof (gammap_below log exp erfc G s z m Fs Fz ltac:(lia) Vs X ltac:(lra)) as B.
  destruct (gammap_prob log exp erfc G s z m Fs Fz ltac:(lia) Vs Bz) as [FP BP]. fold (dval (kf_gammap log exp s z)) in BP. fold (fin (kf_gammap log exp s z)) in FP.
  set (p := kf_gammap log exp s z) in *. clearbody p. destruct d1_val as [V1 F1].
  destruct (dsub_ok d1 p F1 FP) as [V' _]; [apply (small_R _ vast); [rewrite V1; apply Rabs_le; unfold vast; lra|unfold vast; lra]|]. rewrite V', V1.
  pose proof (rnd_abs (1 - dval p)) as E. rewrite (Rabs_right (1 - dval p)) in E by lra. apply Rabs_le_inv in E. pose proof tau_le as T1. rewrite u_val in E. lra.
Qed.
Lemma chi2_far : accurate_exp exp -> (m < 1100000)%Z -> 4 * IZR m + 200 <= dval x -> dval (chi2_distribution_cdf log exp erfc x k) <= bpow radix2 (-49).
Proof.
  intros X T H. rewrite (chi2_exact T). destruct (half_args T) as (Fs & Vs & Fz & Bz & Z0). destruct (half_x T) as [_ HB]. specialize (HB H).
  apply (gammap_far log exp erfc G _ _ m); auto; [lia|]. rewrite Vs. lra.
Qed.
End Chi2.

(* 1 - p is a multiple of 2^-53 *)
Lemma half_multiple a : F64 a -> / 2 <= a -> exists j, a = IZR j * bpow radix2 (-53).
Proof.
  intros F H. rewrite F. unfold F2R. cbn [Fnum Fexp]. set (e := cexp radix2 (SpecFloat.fexp 53 1024) a). set (t := Ztrunc _).
  assert (L : (-53 <= e)%Z).
  { unfold e, cexp, SpecFloat.fexp, SpecFloat.emin. assert (Q : (0 <= mag radix2 a)%Z) by (apply mag_ge_bpow; rewrite Rabs_right by lra; change (bpow radix2 (0 - 1)) with (/ 2); lra). lia. }
  exists (t * 2 ^ (e + 53))%Z. rewrite mult_IZR, Rmult_assoc. f_equal. change 2%Z with (radix_val radix2). rewrite IZR_Zpower by lia. rewrite <- bpow_plus. f_equal. lia.
Qed.
Lemma one_minus_multiple p : valid01 p -> exists j, (0 <= j <= 2 ^ 53)%Z /\ dval (dsub d1 p) = IZR j * bpow radix2 (-53).
Proof.
  intros [F B]. fold (fin p) in F. fold (dval p) in B. destruct d1_val as [V1 F1].
  destruct (dsub_ok d1 p F1 F) as [V F']; [apply (small_R _ vast); [rewrite V1; apply Rabs_le; unfold vast; lra|unfold vast; lra]|]. rewrite V1 in V.
  assert (E : exists j, dval (dsub d1 p) = IZR j * bpow radix2 (-53)).
  { rewrite V. destruct (Rle_or_lt (/ 2) (dval p)) as [H|H].
    - destruct (half_multiple _ (dval_format p) H) as [j E]. exists (2 ^ 53 - j)%Z.
      assert (C : 1 - dval p = IZR (2 ^ 53 - j) * bpow radix2 (-53)). { rewrite E, minus_IZR. change (bpow radix2 (-53)) with (/ 9007199254740992). change (IZR (2 ^ 53)) with 9007199254740992. field. }
      rewrite C. apply rnd_id. apply (F64_F2R (2 ^ 53 - j) (-53)); [|lia].
      change (bpow radix2 (-53)) with (/ 9007199254740992) in E. assert (0 <= IZR j <= 9007199254740992) as [J1 J2] by lra. apply le_IZR in J1, J2. lia.
    - apply half_multiple; [apply rnd_format|]. assert (Q : / 2 <= 1 - dval p <= 1) by lra. apply rnd_between in Q; [lra|apply (F64_bpow (-1)); lia|apply (F64_Z 1); lia]. }
  destruct E as [j E]. exists j. split; [|exact E].
  assert (Q : 0 <= 1 - dval p <= 1) by lra. apply rnd_between in Q; [|exact F64_0|apply (F64_Z 1); lia]. rewrite <- V, E in Q. change (bpow radix2 (-53)) with (/ 9007199254740992) in Q.
  assert (0 <= IZR j <= 9007199254740992) as [J1 J2] by lra. apply le_IZR in J1, J2. split; [exact J1|exact J2].
Qed.
