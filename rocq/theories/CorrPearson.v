(* Rounding errors in Pearson's correlation. *)
From Coq Require Import Reals Lra Lia.
From Flocq Require Import Core BinarySingleNaN.
From Verif Require Import Base FloatModel FloatLemmas ResultModel ResultSpec CollectModel StatsModel RescaleProofs StatsProofs CouponFloatProofs StatFormulas CommandModel CorrModel CorrSpec CorrCount CorrKendall CorrProofs ErrorSpec.
Open Scope R_scope.

Lemma rnd_err_abs x : Rabs (rnd x - x) <= u * Rabs x + bpow radix2 (-1000).
Proof.
  destruct (Rle_or_lt 0 x) as [H|H]; [rewrite (Rabs_pos_eq x H); apply rnd_err_any, H|].
  pose proof (rnd_err_any (- x) ltac:(lra)) as A. rewrite rnd_opp in A. rewrite (Rabs_left x H). replace (rnd x - x) with (- (- rnd x - - x)) by ring. rewrite Rabs_Ropp. exact A.
Qed.
Lemma tiny_u : bpow radix2 (-1000) <= u * u.
Proof. rewrite <- bpow_plus. apply bpow_le. lia. Qed.

(* ---- absolute errors of sums ---- *)
Section Sum.
Variables (A : Type) (f : A -> double) (g : A -> R) (e : R) (n : nat).
Hypotheses (He : 0 <= e) (Hn : (1 <= n)%nat) (Hs : e + 2 * INR n * u <= 1).
Let E := e + 2 * INR n * u.
Lemma n_small : 1 <= INR n /\ INR n <= bpow radix2 53.
Proof.
  split; [apply (le_INR 1), Hn|]. assert (INR n * u <= 1) by lra. apply Rmult_le_reg_r with u; [apply u_pos|]. rewrite <- bpow_plus. change (bpow radix2 (53 + -53)) with 1. lra.
Qed.
Lemma sum_ok l : forall k s G, (k + length l <= n)%nat -> (forall a, In a l -> fin (f a) /\ Rabs (dval (f a) - g a) <= e /\ Rabs (g a) <= 1) ->
  fin s -> Rabs G <= INR k -> Rabs (dval s - G) <= INR k * E ->
  let r := fold_left (fun s a => dadd s (f a)) l s in
  let T := G + rsum (map g l) in fin r /\ Rabs (dval r - T) <= INR (k + length l) * E /\ Rabs T <= INR (k + length l).
Proof.
  destruct n_small as [N1 N2]. pose proof u_pos as Pu.
  induction l as [|a l IH]; intros k s G Hk Ha Fs BG BE; cbn [fold_left map rsum fold_right length].
  - rewrite Rplus_0_r, Nat.add_0_r. auto.
  - destruct (Ha a (or_introl eq_refl)) as (Fa & Ea & Ga). cbn [length] in Hk.
    assert (K : INR k + 1 <= INR n) by (rewrite <- S_INR; apply le_INR; lia). pose proof (pos_INR k) as Pk.
    assert (D : Rabs (dval s + dval (f a) - (G + g a)) <= INR k * E + e).
    { replace (dval s + dval (f a) - (G + g a)) with ((dval s - G) + (dval (f a) - g a)) by ring. apply Rle_trans with (1 := Rabs_triang _ _). lra. }
    assert (S : Rabs (G + g a) <= INR k + 1) by (apply Rle_trans with (1 := Rabs_triang _ _); lra).
    assert (PE : 0 <= E <= 1) by (unfold E; split; [nra|exact Hs]).
    assert (B : Rabs (dval s + dval (f a)) <= 2 * INR n).
    { replace (dval s + dval (f a)) with ((dval s + dval (f a) - (G + g a)) + (G + g a)) by ring. apply Rle_trans with (1 := Rabs_triang _ _). unfold E in *. nra. }
    destruct (dadd_ok s (f a) Fs Fa) as [V F].
    { apply small_bpow with 54%Z; [lia|]. apply Rle_trans with (1 := B). change 54%Z with (1 + 53)%Z. rewrite bpow_plus. change (bpow radix2 1) with 2. lra. }
    assert (R : Rabs (dval (dadd s (f a)) - (G + g a)) <= INR (Datatypes.S k) * E).
    { rewrite V. pose proof (rnd_plus_err (dval s) (dval (f a)) (dval_format s) (dval_format (f a))) as Q. unfold approx in Q.
      replace (rnd (dval s + dval (f a)) - (G + g a)) with ((rnd (dval s + dval (f a)) - (dval s + dval (f a))) + (dval s + dval (f a) - (G + g a))) by ring.
      apply Rle_trans with (1 := Rabs_triang _ _). rewrite S_INR. assert (u * Rabs (dval s + dval (f a)) <= 2 * INR n * u) by nra. unfold E in *. lra. }
    destruct (IH (Datatypes.S k) (dadd s (f a)) (G + g a)) as (F' & B' & T'); [lia|intros b Hb; apply Ha; right; exact Hb|exact F|rewrite S_INR; exact S|exact R|].
    replace (k + Datatypes.S (length l))%nat with (Datatypes.S k + length l)%nat by lia. rewrite <- Rplus_assoc. auto.
Qed.
End Sum.

(* ---- relative errors of sums of absolute values ---- *)
Lemma sum_rel {A} (f : A -> double) l : forall k s G Q b, (forall a, In a l -> fin (f a) /\ Rabs (dval (f a)) <= b) -> 0 <= b ->
  fin s -> Rabs G <= Q -> Q <= b * INR k -> Rabs (dval s - G) <= err k * Q -> b * INR (k + length l) <= bpow radix2 53 -> INR (k + length l) * u <= / 2 ->
  let r := fold_left (fun s a => dadd s (f a)) l s in
  fin r /\ Rabs (dval r - (G + rsum (map (fun a => dval (f a)) l))) <= err (k + length l) * (Q + rsum (map (fun a => Rabs (dval (f a))) l)).
Proof.
  pose proof u_pos as Pu. induction l as [|a l IH]; intros k s G Q b Ha Pb Fs BG BQ BE Hb Hk; cbn [fold_left map rsum fold_right length] in *.
  - rewrite !Rplus_0_r, Nat.add_0_r. auto.
  - destruct (Ha a (or_introl eq_refl)) as (Fa & Ba). set (t := dval (f a)) in *. pose proof (Rabs_pos t) as Pt. pose proof (Rabs_pos G) as PG.
    assert (E1 : err k <= 1). { pose proof (pos_INR k). assert (INR k <= INR (k + Datatypes.S (length l))) by (apply le_INR; lia). assert (INR k * u <= / 2) by nra. pose proof (err_bound k ltac:(lra)). lra. }
    pose proof (err_pos k) as E0.
    assert (B : Rabs (dval s + t) <= 2 * bpow radix2 53).
    { apply Rle_trans with (1 := Rabs_triang _ _). assert (Rabs (dval s) <= 2 * Q). { replace (dval s) with ((dval s - G) + G) by ring. apply Rle_trans with (1 := Rabs_triang _ _). nra. }
      assert (INR k + 1 <= INR (k + Datatypes.S (length l))) by (rewrite <- S_INR; apply le_INR; lia). pose proof (pos_INR k). nra. }
    destruct (dadd_ok s (f a) Fs Fa) as [V F].
    { apply small_bpow with 54%Z; [lia|]. apply Rle_trans with (1 := B). change 54%Z with (1 + 53)%Z. rewrite bpow_plus. change (bpow radix2 1) with 2. lra. }
    assert (R : Rabs (dval (dadd s (f a)) - (G + t)) <= err (Datatypes.S k) * (Q + Rabs t)).
    { rewrite V. fold t. pose proof (rnd_plus_err (dval s) t (dval_format s) (dval_format (f a))) as Z. unfold approx in Z.
      replace (Datatypes.S k) with (k + 1)%nat by lia. rewrite <- err_add, err_1.
      replace (rnd (dval s + t) - (G + t)) with ((rnd (dval s + t) - (dval s + t)) + (dval s - G)) by ring. apply Rle_trans with (1 := Rabs_triang _ _).
      assert (Rabs (dval s + t) <= Q + Rabs t + err k * Q). { replace (dval s + t) with ((G + t) + (dval s - G)) by ring. apply Rle_trans with (1 := Rabs_triang _ _). pose proof (Rabs_triang G t). lra. }
      assert (u * Rabs (dval s + t) <= u * (Q + Rabs t + err k * Q)) by (apply Rmult_le_compat_l; lra). 
      assert (0 <= err k * Rabs t) by (apply Rmult_le_pos; lra). assert (0 <= u * (err k * Rabs t)) by (apply Rmult_le_pos; lra). lra. }
    destruct (IH (Datatypes.S k) (dadd s (f a)) (G + t) (Q + Rabs t) b) as (F' & B'); [intros c Hc; apply Ha; right; exact Hc|exact Pb|exact F| | |exact R| | |].
    + apply Rle_trans with (1 := Rabs_triang _ _). lra.
    + rewrite S_INR. nra.
    + replace (Datatypes.S k + length l)%nat with (k + Datatypes.S (length l))%nat by lia. exact Hb.
    + replace (Datatypes.S k + length l)%nat with (k + Datatypes.S (length l))%nat by lia. exact Hk.
    + replace (k + Datatypes.S (length l))%nat with (Datatypes.S k + length l)%nat by lia. rewrite <- !Rplus_assoc. auto.
Qed.

(* ---- the deviations ---- *)
Lemma sum_abs_range l : Forall (fun x => 0 <= x <= 1) l -> 0 <= rsum l <= INR (length l).
Proof. induction 1 as [|x l H _ IH]; cbn [rsum fold_right length]; [cbn; lra|]. rewrite S_INR. unfold rsum in *. lra. Qed.
Definition good_size (n : nat) : Prop := (3 <= n)%nat /\ (Z.of_nat n <= 1000000)%Z.
Lemma size_R n : good_size n -> 3 <= INR n <= 1000000.
Proof. intros [A B]. split; [replace 3 with (INR 3) by (cbn; lra); apply le_INR, A|]. rewrite INR_IZR_INZ. apply IZR_le, B. Qed.
Lemma mean_ok xs : unit_data xs -> good_size (length xs) -> let m := mean_of xs (length xs) in let n := INR (length xs) in
  fin m /\ Rabs (dval m - meanR (map dval xs)) <= (2 * n + 2) * u /\ 0 <= meanR (map dval xs) <= 1.
Proof.
  intros H Hn m n. pose proof (size_R _ Hn) as Bn. fold n in Bn. pose proof u_pos as Pu.
  assert (R01 : Forall (fun x => 0 <= x <= 1) (map dval xs)) by (apply Forall_map; apply Forall_impl with (2 := H); intros a [_ K]; exact K).
  pose proof (sum_abs_range _ R01) as S. rewrite map_length in S. fold n in S.
  assert (M : 0 <= meanR (map dval xs) <= 1).
  { unfold meanR. rewrite map_length. fold n. assert (I : 0 < / n) by (apply Rinv_0_lt_compat; lra). split; [apply Rmult_le_pos; lra|]. apply Rmult_le_reg_r with n; [lra|]. unfold Rdiv. rewrite Rmult_assoc, Rinv_l by lra. lra. }
  destruct (sum_ok double (fun x => x) dval 0 (length xs) ltac:(lra) ltac:(destruct Hn; lia) ltac:(fold n; rewrite u_val; lra) xs 0 d0 0) as (Fs & Bs & _).
  { lia. } { intros a Ha. unfold unit_data in H; rewrite Forall_forall in H. destruct (H a Ha) as [Fa Ba]. split; [exact Fa|]. split; [rewrite Rminus_diag_eq by reflexivity; rewrite Rabs_R0; lra|apply Rabs_le; lra]. }
  { apply d0_val. } { rewrite Rabs_R0. cbn. lra. } { destruct d0_val as [-> _]. rewrite Rminus_0_r, Rabs_R0. cbn. lra. }
  cbn [Nat.add] in Bs. fold n in Bs. rewrite Rplus_0_l in Bs. change (fold_left (fun s a => dadd s a) xs d0) with (fold_left dadd xs d0) in *. set (s := fold_left dadd xs d0) in *.
  destruct (double_of_N_exact (N.of_nat (length xs))) as [Vn Fn]. { destruct Hn. change (2 ^ 53)%N with 9007199254740992%N. lia. }
  replace (IZR (Z.of_N (N.of_nat (length xs)))) with n in Vn by (unfold n; rewrite INR_IZR_INZ; f_equal; lia).
  assert (I : 0 < / n <= 1) by (split; [apply Rinv_0_lt_compat; lra|rewrite <- Rinv_1; apply Rinv_le_contravar; lra]).
  assert (Q : Rabs (dval s / n - meanR (map dval xs)) <= 2 * n * u).
  { unfold meanR. rewrite map_length. fold n. replace (dval s / n - rsum (map dval xs) / n) with ((dval s - rsum (map dval xs)) * / n) by (unfold Rdiv; ring). rewrite Rabs_mult, (Rabs_pos_eq (/ n)) by lra.
    apply Rle_trans with (n * (0 + 2 * n * u) * / n); [apply Rmult_le_compat_r; lra|]. right. field. lra. }
  assert (Q2 : Rabs (dval s / n) <= 3 / 2). { apply Rabs_le_inv in Q. apply Rabs_le. rewrite u_val in Q. lra. }
  destruct (ddiv_ok s (double_of_N (N.of_nat (length xs))) Fs) as [V F]; [rewrite Vn; lra|rewrite Vn; apply small_bpow with 1%Z; [lia|change (bpow radix2 1) with 2; lra]|].
  rewrite Vn in V. change (ddiv s (double_of_N (N.of_nat (length xs)))) with m in V, F. split; [exact F|]. split; [|exact M]. rewrite V.
  pose proof (rnd_err_abs (dval s / n)) as E. pose proof tiny_u as TU.
  replace (rnd (dval s / n) - meanR (map dval xs)) with ((rnd (dval s / n) - dval s / n) + (dval s / n - meanR (map dval xs))) by ring. apply Rle_trans with (1 := Rabs_triang _ _).
  rewrite u_val in *. lra.
Qed.
Lemma dev_ok xs x : unit_data xs -> good_size (length xs) -> In x xs -> let n := INR (length xs) in let d := dsub x (mean_of xs (length xs)) in
  fin d /\ Rabs (dval d - (dval x - meanR (map dval xs))) <= (2 * n + 4) * u /\ Rabs (dval x - meanR (map dval xs)) <= 1 /\ Rabs (dval d) <= 2.
Proof.
  intros H Hn Hx n d. destruct (mean_ok xs H Hn) as (Fm & Em & Bm). fold n in Em. set (m := mean_of xs (length xs)) in *. set (mu := meanR (map dval xs)) in *. pose proof (size_R _ Hn) as Bn. fold n in Bn. pose proof u_pos as Pu.
  unfold unit_data in H; rewrite Forall_forall in H. destruct (H x Hx) as [Fx Bx]. apply Rabs_le_inv in Em as Em'.
  assert (D : Rabs (dval x - dval m) <= 3 / 2) by (apply Rabs_le; rewrite u_val in *; lra).
  destruct (dsub_ok x m Fx Fm) as [V F]; [apply small_bpow with 1%Z; [lia|change (bpow radix2 1) with 2; lra]|]. fold d in V, F. split; [exact F|].
  pose proof (rnd_minus_err (dval x) (dval m) (dval_format x) (dval_format m)) as E. unfold approx in E. rewrite <- V in E.
  assert (T : Rabs (dval d - (dval x - mu)) <= (2 * n + 4) * u).
  { replace (dval d - (dval x - mu)) with ((dval d - (dval x - dval m)) - (dval m - mu)) by ring. apply Rle_trans with (1 := Rabs_triang _ _). rewrite Rabs_Ropp. rewrite u_val in *. lra. }
  split; [exact T|]. split; [apply Rabs_le; lra|]. assert (E2 : u * Rabs (dval x - dval m) <= 3 / 2 * u) by nra. apply Rabs_le_inv in D, E. apply Rabs_le. rewrite u_val in *. lra.
Qed.

Section XY.
Variables xs ys : list double.
Hypotheses (Hx : unit_data xs) (Hy : unit_data ys) (L : length xs = length ys) (Hn : good_size (length xs)).
Let n := INR (length xs).
Let mx := mean_of xs (length xs).
Let my := mean_of ys (length xs).
Definition prods : list (double * double) := combine (deviations xs mx) (deviations ys my).
Lemma prods_map : prods = map (fun p => (dsub (fst p) mx, dsub (snd p) my)) (combine xs ys).
Proof. unfold prods, deviations. clearbody mx my. clear -mx my. revert ys. induction xs as [|x l IH]; intros [|y l']; cbn; try reflexivity. f_equal. apply IH. Qed.
Lemma combine_in (p : double * double) : In p (combine xs ys) -> In (fst p) xs /\ In (snd p) ys.
Proof. destruct p as [a b]. intros H. split; [apply in_combine_l in H; exact H|apply in_combine_r in H; exact H]. Qed.
Lemma cross_ok : let s := dot prods in fin s /\ Rabs (dval s - crossR (map dval xs) (map dval ys)) <= 14 * n * n * u.
Proof.
  intros s. pose proof (size_R _ Hn) as Bn. fold n in Bn. pose proof u_pos as Pu. pose proof tiny_u as TU.
  assert (Hn' : good_size (length ys)) by (rewrite <- L; exact Hn).
  set (mux := meanR (map dval xs)). set (muy := meanR (map dval ys)).
  destruct (sum_ok (double * double) (fun p => dmul (dsub (fst p) mx) (dsub (snd p) my)) (fun p => (dval (fst p) - mux) * (dval (snd p) - muy)) ((6 * n + 18) * u) (length xs)
    ltac:(apply Rmult_le_pos; lra) ltac:(destruct Hn; lia) ltac:(fold n; rewrite u_val; lra) (combine xs ys) 0 d0 0) as (Fs & Bs & _).
  { rewrite combine_length. lia. }
  { intros p Hp. destruct (combine_in p Hp) as [Ip Iq]. destruct (dev_ok xs (fst p) Hx Hn Ip) as (Fa & Ea & Ba & Ga). destruct (dev_ok ys (snd p) Hy Hn' Iq) as (Fb & Eb & Bb & Gb).
    rewrite <- L in Fb, Eb, Gb. fold n mx mux in Fa, Ea, Ba, Ga. fold n my muy in Fb, Eb, Bb, Gb. 
    set (a := dsub (fst p) mx) in *. set (b := dsub (snd p) my) in *. set (ta := dval (fst p) - mux) in *. set (tb := dval (snd p) - muy) in *.
    set (dl := (2 * n + 4) * u) in *. assert (Pd : 0 <= dl <= / 1000) by (unfold dl; rewrite u_val; lra).
    assert (P1 : Rabs (dval a * dval b) <= 4). { rewrite Rabs_mult. pose proof (Rabs_pos (dval a)). pose proof (Rabs_pos (dval b)). nra. }
    destruct (dmul_ok a b Fa Fb) as [V F]; [apply small_bpow with 2%Z; [lia|exact P1]|]. split; [exact F|].
    assert (T : Rabs (dval a * dval b - ta * tb) <= 2 * dl + dl * dl).
    { replace (dval a * dval b - ta * tb) with ((dval a - ta) * (dval b - tb) + (dval a - ta) * tb + ta * (dval b - tb)) by ring.
      apply Rle_trans with (1 := Rabs_triang _ _). apply Rle_trans with (Rabs (dval a - ta) * Rabs (dval b - tb) + Rabs (dval a - ta) * Rabs tb + Rabs ta * Rabs (dval b - tb)).
      - rewrite <- !Rabs_mult. apply Rplus_le_compat_r. apply Rabs_triang.
      - pose proof (Rabs_pos (dval a - ta)). pose proof (Rabs_pos (dval b - tb)). pose proof (Rabs_pos ta). pose proof (Rabs_pos tb). nra. }
    assert (TT : Rabs (ta * tb) <= 1). { rewrite Rabs_mult. pose proof (Rabs_pos ta). pose proof (Rabs_pos tb). nra. }
    split; [|exact TT]. rewrite V. pose proof (rnd_err_abs (dval a * dval b)) as R.
    replace (rnd (dval a * dval b) - ta * tb) with ((rnd (dval a * dval b) - dval a * dval b) + (dval a * dval b - ta * tb)) by ring. apply Rle_trans with (1 := Rabs_triang _ _).
    assert (u * Rabs (dval a * dval b) <= 4 * u) by nra. assert (dl * dl <= dl / 1000) by nra. unfold dl in *. rewrite u_val in *. lra. }
  { apply d0_val. } { rewrite Rabs_R0. cbn. lra. } { destruct d0_val as [-> _]. rewrite Rminus_0_r, Rabs_R0. cbn. lra. }
  cbn [Nat.add] in Bs. rewrite combine_length, <- L, Nat.min_id, Rplus_0_l in Bs. fold n in Bs.
  assert (ES : s = fold_left (fun s p => dadd s (dmul (dsub (fst p) mx) (dsub (snd p) my))) (combine xs ys) d0).
  { unfold s, dot. rewrite prods_map. generalize (combine xs ys). generalize d0. intros z l; revert z. induction l as [|p l IH]; intros z; cbn; [reflexivity|]. apply IH. }
  rewrite ES. split; [exact Fs|].
  assert (EC : crossR (map dval xs) (map dval ys) = rsum (map (fun p => (dval (fst p) - mux) * (dval (snd p) - muy)) (combine xs ys))).
  { unfold crossR. fold mux muy. f_equal. clearbody mux muy. clear -mux muy. revert ys. induction xs as [|x l IH]; intros [|y l']; cbn; try reflexivity. f_equal. apply IH. }
  rewrite EC. apply Rle_trans with (1 := Bs). rewrite u_val. nra.
Qed.
End XY.
