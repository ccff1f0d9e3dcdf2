(* get_rank_probability approximates (number of matrices of that rank) / 2^(n*n). *)
From Coq Require Import Reals Lra.
From Flocq Require Import Core BinarySingleNaN Relative.
From Verif Require Import Base FloatModel FloatLemmas CollectModel CouponFloatProofs RescaleProofs StatsProofs RankModel RankCount RankBridge.
Open Scope R_scope.
Notation b2 := (bpow radix2).

(* ---- the exact value ---- *)
Definition two (i n : nat) : R := b2 (Z.of_nat i - Z.of_nat n).
Fixpoint G (n r j : nat) : R := match j with O => 1 | S i => G n r i * ((1 - two i n) * (1 - two i n) / (1 - two i r)) end.
Fixpoint H (n j : nat) : R := match j with O => 1 | S i => H n i * (1 - two i n) end.
Lemma two_lt i n : (i < n)%nat -> 0 < two i n <= / 2.
Proof. intro L. unfold two. split; [apply bpow_gt_0|]. change (/ 2) with (b2 (-1)). apply bpow_le. lia. Qed.
Lemma two_S i n : two (S i) n = 2 * two i n.
Proof. unfold two. replace (Z.of_nat (S i) - Z.of_nat n)%Z with (1 + (Z.of_nat i - Z.of_nat n))%Z by lia. rewrite bpow_plus. reflexivity. Qed.
Lemma two_mono i r n : (r <= n)%nat -> two i n <= two i r.
Proof. intro L. unfold two. apply bpow_le. lia. Qed.
Lemma H_lower n j : (S j <= n)%nat -> 1 - two j n <= H n j.
Proof.
  induction j as [|j IH]; intro L; cbn [H]; [pose proof (two_lt 0 n ltac:(lia)); lra|].
  specialize (IH ltac:(lia)). rewrite two_S. pose proof (two_lt j n ltac:(lia)). nra.
Qed.
Lemma H_quarter n j : (j <= n)%nat -> / 4 <= H n j.
Proof.
  intro L. destruct j as [|j]; [cbn [H]; lra|]. destruct (Nat.eq_dec (S j) n) as [E|E].
  - cbn [H]. pose proof (H_lower n j ltac:(lia)). pose proof (two_lt j n ltac:(lia)).
    destruct (Nat.eq_dec j 0) as [->|]; nra.
  - pose proof (H_lower n (S j) ltac:(lia)) as A. pose proof (two_lt (S j) n ltac:(lia)). lra.
Qed.
Lemma H_le1 n j : (j <= n)%nat -> H n j <= 1.
Proof. induction j as [|j IH]; intro L; cbn [H]; [lra|]. specialize (IH ltac:(lia)). pose proof (two_lt j n ltac:(lia)). pose proof (H_quarter n j ltac:(lia)). nra. Qed.
Lemma G_H n r j : (j <= r)%nat -> (r <= n)%nat -> G n r j * H r j = H n j * H n j.
Proof.
  intros A B. induction j as [|j IH]; cbn [G H]; [ring|]. specialize (IH ltac:(lia)). pose proof (two_lt j r ltac:(lia)).
  replace (G n r j * ((1 - two j n) * (1 - two j n) / (1 - two j r)) * (H r j * (1 - two j r))) with ((G n r j * H r j) * ((1 - two j n) * (1 - two j n))) by (field; lra).
  rewrite IH. ring.
Qed.
Lemma H_mono n r j : (j <= r)%nat -> (r <= n)%nat -> H r j <= H n j.
Proof.
  intros A B. induction j as [|j IH]; cbn [H]; [lra|]. specialize (IH ltac:(lia)). pose proof (two_lt j r ltac:(lia)). pose proof (two_mono j r n B). pose proof (H_quarter r j ltac:(lia)). nra.
Qed.
Lemma G_bounds n r j : (j <= r)%nat -> (r <= n)%nat -> / 4 <= G n r j <= 4.
Proof.
  intros A B. pose proof (G_H n r j A B). pose proof (H_quarter r j A). pose proof (H_le1 r j A). pose proof (H_quarter n j ltac:(lia)). pose proof (H_le1 n j ltac:(lia)). pose proof (H_mono n r j A B).
  set (g := G n r j) in *. set (a := H r j) in *. set (b := H n j) in *.
  assert (gp : 0 < g). { destruct (Rlt_le_dec 0 g); [assumption|]. exfalso. assert (g * a <= 0) by nra. nra. }
  split; [|nra]. assert (a * (/ 4) <= a * g); [|nra]. replace (a * g) with (b * b) by lra. nra.
Qed.
Lemma H_PZ n j : (j <= n)%nat -> IZR (PZ n j) = H n j * b2 (Z.of_nat n * Z.of_nat j).
Proof.
  induction j as [|j IH]; intro L.
  - cbn [PZ H]. rewrite Z.mul_0_r. change (b2 0) with 1. ring.
  - cbn [PZ H]. rewrite mult_IZR, IH, minus_IZR, !IZR_pow2 by lia.
    replace (Z.of_nat n * Z.of_nat (S j))%Z with (Z.of_nat n * Z.of_nat j + Z.of_nat n)%Z by lia. rewrite bpow_plus.
    replace (b2 (Z.of_nat j)) with (two j n * b2 (Z.of_nat n)); [ring|]. unfold two. rewrite <- bpow_plus. f_equal. lia.
Qed.
(* the formula of the source is exact: it is the fraction of matrices of rank r *)
Lemma rank_formula n r : (r <= n)%nat ->
  b2 (- (Z.of_nat n - Z.of_nat r) * (Z.of_nat n - Z.of_nat r)) * G n r r = INR (count_rank n n r) / IZR (2 ^ Z.of_nat (n * n)).
Proof.
  intro L. pose proof (count_rank_Z n r L) as C. apply (f_equal IZR) in C. rewrite !mult_IZR, <- INR_IZR_INZ in C. rewrite !H_PZ in C by lia.
  pose proof (G_H n r r (le_n _) L) as GH. pose proof (H_quarter r r (le_n _)) as Q.
  rewrite IZR_pow2 by lia. pose proof (bpow_gt_0 radix2 (Z.of_nat (n * n))) as P1. pose proof (bpow_gt_0 radix2 (Z.of_nat r * Z.of_nat r)) as P2.
  apply Rmult_eq_reg_r with (b2 (Z.of_nat (n * n))); [|lra]. unfold Rdiv. rewrite Rmult_assoc, Rmult_assoc, Rinv_l by lra. rewrite Rmult_1_r.
  apply Rmult_eq_reg_r with (H r r * b2 (Z.of_nat r * Z.of_nat r)); [|nra]. rewrite C.
  replace (b2 (- (Z.of_nat n - Z.of_nat r) * (Z.of_nat n - Z.of_nat r)) * (G n r r * b2 (Z.of_nat (n * n))) * (H r r * b2 (Z.of_nat r * Z.of_nat r)))
    with (G n r r * H r r * (b2 (- (Z.of_nat n - Z.of_nat r) * (Z.of_nat n - Z.of_nat r)) * b2 (Z.of_nat (n * n)) * b2 (Z.of_nat r * Z.of_nat r))) by ring.
  rewrite GH. rewrite <- !bpow_plus.
  replace (H n r * b2 (Z.of_nat n * Z.of_nat r) * (H n r * b2 (Z.of_nat n * Z.of_nat r))) with (H n r * H n r * (b2 (Z.of_nat n * Z.of_nat r) * b2 (Z.of_nat n * Z.of_nat r))) by ring.
  rewrite <- bpow_plus. do 2 f_equal. nia.
Qed.

(* ---- rounding ---- *)
(* what is assumed of std::pow: exact on powers of two in the range of doubles, tiny below it *)
Definition pow2_exact (pow : double -> double -> double) : Prop := forall z, (- 2 ^ 53 <= z <= 0)%Z ->
  let v := pow (double_of_N 2) (double_of_Z z) in fin v /\ (if (z <? -1074)%Z then 0 <= dval v <= b2 (-1074) else dval v = b2 z).
Lemma one_minus pow z : pow2_exact pow -> (- 2 ^ 53 <= z < 0)%Z ->
  let v := dsub d1 (pow (double_of_N 2) (double_of_Z z)) in fin v /\ / 2 <= dval v <= 1 /\ approx (err 1) (dval v) (1 - b2 z).
Proof.
  intros HP Hz v. destruct (HP z ltac:(lia)) as [Fv Vv]. destruct d1_val as [V1 F1]. set (x := pow (double_of_N 2) (double_of_Z z)) in *.
  assert (T : 0 <= dval x <= / 2 /\ 0 < b2 z <= / 2).
  { assert (B : 0 < b2 z <= / 2). { split; [apply bpow_gt_0|]. change (/ 2) with (b2 (-1)). apply bpow_le. lia. }
    split; [|exact B]. destruct (Z.ltb_spec z (-1074)); [|lra]. split; [lra|]. apply Rle_trans with (b2 (-1074)); [lra|]. change (/ 2) with (b2 (-1)). apply bpow_le. lia. }
  destruct T as [Tx Tz]. pose proof two64 as T64.
  destruct (dsub_ok d1 x F1 Fv) as [Vd Fd]; [rewrite V1; apply small_num; lra|]. rewrite V1 in Vd. fold v in Vd, Fd.
  split; [exact Fd|]. split; [rewrite Vd; apply rnd_between; [exact (F64_bpow (-1) ltac:(lia))|apply F64_1|lra]|].
  destruct (Z.ltb_spec z (-1074)).
  - assert (E : rnd (1 - dval x) = 1).
    { apply Rle_antisym; [rewrite <- (rnd_id 1) at 2 by apply F64_1; apply rnd_mono; lra|].
      (* 1 is the nearest double of every number above 1 - 2^-54 *)
      assert (N1 : rnd (1 - b2 (-1074)) = 1).
      { assert (DV : dval (dsub d1 (dconst 1 (-1074))) = 1).
        { assert (EQ : dsub d1 (dconst 1 (-1074)) = d1) by (apply B2SF_inj; vm_compute; reflexivity). rewrite EQ. exact V1. }
        assert (C : dval (dconst 1 (-1074)) = b2 (-1074) /\ fin (dconst 1 (-1074))).
        { destruct (dconst_ok 1 (-1074)) as [V F].
          - unfold F2R. cbn [Fnum Fexp]. rewrite Rmult_1_l. apply small_bpow with 0%Z; [lia|]. rewrite Rabs_pos_eq by apply bpow_ge_0. apply bpow_le. lia.
          - split; [|exact F]. rewrite V. unfold F2R. cbn [Fnum Fexp]. rewrite Rmult_1_l. apply rnd_id, F64_bpow. lia. }
        destruct C as [C FC]. assert (b2 (-1074) <= / 2) by (change (/ 2) with (b2 (-1)); apply bpow_le; lia). pose proof (bpow_gt_0 radix2 (-1074)).
        destruct (dsub_ok d1 (dconst 1 (-1074)) F1 FC) as [V _]; [rewrite V1, C; apply small_num; lra|]. rewrite V1, C in V. rewrite <- V. exact DV. }
      rewrite <- N1. apply rnd_mono. lra. }
    rewrite Vd, E. unfold approx. replace (1 - (1 - b2 z)) with (b2 z) by ring. rewrite !Rabs_pos_eq by lra. rewrite err_1.
    assert (b2 z <= b2 (-54)) by (apply bpow_le; lia). assert (b2 (-53) = 2 * b2 (-54)) by (change (-53)%Z with (1 + -54)%Z; rewrite bpow_plus; reflexivity).
    pose proof (bpow_gt_0 radix2 (-54)). nra.
  - rewrite Vd, Vv, err_1. apply rnd_approx. apply Rle_trans with (/ 2); [change (/ 2) with (b2 (-1)); apply bpow_le; lia|lra].
Qed.
Lemma err_2 : 2 * err 1 <= err 2.
Proof. unfold err. pose proof u_pos. simpl. nra. Qed.
Lemma b2_pos_1000 x : / 64 <= x -> b2 (-1000) <= x.
Proof. intro A. apply Rle_trans with (2 := A). change (/ 64) with (b2 (-6)). apply bpow_le. lia. Qed.
Lemma rank_loop pow n r : pow2_exact pow -> (r <= n)%nat -> (Z.of_nat n <= 2 ^ 40)%Z -> forall j, (j <= r)%nat ->
  let p := fold_left (rank_factor pow n r) (seq 0 j) d1 in fin p /\ approx (err (7 * j)) (dval p) (G n r j).
Proof.
  intros HP Hrn Hn. induction j as [|j IH]; intro Hj.
  - cbn [seq fold_left G]. split; [apply d1_val|]. rewrite (proj1 d1_val). unfold approx. replace (1 - 1) with 0 by ring. rewrite Rabs_R0, Rabs_R1. pose proof (err_pos (7 * 0)). lra.
  - rewrite seq_S, fold_left_app. cbn [Nat.add fold_left]. destruct (IH ltac:(lia)) as [Fp Ap]. set (p := fold_left (rank_factor pow n r) (seq 0 j) d1) in *. cbn zeta.
    unfold rank_factor. cbn zeta.
    destruct (one_minus pow (Z.of_nat j - Z.of_nat n) HP ltac:(lia)) as (Fa & Ba & Aa). destruct (one_minus pow (Z.of_nat j - Z.of_nat r) HP ltac:(lia)) as (Fb & Bb & Ab).
    fold (two j n) in Aa. fold (two j r) in Ab.
    set (a := dsub d1 (pow (double_of_N 2) (double_of_Z (Z.of_nat j - Z.of_nat n)))) in *. set (b := dsub d1 (pow (double_of_N 2) (double_of_Z (Z.of_nat j - Z.of_nat r)))) in *.
    set (ta := 1 - two j n) in *. set (tb := 1 - two j r) in *.
    assert (Hta : / 2 <= ta <= 1) by (unfold ta; pose proof (two_lt j n ltac:(lia)); lra). assert (Htb : / 2 <= tb <= 1) by (unfold tb; pose proof (two_lt j r ltac:(lia)); lra).
    pose proof two64 as T64.
    destruct (dmul_ok a a Fa Fa) as [Vs Fs]; [apply small_num; nra|].
    assert (Bs : / 4 <= dval (dmul a a) <= 1) by (rewrite Vs; apply rnd_between; [exact (F64_bpow (-2) ltac:(lia))|apply F64_1|nra]).
    assert (As : approx (err 3) (dval (dmul a a)) (ta * ta)).
    { rewrite Vs. apply approx_rnd; [apply b2_pos_1000; nra|]. change 2%nat with (1 + 1)%nat. rewrite <- err_add. apply approx_mult; try apply err_pos; assumption. }
    set (s := dmul a a) in *.
    assert (Ib : approx (err 2) (/ dval b) (/ tb)).
    { apply approx_le with (2 * err 1); [apply err_2|]. apply approx_inv; [|lra|exact Ab]. rewrite err_1. pose proof u_pos. rewrite u_val. lra. }
    assert (Hb : 1 <= / dval b <= 2).
    { split; [rewrite <- Rinv_1 at 1; apply Rinv_le; lra|]. replace 2 with (/ / 2) by (field). apply Rinv_le; lra. }
    destruct (ddiv_ok s b Fs ltac:(lra)) as [Vd Fd]; [apply small_num; unfold Rdiv; nra|].
    assert (Bd : / 4 <= dval (ddiv s b) <= 2) by (rewrite Vd; apply rnd_between; [exact (F64_bpow (-2) ltac:(lia))|apply (F64_Z 2); lia|unfold Rdiv; nra]).
    assert (Ad : approx (err 6) (dval (ddiv s b)) (ta * ta / tb)).
    { rewrite Vd. apply approx_rnd; [apply b2_pos_1000; unfold Rdiv; nra|]. change 5%nat with (3 + 2)%nat. rewrite <- err_add. unfold Rdiv. apply approx_mult; try apply err_pos; assumption. }
    set (q := ddiv s b) in *.
    pose proof (G_bounds n r j ltac:(lia) Hrn) as GB.
    assert (EB : err (7 * j) <= / 2).
    { assert (INR (7 * j) * u <= / 4).
      { rewrite INR_IZR_INZ, u_val. assert (IZR (Z.of_nat (7 * j)) <= 7696581394432) by (apply IZR_le; lia). assert (0 <= IZR (Z.of_nat (7 * j))) by (apply IZR_le; lia). lra. }
      pose proof (err_bound (7 * j) ltac:(lra)). lra. }
    assert (Bp : / 8 <= dval p <= 6).
    { unfold approx in Ap. rewrite (Rabs_pos_eq (G n r j)) in Ap by lra. apply Rabs_le_inv in Ap. pose proof (err_pos (7 * j)). nra. }
    destruct (dmul_ok p q Fp Fd) as [Vm Fm]; [apply small_num; nra|]. split; [exact Fm|]. rewrite Vm.
    replace (7 * S j)%nat with (S (7 * j + 6)) by lia. apply approx_rnd; [apply b2_pos_1000; nra|]. rewrite <- err_add. cbn [G]. fold ta. fold tb. apply approx_mult; try apply err_pos; assumption.
Qed.
Theorem rank_probability_ok pow n r : pow2_exact pow -> (r <= n)%nat -> (Z.of_nat n <= 2 ^ 26)%Z ->
  let p := get_rank_probability pow n r in let q := INR (count_rank n n r) / IZR (2 ^ Z.of_nat (n * n)) in
  fin p /\ ((n - r <= 31)%nat -> Rabs (dval p - q) <= INR (14 * r + 2) * b2 (-53) * q) /\ Rabs (dval p - q) <= INR (14 * r + 2) * b2 (-53) * q + b2 (-900).
Proof.
  intros HP Hrn Hn p q. set (z := (- (Z.of_nat n - Z.of_nat r) * (Z.of_nat n - Z.of_nat r))%Z).
  assert (Hz : (- 2 ^ 53 <= z <= 0)%Z) by (unfold z; nia).
  destruct (HP z Hz) as [Fc Vc]. destruct (rank_loop pow n r HP Hrn ltac:(lia) r (le_n _)) as [Fg Ag]. set (g := fold_left (rank_factor pow n r) (seq 0 r) d1) in *.
  assert (Ep : p = dmul (pow (double_of_N 2) (double_of_Z z)) g) by reflexivity. set (c := pow (double_of_N 2) (double_of_Z z)) in *.
  pose proof (rank_formula n r Hrn) as EQ. fold z in EQ. fold q in EQ. pose proof (G_bounds n r r (le_n _) Hrn) as GB.
  assert (S7 : INR (7 * r + 1) * u <= / 4).
  { rewrite INR_IZR_INZ, u_val. assert (IZR (Z.of_nat (7 * r + 1)) <= 469762049) by (apply IZR_le; lia). assert (0 <= IZR (Z.of_nat (7 * r + 1))) by (apply IZR_le; lia). lra. }
  assert (E7 : err (7 * r + 1) <= INR (14 * r + 2) * u).
  { replace (14 * r + 2)%nat with (2 * (7 * r + 1))%nat by lia. rewrite mult_INR. change (INR 2) with (1 + 1). pose proof (err_bound (7 * r + 1) ltac:(lra)). lra. }
  assert (E7' : err (7 * r + 1) <= / 2) by (pose proof (err_bound (7 * r + 1) ltac:(lra)); lra).
  assert (Bg : / 8 <= dval g <= 6).
  { pose proof (err_mono (7 * r) (7 * r + 1) ltac:(lia)). unfold approx in Ag. rewrite (Rabs_pos_eq (G n r r)) in Ag by lra. apply Rabs_le_inv in Ag. nra. }
  assert (Z1 : 0 < b2 z <= 1) by (split; [apply bpow_gt_0|apply (bpow_le radix2 z 0); lia]).
  assert (C1 : 0 <= dval c <= 1). { destruct (z <? -1074)%Z; [|lra]. split; [lra|]. apply Rle_trans with (b2 (-1074)); [lra|]. apply (bpow_le radix2 (-1074) 0). lia. }
  pose proof two64 as T64.
  destruct (dmul_ok c g Fc Fg) as [Vp Fp]; [apply small_num; nra|]. rewrite <- Ep in Vp, Fp.
  assert (Q0 : 0 <= q) by (rewrite <- EQ; nra).
  split; [exact Fp|].
  assert (A : (-990 <= z)%Z -> Rabs (dval p - q) <= INR (14 * r + 2) * u * q).
  { intro Hb. rewrite (proj2 (Z.ltb_ge _ _)) in Vc by lia.
    assert (AA : approx (err (7 * r + 1)) (dval p) q).
    { rewrite Vp. replace (7 * r + 1)%nat with (S (7 * r)) by lia. apply approx_rnd.
      - rewrite Vc. apply Rle_trans with (b2 z * b2 (-3)); [rewrite <- bpow_plus; apply bpow_le; lia|]. apply Rmult_le_compat_l; [lra|]. change (b2 (-3)) with (/ 8). lra.
      - rewrite Vc, <- EQ. unfold approx in *. replace (b2 z * dval g - b2 z * G n r r) with (b2 z * (dval g - G n r r)) by ring. rewrite !Rabs_mult, !(Rabs_pos_eq (b2 z)) by lra. nra. }
    unfold approx in AA. rewrite (Rabs_pos_eq q) in AA by exact Q0. apply Rle_trans with (1 := AA). apply Rmult_le_compat_r; assumption. }
  split; [intro Hd; apply A; unfold z; nia|].
  assert (T : 0 <= INR (14 * r + 2) * u * q) by (pose proof (pos_INR (14 * r + 2)); pose proof u_pos; apply Rmult_le_pos; [nra|exact Q0]).
  destruct (Z.le_gt_cases (-990) z) as [Hb|Hb]; [pose proof (A Hb); pose proof (bpow_ge_0 radix2 (-900)); lra|].
  assert (Zs : b2 z <= b2 (-990)) by (apply bpow_le; lia). assert (Cs : dval c <= b2 (-990)). { destruct (z <? -1074)%Z; [|lra]. apply Rle_trans with (b2 (-1074)); [lra|]. apply bpow_le. lia. }
  assert (P0 : 0 <= dval p <= b2 (-987)). { rewrite Vp. apply rnd_between; [apply F64_0|apply F64_bpow; lia|]. split; [nra|]. change (-987)%Z with (-990 + 3)%Z. rewrite bpow_plus. change (b2 3) with 8. pose proof (bpow_gt_0 radix2 (-990)). nra. }
  assert (Q1 : q <= b2 (-987)). { rewrite <- EQ. change (-987)%Z with (-990 + 3)%Z. rewrite bpow_plus. change (b2 3) with 8. pose proof (bpow_gt_0 radix2 (-990)). nra. }
  assert (b2 (-987) <= b2 (-900)) by (apply bpow_le; lia).
  assert (Rabs (dval p - q) <= b2 (-987)) by (apply Rabs_le; lra). lra.
Qed.
