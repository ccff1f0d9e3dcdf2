(* The Anderson-Darling test: the correction for small samples and the p-value. *)
From Coq Require Import Reals Lra Lia List.
From Flocq Require Import Core BinarySingleNaN.
From Verif Require Import Base FloatModel FloatLemmas ErrorSpec ResultModel ResultSpec StatsModel StatsProofs CouponFloatProofs DistModel DistSpec DistSeries CorrPearson OtherModel OtherSpec FisherProofs BinomProofs TestsPerm LibInst AndersonProofs AndersonPoly AndersonFix.
Import ListNotations.
Open Scope R_scope.

Definition cutoff (n : N) : double := dadd (dconst 7292228516638307 (-59)) (ddiv (dconst 6330259636231969 (-55)) (double_of_N n)).
Lemma count_ok n : (1 <= n < 2 ^ 31)%N -> fin (double_of_N n) /\ dval (double_of_N n) = IZR (Z.of_N n) /\ 1 <= IZR (Z.of_N n) /\ ab (double_of_N n) 31.
Proof.
  intros H. destruct (double_of_N_exact n) as [V F]; [apply N.le_trans with (2 ^ 31)%N; lia|].
  assert (1 <= IZR (Z.of_N n)) by (apply (IZR_le 1); lia). split; [exact F|]. split; [exact V|]. split; [assumption|]. split; [exact F|]. rewrite V, Rabs_pos_eq by lra. apply (IZR_le _ (2 ^ 31)). lia.
Qed.
Lemma cutoff_ok n : (1 <= n < 2 ^ 31)%N -> fin (cutoff n) /\ 1264 / 100000 <= dval (cutoff n) <= 19 / 100.
Proof.
  intros H. destruct (count_ok n H) as (Fn & Vn & N1 & _). unfold cutoff.
  cstv 7292228516638307%Z (-59)%Z F0 V0 (/ 576460752303423488). cstv 6330259636231969%Z (-55)%Z F1 V1 (/ 36028797018963968).
  set (a := dconst 7292228516638307 (-59)) in *. set (b := dconst 6330259636231969 (-55)) in *.
  assert (Q : 0 <= dval b / dval (double_of_N n) <= 1758 / 10000).
  { rewrite Vn, V1. set (m := IZR (Z.of_N n)) in *. split; [apply Rmult_le_pos; [lra|apply Rlt_le, Rinv_0_lt_compat; lra]|]. apply Rmult_le_reg_r with m; [lra|]. unfold Rdiv at 1. rewrite Rmult_assoc, Rinv_l by lra. lra. }
  destruct (ddiv_ok b (double_of_N n) F1) as [V F]; [rewrite Vn; lra|apply small_2, Rabs_le; lra|].
  pose proof (rnd_slop (dval b / dval (double_of_N n)) ltac:(apply Rabs_le; lra)) as E. rewrite <- V in E. apply Rabs_le_inv in E.
  destruct (dadd_ok a _ F0 F) as [V' F']; [apply small_2, Rabs_le; lra|]. split; [exact F'|].
  pose proof (rnd_slop (dval a + dval (ddiv b (double_of_N n))) ltac:(apply Rabs_le; lra)) as E'. rewrite <- V' in E'. apply Rabs_le_inv in E'. lra.
Qed.
(* Horner with additions and subtractions, close to 1 *)
Lemma hor1 c q x C Q d e : fin c -> fin q -> fin x -> 1 - / 1000000000 <= dval x <= 1 -> C - / 1000000000 <= dval c <= C + / 1000000000 -> -4000 <= C <= 4000 -> -4000 <= Q <= 4000 -> 
  Rabs (dval q - Q) <= d -> 0 <= d <= 1 / 100 -> d + / 100000 <= e ->
  fin (dsub c (dmul q x)) /\ Rabs (dval (dsub c (dmul q x)) - (C - Q)) <= e.
Proof.
  intros Fc Fq Fx Bx Bc BC BQ Dq Bd He. apply Rabs_le_inv in Dq.
  assert (P : Q - d - 41 / 10000000 <= dval q * dval x <= Q + d + 41 / 10000000) by (split; nra).
  assert (R : forall t, Rabs t <= 10000 -> Rabs (rnd t - t) <= / 10000000).
  { intros t Ht. pose proof (rnd_err_abs t) as E. assert (A2 : bpow radix2 (-1000) <= / 9007199254740992) by (rewrite <- u_val; apply bpow_le; lia). rewrite u_val in E. lra. }
  destruct (dmul_ok q x Fq Fx) as [V F]; [apply small_R with 10000; [apply Rabs_le; lra|lra]|].
  pose proof (R (dval q * dval x) ltac:(apply Rabs_le; lra)) as E. rewrite <- V in E. apply Rabs_le_inv in E.
  destruct (dsub_ok c _ Fc F) as [V' F']; [apply small_R with 10000; [apply Rabs_le; lra|lra]|]. split; [exact F'|].
  pose proof (R (dval c - dval (dmul q x)) ltac:(apply Rabs_le; lra)) as E'. rewrite <- V' in E'. apply Rabs_le_inv in E'. apply Rabs_le. lra.
Qed.
Definition errpoly (x : double) : double :=
  dadd (dconst (-4581487271863543) (-45)) (dmul (dsub (dconst 6555144948484250 (-43)) (dmul (dsub (dconst 7499069523664830 (-42)) (dmul (dsub (dconst 8579031834698973 (-42)) (dmul
     (dsub (dconst 4909803203136061 (-42)) (dmul (dconst 8999613504118640 (-45)) x)) x)) x)) x)) x).
Lemma errpoly_ab x : ab x 2 -> ab (errpoly x) 40.
Proof.
  intros A. unfold errpoly.
  assert (A1 : ab (dsub (dconst 4909803203136061 (-42)) (dmul (dconst 8999613504118640 (-45)) x)) 14).
  { apply ab_sub with 12%Z 13%Z; [apply ab_cst; lia|apply ab_mul with 10%Z 2%Z; [apply ab_cst; lia|exact A|lia|lia]|lia|lia|lia]. }
  match type of A1 with ab ?t _ => set (q1 := t) in * end.
  assert (A2 : ab (dsub (dconst 8579031834698973 (-42)) (dmul q1 x)) 18).
  { apply ab_sub with 12%Z 17%Z; [apply ab_cst; lia|apply ab_mul with 14%Z 2%Z; [exact A1|exact A|lia|lia]|lia|lia|lia]. }
  match type of A2 with ab ?t _ => set (q2 := t) in * end.
  assert (A3 : ab (dsub (dconst 7499069523664830 (-42)) (dmul q2 x)) 22).
  { apply ab_sub with 12%Z 21%Z; [apply ab_cst; lia|apply ab_mul with 18%Z 2%Z; [exact A2|exact A|lia|lia]|lia|lia|lia]. }
  match type of A3 with ab ?t _ => set (q3 := t) in * end.
  assert (A4 : ab (dsub (dconst 6555144948484250 (-43)) (dmul q3 x)) 26).
  { apply ab_sub with 12%Z 25%Z; [apply ab_cst; lia|apply ab_mul with 22%Z 2%Z; [exact A3|exact A|lia|lia]|lia|lia|lia]. }
  match type of A4 with ab ?t _ => set (q4 := t) in * end.
  apply ab_add with 12%Z 30%Z; [apply ab_cst; lia|apply ab_mul with 26%Z 2%Z; [exact A4|exact A|lia|lia]|lia|lia|lia].
Qed.
Lemma errpoly_1 x : fin x -> 1 - bpow radix2 (-47) <= dval x <= 1 -> Rabs (dval (errpoly x) + 6 / 10000) <= 1 / 10000.
Proof.
  intros Fx Bx. change (bpow radix2 (-47)) with (/ 140737488355328) in Bx. assert (Bx' : 1 - / 1000000000 <= dval x <= 1) by lra.
  cstv 8999613504118640%Z (-45)%Z F0 V0 (/ 35184372088832).
  cstv 4909803203136061%Z (-42)%Z F1 V1 (/ 4398046511104).
  cstv 8579031834698973%Z (-42)%Z F2 V2 (/ 4398046511104).
  cstv 7499069523664830%Z (-42)%Z F3 V3 (/ 4398046511104).
  cstv 6555144948484250%Z (-43)%Z F4 V4 (/ 8796093022208).
  cstv (-4581487271863543)%Z (-45)%Z F5 V5 (/ 35184372088832). unfold errpoly.
  set (c0 := dconst 8999613504118640 (-45)) in *. set (c1 := dconst 4909803203136061 (-42)) in *. set (c2 := dconst 8579031834698973 (-42)) in *. set (c3 := dconst 7499069523664830 (-42)) in *. set (c4 := dconst 6555144948484250 (-43)) in *. set (c5 := dconst (-4581487271863543) (-45)) in *.
  destruct (hor1 c1 c0 x (1116360 / 1000) (2557844 / 10000) (/ 1000000) (12 / 1000000) F1 F0 Fx Bx' ltac:(lra) ltac:(lra) ltac:(lra) ltac:(apply Rabs_le; lra) ltac:(lra) ltac:(lra)) as [G1 D1]. set (q1 := dsub c1 (dmul c0 x)) in *.
  destruct (hor1 c2 q1 x (1950646 / 1000) (1116360 / 1000 - (2557844 / 10000)) _ (24 / 1000000) F2 G1 Fx Bx' ltac:(lra) ltac:(lra) ltac:(lra) D1 ltac:(lra) ltac:(lra)) as [G2 D2]. set (q2 := dsub c2 (dmul q1 x)) in *.
  destruct (hor1 c3 q2 x (1705091 / 1000) (1950646 / 1000 - (1116360 / 1000 - (2557844 / 10000))) _ (36 / 1000000) F3 G2 Fx Bx' ltac:(lra) ltac:(lra) ltac:(lra) D2 ltac:(lra) ltac:(lra)) as [G3 D3]. set (q3 := dsub c3 (dmul q2 x)) in *.
  destruct (hor1 c4 q3 x (7452337 / 10000) (1705091 / 1000 - (1950646 / 1000 - (1116360 / 1000 - (2557844 / 10000)))) _ (48 / 1000000) F4 G3 Fx Bx' ltac:(lra) ltac:(lra) ltac:(lra) D3 ltac:(lra) ltac:(lra)) as [G4 D4]. set (q4 := dsub c4 (dmul q3 x)) in *.
  apply Rabs_le_inv in D4.
  assert (P : 130213 / 1000 - 49/1000000 <= dval q4 * dval x <= 130214 / 1000) by (clear - D4 Bx; split; nra).
  assert (P' : Rabs (dval q4 * dval x - 1302131 / 10000) <= 50 / 1000000) by (apply Rabs_le; clear - D4 Bx; split; nra). apply Rabs_le_inv in P'.
  assert (R : forall t, Rabs t <= 10000 -> Rabs (rnd t - t) <= / 10000000).
  { intros t Ht. pose proof (rnd_err_abs t) as E. assert (A2 : bpow radix2 (-1000) <= / 9007199254740992) by (rewrite <- u_val; apply bpow_le; lia). rewrite u_val in E. lra. }
  destruct (dmul_ok q4 x G4 Fx) as [V F]; [apply small_R with 10000; [apply Rabs_le; lra|lra]|].
  pose proof (R (dval q4 * dval x) ltac:(apply Rabs_le; lra)) as E. rewrite <- V in E. apply Rabs_le_inv in E.
  destruct (dadd_ok c5 _ F5 F) as [V' F']; [apply small_R with 10000; [apply Rabs_le; lra|lra]|].
  pose proof (R (dval c5 + dval (dmul q4 x)) ltac:(apply Rabs_le; lra)) as E'. rewrite <- V' in E'. apply Rabs_le_inv in E'. apply Rabs_le. lra.
Qed.
Definition errlow (n : N) (x : double) : double :=
  let t := ddiv x (cutoff n) in dmul (dmul (dsqrt t) (dsub d1 t)) (dsub (dmul (double_of_N 49) t) (double_of_N 102)).
Definition errlow_r (n : N) (x : double) : double :=
  ddiv (dmul (errlow n x) (dadd (dadd (ddiv (dconst 8531619134090668 (-61)) (double_of_N (n * n))) (ddiv (dconst 7194230188746725 (-63)) (double_of_N n))) (dconst 8854437155380585 (-67)))) (double_of_N n).
Definition errmid (n : N) (x : double) : double :=
  let t := ddiv (dsub x (cutoff n)) (dsub (dconst 7205759403792794 (-53)) (cutoff n)) in
  dadd (dconst (-8350103172405366) (-65)) (dmul (dsub (dconst 7363768196719087 (-50)) (dmul (dsub (dconst 8249356027445222 (-49)) (dmul (dsub (dconst 8139130426565329 (-49)) (dmul
    (dsub (dconst 4649403665306616 (-49)) (dmul (dconst 8640786389058128 (-52)) t)) t)) t)) t)) t).
Definition errmid_r (n : N) (x : double) : double :=
  ddiv (dmul (errmid n x) (dadd (dconst 6071572873635808 (-57)) (ddiv (dconst 7868689268941731 (-59)) (double_of_N n)))) (double_of_N n).
Lemma errfix_eq n x : AndersonDarlingErrFix n x =
  if dlt (dconst 7205759403792794 (-53)) x then Ok (ddiv (errpoly x) (double_of_N n))
  else if dlt x (cutoff n) then (if (2 ^ 31 <=? n * n)%N then UB else Ok (errlow_r n x)) else Ok (errmid_r n x).
Proof. reflexivity. Qed.
Lemma ab_d1 : ab d1 0.
Proof. destruct d1_val as [V F]. split; [exact F|]. rewrite V, Rabs_R1. change (bpow radix2 0) with 1. lra. Qed.
Lemma ab_N m k : (m <= 2 ^ 53)%N -> (Z.of_N m <= 2 ^ k)%Z -> (0 <= k)%Z -> ab (double_of_N m) k.
Proof.
  intros H H' K. destruct (double_of_N_exact m H) as [V F]. split; [exact F|]. rewrite V, Rabs_pos_eq by (apply (IZR_le 0); lia). rewrite <- (IZR_Zpower radix2) by lia. apply IZR_le. exact H'.
Qed.
Lemma errlow_ab n x : (1 <= n)%N -> (n * n < 2 ^ 31)%N -> fin x -> 0 <= dval x <= 4 -> ab (errlow_r n x) 100.
Proof.
  intros N1 N2 Fx Bx. assert (Hn : (1 <= n < 2 ^ 31)%N) by nia. destruct (count_ok n Hn) as (Fn & Vn & Rn & An). destruct (cutoff_ok n Hn) as [Fc Bc].
  assert (A4 : ab x 2) by (split; [exact Fx|rewrite Rabs_pos_eq by lra; change (bpow radix2 2) with 4; lra]).
  assert (B1 : bpow radix2 0 <= dval (double_of_N n)) by (rewrite Vn; exact Rn).
  assert (B2 : bpow radix2 (-7) <= dval (cutoff n)) by (change (bpow radix2 (-7)) with (/ 128); lra).
  assert (T : ab (ddiv x (cutoff n)) 9) by (apply ab_div with 2%Z (-7)%Z; [exact A4|exact B2|lia|lia]).
  assert (T0 : 0 <= dval (ddiv x (cutoff n))).
  { assert (0 <= dval x / dval (cutoff n)) by (apply Rmult_le_pos; [lra|apply Rlt_le, Rinv_0_lt_compat; lra]).
    destruct (ddiv_ok x (cutoff n) Fx) as [V _]; [lra| |].
    - apply small_R with 400; [|lra]. rewrite Rabs_pos_eq by assumption. apply Rmult_le_reg_r with (dval (cutoff n)); [lra|]. unfold Rdiv. rewrite Rmult_assoc, Rinv_l by lra. lra.
    - rewrite V, <- (rnd_id 0 F64_0). apply rnd_mono. assumption. }
  assert (E : ab (errlow n x) 40).
  { unfold errlow. set (t := ddiv x (cutoff n)) in *. cbv zeta. 
    assert (S : ab (dsqrt t) 9).
    { destruct T as [Ft Bt]. destruct (dsqrt_ok t Ft T0) as [F V]. split; [exact F|]. rewrite V. apply ab_rnd; [lia|]. rewrite Rabs_pos_eq by apply sqrt_pos. rewrite Rabs_pos_eq in Bt by exact T0.
      change (bpow radix2 9) with 512 in *. apply Rsqr_incr_0_var; [|lra]. unfold Rsqr. rewrite sqrt_sqrt by exact T0. lra. }
    apply ab_mul with 20%Z 20%Z; [apply ab_mul with 9%Z 10%Z; [exact S|apply ab_sub with 0%Z 9%Z; [apply ab_d1|exact T|lia|lia|lia]|lia|lia]| |lia|lia].
    apply ab_sub with 15%Z 7%Z; [apply ab_mul with 6%Z 9%Z; [apply ab_N; lia|exact T|lia|lia]|apply ab_N; lia|lia|lia|lia]. }
  unfold errlow_r. apply ab_div with 60%Z 0%Z; [|exact B1|lia|lia]. apply ab_mul with 40%Z 5%Z; [exact E| |lia|lia].
  apply ab_add with 3%Z 3%Z; [|apply ab_cst; lia|lia|lia|lia].
  apply ab_add with 1%Z 1%Z; [apply ab_div with 1%Z 0%Z; [apply ab_cst; lia| |lia|lia]|apply ab_div with 1%Z 0%Z; [apply ab_cst; lia|exact B1|lia|lia]|lia|lia|lia].
  destruct (double_of_N_exact (n * n)) as [V _]; [apply N.le_trans with (2 ^ 31)%N; lia|]. rewrite V. apply (IZR_le 1). nia.
Qed.
Lemma errmid_ab n x : (1 <= n < 2 ^ 31)%N -> fin x -> 0 <= dval x <= 4 -> ab (errmid_r n x) 100.
Proof.
  intros Hn Fx Bx. destruct (count_ok n Hn) as (Fn & Vn & Rn & An). destruct (cutoff_ok n Hn) as [Fc Bc].
  assert (A4 : ab x 2) by (split; [exact Fx|rewrite Rabs_pos_eq by lra; change (bpow radix2 2) with 4; lra]).
  assert (AC : ab (cutoff n) 0) by (split; [exact Fc|rewrite Rabs_pos_eq by lra; change (bpow radix2 0) with 1; lra]).
  assert (B1 : bpow radix2 0 <= dval (double_of_N n)) by (rewrite Vn; exact Rn).
  cstv 7205759403792794%Z (-53)%Z F8 V8 (/ 9007199254740992).
  assert (D : bpow radix2 (-1) <= dval (dsub (dconst 7205759403792794 (-53)) (cutoff n))).
  { destruct (dsub_ok (dconst 7205759403792794 (-53)) (cutoff n) F8 Fc) as [V _]; [apply small_2, Rabs_le; lra|]. rewrite V, <- (rnd_id (bpow radix2 (-1))) by (apply F64_bpow; lia). apply rnd_mono. change (bpow radix2 (-1)) with (/ 2). lra. }
  assert (T : ab (ddiv (dsub x (cutoff n)) (dsub (dconst 7205759403792794 (-53)) (cutoff n))) 5) by (apply ab_div with 3%Z (-1)%Z; [apply ab_sub with 2%Z 0%Z; [exact A4|exact AC|lia|lia|lia]|exact D|lia|lia]).
  unfold errmid_r, errmid. cbv zeta. set (t := ddiv (dsub x (cutoff n)) _) in *.
  apply ab_div with 70%Z 0%Z; [|exact B1|lia|lia]. apply ab_mul with 60%Z 5%Z; [|apply ab_add with 1%Z 1%Z; [apply ab_cst; lia|apply ab_div with 1%Z 0%Z; [apply ab_cst; lia|exact B1|lia|lia]|lia|lia|lia]|lia|lia].
  assert (A1 : ab (dsub (dconst 4649403665306616 (-49)) (dmul (dconst 8640786389058128 (-52)) t)) 7).
  { apply ab_sub with 4%Z 6%Z; [apply ab_cst; lia|apply ab_mul with 1%Z 5%Z; [apply ab_cst; lia|exact T|lia|lia]|lia|lia|lia]. }
  match type of A1 with ab ?t _ => set (q1 := t) in * end.
  assert (A2 : ab (dsub (dconst 8139130426565329 (-49)) (dmul q1 t)) 13).
  { apply ab_sub with 4%Z 12%Z; [apply ab_cst; lia|apply ab_mul with 7%Z 5%Z; [exact A1|exact T|lia|lia]|lia|lia|lia]. }
  match type of A2 with ab ?t _ => set (q2 := t) in * end.
  assert (A3 : ab (dsub (dconst 8249356027445222 (-49)) (dmul q2 t)) 19).
  { apply ab_sub with 4%Z 18%Z; [apply ab_cst; lia|apply ab_mul with 13%Z 5%Z; [exact A2|exact T|lia|lia]|lia|lia|lia]. }
  match type of A3 with ab ?t _ => set (q3 := t) in * end.
  assert (A5 : ab (dsub (dconst 7363768196719087 (-50)) (dmul q3 t)) 25).
  { apply ab_sub with 4%Z 24%Z; [apply ab_cst; lia|apply ab_mul with 19%Z 5%Z; [exact A3|exact T|lia|lia]|lia|lia|lia]. }
  match type of A5 with ab ?t _ => set (q4 := t) in * end.
  apply ab_add with 0%Z 32%Z; [apply ab_cst; lia|apply ab_mul with 25%Z 5%Z; [exact A5|exact T|lia|lia]|lia|lia|lia].
Qed.
Lemma errhigh_ab n x : (1 <= n < 2 ^ 31)%N -> fin x -> 0 <= dval x <= 4 -> ab (ddiv (errpoly x) (double_of_N n)) 100.
Proof.
  intros Hn Fx Bx. destruct (count_ok n Hn) as (Fn & Vn & Rn & An).
  apply ab_div with 40%Z 0%Z; [apply errpoly_ab; split; [exact Fx|rewrite Rabs_pos_eq by lra; change (bpow radix2 2) with 4; lra]|rewrite Vn; exact Rn|lia|lia].
Qed.
Lemma errfix_ok n x : (1 <= n < 2 ^ 31)%N -> fin x -> 0 <= dval x <= 4 ->
  (exists r, AndersonDarlingErrFix n x = Ok r /\ ab r 100) \/ AndersonDarlingErrFix n x = UB /\ (2 ^ 31 <= n * n)%N.
Proof.
  intros Hn Fx Bx. rewrite errfix_eq. destruct (dlt _ x); [left; eexists; split; [reflexivity|apply errhigh_ab; assumption]|].
  destruct (dlt x _); [|left; eexists; split; [reflexivity|apply errmid_ab; assumption]].
  destruct (N.leb_spec (2 ^ 31) (n * n)) as [H|H]; [right; split; [reflexivity|exact H]|left; eexists; split; [reflexivity|apply errlow_ab; (lia || assumption)]].
Qed.
Lemma errfix_ub n x : (46341 <= n < 2 ^ 31)%N -> fin x -> 0 <= dval x <= 126 / 10000 -> AndersonDarlingErrFix n x = UB.
Proof.
  intros Hn Fx Bx. destruct (cutoff_ok n ltac:(lia)) as [Fc Bc]. cstv 7205759403792794%Z (-53)%Z F8 V8 (/ 9007199254740992).
  rewrite errfix_eq. replace (dlt (dconst 7205759403792794 (-53)) x) with false by (symmetry; apply dlt_false; [exact F8|exact Fx|lra]).
  replace (dlt x (cutoff n)) with true by (symmetry; apply dlt_iff; [exact Fx|exact Fc|lra]).
  replace (2 ^ 31 <=? n * n)%N with true by (symmetry; apply N.leb_le; nia). reflexivity.
Qed.
Lemma errfix_1 n x : (1 <= n < 2 ^ 31)%N -> fin x -> 1 - bpow radix2 (-47) <= dval x <= 1 ->
  AndersonDarlingErrFix n x = Ok (ddiv (errpoly x) (double_of_N n)) /\ fin (ddiv (errpoly x) (double_of_N n)) /\ - (71 / 100000) / IZR (Z.of_N n) <= dval (ddiv (errpoly x) (double_of_N n)) <= - (49 / 100000) / IZR (Z.of_N n).
Proof.
  intros Hn Fx Bx. pose proof (errpoly_1 x Fx Bx) as E. change (bpow radix2 (-47)) with (/ 140737488355328) in Bx. destruct (count_ok n Hn) as (Fn & Vn & Rn & An). cstv 7205759403792794%Z (-53)%Z F8 V8 (/ 9007199254740992).
  split; [rewrite errfix_eq; replace (dlt (dconst 7205759403792794 (-53)) x) with true by (symmetry; apply dlt_iff; [exact F8|exact Fx|lra]); reflexivity|].
  destruct (errpoly_ab x) as [Fp _]; [split; [exact Fx|rewrite Rabs_pos_eq by lra; change (bpow radix2 2) with 4; lra]|].
  apply Rabs_le_inv in E. set (p := errpoly x) in *. set (m := IZR (Z.of_N n)) in *.
  assert (M2 : m <= 2147483648) by (apply (IZR_le _ 2147483648); lia).
  assert (I : / 2147483648 <= / m <= 1) by (split; [apply Rinv_le; lra|rewrite <- Rinv_1; apply Rinv_le; lra]).
  assert (Q : - (7 / 10000) * / m <= dval p * / m <= - (5 / 10000) * / m) by (split; apply Rmult_le_compat_r; lra).
  destruct (ddiv_ok p (double_of_N n) Fp) as [V F]; [rewrite Vn; fold m; lra|rewrite Vn; fold m; apply small_2; unfold Rdiv; apply Rabs_le; lra|].
  split; [exact F|]. rewrite V, Vn. fold m. unfold Rdiv at 1 2 4. pose proof (rnd_err_abs (dval p * / m)) as R. assert (A2 : bpow radix2 (-1000) <= / 2147483648 * / 9007199254740992).
  { rewrite <- u_val. change (/ 2147483648) with (bpow radix2 (-31)). rewrite <- bpow_plus. apply bpow_le. lia. }
  rewrite u_val in R. rewrite (Rabs_left1 (dval p * / m)) in R by lra. apply Rabs_le_inv in R. unfold Rdiv in *. lra.
Qed.

Section Cdf.
Variables (log exp erfc : double -> double).
Hypothesis G : good_dist log exp erfc.
Hypothesis X : exp_nonneg exp.
Hypothesis XA : accurate_exp exp.
Lemma inf_ok z : ab z 40 -> bpow radix2 (-54) <= dval z -> fin (AndersonDarlingInf exp z) /\ 0 <= dval (AndersonDarlingInf exp z) <= 4.
Proof.
  intros Z Bz. destruct (Rlt_or_le (dval z) 2) as [H|H].
  - destruct (inf_low log exp erfc G XA z (proj1 Z) (conj Bz H)) as (F & B & _). split; assumption.
  - destruct (inf_high log exp erfc G X XA z Z H) as (F & B & _). split; [exact F|lra].
Qed.
Lemma clamp_fin x : fin x -> valid01 (dclamp x d0 d1) /\ dval (dclamp x d0 d1) = Rmin 1 (Rmax 0 (dval x)).
Proof.
  intros F. destruct d0_val as [V0 F0]. destruct d1_val as [V1 F1]. unfold dclamp.
  destruct (dlt x d0) eqn:A; [apply dlt_iff in A; [|assumption|assumption]; split; [split; [exact F0|lra]|rewrite V0, Rmax_left, Rmin_right by lra; reflexivity]|].
  apply dlt_false in A; [|assumption|assumption]. destruct (dlt d1 x) eqn:B; [apply dlt_iff in B; [|assumption|assumption]; split; [split; [exact F1|lra]|rewrite V1, Rmax_right, Rmin_left by lra; reflexivity]|].
  apply dlt_false in B; [|assumption|assumption]. split; [split; [exact F|lra]|]. rewrite Rmax_right, Rmin_right by lra. reflexivity.
Qed.
Lemma df_ok n : (1 <= n < 2 ^ 31)%N -> N_of_double 31 (double_of_N n) = Ok n.
Proof.
  intros H. destruct (count_ok n H) as (F & V & B & _). rewrite N_of_double_trunc; [|exact F|lra|rewrite V; apply IZR_lt; lia]. rewrite V, Zfloor_IZR, N2Z.id. reflexivity.
Qed.
Lemma cdf_ok z n : (1 <= n < 2 ^ 31)%N -> ab z 40 -> bpow radix2 (-54) <= dval z ->
  (exists p, anderson_darling_cdf exp z (double_of_N n) = Ok p /\ valid01 p) \/ anderson_darling_cdf exp z (double_of_N n) = UB /\ (2 ^ 31 <= n * n)%N.
Proof.
  intros Hn Z Bz. unfold anderson_darling_cdf. rewrite df_ok by exact Hn. cbn [obind]. unfold AndersonDarlingPValue. cbv zeta.
  destruct (inf_ok z Z Bz) as [Fi Bi]. set (ad := AndersonDarlingInf exp z) in *.
  destruct (errfix_ok n ad Hn Fi Bi) as [(r & E & A)|[E H]]; rewrite E; cbn [obind]; [left|right; split; [reflexivity|exact H]].
  eexists. split; [reflexivity|]. apply one_minus, clamp_fin.
  assert (Aa : ab ad 2) by (split; [exact Fi|rewrite Rabs_pos_eq by lra; change (bpow radix2 2) with 4; lra]). apply (ab_add ad r 2 100 101 Aa A); lia.
Qed.
Lemma cdf_ub z n : (46341 <= n < 2 ^ 31)%N -> fin z -> bpow radix2 (-54) <= dval z <= 1 / 5 -> anderson_darling_cdf exp z (double_of_N n) = UB.
Proof.
  intros Hn Fz Bz. unfold anderson_darling_cdf. rewrite df_ok by lia. cbn [obind]. unfold AndersonDarlingPValue. cbv zeta.
  destruct (inf_low log exp erfc G XA z Fz ltac:(lra)) as (F & B & C). rewrite errfix_ub; [reflexivity|exact Hn|exact F|]. specialize (C ltac:(lra)). lra.
Qed.
Lemma cdf_large z n : (1 <= n < 2 ^ 31)%N -> ab z 40 -> 32 <= dval z ->
  exists p, anderson_darling_cdf exp z (double_of_N n) = Ok p /\ valid01 p /\ 4 / 10000 / IZR (Z.of_N n) <= dval p <= 8 / 10000 / IZR (Z.of_N n).
Proof.
  intros Hn Z Bz. unfold anderson_darling_cdf. rewrite df_ok by exact Hn. cbn [obind]. unfold AndersonDarlingPValue. cbv zeta.
  destruct (inf_high log exp erfc G X XA z Z ltac:(lra)) as (Fi & Bi & Ci). specialize (Ci Bz). set (ad := AndersonDarlingInf exp z) in *.
  destruct (errfix_1 n ad Hn Fi ltac:(lra)) as (E & Fe & Be). rewrite E. cbn [obind]. set (r := ddiv (errpoly ad) (double_of_N n)) in *.
  destruct (count_ok n Hn) as (_ & _ & Rn & _). set (m := IZR (Z.of_N n)) in *. assert (M2 : m <= 2147483648) by (apply (IZR_le _ 2147483648); lia).
  assert (I : / 2147483648 <= / m <= 1) by (split; [apply Rinv_le; lra|rewrite <- Rinv_1; apply Rinv_le; lra]).
  change (bpow radix2 (-47)) with (/ 140737488355328) in Ci. unfold Rdiv in *.
  destruct (dadd_ok ad r Fi Fe) as [V F]; [apply small_2, Rabs_le; lra|].
  assert (SL : forall t, Rabs t <= 2 -> Rabs (rnd t - t) <= / 2251799813685248).
  { intros t Ht. pose proof (rnd_err_abs t) as R. assert (A2 : bpow radix2 (-1000) <= / 9007199254740992) by (rewrite <- u_val; apply bpow_le; lia). rewrite u_val in R. lra. }
  pose proof (SL (dval ad + dval r) ltac:(apply Rabs_le; lra)) as E1. rewrite <- V in E1. apply Rabs_le_inv in E1.
  destruct (clamp_fin _ F) as [Vc Ec]. rewrite Rmax_right, Rmin_right in Ec by (try apply Rmax_lub; lra).
  eexists. split; [reflexivity|]. split; [apply one_minus, Vc|]. destruct d1_val as [V1 F1].
  destruct (dsub_ok d1 (dclamp (dadd ad r) d0 d1) F1 (proj1 Vc)) as [V' _]; [rewrite V1; apply small_2, Rabs_le; destruct Vc; lra|].
  pose proof (SL (dval d1 - dval (dclamp (dadd ad r) d0 d1)) ltac:(rewrite V1; apply Rabs_le; destruct Vc; lra)) as E2. rewrite <- V' in E2. apply Rabs_le_inv in E2. rewrite V1, Ec in E2. lra.
Qed.
End Cdf.
