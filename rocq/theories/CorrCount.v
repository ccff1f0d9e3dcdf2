(* Kendall's loops count pairs; the counts depend on the order of the values only. *)
From Coq Require Import Reals Lra Lia Permutation.
From Flocq Require Import Core BinarySingleNaN.
From Verif Require Import Base FloatModel FloatLemmas ResultModel CollectModel StatsModel CorrModel CorrSpec.
Open Scope R_scope.

(* ---- counting pairs ---- *)
Lemma count_pairs_ext {A B} (f : A -> A -> bool) (g : B -> B -> bool) da db l : forall l', length l = length l' ->
  (forall i j, (i < j < length l)%nat -> f (nth i l da) (nth j l da) = g (nth i l' db) (nth j l' db)) -> count_pairs f l = count_pairs g l'.
Proof.
  induction l as [|a l IH]; intros [|b l'] L H; cbn in L; try discriminate; [reflexivity|]. cbn [count_pairs]. f_equal.
  - assert (K : forall i, (i < length l)%nat -> f a (nth i l da) = g b (nth i l' db)) by (intros i Hi; apply (H O (S i)); cbn; lia).
    clear IH H. injection L as L. revert l' L K. induction l as [|c l IH]; intros [|d l'] L K; cbn in L; try discriminate; [reflexivity|].
    cbn [filter]. pose proof (K O ltac:(cbn; lia)) as K0. cbn [nth] in K0. rewrite K0. assert (E : length (filter (f a) l) = length (filter (g b) l')).
    { apply IH; [lia|]. intros i Hi. apply (K (S i)). cbn. lia. }
    destruct (g b d); cbn [length]; rewrite E; reflexivity.
  - apply IH; [lia|]. intros i j Hij. apply (H (S i) (S j)). cbn. lia.
Qed.
Lemma filter_perm_len {B} (f : B -> bool) l l' : Permutation l l' -> length (filter f l) = length (filter f l').
Proof. induction 1; cbn [filter]; try reflexivity; try lia; repeat destruct (f _); cbn; lia. Qed.
Lemma count_pairs_perm {A} (f : A -> A -> bool) l l' : (forall a b, f a b = f b a) -> Permutation l l' -> count_pairs f l = count_pairs f l'.
Proof.
  intros S P. induction P as [|x l l' P IH|x y l|l l' l'' P IH P' IH']; cbn [count_pairs]; [reflexivity| | |congruence].
  - rewrite IH, (filter_perm_len _ _ _ P). reflexivity.
  - cbn [filter]. rewrite (S y x). destruct (f x y); cbn [length]; lia.
Qed.
Lemma filter_le {A} (f g : A -> bool) l : (forall a, f a = true -> g a = true) -> (length (filter f l) <= length (filter g l))%nat.
Proof.
  intros H. induction l as [|a l IH]; cbn [filter]; [lia|]. destruct (f a) eqn:E; [rewrite (H a E); cbn; lia|]. destruct (g a); cbn; lia.
Qed.
Lemma filter_sum {A} (f g h : A -> bool) l : (forall a, f a = true -> h a = true) -> (forall a, g a = true -> h a = true) -> (forall a, f a = true -> g a = true -> False) ->
  (length (filter f l) + length (filter g l) <= length (filter h l))%nat.
Proof.
  intros F G D. induction l as [|a l IH]; cbn [filter]; [cbn; lia|]. destruct (f a) eqn:Ef.
  - rewrite (F a Ef). destruct (g a) eqn:Eg; [destruct (D a Ef Eg)|]. cbn [length]. lia.
  - destruct (g a) eqn:Eg; [rewrite (G a Eg); cbn [length]; lia|]. destruct (h a); cbn [length]; lia.
Qed.
Lemma count_pairs_sum {A} (f g h : A -> A -> bool) l : (forall a b, f a b = true -> h a b = true) -> (forall a b, g a b = true -> h a b = true) ->
  (forall a b, f a b = true -> g a b = true -> False) -> (count_pairs f l + count_pairs g l <= count_pairs h l)%nat.
Proof.
  intros F G D. induction l as [|a l IH]; cbn [count_pairs]; [lia|].
  pose proof (filter_sum (f a) (g a) (h a) l (F a) (G a) (D a)). lia.
Qed.
Lemma count_pairs_bound {A} (f : A -> A -> bool) l : (2 * count_pairs f l <= length l * (length l - 1))%nat.
Proof.
  induction l as [|a l IH]; cbn [count_pairs length]; [lia|].
  assert (length (filter (f a) l) <= length l)%nat by (clear; induction l as [|b l IH]; cbn [filter]; [lia|]; destruct (f a b); cbn; lia).
  destruct l as [|b l]; [cbn in *; lia|]. cbn [length] in *. nia.
Qed.
Lemma count_pairs_0 {A} (f : A -> A -> bool) da l : count_pairs f l = 0%nat <-> forall i j, (i < j < length l)%nat -> f (nth i l da) (nth j l da) = false.
Proof.
  induction l as [|a l IH]; cbn [count_pairs length]; [split; [intros _ i j; lia|reflexivity]|]. split.
  - intros H i j Hij. destruct j as [|j]; [lia|]. destruct i as [|i].
    + assert (E : length (filter (f a) l) = 0%nat) by lia. apply length_zero_iff_nil in E. cbn [nth]. destruct (f a (nth j l da)) eqn:K; [|reflexivity].
      assert (I : In (nth j l da) (filter (f a) l)) by (apply filter_In; split; [apply nth_In; lia|exact K]). rewrite E in I. destruct I.
    + cbn [nth]. apply IH; [lia|lia].
  - intros H. assert (K : filter (f a) l = []).
    { assert (K : forall b, In b l -> f a b = false). { intros b Hb. destruct (In_nth _ _ da Hb) as (i & Hi & <-). apply (H O (S i)). lia. }
      clear -K. induction l as [|b l IH]; [reflexivity|]. cbn [filter]. rewrite (K b (or_introl eq_refl)). apply IH. intros c Hc. apply K. right. exact Hc. }
    rewrite K. cbn. apply IH. intros i j Hij. apply (H (S i) (S j)). lia.
Qed.

(* ---- doubles ---- *)
Lemma dnonzero_val x : fin x -> dnonzero x = negb (Req_bool (dval x) 0).
Proof. intros F. unfold dnonzero. rewrite Beqb_correct; [reflexivity|exact F|reflexivity]. Qed.

Lemma diff_ok x y : usual x -> usual y -> let d := dsub x y in fin d /\ Rabs (dval d) <= bpow radix2 501 /\
  (dval x = dval y -> dval d = 0) /\ (dval y < dval x -> bpow radix2 (-500) <= dval d) /\ (dval x < dval y -> dval d <= - bpow radix2 (-500)).
Proof.
  intros (Fx & Bx & mx & Vx) (Fy & By & my & Vy) d. apply Rabs_le_inv in Bx, By.
  assert (E : bpow radix2 501 = 2 * bpow radix2 500). { change 501%Z with (1 + 500)%Z. rewrite bpow_plus. reflexivity. }
  assert (D : Rabs (dval x - dval y) <= bpow radix2 501) by (rewrite E; apply Rabs_le; lra).
  destruct (dsub_ok x y Fx Fy) as [V F]; [apply small_bpow with 501%Z; [lia|exact D]|]. fold d in V, F. split; [exact F|]. rewrite V.
  split. { apply Rabs_le_inv in D. apply Rabs_le, rnd_between; [apply F64_opp, F64_bpow; lia|apply F64_bpow; lia|exact D]. }
  pose proof (bpow_gt_0 radix2 (-500)) as P.
  assert (G : dval x - dval y = IZR (mx - my) * bpow radix2 (-500)) by (rewrite Vx, Vy, minus_IZR; ring).
  split; [intros K; rewrite K, Rminus_diag_eq by reflexivity; apply rnd_id, F64_0|]. split; intros K.
  - rewrite <- (rnd_id (bpow radix2 (-500))) by (apply F64_bpow; lia). apply rnd_mono. rewrite G.
    assert (H : (0 < mx - my)%Z). { apply lt_IZR. apply Rmult_lt_reg_r with (bpow radix2 (-500)); [exact P|]. rewrite <- G. lra. }
    assert (1 <= IZR (mx - my)) by (apply IZR_le; lia). nra.
  - rewrite <- rnd_id by (apply F64_opp, F64_bpow; lia). apply rnd_mono. rewrite G.
    assert (H : (mx - my < 0)%Z). { apply lt_IZR. apply Rmult_lt_reg_r with (bpow radix2 (-500)); [exact P|]. rewrite <- G. lra. }
    assert (IZR (mx - my) <= -1) by (apply IZR_le; lia). nra.
Qed.

Lemma prod_pos a b : fin a -> fin b -> Rabs (dval a) <= bpow radix2 501 -> Rabs (dval b) <= bpow radix2 501 ->
  let p := dmul a b in fin p /\ (bpow radix2 (-1000) <= dval a * dval b -> 0 < dval p) /\ (dval a * dval b <= - bpow radix2 (-1000) -> dval p < 0) /\ (dval a * dval b = 0 -> dval p = 0).
Proof.
  intros Fa Fb Ba Bb p. assert (B : Rabs (dval a * dval b) <= bpow radix2 1002).
  { rewrite Rabs_mult. change 1002%Z with (501 + 501)%Z. rewrite bpow_plus. apply Rmult_le_compat; try apply Rabs_pos; assumption. }
  destruct (dmul_ok a b Fa Fb) as [V F]; [apply small_bpow with 1002%Z; [lia|exact B]|]. fold p in V, F. split; [exact F|]. rewrite V. pose proof (bpow_gt_0 radix2 (-1000)) as P. repeat split; intros H.
  - apply Rlt_le_trans with (1 := P). rewrite <- (rnd_id (bpow radix2 (-1000))) by (apply F64_bpow; lia). apply rnd_mono, H.
  - apply Rle_lt_trans with (- bpow radix2 (-1000)); [|lra]. rewrite <- (rnd_id (- bpow radix2 (-1000))) by (apply F64_opp, F64_bpow; lia). apply rnd_mono, H.
  - rewrite H. apply rnd_id, F64_0.
Qed.

(* ---- one pair ---- *)
Definition b2n (b : bool) : N := if b then 1%N else 0%N.
Definition b2z (b : bool) : Z := if b then 1%Z else 0%Z.
Definition usual2 (p : double * double) : Prop := usual (fst p) /\ usual (snd p).
Definition val2 (p : double * double) : R * R := (dval (fst p), dval (snd p)).
Ltac rb := repeat match goal with
  | |- context [Rlt_bool ?a ?b] => first [rewrite (Rlt_bool_true a b) by assumption | rewrite (Rlt_bool_false a b) by (apply Rlt_le; assumption) | rewrite (Rlt_bool_false a b) by lra]
  | |- context [Req_bool ?a ?b] => first [rewrite (Req_bool_true a b) by lra | rewrite (Req_bool_false a b) by lra] end.
Lemma pair_ok p q n1 n2 is : usual2 p -> usual2 q -> (n1 < 2 ^ 64)%N -> (n2 < 2 ^ 64)%N ->
  kendall_pair p q (n1, n2, is) = (wrap 64 (n1 + b2n (differ fst (val2 p) (val2 q))), wrap 64 (n2 + b2n (differ snd (val2 p) (val2 q))),
    (is + b2z (concordant (val2 p) (val2 q)) - b2z (discordant (val2 p) (val2 q)))%Z).
Proof.
  intros [Upx Upy] [Uqx Uqy] B1 B2. unfold kendall_pair.
  destruct (diff_ok _ _ Upx Uqx) as (Fx & Bx & Ex & Gx & Lx). destruct (diff_ok _ _ Upy Uqy) as (Fy & By & Ey & Gy & Ly).
  destruct (prod_pos _ _ Fx Fy Bx By) as (Fp & Pp & Pn & Pz).
  set (dx := dsub (fst p) (fst q)) in *. set (dy := dsub (snd p) (snd q)) in *. rewrite !dnonzero_val by assumption.
  assert (DP : dlt d0 (dmul dx dy) = Rlt_bool 0 (dval (dmul dx dy))).
  { unfold dlt. rewrite Bltb_correct; [reflexivity|reflexivity|exact Fp]. }
  rewrite DP. clear DP. unfold differ, concordant, discordant, val2. cbn [fst snd].
  assert (W1 : wrap 64 n1 = n1) by (unfold wrap; apply N.mod_small, B1). assert (W2 : wrap 64 n2 = n2) by (unfold wrap; apply N.mod_small, B2).
  assert (EX : bpow radix2 (-1000) = bpow radix2 (-500) * bpow radix2 (-500)). { change (-1000)%Z with (-500 + -500)%Z. apply bpow_plus. }
  pose proof (bpow_gt_0 radix2 (-500)) as P5. set (t := bpow radix2 (-500)) in *.
  destruct (Rtotal_order (dval (fst p)) (dval (fst q))) as [K|[K|K]].
  - specialize (Lx K). destruct (Rtotal_order (dval (snd p)) (dval (snd q))) as [K'|[K'|K']].
    + specialize (Ly K'). assert (S : 0 < dval (dmul dx dy)) by (apply Pp; rewrite EX; nra). assert (S' : 0 < (dval (fst p) - dval (fst q)) * (dval (snd p) - dval (snd q))) by nra. rb. cbn -[wrap N.add]. f_equal. lia.
    + specialize (Ey K'). assert (S : dval (dmul dx dy) = 0) by (apply Pz; rewrite Ey; ring). assert (S' : (dval (fst p) - dval (fst q)) * (dval (snd p) - dval (snd q)) = 0) by (rewrite K'; ring). rewrite S'. rb. cbn -[wrap N.add]. rewrite !N.add_0_r, W2. f_equal. lia.
    + specialize (Gy K'). assert (S : dval (dmul dx dy) < 0) by (apply Pn; rewrite EX; nra). assert (S' : (dval (fst p) - dval (fst q)) * (dval (snd p) - dval (snd q)) < 0) by nra. rb. cbn -[wrap N.add]. f_equal. lia.
  - specialize (Ex K). assert (S : dval (dmul dx dy) = 0) by (apply Pz; rewrite Ex; ring). assert (S' : (dval (fst p) - dval (fst q)) * (dval (snd p) - dval (snd q)) = 0) by (rewrite K; ring). rewrite S'.
    destruct (Rtotal_order (dval (snd p)) (dval (snd q))) as [K'|[K'|K']].
    + specialize (Ly K'). rb. cbn -[wrap N.add]. rewrite !N.add_0_r, W1. f_equal. lia.
    + specialize (Ey K'). rb. cbn -[wrap N.add]. rewrite !N.add_0_r, W1, W2. f_equal. lia.
    + specialize (Gy K'). rb. cbn -[wrap N.add]. rewrite !N.add_0_r, W1. f_equal. lia.
  - specialize (Gx K). destruct (Rtotal_order (dval (snd p)) (dval (snd q))) as [K'|[K'|K']].
    + specialize (Ly K'). assert (S : dval (dmul dx dy) < 0) by (apply Pn; rewrite EX; nra). assert (S' : (dval (fst p) - dval (fst q)) * (dval (snd p) - dval (snd q)) < 0) by nra. rb. cbn -[wrap N.add]. f_equal. lia.
    + specialize (Ey K'). assert (S : dval (dmul dx dy) = 0) by (apply Pz; rewrite Ey; ring). assert (S' : (dval (fst p) - dval (fst q)) * (dval (snd p) - dval (snd q)) = 0) by (rewrite K'; ring). rewrite S'. rb. cbn -[wrap N.add]. rewrite !N.add_0_r, W2. f_equal. lia.
    + specialize (Gy K'). assert (S : 0 < dval (dmul dx dy)) by (apply Pp; rewrite EX; nra). assert (S' : 0 < (dval (fst p) - dval (fst q)) * (dval (snd p) - dval (snd q))) by nra. rb. cbn -[wrap N.add]. f_equal. lia.
Qed.
Lemma wrap_lt64 a : (wrap 64 a < 2 ^ 64)%N. Proof. unfold wrap. apply N.mod_lt. discriminate. Qed.
Lemma wrap_wrap a b : wrap 64 (wrap 64 a + b) = wrap 64 (a + b). Proof. unfold wrap. rewrite N.add_mod_idemp_l by discriminate. reflexivity. Qed.
Lemma row_ok p rest : usual2 p -> Forall usual2 rest -> forall n1 n2 is,
  let rv := map val2 rest in
  fold_left (fun s q => kendall_pair p q s) rest (wrap 64 n1, wrap 64 n2, is) =
  (wrap 64 (n1 + N.of_nat (length (filter (differ fst (val2 p)) rv))), wrap 64 (n2 + N.of_nat (length (filter (differ snd (val2 p)) rv))),
   (is + Z.of_nat (length (filter (concordant (val2 p)) rv)) - Z.of_nat (length (filter (discordant (val2 p)) rv)))%Z).
Proof.
  intros Up. induction 1 as [|q rest Uq Ur IH]; intros n1 n2 is rv; unfold rv; cbn [fold_left map filter]; [cbn; rewrite !N.add_0_r; f_equal; lia|].
  rewrite pair_ok by (assumption || apply wrap_lt64). rewrite !wrap_wrap, IH. unfold b2n, b2z.
  destruct (differ fst _ _), (differ snd _ _), (concordant _ _), (discordant _ _); cbn -[wrap filter map val2]; repeat (f_equal; try lia).
Qed.
Lemma loop_ok l : Forall usual2 l -> forall n1 n2 is,
  let lv := map val2 l in
  kendall_loop l (wrap 64 n1, wrap 64 n2, is) =
  (wrap 64 (n1 + N.of_nat (count_pairs (differ fst) lv)), wrap 64 (n2 + N.of_nat (count_pairs (differ snd) lv)),
   (is + Z.of_nat (count_pairs concordant lv) - Z.of_nat (count_pairs discordant lv))%Z).
Proof.
  induction 1 as [|p l Up Ul IH]; intros n1 n2 is lv; unfold lv; cbn [kendall_loop map count_pairs]; [cbn; rewrite !N.add_0_r; f_equal; lia|].
  rewrite (row_ok p l Up Ul), IH. repeat (f_equal; try lia).
Qed.
Lemma val2_points xs ys : length xs = length ys -> map val2 (combine xs ys) = points xs ys.
Proof. revert ys. induction xs as [|x xs IH]; intros [|y ys] L; cbn in *; try discriminate; [reflexivity|]. unfold points. cbn. f_equal. apply IH. lia. Qed.
Lemma points_len xs ys : length xs = length ys -> length (points xs ys) = length xs.
Proof. intros H. unfold points. rewrite combine_length, !map_length. lia. Qed.
Definition counts (l : list (R * R)) : N * N * Z :=
  (N.of_nat (count_pairs (differ fst) l), N.of_nat (count_pairs (differ snd) l), (Z.of_nat (count_pairs concordant l) - Z.of_nat (count_pairs discordant l))%Z).
Lemma usual_combine xs ys : Forall usual xs -> Forall usual ys -> Forall usual2 (combine xs ys).
Proof. intros H. revert ys. induction H as [|x xs Ux _ IH]; intros ys K; [constructor|]. destruct K as [|y ys Uy K]; [constructor|]. constructor; [split; assumption|apply IH, K]. Qed.
Lemma kendall_counts erfc xs ys : Forall usual xs -> Forall usual ys -> length xs = length ys -> (N.of_nat (length xs) <= 2 ^ 26)%N -> (2 <= length xs)%nat ->
  kendall_correlation_stats erfc xs ys = Ok (kendall_finish erfc (length xs) (counts (points xs ys))).
Proof.
  intros Ux Uy L B N2. unfold kendall_correlation_stats. destruct (Nat.ltb_spec (length xs) 2); [lia|]. rewrite <- L, Nat.ltb_irrefl. do 2 f_equal.
  change (0%N, 0%N, 0%Z) with (wrap 64 0, wrap 64 0, 0%Z). rewrite loop_ok by (apply usual_combine; assumption). rewrite val2_points by exact L. unfold counts.
  assert (K : forall f, (N.of_nat (@count_pairs (R * R) f (points xs ys)) < 2 ^ 64)%N).
  { intros f. pose proof (count_pairs_bound f (points xs ys)) as H'. rewrite points_len in H' by exact L. change (2 ^ 26)%N with 67108864%N in B. change (2 ^ 64)%N with 18446744073709551616%N. nia. }
  assert (W : forall a, (a < 2 ^ 64)%N -> wrap 64 (0 + a) = a) by (intros a Ha; unfold wrap; rewrite N.add_0_l; apply N.mod_small, Ha).
  rewrite !W by apply K. f_equal; lia.
Qed.
