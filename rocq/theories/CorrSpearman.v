(* Spearman's test as implemented. *)
From Coq Require Import Reals Lra Lia Permutation Sorted.
From Flocq Require Import Core BinarySingleNaN.
From Verif Require Import Base FloatModel FloatLemmas ResultModel ResultSpec CollectModel StatsModel RescaleProofs StatsProofs CouponFloatProofs StatFormulas CommandModel CorrModel CorrSpec CorrCount CorrKendall CorrProofs CorrPearson CorrPearson2 CorrPearson3 ErrorSpec.
Open Scope R_scope.

(* ---- the positions in order are unique ---- *)
Lemma sorted_ext {A} (lt : A -> A -> Prop) l m : (forall a, ~ lt a a) -> (forall a b c, lt a b -> lt b c -> lt a c) -> StronglySorted lt l -> StronglySorted lt m -> Permutation l m -> l = m.
Proof.
  intros Irr Tr Sl. revert m. induction Sl as [|a l Sl IH Fa]; intros m Sm P; [apply Permutation_nil in P; symmetry; exact P|].
  destruct m as [|b m]; [symmetry in P; apply Permutation_nil in P; discriminate|]. inversion Sm as [|b' m' Sm' Fb]; subst.
  assert (E : a = b).
  { assert (Ia : In a (b :: m)) by (eapply Permutation_in; [exact P|left; reflexivity]). assert (Ib : In b (a :: l)) by (eapply Permutation_in; [symmetry; exact P|left; reflexivity]).
    destruct Ia as [->|Ia]; [reflexivity|]. destruct Ib as [->|Ib]; [reflexivity|]. rewrite Forall_forall in Fa, Fb. exfalso. apply (Irr a). apply (Tr a b a); [apply Fa, Ib|apply Fb, Ia]. }
  subst b. f_equal. apply IH; [exact Sm'|]. apply Permutation_cons_inv with a. exact P.
Qed.
Lemma positions_unique xs p q : sorts_positions xs p -> sorts_positions xs q -> p = q.
Proof.
  intros [Pp Sp] [Pq Sq]. apply (sorted_ext (fun i j => dval (nth i xs d0) < dval (nth j xs d0))); [intros a; lra|intros a b c; lra|exact Sp|exact Sq|]. transitivity (seq 0 (length xs)); [exact Pp|symmetry; exact Pq].
Qed.
Lemma distinct_nth xs i j : distinct xs -> (i < length xs)%nat -> (j < length xs)%nat -> dval (nth i xs d0) = dval (nth j xs d0) -> i = j.
Proof.
  intros [_ D] Hi Hj E. apply (proj1 (NoDup_nth (map dval xs) (dval d0)) D); [rewrite map_length; exact Hi|rewrite map_length; exact Hj|]. rewrite !map_nth. exact E.
Qed.
Lemma sorted_impl_in {A} (P Q : A -> A -> Prop) l : (forall a b, In a l -> In b l -> a <> b -> P a b -> Q a b) -> NoDup l -> StronglySorted P l -> StronglySorted Q l.
Proof.
  intros H N S. induction S as [|a l S IH F]; [constructor|]. inversion N as [|a' l' Na Nl]; subst. constructor.
  - apply IH; [intros x y Hx Hy; apply H; right; assumption|exact Nl].
  - rewrite Forall_forall in *. intros b Hb. apply H; [left; reflexivity|right; exact Hb|intros ->; contradiction|apply F, Hb].
Qed.
Lemma get_ranks_ok sort xs : good_index_sort sort -> distinct xs -> sorts_positions xs (get_ranks sort xs).
Proof.
  intros G D. pose proof D as [F N]. destruct (G xs F) as [P S]. fold (get_ranks sort xs) in P, S. split; [symmetry; exact P|].
  apply sorted_impl_in with (3 := S); [|apply Permutation_NoDup with (1 := P); apply seq_NoDup].
  intros i j Hi Hj Nij E. assert (Bi : (i < length xs)%nat) by (apply (Permutation_in _ (Permutation_sym P)) in Hi; apply in_seq in Hi; lia). assert (Bj : (j < length xs)%nat) by (apply (Permutation_in _ (Permutation_sym P)) in Hj; apply in_seq in Hj; lia).
  rewrite Forall_forall in F. apply dlt_false in E; [|apply F, nth_In; assumption|apply F, nth_In; assumption].
  destruct (Rle_lt_or_eq_dec _ _ E) as [C|C]; [exact C|]. exfalso. apply Nij. apply (distinct_nth xs); assumption.
Qed.
Lemma positions_order xs xs' p : same_order xs xs' -> sorts_positions xs p -> sorts_positions xs' p.
Proof.
  intros [L O] [P S]. split; [rewrite <- L; exact P|]. apply sorted_impl_in with (3 := S); [|apply Permutation_NoDup with (1 := Permutation_sym P); apply seq_NoDup].
  intros i j Hi Hj _ E. apply O; [| |exact E]; [apply (Permutation_in _ P) in Hi; apply in_seq in Hi; lia|apply (Permutation_in _ P) in Hj; apply in_seq in Hj; lia].
Qed.

(* ---- rescaling ---- *)
Lemma fold_min l : forall d, In (fold_left Nat.min l d) (d :: l) /\ forall x, In x (d :: l) -> (fold_left Nat.min l d <= x)%nat.
Proof.
  induction l as [|a l IH]; intros d; cbn [fold_left]; [split; [left; reflexivity|intros x [->|[]]; lia]|]. destruct (IH (Nat.min d a)) as [I K]. split.
  - destruct I as [I|I]; [|right; right; exact I]. destruct (Nat.min_dec d a) as [E|E]; rewrite E in I at 1; [left; exact I|right; left; exact I].
  - intros x [->|[->|Hx]]; [specialize (K (Nat.min x a) (or_introl eq_refl)); lia|specialize (K (Nat.min d x) (or_introl eq_refl)); lia|apply K; right; exact Hx].
Qed.
Lemma fold_max l : forall d, In (fold_left Nat.max l d) (d :: l) /\ forall x, In x (d :: l) -> (x <= fold_left Nat.max l d)%nat.
Proof.
  induction l as [|a l IH]; intros d; cbn [fold_left]; [split; [left; reflexivity|intros x [->|[]]; lia]|]. destruct (IH (Nat.max d a)) as [I K]. split.
  - destruct I as [I|I]; [|right; right; exact I]. destruct (Nat.max_dec d a) as [E|E]; rewrite E in I at 1; [left; exact I|right; left; exact I].
  - intros x [->|[->|Hx]]; [specialize (K (Nat.max x a) (or_introl eq_refl)); lia|specialize (K (Nat.max d x) (or_introl eq_refl)); lia|apply K; right; exact Hx].
Qed.
Lemma dsub_zero x : fin x -> fin (dsub x (double_of_N 0)) /\ dval (dsub x (double_of_N 0)) = dval x.
Proof. intros F. change (double_of_N 0) with d0. apply dsub_0, F. Qed.
Lemma rescale_perm n p : Permutation p (seq 0 n) -> (2 <= n)%nat -> (Z.of_nat n <= 1000000)%Z ->
  length (rescale_ranks p) = n /\ unit_data (rescale_ranks p) /\ map dval (rescale_ranks p) = map (fun v => rnd (INR v / (INR n - 1))) p.
Proof.
  intros P H2 H6. assert (Lp : length p = n) by (rewrite (Permutation_length P), seq_length; reflexivity). assert (I : forall v, In v p <-> (v < n)%nat).
  { intros v. split; intros K; [apply (Permutation_in _ P), in_seq in K; lia|apply (Permutation_in _ (Permutation_sym P)), in_seq; lia]. }
  destruct p as [|d rest]; [cbn in Lp; lia|]. unfold rescale_ranks.
  destruct (fold_min rest d) as [Mi Ml]. destruct (fold_max rest d) as [Xi Xl]. set (lo := fold_left Nat.min rest d) in *. set (hi := fold_left Nat.max rest d) in *.
  assert (El : lo = 0%nat). { specialize (Ml 0%nat). rewrite I in Ml. lia. } assert (Eh : hi = (n - 1)%nat). { specialize (Xl (n - 1)%nat). rewrite I in Xl. apply I in Xi. lia. }
  rewrite El, Eh. change (N.of_nat 0) with 0%N.
  assert (DN : forall k, (k < n)%nat -> dval (double_of_N (N.of_nat k)) = INR k /\ fin (double_of_N (N.of_nat k))). { intros k Hk. destruct (double_of_N_exact (N.of_nat k)) as [V F]; [change (2 ^ 53)%N with 9007199254740992%N; lia|]. split; [rewrite V, INR_IZR_INZ; f_equal; lia|exact F]. }
  destruct (DN (n - 1)%nat ltac:(lia)) as [Vh Fh]. assert (En : INR (n - 1) = INR n - 1) by (rewrite minus_INR by lia; reflexivity). rewrite En in Vh.
  assert (Bn : 2 <= INR n <= 1000000). { split; [replace 2 with (INR 2) by (cbn; lra); apply le_INR, H2|rewrite INR_IZR_INZ; apply IZR_le, H6]. }
  destruct (DN 0%nat ltac:(lia)) as [V0 F0]. change (N.of_nat 0) with 0%N in V0, F0. cbn [INR] in V0. destruct (dsub_zero _ Fh) as [Fd Vd]. rewrite Vh in Vd.
  assert (NN : is_near (double_of_N 0) (double_of_N (N.of_nat (n - 1))) = false).
  { unfold is_near, is_near_eps. destruct (dsub_ok (double_of_N 0) (double_of_N (N.of_nat (n - 1))) F0 Fh) as [V F]; [rewrite V0, Vh; apply small_bpow with 20%Z; [lia|]; change (bpow radix2 20) with 1048576; apply Rabs_le; lra|].
    destruct near_eps_val as [_ Fe]. apply dle_false; [apply dabs_fin, F|exact Fe|]. rewrite dabs_val, V, V0, Vh. replace (0 - (INR n - 1)) with (- (INR n - 1)) by ring. rewrite rnd_opp, Rabs_Ropp.
    assert (1 <= rnd (INR n - 1)) by (apply Rle_trans with (rnd 1); [right; symmetry; apply rnd_id, F64_1|apply rnd_mono; lra]). rewrite Rabs_pos_eq by lra. pose proof near_eps_range. lra. }
  assert (ME : forall v, In v (d :: rest) -> let r := rescale_to_01 (double_of_N (N.of_nat v)) (double_of_N 0) (double_of_N (N.of_nat (n - 1))) in fin r /\ dval r = rnd (INR v / (INR n - 1)) /\ 0 <= dval r <= 1).
  { intros v Hv. apply I in Hv. unfold rescale_to_01. rewrite NN. destruct (DN v Hv) as [Vv Fv]. destruct (dsub_zero _ Fv) as [Fs Vs]. rewrite Vv in Vs. cbv zeta.
    assert (Bv : 0 <= INR v <= INR n - 1). { split; [apply pos_INR|]. rewrite <- En. apply le_INR. lia. }
    assert (Bq : 0 <= INR v / (INR n - 1) <= 1). { unfold Rdiv. assert (0 < / (INR n - 1)) by (apply Rinv_0_lt_compat; lra). split; [apply Rmult_le_pos; lra|]. apply Rmult_le_reg_r with (INR n - 1); [lra|]. rewrite Rmult_assoc, Rinv_l by lra. lra. }
    destruct (ddiv_ok (dsub (double_of_N (N.of_nat v)) (double_of_N 0)) (dsub (double_of_N (N.of_nat (n - 1))) (double_of_N 0)) Fs) as [V F]; [rewrite Vd; lra|rewrite Vd, Vs; apply small_bpow with 0%Z; [lia|change (bpow radix2 0) with 1; apply Rabs_le; lra]|].
    rewrite Vs, Vd in V. split; [exact F|]. rewrite V. split; [reflexivity|]. apply rnd_between; [apply F64_0|apply F64_1|exact Bq]. }
  split; [rewrite map_length; exact Lp|]. split.
  - apply Forall_map, Forall_forall. intros v Hv. destruct (ME v Hv) as (F & _ & B). split; assumption.
  - rewrite map_map. apply map_ext_in. intros v Hv. apply ME, Hv.
Qed.

(* ---- scaling and perturbation of the sums ---- *)
Lemma rsum_perm l m : Permutation l m -> rsum l = rsum m.
Proof. unfold rsum. induction 1; cbn; lra. Qed.
Lemma rsum_scale {A} c (f : A -> R) l : rsum (map (fun a => c * f a) l) = c * rsum (map f l).
Proof. unfold rsum. induction l as [|a l IH]; cbn; [ring|]. rewrite IH. ring. Qed.
Lemma meanR_scale c l : l <> [] -> meanR (map (Rmult c) l) = c * meanR l.
Proof. intros H. unfold meanR. rewrite map_length. pose proof (rsum_scale c (fun x => x) l) as E. rewrite map_id in E. change (map (Rmult c) l) with (map (fun x => c * x) l). rewrite E. unfold Rdiv. ring. Qed.
Lemma crossR_scale c d l m : length l = length m -> l <> [] -> crossR (map (Rmult c) l) (map (Rmult d) m) = c * d * crossR l m.
Proof.
  intros L H. assert (H' : m <> []) by (destruct l, m; cbn in *; congruence). unfold crossR. rewrite !meanR_scale by assumption. generalize (meanR l) (meanR m). intros a b. clear H H'. revert m L.
  unfold rsum. induction l as [|x l IH]; intros [|y m] L; cbn in *; try discriminate; [ring|]. rewrite IH by lia. ring.
Qed.
Lemma pearson_scale c d l m : 0 < c -> 0 < d -> length l = length m -> l <> [] -> 0 < crossR l l -> 0 < crossR m m -> pearson (map (Rmult c) l) (map (Rmult d) m) = pearson l m.
Proof.
  intros Hc Hd L H Pl Pm. assert (H' : m <> []) by (destruct l, m; cbn in *; congruence). unfold pearson. rewrite !crossR_scale by (assumption || reflexivity).
  replace (c * c * crossR l l * (d * d * crossR m m)) with ((c * d) * (c * d) * (crossR l l * crossR m m)) by ring. assert (0 < c * d) by (apply Rmult_lt_0_compat; assumption). assert (0 < crossR l l * crossR m m) by (apply Rmult_lt_0_compat; assumption).
  rewrite sqrt_mult by (try apply Rmult_le_pos; lra). rewrite sqrt_square by lra. field. split; [apply Rgt_not_eq, sqrt_lt_R0; assumption|split; lra].
Qed.

Definition close (e : R) (a b : list R) : Prop := forall i, (i < length a)%nat -> Rabs (nth i a 0 - nth i b 0) <= e.
Lemma rsum_close e a : forall b, length a = length b -> close e a b -> Rabs (rsum a - rsum b) <= INR (length a) * e.
Proof.
  unfold rsum. induction a as [|x a IH]; intros [|y b] H C; try discriminate; cbn [fold_right length]; [rewrite Rminus_0_r, Rabs_R0; cbn; lra|]. rewrite S_INR.
  specialize (IH b ltac:(cbn in H; lia) ltac:(intros i Hi; apply (C (S i)); cbn; lia)). pose proof (C O ltac:(cbn; lia)) as C0. cbn in C0.
  replace (x + fold_right Rplus 0 a - (y + fold_right Rplus 0 b)) with ((x - y) + (fold_right Rplus 0 a - fold_right Rplus 0 b)) by ring. apply Rle_trans with (1 := Rabs_triang _ _). lra.
Qed.
Lemma len_pos {A} (a : list A) : a <> [] -> 0 < INR (length a).
Proof. intros H. destruct a; [contradiction|]. cbn [length]. apply lt_0_INR. lia. Qed.
Lemma meanR_close e a b : length a = length b -> a <> [] -> close e a b -> Rabs (meanR a - meanR b) <= e.
Proof.
  intros H Na C. unfold meanR. rewrite <- H. pose proof (len_pos a Na) as P. replace (rsum a / INR (length a) - rsum b / INR (length a)) with ((rsum a - rsum b) * / INR (length a)) by (field; lra).
  rewrite Rabs_mult, (Rabs_pos_eq (/ _)) by (apply Rlt_le, Rinv_0_lt_compat, P). apply Rle_trans with (INR (length a) * e * / INR (length a)); [apply Rmult_le_compat_r; [apply Rlt_le, Rinv_0_lt_compat, P|apply rsum_close; assumption]|]. right. field. lra.
Qed.
Lemma mean01 a : Forall (fun x => 0 <= x <= 1) a -> a <> [] -> 0 <= meanR a <= 1.
Proof.
  intros H Na. pose proof (sum_abs_range a H) as S. pose proof (len_pos a Na) as P. unfold meanR, Rdiv. assert (0 < / INR (length a)) by (apply Rinv_0_lt_compat, P).
  split; [apply Rmult_le_pos; lra|]. apply Rmult_le_reg_r with (INR (length a)); [exact P|]. rewrite Rmult_assoc, Rinv_l by lra. lra.
Qed.
Lemma prod_close e x y x' y' : 0 <= e -> Rabs (x - x') <= 2 * e -> Rabs (y - y') <= 2 * e -> Rabs x' <= 1 -> Rabs y' <= 1 -> Rabs (x * y - x' * y') <= 4 * e + 4 * e * e.
Proof.
  intros E0 H1 H2 B1 B2. replace (x * y - x' * y') with ((x - x') * y' + x' * (y - y') + (x - x') * (y - y')) by ring.
  apply Rle_trans with (Rabs (x - x') * Rabs y' + Rabs x' * Rabs (y - y') + Rabs (x - x') * Rabs (y - y')).
  - rewrite <- !Rabs_mult. apply Rle_trans with (1 := Rabs_triang _ _). apply Rplus_le_compat_r, Rabs_triang.
  - pose proof (Rabs_pos (x - x')). pose proof (Rabs_pos (y - y')). pose proof (Rabs_pos x'). pose proof (Rabs_pos y').
    assert (Rabs (x - x') * Rabs y' <= 2 * e * 1) by (apply Rmult_le_compat; lra). assert (Rabs x' * Rabs (y - y') <= 1 * (2 * e)) by (apply Rmult_le_compat; lra). assert (Rabs (x - x') * Rabs (y - y') <= 2 * e * (2 * e)) by (apply Rmult_le_compat; lra). lra.
Qed.
Lemma cross_sum_close e a b a' b' : 0 <= e -> Rabs (a - a') <= e -> Rabs (b - b') <= e -> 0 <= a' <= 1 -> 0 <= b' <= 1 -> forall l l' m m', length l = length m -> length l = length l' -> length m = length m' ->
  close e l l' -> close e m m' -> Forall (fun x => 0 <= x <= 1) l' -> Forall (fun x => 0 <= x <= 1) m' ->
  Rabs (rsum (map (fun p => (fst p - a) * (snd p - b)) (combine l m)) - rsum (map (fun p => (fst p - a') * (snd p - b')) (combine l' m'))) <= INR (length l) * (4 * e + 4 * e * e).
Proof.
  intros E0 M1 M2 B1 B2. unfold rsum. induction l as [|x l IH]; intros [|x' l'] [|y m] [|y' m'] L L1 L2 C1 C2 U1 U2; try discriminate; cbn [combine map fold_right length fst snd]; [rewrite Rminus_0_r, Rabs_R0; cbn; lra|].
  inversion U1 as [|? ? Ux U1']; inversion U2 as [|? ? Uy U2']; subst. 
  specialize (IH l' m m' ltac:(cbn in *; lia) ltac:(cbn in *; lia) ltac:(cbn in *; lia) ltac:(intros i Hi; apply (C1 (S i)); cbn; lia) ltac:(intros i Hi; apply (C2 (S i)); cbn; lia) U1' U2').
  pose proof (C1 O ltac:(cbn; lia)) as X0. pose proof (C2 O ltac:(cbn; lia)) as Y0. cbn in X0, Y0. rewrite S_INR.
  match goal with |- Rabs (?p + ?P - (?q + ?Q)) <= _ => replace (p + P - (q + Q)) with ((p - q) + (P - Q)) by ring end. apply Rle_trans with (1 := Rabs_triang _ _).
  apply Rabs_le_inv in X0, Y0, M1, M2. pose proof (prod_close e (x - a) (y - b) (x' - a') (y' - b') E0 ltac:(apply Rabs_le; lra) ltac:(apply Rabs_le; lra) ltac:(apply Rabs_le; lra) ltac:(apply Rabs_le; lra)) as PC. lra.
Qed.
Lemma crossR_close e l l' m m' : 0 <= e -> length l = length m -> length l = length l' -> length m = length m' -> l <> [] -> close e l l' -> close e m m' -> Forall (fun x => 0 <= x <= 1) l' -> Forall (fun x => 0 <= x <= 1) m' ->
  Rabs (crossR l m - crossR l' m') <= INR (length l) * (4 * e + 4 * e * e).
Proof.
  intros E0 L L1 L2 N C1 C2 U1 U2. assert (Nm : m <> []) by (destruct l, m; cbn in *; congruence). assert (Nl' : l' <> []) by (destruct l, l'; cbn in *; congruence). assert (Nm' : m' <> []) by (destruct m, m'; cbn in *; congruence).
  unfold crossR. apply cross_sum_close; try assumption; try (apply meanR_close; assumption); apply mean01; assumption.
Qed.

(* ---- sums over permutations ---- *)
Lemma crossR_self l : crossR l l = rsum (map (fun x => (x - meanR l) * (x - meanR l)) l).
Proof. unfold crossR. generalize (meanR l). intros a. f_equal. induction l as [|x l IH]; cbn; [reflexivity|]. f_equal. exact IH. Qed.
Lemma crossR_perm l m : Permutation l m -> crossR l l = crossR m m.
Proof.
  intros P. rewrite !crossR_self. unfold meanR. rewrite (rsum_perm l m P), (Permutation_length P). apply rsum_perm, Permutation_map, P.
Qed.
Lemma sum_seq n : rsum (map INR (seq 0 n)) = INR n * (INR n - 1) / 2.
Proof. induction n as [|n IH]; [cbn; lra|]. rewrite seq_S, map_app, S_INR. assert (A : forall l x, rsum (l ++ [x]) = rsum l + x) by (intros l x; unfold rsum; induction l as [|y l IHl]; cbn; [ring|rewrite IHl; ring]). cbn [map Nat.add]. rewrite A, IH. lra. Qed.
Lemma dev_seq a n : rsum (map (fun x => (x - a) * (x - a)) (map INR (seq 0 n))) = INR n * (INR n - 1) * (2 * INR n - 1) / 6 - a * (INR n * (INR n - 1)) + INR n * (a * a).
Proof. induction n as [|n IH]; [cbn; lra|]. rewrite seq_S, !map_app, S_INR. assert (A : forall l x, rsum (l ++ [x]) = rsum l + x) by (intros l x; unfold rsum; induction l as [|y l IHl]; cbn; [ring|rewrite IHl; ring]). cbn [map Nat.add]. rewrite A, IH. field. Qed.
Lemma cross_ranks n p : Permutation p (seq 0 n) -> (1 <= n)%nat -> crossR (map INR p) (map INR p) = INR n * (INR n * INR n - 1) / 12.
Proof.
  intros P H. rewrite (crossR_perm _ (map INR (seq 0 n))) by (apply Permutation_map, P). rewrite crossR_self, dev_seq. unfold meanR. rewrite sum_seq, map_length, seq_length. field. apply not_0_INR. lia.
Qed.
Lemma rnd_near x : 0 <= x <= 1 -> Rabs (rnd x - x) <= u + u * u.
Proof.
  intros H. pose proof (rnd_err_abs x) as E. rewrite (Rabs_pos_eq x) in E by lra. pose proof tiny_u. pose proof u_pos. nra.
Qed.
Lemma crossR_abs l m : length l = length m -> Rabs (crossR l m) <= sqrt (crossR l l * crossR m m).
Proof.
  intros L. rewrite (cross_l l m L), (cross_r l m L), (cross_pair l m L).
  pose proof (cauchy_schwarz (fun p : R * R => fst p - meanR l) (fun p : R * R => snd p - meanR m) (combine l m)) as (A & B & C). apply abs_le_sqrt; [apply Rmult_le_pos; assumption|exact A].
Qed.
Definition adj06 : double := dconst 4773815605012726 (-52).
Lemma adj06_val : fin adj06 /\ dval adj06 = adjustment /\ 1 <= adjustment <= 2.
Proof.
  assert (Bq : F2R (Float radix2 4773815605012726 (-52)) = adjustment) by reflexivity. assert (B : 1 <= adjustment <= 2) by (unfold adjustment; change (bpow radix2 (-52)) with (/ 4503599627370496); lra).
  destruct (dconst_ok 4773815605012726 (-52)) as [V F]; [rewrite Bq; apply (small_bpow _ 1); [lia|]; change (bpow radix2 1) with 2; rewrite Rabs_pos_eq; lra|]. split; [exact F|]. split; [|exact B]. unfold adj06. rewrite V, rnd_id; [exact Bq|apply F64_F2R; lia].
Qed.
Section S.
Variables (n : nat) (p q : list nat).
Hypotheses (Pp : Permutation p (seq 0 n)) (Pq : Permutation q (seq 0 n)) (Hn : good_size n).
Let xs := rescale_ranks p.
Let ys := rescale_ranks q.
Let c := / (INR n - 1).
Let X' := map (Rmult c) (map INR p).
Let Y' := map (Rmult c) (map INR q).
Lemma Bn : 3 <= INR n <= 1000000. Proof. apply size_R, Hn. Qed.
Lemma c_pos : 0 < c. Proof. unfold c. apply Rinv_0_lt_compat. pose proof Bn. lra. Qed.
Lemma perm_len r : Permutation r (seq 0 n) -> length r = n. Proof. intros P. rewrite (Permutation_length P), seq_length. reflexivity. Qed.
Lemma perm_ne r : Permutation r (seq 0 n) -> r <> []. Proof. intros P E. apply perm_len in P. rewrite E in P. destruct Hn. cbn in P. lia. Qed.
Lemma scaled_cross r : Permutation r (seq 0 n) -> let S := crossR (map (Rmult c) (map INR r)) (map (Rmult c) (map INR r)) in INR n / 32 <= S <= INR n.
Proof.
  intros P S. unfold S. pose proof Bn as B. pose proof (perm_ne r P) as Ne. rewrite crossR_scale by first [reflexivity|destruct r; [contradiction|discriminate]]. rewrite (cross_ranks n r P) by (destruct Hn; lia).
  replace (c * c * (INR n * (INR n * INR n - 1) / 12)) with (INR n * ((INR n + 1) * c / 12)) by (unfold c; field; lra).
  assert (K : 1 <= (INR n + 1) * c <= 2). { unfold c. split; apply Rmult_le_reg_r with (INR n - 1); try lra; rewrite Rmult_assoc, Rinv_l by lra; lra. }
  split; [replace (INR n / 32) with (INR n * (/ 32)) by field; apply Rmult_le_compat_l; lra|]. rewrite <- (Rmult_1_r (INR n)) at 3. apply Rmult_le_compat_l; lra.
Qed.
Lemma scaled_unit r : Permutation r (seq 0 n) -> Forall (fun x => 0 <= x <= 1) (map (Rmult c) (map INR r)).
Proof.
  intros P. apply Forall_forall. intros x Hx. apply in_map_iff in Hx as (y & <- & Hy). apply in_map_iff in Hy as (v & <- & Hv). apply (Permutation_in _ P), in_seq in Hv. pose proof Bn as B. pose proof c_pos as Pc.
  assert (0 <= INR v <= INR n - 1). { split; [apply pos_INR|]. replace (INR n - 1) with (INR (n - 1)) by (rewrite minus_INR by lia; reflexivity). apply le_INR. lia. }
  split; [apply Rmult_le_pos; lra|]. apply Rmult_le_reg_r with (INR n - 1); [lra|]. unfold c. replace (/ (INR n - 1) * INR v * (INR n - 1)) with (INR v * (/ (INR n - 1) * (INR n - 1))) by ring. rewrite Rinv_l by lra. lra.
Qed.
Lemma scaled_close r : Permutation r (seq 0 n) -> close (u + u * u) (map dval (rescale_ranks r)) (map (Rmult c) (map INR r)) /\ unit_data (rescale_ranks r) /\ length (rescale_ranks r) = n.
Proof.
  intros P. destruct (rescale_perm n r P) as (Lr & U & E); [destruct Hn; lia|destruct Hn; lia|]. split; [|split; [exact U|exact Lr]]. intros i Hi. rewrite E. rewrite map_length, Lr in Hi.
  pose proof (perm_len r P) as L. rewrite map_map. rewrite (nth_indep _ 0 (rnd (INR 0 / (INR n - 1)))) by (rewrite map_length; lia). rewrite (nth_indep (map (fun x => c * INR x) r) 0 (c * INR 0)) by (rewrite map_length; lia).
  rewrite (map_nth (fun v => rnd (INR v / (INR n - 1)))), (map_nth (fun x => c * INR x)). replace (INR (nth i r 0%nat) / (INR n - 1)) with (c * INR (nth i r 0%nat)) by (unfold c, Rdiv; ring).
  apply rnd_near. pose proof (scaled_unit r P) as Us. rewrite Forall_forall in Us. apply Us. apply in_map, in_map, nth_In. lia.
Qed.
Lemma one_cross r t : Permutation r (seq 0 n) -> Permutation t (seq 0 n) -> let s := sxy (rescale_ranks r) (rescale_ranks t) n in
  fin s /\ Rabs (dval s - crossR (map (Rmult c) (map INR r)) (map (Rmult c) (map INR t))) <= 16 * INR n * INR n * u.
Proof.
  intros Pr Pt s. destruct (scaled_close r Pr) as (Cr & Ur & Lr). destruct (scaled_close t Pt) as (Ct & Ut & Lt). pose proof Bn as B. pose proof u_pos as Pu.
  destruct (cross_ok (rescale_ranks r) (rescale_ranks t) Ur Ut ltac:(congruence) ltac:(rewrite Lr; exact Hn)) as [F E].
  assert (Ep : dot (prods (rescale_ranks r) (rescale_ranks t)) = s) by (unfold s, sxy, prods, x_devs; rewrite Lr; reflexivity). rewrite Ep in F, E. rewrite Lr in E. split; [exact F|].
  pose proof (crossR_close (u + u * u) (map dval (rescale_ranks r)) (map (Rmult c) (map INR r)) (map dval (rescale_ranks t)) (map (Rmult c) (map INR t))) as C.
  rewrite !map_length, Lr, Lt, (perm_len r Pr), (perm_len t Pt) in C. specialize (C ltac:(nra) eq_refl eq_refl eq_refl ltac:(intros Ex; apply map_eq_nil in Ex; rewrite Ex in Lr; destruct Hn; cbn in Lr; lia) Cr Ct (scaled_unit r Pr) (scaled_unit t Pt)).
  match goal with |- Rabs (?a - ?b) <= _ => replace (a - b) with ((a - crossR (map dval (rescale_ranks r)) (map dval (rescale_ranks t))) + (crossR (map dval (rescale_ranks r)) (map dval (rescale_ranks t)) - b)) by ring end.
  apply Rle_trans with (1 := Rabs_triang _ _). assert (INR n * (4 * (u + u * u) + 4 * (u + u * u) * (u + u * u)) <= 5 * INR n * u) by (rewrite u_val; lra). assert (5 * INR n * u <= 2 * INR n * INR n * u) by (rewrite u_val; nra). lra.
Qed.
Lemma pearson_ranks : pearson X' Y' = pearson (map INR p) (map INR q).
Proof.
  pose proof Bn as B. assert (PP : forall r, Permutation r (seq 0 n) -> 0 < crossR (map INR r) (map INR r)). { intros r P. rewrite (cross_ranks n r P) by (destruct Hn; lia). assert (0 < INR n * INR n - 1) by nra. apply Rdiv_lt_0_compat; [apply Rmult_lt_0_compat; lra|lra]. }
  unfold X', Y'. apply pearson_scale; try apply c_pos; try (apply PP; assumption); [rewrite !map_length, (perm_len p Pp), (perm_len q Pq); reflexivity|]. pose proof (perm_ne p Pp). destruct p; [contradiction|discriminate].
Qed.
Lemma spearman_core atanh erfc : good_atanh atanh -> erfc_bounded erfc -> let R := pearson (map INR p) (map INR q) in Rabs R <= / 2 ->
  exists s, pearson_correlation_stats atanh erfc xs ys adj06 = Ok (Some s) /\ st_type s = Z_score /\ fin (st_value s) /\
    Rabs (dval (st_value s) - artanh R * sqrt ((INR n - 3) / adjustment)) <= 32 * rho (INR n) * sqrt ((INR n - 3) / adjustment) /\ st_p s = normal_two_tailed_cdf erfc (st_value s).
Proof.
  intros G HE R BR. pose proof Bn as B. destruct adj06_val as (Fa & Va & Ba). destruct (scaled_close p Pp) as (_ & _ & Lx). destruct (scaled_close q Pq) as (_ & _ & Ly). fold xs in Lx. fold ys in Ly.
  rewrite pearson_form by (try congruence; rewrite Lx; apply Hn). eexists. split; [reflexivity|]. rewrite Lx.
  destruct (one_cross p p Pp Pp) as [F1 E1]. destruct (one_cross q q Pq Pq) as [F2 E2]. destruct (one_cross p q Pp Pq) as [F3 E3]. fold xs X' in F1, E1. fold ys Y' in F2, E2. fold xs ys X' Y' in F3, E3.
  change (sxy xs xs n) with (sxx xs n) in F1, E1. change (sxy ys ys n) with (sxx ys n) in F2, E2. pose proof (scaled_cross p Pp) as V1. pose proof (scaled_cross q Pq) as V2. cbv zeta in V1, V2. fold X' in V1. fold Y' in V2.
  assert (K : 16 * INR n * INR n * u <= / 100 * INR n) by (rewrite u_val; nra). pose proof near_eps_range as NE.
  assert (N1 : is_near (sxx xs n) d0 = false) by (apply is_near_0_false; [exact F1|]; apply Rabs_le_inv in E1; rewrite Rabs_pos_eq; lra).
  assert (N2 : is_near (sxx ys n) d0 = false) by (apply is_near_0_false; [exact F2|]; apply Rabs_le_inv in E2; rewrite Rabs_pos_eq; lra).
  rewrite N1, N2. cbn [orb st_type st_value st_p].
  assert (CA : Rabs (crossR X' Y') <= sqrt (crossR X' X' * crossR Y' Y')) by (apply crossR_abs; unfold X', Y'; rewrite !map_length, (perm_len p Pp), (perm_len q Pq); reflexivity).
  destruct (r_ok (INR n) (sxx xs n) (sxx ys n) (sxy xs ys n) _ _ _ B F1 F2 F3 E1 E2 E3 V1 V2 CA) as [Fr Er]. unfold raw_r in Fr, Er. fold (pearson X' Y') in Er. rewrite pearson_ranks in Er. fold R in Er.
  assert (Ek : IZR (Z.of_N (N.of_nat n - 3)) = INR n - 3). { rewrite INR_IZR_INZ, <- minus_IZR. f_equal. destruct Hn. lia. }
  destruct (z_accurate atanh adj06 (N.of_nat n - 3) _ R (INR n) G ltac:(destruct Hn; lia) Fa ltac:(rewrite Va; exact Ba) B Fr Er BR) as [Fz Ez]. rewrite Ek, Va in Ez.
  split; [reflexivity|]. split; [exact Fz|]. split; [exact Ez|]. reflexivity.
Qed.
End S.

(* ---- the relation to Spearman's coefficient ---- *)
Lemma sorted_nth {A} (lt : A -> A -> Prop) (d : A) l : StronglySorted lt l -> forall i j, (i < j < length l)%nat -> lt (nth i l d) (nth j l d).
Proof.
  induction 1 as [|a l S IH F]; intros i j H; cbn [length] in H; [lia|]. destruct j as [|j]; [lia|]. destruct i as [|i]; cbn [nth].
  - rewrite Forall_forall in F. apply F, nth_In. lia.
  - apply IH. lia.
Qed.
Lemma filter_map_len {A B} (f : A -> B) (g : B -> bool) l : length (filter g (map f l)) = length (filter (fun a => g (f a)) l).
Proof. induction l as [|a l IH]; cbn; [reflexivity|]. destruct (g (f a)); cbn; rewrite IH; reflexivity. Qed.
Lemma filter_perm {A} (g : A -> bool) l m : Permutation l m -> length (filter g l) = length (filter g m).
Proof. induction 1; cbn; try congruence; [destruct (g x); cbn; congruence|destruct (g x), (g y); reflexivity]. Qed.
Lemma filter_lt_seq i m : forall s, length (filter (fun j => (j <? i)%nat) (seq s m)) = Nat.min m (i - s).
Proof.
  induction m as [|m IH]; intros s; [reflexivity|]. cbn [seq filter]. destruct (Nat.ltb_spec s i); cbn [length]; rewrite IH; lia.
Qed.
Lemma seq_nth_map {A} (d : A) l : map (fun i => nth i l d) (seq 0 (length l)) = l.
Proof. apply nth_ext with d d; [rewrite map_length, seq_length; reflexivity|]. intros i Hi. rewrite map_length, seq_length in Hi. rewrite nth_indep with (d' := nth 0 l d) by (rewrite map_length, seq_length; exact Hi). rewrite (map_nth (fun i => nth i l d)), seq_nth by exact Hi. reflexivity. Qed.
Lemma rank_of_position xs p i : sorts_positions xs p -> (i < length xs)%nat -> nth (nth i p 0%nat) (ranks xs) 0%nat = i.
Proof.
  intros [P S] Hi. assert (Lp : length p = length xs) by (rewrite (Permutation_length P), seq_length; reflexivity). set (k := nth i p 0%nat).
  assert (Hk : (k < length xs)%nat). { assert (I : In k p) by (apply nth_In; lia). apply (Permutation_in _ P), in_seq in I. lia. }
  unfold ranks. set (f := fun x => length (filter (fun y => Rlt_bool (dval y) (dval x)) xs)). rewrite nth_indep with (d' := f d0) by (rewrite map_length; exact Hk). rewrite map_nth. unfold f.
  rewrite <- (seq_nth_map d0 xs) at 1. rewrite filter_map_len. rewrite (filter_perm _ _ p) by (symmetry; exact P).
  rewrite <- (seq_nth_map 0%nat p) at 1. rewrite filter_map_len, Lp.
  transitivity (length (filter (fun j => (j <? i)%nat) (seq 0 (length xs)))); [|rewrite filter_lt_seq; lia].
  f_equal. apply filter_ext_in. intros j Hj. apply in_seq in Hj. pose proof (fun a b H => sorted_nth _ 0%nat p S a b H) as SN.
  destruct (Nat.ltb_spec j i) as [C|C]; [apply Rlt_bool_true, SN; lia|]. apply Rlt_bool_false. destruct (Nat.eq_dec j i) as [->|Ne]; [unfold k; lra|]. apply Rlt_le, SN. lia.
Qed.
Lemma combine_map2 {A B C} (f : A -> B) (g : A -> C) l : combine (map f l) (map g l) = map (fun a => (f a, g a)) l.
Proof. induction l as [|a l IH]; cbn; [reflexivity|]. rewrite IH. reflexivity. Qed.
Lemma position_pairs xs p : sorts_positions xs p -> Permutation (combine (seq 0 (length xs)) p) (combine (ranks xs) (seq 0 (length xs))).
Proof.
  intros H. pose proof H as [P S]. assert (Lp : length p = length xs) by (rewrite (Permutation_length P), seq_length; reflexivity). assert (Lr : length (ranks xs) = length xs) by (unfold ranks; apply map_length).
  assert (E1 : combine (seq 0 (length xs)) p = map (fun k => (nth k (ranks xs) 0%nat, k)) p).
  { rewrite <- (seq_nth_map 0%nat p) at 1. rewrite Lp. rewrite <- (map_id (seq 0 (length xs))) at 1. rewrite combine_map2. rewrite <- (seq_nth_map 0%nat p) at 2 || rewrite <- (seq_nth_map 0%nat p) at 1. rewrite Lp, map_map. apply map_ext_in. intros i Hi. apply in_seq in Hi. rewrite (rank_of_position xs p i H) by lia. reflexivity. }
  assert (E2 : combine (ranks xs) (seq 0 (length xs)) = map (fun k => (nth k (ranks xs) 0%nat, k)) (seq 0 (length xs))).
  { rewrite <- (seq_nth_map 0%nat (ranks xs)) at 1. rewrite Lr. rewrite <- (map_id (seq 0 (length xs))) at 2. rewrite combine_map2. reflexivity. }
  rewrite E1, E2. apply Permutation_map, P.
Qed.
Lemma crossR_pairs l m l' m' : length l = length m -> length l' = length m' -> Permutation (combine l m) (combine l' m') -> crossR l m = crossR l' m'.
Proof.
  intros L L' P. assert (F : forall (a b : list R), length a = length b -> map fst (combine a b) = a /\ map snd (combine a b) = b).
  { induction a as [|x a IH]; intros [|y b] H; cbn in *; try discriminate; [split; reflexivity|]. destruct (IH b ltac:(lia)) as [-> ->]. split; reflexivity. }
  destruct (F l m L) as [E1 E2]. destruct (F l' m' L') as [E3 E4]. assert (M1 : meanR l = meanR l').
  { assert (Q : Permutation l l') by (rewrite <- E1, <- E3; apply Permutation_map, P). unfold meanR. rewrite (rsum_perm _ _ Q), (Permutation_length Q). reflexivity. }
  assert (M2 : meanR m = meanR m'). { assert (Q : Permutation m m') by (rewrite <- E2, <- E4; apply Permutation_map, P). unfold meanR. rewrite (rsum_perm _ _ Q), (Permutation_length Q). reflexivity. }
  unfold crossR. rewrite M1, M2. apply rsum_perm, Permutation_map, P.
Qed.
Lemma crossR_comm l m : length l = length m -> crossR l m = crossR m l.
Proof.
  intros L. unfold crossR. generalize (meanR l) (meanR m). intros a b. revert m L. unfold rsum. induction l as [|x l IH]; intros [|y m] L; cbn in *; try discriminate; [reflexivity|]. rewrite IH by lia. ring.
Qed.
Lemma combine_INR l m : combine (map INR l) (map INR m) = map (fun p => (INR (fst p), INR (snd p))) (combine l m).
Proof. revert m. induction l as [|a l IH]; intros [|b m]; cbn; try reflexivity. rewrite IH. reflexivity. Qed.
(* for points in the order of x the coefficient is Spearman's *)
Lemma sorted_spearman xs ys q : length xs = length ys -> sorts_positions xs (seq 0 (length xs)) -> sorts_positions ys q ->
  pearson (map INR (seq 0 (length xs))) (map INR q) = spearman xs ys.
Proof.
  intros L Sx Sy. set (n := length xs) in *. assert (Lq : length q = n). { destruct Sy as [P _]. rewrite (Permutation_length P), seq_length. symmetry. exact L. }
  assert (Rx : ranks xs = seq 0 n). { apply nth_ext with 0%nat 0%nat; [unfold ranks; rewrite map_length, seq_length; reflexivity|]. intros i Hi. unfold ranks in Hi. rewrite map_length in Hi. pose proof (rank_of_position xs _ i Sx Hi) as E. fold n in E. rewrite seq_nth in E by exact Hi. cbn [Nat.add] in E. rewrite E, seq_nth by exact Hi. reflexivity. }
  assert (Lr : length (ranks ys) = n) by (unfold ranks; rewrite map_length; symmetry; exact L).
  pose proof (position_pairs ys q Sy) as PP. rewrite <- L in PP. fold n in PP.
  unfold spearman, pearson. rewrite Rx.
  assert (C1 : crossR (map INR (seq 0 n)) (map INR q) = crossR (map INR (seq 0 n)) (map INR (ranks ys))).
  { rewrite (crossR_comm (map INR (seq 0 n)) (map INR (ranks ys))) by (rewrite !map_length, seq_length; congruence). apply crossR_pairs; [rewrite !map_length, seq_length; congruence|rewrite !map_length, seq_length; congruence|]. rewrite !combine_INR. apply Permutation_map, PP. }
  assert (F : forall (a b : list nat), length a = length b -> map fst (combine a b) = a /\ map snd (combine a b) = b).
  { induction a as [|x a IH]; intros [|y b] H; cbn in *; try discriminate; [split; reflexivity|]. destruct (IH b ltac:(lia)) as [-> ->]. split; reflexivity. }
  assert (PR : Permutation q (ranks ys)).
  { transitivity (seq 0 n); [destruct Sy as [P _]; rewrite <- L in P; exact P|]. destruct (F (seq 0 n) q) as [A1 _]; [rewrite seq_length; congruence|]. destruct (F (ranks ys) (seq 0 n)) as [A2 _]; [rewrite seq_length; congruence|]. rewrite <- A1, <- A2. apply Permutation_map, PP. }
  rewrite C1, (crossR_perm (map INR q) (map INR (ranks ys))) by (apply Permutation_map, PR). reflexivity.
Qed.
