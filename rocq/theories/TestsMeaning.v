(* The expectations of the tests in the words of TestsSpec. *)
From Coq Require Import String Reals Lra.
From Flocq Require Import Core BinarySingleNaN.
From Verif Require Import Base BitwiseSpec FloatModel FloatLemmas ResultModel CollectModel CollectSpec RescaleProofs Collect3Proofs CouponSpec CouponProofs StatsModel StatsProofs ErrorSpec StatsSpec StatFormulas EvaluateModel EvaluateSpec LimitProofs
  TestsModel TestsSpec TestsUniform TestsGap TestsCoupon TestsDiv Prop_Collect.
Open Scope R_scope.

Lemma coupon_share_ok k : (k < 25)%nat -> coupon_ideal k = coupon_share k.
Proof.
  intros Hk. unfold coupon_ideal, coupon_share. destruct (Nat.ltb_spec k 24); [apply prob5_words|]. apply rest5_words. reflexivity.
Qed.
Lemma nb_share_ok k : (k < 15)%nat -> IZR (nb_term k) / 1048576 = nb_share k.
Proof.
  intros Hk. unfold nb_term, nb_share, nb. rewrite mult_IZR, !IZR_pow2 by lia. change 1048576 with (bpow radix2 20).
  replace (15 - Z.of_nat k)%Z with (20 + - (Z.of_nat k + 5))%Z by lia. rewrite bpow_plus, bpow_opp. unfold Rdiv. field. split; apply Rgt_not_eq, bpow_gt_0.
Qed.
Lemma rsum_map_scale {A} (f : A -> Z) c l : rsum (map (fun x => IZR (f x) / c) l) = IZR (fold_right Z.add 0%Z (map f l)) / c.
Proof.
  induction l as [|a l IH]; [cbn; lra|]. cbn [map fold_right]. change (rsum (IZR (f a) / c :: map (fun x => IZR (f x) / c) l)) with (IZR (f a) / c + rsum (map (fun x => IZR (f x) / c) l)). rewrite IH, plus_IZR. lra.
Qed.
Lemma fifth_share_ok k : (k < 16)%nat -> IZR (nb_ideal k) / 1048576 = fifth_share k.
Proof.
  intros Hk. unfold nb_ideal, fifth_share. destruct (Nat.ltb_spec k 15); [apply nb_share_ok; assumption|].
  rewrite (map_ext_in nb_share (fun k => IZR (nb_term k) / 1048576)); [|intros a Ha; apply in_seq in Ha; symmetry; apply nb_share_ok; lia].
  rewrite rsum_map_scale. replace (fold_right Z.add 0%Z (map nb_term (seq 0 15))) with 1038504%Z by (vm_compute; reflexivity). lra.
Qed.
Lemma div_expected_ok n : div_expected n = map (fun k => fifth_share k * IZR (Z.of_N (n / 10))) (seq 0 16).
Proof. unfold div_expected. apply map_ext_in. intros a Ha. apply in_seq in Ha. rewrite fifth_share_ok by lia. reflexivity. Qed.

Lemma bin_log_small n K : (1 <= n <= 2 ^ 40)%N -> bpow radix2 (Z.of_N K) < 4 * Rpower (IZR (Z.of_N n)) (2 / 5) * (1 + / 2 ^ 38) + 2 -> (K <= 18)%N.
Proof.
  intros Hn H. assert (P : Rpower (IZR (Z.of_N n)) (2 / 5) <= 65536).
  { apply Rle_trans with (Rpower (bpow radix2 40) (2 / 5)).
    - apply Rle_Rpower_l; [lra|]. split; [apply IZR_lt; lia|]. rewrite <- IZR_pow2 by lia. apply IZR_le. change (2 ^ 40)%Z with (Z.of_N (2 ^ 40)). apply N2Z.inj_le, Hn.
    - unfold Rpower. rewrite (ln_bpow 40) by lia. replace (2 / 5 * (IZR 40 * ln 2)) with (IZR 16 * ln 2) by lra. rewrite <- (ln_bpow 16) by lia. rewrite exp_ln by apply bpow_gt_0. change 65536 with (bpow radix2 16). apply Rle_refl. }
  destruct (N.le_gt_cases K 18) as [L|L]; [exact L|]. exfalso.
  assert (B : bpow radix2 19 <= bpow radix2 (Z.of_N K)) by (apply bpow_le; lia). change (bpow radix2 19) with 524288 in B.
  assert (/ 2 ^ 38 <= / 2). { apply Rinv_le; [lra|]. change (2 <= 2 ^ 38). pose proof (Rle_pow 2 1 38 ltac:(lra) ltac:(lia)). lra. }
  assert (0 < Rpower (IZR (Z.of_N n)) (2 / 5)) by apply exp_pos. assert (0 < / 2 ^ 38) by (apply Rinv_0_lt_compat, pow_lt; lra). nra.
Qed.
Lemma chi2_exact_fit cdf t os r : chi2_test cdf t os (map (fun o => IZR (Z.of_N o)) os) r -> match r with Some s => dval (st_value s) = 0 | None => True end.
Proof.
  intros [_ H]. destruct r as [s|]; [|exact I]. cbn zeta in H. destruct H as (_ & _ & _ & _ & _ & H & _).
  assert (Z : chi2_sum t os (map (fun o => IZR (Z.of_N o)) os) = 0).
  { clear H. unfold chi2_sum. induction os as [|o os IH]; [reflexivity|]. cbn [map combine fst snd]. change (rsum (?a :: ?l)) with (a + rsum l). rewrite IH.
    destruct (Rlt_bool t (IZR (Z.of_N o))); [|lra]. replace (IZR (Z.of_N o) - IZR (Z.of_N o)) with 0 by lra. unfold Rdiv. rewrite pow_i by lia. lra. }
  rewrite Z, Rmult_0_r, Rminus_0_r in H. pose proof (Rabs_pos (dval (st_value s))). destruct (Req_dec (dval (st_value s)) 0) as [E|E]; [exact E|]. apply Rabs_pos_lt in E. lra.
Qed.
Lemma cut_into_ext {A} (c c' : list A -> Prop) data segs rest : (forall l, incl l data -> (c l <-> c' l)) -> cut_into c data segs rest -> cut_into c' data segs rest.
Proof.
  intros H (E & S & R). assert (I : incl rest data) by (rewrite E; apply incl_appr, incl_refl).
  assert (J : forall s, In s segs -> incl s data) by (intros s Hs; rewrite E; apply incl_appl; intros x Hx; apply in_concat; eauto).
  split; [exact E|]. split.
  - rewrite Forall_forall in *. intros s Hs. destruct (S s Hs) as [C P]. split; [apply H; [exact (J s Hs)|exact C]|]. intros p q Epq Hq Hc. apply (P p q Epq Hq). apply H; [|exact Hc].
    intros x Hx. apply (J s Hs). rewrite Epq. apply in_or_app. left. exact Hx.
  - intros p q Epq Hc. apply (R p q Epq). apply H; [|exact Hc]. intros x Hx. apply I. rewrite Epq. apply in_or_app. left. exact Hx.
Qed.
Lemma existsb_ext_in {A} (p q : A -> bool) l : (forall x, In x l -> p x = q x) -> existsb p l = true <-> existsb q l = true.
Proof. intros H. rewrite !existsb_exists. split; intros (x & Hx & E); exists x; (split; [exact Hx|]); [rewrite <- H|rewrite H]; assumption. Qed.
Lemma nth_repeat_lt {A} (x d : A) n i : (i < n)%nat -> nth i (repeat x n) d = x.
Proof. intros H. rewrite (nth_indep _ d x) by (rewrite repeat_length; exact H). apply nth_repeat. Qed.
Lemma map_repeat {A B} (f : A -> B) x n : map f (repeat x n) = repeat (f x) n.
Proof. induction n as [|n IH]; [reflexivity|]. cbn. rewrite IH. reflexivity. Qed.
Lemma sum5_rsum : forall j, (j <= 26)%nat -> rsum (map prob5 (seq 0 j)) = sum5 j.
Proof.
  induction j as [|j IH]; intros H; [unfold sum5; change (num5 0) with 0%N; unfold Rdiv; change (IZR (Z.of_N 0)) with 0; rewrite Rmult_0_l; reflexivity|].
  rewrite sum5_step by lia. rewrite <- IH by lia. rewrite seq_S, map_app. cbn [map]. rewrite Nat.add_0_l. generalize (map prob5 (seq 0 j)). intros l. induction l as [|a l IL]; [cbn; lra|]. cbn [app]. change (rsum (?a :: ?l)) with (a + rsum l). rewrite IL. change (rsum (a :: l)) with (a + rsum l). lra.
Qed.
Lemma rsum_snoc l x : rsum (l ++ [x]) = rsum l + x.
Proof. induction l as [|a l IL]; [cbn; lra|]. cbn [app]. change (rsum (?a :: ?l)) with (a + rsum l). rewrite IL. lra. Qed.
Lemma coupon_shares_total : rsum (map coupon_share (seq 0 25)) = 1.
Proof.
  rewrite (map_ext_in coupon_share coupon_ideal); [|intros a Ha; apply in_seq in Ha; symmetry; apply coupon_share_ok; lia].
  change (seq 0 25) with (seq 0 24 ++ [24])%nat. rewrite map_app. change (map coupon_ideal [24%nat]) with [coupon_ideal 24]. rewrite rsum_snoc.
  rewrite (map_ext_in coupon_ideal prob5); [|intros a Ha; apply in_seq in Ha; unfold coupon_ideal; destruct (Nat.ltb_spec a 24); [reflexivity|lia]].
  rewrite sum5_rsum by lia. change (coupon_ideal 24) with (1 - sum5 24). lra.
Qed.

(* bit words by the position of their last one *)
Definition ends_with (m : nat) (s : list bool) : bool := Nat.eqb (count_occ Bool.bool_dec s true) m && last s false.
Lemma bit_words_len n s : In s (bit_words n) -> length s = n.
Proof.
  revert s. induction n as [|n IH]; intros s; cbn [bit_words]; [intros [<-|[]]; reflexivity|]. intros H. apply in_app_or in H. destruct H as [H|H]; apply in_map_iff in H; destruct H as (t & <- & Ht); cbn [length]; f_equal; apply IH, Ht.
Qed.
Lemma words_count n : length (bit_words n) = (2 ^ n)%nat.
Proof. induction n as [|n IH]; [reflexivity|]. cbn [bit_words]. rewrite app_length, !map_length, IH. cbn. lia. Qed.
Lemma last_one s : last s false = true -> (1 <= count_occ Bool.bool_dec s true)%nat.
Proof.
  induction s as [|b s IH]; [discriminate|]. intros H. destruct b; [rewrite count_occ_cons_eq by reflexivity; lia|]. rewrite count_occ_cons_neq by discriminate. apply IH. destruct s; [discriminate|exact H].
Qed.
Lemma ends_with_0 s : ends_with 0 s = false.
Proof. unfold ends_with. destruct (last s false) eqn:E; [|apply Bool.andb_false_r]. apply last_one in E. destruct (Nat.eqb_spec (count_occ Bool.bool_dec s true) 0); [lia|reflexivity]. Qed.
Lemma last_count n : forall m, N.of_nat (length (filter (ends_with (S m)) (bit_words (S n)))) = choose n m.
Proof.
  induction n as [|n IH]; intros m; [destruct m as [|m]; reflexivity|].
  change (bit_words (S (S n))) with (map (cons false) (bit_words (S n)) ++ map (cons true) (bit_words (S n))). rewrite filter_app, app_length, !filter_map_len.
  rewrite (filter_ext_in (fun a => ends_with (S m) (false :: a)) (ends_with (S m))).
  2:{ intros s Hs. apply bit_words_len in Hs. unfold ends_with. rewrite count_occ_cons_neq by discriminate. destruct s; [discriminate|reflexivity]. }
  rewrite (filter_ext_in (fun a => ends_with (S m) (true :: a)) (ends_with m)).
  2:{ intros s Hs. apply bit_words_len in Hs. unfold ends_with. rewrite count_occ_cons_eq by reflexivity. destruct s; [discriminate|reflexivity]. }
  rewrite Nat2N.inj_add, IH. destruct m as [|m].
  - rewrite (filter_ext (ends_with 0) (fun _ => false)) by (intro; apply ends_with_0).
    replace (filter (fun _ : list bool => false) (bit_words (S n))) with (@nil (list bool)) by (clear; induction (bit_words (S n)) as [|x l IHl]; [reflexivity|exact IHl]). rewrite !choose_0. reflexivity.
  - rewrite IH. cbn [choose]. apply N.add_comm.
Qed.
Lemma fifth_share_words k : (k < 15)%nat ->
  fifth_share k = INR (length (filter (fun s => Nat.eqb (count_occ Bool.bool_dec s true) 5 && last s false) (bit_words (k + 5)))) / INR (length (bit_words (k + 5))).
Proof.
  intros Hk. unfold fifth_share, nb_share. destruct (Nat.ltb_spec k 15); [|lia]. rewrite words_count. rewrite pow_INR. change (INR 2) with 2.
  replace (IZR (2 ^ (Z.of_nat k + 5))) with (2 ^ (k + 5)) by (rewrite pow_IZR; do 2 f_equal; lia). f_equal.
  replace (k + 5)%nat with (S (k + 4)) by lia. rewrite <- (last_count (k + 4) 4). rewrite nat_N_Z, <- INR_IZR_INZ. reflexivity.
Qed.
