(* Proofs about binary_rank_stats, its isolated-bit variant and the matrix size. *)
From Coq Require Import String Reals Lra.
From Flocq Require Import Core BinarySingleNaN.
From Verif Require Import Base BitwiseModel BitwiseSpec WordLemmas BitwiseProofs FloatModel FloatLemmas ResultModel CollectModel CollectSpec CollectProofs RankModel RankSpec RankProofs.
From Verif Require RankTop StatsProofs.
Open Scope N_scope.
Notation gf2_rank := RankTop.gf2_rank.

Lemma row_reduce_rank n d : wf n d -> exists d', row_reduce_and_rank n d = Ok (d', N.of_nat (gf2_rank n d)) /\ wf n d'.
Proof. intro H. destruct (row_reduce_ok n d H) as (d' & E & W). exists d'. rewrite E, RankTop.gf2_rank_rows. split; [reflexivity|exact W]. Qed.
Lemma bit_cells_wf n b : length b = (n * n)%nat -> wf n (bit_cells b).
Proof.
  intro L. split; [rewrite bit_cells_len; exact L|]. apply Forall_forall. intros x Hx. unfold bit_cells in Hx. apply in_map_iff in Hx.
  destruct Hx as (y & <- & _). destruct y; [right|left]; reflexivity.
Qed.
Lemma corank n r : N.of_nat n < 2 ^ 64 -> (r <= n)%nat -> N.to_nat (wrap 64 (N.of_nat n + (2 ^ 64 - N.of_nat r))) = (n - r)%nat.
Proof.
  intros Hn Hr. unfold wrap. replace (N.of_nat n + (2 ^ 64 - N.of_nat r)) with (N.of_nat (n - r) + 1 * 2 ^ 64) by lia.
  rewrite N.mod_add by discriminate. rewrite N.mod_small by lia. apply Nat2N.id.
Qed.
Definition rank_count (n : nat) (ms : list (list N)) (s : nat) : N := count (fun d => Nat.eqb (n - gf2_rank n d) s) ms.
Lemma rank_fold n ms : N.of_nat n < 2 ^ 64 -> Forall (wf n) ms -> forall f b,
  ofold (visit (rank_callback n)) ms (cells (S n) f, b) = Ok (cells (S n) (fun s => f s + rank_count n ms s), b + N.of_nat (length ms)).
Proof.
  intros Hn. induction ms as [|d ms IH]; intros F f b.
  - cbn [ofold length N.of_nat]. rewrite N.add_0_r. do 2 f_equal. apply cells_ext. intros. unfold rank_count, count. cbn. lia.
  - cbn [ofold]. unfold visit at 1, rank_callback. destruct (row_reduce_rank n d (Forall_inv F)) as (d' & E & _). rewrite E. cbn [obind].
    rewrite corank by (exact Hn || apply RankTop.gf2_rank_le). rewrite vec_inc_cells by lia. cbn [obind fst snd].
    rewrite IH by exact (Forall_inv_tail F). f_equal. f_equal; [|cbn [length]; lia].
    apply cells_ext. intros i _. unfold bump, rank_count, count. cbn [filter]. rewrite (Nat.eqb_sym (n - gf2_rank n d) i).
    destruct (Nat.eqb i (n - gf2_rank n d)); cbn [length]; lia.
Qed.
Lemma rank_callback_len n s d s' d' : length d = (n * n)%nat -> rank_callback n s d = Ok (s', d') -> length d' = (n * n)%nat.
Proof.
  intros L E. destruct s as [rc b]. unfold rank_callback in E. destruct (row_reduce_and_rank n d) as [[d2 r]|] eqn:R; [|discriminate]. cbn [obind] in E.
  destruct (vec_inc rc _) as [rc'|]; [|discriminate]. cbn [obind] in E. inversion E; subst. clear E.
  assert (SET : forall d r c v d', mset n d r c v = Ok d' -> length d' = length d).
  { intros * H. unfold mset in H. destruct (_ <? _)%nat; [|discriminate]. inversion H; subst. apply upd_length. }
  assert (FOLD : forall (A : Type) (f : list N -> A -> outcome (list N)), (forall d x d', f d x = Ok d' -> length d' = length d) ->
     forall l d d', ofold f l d = Ok d' -> length d' = length d).
  { intros A f Hf. induction l as [|x l IH]; intros a a' H; cbn [ofold] in H; [inversion H; reflexivity|].
    destruct (f a x) as [a2|] eqn:E; [|discriminate]. cbn [obind] in H. rewrite (IH _ _ H). eapply Hf, E. }
  assert (EL : forall row col d r d', eliminate n row col d r = Ok d' -> length d' = length d).
  { intros row col a q a' H. unfold eliminate in H. destruct (mget n a q col) as [x|]; [|discriminate]. cbn [obind] in H.
    destruct (x =? 1); [|inversion H; reflexivity]. eapply FOLD; [|exact H]. intros c k c' H2. unfold xor_cell in H2.
    destruct (mget n c q k); [|discriminate]. cbn [obind] in H2. destruct (mget n c row k); [|discriminate]. cbn [obind] in H2. eapply SET, H2. }
  assert (RR : forall l s s', ofold (reduce_row n) l s = Ok s' -> length (fst s') = length (fst s)).
  { induction l as [|k l IH]; intros [a ra] s2 H; cbn [ofold] in H; [inversion H; reflexivity|].
    destruct (reduce_row n (a, ra) k) as [[a2 ra2]|] eqn:E; [|discriminate]. cbn [obind] in H. rewrite (IH _ _ H). cbn [fst].
    unfold reduce_row in E. destruct (find_col n a k 0 n) as [col|]; [|discriminate]. cbn [obind] in E. destruct (col <? n)%nat; [|inversion E; reflexivity].
    destruct (ofold (eliminate n k col) _ a) as [a3|] eqn:E3; [|discriminate]. cbn [obind] in E. inversion E; subst. eapply FOLD; [|exact E3]. apply EL. }
  rewrite <- L. unfold row_reduce_and_rank in R. destruct (n =? 0)%nat; [inversion R; reflexivity|]. exact (RR _ _ _ R).
Qed.
Section S.
Variables (pow : double -> double -> double) (cdf : double -> double -> double).
Lemma probs_length n : length (get_rank_probabilities pow n) = S n.
Proof. unfold get_rank_probabilities. rewrite rev_length, map_length, seq_length. reflexivity. Qed.
Lemma probs_nth n s d : (s <= n)%nat -> nth s (get_rank_probabilities pow n) d = get_rank_probability pow n (n - s).
Proof.
  intro H. unfold get_rank_probabilities. rewrite rev_nth by (rewrite map_length, seq_length; lia). rewrite map_length, seq_length.
  replace (S n - S s)%nat with (n - s)%nat by lia. rewrite (nth_indep _ d (get_rank_probability pow n 0)) by (rewrite map_length, seq_length; lia).
  rewrite map_nth, seq_nth by lia. reflexivity.
Qed.
Lemma repeat_cells k : repeat 0 k = cells k (fun _ => 0).
Proof. unfold cells. generalize 0%nat. induction k; intro s; [reflexivity|]. cbn [repeat seq map]. rewrite <- IHk. reflexivity. Qed.
Lemma rank_stats_ok w data n : (0 < n)%nat -> N.of_nat n < 2 ^ 64 -> exists blocks, chopped (n * n) (flat_map (bits_lsb (N.to_nat w)) data) blocks /\
  binary_rank_stats pow cdf w data n =
  Ok (rank_chi2 cdf (get_rank_probabilities pow n) (map (rank_count n (map bit_cells blocks)) (seq 0 (S n))) (N.of_nat (length blocks))).
Proof.
  intros H0 Hn. unfold binary_rank_stats. rewrite probs_length, repeat_cells.
  destruct (for_each_matrix_ok (rank_callback n) n H0 (fun s d s' d' => rank_callback_len n s d s' d') w data (cells (S n) (fun _ => 0), 0)) as (bl & C & E).
  exists bl. split; [exact C|]. rewrite E. rewrite rank_fold; [|exact Hn|].
  - cbn [obind fst snd]. rewrite map_length. f_equal.
  - apply Forall_map. destruct C as [C _]. eapply Forall_impl; [|exact C]. intros b L. apply bit_cells_wf, L.
Qed.
(* ---- isolated bits ---- *)
Lemma fill_fold w n b values : b < promoted w -> (0 < n)%nat -> forall m p stale, (length p + m = length values)%nat -> length stale = m -> length values = (n * n)%nat ->
  p = map (fun v => N.b2n (N.testbit v b)) (firstn (length p) values) ->
  ofold (fun d k => v <- at_ values k ;; c <- is_bit_set w v (Z.of_N b) ;; mset n d (k / n) (k mod n) (if c then 1 else 0)) (seq (length p) m) (p ++ stale) =
  Ok (map (fun v => N.b2n (N.testbit v b)) values).
Proof.
  intros Hb Hn. induction m as [|m IH]; intros p stale HL HS HV HP.
  - destruct stale; [|discriminate]. cbn [seq ofold]. rewrite app_nil_r. f_equal. rewrite HP. rewrite firstn_all2 by lia. reflexivity.
  - destruct stale as [|x stale]; [discriminate|]. cbn [seq ofold].
    rewrite (at_nth values (length p) 0) by lia. cbn [obind]. rewrite is_bit_set_spec by exact Hb. cbn [obind].
    unfold mset. replace (length p / n * n + length p mod n)%nat with (length p) by (pose proof (Nat.div_mod (length p) n); nia).
    destruct (Nat.ltb_spec (length p) (length (p ++ x :: stale))) as [_|HH]; [|rewrite app_length in HH; cbn [length] in HH; lia]. cbn [obind].
    rewrite upd_mid. set (y := if N.testbit (nth (length p) values 0) b then 1 else 0). replace (p ++ y :: stale) with ((p ++ [y]) ++ stale) by (rewrite <- app_assoc; reflexivity).
    replace (S (length p)) with (length (p ++ [y])) by (rewrite app_length; cbn; lia).
    apply IH; [rewrite app_length; cbn [length]; lia|injection HS; tauto|exact HV|].
    rewrite app_length. cbn [length]. replace (length p + 1)%nat with (S (length p)) by lia.
    assert (G : forall (l : list N) k, (k < length l)%nat -> firstn (S k) l = firstn k l ++ [nth k l 0]).
    { clear. induction l as [|a l IH]; intros k H; [cbn in H; lia|]. destruct k as [|k]; [reflexivity|]. cbn [firstn app nth]. f_equal. apply IH. cbn in H. lia. }
    rewrite G by lia. rewrite map_app, <- HP. cbn [map]. unfold y. destruct (N.testbit _ b); reflexivity.
Qed.
Lemma fill_block_ok w n b values : b < promoted w -> (0 < n)%nat -> length values = (n * n)%nat ->
  fill_block w n (Z.of_N b) values = Ok (map (fun v => N.b2n (N.testbit v b)) values).
Proof.
  intros Hb Hn HV. unfold fill_block. apply (fill_fold w n b values Hb Hn (n * n) [] (mnew n)); [cbn; lia|unfold mnew; apply repeat_length|exact HV|reflexivity].
Qed.
Lemma b2n_wf n b (values : list N) : length values = (n * n)%nat -> wf n (map (fun v => N.b2n (N.testbit v b)) values).
Proof.
  intro L. split; [rewrite map_length; exact L|]. apply Forall_map, Forall_forall. intros v _. destruct (N.testbit v b); [right|left]; reflexivity.
Qed.
(* the k-th matrix drawn from the stream *)
Definition drawn (stream : nat -> N) (n : nat) (b : N) (k : nat) : list N := map (fun i => N.b2n (N.testbit (stream i) b)) (seq (k * (n * n)) (n * n)).
Lemma isolated_ok w cnt stream n b : (0 < n)%nat -> N.of_nat n < 2 ^ 64 -> b < promoted w -> w * cnt < 2 ^ 64 ->
  let blocks := w * cnt / N.of_nat (n * n) in
  binary_rank_isolated_bit_stats pow cdf w cnt stream n (Z.of_N b) =
  Ok (rank_chi2 cdf (get_rank_probabilities pow n) (map (rank_count n (map (drawn stream n b) (seq 0 (N.to_nat blocks)))) (seq 0 (S n))) blocks).
Proof.
  intros H0 Hn Hb Hc blocks. unfold binary_rank_isolated_bit_stats. destruct (Nat.eqb_spec n 0) as [->|_]; [lia|]. cbn zeta. replace (wrap 64 (w * cnt)) with (w * cnt) by (unfold wrap; symmetry; apply N.mod_small, Hc). fold blocks.
  rewrite probs_length, repeat_cells.
  rewrite (inc_loop (fun k => (n - gf2_rank n (drawn stream n b k))%nat) _ (S n)).
  - cbn [obind]. do 2 f_equal. unfold cells. apply map_ext_in. intros i _. rewrite N.add_0_l. unfold rank_count, count.
    f_equal. generalize (seq 0 (N.to_nat blocks)) as l. induction l as [|k l IH]; [reflexivity|]. cbn [map filter]. destruct (Nat.eqb _ i); cbn [length]; rewrite IH; reflexivity.
  - intros h k _. rewrite fill_block_ok; [|exact Hb|exact H0|rewrite map_length, seq_length; reflexivity]. cbn [obind]. rewrite map_map. fold (drawn stream n b k).
    assert (W : wf n (drawn stream n b k)). { split; [unfold drawn; rewrite map_length, seq_length; reflexivity|]. unfold drawn. apply Forall_map, Forall_forall. intros v _. destruct (N.testbit _ b); [right|left]; reflexivity. }
    destruct (row_reduce_rank n _ W) as (d' & E & _). rewrite E. cbn [obind snd]. rewrite corank by (exact Hn || apply RankTop.gf2_rank_le). reflexivity.
  - apply Forall_forall. intros k _. lia.
Qed.
End S.

(* ---- matrix size ---- *)
Open Scope R_scope.
Lemma multiplier_val w : (w = 8 \/ w = 16 \/ w = 32 \/ w = 64)%N -> fin (rank_multiplier w) /\ dval (rank_multiplier w) = IZR (Z.of_N w) * (IZR 4831927511652294 * bpow radix2 (-62)).
Proof.
  intro H. assert (G : forall s m e x, B2SF x = SpecFloat.S754_finite s m e -> fin x /\ dval x = F2R (Float radix2 (SpecFloat.cond_Zopp s (Zpos m)) e)).
  { intros s m e x E. split; [unfold fin; rewrite <- is_finite_SF_B2SF, E; reflexivity|]. unfold dval. rewrite <- SF2R_B2SF, E. reflexivity. }
  destruct H as [-> | [-> | [-> | ->]]].
  - destruct (G false 4831927511652294%positive (-59)%Z (rank_multiplier 8)) as [F V]; [vm_compute; reflexivity|]. split; [exact F|]. rewrite V. unfold F2R. cbn [Fnum Fexp SpecFloat.cond_Zopp].
    change (IZR (Z.of_N 8)) with (bpow radix2 3). rewrite <- Rmult_assoc, (Rmult_comm (bpow _ 3)), Rmult_assoc, <- bpow_plus. reflexivity.
  - destruct (G false 4831927511652294%positive (-58)%Z (rank_multiplier 16)) as [F V]; [vm_compute; reflexivity|]. split; [exact F|]. rewrite V. unfold F2R. cbn [Fnum Fexp SpecFloat.cond_Zopp].
    change (IZR (Z.of_N 16)) with (bpow radix2 4). rewrite <- Rmult_assoc, (Rmult_comm (bpow _ 4)), Rmult_assoc, <- bpow_plus. reflexivity.
  - destruct (G false 4831927511652294%positive (-57)%Z (rank_multiplier 32)) as [F V]; [vm_compute; reflexivity|]. split; [exact F|]. rewrite V. unfold F2R. cbn [Fnum Fexp SpecFloat.cond_Zopp].
    change (IZR (Z.of_N 32)) with (bpow radix2 5). rewrite <- Rmult_assoc, (Rmult_comm (bpow _ 5)), Rmult_assoc, <- bpow_plus. reflexivity.
  - destruct (G false 4831927511652294%positive (-56)%Z (rank_multiplier 64)) as [F V]; [vm_compute; reflexivity|]. split; [exact F|]. rewrite V. unfold F2R. cbn [Fnum Fexp SpecFloat.cond_Zopp].
    change (IZR (Z.of_N 64)) with (bpow radix2 6). rewrite <- Rmult_assoc, (Rmult_comm (bpow _ 6)), Rmult_assoc, <- bpow_plus. reflexivity.
Qed.
Lemma rnd_rel x : bpow radix2 (-1000) <= x -> x * (1 - / 1000000) <= rnd x <= x * (1 + / 1000000).
Proof.
  intro H. pose proof (bpow_gt_0 radix2 (-1000)). pose proof (CouponFloatProofs.rnd_approx x H) as A. unfold CouponFloatProofs.approx in A. rewrite (Rabs_pos_eq x) in A by lra.
  assert (B : bpow radix2 (-53) <= / 1000000) by (change (bpow radix2 (-53)) with (/ 9007199254740992); lra). apply Rabs_le_inv in A. nra.
Qed.
Lemma matrix_size_real w n : (w = 8 \/ w = 16 \/ w = 32 \/ w = 64)%N -> (0 < n <= 2 ^ 53)%N -> exists s, (s < 2 ^ 63)%N /\ get_matrix_size w n = bit_floor 64 s /\
  IZR (Z.of_N s) * IZR (Z.of_N s) * 954.4 <= IZR (Z.of_N (w * n)) < (IZR (Z.of_N s) + 1) * (IZR (Z.of_N s) + 1) * 954.5.
Proof.
  intros Hw Hn. destruct (multiplier_val w Hw) as [Fm Vm]. destruct (double_of_N_exact n) as [Vn Fn]; [lia|].
  set (W := IZR (Z.of_N w)) in *. set (X := IZR (Z.of_N n)) in *.
  assert (BW : 8 <= W <= 64) by (unfold W; destruct Hw as [-> | [-> | [-> | ->]]]; simpl; lra).
  assert (BX : 1 <= X <= bpow radix2 53). { unfold X. change (bpow radix2 53) with (IZR 9007199254740992). split; apply IZR_le; lia. }
  assert (EX : bpow radix2 53 = 9007199254740992) by reflexivity.
  set (k := IZR 4831927511652294 * bpow radix2 (-62)) in *.
  assert (BK : / 954.42 <= k <= / 954.419).
  { unfold k. change (bpow radix2 (-62)) with (/ 4611686018427387904). split; lra. }
  assert (TINY : forall y, / 1000 <= y -> bpow radix2 (-1000) <= y).
  { intros y Hy. apply Rle_trans with (2 := Hy). apply Rle_trans with (bpow radix2 (-10)); [apply bpow_le; lia|]. change (bpow radix2 (-10)) with (/ 1024). lra. }
  pose proof StatsProofs.two64 as T64.
  assert (P0 : / 1000 <= X * (W * k) <= 604000000000000000).
  { assert (8 * / 954.42 <= W * k <= 64 * / 954.419) by nra. nra. }
  destruct (dmul_ok (double_of_N n) (rank_multiplier w) Fn Fm) as [Vx Fx]; [rewrite Vn, Vm; apply StatsProofs.small_num; fold W X k; lra|].
  rewrite Vn, Vm in Vx. fold W X in Vx. pose proof (rnd_rel (X * (W * k)) (TINY _ (proj1 P0))) as R1. rewrite <- Vx in R1.
  set (x := dval (dmul (double_of_N n) (rank_multiplier w))) in *.
  destruct (StatsProofs.dsqrt_ok _ Fx) as [Fs Vs]; [fold x; nra|]. fold x in Vs. set (y := sqrt x) in *.
  assert (Hy : y * y = x) by (apply sqrt_sqrt; nra). assert (Hy0 : 0 <= y) by apply sqrt_pos.
  assert (By : / 100 <= y <= 1000000000) by (split; nra).
  pose proof (rnd_rel y (TINY y ltac:(lra))) as R2. rewrite <- Vs in R2.
  assert (TR : N_of_double 64 (Bsqrt mode_NE (dmul (double_of_N n) (rank_multiplier w))) = Ok (Z.to_N (Zfloor (dval (StatsModel.dsqrt (dmul (double_of_N n) (rank_multiplier w))))))).
  { apply N_of_double_trunc; [exact Fs|fold StatsModel.dsqrt; nra|]. fold StatsModel.dsqrt. change (IZR (2 ^ Z.of_N 64)) with 18446744073709551616. nra. }
  unfold get_matrix_size. rewrite TR. cbn [obind]. set (r := dval (StatsModel.dsqrt _)) in *. exists (Z.to_N (Zfloor r)). 
  assert (Z0 : (0 <= Zfloor r)%Z) by (apply (Zfloor_lub 0 r); nra). pose proof (Zfloor_lb r) as L. pose proof (Zfloor_ub r) as U.
  rewrite Z2N.id by exact Z0. split; [|split; [reflexivity|]].
  - assert (IZR (Zfloor r) <= IZR 2000000000) by (apply Rle_trans with (1 := L); nra). apply le_IZR in H. lia.
  - rewrite N2Z.inj_mul, mult_IZR. fold W X. set (f := IZR (Zfloor r)) in *. assert (0 <= f) by (apply (IZR_le 0); exact Z0).
    assert (f <= y * (1 + / 1000000)) by lra. assert (y * (1 - / 1000000) < f + 1) by lra.
    assert (f * f <= x * ((1 + / 1000000) * (1 + / 1000000))) by nra. assert (x * ((1 - / 1000000) * (1 - / 1000000)) < (f + 1) * (f + 1)) by nra.
    assert (WX : 0 < W * X) by nra. assert (K1 : (W * X) * / 954.42 <= X * (W * k) <= (W * X) * / 954.419) by nra.
    split; nra.
Qed.
Open Scope N_scope.
Lemma matrix_size_ok w n : (w = 8 \/ w = 16 \/ w = 32 \/ w = 64) -> n <= 2 ^ 53 -> exists p, get_matrix_size w n = Ok p /\
  (p = 0 /\ 10 * (w * n) < 9545 \/ (exists k, p = 2 ^ k) /\ 9544 * (p * p) <= 10 * (w * n) < 9545 * (2 * p * (2 * p))).
Proof.
  intros Hw Hn. destruct (N.eq_dec n 0) as [->|N0].
  { exists 0. split; [destruct Hw as [-> | [-> | [-> | ->]]]; vm_compute; reflexivity|]. left. split; [reflexivity|lia]. }
  destruct (matrix_size_real w n Hw ltac:(lia)) as (s & Hs & E & B1 & B2).
  assert (C1 : 9544 * (s * s) <= 10 * (w * n)). { apply N2Z.inj_le, le_IZR. rewrite !N2Z.inj_mul, !mult_IZR in *. change (IZR (Z.of_N 9544)) with 9544%R. change (IZR (Z.of_N 10)) with 10%R. lra. }
  assert (C2 : 10 * (w * n) < 9545 * ((s + 1) * (s + 1))).
  { apply N2Z.inj_lt, lt_IZR. rewrite !N2Z.inj_mul, !N2Z.inj_add, !mult_IZR, !plus_IZR in *. change (IZR (Z.of_N 9545)) with 9545%R. change (IZR (Z.of_N 10)) with 10%R. change (IZR (Z.of_N 1)) with 1%R. lra. }
  destruct (N.eq_dec s 0) as [->|S0]; [exists 0; rewrite E; split; [reflexivity|left; split; [reflexivity|lia]]|].
  destruct (bit_floor_spec 64 s) as (p & Ep & (k & Hk & Hp) & Hps & MAX); [unfold is_word; lia|exact S0|]. exists p. rewrite E, Ep. split; [reflexivity|]. right.
  split; [exists k; exact Hp|].
  assert (s < 2 * p).
  { destruct (N.lt_ge_cases s (2 * p)) as [H|H]; [exact H|]. exfalso.
    assert (k + 1 < 64). { apply (N.pow_lt_mono_r_iff 2); [lia|]. rewrite N.pow_add_r, <- Hp. change (2 ^ 1) with 2. lia. }
    assert (2 * p <= p) by (apply MAX; [exists (k + 1); split; [assumption|rewrite N.pow_add_r, <- Hp; change (2 ^ 1) with 2; lia]|exact H]). assert (p <> 0) by (rewrite Hp; apply N.pow_nonzero; discriminate). lia. }
  nia.
Qed.
