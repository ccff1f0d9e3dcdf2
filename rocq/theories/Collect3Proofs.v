(* 64-bit bins, merged bins and the chi-square statistic. *)
From Coq Require Import Reals Lra.
From Flocq Require Import Core BinarySingleNaN.
From Verif Require Import Base WordLemmas FloatModel FloatLemmas ResultModel CollectModel CollectSpec CollectProofs RescaleProofs.
Open Scope R_scope.

Lemma rescale_64 x : is_word 64 x -> dval (rescale_type_to_01 64 x) = rnd (IZR (Z.of_N x)) * bpow radix2 (-64).
Proof.
  intros Hx. destruct (rescale_range 64 x ltac:(lia) Hx) as (_ & _ & ->). unfold is_word in Hx.
  assert (E64 : rnd (IZR (Z.of_N (2 ^ 64 - 1))) = bpow radix2 64).
  { destruct (double_of_N_ok (2 ^ 64 - 1)) as [<- _]; [reflexivity|].
    replace (double_of_N (2 ^ 64 - 1)) with (dconst 1 64) by (apply B2SF_inj; vm_compute; reflexivity).
    destruct (dconst_ok 1 64) as [E _]; [apply (small_bpow _ 64); [lia|unfold F2R; cbn [Fnum Fexp]; rewrite Rmult_1_l, Rabs_pos_eq by apply bpow_ge_0; lra]|].
    rewrite E. unfold F2R. cbn [Fnum Fexp]. rewrite Rmult_1_l. apply rnd_id, F64_bpow. lia. }
  rewrite E64. set (r := rnd (IZR (Z.of_N x))). assert (Fr : F64 r) by apply rnd_format.
  assert (R0 : 0 <= r) by (rewrite <- (rnd_id 0 F64_0); apply rnd_mono, IZR_le; lia).
  unfold Rdiv. rewrite <- (bpow_opp radix2 64). change (- (64))%Z with (-64)%Z. set (u := r * bpow radix2 (-64)).
  assert (Eu : bpow radix2 64 * u = r) by (unfold u; rewrite (Rmult_comm r), <- Rmult_assoc, <- bpow_plus; change (bpow radix2 (64 + -64)) with 1; ring).
  assert (G : rnd (bpow radix2 64 * u) = bpow radix2 64 * rnd u).
  { apply rnd_scale; [lia|unfold u; apply Rmult_le_pos; [exact R0|apply bpow_ge_0]|].
    destruct (N.eq_dec x 0) as [Ex|Nx]; [left; unfold u, r; rewrite Ex; change (IZR (Z.of_N 0)) with 0; rewrite (rnd_id 0 F64_0); ring|right].
    assert (1 <= r) by (unfold r; rewrite <- (rnd_id 1 F64_1); apply rnd_mono, IZR_le; lia).
    apply Rle_trans with (1 * bpow radix2 (-64)); [rewrite Rmult_1_l; apply bpow_le; lia|apply Rmult_le_compat_r; [apply bpow_ge_0|assumption]]. }
  rewrite Eu, (rnd_id r Fr) in G. pose proof (bpow_gt_0 radix2 64). apply Rmult_eq_reg_l with (bpow radix2 64); [|lra]. rewrite <- G, Eu. reflexivity.
Qed.
Lemma bin_top_bits_64 k x : (k <= 53)%N -> is_word 64 x -> (x mod 2 ^ (64 - k) + 2048 <= 2 ^ (64 - k))%N ->
  bin_index 64 (2 ^ k) x = Ok (x / 2 ^ (64 - k))%N.
Proof.
  intros Hk Hx Hm.
  assert (K0 : (2 ^ k <> 0)%N) by (apply N.pow_nonzero; lia).
  assert (Hmm : (1 <= 2 ^ k <= 2 ^ 53)%N) by (split; [lia|apply N.pow_le_mono_r; lia]).
  rewrite bin_index_val by (assumption || lia). f_equal.
  destruct (scaled_ok 64 (2 ^ k) x ltac:(lia) Hmm Hx) as (_ & E & _). rewrite E, rescale_64 by exact Hx. clear E.
  replace (IZR (Z.of_N (2 ^ k))) with (bpow radix2 (Z.of_N k)) by (rewrite N2Z.inj_pow; symmetry; apply IZR_pow2; lia).
  set (r := rnd (IZR (Z.of_N x))). assert (Fr : F64 r) by apply rnd_format.
  assert (Fu : F64 (r * bpow radix2 (-64))) by (unfold r; rewrite <- rescale_64 by exact Hx; apply dval_format).
  rewrite rnd_scale; [|lia|apply Rmult_le_pos; [rewrite <- (rnd_id 0 F64_0); apply rnd_mono, IZR_le; lia|apply bpow_ge_0]|].
  2:{ destruct (N.eq_dec x 0) as [Ex|Nx]; [left; unfold r; rewrite Ex; change (IZR (Z.of_N 0)) with 0; rewrite (rnd_id 0 F64_0); ring|right].
      assert (1 <= r) by (unfold r; rewrite <- (rnd_id 1 F64_1); apply rnd_mono, IZR_le; lia).
      apply Rle_trans with (1 * bpow radix2 (-64)); [rewrite Rmult_1_l; apply bpow_le; lia|apply Rmult_le_compat_r; [apply bpow_ge_0|assumption]]. }
  rewrite (rnd_id _ Fu). set (h := (2 ^ (64 - k))%N) in *. assert (H0 : (h <> 0)%N) by (apply N.pow_nonzero; lia).
  pose proof (N.div_mod x h H0) as D. pose proof (N.mod_upper_bound x h H0) as M. set (a := (x / h)%N) in *.
  assert (E2 : (2 ^ 64 = 2 ^ k * h)%N) by (unfold h; rewrite <- N.pow_add_r; f_equal; lia). unfold is_word in Hx.
  assert (Ha : (a < 2 ^ k)%N) by (apply N.div_lt_upper_bound; [exact H0|]; rewrite N.mul_comm, <- E2; exact Hx).
  assert (Hh : bpow radix2 (Z.of_N k) * (r * bpow radix2 (-64)) * IZR (Z.of_N h) = r).
  { unfold h. rewrite N2Z.inj_pow. change (Z.of_N 2) with 2%Z. rewrite IZR_pow2 by lia.
    replace (bpow radix2 (Z.of_N k) * (r * bpow radix2 (-64)) * bpow radix2 (Z.of_N (64 - k))) with (r * (bpow radix2 (Z.of_N k) * bpow radix2 (-64) * bpow radix2 (Z.of_N (64 - k)))) by ring.
    rewrite <- !bpow_plus. replace (Z.of_N k + -64 + Z.of_N (64 - k))%Z with 0%Z by lia. cbn [bpow]. ring. }
  assert (Hp : 0 < IZR (Z.of_N h)) by (apply IZR_lt; lia).
  assert (H11 : (exists h', h = 2048 * h')%N) by (exists (2 ^ (64 - k - 11))%N; unfold h; change 2048%N with (2 ^ 11)%N; rewrite <- N.pow_add_r; f_equal; lia).
  destruct H11 as (h' & H11). assert (Hu : (2 ^ k * h' = 2 ^ 53)%N) by (apply N.mul_cancel_r with 2048%N; [discriminate|]; change (2 ^ 53 * 2048)%N with (2 ^ 64)%N; rewrite E2, H11; ring).
  assert (Fl : Zfloor (bpow radix2 (Z.of_N k) * (r * bpow radix2 (-64))) = Z.of_N a).
  { apply Zfloor_imp. destruct (rnd_between (IZR (Z.of_N x)) (IZR (Z.of_N (a * h))) (IZR (Z.of_N ((a + 1) * h - 2048)))) as [L U].
    - replace (IZR (Z.of_N (a * h))) with (F2R (Float radix2 (Z.of_N (a * h')) 11)); [apply F64_F2R; [|lia]|].
      + change (2 ^ 53)%Z with (Z.of_N (2 ^ 53)). rewrite <- Hu. nia.
      + unfold F2R. cbn [Fnum Fexp]. change (bpow radix2 11) with (IZR 2048). rewrite <- mult_IZR. f_equal. rewrite H11. lia.
    - replace (IZR (Z.of_N ((a + 1) * h - 2048))) with (F2R (Float radix2 (Z.of_N ((a + 1) * h' - 1)) 11)); [apply F64_F2R; [|lia]|].
      + change (2 ^ 53)%Z with (Z.of_N (2 ^ 53)). rewrite <- Hu. nia.
      + unfold F2R. cbn [Fnum Fexp]. change (bpow radix2 11) with (IZR 2048). rewrite <- mult_IZR. f_equal. rewrite H11.
        assert (h' <> 0)%N by (intro Z0; rewrite Z0 in H11; lia). nia.
    - split; apply IZR_le; apply N2Z.inj_le; nia.
    - split.
      + apply Rmult_le_reg_r with (IZR (Z.of_N h)); [exact Hp|]. rewrite Hh. apply Rle_trans with (2 := L). rewrite <- mult_IZR. apply IZR_le. lia.
      + apply Rmult_lt_reg_r with (IZR (Z.of_N h)); [exact Hp|]. rewrite Hh. apply Rle_lt_trans with (1 := U). rewrite <- mult_IZR. apply IZR_lt. nia. }
  rewrite Fl, N2Z.id. lia.
Qed.

(* ---- bins ---- *)
Lemma bins_ok w m data : (0 < w <= 64)%N -> (1 <= m <= 2 ^ 53)%N -> Forall (is_word w) data ->
  exists h, bin_data_for_chi2 w m data = Ok h /\ N.of_nat (length h) = m /\ total h = N.of_nat (length data) /\
    forall i, (i < m)%N -> nth (N.to_nat i) h 0%N = count (fun x => match bin_index w m x with Ok j => (j =? i)%N | UB => false end) data.
Proof.
  intros Hw Hm Hd. set (key := fun x => match bin_index w m x with Ok j => N.to_nat j | UB => O end).
  assert (K : Forall (fun x => key x < N.to_nat m)%nat data).
  { eapply Forall_impl; [|exact Hd]. intros x Hx. unfold key. destruct (bin_index_lt w m x Hw Hm Hx) as (i & -> & Hi). lia. }
  exists (cells (N.to_nat m) (fun i => 0 + count (fun x => Nat.eqb (key x) i) data)%N). split; [|split; [|split]].
  - unfold bin_data_for_chi2. rewrite cells_zero. apply (inc_loop key); [|exact K].
    intros h x Hx. rewrite Forall_forall in Hd. unfold key. destruct (bin_index_lt w m x Hw Hm (Hd x Hx)) as (i & -> & Hi). reflexivity.
  - rewrite cells_length. lia.
  - rewrite <- (total_cells_count key (N.to_nat m) data K). f_equal.
  - intros i Hi. rewrite cells_nth by lia. rewrite N.add_0_l. unfold count. f_equal. f_equal. apply filter_ext_in. intros x Hx. rewrite Forall_forall in Hd.
    unfold key. destruct (bin_index_lt w m x Hw Hm (Hd x Hx)) as (j & -> & Hj). destruct (N.eqb_spec j i) as [->|Hn]; [apply Nat.eqb_refl|apply Nat.eqb_neq; lia].
Qed.

(* ---- merge_bins ---- *)
(* a non-negative double, possibly infinite *)
Definition nonneg (x : double) : Prop := (fin x /\ 0 <= dval x) \/ x = B754_infinity false.
Lemma dadd_cases x y : fin x -> fin y -> 0 <= dval x -> 0 <= dval y ->
  (fin (dadd x y) /\ dval (dadd x y) = rnd (dval x + dval y)) \/ dadd x y = B754_infinity false.
Proof.
  intros Fx Fy Hx Hy. pose proof (Bplus_correct 53 1024 _ _ mode_NE x y Fx Fy) as H. cbn [round_mode] in H.
  change (round radix2 (SpecFloat.fexp 53 1024) ZnearestE (B2R x + B2R y)) with (rnd (dval x + dval y)) in H.
  destruct (Rlt_bool (Rabs (rnd (dval x + dval y))) (bpow radix2 1024)) eqn:E.
  - left. split; apply H.
  - right. destruct H as [H S]. unfold dadd.
    assert (Sx : Bsign x = false).
    { destruct (Bsign x) eqn:Q; [|reflexivity]. exfalso. clear H.
      (* both values would be zero *)
      assert (Z : forall z : double, fin z -> Bsign z = true -> dval z <= 0).
      { intros [s|s| |s m e B]; cbn; intros Fz Sz; try discriminate; try lra. subst s. unfold dval, B2R. apply F2R_le_0. cbn. lia. }
      pose proof (Z x Fx Q). pose proof (Z y Fy (eq_sym S)). replace (dval x + dval y) with 0 in E by lra. rewrite (rnd_id 0 F64_0), Rabs_R0, Rlt_bool_true in E by apply bpow_gt_0. discriminate. }
    rewrite Sx in H. apply B2SF_inj. rewrite H. reflexivity.
Qed.
Lemma dadd_nonneg x y : nonneg x -> nonneg y -> nonneg (dadd x y).
Proof.
  intros [[Fx Hx]| ->] [[Fy Hy]| ->].
  - destruct (dadd_cases x y Fx Fy Hx Hy) as [[F E]| ->]; [left|right; reflexivity]. split; [exact F|]. rewrite E, <- (rnd_id 0 F64_0). apply rnd_mono. lra.
  - right. destruct x; try discriminate; reflexivity.
  - right. destruct y; try discriminate; reflexivity.
  - right. reflexivity.
Qed.
Lemma dadd_keeps_ge t x y : nonneg x -> nonneg y -> dle t x = true -> dle t (dadd x y) = true.
Proof.
  intros Nx Ny H. assert (I : forall t : double, dle t x = true -> dle t (B754_infinity false) = true).
  { intros [s|[|]| |s m e B]; try reflexivity. destruct x as [?|[|]| |? ? ? ?]; discriminate. }
  destruct Nx as [[Fx Hx]| ->].
  - destruct Ny as [[Fy Hy]| ->].
    + destruct (dadd_cases x y Fx Fy Hx Hy) as [[F E]| ->]; [|apply I; exact H].
      destruct t as [s|[|]| |s m e B] eqn:Et; [| | | |]; try discriminate.
      * apply dle_iff; [reflexivity|exact F|]. apply dle_iff in H; [|reflexivity|exact Fx]. rewrite E. apply Rle_trans with (1 := H). rewrite <- (rnd_id (dval x)) at 1 by apply dval_format. apply rnd_mono. lra.
      * unfold fin in F. destruct (dadd x y); try discriminate F; reflexivity.
      * destruct x; discriminate.
      * apply dle_iff; [reflexivity|exact F|]. apply dle_iff in H; [|reflexivity|exact Fx]. rewrite E. apply Rle_trans with (1 := H). rewrite <- (rnd_id (dval x)) at 1 by apply dval_format. apply rnd_mono. lra.
    + replace (dadd x (B754_infinity false)) with (B754_infinity false : double) by (destruct x; try discriminate; reflexivity). apply I, H.
  - replace (dadd (B754_infinity false) y) with (B754_infinity false : double); [exact H|]. destruct Ny as [[Fy _]| ->]; [destruct y; try discriminate; reflexivity|reflexivity].
Qed.
Lemma total_app a b : total (a ++ b) = (total a + total b)%N.
Proof. unfold total. rewrite fold_right_app. induction a as [|x a IH]; cbn [app fold_right]; [reflexivity|]. rewrite IH. apply N.add_assoc. Qed.
Lemma group_expected_snoc g x : group_expected (g ++ [x]) = dadd (group_expected g) (snd x).
Proof. unfold group_expected. rewrite map_app, fold_left_app. reflexivity. Qed.
Lemma wrap_add_l a b : wrap 64 (wrap 64 a + b) = wrap 64 (a + b).
Proof. unfold wrap. rewrite N.add_mod_idemp_l by discriminate. reflexivity. Qed.
Lemma wrap_add_r a b : wrap 64 (a + wrap 64 b) = wrap 64 (a + b).
Proof. unfold wrap. rewrite N.add_mod_idemp_r by discriminate. reflexivity. Qed.
Definition closes (t : double) (g : list (N * double)) : bool := dle t (group_expected g).
Lemma merge_fold t data : forall cur ro re,
  fold_left (merge_step t) data (ro, re, wrap 64 (group_observed cur), group_expected cur) =
  let (segs, rest) := cut (closes t) data cur in
  (rev (map (fun g => wrap 64 (group_observed g)) segs) ++ ro, rev (map group_expected segs) ++ re, wrap 64 (group_observed rest), group_expected rest).
Proof.
  induction data as [|x d IH]; intros cur ro re; [reflexivity|]. cbn [fold_left cut]. unfold merge_step at 2.
  rewrite wrap_add_l. rewrite <- (group_expected_snoc cur x).
  assert (Eo : (group_observed cur + fst x)%N = group_observed (cur ++ [x])) by (unfold group_observed; rewrite map_app, total_app; cbn [map total fold_right]; f_equal; symmetry; apply N.add_0_r).
  rewrite Eo. fold (closes t (cur ++ [x])). destruct (closes t (cur ++ [x])).
  - specialize (IH [] (wrap 64 (group_observed (cur ++ [x])) :: ro) (group_expected (cur ++ [x]) :: re)).
    change (wrap 64 (group_observed [])) with 0%N in IH. change (group_expected []) with d0 in IH. rewrite IH.
    destruct (cut (closes t) d []) as [segs rest]. cbn [map rev]. rewrite <- !app_assoc. reflexivity.
  - apply IH.
Qed.
Lemma merge_ok observed expected t : length observed = length expected -> dlt d0 t = true ->
  exists segs rest, cut_into (reaches t) (combine observed expected) segs rest /\
    (segs = [] -> merge_bins observed expected t = Ok ([], [])) /\
    (forall init last, segs = init ++ [last] ->
      merge_bins observed expected t = Ok (map (fun g => wrap 64 (group_observed g)) init ++ [wrap 64 (group_observed last + group_observed rest)],
                                           map group_expected init ++ [dadd (group_expected last) (group_expected rest)])).
Proof.
  intros Hl Ht. assert (C0 : closes t [] = false).
  { unfold closes. change (group_expected []) with d0. unfold dlt, dle, Bltb, Bleb, SpecFloat.SFltb, SpecFloat.SFleb in *.
    destruct t as [s|[|]| |[|] m e B]; try discriminate; try reflexivity. }
  assert (N0 : no_prefix (closes t) []) by (intros p s Hp; symmetry in Hp; apply app_eq_nil in Hp; destruct Hp as [-> _]; exact C0).
  pose proof (cut_ok (closes t) C0 (combine observed expected) [] N0) as C. cbn [app] in C.
  pose proof (merge_fold t (combine observed expected) [] [] []) as M. change (wrap 64 (group_observed [])) with 0%N in M. change (group_expected []) with d0 in M.
  destruct (cut (closes t) (combine observed expected) []) as [segs rest]. exists segs, rest. split; [exact C|].
  unfold merge_bins. rewrite Hl, Nat.ltb_irrefl, M, !app_nil_r. split.
  - intros ->. reflexivity.
  - intros init last ->. rewrite !map_app, !rev_app_distr. cbn [map rev app]. rewrite !rev_involutive. rewrite wrap_add_l, wrap_add_r. reflexivity.
Qed.
Lemma group_nonneg g : Forall (fun x => nonneg (snd x)) g -> nonneg (group_expected g).
Proof.
  intros H. unfold group_expected. assert (G : forall a, nonneg a -> nonneg (fold_left dadd (map snd g) a)).
  { induction H as [|x g Hx H IH]; intros a Ha; [exact Ha|]. cbn [map fold_left]. apply IH, dadd_nonneg; assumption. }
  apply G. left. split; [reflexivity|]. cbn. lra.
Qed.
Lemma combine_fst {A B} (a : list A) (b : list B) : length a = length b -> map fst (combine a b) = a.
Proof. revert b. induction a as [|x a IH]; intros [|y b] H; cbn in *; try discriminate; [reflexivity|]. f_equal. apply IH. lia. Qed.
Lemma combine_snd {A B} (a : list A) (b : list B) : length a = length b -> map snd (combine a b) = b.
Proof. revert b. induction a as [|x a IH]; intros [|y b] H; cbn in *; try discriminate; [reflexivity|]. f_equal. apply IH. lia. Qed.
Lemma total_wrap {A} (f : A -> N) l : wrap 64 (total (map (fun g => wrap 64 (f g)) l)) = wrap 64 (total (map f l)).
Proof. induction l as [|a l IH]; [reflexivity|]. cbn [map total fold_right]. fold (total (map (fun g => wrap 64 (f g)) l)) (total (map f l)). rewrite wrap_add_l, <- wrap_add_r, IH, wrap_add_r. reflexivity. Qed.
Lemma total_concat (gs : list (list (N * double))) : group_observed (concat gs) = total (map group_observed gs).
Proof. induction gs as [|g gs IH]; [reflexivity|]. cbn [concat map]. unfold group_observed at 1. rewrite map_app, total_app. cbn [total fold_right]. f_equal. exact IH. Qed.
(* what follows for the totals *)
Lemma merge_totals observed expected t : length observed = length expected -> dlt d0 t = true -> Forall nonneg expected ->
  exists os es, merge_bins observed expected t = Ok (os, es) /\ length os = length es /\ Forall (fun e => dle t e = true) es /\
    (os <> [] -> wrap 64 (total os) = wrap 64 (total observed)) /\
    (os = [] <-> forall p s, combine observed expected = p ++ s -> ~ reaches t p).
Proof.
  intros Hl Ht Hn. destruct (merge_ok observed expected t Hl Ht) as (segs & rest & C & M0 & M1).
  destruct C as (C1 & C2 & C3).
  assert (Hn' : Forall (fun x => nonneg (snd x)) (combine observed expected)) by (apply (proj1 (Forall_map snd nonneg _)); rewrite combine_snd; assumption).
  destruct segs as [|last init _] using rev_ind.
  - exists [], []. split; [apply M0; reflexivity|]. split; [reflexivity|]. split; [constructor|]. split; [congruence|]. split; [|reflexivity]. intros _. cbn [concat app] in C1. rewrite C1. exact C3.
  - eexists _, _. split; [apply M1; reflexivity|]. split; [rewrite !app_length, !map_length; reflexivity|]. split; [|split].
    + apply Forall_app in C2. destruct C2 as [C2 C2l]. apply Forall_app. split.
      * apply Forall_map. eapply Forall_impl; [|exact C2]. intros g [Hg _]. exact Hg.
      * constructor; [|constructor]. pose proof (Forall_inv C2l) as [Hg _]. rewrite C1, concat_app in Hn'. cbn [concat] in Hn'. rewrite app_nil_r in Hn'. apply Forall_app in Hn'. destruct Hn' as [Hn1 Hn2]. apply Forall_app in Hn1.
        apply dadd_keeps_ge; [apply group_nonneg, Hn1|apply group_nonneg, Hn2|exact Hg].
    + intros _. rewrite total_app. cbn [total fold_right]. rewrite N.add_0_r, wrap_add_r, <- wrap_add_l, total_wrap, wrap_add_l.
      rewrite <- (combine_fst observed expected Hl). change (total (map fst (combine observed expected))) with (group_observed (combine observed expected)).
      rewrite C1. unfold group_observed at 4. rewrite map_app, total_app. change (total (map fst (concat (init ++ [last])))) with (group_observed (concat (init ++ [last]))).
      rewrite total_concat, map_app, total_app. cbn [map total fold_right]. rewrite N.add_0_r. rewrite N.add_assoc. reflexivity.
    + split; [intro Q; destruct (map (fun g => wrap 64 (group_observed g)) init); discriminate|].
      intros Q. exfalso. destruct init as [|g0 init].
      * cbn [concat app] in C1. rewrite app_nil_r in C1. apply (Q last rest C1). pose proof (Forall_inv C2) as [Hg _]. exact Hg.
      * cbn [concat app] in C1. rewrite <- app_assoc in C1. apply (Q g0 _ C1). pose proof (Forall_inv C2) as [Hg _]. exact Hg.
Qed.
(* expected counts that are multiples of a common power of two and not too large are added exactly *)
Definition units (e : Z) (x : double) (n : N) : Prop := fin x /\ dval x = IZR (Z.of_N n) * bpow radix2 e.
Lemma dadd_units e x y a b : (-1074 <= e <= 960)%Z -> units e x a -> units e y b -> (a + b <= 2 ^ 53)%N -> units e (dadd x y) (a + b).
Proof.
  intros He [Fx Ex] [Fy Ey] Hab.
  assert (S : dval x + dval y = F2R (Float radix2 (Z.of_N (a + b)) e)) by (unfold F2R; cbn [Fnum Fexp]; rewrite Ex, Ey, N2Z.inj_add, plus_IZR; ring).
  assert (B : (Z.of_N (a + b) <= 2 ^ 53)%Z) by (change (2 ^ 53)%Z with (Z.of_N (2 ^ 53)); apply N2Z.inj_le, Hab).
  assert (FF : F64 (dval x + dval y)) by (rewrite S; apply F64_F2R; lia).
  destruct (dadd_ok x y Fx Fy) as [E F].
  - rewrite S. apply (small_bpow _ (53 + e)); [lia|]. unfold F2R. cbn [Fnum Fexp]. rewrite Rabs_mult, (Rabs_pos_eq (bpow radix2 e)) by apply bpow_ge_0.
    rewrite bpow_plus. apply Rmult_le_compat_r; [apply bpow_ge_0|]. rewrite <- IZR_pow2 by lia. rewrite Rabs_pos_eq by (apply IZR_le; lia). apply IZR_le, B.
  - split; [exact F|]. rewrite E, rnd_id by exact FF. rewrite S. reflexivity.
Qed.
Lemma group_units e g : (-1074 <= e <= 960)%Z -> forall ns, Forall2 (units e) (map snd g) ns -> (total ns <= 2 ^ 53)%N -> units e (group_expected g) (total ns).
Proof.
  intros He ns H. unfold group_expected.
  assert (G : forall a n, units e a n -> (n + total ns <= 2 ^ 53)%N -> units e (fold_left dadd (map snd g) a) (n + total ns)).
  { induction H as [|x n l ns Hx H IH]; intros a m Ha Hm; cbn [fold_left total fold_right] in *; [rewrite N.add_0_r; exact Ha|].
    fold (total ns) in *. rewrite N.add_assoc. apply IH; [|lia]. apply dadd_units; [exact He|exact Ha|exact Hx|lia]. }
  intros Ht. apply (G d0 0%N); [|exact Ht]. split; [reflexivity|]. cbn. rewrite Rmult_0_l. reflexivity.
Qed.
Definition dsum_exact (l : list double) : R := fold_right (fun x a => dval x + a) 0 l.
Lemma units_sum e l ns : Forall2 (units e) l ns -> dsum_exact l = IZR (Z.of_N (total ns)) * bpow radix2 e.
Proof.
  induction 1 as [|x n l ns [_ Ex] H IH]; cbn [dsum_exact total fold_right]; [cbn; ring|]. fold (dsum_exact l) (total ns). rewrite IH, Ex, N2Z.inj_add, plus_IZR. ring.
Qed.
Lemma Forall2_app_split {A B} (Rl : A -> B -> Prop) l1 l2 m : Forall2 Rl (l1 ++ l2) m -> exists m1 m2, m = m1 ++ m2 /\ Forall2 Rl l1 m1 /\ Forall2 Rl l2 m2.
Proof. intros H. apply Forall2_app_inv_l in H. destruct H as (m1 & m2 & H1 & H2 & E). eauto. Qed.
Lemma merge_mass observed expected t e ns : length observed = length expected -> dlt d0 t = true -> (-1074 <= e <= 960)%Z ->
  Forall2 (units e) expected ns -> (total ns <= 2 ^ 53)%N ->
  forall os es, merge_bins observed expected t = Ok (os, es) -> os <> [] -> dsum_exact es = dsum_exact expected.
Proof.
  intros Hl Ht He HU Hs os es M Hne. destruct (merge_ok observed expected t Hl Ht) as (segs & rest & (C1 & _ & _) & M0 & M1).
  destruct segs as [|last init _] using rev_ind; [rewrite M0 in M by reflexivity; injection M as <- <-; congruence|].
  rewrite (M1 init last eq_refl) in M. injection M as _ <-. rewrite (units_sum e _ _ HU).
  rewrite <- (combine_snd observed expected Hl), C1, map_app in HU. apply Forall2_app_split in HU. destruct HU as (n1 & nr & -> & HU & HR).
  rewrite concat_app, map_app in HU. apply Forall2_app_split in HU. destruct HU as (ni & nl & -> & HI & HL). cbn [concat] in HL. rewrite app_nil_r in HL.
  rewrite !total_app in *.
  assert (UL : units e (group_expected last) (total nl)) by (apply group_units; [exact He|exact HL|lia]).
  assert (UR : units e (group_expected rest) (total nr)) by (apply group_units; [exact He|exact HR|lia]).
  destruct (dadd_units e _ _ _ _ He UL UR ltac:(lia)) as [_ EL].
  assert (EI : forall ns', Forall2 (units e) (map snd (concat init)) ns' -> (total ns' <= 2 ^ 53)%N -> dsum_exact (map group_expected init) = IZR (Z.of_N (total ns')) * bpow radix2 e).
  { clear - He. induction init as [|g init IH]; intros ns' H Hs'; [inversion H; subst; cbn; ring|]. cbn [concat] in H. rewrite map_app in H. apply Forall2_app_split in H. destruct H as (a & b & -> & Ha & Hb).
    rewrite total_app in *. cbn [map dsum_exact fold_right]. fold (dsum_exact (map group_expected init)). rewrite (IH b Hb) by lia.
    destruct (group_units e g He a Ha ltac:(lia)) as [_ ->]. rewrite N2Z.inj_add, plus_IZR. ring. }
  assert (SA : forall a b, dsum_exact (a ++ b) = dsum_exact a + dsum_exact b).
  { intros a b. induction a as [|x a IH]; [change (dsum_exact b = 0 + dsum_exact b); ring|]. change (dval x + dsum_exact (a ++ b) = dval x + dsum_exact a + dsum_exact b). rewrite IH. ring. }
  rewrite SA, (EI ni HI) by lia. cbn [dsum_exact fold_right]. rewrite EL, !N2Z.inj_add, !plus_IZR. ring.
Qed.

(* ---- chi2_stats ---- *)
Section Chi2.
Variables (cdf : double -> double -> double) (observed expected : nat -> double) (threshold : double).
Definition included (i : nat) : bool := negb (dle (expected i) threshold).
Lemma chi2_df l : forall c d m, units 0 d m -> (m + N.of_nat (length l) <= 2 ^ 53)%N ->
  units 0 (snd (fold_left (chi2_step observed expected threshold) l (c, d))) (m + count included l).
Proof.
  induction l as [|i l IH]; intros c d m Hd Hm; cbn [fold_left].
  - unfold count; cbn [filter length N.of_nat snd]. rewrite N.add_0_r. exact Hd.
  - cbn [length] in Hm. unfold chi2_step at 2. unfold count. cbn [filter]. unfold included at 1. destruct (dle (expected i) threshold); cbn [negb].
    + apply IH; [exact Hd|lia].
    + cbn [length]. replace (m + N.of_nat (S (length (filter included l))))%N with (m + 1 + count included l)%N by (unfold count; lia). apply IH; [|lia].
      apply dadd_units; [lia|exact Hd| |lia]. destruct d1_val as [E F]. split; [exact F|]. rewrite E. cbn. ring.
Qed.
Lemma chi2_stats_ok n : (N.of_nat n <= 2 ^ 53)%N -> let k := count included (seq 0 n) in
  ((k <= 1)%N -> chi2_stats cdf n observed expected threshold = None) /\
  ((2 <= k)%N -> exists v df, chi2_stats cdf n observed expected threshold = Some (mkstat Chi2 v (cdf v df) df) /\
     v = fst (fold_left (chi2_step observed expected threshold) (seq 0 n) (d0, d0)) /\ units 0 df (k - 1)).
Proof.
  intros Hn k. unfold chi2_stats. pose proof (chi2_df (seq 0 n) d0 d0 0%N) as H. rewrite seq_length, !N.add_0_l in H. fold k in H.
  assert (U0 : units 0 d0 0) by (split; [reflexivity|cbn; ring]). specialize (H U0 Hn).
  destruct (fold_left (chi2_step observed expected threshold) (seq 0 n) (d0, d0)) as [v d]. cbn [fst snd] in *. destruct H as [Fd Ed].
  assert (Hk : (k <= N.of_nat n)%N) by (unfold k; rewrite <- (seq_length n 0) at 2; apply count_le).
  assert (KB : (Z.of_N k <= 2 ^ 53)%Z) by (change (2 ^ 53)%Z with (Z.of_N (2 ^ 53)); apply N2Z.inj_le; lia).
  change (bpow radix2 0) with 1 in Ed. rewrite Rmult_1_r in Ed. destruct d1_val as [E1 F1]. destruct d0_val as [E0 F0].
  destruct (dsub_ok d d1 Fd F1) as [Es Fs].
  { rewrite Ed, E1. apply (small_bpow _ 54); [lia|]. rewrite <- minus_IZR, <- abs_IZR, <- IZR_pow2 by lia. apply IZR_le. change (2 ^ 54)%Z with (2 * 2 ^ 53)%Z. lia. }
  rewrite Ed, E1, <- minus_IZR, rnd_id in Es by (apply F64_Z; lia).
  destruct (dmax_val (dsub d d1) d0 Fs F0) as [Em Fm]. rewrite Es, E0 in Em. set (df := dmax (dsub d d1) d0) in *.
  assert (Edf : dval df = IZR (Z.of_N (k - 1))).
  { rewrite Em. destruct (Z_le_gt_dec 1 (Z.of_N k)); [rewrite Rmax_left; [f_equal; lia|apply IZR_le; lia]|rewrite Rmax_right; [f_equal; lia|apply IZR_le; lia]]. }
  unfold is_near, is_near_eps. set (eps := dconst 4722366482869645 (-72)).
  assert (He : fin eps /\ 0 < dval eps < 1).
  { split; [vm_compute; reflexivity|]. split.
    - rewrite <- E0. apply dlt_iff; vm_compute; reflexivity.
    - rewrite <- E1. apply dlt_iff; vm_compute; reflexivity. }
  destruct He as (Fe & He). destruct (dsub_ok df d0 Fm F0) as [E2 F2].
  { rewrite Edf, E0, Rminus_0_r. apply (small_bpow _ 53); [lia|]. rewrite <- abs_IZR, <- IZR_pow2 by lia. apply IZR_le. lia. }
  rewrite Edf, E0, Rminus_0_r, rnd_id in E2 by (apply F64_Z; lia).
  assert (EA : dval (dabs (dsub df d0)) = IZR (Z.of_N (k - 1))) by (rewrite dabs_val, E2, Rabs_pos_eq; [reflexivity|apply IZR_le; lia]).
  pose proof (dabs_fin _ F2) as FA. split; intro Hk1.
  - replace (dle (dabs (dsub df d0)) eps) with true; [reflexivity|]. symmetry. apply dle_iff; [exact FA|exact Fe|]. rewrite EA. replace (k - 1)%N with 0%N by lia. change (IZR (Z.of_N 0)) with 0. lra.
  - replace (dle (dabs (dsub df d0)) eps) with false.
    + exists v, df. split; [reflexivity|]. split; [reflexivity|]. split; [exact Fm|]. rewrite Edf. cbn [bpow]. ring.
    + symmetry. apply dle_false; [exact FA|exact Fe|]. rewrite EA. assert (1 <= IZR (Z.of_N (k - 1))) by (apply IZR_le; lia). lra.
Qed.
End Chi2.
(* a perfect fit has the value 0 *)
Lemma dsub_self x : fin x -> dsub x x = d0.
Proof.
  intros F. destruct (dsub_ok x x F F) as [E Fs]; [unfold small; rewrite Rminus_diag_eq, Rabs_R0 by reflexivity; apply bpow_ge_0|].
  rewrite Rminus_diag_eq, (rnd_id 0 F64_0) in E by reflexivity. 
  pose proof (Bminus_correct 53 1024 _ _ mode_NE x x F F) as H. cbn [round_mode] in H. rewrite Rminus_diag_eq, round_0, Rabs_R0, Rlt_bool_true in H by (reflexivity || apply bpow_gt_0 || typeclasses eauto).
  destruct H as (_ & _ & S). rewrite Rcompare_Eq in S by reflexivity. apply dval_inj_pos; [exact Fs|reflexivity|exact E|].
  change (Bsign (dsub x x)) with (Bsign (Bminus mode_NE x x)). rewrite S. destruct (Bsign x); reflexivity.
Qed.
Lemma chi2_perfect observed expected threshold : (forall i, fin (expected i)) -> (forall i, dlt d0 (expected i) = true) -> (forall i, observed i = expected i) ->
  forall l d, fst (fold_left (chi2_step observed expected threshold) l (d0, d)) = d0.
Proof.
  intros Fe Pe Eq. induction l as [|i l IH]; intro d; [reflexivity|]. cbn [fold_left]. unfold chi2_step at 2. destruct (dle (expected i) threshold); [apply IH|].
  rewrite Eq, dsub_self by apply Fe. change (dmul d0 d0) with d0.
  replace (ddiv d0 (expected i)) with d0; [apply IH|]. specialize (Pe i). specialize (Fe i). unfold dlt, Bltb, SpecFloat.SFltb in Pe. destruct (expected i) as [s|s| |[|] m e B]; try discriminate; reflexivity.
Qed.
