From Coq Require Import String Reals Lra Permutation Sorted.
From Verif Require Import Base FloatModel FloatLemmas ResultModel ResultSpec ResultProofs.
Open Scope R_scope.

Lemma valid01_fin x : valid01 x -> fin x. Proof. intros [H _]; exact H. Qed.

Lemma small_1 a : Rabs a <= 1 -> small a.
Proof. intros H. apply (small_bpow _ 0); [lia|exact H]. Qed.
Lemma small_pow2 a k : (0 <= k <= 1000)%Z -> Rabs a <= bpow radix2 k -> small a.
Proof. intros H. apply small_bpow. lia. Qed.

(* ---------- comparable p ---------- *)
Lemma one_minus x : valid01 x -> valid01 (dsub d1 x).
Proof.
  intros [Hf Hx]. destruct d1_val as [V1 F1].
  destruct (dsub_ok d1 x F1 Hf) as [V F].
  { apply small_1. rewrite V1. apply Rabs_le. lra. }
  split; [exact F|]. rewrite V, V1. apply rnd_between; [apply F64_0|apply F64_1|lra].
Qed.
Lemma comparable_ok s : valid_stat s -> dval (get_comparable_p_value s) = two_sided s /\ valid01 (get_comparable_p_value s).
Proof.
  intros Hs. unfold get_comparable_p_value, two_sided.
  assert (G : dval (dmin (st_p s) (dsub d1 (st_p s))) = Rmin (dval (st_p s)) (dval (dsub d1 (st_p s))) /\ valid01 (dmin (st_p s) (dsub d1 (st_p s)))).
  { pose proof (one_minus _ Hs) as Hm. destruct (dmin_val (st_p s) (dsub d1 (st_p s))) as [V F]; [apply Hs|apply Hm|].
    split; [exact V|]. split; [exact F|]. rewrite V. destruct Hs as [_ Hs], Hm as [_ Hm]. unfold Rmin. destruct (Rle_dec _ _); lra. }
  destruct (st_type s); try exact G. split; [reflexivity|exact Hs].
Qed.
Lemma comparable_fin s : valid_stat s -> fin (get_comparable_p_value s).
Proof. intros H. apply (comparable_ok s H). Qed.

Lemma comparable_val s : valid_stat s -> dval (get_comparable_p_value s) = two_sided s.
Proof. intros H. apply (comparable_ok s H). Qed.

(* ---------- worst result ---------- *)
Definition trp (r : test_result) : R := two_sided (tr_stats r).
Lemma worst_fold rs : Forall (fun r => valid_stat (tr_stats r)) rs ->
  match fold_left worst_step rs None with
  | None => rs = []
  | Some w => exists l1 l2, rs = l1 ++ w :: l2 /\ Forall (fun r => trp w < trp r) l1 /\ Forall (fun r => trp w <= trp r) l2
  end.
Proof.
  induction rs as [|r rs IH] using rev_ind; intros Hv; [reflexivity|].
  apply Forall_app in Hv. destruct Hv as [Hv Hr]. apply Forall_inv in Hr. specialize (IH Hv).
  rewrite fold_left_app. cbn [fold_left]. destruct (fold_left worst_step rs None) as [w|].
  - destruct IH as (l1 & l2 & E & F1 & F2). unfold worst_step.
    assert (Hw : valid_stat (tr_stats w)) by (subst rs; apply Forall_app in Hv; destruct Hv as [_ Hv]; apply Forall_inv in Hv; exact Hv).
    destruct (dlt (p_of r) (p_of w)) eqn:El.
    + apply dlt_iff in El; [|apply comparable_fin; assumption|apply comparable_fin; assumption].
      unfold p_of in El. rewrite (comparable_val _ Hr), (comparable_val _ Hw) in El. fold (trp r) (trp w) in El.
      exists rs, []. split; [reflexivity|]. split; [|constructor]. subst rs.
      apply Forall_app. split; [eapply Forall_impl; [|exact F1]; cbn; intros; lra|].
      constructor; [exact El|]. eapply Forall_impl; [|exact F2]; cbn; intros; lra.
    + apply dlt_false in El; [|apply comparable_fin; assumption|apply comparable_fin; assumption].
      unfold p_of in El. rewrite (comparable_val _ Hr), (comparable_val _ Hw) in El. fold (trp r) (trp w) in El.
      exists l1, (l2 ++ [r]). split; [subst rs; rewrite <- app_assoc; reflexivity|]. split; [exact F1|].
      apply Forall_app. split; [exact F2|]. constructor; [exact El|constructor].
  - subst rs. cbn. exists [], []. repeat constructor.
Qed.
Lemma worst_first_min rs w : Forall (fun r => valid_stat (tr_stats r)) rs -> get_worst_result rs = Ok w ->
  exists l1 l2, rs = l1 ++ w :: l2 /\ Forall (fun r => trp w < trp r) l1 /\ Forall (fun r => trp w <= trp r) l2.
Proof.
  intros Hv H. pose proof (worst_fold rs Hv) as G. unfold get_worst_result in H.
  destruct (fold_left worst_step rs None); [injection H as ->; exact G|discriminate].
Qed.
Lemma worst_defined rs : Forall (fun r => valid_stat (tr_stats r)) rs -> rs <> [] -> exists w, get_worst_result rs = Ok w.
Proof.
  intros Hv Hn. pose proof (worst_fold rs Hv) as G. unfold get_worst_result.
  destruct (fold_left worst_step rs None); [eauto|contradiction].
Qed.
Lemma worst_empty : get_worst_result [] = UB. Proof. reflexivity. Qed.
Lemma worst_is_min rs w : Forall (fun r => valid_stat (tr_stats r)) rs -> get_worst_result rs = Ok w ->
  In w rs /\ forall r, In r rs -> trp w <= trp r.
Proof.
  intros Hv H. destruct (worst_first_min rs w Hv H) as (l1 & l2 & -> & F1 & F2). split; [apply in_elt|].
  rewrite Forall_forall in F1, F2. intros r Hr. apply in_app_iff in Hr. destruct Hr as [Hr|[<-|Hr]]; [apply F1 in Hr; lra|lra|apply F2, Hr].
Qed.

(* ---------- Kolmogorov-Smirnov ---------- *)
Lemma sorted_perm_unique (l l' : list R) : Permutation l l' -> StronglySorted Rle l -> StronglySorted Rle l' -> l = l'.
Proof.
  revert l'; induction l as [|a l IH]; intros l' HP H1 H2.
  - apply Permutation_nil in HP. auto.
  - destruct l' as [|b l']; [apply Permutation_sym, Permutation_nil in HP; discriminate|].
    apply StronglySorted_inv in H1, H2. destruct H1 as [S1 F1], H2 as [S2 F2].
    assert (a = b) as <-.
    { rewrite Forall_forall in F1, F2.
      assert (Ha : In a (b :: l')) by (eapply Permutation_in; [exact HP|left; reflexivity]).
      assert (Hb : In b (a :: l)) by (eapply Permutation_in; [apply Permutation_sym, HP|left; reflexivity]).
      destruct Ha as [E|Ha]; [congruence|]. destruct Hb as [E|Hb]; [congruence|].
      apply F2 in Ha. apply F1 in Hb. lra. }
    f_equal. apply IH; [eapply Permutation_cons_inv, HP|exact S1|exact S2].
Qed.
Lemma sort_vals sort l : sorts finite_double dlt sort -> Forall fin l ->
  StronglySorted Rle (map dval (sort l)) /\ Permutation l (sort l) /\ Forall fin (sort l).
Proof.
  intros Hs Hf. destruct (Hs l Hf) as [HP HS].
  assert (Hf' : Forall fin (sort l)) by (eapply Permutation_Forall; eassumption).
  split; [|split; assumption]. clear HP. induction HS as [|a m HS IH HF]; cbn; constructor.
  - apply IH. apply Forall_inv_tail in Hf'. exact Hf'.
  - apply Forall_map. rewrite Forall_forall in *. intros b Hb.
    apply dlt_false; [apply Hf'; right; exact Hb|apply Hf'; left; reflexivity|apply HF, Hb].
Qed.

(* fractions i/n computed in double precision *)
Definition frac (n i : N) : double := ddiv (double_of_N i) (double_of_N n).
Lemma rnd_N_le a b : (a <= b)%N -> rnd (IZR (Z.of_N a)) <= rnd (IZR (Z.of_N b)).
Proof. intros H. apply rnd_mono, IZR_le, N2Z.inj_le, H. Qed.
Lemma rnd_N_pos n : (1 <= n)%N -> 1 <= rnd (IZR (Z.of_N n)).
Proof. intros H. rewrite <- (rnd_id 1 F64_1). apply rnd_mono, (IZR_le 1). lia. Qed.
Lemma frac_ok n i : (1 <= n < 2 ^ 64)%N -> (i <= n)%N ->
  valid01 (frac n i) /\ dval (frac n i) = rnd (rnd (IZR (Z.of_N i)) / rnd (IZR (Z.of_N n))).
Proof.
  intros [H1 H2] Hi.
  destruct (double_of_N_ok n H2) as [Vn Fn]. destruct (double_of_N_ok i ltac:(eapply N.le_lt_trans; eassumption)) as [Vi Fi].
  pose proof (rnd_N_pos n H1) as Pn. pose proof (rnd_N_le i n Hi) as Le.
  assert (P0 : 0 <= rnd (IZR (Z.of_N i))) by (rewrite <- (rnd_id 0 F64_0); apply rnd_mono, IZR_le, N2Z.is_nonneg).
  assert (Q : 0 <= rnd (IZR (Z.of_N i)) / rnd (IZR (Z.of_N n)) <= 1).
  { split; [apply Rmult_le_pos; [exact P0|apply Rlt_le, Rinv_0_lt_compat; lra]|].
    apply (Rmult_le_reg_r (rnd (IZR (Z.of_N n)))); [lra|]. unfold Rdiv. rewrite Rmult_assoc, Rinv_l by lra. lra. }
  destruct (ddiv_ok (double_of_N i) (double_of_N n) Fi) as [V F].
  - rewrite Vn. lra.
  - apply small_1. rewrite Vn, Vi. apply Rabs_le. lra.
  - rewrite Vn, Vi in V. split; [|exact V]. split; [exact F|]. unfold frac. rewrite V.
    apply rnd_between; [apply F64_0|apply F64_1|exact Q].
Qed.

(* |e - d| for e, d in [0,1] *)
Lemma dist_ok e d : valid01 e -> valid01 d ->
  valid01 (dabs (dsub e d)) /\ dval (dabs (dsub e d)) = Rabs (rnd (dval e - dval d)).
Proof.
  intros [Fe He] [Fd Hd]. destruct (dsub_ok e d Fe Fd) as [V F].
  { apply small_1. apply Rabs_le. lra. }
  split; [|rewrite dabs_val, V; reflexivity]. split; [apply dabs_fin, F|]. rewrite dabs_val, V.
  split; [apply Rabs_pos|]. apply Rabs_le. apply rnd_between; [apply (F64_opp 1 F64_1)|apply F64_1|lra].
Qed.
Lemma dist_ext e d d' : valid01 e -> valid01 d -> valid01 d' -> dval d = dval d' -> dabs (dsub e d) = dabs (dsub e d').
Proof.
  intros He Hd Hd' E. destruct He as [Fe He], Hd as [Fd Hd], Hd' as [Fd' Hd'].
  destruct (dsub_ok e d Fe Fd) as [V F]; [apply small_1, Rabs_le; lra|].
  destruct (dsub_ok e d' Fe Fd') as [V' F']; [apply small_1, Rabs_le; lra|].
  apply dabs_inj; [exact F|exact F'|]. rewrite V, V', E. reflexivity.
Qed.

Lemma ks_step_frac n m i d : ks_step (double_of_N n) m (i, d) =
  dmax (dmax (dabs (dsub (frac n (N.of_nat i)) d)) (dabs (dsub (frac n (N.of_nat i + 1)) d))) m.
Proof. reflexivity. Qed.

Lemma dmax01 x y : valid01 x -> valid01 y -> valid01 (dmax x y) /\ dval (dmax x y) = Rmax (dval x) (dval y).
Proof.
  intros [Fx Hx] [Fy Hy]. destruct (dmax_val x y Fx Fy) as [V F]. split; [|exact V]. split; [exact F|].
  rewrite V. unfold Rmax. destruct (Rle_dec _ _); lra.
Qed.

(* the loop, over the suffix starting at index k *)
Lemma ks_loop_ext n l : forall l' k m, (1 <= n < 2 ^ 64)%N -> (N.of_nat k + N.of_nat (length l) <= n)%N ->
  Forall valid01 l -> Forall valid01 l' -> map dval l = map dval l' ->
  fold_left (ks_step (double_of_N n)) (combine (seq k (length l)) l) m =
  fold_left (ks_step (double_of_N n)) (combine (seq k (length l')) l') m.
Proof.
  induction l as [|d l IH]; intros [|d' l'] k m Hn Hk H1 H2 E; try discriminate; [reflexivity|].
  cbn [map] in E. injection E as E1 E2. cbn [length seq combine fold_left].
  pose proof (Forall_inv H1) as V1. pose proof (Forall_inv H2) as V2. cbn [length] in Hk.
  rewrite !ks_step_frac.
  rewrite (dist_ext (frac n (N.of_nat k)) d d' (proj1 (frac_ok n (N.of_nat k) Hn ltac:(lia))) V1 V2 E1).
  rewrite (dist_ext (frac n (N.of_nat k + 1)) d d' (proj1 (frac_ok n (N.of_nat k + 1) Hn ltac:(lia))) V1 V2 E1).
  apply IH; [exact Hn|lia|eapply Forall_inv_tail, H1|eapply Forall_inv_tail, H2|exact E2].
Qed.

Lemma ks_perm sort sort' l l' : sorts finite_double dlt sort -> sorts finite_double dlt sort' ->
  Permutation l l' -> Forall valid01 l -> (N.of_nat (length l) < 2 ^ 64)%N -> ks_distance sort l = ks_distance sort' l'.
Proof.
  intros Hs Hs' HP Hv Hn.
  assert (Hv' : Forall valid01 l') by (eapply Permutation_Forall; eassumption).
  assert (Hf : Forall fin l) by (eapply Forall_impl; [|exact Hv]; apply valid01_fin).
  assert (Hf' : Forall fin l') by (eapply Forall_impl; [|exact Hv']; apply valid01_fin).
  destruct (sort_vals sort l Hs Hf) as (S1 & P1 & _). destruct (sort_vals sort' l' Hs' Hf') as (S2 & P2 & _).
  assert (E : map dval (sort l) = map dval (sort' l')).
  { apply sorted_perm_unique; [|exact S1|exact S2]. apply Permutation_map. rewrite <- P1, HP. exact P2. }
  assert (El : length (sort' l') = length (sort l)) by (pose proof (f_equal (@List.length R) E) as Hl; rewrite !map_length in Hl; symmetry; exact Hl).
  unfold ks_distance. pose proof (Permutation_length P1) as L1.
  destruct (sort l) as [|d m] eqn:Es; [destruct (sort' l'); [reflexivity|discriminate]|].
  replace (N.of_nat (length (sort' l'))) with (N.of_nat (length (d :: m))) by (rewrite El; reflexivity).
  apply (ks_loop_ext (N.of_nat (length (d :: m)))).
  - rewrite <- L1. cbn [length] in L1. split; [lia|exact Hn].
  - lia.
  - eapply Permutation_Forall; [exact P1|exact Hv].
  - eapply Permutation_Forall; [exact P2|exact Hv'].
  - exact E.
Qed.

Lemma ks_loop_valid n l : forall k m, (1 <= n < 2 ^ 64)%N -> (N.of_nat k + N.of_nat (length l) <= n)%N ->
  Forall valid01 l -> valid01 m -> valid01 (fold_left (ks_step (double_of_N n)) (combine (seq k (length l)) l) m).
Proof.
  induction l as [|d l IH]; intros k m Hn Hk H1 Hm; [exact Hm|]. cbn [length seq combine fold_left]. cbn [length] in Hk.
  apply IH; [exact Hn|lia|eapply Forall_inv_tail, H1|]. rewrite ks_step_frac. pose proof (Forall_inv H1) as V1.
  repeat apply dmax01; try assumption; apply dist_ok; try assumption; apply frac_ok; (exact Hn || lia).
Qed.
Lemma valid01_d0 : valid01 d0.
Proof. split; [reflexivity|]. change (dval d0) with 0. lra. Qed.
Lemma ks_distance_valid sort l : sorts finite_double dlt sort -> Forall valid01 l -> (N.of_nat (length l) < 2 ^ 64)%N ->
  valid01 (ks_distance sort l).
Proof.
  intros Hs Hv Hn. assert (Hf : Forall fin l) by (eapply Forall_impl; [|exact Hv]; apply valid01_fin).
  destruct (sort_vals sort l Hs Hf) as (_ & P1 & _). unfold ks_distance. pose proof (Permutation_length P1) as L1.
  destruct (sort l) as [|d m] eqn:Es; [apply valid01_d0|].
  apply ks_loop_valid; [rewrite <- L1; cbn [length] in L1; split; [lia|exact Hn]|lia|eapply Permutation_Forall; [exact P1|exact Hv]|apply valid01_d0].
Qed.

(* the p-value of the KS statistic is valid *)
Definition bnd (k : Z) (x : double) : Prop := fin x /\ 0 <= dval x <= bpow radix2 k.
Lemma bnd_F64 k : (0 <= k <= 1000)%Z -> F64 (bpow radix2 k). Proof. intros; apply F64_bpow; lia. Qed.
Lemma bnd_add k x y : (0 <= k <= 999)%Z -> bnd k x -> bnd k y -> bnd (k + 1) (dadd x y).
Proof.
  intros Hk [Fx Hx] [Fy Hy].
  assert (E : bpow radix2 (k + 1) = bpow radix2 k + bpow radix2 k) by (rewrite bpow_plus; cbn; ring).
  destruct (dadd_ok x y Fx Fy) as [V F].
  { apply (small_pow2 _ (k + 1)); [lia|]. apply Rabs_le. rewrite E. lra. }
  split; [exact F|]. rewrite V. apply rnd_between; [apply F64_0|apply bnd_F64; lia|]. rewrite E. lra.
Qed.
Lemma bnd_mul k j x y : (0 <= k)%Z -> (0 <= j)%Z -> (k + j <= 1000)%Z -> bnd k x -> bnd j y -> bnd (k + j) (dmul x y).
Proof.
  intros Hk Hj Hkj [Fx Hx] [Fy Hy].
  assert (Hp : 0 <= dval x * dval y <= bpow radix2 (k + j)).
  { rewrite bpow_plus. split; [apply Rmult_le_pos; lra|]. apply Rmult_le_compat; lra. }
  destruct (dmul_ok x y Fx Fy) as [V F].
  { apply (small_pow2 _ (k + j)); [lia|]. apply Rabs_le. lra. }
  split; [exact F|]. rewrite V. apply rnd_between; [apply F64_0|apply bnd_F64; lia|exact Hp].
Qed.
Definition nbnd (k : Z) (x : double) : Prop := fin x /\ - bpow radix2 k <= dval x <= 0.
Lemma nbnd_mul k j x y : (0 <= k)%Z -> (0 <= j)%Z -> (k + j <= 1000)%Z -> nbnd k x -> bnd j y -> nbnd (k + j) (dmul x y).
Proof.
  intros Hk Hj Hkj [Fx Hx] [Fy Hy].
  assert (Hp : - bpow radix2 (k + j) <= dval x * dval y <= 0).
  { rewrite bpow_plus.
    assert (0 <= (- dval x) * dval y) by (apply Rmult_le_pos; lra).
    assert ((- dval x) * dval y <= bpow radix2 k * bpow radix2 j) by (apply Rmult_le_compat; lra). lra. }
  destruct (dmul_ok x y Fx Fy) as [V F].
  { apply (small_pow2 _ (k + j)); [lia|]. apply Rabs_le. lra. }
  split; [exact F|]. rewrite V. apply rnd_between; [apply F64_opp, bnd_F64; lia|apply F64_0|exact Hp].
Qed.
Lemma bnd_N n k : (n < 2 ^ 53)%N -> (Z.of_N n <= 2 ^ k)%Z -> (0 <= k)%Z -> bnd k (double_of_N n).
Proof.
  intros Hn Hk H0. destruct (double_of_N_exact n) as [V F]; [apply N.lt_le_incl, Hn|]. split; [exact F|]. rewrite V. split.
  - apply (IZR_le 0). lia.
  - replace (bpow radix2 k) with (IZR (2 ^ k)).
    + apply IZR_le, Hk.
    + change (2 ^ k)%Z with (radix2 ^ k)%Z. apply IZR_Zpower, H0.
Qed.
Lemma bnd_weaken k j x : (k <= j)%Z -> bnd k x -> bnd j x.
Proof. intros H [F Hx]. split; [exact F|]. split; [apply Hx|]. eapply Rle_trans; [apply Hx|apply bpow_le, H]. Qed.

Lemma const_bnd m e : (0 <= m <= 2 ^ 53)%Z -> (-1000 <= e <= -53)%Z -> bnd 0 (dconst m e).
Proof.
  intros Hm He.
  assert (Hv : 0 <= F2R (Float radix2 m e) <= 1).
  { unfold F2R. cbn [Fnum Fexp]. split; [apply Rmult_le_pos; [apply (IZR_le 0); lia|apply bpow_ge_0]|].
    apply Rle_trans with (IZR (2 ^ 53) * bpow radix2 e); [apply Rmult_le_compat_r; [apply bpow_ge_0|apply IZR_le; lia]|].
    change (IZR (2 ^ 53)) with (bpow radix2 53). rewrite <- bpow_plus. change 1 with (bpow radix2 0). apply bpow_le. lia. }
  destruct (dconst_ok m e) as [V F]; [apply small_1, Rabs_le; lra|].
  split; [exact F|]. rewrite V. change (bpow radix2 0) with 1. apply rnd_between; [apply F64_0|apply F64_1|exact Hv].
Qed.

Lemma sqrt_bnd n : (1 <= n < 2 ^ 64)%N -> fin (dsqrt (double_of_N n)) /\ 1 <= dval (dsqrt (double_of_N n)) <= bpow radix2 32.
Proof.
  intros [H1 H2]. destruct (double_of_N_ok n H2) as [Vn Fn].
  pose proof (rnd_N_pos n H1) as Pn.
  assert (Un : rnd (IZR (Z.of_N n)) <= bpow radix2 64).
  { rewrite <- (rnd_id (bpow radix2 64)) by (apply F64_bpow; lia). apply rnd_mono.
    change (bpow radix2 64) with (IZR (2 ^ 64)). apply IZR_le. apply N.lt_le_incl, N2Z.inj_le in H2. exact H2. }
  pose proof (Bsqrt_correct 53 1024 _ _ mode_NE (double_of_N n)) as (V & F & _). cbn [round_mode] in V. fold (dsqrt (double_of_N n)) in *.
  split.
  - unfold fin. rewrite F. unfold dval in Vn. destruct (double_of_N n) as [s|s| |s m e Hb]; try reflexivity; try discriminate Fn.
    destruct s; [|reflexivity]. exfalso. cbn [dval B2R] in Vn.
    assert (F2R (Float radix2 (cond_Zopp true (Z.pos m)) e) <= 0) by (apply F2R_le_0; cbn; lia). lra.
  - unfold dval. rewrite V. fold (dval (double_of_N n)). rewrite Vn. apply rnd_between; [apply F64_1|apply F64_bpow; lia|].
    split; [rewrite <- sqrt_1; apply sqrt_le_1_alt, Pn|].
    replace (bpow radix2 32) with (sqrt (bpow radix2 64)); [apply sqrt_le_1_alt, Un|].
    change (bpow radix2 64) with (bpow radix2 (32 + 32)). rewrite bpow_plus. apply sqrt_square, bpow_ge_0.
Qed.

Lemma unit_add m x y : (0 <= m < 2 ^ 52)%Z -> fin x -> Rabs (dval x) <= IZR m -> fin y -> Rabs (dval y) <= 1 ->
  fin (dadd x y) /\ Rabs (dval (dadd x y)) <= IZR (m + 1).
Proof.
  intros Hm Fx Hx Fy Hy.
  assert (Hs : Rabs (dval x + dval y) <= IZR (m + 1)).
  { rewrite plus_IZR. eapply Rle_trans; [apply Rabs_triang|]. lra. }
  assert (Fm : F64 (IZR (m + 1))) by (apply F64_Z; lia).
  destruct (dadd_ok x y Fx Fy) as [V F].
  { apply (small_pow2 _ 53); [lia|]. eapply Rle_trans; [exact Hs|]. change (bpow radix2 53) with (IZR (2 ^ 53)). apply IZR_le. lia. }
  split; [exact F|]. rewrite V. apply Rabs_le. apply Rabs_le_inv in Hs. apply rnd_between; [apply F64_opp, Fm|exact Fm|exact Hs].
Qed.
Lemma unit_mul x y : fin x -> Rabs (dval x) <= 1 -> fin y -> Rabs (dval y) <= 1 -> fin (dmul x y) /\ Rabs (dval (dmul x y)) <= 1.
Proof.
  intros Fx Hx Fy Hy.
  assert (Hp : Rabs (dval x * dval y) <= 1).
  { rewrite Rabs_mult. replace 1 with (1 * 1) by ring. apply Rmult_le_compat; auto using Rabs_pos. }
  destruct (dmul_ok x y Fx Fy) as [V F]; [apply small_1, Hp|]. split; [exact F|]. rewrite V.
  apply Rabs_le. apply Rabs_le_inv in Hp. apply rnd_between; [apply (F64_opp 1 F64_1)|apply F64_1|exact Hp].
Qed.

Lemma ks_cdf_valid exp D n : good_exp exp -> valid01 D -> (1 <= n < 2 ^ 64)%N ->
  valid01 (kolmogorov_smirnov_cdf exp D (double_of_N n) 100).
Proof.
  intros He HD Hn. unfold kolmogorov_smirnov_cdf.
  set (sn := dsqrt (double_of_N n)). set (ks := dmul D (dadd (dadd sn c0_12) (ddiv c0_11 sn))). set (ks2 := dmul ks ks).
  destruct (sqrt_bnd n Hn) as [Fs Hs]. fold sn in Fs, Hs.
  assert (B12 : bnd 0 c0_12) by (apply const_bnd; lia).
  assert (B11 : bnd 0 c0_11) by (apply const_bnd; lia).
  assert (Bks : bnd 34 ks).
  { unfold ks. change 34%Z with (0 + 34)%Z. apply bnd_mul; [lia|lia|lia| |].
    - split; [apply HD|]. change (bpow radix2 0) with 1. apply HD.
    - change 34%Z with (33 + 1)%Z. apply bnd_add; [lia| |].
      + change 33%Z with (32 + 1)%Z. apply bnd_add; [lia|split; [exact Fs|lra]|apply (bnd_weaken 0); [lia|exact B12]].
      + apply (bnd_weaken 0); [lia|]. destruct B11 as [F11 H11].
        change (bpow radix2 0) with 1 in *.
        assert (Q : 0 <= dval c0_11 / dval sn <= 1).
        { split; [apply Rmult_le_pos; [apply H11|apply Rlt_le, Rinv_0_lt_compat; lra]|].
          apply (Rmult_le_reg_r (dval sn)); [lra|]. unfold Rdiv. rewrite Rmult_assoc, Rinv_l by lra. lra. }
        destruct (ddiv_ok c0_11 sn F11) as [V F]; [lra|apply small_1, Rabs_le; lra|].
        split; [exact F|]. rewrite V. apply rnd_between; [apply F64_0|apply F64_1|exact Q]. }
  assert (Bks2 : bnd 68 ks2) by (unfold ks2; change 68%Z with (34 + 34)%Z; apply bnd_mul; (lia || exact Bks)).
  clearbody ks2. clear Bks ks. clearbody sn.
  assert (Hterm : forall k, (k <= 100)%N -> fin (ks_term exp ks2 k) /\ Rabs (dval (ks_term exp ks2 k)) <= 1).
  { intros k Hk. unfold ks_term.
    assert (N2 : nbnd 1 (dneg (double_of_N 2))).
    { destruct (double_of_N_exact 2) as [V F]; [discriminate|]. unfold dneg. split; [unfold fin; rewrite is_finite_Bopp; exact F|].
      unfold dval. rewrite B2R_Bopp. fold (dval (double_of_N 2)). rewrite V. cbn. lra. }
    assert (Bk : bnd 7 (double_of_N k)).
    { apply bnd_N; [eapply N.le_lt_trans; [exact Hk|reflexivity]|apply Z.le_trans with 100%Z; [lia|discriminate]|lia]. }
    assert (NA : nbnd (1 + 68 + 7 + 7) (dmul (dmul (dmul (dneg (double_of_N 2)) ks2) (double_of_N k)) (double_of_N k))).
    { repeat apply nbnd_mul; try assumption; lia. }
    destruct NA as [NF NV]. pose proof (He _ NF (proj2 NV)) as [EF EV].
    apply unit_mul; [| |exact EF|apply Rabs_le; lra].
    - destruct (N.odd k); [apply d1_val|]. unfold fin, dneg. rewrite is_finite_Bopp. apply d1_val.
    - destruct (N.odd k); [rewrite (proj1 d1_val); rewrite Rabs_R1; lra|].
      unfold dneg, dval. rewrite B2R_Bopp. fold (dval d1). rewrite (proj1 d1_val), Rabs_Ropp, Rabs_R1. lra. }
  assert (G : forall l m res, (forall k, In k l -> (k <= 100)%N) -> (0 <= m)%Z -> (m + Z.of_nat (length l) < 2 ^ 52)%Z ->
    fin res -> Rabs (dval res) <= IZR m ->
    let r := fold_left (fun res k => let x := ks_term exp ks2 k in if (k =? 100)%N then dadd res (dmul c0_5 x) else dadd res x) l res in
    fin r /\ Rabs (dval r) <= IZR (m + Z.of_nat (length l))).
  { induction l as [|k l IH]; intros m res Hl Hm Hlen Fr Hr; cbn [fold_left].
    - cbn [length]. rewrite Z.add_0_r. auto.
    - cbn [length] in Hlen |- *. destruct (Hterm k (Hl k (or_introl eq_refl))) as [Ft Ht].
      replace (m + Z.of_nat (S (length l)))%Z with (m + 1 + Z.of_nat (length l))%Z by lia.
      assert (S1 : fin (if (k =? 100)%N then dadd res (dmul c0_5 (ks_term exp ks2 k)) else dadd res (ks_term exp ks2 k)) /\
        Rabs (dval (if (k =? 100)%N then dadd res (dmul c0_5 (ks_term exp ks2 k)) else dadd res (ks_term exp ks2 k))) <= IZR (m + 1)).
      { destruct (k =? 100)%N; apply unit_add; try assumption; try lia.
        - apply unit_mul; try assumption; [reflexivity|]. replace (dval c0_5) with (/ 2); [rewrite Rabs_pos_eq; lra|].
          unfold c0_5, dconst, dval. vm_compute. lra.
        - apply unit_mul; try assumption; [reflexivity|]. replace (dval c0_5) with (/ 2); [rewrite Rabs_pos_eq; lra|].
          unfold c0_5, dconst, dval. vm_compute. lra. }
      apply IH; [intros k' Hk'; apply Hl; right; exact Hk'|lia|lia|apply S1|apply S1]. }
  destruct (G (map (fun i => (N.of_nat i + 1)%N) (seq 0 (N.to_nat 100))) 0%Z d0) as [Fr Hr].
  - intros k Hk. apply in_map_iff in Hk. destruct Hk as (i & <- & Hi). apply in_seq in Hi. lia.
  - lia.
  - rewrite map_length, seq_length. lia.
  - reflexivity.
  - change (dval d0) with 0. rewrite Rabs_R0. lra.
  - cbv zeta in Fr, Hr. set (res := fold_left _ _ _) in *. clearbody res. clear G Hterm.
    rewrite map_length, seq_length in Hr. cbn [Z.add Z.of_nat] in Hr.
    assert (F2 : fin (dmul (double_of_N 2) res)).
    { destruct (double_of_N_exact 2) as [V F]; [discriminate|]. apply dmul_ok; [exact F|exact Fr|]. rewrite V.
      apply (small_pow2 _ 20); [lia|]. rewrite Rabs_mult, Rabs_pos_eq by (apply (IZR_le 0); lia).
      apply Rle_trans with (2 * 100); [apply Rmult_le_compat_l; [lra|exact Hr]|]. change (bpow radix2 20) with (IZR (2 ^ 20)).
      change (2 ^ 20)%Z with 1048576%Z. lra. }
    set (v := dmul (double_of_N 2) res) in *. clearbody v. unfold dclamp.
    destruct (dlt v d0) eqn:E1; [apply valid01_d0|].
    apply dlt_false in E1; [|exact F2|reflexivity]. change (dval d0) with 0 in E1.
    destruct (dlt d1 v) eqn:E2.
    + destruct d1_val as [V1 F1]. split; [exact F1|]. rewrite V1. lra.
    + apply dlt_false in E2; [|apply d1_val|exact F2]. rewrite (proj1 d1_val) in E2. split; [exact F2|lra].
Qed.
