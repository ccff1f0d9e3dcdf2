(* mt19937: linearity, reversibility, tempering. *)
From Coq Require Import Lia.
From Verif Require Import Base WordLemmas BitwiseSpec WordBij StreamModel PrngModel PrngSpec PrngProofs PeriodProofs RecurrenceProofs LfsrSpec DetectSpec DetectGens EngineModel.
Open Scope N_scope.

(* ---- linear maps of words ---- *)
Definition lin (f : N -> N) : Prop := forall x y, f (N.lxor x y) = N.lxor (f x) (f y).
Lemma land_lin c : lin (fun x => N.land x c).
Proof. intros x y. apply N.bits_inj. intro i. rewrite N.lxor_spec, !N.land_spec, N.lxor_spec. destruct (N.testbit x i), (N.testbit y i), (N.testbit c i); reflexivity. Qed.
Lemma shiftr_lin k : lin (fun x => N.shiftr x k).
Proof. intros x y. apply N.shiftr_lxor. Qed.
Lemma shiftl_lin k : lin (fun x => wrap 32 (N.shiftl x k)).
Proof. intros x y. rewrite N.shiftl_lxor. apply wrap_lxor. Qed.
Lemma comp_lin f g : lin f -> lin g -> lin (fun x => g (f x)).
Proof. intros F G x y. rewrite F. apply G. Qed.
Lemma add_lin f g : lin f -> lin g -> lin (fun x => N.lxor (f x) (g x)).
Proof. intros F G x y. rewrite F, G. apply lxor_swap. Qed.
Lemma id_lin : lin (fun x => x).
Proof. intros x y. reflexivity. Qed.
Lemma lin_0 f : lin f -> f 0 = 0.
Proof. intros F. specialize (F 0 0). rewrite N.lxor_nilpotent in F. rewrite N.lxor_nilpotent in F. exact F. Qed.
Lemma lin_inj f : lin f -> (forall z, is_word 32 z -> f z = 0 -> z = 0) -> forall x y, is_word 32 x -> is_word 32 y -> f x = f y -> x = y.
Proof.
  intros F K x y Hx Hy E. apply N.lxor_eq. apply K; [apply word_lxor; assumption|]. rewrite F, E. apply N.lxor_nilpotent.
Qed.

(* ---- tempering ---- *)
Definition t1 (x : N) := N.lxor x (N.land (N.shiftr x 11) 0xffffffff).
Definition t2 (x : N) := N.lxor x (N.land (wrap 32 (N.shiftl x 7)) 0x9d2c5680).
Definition t3 (x : N) := N.lxor x (N.land (wrap 32 (N.shiftl x 15)) 0xefc60000).
Definition t4 (x : N) := N.lxor x (N.shiftr x 18).
Lemma temper_eq x : mt_temper x = t4 (t3 (t2 (t1 x))).
Proof. reflexivity. Qed.
Lemma t1_lin : lin t1.
Proof. apply (add_lin (fun x => x) (fun x => N.land (N.shiftr x 11) 0xffffffff)); [apply id_lin|]. apply (comp_lin (fun x => N.shiftr x 11) (fun x => N.land x 0xffffffff)); [apply shiftr_lin|apply land_lin]. Qed.
Lemma t2_lin : lin t2.
Proof. apply (add_lin (fun x => x) (fun x => N.land (wrap 32 (N.shiftl x 7)) 0x9d2c5680)); [apply id_lin|]. apply (comp_lin (fun x => wrap 32 (N.shiftl x 7)) (fun x => N.land x 0x9d2c5680)); [apply shiftl_lin|apply land_lin]. Qed.
Lemma t3_lin : lin t3.
Proof. apply (add_lin (fun x => x) (fun x => N.land (wrap 32 (N.shiftl x 15)) 0xefc60000)); [apply id_lin|]. apply (comp_lin (fun x => wrap 32 (N.shiftl x 15)) (fun x => N.land x 0xefc60000)); [apply shiftl_lin|apply land_lin]. Qed.
Lemma t4_lin : lin t4.
Proof. apply (add_lin (fun x => x) (fun x => N.shiftr x 18)); [apply id_lin|apply shiftr_lin]. Qed.
Lemma temper_lin : lin mt_temper.
Proof. intros x y. rewrite !temper_eq, t1_lin, t2_lin, t3_lin. apply t4_lin. Qed.
Lemma up_kernel k z : 0 < k -> (forall i, N.testbit z i = true -> N.testbit z (i + k) = true) -> z = 0.
Proof.
  intros Hk S. apply N.bits_inj. intro i. rewrite N.bits_0. destruct (N.testbit z i) eqn:B; [|reflexivity]. exfalso.
  assert (A : forall n, N.testbit z (i + N.of_nat n * k) = true).
  { induction n as [|n IH]; [rewrite N.mul_0_l, N.add_0_r; exact B|]. apply S in IH. rewrite <- IH. f_equal. lia. }
  specialize (A (N.to_nat (N.size z))). rewrite N2Nat.id in A. rewrite (word_high (N.size z)) in A; [discriminate|apply N.size_gt|nia].
Qed.
Lemma left_kernel k c z : 0 < k -> N.lxor z (N.land (wrap 32 (N.shiftl z k)) c) = 0 -> z = 0.
Proof.
  intros Hk E. apply N.lxor_eq in E. apply N.bits_inj. intro i. rewrite N.bits_0.
  assert (S : forall i, N.testbit z i = true -> k <= i /\ N.testbit z (i - k) = true).
  { intros j B. rewrite E in B. rewrite N.land_spec, wrap_testbit, shiftl_testbit in B. apply andb_prop in B. destruct B as [B _]. apply andb_prop in B. destruct B as [_ B]. apply andb_prop in B. destruct B as [B1 B2]. apply N.leb_le in B1. split; assumption. }
  destruct (N.testbit z i) eqn:B; [|reflexivity]. exfalso. revert B. induction i as [i IH] using (well_founded_induction N.lt_wf_0). intros B. destruct (S i B) as [L B']. apply (IH (i - k)); [lia|exact B'].
Qed.
Lemma t1_kernel z : t1 z = 0 -> z = 0.
Proof. intros E. apply (up_kernel 11); [reflexivity|]. apply N.lxor_eq in E. intros i B. rewrite E, N.land_spec, N.shiftr_spec' in B. apply andb_prop in B. apply B. Qed.
Lemma t4_kernel z : t4 z = 0 -> z = 0.
Proof. intros E. apply (up_kernel 18); [reflexivity|]. apply N.lxor_eq in E. intros i B. rewrite E, N.shiftr_spec' in B. exact B. Qed.
Lemma temper_kernel z : mt_temper z = 0 -> z = 0.
Proof. rewrite temper_eq. intros E. apply t1_kernel, (left_kernel 7 0x9d2c5680); [reflexivity|]. apply (left_kernel 15 0xefc60000); [reflexivity|]. apply t4_kernel, E. Qed.
Lemma temper_word x : is_word 32 x -> is_word 32 (mt_temper x).
Proof.
  intros H. rewrite temper_eq. assert (A : is_word 32 (t1 x)) by (apply word_lxor; [exact H|apply word_land_l, word_shiftr, H]).
  assert (B : is_word 32 (t2 (t1 x))) by (apply word_lxor; [exact A|apply word_land_l, wrap_word]). assert (C : is_word 32 (t3 (t2 (t1 x)))) by (apply word_lxor; [exact B|apply word_land_l, wrap_word]).
  apply word_lxor; [exact C|apply word_shiftr, C].
Qed.
Lemma temper_bij : word_bijection 32 mt_temper.
Proof. apply inj_bij; [exact temper_word|]. intros x y Hx Hy. apply (lin_inj mt_temper temper_lin); try assumption. intros z _. apply temper_kernel. Qed.

(* ---- lists of words ---- *)
Fixpoint lxl (s t : list N) : list N := match s, t with a :: s, b :: t => N.lxor a b :: lxl s t | _, _ => [] end.
Definition mt_words (n : nat) (s : list N) : Prop := length s = n /\ Forall (is_word 32) s.
Lemma lxl_words n s t : mt_words n s -> mt_words n t -> mt_words n (lxl s t).
Proof.
  revert s t. induction n as [|n IH]; intros [|a s] [|b t] [L F] [L' F']; try discriminate; [split; constructor|].
  inversion F; inversion F'; subst. cbn in L, L'. destruct (IH s t) as [A B]; [split; [congruence|assumption]|split; [congruence|assumption]|]. split; cbn [lxl length]; [congruence|]. constructor; [apply word_lxor; assumption|exact B].
Qed.
Lemma lxl_nth k s t : length s = length t -> nth k (lxl s t) 0 = N.lxor (nth k s 0) (nth k t 0).
Proof.
  revert k t. induction s as [|a s IH]; intros k [|b t] L; try discriminate; [destruct k; reflexivity|]. destruct k as [|k]; [reflexivity|]. cbn [lxl nth]. apply IH. cbn in L. congruence.
Qed.
Lemma lxl_app s t s' t' : length s = length t -> lxl (s ++ s') (t ++ t') = lxl s t ++ lxl s' t'.
Proof. revert t. induction s as [|a s IH]; intros [|b t] L; try discriminate; [reflexivity|]. cbn [app lxl]. rewrite IH by (cbn in L; congruence). reflexivity. Qed.
Lemma lxl_skip s t : skipn 1 (lxl s t) = lxl (skipn 1 s) (skipn 1 t).
Proof. destruct s as [|a [|a' s]], t as [|b t]; reflexivity. Qed.
Lemma zero_words n : mt_words n (repeat 0 n).
Proof. split; [apply repeat_length|]. induction n as [|n IH]; constructor; [apply word_0|exact IH]. Qed.
Lemma lxl_zero_r n s : length s = n -> lxl s (repeat 0 n) = s.
Proof. revert s. induction n as [|n IH]; intros [|a s] L; try discriminate; [reflexivity|]. cbn [repeat lxl]. rewrite N.lxor_0_r, IH by (cbn in L; congruence). reflexivity. Qed.
Lemma lxl_zero_l n s : length s = n -> lxl (repeat 0 n) s = s.
Proof. revert s. induction n as [|n IH]; intros [|a s] L; try discriminate; [reflexivity|]. cbn [repeat lxl]. rewrite N.lxor_0_l, IH by (cbn in L; congruence). reflexivity. Qed.
Fixpoint lbasis (n : nat) : list (list N) := match n with O => [] | S n => map (fun b => b :: repeat 0 n) (units 32) ++ map (cons 0) (lbasis n) end.
Lemma lbasis_length n : length (lbasis n) = (n * 32)%nat.
Proof. induction n as [|n IH]; [reflexivity|]. cbn [lbasis]. rewrite app_length, !map_length, units_len, IH. reflexivity. Qed.
Lemma lbasis_ind n : forall P : list N -> Prop, P (repeat 0 n) -> (forall b, In b (lbasis n) -> P b) -> (forall x y, mt_words n x -> mt_words n y -> P x -> P y -> P (lxl x y)) -> forall s, mt_words n s -> P s.
Proof.
  induction n as [|n IH]; intros P P0 PB PA s [L F]; [destruct s; [exact P0|discriminate]|]. destruct s as [|a s]; [discriminate|]. inversion F as [|? ? Ha Fs]; subst. cbn in L. assert (Ls : length s = n) by congruence.
  assert (A : P (a :: repeat 0 n)).
  { revert a Ha F. apply (word_basis_ind 32 (fun a => Forall (is_word 32) (a :: s) -> P (a :: repeat 0 n))).
    - intros _. exact P0.
    - intros i Hi _. apply PB. cbn [lbasis]. apply in_or_app. left. apply (in_map (fun b => b :: repeat 0 n)), units_in, Hi.
    - intros x y Hx Hy Px Py _. specialize (PA (x :: repeat 0 n) (y :: repeat 0 n)). cbn [lxl] in PA. rewrite lxl_zero_r in PA by apply repeat_length.
      destruct (zero_words n) as [Z1 Z2]. apply PA; try (split; [cbn; congruence|constructor; assumption]); [apply Px|apply Py]; constructor; assumption. }
  assert (B : P (0 :: s)).
  { apply (IH (fun s => P (0 :: s))); [exact P0| | |split; assumption].
    - intros b Hb. apply PB. cbn [lbasis]. apply in_or_app. right. apply in_map, Hb.
    - intros x y [Lx Fx] [Ly Fy] Px Py. apply (PA (0 :: x) (0 :: y)); try assumption; (split; [cbn; congruence|constructor; [apply word_0|assumption]]). }
  replace (a :: s) with (lxl (a :: repeat 0 n) (0 :: s)).
  - destruct (zero_words n) as [Z1 Z2]. apply PA; try assumption; (split; [cbn; congruence|constructor; try assumption; apply word_0]).
  - cbn [lxl]. rewrite N.lxor_0_r, lxl_zero_l by exact Ls. reflexivity.
Qed.

(* ---- the transition ---- *)
Lemma join_lin x y x' y' : mt_join (N.lxor x x') (N.lxor y y') = N.lxor (mt_join x y) (mt_join x' y').
Proof.
  unfold mt_join. apply N.bits_inj. intro i. rewrite N.lxor_spec, !N.lor_spec, !N.land_spec, !N.lxor_spec.
  assert (D : N.testbit 0x80000000 i && N.testbit 0x7fffffff i = false) by (rewrite <- N.land_spec; change (N.land 0x80000000 0x7fffffff) with 0; apply N.bits_0).
  destruct (N.testbit x i), (N.testbit y i), (N.testbit x' i), (N.testbit y' i), (N.testbit 0x80000000 i), (N.testbit 0x7fffffff i); try reflexivity; discriminate D.
Qed.
Lemma join_word x y : is_word 32 x -> is_word 32 y -> is_word 32 (mt_join x y).
Proof. intros Hx Hy. apply word_lor; apply word_land_l; assumption. Qed.
Lemma twist_lin : lin mt_twist.
Proof.
  intros x y. unfold mt_twist. rewrite N.lxor_spec, N.shiftr_lxor. rewrite lxor_swap. f_equal. destruct (N.testbit x 0), (N.testbit y 0); reflexivity.
Qed.
Lemma twist_word x : is_word 32 x -> is_word 32 (mt_twist x).
Proof. intros H. apply word_lxor; [apply word_shiftr, H|]. destruct (N.testbit x 0); reflexivity. Qed.
Lemma twist_kernel z : is_word 32 z -> mt_twist z = 0 -> z = 0.
Proof.
  intros H E. apply N.lxor_eq in E. apply (f_equal (fun v => N.testbit v 31)) in E as E31. rewrite N.shiftr_spec' in E31. rewrite (word_high 32 z (31 + 1)) in E31 by (assumption || reflexivity).
  destruct (N.testbit z 0) eqn:B; [discriminate E31|]. apply N.bits_inj. intro i. rewrite N.bits_0. destruct (N.eq_dec i 0) as [->|Hi]; [exact B|].
  replace i with ((i - 1) + 1) by lia. rewrite <- N.shiftr_spec', E. apply N.bits_0.
Qed.
Lemma new_lin s t : length s = length t -> mt_new (lxl s t) = N.lxor (mt_new s) (mt_new t).
Proof. intros L. unfold mt_new. rewrite !lxl_nth by exact L. rewrite join_lin, twist_lin. apply lxor_swap. Qed.
Lemma nth_word s k : Forall (is_word 32) s -> is_word 32 (nth k s 0).
Proof. intros F. destruct (Nat.lt_ge_cases k (length s)) as [L|L]; [rewrite Forall_forall in F; apply F, nth_In, L|rewrite nth_overflow by exact L; apply word_0]. Qed.
Lemma new_word s : Forall (is_word 32) s -> is_word 32 (mt_new s).
Proof. intros F. apply word_lxor; [apply nth_word, F|]. apply twist_word, join_word; apply nth_word, F. Qed.
Lemma step_words s : mt_words mt_n s -> mt_words mt_n (mt_step s).
Proof.
  intros [L F]. split.
  - unfold mt_step. rewrite app_length, skipn_length, L. reflexivity.
  - apply Forall_app. split; [|repeat constructor; apply new_word, F]. destruct s as [|a s]; [constructor|]. inversion F. assumption.
Qed.
Lemma step_lin s t : length s = length t -> mt_step (lxl s t) = lxl (mt_step s) (mt_step t).
Proof. intros L. unfold mt_step. rewrite lxl_app by (rewrite !skipn_length; congruence). rewrite lxl_skip, new_lin by exact L. reflexivity. Qed.
Lemma step_zero : mt_step (repeat 0 mt_n) = repeat 0 mt_n.
Proof. vm_compute. reflexivity. Qed.
Lemma fill_words n i x : is_word 32 x -> mt_words n (mt_fill n i x).
Proof.
  revert i x. induction n as [|n IH]; intros i x H; [split; constructor|]. cbn [mt_fill]. destruct (IH (i + 1) (wrap 32 (1812433253 * N.lxor x (N.shiftr x 30) + (i + 1)))) as [A B]; [apply wrap_word|].
  split; [cbn [length]; congruence|constructor; assumption].
Qed.
Lemma seed_words s : is_word 32 s -> mt_words mt_n (mt_seed s).
Proof. intros H. apply fill_words, H. Qed.

(* ---- every bit of the output follows a feedback register ---- *)
Lemma mt_output sd i : output rng32_mt19937 sd i = mt_temper (nth (mt_n - 1) (Nat.iter (N.to_nat i) mt_step (mt_step (mt_seed (s32 sd 0)))) 0).
Proof.
  unfold output, state_at. cbn [rng32_mt19937 gst ginit gnext fst snd]. change (fun s => mt_step s) with mt_step. do 2 f_equal. rewrite <- iter_S_r. reflexivity.
Qed.
Lemma mt_lfsr sd k : lfsr_bits (mt_n * 32) (fun i => N.testbit (output rng32_mt19937 sd (N.of_nat i)) k).
Proof.
  assert (V : mt_words mt_n (mt_step (mt_seed (s32 sd 0)))) by (apply step_words, seed_words, wrap_word).
  destruct (linear_recurrence (list N) (mt_words mt_n) lxl (repeat 0 mt_n) (lbasis mt_n) mt_step (fun s => N.testbit (mt_temper (nth (mt_n - 1) s 0)) k)) as (r & taps & Hr & H).
  - apply lbasis_ind.
  - intros x y. apply lxl_words.
  - apply zero_words.
  - exact step_words.
  - intros x y [Lx _] [Ly _]. apply step_lin. congruence.
  - exact step_zero.
  - intros x y [Lx _] [Ly _]. rewrite lxl_nth by congruence. rewrite temper_lin. apply N.lxor_spec.
  - rewrite nth_repeat. rewrite (lin_0 mt_temper temper_lin). apply N.bits_0.
  - rewrite lbasis_length in Hr. apply (lfsr_more r); [exact Hr|]. exists taps. intros i Hi. rewrite mt_output, Nat2N.id, (H _ V i Hi).
    apply LfsrProofs.xsum_ext. intros j _. rewrite mt_output, Nat2N.id. reflexivity.
Qed.

(* ---- reversibility ---- *)
(* The lower 31 bits of the oldest word do not matter: a canonical state has zeros there. *)
Definition mt_clear (s : list N) : list N := match s with [] => [] | a :: r => N.land a 0x80000000 :: r end.
Definition mt_core (s : list N) : list N := mt_clear (mt_step s).
Definition mt_canonical (s : list N) : Prop := mt_words mt_n s /\ N.land (nth 0 s 0) 0x7fffffff = 0.
Lemma clear_words n s : mt_words n s -> mt_words n (mt_clear s).
Proof. intros [L F]. destruct s as [|a s]; [split; assumption|]. inversion F as [|? ? Ha Fs]. split; [exact L|]. constructor; [apply word_land_l, Ha|exact Fs]. Qed.
Lemma clear_canonical s : mt_words mt_n s -> mt_canonical (mt_clear s).
Proof.
  intros H. split; [apply clear_words, H|]. destruct s as [|a s]; [reflexivity|]. cbn [mt_clear nth]. rewrite <- N.land_assoc. change (N.land 0x80000000 0x7fffffff) with 0. apply N.land_0_r.
Qed.
Lemma step_clear s : mt_step (mt_clear s) = mt_step s.
Proof.
  destruct s as [|a s]; [reflexivity|]. assert (E : mt_new (N.land a 0x80000000 :: s) = mt_new (a :: s)).
  { unfold mt_new. change (nth mt_m (N.land a 0x80000000 :: s) 0) with (nth mt_m (a :: s) 0). do 2 f_equal. unfold mt_join. cbn [nth]. f_equal. rewrite <- N.land_assoc. reflexivity. }
  unfold mt_step. cbn [mt_clear skipn]. rewrite E. reflexivity.
Qed.
Lemma split_word x : is_word 32 x -> x = N.lor (N.land x 0x80000000) (N.land x 0x7fffffff).
Proof.
  intros H. rewrite <- N.land_lor_distr_r. change (N.lor 0x80000000 0x7fffffff) with (N.ones 32). rewrite N.land_ones. symmetry. apply N.mod_small, H.
Qed.
Lemma join_inj x y x' y' : mt_join x y = mt_join x' y' -> N.land x 0x80000000 = N.land x' 0x80000000 /\ N.land y 0x7fffffff = N.land y' 0x7fffffff.
Proof.
  intros E. unfold mt_join in E. split; [apply (f_equal (fun v => N.land v 0x80000000)) in E|apply (f_equal (fun v => N.land v 0x7fffffff)) in E];
    rewrite !N.land_lor_distr_l, <- !N.land_assoc in E; cbn [N.land Pos.land] in E; rewrite ?N.land_0_r, ?N.lor_0_r, ?N.lor_0_l in E; exact E.
Qed.
Lemma core_inj s t : mt_canonical s -> mt_canonical t -> mt_core s = mt_core t -> s = t.
Proof.
  intros [[L F] C] [[L' F'] C'] E. destruct s as [|a [|b s]]; try discriminate L. destruct t as [|a' [|b' t]]; try discriminate L'.
  inversion F as [|? ? Ha Fb]; inversion Fb as [|? ? Hb Fs]; inversion F' as [|? ? Ha' Fb']; inversion Fb' as [|? ? Hb' Fs']; subst. cbn [nth] in C, C'.
  unfold mt_core, mt_step in E. cbn [skipn app mt_clear] in E. injection E as E1 E2.
  cbn [length] in L, L'. apply app_inj_tail in E2. destruct E2 as [E2 E3]. subst t. unfold mt_new in E3. cbn [nth] in E3.
  change (nth mt_m (a :: b :: s) 0) with (nth (mt_m - 2) s 0) in E3. change (nth mt_m (a' :: b' :: s) 0) with (nth (mt_m - 2) s 0) in E3. apply lxor_cancel_l in E3.
  apply (lin_inj mt_twist twist_lin twist_kernel) in E3; try (apply join_word; assumption). apply join_inj in E3. destruct E3 as [A B].
  f_equal; [|f_equal].
  - rewrite (split_word a Ha), (split_word a' Ha'), A, C, C'. reflexivity.
  - rewrite (split_word b Hb), (split_word b' Hb'), E1, B. reflexivity.
Qed.
Lemma core_canonical s : mt_canonical s -> mt_canonical (mt_core s).
Proof. intros [H _]. apply clear_canonical, step_words, H. Qed.
Lemma iter_core n s : Nat.iter n mt_core (mt_clear s) = mt_clear (Nat.iter n mt_step s).
Proof. induction n as [|n IH]; [reflexivity|]. rewrite !iter_S, IH. unfold mt_core. rewrite step_clear. reflexivity. Qed.
(* the state as a number below 2^19937 *)
Fixpoint enc_words (s : list N) : N := match s with [] => 0 | a :: s => a + 2 ^ 32 * enc_words s end.
Lemma enc_words_bound s : Forall (is_word 32) s -> enc_words s < 2 ^ (32 * N.of_nat (length s)).
Proof.
  induction 1 as [|a s Ha _ IH]; [reflexivity|]. cbn [enc_words length]. rewrite Nat2N.inj_succ, N.mul_succ_r, N.add_comm, N.pow_add_r. unfold is_word in Ha.
  set (P := 2 ^ (32 * N.of_nat (length s))) in *. clearbody P. change (2 ^ 32) with 4294967296 in *. nia.
Qed.
Lemma enc_words_inj s : forall t, Forall (is_word 32) s -> Forall (is_word 32) t -> length s = length t -> enc_words s = enc_words t -> s = t.
Proof.
  induction s as [|a s IH]; intros [|b t] F F' L E; try discriminate; [reflexivity|]. inversion F; inversion F'; subst. cbn [enc_words] in E.
  apply digits_inj in E; [|assumption|assumption]. destruct E as [-> E]. f_equal. apply IH; try assumption. cbn in L. congruence.
Qed.
Definition enc_state (s : list N) : N := match s with [] => 0 | a :: r => N.shiftr a 31 + 2 * enc_words r end.
Lemma enc_state_bound s : mt_canonical s -> enc_state s < 2 ^ 19937.
Proof.
  intros [[L F] _]. destruct s as [|a r]; [discriminate|]. inversion F as [|? ? Ha Fr]; subst. cbn [enc_state]. pose proof (enc_words_bound r Fr) as B. cbn [length] in L. replace (N.of_nat (length r)) with 623 in B by (unfold mt_n in L; lia).
  assert (A : N.shiftr a 31 < 2). { rewrite N.shiftr_div_pow2. apply N.div_lt_upper_bound; [discriminate|]. exact Ha. }
  change (32 * 623) with 19936 in B. change 19937 with (1 + 19936). rewrite N.pow_add_r. set (P := 2 ^ 19936) in *. clearbody P. change (2 ^ 1) with 2. lia.
Qed.
Lemma canonical_word a : is_word 32 a -> N.land a 0x7fffffff = 0 -> a = N.shiftl (N.shiftr a 31) 31.
Proof.
  intros H Z. change 0x7fffffff with (N.ones 31) in Z. rewrite N.land_ones in Z. rewrite N.shiftl_mul_pow2, N.shiftr_div_pow2. pose proof (N.div_mod a (2 ^ 31) ltac:(discriminate)) as D. rewrite Z in D. lia.
Qed.
Lemma enc_state_inj s t : mt_canonical s -> mt_canonical t -> enc_state s = enc_state t -> s = t.
Proof.
  intros [[L F] C] [[L' F'] C'] E. destruct s as [|a r]; [discriminate|]. destruct t as [|b r']; [discriminate|]. inversion F as [|? ? Ha Fr]; inversion F' as [|? ? Hb Fr']; subst. cbn [enc_state nth] in *.
  assert (A : forall x, is_word 32 x -> N.shiftr x 31 < 2). { intros x Hx. rewrite N.shiftr_div_pow2. apply N.div_lt_upper_bound; [discriminate|]. exact Hx. }
  apply digits_inj in E; [|apply A, Ha|apply A, Hb]. destruct E as [E1 E2]. f_equal.
  - rewrite (canonical_word a Ha C), (canonical_word b Hb C'), E1. reflexivity.
  - apply enc_words_inj; try assumption. cbn in L, L'. congruence.
Qed.
Lemma clear_nth s : mt_words mt_n s -> nth (mt_n - 1) (mt_clear s) 0 = nth (mt_n - 1) s 0.
Proof. intros [L _]. destruct s as [|a s]; [discriminate|]. reflexivity. Qed.
Lemma iter_words n s : mt_words mt_n s -> mt_words mt_n (Nat.iter n mt_step s).
Proof. intros H. induction n as [|n IH]; [exact H|]. apply step_words, IH. Qed.
Lemma mt_output_word sd i : is_word 32 (output rng32_mt19937 sd i).
Proof. rewrite mt_output. apply temper_word, nth_word. apply iter_words, step_words, seed_words, wrap_word. Qed.
Lemma mt_output_core sd i : output rng32_mt19937 sd i = mt_temper (nth (mt_n - 1) (Nat.iter (N.to_nat i) mt_core (mt_core (mt_clear (mt_seed (s32 sd 0))))) 0).
Proof.
  rewrite mt_output, <- !iter_S_r, iter_core. rewrite clear_nth; [reflexivity|]. apply iter_words, seed_words, wrap_word.
Qed.
Lemma mt_periodic sd : exists p, 0 < p /\ p <= 2 ^ 19937 /\ periodic p (output rng32_mt19937 sd).
Proof.
  assert (C : mt_canonical (mt_core (mt_clear (mt_seed (s32 sd 0))))) by (apply core_canonical, clear_canonical, seed_words, wrap_word).
  destruct (orbit_cycles mt_canonical mt_core core_canonical core_inj enc_state (2 ^ 19937) enc_state_bound enc_state_inj _ C) as (p & Hp & Hn & E).
  exists (N.of_nat p). split; [lia|]. split; [exact Hn|]. intro i. rewrite !mt_output_core, N2Nat.inj_add, Nat2N.id, iter_add, E. reflexivity.
Qed.
Lemma mt_reversible : reversible mt_canonical mt_core.
Proof.
  split; [exact core_canonical|]. split; [exact core_inj|].
  apply (finite_reversible mt_canonical mt_core enc_state (2 ^ 19937) core_canonical core_inj enc_state_bound enc_state_inj).
Qed.

(* ---- never only zeros ---- *)
Lemma seed_nonzero s : mt_clear (mt_seed s) <> repeat 0 mt_n.
Proof.
  intros E. assert (E1 := f_equal (fun l => nth 1 l 0) E). assert (E2 := f_equal (fun l => nth 2 l 0) E). cbn beta in E1, E2. change (nth 1 (repeat 0 mt_n) 0) with 0 in E1. change (nth 2 (repeat 0 mt_n) 0) with 0 in E2.
  assert (S2 : nth 2 (mt_clear (mt_seed s)) 0 = wrap 32 (1812433253 * N.lxor (nth 1 (mt_clear (mt_seed s)) 0) (N.shiftr (nth 1 (mt_clear (mt_seed s)) 0) 30) + 2)) by reflexivity.
  rewrite S2, E1 in E2. vm_compute in E2. discriminate E2.
Qed.
Lemma core_zero : mt_core (repeat 0 mt_n) = repeat 0 mt_n.
Proof. vm_compute. reflexivity. Qed.
Lemma zero_canonical : mt_canonical (repeat 0 mt_n).
Proof. split; [apply zero_words|reflexivity]. Qed.
Lemma iter_core_zero n : Nat.iter n mt_core (repeat 0 mt_n) = repeat 0 mt_n.
Proof. induction n as [|n IH]; [reflexivity|]. rewrite iter_S, IH. apply core_zero. Qed.
Lemma never_zero sd n : Nat.iter n mt_core (mt_clear (mt_seed (s32 sd 0))) <> repeat 0 mt_n.
Proof.
  intros E. apply (seed_nonzero (s32 sd 0)). apply (iter_inj mt_canonical mt_core core_canonical core_inj n); [apply clear_canonical, seed_words, wrap_word|apply zero_canonical|].
  rewrite E, iter_core_zero. reflexivity.
Qed.
(* the state after k more steps ends with the last k new words *)
Lemma step_nth s k : length s = mt_n -> (k < mt_n - 1)%nat -> nth k (mt_step s) 0 = nth (S k) s 0.
Proof.
  intros L Hk. unfold mt_step. rewrite app_nth1 by (rewrite skipn_length; lia). destruct s as [|a s]; [destruct k; reflexivity|]. reflexivity.
Qed.
Lemma iter_nth k s j : mt_words mt_n s -> (j + k < mt_n)%nat -> nth j (Nat.iter k mt_step s) 0 = nth (j + k) s 0.
Proof.
  intros H. revert j. induction k as [|k IH]; intros j Hj; [rewrite Nat.add_0_r; reflexivity|]. rewrite iter_S, step_nth; [|apply iter_words, H|lia]. rewrite IH by lia. f_equal. lia.
Qed.
(* among any 624 consecutive outputs there is one that is not zero *)
Lemma mt_not_zero sd i : exists j, i <= j < i + 624 /\ output rng32_mt19937 sd j <> 0.
Proof.
  set (t := Nat.iter (N.to_nat i) mt_step (mt_step (mt_seed (s32 sd 0)))). assert (T : mt_words mt_n t) by (apply iter_words, step_words, seed_words, wrap_word).
  destruct (existsb (fun k => negb (nth (mt_n - 1) (Nat.iter k mt_step t) 0 =? 0)) (seq 0 mt_n)) eqn:X.
  - apply existsb_exists in X. destruct X as (k & Hk & B). apply in_seq in Hk. apply Bool.negb_true_iff, N.eqb_neq in B. exists (i + N.of_nat k). split; [unfold mt_n in Hk; lia|].
    rewrite mt_output, N2Nat.inj_add, Nat2N.id, Nat.add_comm, iter_add. fold t. intro C. apply B, temper_kernel, C.
  - exfalso. assert (Z : forall k, (k < mt_n)%nat -> nth (mt_n - 1) (Nat.iter k mt_step t) 0 = 0).
    { intros k Hk. destruct (N.eqb_spec (nth (mt_n - 1) (Nat.iter k mt_step t) 0) 0) as [E|E]; [exact E|]. exfalso. assert (Y : existsb (fun k => negb (nth (mt_n - 1) (Nat.iter k mt_step t) 0 =? 0)) (seq 0 mt_n) = true); [|congruence].
      apply existsb_exists. exists k. split; [apply in_seq; lia|]. apply Bool.negb_true_iff, N.eqb_neq, E. }
    set (u := Nat.iter (mt_n - 1) mt_step t). assert (U : mt_words mt_n u) by (apply iter_words, T).
    assert (A : u = repeat 0 mt_n).
    { apply (nth_ext _ _ 0 0); [rewrite repeat_length; apply U|]. intros n Hn. rewrite (proj1 U) in Hn. rewrite nth_repeat.
      assert (En : u = Nat.iter (mt_n - 1 - n) mt_step (Nat.iter n mt_step t)) by (unfold u; rewrite <- iter_add; f_equal; lia). rewrite En. rewrite iter_nth; [|apply iter_words, T|lia].
      replace (n + (mt_n - 1 - n))%nat with (mt_n - 1)%nat by lia. apply Z, Hn. }
    apply (never_zero sd (mt_n - 1 + (N.to_nat i + 1))). rewrite iter_core. rewrite iter_add, iter_add. change (Nat.iter 1 mt_step (mt_seed (s32 sd 0))) with (mt_step (mt_seed (s32 sd 0))). fold t. fold u. rewrite A. reflexivity.
Qed.
