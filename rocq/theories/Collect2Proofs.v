(* Proofs about runs, the permutation histogram and the avalanche counters. *)
From Coq Require Import Permutation.
From Verif Require Import Base BitwiseModel BitwiseSpec BitwiseProofs WordLemmas FloatModel CollectModel CollectSpec CollectProofs.
Open Scope N_scope.

(* ---------- run.h ---------- *)
Definition sides (cutoff : N) (data : list N) : list bool := map (fun v => cutoff <? v) (filter (fun v => negb (v =? cutoff)) data).
Lemma run_count_cons a b l : run_count (a :: b :: l) = (if Bool.eqb a b then 0 else 1) + run_count (b :: l).
Proof. reflexivity. Qed.
Lemma runs_fold cutoff data : forall r p m cur,
  fst (fold_left (runs_step cutoff) data (mkruns r p m, cur)) =
  mkruns (r + run_count (cur :: sides cutoff data) - 1) (p + count (fun v => cutoff <? v) data) (m + count (fun v => v <? cutoff) data).
Proof.
  assert (P : forall a l, 1 <= run_count (a :: l)).
  { intros a l. revert a. induction l as [|b l IH]; intro a; [cbn; lia|]. rewrite run_count_cons. specialize (IH b). lia. }
  induction data as [|v data IH]; intros r p m cur.
  - cbn. f_equal; lia.
  - cbn [fold_left]. unfold count, sides. cbn [filter]. fold (sides cutoff data). unfold runs_step at 2.
    destruct (N.eqb_spec v cutoff) as [->|Hne]; cbn [negb].
    + rewrite IH. rewrite N.ltb_irrefl. reflexivity.
    + cbn [map]. change (map (fun v0 => cutoff <? v0) (filter (fun v0 => negb (v0 =? cutoff)) data)) with (sides cutoff data).
      rewrite run_count_cons. specialize (P (cutoff <? v) (sides cutoff data)).
      destruct (N.ltb_spec cutoff v) as [Hg|Hg], (N.ltb_spec v cutoff) as [Hl|Hl]; try lia; destruct cur; cbn [xorb Bool.eqb negb]; rewrite IH; unfold count; cbn [length]; f_equal; lia.
Qed.
Lemma runs_ok cutoff v data : generate_runs_data (v :: data) cutoff =
  mkruns (run_count ((cutoff <? v) :: sides cutoff (v :: data))) (count (fun v => cutoff <? v) (v :: data)) (count (fun v => v <? cutoff) (v :: data)).
Proof. unfold generate_runs_data. rewrite runs_fold. f_equal; lia. Qed.
Lemma runs_first_unequal cutoff v data : v <> cutoff ->
  rd_runs (generate_runs_data (v :: data) cutoff) = run_count (sides cutoff (v :: data)).
Proof.
  intros H. rewrite runs_ok. cbn [rd_runs]. unfold sides. cbn [filter]. destruct (N.eqb_spec v cutoff); [contradiction|]. cbn [negb map].
  rewrite run_count_cons. rewrite Bool.eqb_reflx. reflexivity.
Qed.
(* The meaning of run_count: the number of blocks in any decomposition into alternating blocks. *)
Fixpoint blocks_of (b : bool) (lengths : list nat) : list bool :=
  match lengths with [] => [] | n :: ns => repeat b n ++ blocks_of (negb b) ns end.
Lemma run_count_blocks : forall lengths b, Forall (fun n => 1 <= n)%nat lengths -> run_count (blocks_of b lengths) = N.of_nat (length lengths).
Proof.
  assert (K : forall n b l, run_count (repeat b (S n) ++ l) = run_count (b :: l)).
  { induction n as [|n IH]; intros b l; [reflexivity|]. change (repeat b (S (S n)) ++ l) with (b :: b :: (repeat b n ++ l)). rewrite run_count_cons, Bool.eqb_reflx.
    rewrite N.add_0_l. exact (IH b l). }
  induction lengths as [|n ns IH]; intros b H; [reflexivity|]. cbn [blocks_of]. pose proof (Forall_inv H) as Hn. apply Forall_inv_tail in H. cbn in Hn.
  destruct n as [|n]; [lia|]. rewrite K. specialize (IH (negb b) H). cbn [length]. destruct ns as [|m ns]; [reflexivity|].
  cbn [blocks_of] in *. pose proof (Forall_inv H) as Hm. cbn in Hm. destruct m as [|m]; [lia|]. cbn [repeat app] in *. rewrite run_count_cons.
  replace (Bool.eqb b (negb b)) with false by (destruct b; reflexivity). rewrite IH. cbn [length]. lia.
Qed.
Lemma blocks_exist : forall l : list bool, exists b lengths, l = blocks_of b lengths /\ Forall (fun n => 1 <= n)%nat lengths.
Proof.
  induction l as [|a l (b & ls & -> & H)]; [exists true, []; split; [reflexivity|constructor]|].
  destruct ls as [|n ns]; [exists a, [1%nat]; split; [destruct a; reflexivity|repeat constructor]|].
  destruct (Bool.bool_dec a b) as [->|Hn].
  - exists b, (S n :: ns). split; [reflexivity|]. pose proof (Forall_inv_tail H). constructor; [lia|assumption].
  - exists a, (1%nat :: n :: ns). split; [|constructor; [lia|assumption]]. cbn [blocks_of repeat app]. destruct a, b; try congruence; reflexivity.
Qed.
Lemma runs_cutoff_bit w x : 0 < w -> is_word w x -> (runs_cutoff w <? x) = N.testbit x (w - 1).
Proof.
  intros Hw Hx. unfold runs_cutoff, is_word in *. assert (E : 2 ^ w = 2 * 2 ^ (w - 1)) by (rewrite <- N.pow_succ_r'; f_equal; lia).
  set (h := 2 ^ (w - 1)) in *. assert (Hh : 0 < h) by (apply N.neq_0_lt_0, N.pow_nonzero; lia).
  assert (C : (2 ^ w - 1) / 2 = h - 1) by (rewrite E; symmetry; apply (N.div_unique _ 2 _ 1); lia). rewrite C.
  rewrite N.testbit_eqb. fold h.
  destruct (N.ltb_spec (h - 1) x) as [H|H].
  - assert (D : x / h = 1) by (symmetry; apply (N.div_unique x h 1 (x - h)); lia). rewrite D. reflexivity.
  - rewrite N.div_small by lia. reflexivity.
Qed.

(* ---------- permutation.h ---------- *)
Lemma permutation_loop len ws : forall f, Forall (fun v => N.to_nat v < len)%nat ws -> (forall i, f i <= 255) ->
  ofold permutation_step ws (cells len f) = Ok (cells len (fun i => N.min 255 (f i + count (fun v => Nat.eqb (N.to_nat v) i) ws))).
Proof.
  induction ws as [|v ws IH]; intros f Hv Hf.
  - cbn [ofold]. f_equal. apply cells_ext. intros i _. unfold count; cbn [filter length N.of_nat]. specialize (Hf i). lia.
  - cbn [ofold]. unfold permutation_step at 1, at_. rewrite cells_nth_error by exact (Forall_inv Hv). cbn [obind].
    set (k := N.to_nat v). assert (Hk : (k < len)%nat) by exact (Forall_inv Hv).
    assert (G : (if f k <? 255 then upd (cells len f) k (f k + 1) else cells len f) = cells len (fun i => if Nat.eqb i k then N.min 255 (f i + 1) else f i)).
    { destruct (N.ltb_spec (f k) 255).
      - rewrite upd_cells by exact Hk. apply cells_ext. intros i _. destruct (Nat.eqb_spec i k) as [->|]; [lia|reflexivity].
      - apply cells_ext. intros i _. specialize (Hf k). destruct (Nat.eqb_spec i k) as [->|]; [lia|reflexivity]. }
    rewrite G. rewrite IH; [|exact (Forall_inv_tail Hv)|intro i; specialize (Hf i); destruct (Nat.eqb i k); lia].
    f_equal. apply cells_ext. intros i _. unfold count. cbn [filter]. fold k. rewrite (Nat.eqb_sym k i). destruct (Nat.eqb i k); cbn [length]; lia.
Qed.
Lemma value_lsb_lt l : value_lsb l < 2 ^ N.of_nat (length l).
Proof.
  induction l as [|b l IH]; [reflexivity|]. cbn [value_lsb length]. rewrite Nat2N.inj_succ, N.pow_succ_r'. destruct b; lia.
Qed.
Lemma permutation_ok w data size : 0 < size < 64 ->
  exists blocks, chopped (N.to_nat size) (flat_map (bits_lsb (N.to_nat w)) data) blocks /\
    exists h, get_permutation_histogram w data size = Ok h /\ N.of_nat (length h) = 2 ^ size /\
      forall v, v < 2 ^ size -> nth (N.to_nat v) h 0 = N.min 255 (count (fun b => value_lsb b =? v) blocks).
Proof.
  intros Hs. destruct (sliding_bit_window_ok w data (N.to_nat size)) as (blocks & E & C); [lia|]. exists blocks. split; [exact C|].
  unfold get_permutation_histogram. destruct (N.leb_spec 64 size); [lia|]. replace (Z.of_N size) with (Z.of_nat (N.to_nat size)) by lia. rewrite E. cbn [obind].
  rewrite cells_zero, permutation_loop; [|apply Forall_map; apply Forall_forall; intros b Hb; destruct C as [C _]; rewrite Forall_forall in C; specialize (C b Hb);
      pose proof (value_lsb_lt b) as V; rewrite C, N2Nat.id in V; lia|intro; lia].
  eexists. split; [reflexivity|]. split; [rewrite cells_length; lia|]. intros v Hv. rewrite cells_nth by lia. f_equal. rewrite N.add_0_l.
  unfold count. f_equal. clear. induction blocks as [|b bs IH]; [reflexivity|]. cbn [map filter].
  assert (Eq : Nat.eqb (N.to_nat (value_lsb b)) (N.to_nat v) = (value_lsb b =? v)).
  { destruct (N.eqb_spec (value_lsb b) v) as [->|Hn]; [apply Nat.eqb_refl|apply Nat.eqb_neq; lia]. }
  rewrite Eq. destruct (value_lsb b =? v); cbn [length]; rewrite IH; reflexivity.
Qed.
Lemma permutation_ub w data size : 64 <= size -> get_permutation_histogram w data size = UB.
Proof. intros H. unfold get_permutation_histogram. rewrite (proj2 (N.leb_le _ _) H). reflexivity. Qed.

(* ---------- avalanche.h ---------- *)
Lemma bit_count_le w x : is_word w x -> bit_count x <= w.
Proof.
  intros H. pose proof (bit_count_spec w x H) as E. unfold count_true in E.
  assert (L : (length (filter (fun b => b) (bits_lsb (N.to_nat w) x)) <= N.to_nat w)%nat).
  { replace (N.to_nat w) with (length (bits_lsb (N.to_nat w) x)) at 2 by (unfold bits_lsb; rewrite map_length, seq_length; reflexivity). generalize (bits_lsb (N.to_nat w) x). intro l. induction l as [|a l IH]; [reflexivity|]. cbn [filter length]. destruct a; cbn [length]; lia. }
  lia.
Qed.
Lemma flip_bit_val w x j : 0 < w <= 64 -> is_word w x -> (j < N.to_nat w)%nat -> flip_bit w x (Z.of_nat j) = Ok (N.lxor x (2 ^ N.of_nat j)) /\ is_word w (N.lxor x (2 ^ N.of_nat j)).
Proof.
  intros Hw Hx Hj. assert (Hp : is_word w (2 ^ N.of_nat j)) by (unfold is_word; apply N.pow_lt_mono_r; lia).
  pose proof (word_lxor w _ _ Hx Hp) as HW. split; [|exact HW]. unfold flip_bit.
  destruct ((Z.of_nat j <? 0) || (64 <=? Z.of_nat j))%Z eqn:E; [lia|]. rewrite N.shiftl_1_l. replace (Z.to_N (Z.of_nat j)) with (N.of_nat j) by lia.
  unfold wrap. rewrite N.mod_small by exact HW. reflexivity.
Qed.
Lemma count_app {A} (p : A -> bool) l l' : count p (l ++ l') = count p l + count p l'.
Proof. unfold count. rewrite filter_app, app_length. lia. Qed.
Lemma count_map {A B} (f : A -> B) (p : B -> bool) l : count p (map f l) = count (fun x => p (f x)) l.
Proof. unfold count. f_equal. induction l as [|a l IH]; [reflexivity|]. cbn. destruct (p (f a)); cbn; rewrite IH; reflexivity. Qed.
Lemma count_ext {A} (p q : A -> bool) l : (forall x, In x l -> p x = q x) -> count p l = count q l.
Proof.
  intros H. unfold count. f_equal. f_equal. induction l as [|a l IH]; [reflexivity|]. cbn. rewrite (H a (or_introl eq_refl)), IH by (intros; apply H; right; assumption). reflexivity.
Qed.
Definition word_fun (w : N) (mix : N -> N) : Prop := forall x, is_word w x -> is_word w (mix x).
Lemma change_word w mix s j : 0 < w <= 64 -> word_fun w mix -> is_word w s -> (j < N.to_nat w)%nat -> is_word w (output_change mix s j).
Proof.
  intros Hw Hm Hs Hj. unfold output_change. apply word_lxor; [apply Hm, Hm, Hs|]. apply Hm. apply flip_bit_val; [assumption|apply Hm, Hs|exact Hj].
Qed.
Lemma sac_sample_ok w mix s f : 0 < w <= 64 -> word_fun w mix -> is_word w s ->
  sac_sample w mix (cells (S (N.to_nat w)) f) s =
  Ok (cells (S (N.to_nat w)) (fun i => f i + count (fun j => Nat.eqb (N.to_nat (bit_count (output_change mix s j))) i) (seq 0 (N.to_nat w)))).
Proof.
  intros Hw Hm Hs. unfold sac_sample. apply (inc_loop (fun j => N.to_nat (bit_count (output_change mix s j)))).
  - intros h j Hj. apply in_seq in Hj. destruct (flip_bit_val w (mix s) j Hw (Hm _ Hs) ltac:(lia)) as [-> _]. reflexivity.
  - apply Forall_forall. intros j Hj. apply in_seq in Hj. pose proof (bit_count_le w _ (change_word w mix s j Hw Hm Hs ltac:(lia))). lia.
Qed.
Lemma sac_ok w mix data : 0 < w <= 64 -> word_fun w mix -> Forall (is_word w) data ->
  exists h, avalanche_generate_sac w mix data = Ok h /\ length h = S (N.to_nat w) /\
    (forall c, (c <= N.to_nat w)%nat -> nth c h 0 = count (fun p => bit_count (output_change mix (fst p) (snd p)) =? N.of_nat c) (flips w data)) /\
    total h = N.of_nat (length data) * w.
Proof.
  intros Hw Hm Hd. unfold avalanche_generate_sac. rewrite cells_zero.
  set (key := fun p : N * nat => N.to_nat (bit_count (output_change mix (fst p) (snd p)))).
  assert (G : forall f, ofold (sac_sample w mix) data (cells (S (N.to_nat w)) f) = Ok (cells (S (N.to_nat w)) (fun i => f i + count (fun p => Nat.eqb (key p) i) (flips w data)))).
  { clear - Hw Hm Hd. induction Hd as [|s data Hs Hd IH]; intro f.
    - cbn [ofold]. f_equal. apply cells_ext. intros. unfold count; cbn [flips list_prod filter length N.of_nat]. lia.
    - cbn [ofold]. rewrite sac_sample_ok by assumption. cbn [obind]. rewrite IH. f_equal. apply cells_ext. intros i _.
      unfold flips. cbn [list_prod]. rewrite count_app, count_map. unfold key. cbn [fst snd]. lia. }
  rewrite G. eexists. split; [reflexivity|]. split; [apply cells_length|]. split.
  - intros c Hc. rewrite cells_nth by lia. rewrite N.add_0_l. apply count_ext. intros p _. unfold key.
    destruct (N.eqb_spec (bit_count (output_change mix (fst p) (snd p))) (N.of_nat c)) as [->|Hn]; [apply Nat.eqb_eq; lia|apply Nat.eqb_neq; lia].
  - rewrite (cells_ext _ _ (fun i => count (fun p => Nat.eqb (key p) i) (flips w data))) by (intros; lia). rewrite total_cells_count.
    + unfold flips. rewrite prod_length, seq_length. lia.
    + apply Forall_forall. intros [s j] Hp. unfold flips in Hp. apply in_prod_iff in Hp. destruct Hp as [H1 H2]. apply in_seq in H2. rewrite Forall_forall in Hd.
      unfold key. cbn [fst snd]. pose proof (bit_count_le w _ (change_word w mix s j Hw Hm (Hd s H1) ltac:(lia))). lia.
Qed.
Lemma bit_count_0 x : bit_count x = 0 -> x = 0.
Proof.
  destruct x as [|p]; [reflexivity|]. cbn. intros H. exfalso. revert H. induction p; cbn; intro H; [destruct (popcount_pos p); discriminate|auto|discriminate].
Qed.
Lemma sac_bijective w mix data h : 0 < w <= 64 -> word_bijection w mix -> Forall (is_word w) data ->
  avalanche_generate_sac w mix data = Ok h -> nth 0 h 0 = 0.
Proof.
  intros Hw (Hm & Hinj & _) Hd E. destruct (sac_ok w mix data Hw Hm Hd) as (h' & E' & _ & Hc & _). rewrite E in E'. injection E' as <-.
  rewrite Hc by lia. unfold count.
  assert (Z : filter (fun p => bit_count (output_change mix (fst p) (snd p)) =? N.of_nat 0) (flips w data) = []); [|rewrite Z; reflexivity].
  apply incl_l_nil. intros [s j] Hp. apply filter_In in Hp. destruct Hp as [Hp E0]. apply N.eqb_eq in E0. apply bit_count_0 in E0. cbn [fst snd] in E0. exfalso.
  unfold flips in Hp. apply in_prod_iff in Hp. destruct Hp as [H1 H2]. apply in_seq in H2. rewrite Forall_forall in Hd. specialize (Hd s H1).
  unfold output_change in E0. apply N.lxor_eq in E0. destruct (flip_bit_val w (mix s) j Hw (Hm _ Hd) ltac:(lia)) as [_ Hf].
  apply Hinj in E0; [|apply Hm, Hd|exact Hf]. assert (Z : N.testbit (mix s) (N.of_nat j) = N.testbit (N.lxor (mix s) (2 ^ N.of_nat j)) (N.of_nat j)) by (rewrite <- E0; reflexivity).
  rewrite N.lxor_spec, N.pow2_bits_true, xorb_true_r in Z. destruct (N.testbit (mix s) (N.of_nat j)); discriminate.
Qed.

(* bic: rows j, columns k *)
Definition bitn (b : bool) : N := if b then 1 else 0.
Lemma land1 x k : N.land (N.shiftr x k) 1 = bitn (N.testbit x k).
Proof.
  change 1 with (N.ones 1). rewrite N.land_ones. change (2 ^ 1) with 2. rewrite <- N.bit0_mod, N.shiftr_spec', N.add_0_l. reflexivity.
Qed.
Lemma bic_row len change j bits : forall n f s, (j * bits + s + n <= len)%nat ->
  ofold (fun bic k => vec_add bic (j * bits + k) (N.land (N.shiftr change (N.of_nat k)) 1)) (seq s n) (cells len f) =
  Ok (cells len (fun i => f i + (if (j * bits + s <=? i)%nat && (i <? j * bits + s + n)%nat then bitn (N.testbit change (N.of_nat (i - j * bits))) else 0))).
Proof.
  induction n as [|n IH]; intros f s H.
  - cbn [seq ofold]. f_equal. apply cells_ext. intros i _. destruct ((j * bits + s <=? i)%nat && (i <? j * bits + s + 0)%nat) eqn:E; [lia|lia].
  - cbn [seq ofold]. rewrite vec_add_cells by lia. cbn [obind]. rewrite IH by lia. f_equal. apply cells_ext. intros i _. unfold bump. rewrite land1.
    destruct (Nat.eqb_spec i (j * bits + s)) as [->|Hn].
    + replace (j * bits + s - j * bits)%nat with s by lia.
      destruct ((j * bits + S s <=? j * bits + s)%nat && (j * bits + s <? j * bits + S s + n)%nat) eqn:E1; [lia|].
      destruct ((j * bits + s <=? j * bits + s)%nat && (j * bits + s <? j * bits + s + S n)%nat) eqn:E2; [lia|lia].
    + destruct ((j * bits + S s <=? i)%nat && (i <? j * bits + S s + n)%nat) eqn:E1, ((j * bits + s <=? i)%nat && (i <? j * bits + s + S n)%nat) eqn:E2; lia.
Qed.
Lemma bic_sample_ok w mix s f : 0 < w <= 64 -> word_fun w mix -> is_word w s ->
  let b := N.to_nat w in
  bic_sample w mix (cells (b * b) f) s = Ok (cells (b * b) (fun i => f i + bitn (N.testbit (output_change mix s (i / b)) (N.of_nat (i mod b))))).
Proof.
  intros Hw Hm Hs b. unfold bic_sample. fold b. assert (Hb : (0 < b)%nat) by lia.
  assert (G : forall n f s0, (s0 + n <= b)%nat ->
    ofold (fun bic j => y <- flip_bit w (mix s) (Z.of_nat j) ;;
       ofold (fun bic k => vec_add bic (j * b + k) (N.land (N.shiftr (N.lxor (mix (mix s)) (mix y)) (N.of_nat k)) 1)) (seq 0 b) bic) (seq s0 n) (cells (b * b) f)
    = Ok (cells (b * b) (fun i => f i + (if (s0 <=? i / b)%nat && (i / b <? s0 + n)%nat then bitn (N.testbit (output_change mix s (i / b)) (N.of_nat (i mod b))) else 0)))).
  { induction n as [|n IH]; intros g s0 H.
    - cbn [seq ofold]. f_equal. apply cells_ext. intros i _. destruct ((s0 <=? i / b)%nat && (i / b <? s0 + 0)%nat) eqn:E; lia.
    - cbn [seq ofold]. destruct (flip_bit_val w (mix s) s0 Hw (Hm _ Hs) ltac:(lia)) as [-> _]. cbn [obind].
      rewrite bic_row by nia. cbn [obind]. rewrite IH by lia. f_equal. apply cells_ext. intros i Hi.
      pose proof (Nat.div_mod i b ltac:(lia)) as D. pose proof (Nat.mod_upper_bound i b ltac:(lia)) as M.
      fold (output_change mix s s0).
      assert (Q : ((s0 * b + 0 <=? i)%nat && (i <? s0 * b + 0 + b)%nat) = (i / b =? s0)%nat).
      { destruct (Nat.eqb_spec (i / b) s0) as [Eq|Ne]; [nia|]. destruct ((s0 * b + 0 <=? i)%nat && (i <? s0 * b + 0 + b)%nat) eqn:E; [|reflexivity]. exfalso. apply Ne. symmetry. apply (Nat.div_unique i b s0 (i - s0 * b)); lia. }
      rewrite Q. destruct (Nat.eqb_spec (i / b) s0) as [Eq|Ne].
      + replace (i - s0 * b)%nat with (i mod b)%nat by (rewrite <- Eq; lia). rewrite Eq.
        destruct ((S s0 <=? s0)%nat && (s0 <? S s0 + n)%nat) eqn:E1; [lia|]. destruct ((s0 <=? s0)%nat && (s0 <? s0 + S n)%nat) eqn:E2; lia.
      + destruct ((S s0 <=? i / b)%nat && (i / b <? S s0 + n)%nat) eqn:E1, ((s0 <=? i / b)%nat && (i / b <? s0 + S n)%nat) eqn:E2; lia. }
  rewrite G by lia. f_equal. apply cells_ext. intros i Hi. assert (i / b < b)%nat by (apply Nat.div_lt_upper_bound; lia).
  rewrite (proj2 (Nat.leb_le 0 (i / b)) (Nat.le_0_l _)). rewrite Nat.add_0_l. rewrite (proj2 (Nat.ltb_lt (i / b) b)) by assumption. reflexivity.
Qed.
Lemma bic_ok w mix data : 0 < w <= 64 -> word_fun w mix -> Forall (is_word w) data ->
  exists h, avalanche_generate_bic w mix data = Ok h /\ length h = (N.to_nat w * N.to_nat w)%nat /\
    forall j k, (j < N.to_nat w)%nat -> (k < N.to_nat w)%nat ->
      nth (j * N.to_nat w + k) h 0 = count (fun s => N.testbit (output_change mix s j) (N.of_nat k)) data.
Proof.
  intros Hw Hm Hd. unfold avalanche_generate_bic. rewrite cells_zero. set (b := N.to_nat w) in *.
  assert (G : forall f, ofold (bic_sample w mix) data (cells (b * b) f) = Ok (cells (b * b) (fun i => f i + count (fun s => N.testbit (output_change mix s (i / b)) (N.of_nat (i mod b))) data))).
  { induction Hd as [|s data Hs Hd IH]; intro f.
    - cbn [ofold]. f_equal. apply cells_ext. intros. unfold count; cbn [flips list_prod filter length N.of_nat]. lia.
    - cbn [ofold]. unfold b at 1 2. rewrite bic_sample_ok by assumption. cbn [obind]. fold b. rewrite IH. f_equal. apply cells_ext. intros i _.
      unfold count. cbn [filter]. destruct (N.testbit (output_change mix s (i / b)) (N.of_nat (i mod b))); cbn [bitn length]; lia. }
  rewrite G. eexists. split; [reflexivity|]. split; [apply cells_length|]. intros j k Hj Hk.
  rewrite cells_nth by nia. rewrite N.add_0_l. rewrite Nat.div_add_l by lia. rewrite (Nat.div_small k b Hk), Nat.add_0_r.
  replace ((j * b + k) mod b)%nat with k by (rewrite Nat.add_comm, Nat.mod_add by lia; symmetry; apply Nat.mod_small, Hk). reflexivity.
Qed.

(* totals *)
Definition nsum (l : list N) : N := fold_right N.add 0 l.
Lemma nsum_app a b : nsum (a ++ b) = nsum a + nsum b.
Proof. unfold nsum. rewrite fold_right_app. induction a as [|x a IH]; cbn; [lia|]. cbn in IH. rewrite IH. lia. Qed.
Lemma nsum_map_ext {A} (f g : A -> N) l : (forall x, In x l -> f x = g x) -> nsum (map f l) = nsum (map g l).
Proof. intros H. f_equal. apply map_ext_in, H. Qed.
Lemma nsum_add {A} (f g : A -> N) l : nsum (map (fun x => f x + g x) l) = nsum (map f l) + nsum (map g l).
Proof. induction l as [|a l IH]; cbn [map nsum fold_right]; [reflexivity|]. unfold nsum in IH. rewrite IH. lia. Qed.
Lemma nsum_zero {A} (l : list A) : nsum (map (fun _ => 0) l) = 0.
Proof. induction l; [reflexivity|exact IHl]. Qed.
Lemma nsum_swap {A B} (f : A -> B -> N) l l' : nsum (map (fun x => nsum (map (f x) l')) l) = nsum (map (fun y => nsum (map (fun x => f x y) l)) l').
Proof.
  induction l as [|a l IH]; cbn [map nsum fold_right].
  - rewrite nsum_zero. reflexivity.
  - fold (nsum (map (fun x => nsum (map (f x) l')) l)). rewrite IH, <- nsum_add. apply nsum_map_ext. reflexivity.
Qed.
Lemma count_as_sum {A} (p : A -> bool) l : count p l = nsum (map (fun x => bitn (p x)) l).
Proof. unfold count. induction l as [|a l IH]; [reflexivity|]. cbn [filter map nsum fold_right]. fold (nsum (map (fun x => bitn (p x)) l)). rewrite <- IH. destruct (p a); cbn [length bitn]; lia. Qed.
Lemma bit_count_sum w x : is_word w x -> bit_count x = nsum (map (fun k => bitn (N.testbit x (N.of_nat k))) (seq 0 (N.to_nat w))).
Proof.
  intros H. pose proof (bit_count_spec w x H) as E. rewrite <- count_as_sum. unfold count. rewrite <- (N2Nat.id (bit_count x)), E. f_equal.
  unfold count_true, bits_lsb. generalize (seq 0 (N.to_nat w)). intro l. induction l as [|a l IH]; [reflexivity|]. cbn. destruct (N.testbit x (N.of_nat a)); cbn; rewrite IH; reflexivity.
Qed.
Lemma weighted_count {A} (key : A -> N) (n : nat) l : Forall (fun x => key x <= N.of_nat n) l ->
  nsum (map (fun c => N.of_nat c * count (fun x => key x =? N.of_nat c) l) (seq 0 (S n))) = nsum (map key l).
Proof.
  intros H. rewrite (nsum_map_ext _ (fun c => nsum (map (fun x => if key x =? N.of_nat c then N.of_nat c else 0) l))).
  - rewrite nsum_swap. apply nsum_map_ext. intros x Hx. rewrite Forall_forall in H. specialize (H x Hx).
    assert (G : forall m s, nsum (map (fun y => if key x =? N.of_nat y then N.of_nat y else 0) (seq s m)) = if (N.of_nat s <=? key x) && (key x <? N.of_nat (s + m)) then key x else 0).
    { induction m as [|m IH]; intro s; cbn [seq map nsum fold_right].
      - destruct ((N.of_nat s <=? key x) && (key x <? N.of_nat (s + 0))) eqn:E; lia.
      - fold (nsum (map (fun y => if key x =? N.of_nat y then N.of_nat y else 0) (seq (S s) m))). rewrite IH.
        destruct (N.eqb_spec (key x) (N.of_nat s)); destruct ((N.of_nat (S s) <=? key x) && (key x <? N.of_nat (S s + m))) eqn:E1, ((N.of_nat s <=? key x) && (key x <? N.of_nat (s + S m))) eqn:E2; lia. }
    rewrite G. destruct ((N.of_nat 0 <=? key x) && (key x <? N.of_nat (0 + S n))) eqn:E; lia.
  - intros c _. rewrite count_as_sum. clear. induction l as [|a l IH]; cbn [map nsum fold_right]; [lia|].
    unfold nsum in IH. rewrite N.mul_add_distr_l, IH. destruct (key a =? N.of_nat c); cbn [bitn]; lia.
Qed.
Lemma nsum_nth (l : list N) : nsum l = nsum (map (fun i => nth i l 0) (seq 0 (length l))).
Proof. rewrite (list_as_cells l) at 1. reflexivity. Qed.
Lemma seq_mul b : forall n, nsum (map (fun _ => 0) (seq 0 n)) = 0 /\ forall g : nat -> N, nsum (map g (seq 0 (n * b))) = nsum (map (fun j => nsum (map (fun k => g (j * b + k)%nat) (seq 0 b))) (seq 0 n)).
Proof.
  intro n. split; [apply nsum_zero|]. intro g. induction n as [|n IH]; [reflexivity|].
  replace (S n * b)%nat with (n * b + b)%nat by lia. rewrite seq_app, map_app, nsum_app, IH. rewrite seq_S, map_app, nsum_app. cbn [map nsum fold_right Nat.add].
  rewrite N.add_0_r. f_equal. rewrite <- (map_map (fun k => n * b + k)%nat g). f_equal. f_equal.
  assert (E : forall s len, seq s len = map (fun k => s + k)%nat (seq 0 len)).
  { intros s len. revert s. induction len as [|len IHl]; intro s; [reflexivity|]. cbn [seq map]. rewrite Nat.add_0_r. f_equal. rewrite IHl, <- seq_shift, map_map. apply map_ext. intro. lia. }
  apply E.
Qed.
Lemma bic_total w mix data hs hb : 0 < w <= 64 -> word_fun w mix -> Forall (is_word w) data ->
  avalanche_generate_sac w mix data = Ok hs -> avalanche_generate_bic w mix data = Ok hb ->
  total hb = nsum (map (fun c => N.of_nat c * nth c hs 0) (seq 0 (S (N.to_nat w)))).
Proof.
  intros Hw Hm Hd Es Eb. destruct (sac_ok w mix data Hw Hm Hd) as (h & E & Ls & Cs & _). rewrite Es in E. injection E as <-.
  destruct (bic_ok w mix data Hw Hm Hd) as (h & E & Lb & Cb). rewrite Eb in E. injection E as <-.
  rewrite (nsum_map_ext (fun c => N.of_nat c * nth c hs 0) (fun c => N.of_nat c * count (fun p => bit_count (output_change mix (fst p) (snd p)) =? N.of_nat c) (flips w data))).
  2:{ intros c Hc. apply in_seq in Hc. rewrite Cs by lia. reflexivity. }
  assert (Fw : forall s j, In s data -> In j (seq 0 (N.to_nat w)) -> is_word w (output_change mix s j)).
  { intros s j Hs Hj. apply in_seq in Hj. rewrite Forall_forall in Hd. apply change_word; auto; lia. }
  rewrite (weighted_count (fun p : N * nat => bit_count (output_change mix (fst p) (snd p)))).
  2:{ apply Forall_forall. intros [s j] Hp. unfold flips in Hp. apply in_prod_iff in Hp. cbn [fst snd]. pose proof (bit_count_le w _ (Fw s j (proj1 Hp) (proj2 Hp))). lia. }
  change (total hb) with (nsum hb). rewrite (nsum_nth hb), Lb. destruct (seq_mul (N.to_nat w) (N.to_nat w)) as [_ SM]. rewrite SM.
  rewrite (nsum_map_ext _ (fun j => nsum (map (fun s => bit_count (output_change mix s j)) data))).
  - rewrite <- nsum_swap. unfold flips. clear. induction data as [|s data IH]; [reflexivity|].
    cbn [list_prod map nsum fold_right]. rewrite map_app, nsum_app, map_map. cbn [fst snd]. f_equal. exact IH.
  - intros j Hj. rewrite (nsum_map_ext _ (fun k => nsum (map (fun s => bitn (N.testbit (output_change mix s j) (N.of_nat k))) data))).
    + rewrite <- nsum_swap. apply nsum_map_ext. intros s Hs. symmetry. apply bit_count_sum, Fw; assumption.
    + intros k Hk. apply in_seq in Hj, Hk. rewrite Cb by lia. apply count_as_sum.
Qed.

(* ---------- serial_avalanche.h ---------- *)
Definition grid (size : nat) (f : nat -> nat -> N) : list (list N) := map (fun i => cells size (f i)) (seq 0 size).
Lemma grid_row size f i : (i < size)%nat -> nth_error (grid size f) i = Some (cells size (f i)).
Proof.
  intros H. unfold grid. rewrite nth_error_map. rewrite (nth_error_nth' _ O) by (rewrite seq_length; exact H). rewrite seq_nth by exact H. reflexivity.
Qed.
Lemma serial_ok_gen size data : Forall (fun p => N.to_nat (bit_count (fst p)) < size /\ N.to_nat (bit_count (snd p)) < size)%nat (pairs data) ->
  forall f, serial_count_loop data (grid size f) =
    Ok (grid size (fun i j => f i j + count (fun p => Nat.eqb (N.to_nat (bit_count (fst p))) i && Nat.eqb (N.to_nat (bit_count (snd p))) j) (pairs data))).
Proof.
  assert (G : forall n data, (length data <= n)%nat -> Forall (fun p => N.to_nat (bit_count (fst p)) < size /\ N.to_nat (bit_count (snd p)) < size)%nat (pairs data) ->
    forall f, serial_count_loop data (grid size f) =
    Ok (grid size (fun i j => f i j + count (fun p => Nat.eqb (N.to_nat (bit_count (fst p))) i && Nat.eqb (N.to_nat (bit_count (snd p))) j) (pairs data)))).
  { assert (Ext : forall f g, (forall i j, f i j = g i j) -> grid size f = grid size g).
    { intros f g H. unfold grid. apply map_ext. intro i. apply cells_ext. intros j _. apply H. }
    induction n as [|n IH]; intros d Hl H f.
    - destruct d; [|cbn in Hl; lia]. cbn. f_equal. apply Ext. intros. unfold count; cbn. lia.
    - destruct d as [|x [|y d]]; [cbn; f_equal; apply Ext; intros; unfold count; cbn; lia|cbn; f_equal; apply Ext; intros; unfold count; cbn; lia|].
      cbn [pairs] in H. cbn [serial_count_loop pairs]. destruct (Forall_inv H) as [Hx Hy]. cbn [fst snd] in Hx, Hy. apply Forall_inv_tail in H.
      set (a := N.to_nat (bit_count x)) in *. set (b := N.to_nat (bit_count y)) in *.
      unfold matrix_inc, at_. rewrite grid_row by exact Hx. cbn [obind]. rewrite vec_inc_cells by exact Hy. cbn [obind].
      assert (U : upd (grid size f) a (cells size (bump (f a) b 1)) = grid size (fun i j => if Nat.eqb i a then bump (f a) b 1 j else f i j)).
      { unfold grid. rewrite upd_map_seq by exact Hx. apply map_ext. intro i. cbn [Nat.add]. destruct (Nat.eqb_spec i a); reflexivity. }
      rewrite U. cbn [length] in Hl. rewrite IH by (assumption || lia). f_equal. apply Ext. intros i j. unfold count. cbn [filter fst snd]. fold a b.
      rewrite (Nat.eqb_sym a i), (Nat.eqb_sym b j). unfold bump. destruct (Nat.eqb_spec i a) as [->|]; cbn [andb]; [|lia].
      destruct (Nat.eqb j b); cbn [length]; lia. }
  intros H f. apply (G (length data)); [lia|exact H].
Qed.
Lemma pairs_in data x y : In (x, y) (pairs data) -> In x data /\ In y data.
Proof.
  assert (G : forall n data, (length data <= n)%nat -> In (x, y) (pairs data) -> In x data /\ In y data).
  { induction n as [|n IH]; intros d Hl H; [destruct d; [destruct H|cbn in Hl; lia]|].
    destruct d as [|a [|b d]]; [destruct H|destruct H|]. cbn [pairs In length] in *. destruct H as [H|H]; [injection H as -> ->; auto|]. destruct (IH d ltac:(lia) H). auto. }
  apply (G (length data)). lia.
Qed.
Lemma pairs_length data : length (pairs data) = (length data / 2)%nat.
Proof.
  assert (G : forall n data, (length data <= n)%nat -> length (pairs data) = (length data / 2)%nat).
  { induction n as [|n IH]; intros d Hl; [destruct d; [reflexivity|cbn in Hl; lia]|].
    destruct d as [|a [|b d]]; [reflexivity|reflexivity|]. cbn [pairs length] in *. rewrite IH by lia.
    replace (S (S (length d))) with (length d + 1 * 2)%nat by lia. rewrite Nat.div_add by lia. lia. }
  apply (G (length data)). lia.
Qed.
Lemma grid_zero size : repeat (repeat 0 size) size = grid size (fun _ _ => 0).
Proof.
  unfold grid. rewrite cells_zero. generalize (cells size (fun _ => 0)). intro r. generalize O at 1. induction size as [|n IH]; intro k; [reflexivity|]. cbn. f_equal. apply IH.
Qed.
Lemma grid_length size f : length (grid size f) = size.
Proof. unfold grid. rewrite map_length, seq_length. reflexivity. Qed.
Lemma serial_ok w data : Forall (is_word w) data ->
  exists m, serial_avalanche_count w data = Ok m /\ length m = S (N.to_nat w) /\ Forall (fun row => length row = S (N.to_nat w)) m /\
    (forall i j, i <= w -> j <= w -> nth (N.to_nat j) (nth (N.to_nat i) m []) 0 =
       count (fun p => (bit_count (fst p) =? i) && (bit_count (snd p) =? j)) (pairs data)) /\
    total (map total m) = N.of_nat (length data / 2).
Proof.
  intros Hd. unfold serial_avalanche_count. set (size := S (N.to_nat w)).
  assert (B : forall x, In x data -> (N.to_nat (bit_count x) < size)%nat).
  { intros x Hx. rewrite Forall_forall in Hd. pose proof (bit_count_le w x (Hd x Hx)). unfold size. lia. }
  assert (F : Forall (fun p => N.to_nat (bit_count (fst p)) < size /\ N.to_nat (bit_count (snd p)) < size)%nat (pairs data)).
  { apply Forall_forall. intros [x y] H. apply pairs_in in H. cbn [fst snd]. split; apply B; apply H. }
  rewrite grid_zero, serial_ok_gen by exact F.
  eexists. split; [reflexivity|]. split; [apply grid_length|]. split.
  { apply Forall_forall. intros r Hr. unfold grid in Hr. apply in_map_iff in Hr. destruct Hr as (i & <- & _). apply cells_length. }
  split.
  - intros i j Hi Hj. rewrite (nth_error_nth _ _ _ (grid_row size _ (N.to_nat i) ltac:(unfold size; lia))).
    rewrite cells_nth by (unfold size; lia). rewrite N.add_0_l. apply count_ext. intros p _. f_equal.
    + destruct (N.eqb_spec (bit_count (fst p)) i) as [->|]; [apply Nat.eqb_refl|apply Nat.eqb_neq; lia].
    + destruct (N.eqb_spec (bit_count (snd p)) j) as [->|]; [apply Nat.eqb_refl|apply Nat.eqb_neq; lia].
  - unfold grid. rewrite map_map.
    rewrite (map_ext_in _ (fun i => count (fun p : N * N => Nat.eqb (N.to_nat (bit_count (fst p))) i) (pairs data))).
    + change (total (cells size (fun i => count (fun p : N * N => Nat.eqb (N.to_nat (bit_count (fst p))) i) (pairs data))) = N.of_nat (length data / 2)).
      rewrite total_cells_count; [rewrite pairs_length; reflexivity|]. eapply Forall_impl; [|exact F]. cbn. tauto.
    + intros i _. rewrite (cells_ext _ _ (fun j => count (fun p : N * N => Nat.eqb (N.to_nat (bit_count (snd p))) j) (filter (fun p => Nat.eqb (N.to_nat (bit_count (fst p))) i) (pairs data)))).
      * rewrite total_cells_count; [reflexivity|]. apply Forall_forall. intros p Hp. apply filter_In in Hp. rewrite Forall_forall in F. apply F, Hp.
      * intros j _. rewrite N.add_0_l. unfold count. f_equal. f_equal. clear. induction (pairs data) as [|a l IH]; [reflexivity|]. cbn [filter].
        destruct (Nat.eqb (N.to_nat (bit_count (fst a))) i); cbn [andb filter]; [|exact IH]. destruct (Nat.eqb (N.to_nat (bit_count (snd a))) j); rewrite IH; reflexivity.
Qed.
