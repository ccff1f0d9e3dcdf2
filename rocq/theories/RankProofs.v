(* The in-place elimination computes rank_rows; for_each_matrix chops the bits. *)
From Verif Require Import Base BitwiseModel BitwiseSpec BitwiseProofs RankModel RankSpec CollectModel.
Open Scope N_scope.

Lemma ofold_app {St A} (f : St -> A -> outcome St) l1 l2 s : ofold f (l1 ++ l2) s = (s' <- ofold f l1 s ;; ofold f l2 s').
Proof. revert s. induction l1 as [|a l1 IH]; intro s; [reflexivity|]. cbn [app ofold]. destruct (f s a); [apply IH|reflexivity]. Qed.
Lemma upd_length {A} (l : list A) i a : length (upd l i a) = length l.
Proof. revert i. induction l as [|x l IH]; intros [|i]; cbn [upd length]; try rewrite IH; reflexivity. Qed.
Lemma nth_upd {A} (l : list A) i j a d : (i < length l)%nat -> nth j (upd l i a) d = if (j =? i)%nat then a else nth j l d.
Proof. revert i j. induction l as [|x l IH]; intros [|i] [|j] H; cbn [upd nth length Nat.eqb] in *; try lia; try reflexivity. apply IH. lia. Qed.
Lemma at_nth l i (d : N) : (i < length l)%nat -> at_ l i = Ok (nth i l d).
Proof. intro H. unfold at_. rewrite (nth_error_nth' l d H). reflexivity. Qed.

Section M.
Variable n : nat.
Definition cell (d : list N) (r c : nat) : N := nth (r * n + c) d 0.
Definition rowof (d : list N) (r : nat) : list bool := map (fun c => cell d r c =? 1) (seq 0 n).
Definition wf (d : list N) : Prop := length d = (n * n)%nat /\ Forall (fun x => x = 0 \/ x = 1) d.
Lemma index_lt r c : (r < n)%nat -> (c < n)%nat -> (r * n + c < n * n)%nat.
Proof. intros. nia. Qed.
Lemma index_inj r c r' c' : (c < n)%nat -> (c' < n)%nat -> (r * n + c = r' * n + c')%nat -> r = r' /\ c = c'.
Proof. intros H1 H2 E. assert (r = r') by nia. subst r'. split; [reflexivity|lia]. Qed.
Lemma cell_01 d r c : wf d -> cell d r c = 0 \/ cell d r c = 1.
Proof.
  intros [L F]. unfold cell. destruct (Nat.lt_ge_cases (r * n + c) (length d)) as [H|H].
  - rewrite Forall_forall in F. apply F, nth_In, H.
  - rewrite nth_overflow by exact H. left. reflexivity.
Qed.
Lemma nth_rowof d r c : (c < n)%nat -> nth c (rowof d r) false = (cell d r c =? 1).
Proof.
  intro H. unfold rowof. rewrite nth_indep with (d' := (fun c => cell d r c =? 1) 0%nat) by (rewrite map_length, seq_length; exact H).
  rewrite (map_nth (fun c => cell d r c =? 1)), seq_nth by exact H. reflexivity.
Qed.
Lemma rowof_len d r : length (rowof d r) = n.
Proof. unfold rowof. rewrite map_length, seq_length. reflexivity. Qed.
Lemma mget_cell d r c : wf d -> (r < n)%nat -> (c < n)%nat -> mget n d r c = Ok (cell d r c).
Proof. intros [L _] Hr Hc. unfold mget, cell. apply at_nth. rewrite L. apply index_lt; assumption. Qed.
Lemma mset_cell d r c v : wf d -> (r < n)%nat -> (c < n)%nat -> v = 0 \/ v = 1 -> exists d', mset n d r c v = Ok d' /\ wf d' /\
  (forall r' c', (c' < n)%nat -> cell d' r' c' = if ((r' =? r) && (c' =? c))%nat then v else cell d r' c').
Proof.
  intros [L F] Hr Hc Hv. unfold mset. pose proof (index_lt r c Hr Hc) as I. rewrite <- L in I. rewrite (proj2 (Nat.ltb_lt _ _) I). eexists. split; [reflexivity|]. split.
  - split; [rewrite upd_length; exact L|]. apply Forall_forall. intros x Hx. apply (In_nth _ _ 0) in Hx. destruct Hx as (i & Hi & <-). rewrite upd_length in Hi.
    rewrite nth_upd by exact I. destruct (i =? r * n + c)%nat; [exact Hv|]. rewrite Forall_forall in F. apply F, nth_In, Hi.
  - intros r' c' Hc'. unfold cell. rewrite nth_upd by exact I. destruct (Nat.eqb_spec (r' * n + c') (r * n + c)) as [E|E].
    + apply index_inj in E; try assumption. destruct E as [-> ->]. rewrite !Nat.eqb_refl. reflexivity.
    + destruct (Nat.eqb_spec r' r) as [->|]; [|reflexivity]. destruct (Nat.eqb_spec c' c) as [->|]; [exfalso; apply E; reflexivity|reflexivity].
Qed.

Lemma first_set_some v c : first_set v = Some c -> (c < length v)%nat /\ nth c v false = true /\ forall j, (j < c)%nat -> nth j v false = false.
Proof.
  revert c. induction v as [|b v IH]; intros c H; [discriminate|]. cbn [first_set] in H. destruct b.
  - injection H as <-. cbn [length nth]. split; [lia|]. split; [reflexivity|lia].
  - destruct (first_set v) as [c'|]; [|discriminate]. injection H as <-. destruct (IH c' eq_refl) as (A & B & C). cbn [length nth]. split; [lia|]. split; [exact B|].
    intros [|j] Hj; [reflexivity|]. apply C. lia.
Qed.
Lemma first_set_none v : first_set v = None -> forall j, nth j v false = false.
Proof.
  induction v as [|b v IH]; intros H j; [destruct j; reflexivity|]. cbn [first_set] in H. destruct b; [discriminate|]. destruct (first_set v); [discriminate|]. destruct j; [reflexivity|]. apply IH. reflexivity.
Qed.
Lemma find_col_gen d row : wf d -> (row < n)%nat -> forall left col, (col + left = n)%nat ->
  find_col n d row col left = Ok (match first_set (map (fun c => cell d row c =? 1) (seq col left)) with Some k => (col + k)%nat | None => n end).
Proof.
  intros W Hr. induction left as [|left IH]; intros col H; cbn [find_col seq map first_set].
  - f_equal. lia.
  - rewrite mget_cell by (assumption || lia). cbn [obind]. destruct (cell_01 d row col W) as [E|E]; rewrite E.
    + cbn [N.eqb]. rewrite IH by lia. destruct (first_set _); cbn [option_map]; f_equal; lia.
    + cbn [N.eqb Pos.eqb]. f_equal. lia.
Qed.
Lemma find_col_ok d row : wf d -> (row < n)%nat -> find_col n d row 0 n = Ok (match first_set (rowof d row) with Some k => k | None => n end).
Proof. intros W H. rewrite find_col_gen by (assumption || lia). reflexivity. Qed.

Lemma lxor_01 a b : a = 0 \/ a = 1 -> b = 0 \/ b = 1 -> (N.lxor a b = 0 \/ N.lxor a b = 1) /\ (N.lxor a b =? 1) = xorb (a =? 1) (b =? 1).
Proof. intros [->| ->] [->| ->]; cbn; auto. Qed.
Lemma xor_fold row r : (row < n)%nat -> (r < n)%nat -> row <> r -> forall m col d, wf d -> (col + m <= n)%nat ->
  exists d', ofold (xor_cell n row r) (seq col m) d = Ok d' /\ wf d' /\
  (forall r' c', (c' < n)%nat -> cell d' r' c' = if ((r' =? r)%nat && (col <=? c')%nat && (c' <? col + m)%nat) then N.lxor (cell d r c') (cell d row c') else cell d r' c').
Proof.
  intros Hrow Hr Hne. induction m as [|m IH]; intros col d W H; cbn [seq ofold].
  - exists d. split; [reflexivity|]. split; [exact W|]. intros r' c' Hc'. destruct (Nat.leb_spec col c'), (Nat.ltb_spec c' (col + 0)); try lia; rewrite ?andb_false_r; reflexivity.
  - unfold xor_cell at 1. rewrite !mget_cell by (assumption || lia). cbn [obind].
    destruct (lxor_01 (cell d r col) (cell d row col) (cell_01 d r col W) (cell_01 d row col W)) as [X _].
    destruct (mset_cell d r col _ W Hr ltac:(lia) X) as (d1 & E1 & W1 & C1). rewrite E1. cbn [obind].
    destruct (IH (S col) d1 W1 ltac:(lia)) as (d2 & E2 & W2 & C2). rewrite E2. exists d2. split; [reflexivity|]. split; [exact W2|].
    intros r' c' Hc'. rewrite C2 by exact Hc'. rewrite !C1 by exact Hc'. rewrite Nat.eqb_refl.
    replace (row =? r)%nat with false by (symmetry; apply Nat.eqb_neq; exact Hne). cbn [andb].
    destruct (Nat.eqb_spec r' r) as [->|]; cbn [andb]; [|reflexivity].
    destruct (Nat.eqb_spec c' col) as [->|Hn].
    + destruct (Nat.leb_spec (S col) col); [lia|]. cbn [andb]. destruct (Nat.leb_spec col col); [|lia]. destruct (Nat.ltb_spec col (col + S m)); [|lia]. reflexivity.
    + destruct (Nat.leb_spec (S col) c'), (Nat.leb_spec col c'), (Nat.ltb_spec c' (S col + m)), (Nat.ltb_spec c' (col + S m)); try lia; reflexivity.
Qed.
Lemma rowof_ext d d' r r' : (forall c, (c < n)%nat -> (cell d r c =? 1) = (cell d' r' c =? 1)) -> rowof d r = rowof d' r'.
Proof. intro H. unfold rowof. apply map_ext_in. intros c Hc. apply in_seq in Hc. apply H. lia. Qed.
Lemma nth_xor_rows v w j : length v = length w -> nth j (xor_rows v w) false = xorb (nth j v false) (nth j w false).
Proof.
  revert w j. induction v as [|a v IH]; intros [|b w] j L; try discriminate.
  - destruct j; reflexivity.
  - destruct j; [reflexivity|]. apply (IH w j). cbn [length] in L. lia.
Qed.
Lemma row_eq d r l : length l = n -> (forall c, (c < n)%nat -> (cell d r c =? 1) = nth c l false) -> rowof d r = l.
Proof.
  intros L H. apply (nth_ext _ _ false false); [rewrite rowof_len; symmetry; exact L|]. intros c Hc. rewrite rowof_len in Hc. rewrite nth_rowof by exact Hc. apply H, Hc.
Qed.
Lemma eliminate_ok d row col r : wf d -> (row < r)%nat -> (r < n)%nat -> first_set (rowof d row) = Some col ->
  exists d', eliminate n row col d r = Ok d' /\ wf d' /\ rowof d' r = (if nth col (rowof d r) false then xor_rows (rowof d r) (rowof d row) else rowof d r) /\
    (forall r', r' <> r -> rowof d' r' = rowof d r').
Proof.
  intros W Hrow Hr Hf. destruct (first_set_some _ _ Hf) as (A & B & C). rewrite rowof_len in A. unfold eliminate. rewrite mget_cell by (assumption || lia). cbn [obind].
  rewrite nth_rowof by exact A. destruct (cell d r col =? 1) eqn:E.
  - destruct (xor_fold row r ltac:(lia) Hr ltac:(lia) (n - col) col d W ltac:(lia)) as (d' & E' & W' & C'). exists d'. split; [exact E'|]. split; [exact W'|]. split.
    + apply row_eq; [unfold xor_rows; rewrite map_length, combine_length, !rowof_len; lia|]. intros c Hc. rewrite nth_xor_rows by (rewrite !rowof_len; reflexivity).
      rewrite !nth_rowof by exact Hc. rewrite C' by exact Hc. rewrite Nat.eqb_refl. cbn [andb].
      destruct (Nat.ltb_spec c (col + (n - col))); [|lia]. destruct (Nat.leb_spec col c); cbn [andb].
      * apply lxor_01; apply cell_01; exact W.
      * assert (Z := C c H0). rewrite nth_rowof in Z by exact Hc. rewrite Z, xorb_false_r. reflexivity.
    + intros r' Hr'. apply rowof_ext. intros c Hc. rewrite C' by exact Hc. replace (r' =? r)%nat with false by (symmetry; apply Nat.eqb_neq; exact Hr'). reflexivity.
  - exists d. split; [reflexivity|]. split; [exact W|]. split; [reflexivity|]. reflexivity.
Qed.
Lemma eliminate_fold row col : forall m k d, wf d -> (row < k)%nat -> (k + m = n)%nat -> first_set (rowof d row) = Some col ->
  exists d', ofold (eliminate n row col) (seq k m) d = Ok d' /\ wf d' /\
    (forall r, rowof d' r = if ((k <=? r) && (r <? n))%nat then (if nth col (rowof d r) false then xor_rows (rowof d r) (rowof d row) else rowof d r) else rowof d r).
Proof.
  induction m as [|m IH]; intros k d W Hk Hm Hf; cbn [seq ofold].
  - exists d. split; [reflexivity|]. split; [exact W|]. intro r. destruct (Nat.leb_spec k r), (Nat.ltb_spec r n); try lia; reflexivity.
  - destruct (eliminate_ok d row col k W Hk ltac:(lia) Hf) as (d1 & E1 & W1 & R1 & R1'). rewrite E1. cbn [obind].
    destruct (IH (S k) d1 W1 ltac:(lia) ltac:(lia)) as (d2 & E2 & W2 & R2); [rewrite R1' by lia; exact Hf|]. rewrite E2. exists d2. split; [reflexivity|]. split; [exact W2|].
    intro r. rewrite R2. rewrite (R1' row) by lia. destruct (Nat.eq_dec r k) as [->|Hne].
    + destruct (Nat.leb_spec (S k) k); [lia|]. cbn [andb]. destruct (Nat.leb_spec k k); [|lia]. destruct (Nat.ltb_spec k n); [|lia]. exact R1.
    + rewrite R1' by exact Hne. destruct (Nat.leb_spec (S k) r), (Nat.leb_spec k r); try lia; reflexivity.
Qed.
Lemma reduce_fold : forall m k d rank, wf d -> (k + m = n)%nat ->
  exists d', ofold (reduce_row n) (seq k m) (d, rank) = Ok (d', rank + N.of_nat (rank_rows m (map (rowof d) (seq k m)))) /\ wf d'.
Proof.
  induction m as [|m IH]; intros k d rank W H.
  - exists d. cbn [seq ofold map rank_rows]. split; [f_equal; f_equal; lia|exact W].
  - cbn [seq ofold map rank_rows]. unfold reduce_row at 1. rewrite find_col_ok by (assumption || lia). cbn [obind].
    destruct (first_set (rowof d k)) as [col|] eqn:E.
    + destruct (first_set_some _ _ E) as (A & _ & _). rewrite rowof_len in A. rewrite (proj2 (Nat.ltb_lt _ _) A).
      replace (n - S k)%nat with m by lia.
      destruct (eliminate_fold k col m (S k) d W ltac:(lia) ltac:(lia) E) as (d1 & E1 & W1 & R1). rewrite E1. cbn [obind].
      destruct (IH (S k) d1 (rank + 1) W1 ltac:(lia)) as (d2 & E2 & W2). exists d2. split; [|exact W2]. rewrite E2. f_equal. f_equal.
      replace (map (rowof d1) (seq (S k) m)) with (map (fun x => if nth col x false then xor_rows x (rowof d k) else x) (map (rowof d) (seq (S k) m))); [lia|].
      rewrite map_map. apply map_ext_in. intros r Hr. apply in_seq in Hr. rewrite R1. destruct (Nat.leb_spec (S k) r), (Nat.ltb_spec r n); try lia. reflexivity.
    + rewrite (proj2 (Nat.ltb_ge n n)) by lia. apply IH; [exact W|lia].
Qed.
Lemma row_reduce_ok d : wf d -> exists d', row_reduce_and_rank n d = Ok (d', N.of_nat (rank_rows n (map (rowof d) (seq 0 n)))) /\ wf d'.
Proof.
  intro W. unfold row_reduce_and_rank. destruct (Nat.eqb_spec n 0) as [E|E].
  - exists d. rewrite E. split; [reflexivity|]. exact W.
  - destruct (reduce_fold n 0 d 0 W ltac:(lia)) as (d' & E' & W'). exists d'. split; [exact E'|exact W'].
Qed.
Lemma rank_rows_le : forall m rows, (rank_rows m rows <= m)%nat.
Proof. induction m as [|m IH]; intros rows; [destruct rows; cbn; lia|]. destruct rows as [|v rest]; cbn [rank_rows]; [lia|]. destruct (first_set v); [apply le_n_S, IH|apply le_S, IH]. Qed.
End M.

(* ---- for_each_matrix ---- *)
Definition bit_cells (b : list bool) : list N := map (fun x : bool => if x then 1 else 0) b.
Lemma bit_cells_len b : length (bit_cells b) = length b.
Proof. apply map_length. Qed.
Section F.
Context {A : Type}.
Variables (callback : A -> list N -> outcome (A * list N)) (n : nat).
Hypothesis Hn : (0 < n)%nat.
Hypothesis callback_len : forall s d s' d', length d = (n * n)%nat -> callback s d = Ok (s', d') -> length d' = (n * n)%nat.
Definition visit (s : A) (d : list N) : outcome A := x <- callback s d ;; Ok (fst x).
Lemma upd_mid (a b : list N) v x : upd (a ++ v :: b) (length a) x = a ++ x :: b.
Proof. induction a as [|y a IH]; [reflexivity|]. cbn [app length upd]. rewrite IH. reflexivity. Qed.
Lemma matrix_fold bits : forall p stale r c s, (length p + length stale = n * n)%nat -> (r * n + c = length p)%nat -> (c < n)%nat -> (r < n)%nat ->
  exists blocks, chopped (n * n) (p ++ bits) blocks /\
    (st <- ofold (matrix_step callback n) bits (c, r, bit_cells p ++ stale, s) ;; Ok (snd st)) = ofold visit (map bit_cells blocks) s.
Proof.
  induction bits as [|b bits IH]; intros p stale r c s HL HI Hc Hr.
  - exists []. cbn [ofold map]. split; [|reflexivity]. split; [constructor|]. exists p. cbn [concat app]. split; [apply app_nil_r|]. nia.
  - assert (K : (length p < n * n)%nat) by nia.
    destruct stale as [|v stale]; [cbn [length] in HL; lia|]. cbn [length] in HL.
    cbn [ofold]. unfold matrix_step at 1.
    unfold mset. rewrite (proj2 (Nat.ltb_lt _ _)) by (rewrite app_length, bit_cells_len; cbn [length]; lia). cbn [obind].
    rewrite HI, <- (bit_cells_len p). rewrite upd_mid.
    replace (bit_cells p ++ (if b then 1 else 0) :: stale) with (bit_cells (p ++ [b]) ++ stale) by (unfold bit_cells; rewrite map_app, <- app_assoc; reflexivity).
    assert (PL : length (p ++ [b]) = S (length p)) by (rewrite app_length; cbn [length]; lia).
    destruct (Nat.eqb_spec (S c) n) as [E|E].
    + destruct (Nat.eqb_spec (S r) n) as [E'|E']; cbn [andb Nat.eqb].
      * assert (stale = []) by (destruct stale; [reflexivity|cbn [length] in HL; nia]). subst stale. rewrite app_nil_r.
        assert (BL : length (p ++ [b]) = (n * n)%nat) by nia.
        destruct (callback s (bit_cells (p ++ [b]))) as [[s' d']|] eqn:EC.
        -- cbn [obind fst snd]. pose proof (callback_len _ _ _ _ ltac:(rewrite bit_cells_len; exact BL) EC) as L'.
           destruct (IH [] d' 0%nat 0%nat s') as (bl & (F & rest & C & R) & EQ); [cbn [length]; lia|reflexivity|lia|lia|].
           exists ((p ++ [b]) :: bl). split.
           ++ split; [constructor; [exact BL|exact F]|]. exists rest. split; [|exact R]. cbn [concat]. cbn [app] in C. rewrite <- app_assoc, <- C, <- app_assoc. reflexivity.
           ++ cbn [map ofold]. unfold visit at 1. rewrite EC. cbn [obind fst]. exact EQ.
        -- cbn [obind].
           destruct (IH [] (bit_cells (p ++ [b])) 0%nat 0%nat s) as (bl & (F & rest & C & R) & _); [rewrite bit_cells_len; cbn [length]; lia|reflexivity|lia|lia|].
           exists ((p ++ [b]) :: bl). split.
           ++ split; [constructor; [exact BL|exact F]|]. exists rest. split; [|exact R]. cbn [concat]. cbn [app] in C. rewrite <- app_assoc, <- C, <- app_assoc. reflexivity.
           ++ cbn [map ofold]. unfold visit at 1. rewrite EC. reflexivity.
      * destruct (IH (p ++ [b]) stale (S r) 0%nat s) as (bl & C & EQ); [lia|lia|lia|nia|].
        rewrite <- app_assoc in C. cbn [app] in C. exists bl. split; [exact C|exact EQ].
    + destruct (Nat.eqb_spec (S c) 0); [lia|]. cbn [andb obind].
      destruct (IH (p ++ [b]) stale r (S c) s) as (bl & C & EQ); [lia|lia|lia|lia|].
      rewrite <- app_assoc in C. cbn [app] in C. exists bl. split; [exact C|exact EQ].
Qed.
Lemma for_each_matrix_ok w data s : exists blocks, chopped (n * n) (flat_map (bits_lsb (N.to_nat w)) data) blocks /\
  for_each_matrix callback w data n s = ofold visit (map bit_cells blocks) s.
Proof.
  unfold for_each_matrix. rewrite for_each_bit_ok. cbn [obind].
  destruct (matrix_fold (flat_map (bits_lsb (N.to_nat w)) data) [] (mnew n) 0 0 s) as (bl & C & E); [unfold mnew; rewrite repeat_length; reflexivity|reflexivity|exact Hn|exact Hn|].
  exists bl. split; [exact C|exact E].
Qed.
End F.
Lemma for_each_matrix_0 {A} (callback : A -> list N -> outcome (A * list N)) w data s : 0 < w -> data <> [] -> for_each_matrix callback w data 0 s = UB.
Proof.
  intros Hw Hd. unfold for_each_matrix. rewrite for_each_bit_ok. cbn [obind]. destruct data as [|v data]; [contradiction|]. cbn [flat_map].
  destruct (bits_lsb (N.to_nat w) v) as [|b bs] eqn:E.
  - exfalso. apply (f_equal (@length bool)) in E. unfold bits_lsb in E. rewrite map_length, seq_length in E. cbn in E. lia.
  - reflexivity.
Qed.
