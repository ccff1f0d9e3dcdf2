(* Proofs about the collectors (integer part). *)
From Coq Require Import Permutation.
From Verif Require Import Base BitwiseModel BitwiseSpec BitwiseProofs FloatModel CollectModel CollectSpec.
Open Scope N_scope.

(* ---------- vectors as functions of the index ---------- *)
Definition cells (len : nat) (f : nat -> N) : list N := map f (seq 0 len).
Lemma cells_length len f : length (cells len f) = len.
Proof. unfold cells. rewrite map_length, seq_length. reflexivity. Qed.
Lemma cells_nth_error len f k : (k < len)%nat -> nth_error (cells len f) k = Some (f k).
Proof.
  intros H. unfold cells. rewrite nth_error_map. rewrite (nth_error_nth' _ O) by (rewrite seq_length; exact H).
  rewrite seq_nth by exact H. reflexivity.
Qed.
Lemma cells_nth len f k : (k < len)%nat -> nth k (cells len f) 0 = f k.
Proof. intros H. apply nth_error_nth. apply cells_nth_error, H. Qed.
Lemma cells_ext len f g : (forall i, (i < len)%nat -> f i = g i) -> cells len f = cells len g.
Proof. intros H. apply map_ext_in. intros i Hi. apply in_seq in Hi. apply H. lia. Qed.
Lemma cells_zero len : repeat 0 len = cells len (fun _ => 0).
Proof. unfold cells. generalize O. induction len as [|n IH]; intro k; [reflexivity|]. cbn. rewrite <- IH. reflexivity. Qed.
Lemma list_as_cells (h : list N) : h = cells (length h) (fun i => nth i h 0).
Proof.
  unfold cells. induction h as [|a h IH]; [reflexivity|]. cbn [length seq map nth]. f_equal. rewrite IH at 1. rewrite <- seq_shift, map_map. reflexivity.
Qed.
Lemma upd_map_seq {A} (f : nat -> A) v : forall n s k, (k < n)%nat ->
  upd (map f (seq s n)) k v = map (fun i => if Nat.eqb i (s + k) then v else f i) (seq s n).
Proof.
  induction n as [|n IH]; intros s k H; [lia|]. cbn [seq map]. destruct k as [|k].
  - cbn [upd]. rewrite Nat.add_0_r, Nat.eqb_refl. f_equal. apply map_ext_in. intros i Hi. apply in_seq in Hi.
    destruct (Nat.eqb_spec i s); [lia|reflexivity].
  - cbn [upd]. destruct (Nat.eqb_spec s (s + S k)); [lia|]. f_equal. rewrite IH by lia. replace (S s + k)%nat with (s + S k)%nat by lia. reflexivity.
Qed.
Lemma upd_cells len f k v : (k < len)%nat -> upd (cells len f) k v = cells len (fun i => if Nat.eqb i k then v else f i).
Proof. intros H. unfold cells. rewrite upd_map_seq by exact H. reflexivity. Qed.
Definition bump (f : nat -> N) (k : nat) (d : N) : nat -> N := fun i => if Nat.eqb i k then f i + d else f i.
Lemma vec_add_cells len f k d : (k < len)%nat -> vec_add (cells len f) k d = Ok (cells len (bump f k d)).
Proof.
  intros H. unfold vec_add, at_. rewrite cells_nth_error by exact H. cbn [obind]. rewrite upd_cells by exact H. f_equal.
  apply cells_ext. intros i _. unfold bump. destruct (Nat.eqb_spec i k) as [->|]; reflexivity.
Qed.
Lemma vec_inc_cells len f k : (k < len)%nat -> vec_inc (cells len f) k = Ok (cells len (bump f k 1)).
Proof. apply vec_add_cells. Qed.

(* a loop that increments one bin per element *)
Lemma inc_loop {A} (key : A -> nat) (step : list N -> A -> outcome (list N)) len l : forall f,
  (forall h x, In x l -> step h x = vec_inc h (key x)) -> Forall (fun x => key x < len)%nat l ->
  ofold step l (cells len f) = Ok (cells len (fun i => f i + count (fun x => Nat.eqb (key x) i) l)).
Proof.
  induction l as [|x l IH]; intros f Hs Hk.
  - cbn. f_equal. apply cells_ext. intros. unfold count; cbn. lia.
  - cbn [ofold]. rewrite Hs by (left; reflexivity). rewrite vec_inc_cells by exact (Forall_inv Hk). cbn [obind].
    rewrite IH; [|intros; apply Hs; right; assumption|exact (Forall_inv_tail Hk)]. f_equal. apply cells_ext. intros i _.
    unfold bump, count. cbn [filter]. rewrite (Nat.eqb_sym (key x) i). destruct (Nat.eqb i (key x)); cbn [length]; lia.
Qed.
Lemma total_cells_count {A} (key : A -> nat) len l : Forall (fun x => key x < len)%nat l ->
  total (cells len (fun i => count (fun x => Nat.eqb (key x) i) l)) = N.of_nat (length l).
Proof.
  intros H. unfold total, cells. assert (G : forall f s n, fold_right N.add 0 (map (bump f s 1) (seq 0 n)) =
     fold_right N.add 0 (map f (seq 0 n)) + (if Nat.ltb s n then 1 else 0)).
  { intros f s n. induction n as [|n IH]; [reflexivity|]. rewrite seq_S, !map_app, !fold_right_app. cbn [map fold_right].
    assert (K : forall l a, fold_right N.add a l = fold_right N.add 0 l + a) by (clear; induction l as [|b l IHl]; intro a; cbn; [lia|rewrite IHl; lia]).
    rewrite K, (K _ (f (0 + n)%nat + 0)), IH. unfold bump. cbn [Nat.add].
    destruct (Nat.eqb_spec n s), (Nat.ltb_spec s n), (Nat.ltb_spec s (S n)); lia. }
  induction H as [|x l Hx H IH].
  - cbn. generalize O. induction len; intro k; cbn; [reflexivity|]. rewrite IHlen. reflexivity.
  - transitivity (fold_right N.add 0 (map (bump (fun i => count (fun x => Nat.eqb (key x) i) l) (key x) 1) (seq 0 len))).
    + f_equal. apply map_ext_in. intros i _. unfold bump, count. cbn [filter]. rewrite (Nat.eqb_sym (key x) i). destruct (Nat.eqb i (key x)); cbn [length]; lia.
    + rewrite G, IH. cbn [length]. destruct (Nat.ltb_spec (key x) len); lia.
Qed.

(* ---------- segmenting loops ---------- *)
Section Cut.
Context {A St : Type} (complete : list A -> bool).
Fixpoint cut (data cur : list A) : list (list A) * list A :=
  match data with
  | [] => ([], cur)
  | x :: d => let cur' := cur ++ [x] in
              if complete cur' then let '(s, r) := cut d [] in (cur' :: s, r) else cut d cur'
  end.
Definition no_prefix (l : list A) : Prop := forall p s, l = p ++ s -> complete p = false.
Lemma no_prefix_snoc l x : no_prefix l -> complete (l ++ [x]) = false -> no_prefix (l ++ [x]).
Proof.
  intros H E p s Hp. destruct s as [|y s] using rev_ind; [rewrite app_nil_r in Hp; subst; exact E|].
  rewrite app_assoc in Hp. apply app_inj_tail in Hp. destruct Hp as [Hp _]. eapply H, Hp.
Qed.
Lemma cut_ok : complete [] = false -> forall data cur, no_prefix cur ->
  let (segs, rest) := cut data cur in cut_into (fun l => complete l = true) (cur ++ data) segs rest.
Proof.
  intros H0. assert (N0 : no_prefix []) by (intros p s Hp; symmetry in Hp; apply app_eq_nil in Hp; destruct Hp as [-> _]; exact H0).
  assert (D : forall p s (l : list A), no_prefix l -> l = p ++ s -> complete p <> true) by (intros p s l H E; rewrite (H p s E); discriminate).
  induction data as [|x d IH]; intros cur N; cbn [cut].
  - split; [cbn; rewrite app_nil_r; reflexivity|]. split; [constructor|]. intros p s E. eapply D; eassumption.
  - destruct (complete (cur ++ [x])) eqn:E.
    + specialize (IH [] N0). destruct (cut d []) as [segs rest]. destruct IH as (I1 & I2 & I3). split; [|split].
      * cbn [concat]. cbn in I1. rewrite I1. rewrite <- app_assoc, <- app_assoc. reflexivity.
      * constructor; [|exact I2]. split; [exact E|]. intros p s Hp Hs. destruct s as [|y s] using rev_ind; [congruence|].
        rewrite app_assoc in Hp. apply app_inj_tail in Hp. eapply D; [exact N|apply Hp].
      * exact I3.
    + pose proof (no_prefix_snoc _ _ N E) as N'. specialize (IH _ N'). destruct (cut d (cur ++ [x])) as [segs rest].
      rewrite <- app_assoc in IH. exact IH.
Qed.

Variables (offset len maxlen : nat) (step : St -> A -> outcome St) (Rel : list A -> (nat -> N) -> St -> Prop) (P : A -> Prop).
Definition bin_of (s : list A) : nat := Nat.min (length s - offset) (len - 1).
Hypothesis Hstep : forall cur f st x, P x -> Forall P cur -> (length cur < maxlen)%nat -> no_prefix cur -> Rel cur f st ->
  exists st', step st x = Ok st' /\
    if complete (cur ++ [x]) then Rel [] (bump f (bin_of (cur ++ [x])) 1) st' else Rel (cur ++ [x]) f st'.
Lemma cut_fold : complete [] = false -> forall data cur f st, Forall P data -> Forall P cur -> (length cur + length data <= maxlen)%nat -> no_prefix cur -> Rel cur f st ->
  exists st' f', ofold step data st = Ok st' /\ Rel (snd (cut data cur)) f' st' /\
    forall i, f' i = f i + count (fun s => Nat.eqb (bin_of s) i) (fst (cut data cur)).
Proof.
  intros H0. assert (N0 : no_prefix []) by (intros p s Hp; symmetry in Hp; apply app_eq_nil in Hp; destruct Hp as [-> _]; exact H0).
  induction data as [|x d IH]; intros cur f st HP HC HL N R.
  - exists st, f. split; [reflexivity|]. split; [exact R|]. intro i. unfold count; cbn. lia.
  - cbn [ofold cut]. cbn [length] in HL. destruct (Hstep cur f st x (Forall_inv HP) HC ltac:(lia) N R) as (st' & E & R'). rewrite E. cbn [obind].
    assert (HC' : Forall P (cur ++ [x])) by (apply Forall_app; split; [exact HC|constructor; [exact (Forall_inv HP)|constructor]]).
    destruct (complete (cur ++ [x])) eqn:Ec.
    + destruct (IH [] _ st' (Forall_inv_tail HP) (Forall_nil _) ltac:(cbn [length]; lia) N0 R') as (st2 & f' & E2 & R2 & F). exists st2, f'. split; [exact E2|].
      destruct (cut d []) as [segs rest]. split; [exact R2|]. intro i. rewrite F. unfold bump, count. cbn [fst filter].
      rewrite (Nat.eqb_sym (bin_of (cur ++ [x])) i). destruct (Nat.eqb i (bin_of (cur ++ [x]))); cbn [length]; lia.
    + apply IH; [exact (Forall_inv_tail HP)|exact HC'|rewrite app_length; cbn [length]; lia|apply no_prefix_snoc; assumption|exact R'].
Qed.
End Cut.

Lemma cut_into_iff {A} (c c' : list A -> Prop) data segs rest : (forall l, c l <-> c' l) -> cut_into c data segs rest -> cut_into c' data segs rest.
Proof.
  intros H (H1 & H2 & H3). split; [exact H1|]. split.
  - eapply Forall_impl; [|exact H2]. intros s [A1 A2]. split; [apply H, A1|]. intros p q E Hq Hc. eapply A2; [exact E|exact Hq|apply H, Hc].
  - intros p s E Hc. eapply H3; [exact E|apply H, Hc].
Qed.
(* Cutting is determined by the data. *)
Lemma cut_into_unique {A} (c : list A -> Prop) : forall segs data segs' rest rest',
  cut_into c data segs rest -> cut_into c data segs' rest' -> segs = segs' /\ rest = rest'.
Proof.
  assert (K : forall s s' (a b : list A), just_complete c s -> just_complete c s' -> s ++ a = s' ++ b -> s = s').
  { intros s s' a b [C1 M1] [C2 M2] E. apply app_eq_app in E. destruct E as (l & [[E1 E2]|[E1 E2]]).
    - destruct l as [|x l]; [rewrite app_nil_r in E1; exact E1|]. exfalso. eapply M1; [exact E1|discriminate|exact C2].
    - destruct l as [|x l]; [rewrite app_nil_r in E1; auto|]. exfalso. eapply M2; [exact E1|discriminate|exact C1]. }
  assert (Z : forall s a rest, just_complete c s -> rest = s ++ a -> (forall p q, rest = p ++ q -> ~ c p) -> False).
  { intros s a rest [C _] E H. apply (H s a E C). }
  induction segs as [|s segs IH]; intros data segs' rest rest' (E & F & N) (E' & F' & N').
  - destruct segs' as [|s' segs']; [cbn in *; split; congruence|exfalso]. cbn in E, E'. rewrite <- app_assoc in E'.
    eapply (Z s' _ rest (Forall_inv F')); [rewrite <- E, E'; reflexivity|exact N].
  - destruct segs' as [|s' segs'].
    + exfalso. cbn in E, E'. rewrite <- app_assoc in E. eapply (Z s _ rest' (Forall_inv F)); [rewrite <- E', E; reflexivity|exact N'].
    + cbn in E, E'. rewrite <- app_assoc in E, E'. assert (s = s') by (eapply K; [exact (Forall_inv F)|exact (Forall_inv F')|rewrite <- E; exact E']). subst s'.
      rewrite E in E'. apply app_inv_head in E'. destruct (IH (concat segs ++ rest) segs' rest rest') as [-> ->]; [|split; [exact E'|]|auto].
      * split; [reflexivity|]. split; [exact (Forall_inv_tail F)|exact N].
      * split; [exact (Forall_inv_tail F')|exact N'].
Qed.

(* result histograms *)
Lemma tallies_cells {A} len offset (segs : list (list A)) :
  tallies (cells len (fun i => count (fun s => Nat.eqb (bin_of offset len s) i) segs)) offset segs.
Proof. intros i Hi. rewrite cells_length in *. rewrite cells_nth by exact Hi. reflexivity. Qed.
Lemma total_tallies {A} offset (segs : list (list A)) h : (1 <= length h)%nat -> tallies h offset segs -> total h = N.of_nat (length segs).
Proof.
  intros Hl H. rewrite (list_as_cells h).
  rewrite (cells_ext _ _ (fun i => count (fun s => Nat.eqb (bin_of offset (length h) s) i) segs)) by (intros i Hi; apply H, Hi).
  apply total_cells_count. apply Forall_forall. intros s _. unfold bin_of. lia.
Qed.

(* ---------- gap.h ---------- *)
Lemma existsb_snoc {A} (p : A -> bool) l x : existsb p (l ++ [x]) = existsb p l || p x.
Proof. rewrite existsb_app. cbn. rewrite orb_false_r. reflexivity. Qed.
Lemma gaps_ok w max a b data : (1 <= max)%nat ->
  exists segs rest h, cut_into (fun l => existsb (in_gap w a b) l = true) data segs rest /\
    generate_gaps w max a b data = Ok h /\ length h = max /\ tallies h 1 segs.
Proof.
  intros Hm. set (hit := in_gap w a b). set (c := existsb hit).
  pose proof (cut_ok c eq_refl data []) as C. destruct (cut c data []) as [segs rest] eqn:E.
  exists segs, rest. unfold generate_gaps. rewrite cells_zero. fold hit.
  destruct (cut_fold c 1 max (length data) (gap_step hit) (fun cur f st => st = (cells max f, length cur)) (fun _ => True)) with
    (data := data) (cur := @nil N) (f := fun _ : nat => 0) (st := (cells max (fun _ => 0), O)) as (st' & f' & E1 & E2 & F).
  - intros cur f st x _ _ _ Np ->. assert (Ec : c cur = false) by (apply (Np cur []); rewrite app_nil_r; reflexivity). unfold gap_step. unfold c in *. rewrite existsb_snoc, Ec. cbn [orb].
    destruct (hit x).
    + rewrite cells_length. assert (Eb : bin_of 1 max (cur ++ [x]) = Nat.min (length cur) (max - 1)) by (unfold bin_of; rewrite app_length; cbn [length]; lia).
      rewrite vec_inc_cells by lia. eexists. split; [reflexivity|]. rewrite Eb. reflexivity.
    + eexists. split; [reflexivity|]. rewrite app_length. cbn [length]. rewrite Nat.add_1_r. reflexivity.
  - reflexivity.
  - apply Forall_forall. auto.
  - constructor.
  - cbn. lia.
  - intros p s Hp. symmetry in Hp. apply app_eq_nil in Hp. destruct Hp as [-> _]. reflexivity.
  - reflexivity.
  - rewrite E in *. cbn [fst snd] in *. exists (cells max f'). split; [|split; [|split]].
    + apply C. intros p s Hp. symmetry in Hp. apply app_eq_nil in Hp. destruct Hp as [-> _]. reflexivity.
    + rewrite E1, E2. reflexivity.
    + apply cells_length.
    + rewrite (cells_ext _ _ (fun i => count (fun s => Nat.eqb (bin_of 1 max s) i) segs)) by (intros i _; rewrite F; lia). apply tallies_cells.
Qed.
Lemma gaps_empty w a b data : existsb (in_gap w a b) data = true -> generate_gaps w 0 a b data = UB.
Proof.
  unfold generate_gaps. generalize O at 2 as cg. induction data as [|x data IH]; intros cg H; [discriminate|]. cbn [existsb] in H. cbn [ofold].
  unfold gap_step at 1. destruct (in_gap w a b x); [unfold vec_inc, at_; cbn [repeat length]; destruct (Nat.min cg (0 - 1)); reflexivity|]. cbn [obind]. apply IH. exact H.
Qed.

(* ---------- divisibility.h ---------- *)
Lemma count_snoc {A} (p : A -> bool) l x : count p (l ++ [x]) = count p l + (if p x then 1 else 0).
Proof. unfold count. rewrite filter_app, app_length. cbn. destruct (p x); cbn; lia. Qed.
Lemma count_le {A} (p : A -> bool) l : count p l <= N.of_nat (length l).
Proof. unfold count. induction l as [|x l IH]; cbn; [lia|]. destruct (p x); cbn [length]; lia. Qed.
Lemma wrap_sub a b : b <= a -> a < 2 ^ 64 -> wrap 64 (a + (2 ^ 64 - b)) = a - b.
Proof.
  intros H H'. unfold wrap. assert (E : a + (2 ^ 64 - b) = (a - b) + 1 * 2 ^ 64) by (assert (b <= 2 ^ 64) by (eapply N.le_trans; [exact H|apply N.lt_le_incl, H']); lia).
  rewrite E, N.mod_add by discriminate. apply N.mod_small. eapply N.le_lt_trans; [apply N.le_sub_l|exact H'].
Qed.
Lemma divisible_ok divisor wanted tracked data : 1 <= divisor -> 1 <= wanted -> (1 <= tracked)%nat -> N.of_nat (length data) < 2 ^ 64 ->
  exists segs rest h, cut_into (fun l => wanted <= count (fun v => v mod divisor =? 0) l) data segs rest /\
    collect_divisible divisor wanted tracked data = Ok h /\ length h = tracked /\ tallies h (N.to_nat wanted) segs.
Proof.
  intros Hd Hw Ht Hl. set (p := fun v => v mod divisor =? 0). set (c := fun l => wanted <=? count p l).
  assert (C0 : c [] = false) by (unfold c, count; cbn; apply N.leb_gt; lia).
  assert (N0 : no_prefix c []) by (intros q s Hq; symmetry in Hq; apply app_eq_nil in Hq; destruct Hq as [-> _]; exact C0).
  pose proof (cut_ok c C0 data [] N0) as C. destruct (cut c data []) as [segs rest] eqn:E.
  exists segs, rest. unfold collect_divisible. rewrite cells_zero.
  destruct (cut_fold c (N.to_nat wanted) tracked (length data) (divisible_step divisor wanted)
     (fun cur f st => st = (cells tracked f, N.of_nat (length cur), count p cur)) (fun _ => True)) with
    (data := data) (cur := @nil N) (f := fun _ : nat => 0) (st := (cells tracked (fun _ => 0), 0, 0)) as (st' & f' & E1 & E2 & F);
    [|exact C0|apply Forall_forall; auto|constructor|cbn; lia|exact N0|reflexivity|].
  { intros cur f st x _ _ Lc Np ->. assert (Ec : c cur = false) by (apply (Np cur []); rewrite app_nil_r; reflexivity).
    unfold c in Ec. apply N.leb_gt in Ec. unfold divisible_step. destruct (N.eqb_spec divisor 0); [lia|]. change (x mod divisor =? 0) with (p x).
    assert (Lx : length (cur ++ [x]) = S (length cur)) by (rewrite app_length; cbn; lia).
    assert (Cx := count_snoc p cur x). rewrite Lx. replace (N.of_nat (S (length cur))) with (N.of_nat (length cur) + 1) by lia.
    destruct (p x) eqn:Px; cbn [negb].
    - destruct (N.ltb_spec (count p cur + 1) wanted) as [Hlt|Hge].
      + assert (Eb : c (cur ++ [x]) = false) by (unfold c; apply N.leb_gt; lia). rewrite Eb, Cx. eexists. split; reflexivity.
      + assert (Eb : c (cur ++ [x]) = true) by (unfold c; apply N.leb_le; lia). rewrite Eb.
        assert (W : wanted <= N.of_nat (length cur) + 1) by (pose proof (count_le p cur); lia).
        rewrite wrap_sub; [|exact W|eapply N.le_lt_trans; [|exact Hl]; lia].
        rewrite cells_length. assert (Ebin : bin_of (N.to_nat wanted) tracked (cur ++ [x]) = Nat.min (tracked - 1) (N.to_nat (N.of_nat (length cur) + 1 - wanted))).
        { unfold bin_of. rewrite Lx. lia. }
        rewrite vec_inc_cells by lia. cbn [obind]. rewrite <- Ebin. eexists. split; reflexivity.
    - rewrite N.add_0_r in Cx. assert (Eb : c (cur ++ [x]) = false) by (unfold c; apply N.leb_gt; lia). rewrite Eb, Cx. eexists. split; reflexivity. }
  rewrite E in *. cbn [fst snd] in *. exists (cells tracked f'). split; [|split; [|split]].
  - eapply cut_into_iff; [|exact C]. intro l. unfold c. apply N.leb_le.
  - rewrite E1, E2. reflexivity.
  - apply cells_length.
  - rewrite (cells_ext _ _ (fun i => count (fun s => Nat.eqb (bin_of (N.to_nat wanted) tracked s) i) segs)) by (intros i _; rewrite F; lia). apply tallies_cells.
Qed.

Lemma divisible_zero wanted tracked data : data <> [] -> collect_divisible 0 wanted tracked data = UB.
Proof. destruct data as [|x d]; [congruence|]. reflexivity. Qed.

(* ---------- coupon.h ---------- *)
Definition all_seen (id : N -> outcome N) (wanted : N) (l : list N) : Prop := forall k, k < wanted -> exists x, In x l /\ id x = Ok k.
Lemma coupons_ok w wanted tracked data : 1 <= wanted < 2 ^ 64 -> (1 <= tracked)%nat -> N.of_nat (length data) < 2 ^ 64 ->
  Forall (fun x => exists k, coupon_id w wanted x = Ok k /\ k < wanted) data ->
  exists segs rest h, cut_into (all_seen (coupon_id w wanted) wanted) data segs rest /\
    collect_coupons w wanted tracked data = Ok h /\ length h = tracked /\ tallies h (N.to_nat wanted) segs.
Proof.
  intros Hw Ht Hl HV. set (id := coupon_id w wanted) in *.
  set (idn := fun x => match id x with Ok k => k | UB => 0 end).
  set (P := fun x => id x = Ok (idn x) /\ idn x < wanted).
  assert (HP : Forall P data) by (eapply Forall_impl; [|exact HV]; intros x (k & E & Hk); unfold P, idn; rewrite E; auto).
  clear HV. set (distinct := fun l => nodup N.eq_dec (map idn l)).
  set (c := fun l => N.of_nat (length (distinct l)) =? wanted).
  assert (C0 : c [] = false) by (unfold c; apply N.eqb_neq; unfold distinct; cbn [map nodup length]; lia).
  assert (N0 : no_prefix c []) by (intros q s Hq; symmetry in Hq; apply app_eq_nil in Hq; destruct Hq as [-> _]; exact C0).
  assert (Dle : forall l, Forall P l -> N.of_nat (length (distinct l)) <= wanted).
  { intros l H. assert (Hle : (length (distinct l) <= length (map N.of_nat (seq 0 (N.to_nat wanted))))%nat).
    { apply NoDup_incl_length; [apply NoDup_nodup|]. intros k Hk. unfold distinct in Hk. apply nodup_In in Hk. apply in_map_iff in Hk. destruct Hk as (x & <- & Hx).
      rewrite Forall_forall in H. destruct (H x Hx) as [_ Hb]. apply in_map_iff. exists (N.to_nat (idn x)). split; [lia|]. apply in_seq. lia. }
    rewrite map_length, seq_length in Hle. lia. }
  assert (Call : forall l, Forall P l -> (c l = true <-> all_seen id wanted l)).
  { intros l H. unfold c. rewrite N.eqb_eq. split.
    - intros E k Hk.
      assert (I : incl (map N.of_nat (seq 0 (N.to_nat wanted))) (distinct l)).
      { apply NoDup_length_incl; [apply NoDup_nodup| rewrite map_length, seq_length; lia |].
        intros j Hj. unfold distinct in Hj. apply nodup_In in Hj. apply in_map_iff in Hj. destruct Hj as (x & <- & Hx).
        rewrite Forall_forall in H. destruct (H x Hx) as [_ Hb]. apply in_map_iff. exists (N.to_nat (idn x)). split; [lia|]. apply in_seq. lia. }
      assert (Hi : In k (distinct l)) by (apply I, in_map_iff; exists (N.to_nat k); split; [lia|apply in_seq; lia]).
      unfold distinct in Hi. apply nodup_In in Hi. apply in_map_iff in Hi. destruct Hi as (x & Ex & Hx). exists x. split; [exact Hx|].
      rewrite Forall_forall in H. destruct (H x Hx) as [Hid _]. rewrite Hid, Ex. reflexivity.
    - intros A. apply N.le_antisymm; [apply Dle, H|].
      assert (Hle : (length (map N.of_nat (seq 0 (N.to_nat wanted))) <= length (distinct l))%nat).
      { apply NoDup_incl_length; [|].
        - apply FinFun.Injective_map_NoDup; [intros a b; apply Nat2N.inj|apply seq_NoDup].
        - intros k Hk. apply in_map_iff in Hk. destruct Hk as (n & <- & Hn). apply in_seq in Hn. destruct (A (N.of_nat n) ltac:(lia)) as (x & Hx & Ex).
          unfold distinct. apply nodup_In. apply in_map_iff. exists x. split; [unfold idn; rewrite Ex; reflexivity|exact Hx]. }
      rewrite map_length, seq_length in Hle. lia. }
  pose proof (cut_ok c C0 data [] N0) as C. destruct (cut c data []) as [segs rest] eqn:E.
  exists segs, rest. unfold collect_coupons. rewrite cells_zero.
  set (Rel := fun (cur : list N) (f : nat -> N) (st : list N * list N * N) =>
     exists col, st = (col, cells tracked f, N.of_nat (length cur)) /\ NoDup col /\ forall k, In k col <-> In k (map idn cur)).
  assert (Dlen : forall col l, NoDup col -> (forall k, In k col <-> In k (map idn l)) -> length col = length (distinct l)).
  { intros col l Hn Hi. apply Nat.le_antisymm; apply NoDup_incl_length; try assumption; try apply NoDup_nodup; intros k Hk.
    - unfold distinct. apply nodup_In, Hi, Hk.
    - apply Hi. unfold distinct in Hk. apply nodup_In in Hk. exact Hk. }
  destruct (cut_fold c (N.to_nat wanted) tracked (length data) (coupon_step w wanted) Rel P) with
    (data := data) (cur := @nil N) (f := fun _ : nat => 0) (st := ([] : list N, cells tracked (fun _ => 0), 0)) as (st' & f' & E1 & E2 & F);
    [|exact C0|exact HP|constructor|cbn; lia|exact N0|exists []; split; [reflexivity|split; [constructor|intro; cbn; tauto]]|].
  { intros cur f st x Px Pc Lc Np (col & -> & Nd & Hcol). assert (Ec : c cur = false) by (apply (Np cur []); rewrite app_nil_r; reflexivity).
    unfold coupon_step. fold id. rewrite (proj1 Px). cbn [obind].
    assert (Lx : length (cur ++ [x]) = S (length cur)) by (rewrite app_length; cbn; lia).
    assert (Lx' : N.of_nat (length (cur ++ [x])) = N.of_nat (length cur) + 1) by (rewrite Lx; lia).
    destruct (existsb (N.eqb (idn x)) col) eqn:Ex.
    - apply existsb_exists in Ex. destruct Ex as (k & Hk & Ek). apply N.eqb_eq in Ek. subst k.
      assert (Hc : forall k, In k col <-> In k (map idn (cur ++ [x]))).
      { intro k. rewrite Hcol, map_app, in_app_iff. cbn. split; [auto|]. intros [H|[H|[]]]; [exact H|]. subst k. apply Hcol, Hk. }
      assert (Eb : c (cur ++ [x]) = false).
      { unfold c in *. rewrite <- (Dlen col (cur ++ [x]) Nd Hc). rewrite (Dlen col cur Nd Hcol). exact Ec. }
      rewrite Eb. eexists. split; [reflexivity|]. exists col. rewrite Lx'. auto.
    - assert (Hnew : ~ In (idn x) col).
      { intros Hi. assert (existsb (N.eqb (idn x)) col = true) by (apply existsb_exists; exists (idn x); split; [exact Hi|apply N.eqb_refl]). congruence. }
      assert (Nd' : NoDup (idn x :: col)) by (constructor; assumption).
      assert (Hc : forall k, In k (idn x :: col) <-> In k (map idn (cur ++ [x]))).
      { intro k. cbn [In]. rewrite Hcol, map_app, in_app_iff. cbn. tauto. }
      assert (Eb : c (cur ++ [x]) = (N.of_nat (length (idn x :: col)) =? wanted)) by (unfold c; rewrite <- (Dlen _ _ Nd' Hc); reflexivity).
      rewrite Eb. destruct (N.eqb_spec (N.of_nat (length (idn x :: col))) wanted) as [Ew|Ew].
      + assert (Hlen : (length (idn x :: col) <= length (cur ++ [x]))%nat).
        { rewrite <- (map_length idn (cur ++ [x])). apply NoDup_incl_length; [exact Nd'|]. intros k Hk. apply Hc, Hk. }
        assert (W : wanted <= N.of_nat (length cur) + 1) by (rewrite <- Ew; lia).
        rewrite wrap_sub; [|exact W|eapply N.le_lt_trans; [|exact Hl]; lia].
        rewrite cells_length. assert (Ebin : bin_of (N.to_nat wanted) tracked (cur ++ [x]) = Nat.min (tracked - 1) (N.to_nat (N.of_nat (length cur) + 1 - wanted))).
        { unfold bin_of. rewrite Lx. lia. }
        rewrite vec_inc_cells by lia. cbn [obind]. rewrite <- Ebin. eexists. split; [reflexivity|]. exists []. split; [reflexivity|]. split; [constructor|cbn; tauto].
      + eexists. split; [reflexivity|]. exists (idn x :: col). rewrite Lx'. auto. }
  rewrite E in *. cbn [fst snd] in *. exists (cells tracked f'). destruct E2 as (col & -> & _). split; [|split; [|split]].
  - (* complete = all coupons seen, on the segments of the data *)
    destruct C as (C1 & C2 & C3). cbn in C1.
    assert (HPs : forall l a b, data = a ++ l ++ b -> Forall P l) by (intros l a b Ed; rewrite Ed in HP; apply Forall_app in HP; destruct HP as [_ HP]; apply Forall_app in HP; apply HP).
    split; [exact C1|]. split.
    + apply Forall_forall. intros s Hs. rewrite Forall_forall in C2. destruct (C2 s Hs) as [A1 A2].
      assert (HPseg : Forall P s).
      { apply in_split in Hs. destruct Hs as (l1 & l2 & ->). rewrite concat_app in C1. cbn [concat] in C1. eapply (HPs s (concat l1) (concat l2 ++ rest)).
        rewrite C1, <- !app_assoc. reflexivity. }
      split; [apply Call; assumption|]. intros p q Ep Hq Hc. apply (A2 p q Ep Hq). apply Call; [|exact Hc]. rewrite Ep in HPseg. apply Forall_app in HPseg. apply HPseg.
    + intros p q Ep Hc. apply (C3 p q Ep). apply Call; [|exact Hc]. subst rest. apply (HPs p (concat segs) q). exact C1.
  - rewrite E1. reflexivity.
  - apply cells_length.
  - rewrite (cells_ext _ _ (fun i => count (fun s => Nat.eqb (bin_of (N.to_nat wanted) tracked s) i) segs)) by (intros i _; rewrite F; lia). apply tallies_cells.
Qed.
