(* Berlekamp-Massey returns the linear complexity (Massey's theorem for the variant in the source). *)
From Coq Require Import String.
From Verif Require Import Base BitwiseModel FloatModel ResultModel CollectModel RankModel RankProofs LfsrModel LfsrSpec.

(* ---- xsum ---- *)
Lemma xsum_ext f g k : (forall j, (j < k)%nat -> f j = g j) -> xsum f k = xsum g k.
Proof. induction k as [|k IH]; intro H; [reflexivity|]. cbn [xsum]. rewrite IH by (intros; apply H; lia). rewrite H by lia. reflexivity. Qed.
Lemma xsum_false k : xsum (fun _ => false) k = false.
Proof. induction k; [reflexivity|]. cbn [xsum]. rewrite IHk. reflexivity. Qed.
Lemma xsum_xor f g k : xsum (fun j => xorb (f j) (g j)) k = xorb (xsum f k) (xsum g k).
Proof. induction k; [reflexivity|]. cbn [xsum]. rewrite IHk. destruct (xsum f k), (xsum g k), (f k), (g k); reflexivity. Qed.
Lemma xsum_and b f k : xsum (fun j => b && f j) k = b && xsum f k.
Proof. induction k; [destruct b; reflexivity|]. cbn [xsum]. rewrite IHk. destruct b, (xsum f k), (f k); reflexivity. Qed.
Lemma xsum_swap f a b : xsum (fun i => xsum (fun j => f i j) b) a = xsum (fun j => xsum (fun i => f i j) a) b.
Proof.
  induction a as [|a IH]; [cbn; rewrite xsum_false; reflexivity|]. cbn [xsum]. rewrite IH, <- xsum_xor. reflexivity.
Qed.
Lemma xsum_head f k : xsum f (S k) = xorb (f O) (xsum (fun j => f (S j)) k).
Proof. induction k as [|k IH]; [cbn; destruct (f O); reflexivity|]. cbn [xsum] in *. rewrite IH. destruct (f O), (xsum (fun j => f (S j)) k), (f (S k)); reflexivity. Qed.
Lemma xsum_more f k k' : (k <= k')%nat -> (forall j, (k <= j < k')%nat -> f j = false) -> xsum f k' = xsum f k.
Proof.
  intros H Z. induction k' as [|k' IH]; [replace k with O by lia; reflexivity|]. destruct (Nat.eq_dec k (S k')) as [->|N]; [reflexivity|].
  cbn [xsum]. rewrite IH by (lia || (intros; apply Z; lia)). rewrite Z by lia. destruct (xsum f k); reflexivity.
Qed.
Lemma xsum_shift f d k : xsum (fun j => (d <=? j)%nat && f (j - d)%nat) (d + k) = xsum f k.
Proof.
  induction k as [|k IH].
  - rewrite Nat.add_0_r. cbn [xsum]. rewrite <- (xsum_false d). apply xsum_ext. intros j Hj. destruct (Nat.leb_spec d j); [lia|reflexivity].
  - rewrite Nat.add_succ_r. cbn [xsum]. rewrite IH. destruct (Nat.leb_spec d (d + k)); [|lia]. replace (d + k - d)%nat with k by lia. reflexivity.
Qed.

(* ---- connection polynomials ---- *)
(* c = 1 + c_1 x + .. : the value of sum_{j<=l} c_j u_{i-j} *)
Definition conv (u c : nat -> bool) (l i : nat) : bool := xsum (fun j => c j && u (i - j)%nat) (S l).
Definition runs_to (u c : nat -> bool) (l n : nat) : Prop := c O = true /\ forall i, (l <= i < n)%nat -> conv u c l i = false.
Definition bits (u : list bool) : nat -> bool := fun i => nth i u false.
Lemma conv_head u c l i : c O = true -> conv u c l i = xorb (u i) (xsum (fun j => c (S j) && u (i - S j)%nat) l).
Proof. intro H. unfold conv. rewrite xsum_head, H, Nat.sub_0_r. reflexivity. Qed.
Lemma generates_runs L taps u : generates L taps u -> runs_to (bits u) (fun j => match j with O => true | S _ => taps j end) L (length u).
Proof.
  intro H. split; [reflexivity|]. intros i Hi. rewrite conv_head by reflexivity. unfold bits at 1. rewrite (H i Hi). unfold bits. rewrite Bool.xorb_nilpotent. reflexivity.
Qed.
Lemma runs_generates L c u : runs_to (bits u) c L (length u) -> generates L c u.
Proof. intros [H0 H] i Hi. specialize (H i Hi). rewrite conv_head in H by exact H0. apply Bool.xorb_eq in H. exact H. Qed.
Definition complexity (u : nat -> bool) (n L : nat) : Prop := (exists c, runs_to u c L n) /\ forall L' c, runs_to u c L' n -> (L <= L')%nat.
Lemma complexity_spec u L : complexity (bits u) (length u) L <-> linear_complexity u L.
Proof.
  split; intros [[c E] M]; split.
  - exists c. apply runs_generates, E.
  - intros L' taps G. exact (M L' _ (generates_runs _ _ _ G)).
  - eexists. exact (generates_runs _ _ _ E).
  - intros L' c' G. exact (M L' _ (runs_generates _ _ _ G)).
Qed.
(* ---- Massey's lemma ---- *)
Lemma massey u c d l L n : runs_to u c l n -> (l <= n)%nat -> conv u c l n = true -> runs_to u d L (S n) -> (S n <= L + l)%nat.
Proof.
  intros [C0 C] Hl Hc [D0 D]. destruct (Nat.le_gt_cases (S n) (L + l)) as [H|H]; [exact H|exfalso].
  (* T = sum_{k<=L, j<=l} d_k c_j u_{n-k-j} *)
  set (f := fun k j => d k && (c j && u (n - k - j)%nat)).
  assert (A : xsum (fun k => xsum (fun j => f k j) (S l)) (S L) = true).
  { rewrite xsum_head. assert (E0 : xsum (fun j => f O j) (S l) = true).
    { rewrite <- Hc. unfold conv. apply xsum_ext. intros j _. unfold f. rewrite D0, Nat.sub_0_r. reflexivity. }
    rewrite E0. assert (E1 : xsum (fun k => xsum (fun j => f (S k) j) (S l)) L = false).
    { rewrite <- (xsum_false L). apply xsum_ext. intros k Hk. unfold f. rewrite xsum_and. fold (conv u c l (n - S k)). rewrite C by lia. apply andb_false_r. }
    rewrite E1. reflexivity. }
  assert (B : xsum (fun k => xsum (fun j => f k j) (S l)) (S L) = false).
  { rewrite xsum_swap. rewrite <- (xsum_false (S l)). apply xsum_ext. intros j Hj.
    transitivity (c j && conv u d L (n - j)).
    - unfold conv. rewrite <- xsum_and. apply xsum_ext. intros k _. unfold f. replace (n - k - j)%nat with (n - j - k)%nat by lia. destruct (d k), (c j); reflexivity.
    - rewrite D by lia. apply andb_false_r. }
  congruence.
Qed.
(* what one more bit does to the complexity *)
Lemma runs_less u c l n n' : (n' <= n)%nat -> runs_to u c l n -> runs_to u c l n'.
Proof. intros H [H0 H1]. split; [exact H0|]. intros. apply H1. lia. Qed.
Lemma next_same u c n l : complexity u n l -> runs_to u c l n -> conv u c l n = false -> complexity u (S n) l /\ runs_to u c l (S n).
Proof.
  intros [_ M] [C0 C] H. assert (R : runs_to u c l (S n)). { split; [exact C0|]. intros i Hi. destruct (Nat.eq_dec i n) as [->|]; [exact H|]. apply C. lia. }
  split; [|exact R]. split; [exists c; exact R|]. intros L' d D. apply (M L' d). apply runs_less with (2 := D). lia.
Qed.
Lemma next_lower u c n l : (l <= n)%nat -> complexity u n l -> runs_to u c l n -> conv u c l n = true -> forall L' d, runs_to u d L' (S n) -> (Nat.max l (S n - l) <= L')%nat.
Proof.
  intros Hl [_ M] R H L' d D. pose proof (massey u c d l L' n R Hl H D). assert (l <= L')%nat by (apply (M L' d); apply runs_less with (2 := D); lia). lia.
Qed.
(* the previous polynomial: length m - l, good up to m - 1, wrong there *)
Definition previous (u b : nat -> bool) (l m n : nat) : Prop :=
  (m = O /\ l = O /\ b O = true /\ (forall j, (0 < j)%nat -> b j = false)) \/
  ((0 < m <= n)%nat /\ (0 < l <= m)%nat /\ (m - l <= l)%nat /\ b O = true /\ (forall j, (m - l < j)%nat -> b j = false) /\
   (forall i, (m - l <= i < m - 1)%nat -> conv u b (m - l) i = false) /\ conv u b (m - l) (m - 1) = true).
Definition combine_poly (c b : nat -> bool) (d : nat) : nat -> bool := fun j => xorb (c j) ((d <=? j)%nat && b (j - d)%nat).
Lemma conv_wide u c l l' i : (l <= l')%nat -> (forall j, (l < j)%nat -> c j = false) -> conv u c l' i = conv u c l i.
Proof. intros H Z. unfold conv. apply xsum_more; [lia|]. intros j Hj. rewrite Z by lia. reflexivity. Qed.
Lemma conv_shift u b l d k i : (d + l <= k)%nat -> (forall j, (l < j)%nat -> b j = false) ->
  xsum (fun j => ((d <=? j)%nat && b (j - d)%nat) && u (i - j)%nat) (S k) = conv u b l (i - d).
Proof.
  intros H Z. unfold conv. rewrite <- (xsum_shift (fun j => b j && u (i - d - j)%nat) d (S l)).
  rewrite (xsum_more _ (d + S l) (S k)) by (lia || (intros j Hj; destruct (Nat.leb_spec d j); [rewrite Z by lia; reflexivity|lia])).
  apply xsum_ext. intros j Hj. destruct (Nat.leb_spec d j); [|reflexivity]. cbn [andb]. replace (i - d - (j - d))%nat with (i - j)%nat by lia. reflexivity.
Qed.
Lemma next_change u c b n l m : (l <= n)%nat -> complexity u n l -> runs_to u c l n -> (forall j, (l < j)%nat -> c j = false) -> previous u b l m n -> conv u c l n = true ->
  let l' := Nat.max l (S n - l) in let c' := combine_poly c b (S n - m) in
  complexity u (S n) l' /\ runs_to u c' l' (S n) /\ (forall j, (l' < j)%nat -> c' j = false) /\
  (forall e, (forall j, (j <= n)%nat -> e j = c' j) -> runs_to u e l' (S n)).
Proof.
  intros Hl Hx [C0 C] CZ P Hc l' c'.
  assert (M : (m <= n)%nat) by (destruct P as [(-> & _)|(H & _)]; lia).
  assert (c'0 : c' O = true). { unfold c', combine_poly. destruct (Nat.leb_spec (S n - m) 0); [lia|]. rewrite C0. reflexivity. }
  assert (R : forall i, (l' <= i < S n)%nat -> conv u c' l' i = false).
  { intros i Hi. unfold l' in *. destruct P as [(-> & -> & B0 & BZ)|((Hm & Hmn) & (Hl0 & Hlm) & Hb & B0 & BZ & BR & BW)].
    - (* no bit set so far: the length becomes n + 1 *) lia.
    - unfold conv, c', combine_poly. rewrite (xsum_ext _ (fun j => xorb (c j && u (i - j)%nat) (((S n - m <=? j)%nat && b (j - (S n - m))%nat) && u (i - j)%nat))) by (intros j _; destruct (c j), (S n - m <=? j)%nat, (b (j - (S n - m))%nat), (u (i - j)%nat); reflexivity).
      rewrite xsum_xor. fold (conv u c (Nat.max l (S n - l)) i). rewrite (conv_wide u c l) by (lia || exact CZ).
      rewrite (conv_shift u b (m - l)) by (lia || exact BZ).
      destruct (Nat.eq_dec i n) as [->|Ni].
      + rewrite Hc. replace (n - (S n - m))%nat with (m - 1)%nat by lia. rewrite BW. reflexivity.
      + rewrite C by lia. rewrite BR by lia. reflexivity. }
  assert (Z : forall j, (l' < j)%nat -> c' j = false).
  { intros j Hj. unfold c', combine_poly, l' in *. rewrite CZ by lia. destruct (Nat.leb_spec (S n - m) j); [|reflexivity]. cbn [andb].
    destruct P as [(-> & -> & B0 & BZ)|((Hm & Hmn) & (Hl0 & Hlm) & Hb & B0 & BZ & BR & BW)]; rewrite BZ by lia; reflexivity. }
  assert (R' : forall e, (forall j, (j <= n)%nat -> e j = c' j) -> runs_to u e l' (S n)).
  { intros e He. split; [rewrite He by lia; exact c'0|]. intros i Hi. rewrite <- (R i Hi). unfold conv. apply xsum_ext. intros j Hj. rewrite He by lia. reflexivity. }
  split; [|split; [|split]].
  - split; [exists c'; split; [exact c'0|exact R]|]. exact (next_lower u c n l Hl Hx (conj C0 C) Hc).
  - split; assumption.
  - exact Z.
  - exact R'.
Qed.
(* ---- the loop ---- *)
Open Scope N_scope.
Definition fb (l : list N) (j : nat) : bool := nth j l 0 =? 1.
Definition zo (l : list N) : Prop := Forall (fun x => x = 0 \/ x = 1) l.
Lemma zo_nth l j : zo l -> nth j l 0 = N.b2n (fb l j).
Proof.
  intro H. unfold fb. assert (E : nth j l 0 = 0 \/ nth j l 0 = 1).
  { destruct (Nat.lt_ge_cases j (length l)) as [L|L]; [|left; apply nth_overflow, L]. unfold zo in H. rewrite Forall_forall in H. apply H, nth_In, L. }
  destruct E as [-> | ->]; reflexivity.
Qed.
Lemma zo_upd l i a : zo l -> a = 0 \/ a = 1 -> zo (upd l i a).
Proof. intros H A. revert i. induction H as [|x l Hx H IH]; intro i; [destruct i; constructor|]. destruct i as [|i]; cbn [upd]; constructor; auto. apply IH. Qed.
Lemma bm_s_ok u c n l : zo u -> zo c -> length c = length u -> (l <= n < length u)%nat -> fb c 0 = true ->
  bm_s u c (S n) l = Ok (N.b2n (conv (fb u) (fb c) l n)).
Proof.
  intros Zu Zc Lc Hl C0. unfold bm_s. replace (S n - 1)%nat with n by lia. rewrite (at_nth u n 0) by lia. cbn [obind]. rewrite conv_head by exact C0.
  rewrite (zo_nth u n Zu).
  assert (G : forall k acc, (k <= l)%nat -> ofold (fun s j => cj <- at_ c j ;; if (S n <? j + 1)%nat then UB else (uj <- at_ u (S n - j - 1) ;; Ok (N.lxor s (N.land cj uj)))) (seq 1 k) (N.b2n acc) =
    Ok (N.b2n (xorb acc (xsum (fun j => fb c (S j) && fb u (n - S j)%nat) k)))).
  { induction k as [|k IH]; intros acc Hk; [cbn; rewrite xorb_false_r; reflexivity|]. rewrite seq_S, ofold_app, IH by lia. cbn [obind ofold]. change (1 + k)%nat with (S k).
    rewrite (at_nth c (S k) 0) by lia. cbn [obind]. destruct (Nat.ltb_spec (S n) (S k + 1)); [lia|]. rewrite (at_nth u (S n - S k - 1) 0) by lia. cbn [obind].
    rewrite (zo_nth c (S k) Zc), (zo_nth u _ Zu). replace (S n - S k - 1)%nat with (n - S k)%nat by lia. f_equal. cbn [xsum].
    destruct acc, (xsum (fun j => fb c (S j) && fb u (n - S j)%nat) k), (fb c (S k)), (fb u (n - S k)%nat); reflexivity. }
  apply G. lia.
Qed.
Lemma bm_add_ok b tmp l from to : zo b -> (forall k, (k <= l)%nat -> (k < length tmp)%nat /\ nth k tmp 0 = nth k b 0) -> (to <= from + l + 1)%nat ->
  forall c, zo c -> (to <= length c)%nat -> exists c', bm_add tmp from to c = Ok c' /\ length c' = length c /\ zo c' /\
    forall j, fb c' j = if (from <=? j)%nat && (j <? to)%nat then xorb (fb c j) (fb b (j - from)) else fb c j.
Proof.
  intros Zb Ht Hto c Zc Hc. unfold bm_add.
  assert (G : forall k, (from + k <= to)%nat -> exists c', ofold (fun c j => cj <- at_ c j ;; bj <- at_ tmp (j - from) ;; Ok (upd c j (N.lxor cj bj))) (seq from k) c = Ok c' /\ length c' = length c /\ zo c' /\
     forall j, fb c' j = if (from <=? j)%nat && (j <? from + k)%nat then xorb (fb c j) (fb b (j - from)) else fb c j).
  { induction k as [|k IH]; intro Hk.
    - exists c. split; [reflexivity|]. split; [reflexivity|]. split; [exact Zc|]. intro j. destruct (Nat.leb_spec from j), (Nat.ltb_spec j (from + 0)); cbn [andb]; lia || reflexivity.
    - destruct IH as (c1 & E & L & Z & F); [lia|]. rewrite seq_S, ofold_app, E. cbn [obind ofold]. rewrite (at_nth c1 (from + k) 0) by lia. cbn [obind].
      destruct (Ht (from + k - from)%nat) as [T1 T2]; [lia|]. rewrite (at_nth tmp _ 0) by exact T1. cbn [obind]. eexists. split; [reflexivity|].
      rewrite upd_length. split; [exact L|]. assert (V : N.lxor (nth (from + k) c1 0) (nth (from + k - from) tmp 0) = N.b2n (xorb (fb c1 (from + k)) (fb b k))).
      { rewrite T2, (zo_nth c1 _ Z), (zo_nth b _ Zb). replace (from + k - from)%nat with k by lia. destruct (fb c1 _), (fb b k); reflexivity. }
      rewrite V. split; [apply zo_upd; [exact Z|destruct (xorb _ _); [right|left]; reflexivity]|].
      intro j. unfold fb at 1. rewrite nth_upd by lia. destruct (Nat.eqb_spec j (from + k)) as [->|N].
      + replace (N.b2n _ =? 1) with (xorb (fb c1 (from + k)) (fb b k)) by (destruct (xorb _ _); reflexivity). rewrite F.
        destruct (Nat.leb_spec from (from + k)), (Nat.ltb_spec (from + k) (from + k)), (Nat.ltb_spec (from + k) (from + S k)); cbn [andb]; try lia. f_equal. f_equal. lia.
      + change (nth j c1 0 =? 1) with (fb c1 j). rewrite F. destruct (Nat.leb_spec from j), (Nat.ltb_spec j (from + k)), (Nat.ltb_spec j (from + S k)); cbn [andb]; lia || reflexivity. }
  destruct (Nat.le_gt_cases from to) as [H|H].
  - destruct (G (to - from)%nat ltac:(lia)) as (c' & E & L & Z & F). exists c'. split; [exact E|]. split; [exact L|]. split; [exact Z|]. intro j. rewrite F. replace (from + (to - from))%nat with to by lia. reflexivity.
  - replace (to - from)%nat with O by lia. exists c. split; [reflexivity|]. split; [reflexivity|]. split; [exact Zc|]. intro j.
    destruct (Nat.leb_spec from j), (Nat.ltb_spec j to); cbn [andb]; lia || reflexivity.
Qed.
Record bm_inv (u : list N) (n : nat) (st : bm_state) : Prop := {
  inv_lb : length (bm_b st) = length u; inv_lc : length (bm_c st) = length u; inv_lt : length (bm_tmp st) = length u;
  inv_zb : zo (bm_b st); inv_zc : zo (bm_c st);
  inv_l : (bm_l st <= n)%nat;
  inv_x : complexity (fb u) n (bm_l st);
  inv_r : runs_to (fb u) (fb (bm_c st)) (bm_l st) n;
  inv_cz : forall j, (bm_l st < j)%nat -> fb (bm_c st) j = false;
  inv_p : previous (fb u) (fb (bm_b st)) (bm_l st) (bm_m st) n }.
Lemma fb_over l j : (length l <= j)%nat -> fb l j = false.
Proof. intro H. unfold fb. rewrite nth_overflow by exact H. reflexivity. Qed.
Lemma bm_step_ok u n st : zo u -> (n < length u)%nat -> bm_inv u n st ->
  exists st', bm_step u st (S n) = Ok st' /\ bm_inv u (S n) st' /\ bm_l st' = (if conv (fb u) (fb (bm_c st)) (bm_l st) n then Nat.max (bm_l st) (S n - bm_l st) else bm_l st).
Proof.
  intros Zu Hn [Lb Lc Lt Zb Zc Hl HX HR CZ HP]. destruct st as [b c tmp l m]. cbn [bm_b bm_c bm_tmp bm_l bm_m] in *.
  unfold bm_step. cbn [bm_b bm_c bm_tmp bm_l bm_m]. rewrite bm_s_ok by (assumption || lia || apply HR). cbn [obind].
  destruct (conv (fb u) (fb c) l n) eqn:EC.
  - change (N.b2n true =? 0) with false. cbv iota. assert (M : (m <= n)%nat) by (destruct HP as [(-> & _)|(H & _)]; lia).
    destruct (Nat.ltb_spec (S n) m); [lia|]. unfold vec_copy.
    destruct (Nat.leb_spec (l + 1) (length b)); [|lia]. destruct (Nat.leb_spec (l + 1) (length tmp)); [|lia]. cbn [andb obind].
    set (tmp' := firstn (l + 1) b ++ skipn (l + 1) tmp).
    assert (T : forall k, (k <= l)%nat -> (k < length tmp')%nat /\ nth k tmp' 0 = nth k b 0).
    { intros k Hk. unfold tmp'. rewrite app_length, firstn_length, skipn_length. split; [lia|]. rewrite app_nth1 by (rewrite firstn_length; lia).
      rewrite <- (firstn_skipn (l + 1) b) at 2. rewrite app_nth1 by (rewrite firstn_length; lia). reflexivity. }
    assert (LT : length tmp' = length u) by (unfold tmp'; rewrite app_length, firstn_length, skipn_length; lia).
    destruct (bm_add_ok b tmp' l (S n - m) (Nat.min (length u) (S n - m + l + 1)) Zb T ltac:(lia) c Zc ltac:(lia)) as (c' & E & L & Z & F).
    pose proof (next_change (fb u) (fb c) (fb b) n l m Hl HX HR CZ HP EC) as NC. cbn zeta in NC. destruct NC as (X' & R' & CZ' & ALT).
    assert (BZ : forall j, (l < j)%nat -> fb b j = false) by (intros j Hj; destruct HP as [(-> & -> & B0 & BZ)|((Hm & Hmn) & (Hl0 & Hlm) & Hb & B0 & BZ & BR & BW)]; apply BZ; lia).
    assert (F' : forall j, (j < length u)%nat -> fb c' j = combine_poly (fb c) (fb b) (S n - m) j).
    { intros j Hj. rewrite F. unfold combine_poly. destruct (Nat.leb_spec (S n - m) j), (Nat.ltb_spec j (Nat.min (length u) (S n - m + l + 1))); cbn [andb]; try (rewrite xorb_false_r; reflexivity); try reflexivity.
      rewrite BZ by lia. rewrite xorb_false_r. reflexivity. }
    assert (Rc : runs_to (fb u) (fb c') (Nat.max l (S n - l)) (S n)) by (apply ALT; intros j Hj; apply F'; lia).
    assert (Zc' : forall j, (Nat.max l (S n - l) < j)%nat -> fb c' j = false).
    { intros j Hj. destruct (Nat.lt_ge_cases j (length u)) as [Q|Q]; [rewrite F' by exact Q; apply CZ', Hj|apply fb_over; lia]. }
    destruct (Nat.leb_spec (2 * l) (S n)) as [D|D].
    + rewrite E. cbn [obind]. eexists. split; [reflexivity|]. cbn [bm_l]. split; [|lia]. replace (Nat.max l (S n - l)) with (S n - l)%nat in * by lia.
      constructor; cbn [bm_b bm_c bm_tmp bm_l bm_m]; try assumption; try lia.
      right. replace (S n - (S n - l))%nat with l by lia. replace (S n - 1)%nat with n by lia. destruct HR as [R0 R1].
      split; [lia|]. split; [lia|]. split; [lia|]. split; [exact R0|]. split; [exact CZ|]. split; [exact R1|exact EC].
    + rewrite E. cbn [obind]. eexists. split; [reflexivity|]. cbn [bm_l]. split; [|lia]. replace (Nat.max l (S n - l)) with l in * by lia.
      constructor; cbn [bm_b bm_c bm_tmp bm_l bm_m]; try assumption; try lia.
      destruct HP as [(-> & -> & _)|(Ha & Hb)]; [lia|]. right. split; [lia|exact Hb].
  - change (N.b2n false =? 0) with true. cbv iota. eexists. split; [reflexivity|]. split; [|reflexivity].
    destruct (next_same _ _ _ _ HX HR EC) as [X' R'].
    constructor; cbn [bm_b bm_c bm_tmp bm_l bm_m]; try assumption; try lia.
    destruct HP as [Ha|(Ha & Hb)]; [left; exact Ha|right; split; [lia|exact Hb]].
Qed.
Lemma zo_repeat n : zo (repeat 0 n). Proof. apply Forall_forall. intros x Hx. apply repeat_spec in Hx. left. exact Hx. Qed.
Lemma bm_init u x r : u = x :: r -> zo u -> bm_inv u 0 (mkbm (1 :: repeat 0 (length r)) (1 :: repeat 0 (length r)) (repeat 0 (length u)) O O).
Proof.
  intros E Z. assert (NZ : forall j, (0 < j)%nat -> fb (1 :: repeat 0 (length r)) j = false).
  { intros j Hj. destruct j as [|j]; [lia|]. unfold fb. cbn [nth]. rewrite nth_repeat. reflexivity. }
  assert (LL : length (1 :: repeat 0 (length r)) = length u) by (rewrite E; cbn; rewrite repeat_length; reflexivity).
  assert (ZZ : zo (1 :: repeat 0 (length r))) by (constructor; [right; reflexivity|apply zo_repeat]).
  assert (RR : runs_to (fb u) (fb (1 :: repeat 0 (length r))) 0 0) by (split; [reflexivity|intros i Hi; lia]).
  constructor; cbn [bm_b bm_c bm_tmp bm_l bm_m]; try assumption; try lia.
  - apply repeat_length.
  - split; [eexists; exact RR|]. intros. lia.
  - left. repeat split; try assumption.
Qed.
Lemma bm_loop u st0 : zo u -> bm_inv u 0 st0 -> forall n, (n <= length u)%nat -> exists st, ofold (bm_step u) (seq 1 n) st0 = Ok st /\ bm_inv u n st.
Proof.
  intros Z I0. induction n as [|n IH]; intro Hn; [exists st0; split; [reflexivity|exact I0]|].
  destruct IH as (st & E & I); [lia|]. rewrite seq_S, ofold_app, E. cbn [obind ofold Nat.add]. destruct (bm_step_ok u n st Z ltac:(lia) I) as (st' & E' & I' & _).
  exists st'. rewrite E'. split; [reflexivity|exact I'].
Qed.
Lemma berlekamp_massey_ok u : u <> [] -> zo u -> exists L, berlekamp_massey u = Ok L /\ complexity (fb u) (length u) L.
Proof.
  intros Hu Z. destruct u as [|x r]; [contradiction|]. destruct (bm_loop (x :: r) _ Z (bm_init _ x r eq_refl Z) (length (x :: r)) (le_n _)) as (st & E & I).
  exists (bm_l st). unfold berlekamp_massey. rewrite E. split; [reflexivity|apply I].
Qed.
