(* The number of bit sequences of each linear complexity, and the linear complexity test. *)
From Coq Require Import String.
From Verif Require Import Base BitwiseModel WordLemmas BitwiseProofs FloatModel ResultModel CollectModel CollectSpec CollectProofs StatsSpec RankModel RankProofs LfsrModel LfsrSpec LfsrProofs.
Open Scope N_scope.

(* ---- one more bit ---- *)
Definition known (u : nat -> bool) (n l : nat) (c : nat -> bool) : Prop := exists b m,
  (l <= n)%nat /\ complexity u n l /\ runs_to u c l n /\ (forall j, (l < j)%nat -> c j = false) /\ previous u b l m n.
Lemma conv_agree u v c l i n : (forall k, (k < n)%nat -> u k = v k) -> (i < n)%nat -> conv u c l i = conv v c l i.
Proof. intros H Hi. unfold conv. apply xsum_ext. intros j _. rewrite H by lia. reflexivity. Qed.
Lemma runs_agree u v c l n : (forall k, (k < n)%nat -> u k = v k) -> runs_to u c l n -> runs_to v c l n.
Proof. intros H [R0 R1]. split; [exact R0|]. intros i Hi. rewrite <- (conv_agree u v c l i n H) by lia. apply R1, Hi. Qed.
Lemma complexity_agree u v n l : (forall k, (k < n)%nat -> u k = v k) -> complexity u n l -> complexity v n l.
Proof.
  intros H [[c R] M]. split; [exists c; apply (runs_agree u v); assumption|]. intros L' d D. apply (M L' d). apply (runs_agree v u); [intros k Hk; symmetry; apply H, Hk|exact D].
Qed.
Lemma previous_agree u v b l m n : (forall k, (k < n)%nat -> u k = v k) -> previous u b l m n -> previous v b l m n.
Proof.
  intros H [P|(H1 & H2 & H3 & H4 & H5 & H6 & H7)]; [left; exact P|right]. split; [exact H1|]. split; [exact H2|]. split; [exact H3|]. split; [exact H4|]. split; [exact H5|]. split.
  - intros i Hi. rewrite <- (conv_agree u v b (m - l) i n H) by lia. apply H6, Hi.
  - rewrite <- (conv_agree u v b (m - l) (m - 1) n H) by lia. exact H7.
Qed.
Lemma known_agree u v n l c : (forall k, (k < n)%nat -> u k = v k) -> known u n l c -> known v n l c.
Proof.
  intros H (b & m & Hl & X & R & Z & P). exists b, m. split; [exact Hl|]. split; [apply (complexity_agree u v); assumption|]. split; [apply (runs_agree u v); assumption|].
  split; [exact Z|apply (previous_agree u v); assumption].
Qed.
Lemma known_next u n l c : known u n l c -> exists c', known u (S n) (if conv u c l n then Nat.max l (S n - l) else l) c'.
Proof.
  intros (b & m & Hl & X & R & Z & P). destruct (conv u c l n) eqn:E.
  - pose proof (next_change u c b n l m Hl X R Z P E) as NC. cbn zeta in NC. destruct NC as (X' & R' & Z' & _).
    destruct (Nat.le_gt_cases (2 * l) (S n)) as [D|D].
    + exists (combine_poly c b (S n - m)), c, (S n). replace (Nat.max l (S n - l)) with (S n - l)%nat in * by lia.
      split; [lia|]. split; [exact X'|]. split; [exact R'|]. split; [exact Z'|]. right. replace (S n - (S n - l))%nat with l by lia. replace (S n - 1)%nat with n by lia. destruct R as [R0 R1].
      split; [lia|]. split; [lia|]. split; [lia|]. split; [exact R0|]. split; [exact Z|]. split; [exact R1|exact E].
    + exists (combine_poly c b (S n - m)), b, m. replace (Nat.max l (S n - l)) with l in * by lia.
      split; [lia|]. split; [exact X'|]. split; [exact R'|]. split; [exact Z'|]. destruct P as [(-> & -> & _)|(Ha & Hb)]; [lia|]. right. split; [lia|exact Hb].
  - destruct (next_same u c n l X R E) as [X' R']. exists c, b, m. split; [lia|]. split; [exact X'|]. split; [exact R'|]. split; [exact Z|].
    destruct P as [Ha|(Ha & Hb)]; [left; exact Ha|right; split; [lia|exact Hb]].
Qed.
Lemma known_0 u : known u 0 0 (fun j => (j =? 0)%nat).
Proof.
  exists (fun j => (j =? 0)%nat), O. split; [lia|]. assert (R : runs_to u (fun j => (j =? 0)%nat) 0 0) by (split; [reflexivity|intros i Hi; lia]).
  assert (Z : forall j, (0 < j)%nat -> (j =? 0)%nat = false) by (intros j Hj; apply Nat.eqb_neq; lia).
  split; [split; [eexists; exact R|intros; lia]|]. split; [exact R|]. split; [exact Z|]. left. repeat split. exact Z.
Qed.
Lemma known_ex u : forall n, exists l c, known u n l c.
Proof. induction n as [|n (l & c & K)]; [do 2 eexists; apply known_0|]. destruct (known_next u n l c K) as (c' & K'). eauto. Qed.
Lemma complexity_unique u n l l' : complexity u n l -> complexity u n l' -> l = l'.
Proof. intros [[c R] M] [[c' R'] M']. specialize (M _ _ R'). specialize (M' _ _ R). lia. Qed.
Lemma complexity_le u n l : complexity u n l -> (l <= n)%nat.
Proof. intros [_ M]. apply (M n (fun _ => true)). split; [reflexivity|]. intros i Hi. lia. Qed.

(* ---- linear complexity of lists ---- *)
Lemma lc_unique u L L' : linear_complexity u L -> linear_complexity u L' -> L = L'.
Proof. rewrite <- !complexity_spec. apply complexity_unique. Qed.
(* the two extensions of a sequence *)
Lemma lc_snoc u L : linear_complexity u L -> exists b, linear_complexity (u ++ [b]) L /\ linear_complexity (u ++ [negb b]) (Nat.max L (S (length u) - L)).
Proof.
  rewrite <- complexity_spec. intro X. destruct (known_ex (bits u) (length u)) as (l & c & K).
  assert (l = L) by (destruct K as (b & m & _ & X' & _); eapply complexity_unique; eassumption). subst l.
  assert (A : forall b k, (k < length u)%nat -> bits u k = bits (u ++ [b]) k) by (intros b k Hk; unfold bits; symmetry; apply app_nth1, Hk).
  assert (K' : forall b, known (bits (u ++ [b])) (length u) L c) by (intro b; apply (known_agree (bits u)); [apply A|exact K]).
  set (q := xsum (fun j => c (S j) && bits u (length u - S j)%nat) L).
  assert (C : forall b, conv (bits (u ++ [b])) c L (length u) = xorb b q).
  { intro b. rewrite conv_head by (destruct K as (b0 & m & _ & _ & [R0 _] & _); exact R0). unfold bits at 1. rewrite app_nth2, Nat.sub_diag by lia. cbn [nth]. f_equal.
    apply xsum_ext. intros j Hj. assert (L <= length u)%nat by (destruct K as (b0 & m & Hl & _); exact Hl). rewrite A with (b := b) by lia. reflexivity. }
  assert (LEN : forall b, length (u ++ [b]) = S (length u)) by (intro; rewrite app_length; cbn; lia).
  exists q. split.
  - rewrite <- complexity_spec, LEN. destruct (known_next _ _ _ _ (K' q)) as (c' & K1). rewrite C, Bool.xorb_nilpotent in K1. destruct K1 as (b & m & _ & X1 & _). exact X1.
  - rewrite <- complexity_spec, LEN. destruct (known_next _ _ _ _ (K' (negb q))) as (c' & K1). rewrite C in K1. replace (xorb (negb q) q) with true in K1 by (destruct q; reflexivity).
    destruct K1 as (b & m & _ & X1 & _). exact X1.
Qed.
Definition lcf (u : list bool) : nat := match berlekamp_massey (bit_cells u) with Ok L => L | UB => O end.
Lemma fb_bits u : forall i, fb (bit_cells u) i = bits u i.
Proof. intro i. unfold fb, bits, bit_cells. change 0 with ((fun x : bool => if x then 1 else 0) false). rewrite map_nth. destruct (nth i u false); reflexivity. Qed.
Lemma bit_cells_zo u : zo (bit_cells u).
Proof. apply Forall_map, Forall_forall. intros [] _; [right|left]; reflexivity. Qed.
Lemma bm_lc u : u <> [] -> exists L, berlekamp_massey (bit_cells u) = Ok L /\ linear_complexity u L.
Proof.
  intro Hu. destruct (berlekamp_massey_ok (bit_cells u)) as (L & E & X); [destruct u; [contradiction|discriminate]|apply bit_cells_zo|].
  exists L. split; [exact E|]. rewrite <- complexity_spec. rewrite bit_cells_len in X. apply (complexity_agree (fb (bit_cells u))); [intros; apply fb_bits|exact X].
Qed.
Lemma lcf_ok u : linear_complexity u (lcf u).
Proof.
  destruct u as [|b u].
  - change (lcf []) with O. split; [exists (fun _ => true); intros i Hi; cbn in Hi; lia|intros; lia].
  - destruct (bm_lc (b :: u)) as (L & E & X); [discriminate|]. unfold lcf. rewrite E. exact X.
Qed.
Lemma lcf_eq u L : linear_complexity u L <-> lcf u = L.
Proof. split; [intro H; apply (lc_unique u); [apply lcf_ok|exact H]|intros <-; apply lcf_ok]. Qed.
Lemma lcf_le u : (lcf u <= length u)%nat.
Proof. eapply complexity_le, complexity_spec, lcf_ok. Qed.

(* ---- counting ---- *)
Fixpoint seqs (n : nat) : list (list bool) := match n with O => [[]] | S n' => map (fun u => u ++ [false]) (seqs n') ++ map (fun u => u ++ [true]) (seqs n') end.
Lemma seqs_in n : forall u, In u (seqs n) <-> length u = n.
Proof.
  induction n as [|n IH]; intro u.
  - cbn. split; [intros [<- |[]]; reflexivity|]. destruct u; [left; reflexivity|discriminate].
  - cbn [seqs]. rewrite in_app_iff, !in_map_iff. split.
    + intros [(v & <- & Hv)|(v & <- & Hv)]; apply IH in Hv; rewrite app_length; cbn; lia.
    + intro H. destruct u as [|b v _] using rev_ind; [discriminate|]. rewrite app_length in H. cbn in H. assert (In v (seqs n)) by (apply IH; lia). destruct b; [right|left]; exists v; auto.
Qed.
Lemma seqs_nodup n : NoDup (seqs n).
Proof.
  induction n as [|n IH]; [repeat constructor; intros []|]. cbn [seqs].
  assert (I : forall b, NoDup (map (fun u => u ++ [b]) (seqs n))) by (intro b; apply FinFun.Injective_map_NoDup; [intros x y E; apply app_inj_tail in E; tauto|exact IH]).
  assert (G : forall (l1 l2 : list (list bool)), NoDup l1 -> NoDup l2 -> (forall x, In x l1 -> ~ In x l2) -> NoDup (l1 ++ l2)).
  { clear. induction l1 as [|x l1 IH]; intros l2 H1 H2 D; [exact H2|]. cbn [app]. inversion H1; subst. constructor.
    - rewrite in_app_iff. intros [H|H]; [contradiction|]. apply (D x); [left; reflexivity|exact H].
    - apply IH; [assumption|exact H2|]. intros y Hy. apply D. right. exact Hy. }
  apply G; [apply I|apply I|]. intros x H1 H2. apply in_map_iff in H1. apply in_map_iff in H2. destruct H1 as (u & <- & _), H2 as (v & E & _). apply app_inj_tail in E. destruct E. discriminate.
Qed.
Lemma seqs_length n : length (seqs n) = (2 ^ n)%nat.
Proof. induction n as [|n IH]; [reflexivity|]. cbn [seqs]. rewrite app_length, !map_length, IH. cbn [Nat.pow]. lia. Qed.
Definition b2nat (b : bool) : nat := if b then 1 else 0.
Definition sumf {A} (f : A -> nat) (l : list A) : nat := list_sum (map f l).
Definition N_lc (n L : nat) : nat := sumf (fun u => b2nat (lcf u =? L)%nat) (seqs n).
Lemma sumf_filter {A} (p : A -> bool) l : sumf (fun u => b2nat (p u)) l = length (filter p l).
Proof. induction l as [|x l IH]; [reflexivity|]. unfold sumf in *. cbn [map list_sum fold_right filter]. unfold list_sum in IH. rewrite IH. destruct (p x); reflexivity. Qed.
Lemma list_sum_app l1 l2 : list_sum (l1 ++ l2) = (list_sum l1 + list_sum l2)%nat.
Proof. induction l1 as [|x l1 IH]; [reflexivity|]. cbn [app list_sum fold_right]. unfold list_sum in IH. rewrite IH. unfold list_sum. lia. Qed.
Lemma sumf_plus {A} (f g : A -> nat) l : (sumf f l + sumf g l)%nat = sumf (fun x => f x + g x)%nat l.
Proof. unfold sumf. induction l as [|x l IH]; [reflexivity|]. cbn [map list_sum fold_right]. unfold list_sum in IH. lia. Qed.
Lemma sumf_ext {A} (f g : A -> nat) l : (forall x, In x l -> f x = g x) -> sumf f l = sumf g l.
Proof. intro H. unfold sumf. rewrite (map_ext_in f g); [reflexivity|exact H]. Qed.
Lemma sumf_map {A B} (f : B -> nat) (g : A -> B) l : sumf f (map g l) = sumf (fun x => f (g x)) l.
Proof. unfold sumf. rewrite map_map. reflexivity. Qed.
Lemma N_lc_step n L : N_lc (S n) L = (N_lc n L + sumf (fun u => b2nat (Nat.max (lcf u) (S n - lcf u) =? L)%nat) (seqs n))%nat.
Proof.
  unfold N_lc. cbn [seqs]. unfold sumf at 1. rewrite map_app, list_sum_app. fold (sumf (fun u => b2nat (lcf u =? L)%nat) (map (fun u => u ++ [false]) (seqs n))). fold (sumf (fun u => b2nat (lcf u =? L)%nat) (map (fun u => u ++ [true]) (seqs n))).
  rewrite !sumf_map, !sumf_plus. apply sumf_ext. intros u Hu. apply seqs_in in Hu.
  destruct (lc_snoc u (lcf u) (lcf_ok u)) as (b & H1 & H2). rewrite Hu in H2. apply lcf_eq in H1. apply lcf_eq in H2. destruct b; cbn [negb] in H2; rewrite H1, H2; lia.
Qed.
Definition lc_count (n L : nat) : nat := if (L =? 0)%nat then 1 else if (n <? L)%nat then 0 else if (2 * L <=? n)%nat then 2 ^ (2 * L - 1) else 2 ^ (2 * n - 2 * L).
Lemma N_lc_ok n : forall L, N_lc n L = lc_count n L.
Proof.
  induction n as [|n IH]; intro L.
  - unfold N_lc, lc_count. cbn [seqs sumf map list_sum fold_right]. unfold sumf. cbn [map list_sum fold_right]. change (lcf []) with O.
    destruct (Nat.eqb_spec L 0) as [->|N]; [reflexivity|]. destruct (Nat.ltb_spec 0 L); [|lia]. destruct (Nat.eqb_spec 0 L); [lia|reflexivity].
  - rewrite N_lc_step, IH.
    assert (SPLIT : forall p q, (forall u, In u (seqs n) -> b2nat (Nat.max (lcf u) (S n - lcf u) =? L)%nat = (p * b2nat (lcf u =? L)%nat + q * b2nat (lcf u =? S n - L)%nat)%nat) ->
      sumf (fun u => b2nat (Nat.max (lcf u) (S n - lcf u) =? L)%nat) (seqs n) = (p * lc_count n L + q * lc_count n (S n - L))%nat).
    { intros p q H. rewrite (sumf_ext _ _ _ H), <- !IH. unfold N_lc. clear. induction (seqs n) as [|u l IHl]; unfold sumf in *; cbn [map list_sum fold_right]; [lia|]. unfold list_sum in IHl. rewrite IHl. unfold list_sum. lia. }
    assert (LE : forall u, In u (seqs n) -> (lcf u <= n)%nat) by (intros u Hu; apply seqs_in in Hu; pose proof (lcf_le u); lia).
    destruct (Nat.lt_trichotomy (2 * L) (S n)) as [C|[C|C]].
    + rewrite (SPLIT 0%nat 0%nat).
      * unfold lc_count. destruct (Nat.eqb_spec L 0); [reflexivity|]. destruct (Nat.ltb_spec n L), (Nat.ltb_spec (S n) L); try lia. destruct (Nat.leb_spec (2 * L) n), (Nat.leb_spec (2 * L) (S n)); try lia.
      * intros u Hu. specialize (LE u Hu). destruct (Nat.eqb_spec (Nat.max (lcf u) (S n - lcf u)) L); [lia|reflexivity].
    + rewrite (SPLIT 1%nat 0%nat).
      * unfold lc_count. destruct (Nat.eqb_spec L 0); [lia|]. destruct (Nat.ltb_spec n L), (Nat.ltb_spec (S n) L); try lia.
        destruct (Nat.leb_spec (2 * L) n), (Nat.leb_spec (2 * L) (S n)); try lia. replace (2 * L - 1)%nat with (S (2 * n - 2 * L)) by lia. cbn [Nat.pow]. lia.
      * intros u Hu. specialize (LE u Hu). destruct (Nat.eqb_spec (Nat.max (lcf u) (S n - lcf u)) L), (Nat.eqb_spec (lcf u) L); cbn [b2nat]; lia.
    + destruct (Nat.le_gt_cases L (S n)) as [B|B].
      * rewrite (SPLIT 1%nat 1%nat).
        -- unfold lc_count. destruct (Nat.eqb_spec L 0); [lia|]. destruct (Nat.ltb_spec (S n) L); [lia|]. destruct (Nat.leb_spec (2 * L) (S n)); [lia|].
           destruct (Nat.ltb_spec n L).
           ++ destruct (Nat.eqb_spec (S n - L) 0); [|lia]. replace (2 * S n - 2 * L)%nat with O by lia. reflexivity.
           ++ destruct (Nat.leb_spec (2 * L) n); [lia|]. destruct (Nat.eqb_spec (S n - L) 0); [lia|]. destruct (Nat.ltb_spec n (S n - L)); [lia|].
              destruct (Nat.leb_spec (2 * (S n - L)) n); [|lia]. replace (2 * (S n - L) - 1)%nat with (S (2 * n - 2 * L)) by lia. replace (2 * S n - 2 * L)%nat with (S (S (2 * n - 2 * L))) by lia. cbn [Nat.pow]. lia.
        -- intros u Hu. specialize (LE u Hu). destruct (Nat.eqb_spec (Nat.max (lcf u) (S n - lcf u)) L), (Nat.eqb_spec (lcf u) L), (Nat.eqb_spec (lcf u) (S n - L)); cbn [b2nat]; lia.
      * rewrite (SPLIT 0%nat 0%nat).
        -- unfold lc_count. destruct (Nat.eqb_spec L 0); [lia|]. destruct (Nat.ltb_spec n L), (Nat.ltb_spec (S n) L); lia.
        -- intros u Hu. specialize (LE u Hu). destruct (Nat.eqb_spec (Nat.max (lcf u) (S n - lcf u)) L); [lia|reflexivity].
Qed.
Lemma lc_counts n L : exists l, NoDup l /\ (forall u, In u l <-> length u = n /\ linear_complexity u L) /\ length l = lc_count n L.
Proof.
  exists (filter (fun u => (lcf u =? L)%nat) (seqs n)). split; [apply NoDup_filter, seqs_nodup|]. split.
  - intro u. rewrite filter_In, seqs_in, Nat.eqb_eq, lcf_eq. reflexivity.
  - rewrite <- sumf_filter. apply N_lc_ok.
Qed.
Lemma list_sum_swap {A B} (f : A -> B -> nat) (l : list A) (k : list B) : list_sum (map (fun b => sumf (fun a => f a b) l) k) = sumf (fun a => list_sum (map (f a) k)) l.
Proof.
  induction k as [|b k IH]; [unfold sumf; cbn; induction l; [reflexivity|cbn in *; exact IHl]|]. cbn [map list_sum fold_right]. unfold list_sum in IH. rewrite IH. rewrite sumf_plus. reflexivity.
Qed.
Lemma list_sum_one k s n : (s <= k < s + n)%nat -> list_sum (map (fun L => b2nat (k =? L)%nat) (seq s n)) = 1%nat.
Proof.
  revert s. induction n as [|n IH]; intros s H; [lia|]. cbn [seq map list_sum fold_right].
  destruct (Nat.eqb_spec k s) as [->|N].
  - cbn [b2nat]. assert (Z : list_sum (map (fun L => b2nat (s =? L)%nat) (seq (S s) n)) = 0%nat).
    { clear. assert (G : forall t, (s < t)%nat -> list_sum (map (fun L => b2nat (s =? L)%nat) (seq t n)) = 0%nat); [|apply G; lia].
      induction n as [|n IH]; intros t Ht; [reflexivity|]. cbn [seq map list_sum fold_right]. destruct (Nat.eqb_spec s t); [lia|]. apply (IH (S t)). lia. }
    unfold list_sum in Z. rewrite Z. reflexivity.
  - cbn [b2nat]. apply (IH (S s)). lia.
Qed.
Lemma lc_count_total n : list_sum (map (lc_count n) (seq 0 (S n))) = (2 ^ n)%nat.
Proof.
  rewrite (map_ext _ (N_lc n)) by (intro; symmetry; apply N_lc_ok). unfold N_lc. rewrite list_sum_swap, <- seqs_length.
  rewrite (sumf_ext _ (fun _ => 1%nat)).
  - clear. induction (seqs n) as [|x l IH]; [reflexivity|]. unfold sumf in *. cbn [map list_sum fold_right length]. unfold list_sum in IH. rewrite IH. reflexivity.
  - intros u Hu. apply seqs_in in Hu. apply list_sum_one. pose proof (lcf_le u). lia.
Qed.
(* ---- lfsr_log2_probability ---- *)
Lemma log2_prob n L : (n < 2 ^ 62)%N -> (L <= n)%N -> (0 < n)%N -> let e := lfsr_log2_probability n L in
  (- Z.of_N n <= e < 0)%Z /\ e = (if (L =? 0)%N then - Z.of_N n else if (2 * L <=? n)%N then 2 * Z.of_N L - Z.of_N n - 1 else Z.of_N n - 2 * Z.of_N L)%Z.
Proof.
  intros Hn HL H0 e. assert (E : e = (if (L =? 0)%N then - Z.of_N n else if (2 * L <=? n)%N then 2 * Z.of_N L - Z.of_N n - 1 else Z.of_N n - 2 * Z.of_N L)%Z).
  { unfold e, lfsr_log2_probability, int64_of. assert (W : forall x, x < 2 ^ 64 -> wrap 64 x = x) by (intros; apply N.mod_small; assumption).
    assert (W1 : forall x, 2 ^ 64 <= x < 2 ^ 64 * 2 -> wrap 64 x = x - 2 ^ 64).
    { intros x Hx. unfold wrap. replace x with (x - 2 ^ 64 + 1 * 2 ^ 64) at 1 by lia. rewrite N.mod_add by discriminate. apply N.mod_small. lia. }
    destruct (N.eqb_spec L 0) as [->|NL].
    - rewrite (W n) by lia. rewrite W by lia. destruct (N.ltb_spec (2 ^ 64 - n) (2 ^ 63)); lia.
    - rewrite (W (2 * L)) by lia. pose proof (N.div_mod n 2 ltac:(lia)). pose proof (N.mod_lt n 2 ltac:(lia)).
      destruct (N.leb_spec L (n / 2)), (N.leb_spec (2 * L) n); try lia.
      + rewrite W1 by lia. destruct (N.ltb_spec (2 * L + (2 ^ 64 - n) + (2 ^ 64 - 1) - 2 ^ 64) (2 ^ 63)); lia.
      + rewrite W by lia. destruct (N.ltb_spec (n + (2 ^ 64 - 2 * L)) (2 ^ 63)); lia. }
  split; [|exact E]. rewrite E. destruct (N.eqb_spec L 0); [lia|]. destruct (N.leb_spec (2 * L) n); lia.
Qed.
Lemma pow2_nat_Z k : Z.of_nat (2 ^ k) = (2 ^ Z.of_nat k)%Z.
Proof. rewrite Nat2Z.inj_pow. reflexivity. Qed.
Lemma log2_prob_count n L : (0 < n)%nat -> (N.of_nat n < 2 ^ 62)%N -> (L <= n)%nat -> let e := lfsr_log2_probability (N.of_nat n) (N.of_nat L) in
  (- Z.of_nat n <= e < 0)%Z /\ Z.of_nat (lc_count n L) = (2 ^ (Z.of_nat n + e))%Z.
Proof.
  intros H0 Hn HL e. destruct (log2_prob (N.of_nat n) (N.of_nat L) Hn ltac:(lia) ltac:(lia)) as [B E]. fold e in B, E. rewrite nat_N_Z in B. split; [exact B|]. rewrite E. rewrite !nat_N_Z. unfold lc_count.
  destruct (N.eqb_spec (N.of_nat L) 0), (Nat.eqb_spec L 0); try lia. { replace (Z.of_nat n + - Z.of_nat n)%Z with 0%Z by lia. reflexivity. }
  destruct (Nat.ltb_spec n L); [lia|]. destruct (N.leb_spec (2 * N.of_nat L) (N.of_nat n)), (Nat.leb_spec (2 * L) n); try lia; rewrite pow2_nat_Z; f_equal; lia.
Qed.
