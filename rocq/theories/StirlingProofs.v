From Coq Require Import Lia FinFun.
From Verif Require Import Base WordLemmas StirlingModel StirlingSpec.
Open Scope N_scope.
(* the exact numbers *)
Fixpoint exact_stirling (n k : nat) : N :=
  match n, k with
  | O, O => 1 | O, S _ => 0 | S _, O => 0
  | S n, S k => N.of_nat (S k) * exact_stirling n (S k) + exact_stirling n k
  end.
Lemma model_exact n : forall k, stirling_second_kind n (Z.of_nat k) = wrap 64 (exact_stirling n k).
Proof.
  induction n as [|n IH]; intros k; cbn [stirling_second_kind exact_stirling]; destruct k as [|k]; try reflexivity.
  replace (Z.of_nat (S k) =? 0)%Z with false by (symmetry; apply Z.eqb_neq; lia). replace (Z.of_nat (S k) - 1)%Z with (Z.of_nat k) by lia. rewrite (IH (S k)), (IH k).
  assert (K : Z.to_N (Z.of_nat (S k) mod 2 ^ 64) = wrap 64 (N.of_nat (S k))).
  { unfold wrap. change (2 ^ 64)%Z with (Z.of_N (2 ^ 64)). rewrite <- (nat_N_Z (S k)), <- N2Z.inj_mod. apply N2Z.id. }
  rewrite K. unfold wrap. assert (P : 2 ^ 64 <> 0) by discriminate. generalize (2 ^ 64) P. intros m Hm.
  rewrite <- N.mul_mod by exact Hm. rewrite <- N.add_mod by exact Hm. reflexivity.
Qed.
Lemma model_negative n : forall k, (k < 0)%Z -> stirling_second_kind n k = 0.
Proof.
  induction n as [|n IH]; intros k Hk; cbn [stirling_second_kind]; replace (k =? 0)%Z with false by (symmetry; apply Z.eqb_neq; lia); [reflexivity|].
  rewrite (IH k Hk), (IH (k - 1)%Z) by lia. rewrite N.mul_0_r. reflexivity.
Qed.

Lemma blocks_app l b : forall m, blocks m (l ++ [b]) = match blocks m l with Some j => blocks j [b] | None => None end.
Proof. induction l as [|a l IH]; intros m; [reflexivity|]. cbn [app blocks]. destruct (Nat.ltb a m); [apply IH|]. destruct (Nat.eqb a m); [apply IH|reflexivity]. Qed.
Lemma blocks_snoc l b k : blocks 0 (l ++ [b]) = Some k <-> (blocks 0 l = Some k /\ (b < k)%nat) \/ (exists j, k = S j /\ blocks 0 l = Some j /\ b = j).
Proof.
  rewrite blocks_app. destruct (blocks 0 l) as [j|]; [|split; [discriminate|intros [[Q _]|(j & _ & Q & _)]; discriminate Q]]. cbn [blocks].
  destruct (Nat.ltb_spec b j) as [L|L]; [|destruct (Nat.eqb_spec b j) as [E|E]].
  - split; [intros Q; injection Q as <-; left; split; [reflexivity|exact L]|]. intros [[Q _]|(i & -> & Q & ->)]; [exact Q|]. injection Q as ->. lia.
  - split; [intros Q; injection Q as <-; right; exists j; repeat split; exact E|]. intros [[Q B]|(i & -> & Q & _)]; injection Q as ->; [lia|reflexivity].
  - split; [discriminate|]. intros [[Q B]|(i & -> & Q & B)]; injection Q as ->; lia.
Qed.
Lemma nodup_app {A} (l m : list A) : NoDup l -> NoDup m -> (forall x, In x l -> ~ In x m) -> NoDup (l ++ m).
Proof.
  intros Hl Hm D. induction Hl as [|a l Ha Hl IH]; [exact Hm|]. cbn. constructor.
  - rewrite in_app_iff. intros [Q|Q]; [exact (Ha Q)|exact (D a (or_introl eq_refl) Q)].
  - apply IH. intros x Hx. apply D. right. exact Hx.
Qed.
Lemma nodup_prod {A B} (l : list A) (m : list B) : NoDup l -> NoDup m -> NoDup (list_prod l m).
Proof.
  intros Hl Hm. induction Hl as [|a l Ha Hl IH]; [constructor|]. cbn. apply nodup_app; [|exact IH|].
  - apply Injective_map_NoDup; [|exact Hm]. intros x y E. injection E as ->. reflexivity.
  - intros [u v] Hx Hy. apply in_map_iff in Hx. destruct Hx as (b & E & _). injection E as -> _. apply in_prod_iff in Hy. apply Ha, Hy.
Qed.
Lemma snoc_inj {A} (l m : list A) a b : l ++ [a] = m ++ [b] -> l = m /\ a = b.
Proof. apply app_inj_tail. Qed.
Lemma partitions_ok n : forall k, number_of (partition n k) (N.to_nat (exact_stirling n k)).
Proof.
  induction n as [|n IH]; intros k.
  - destruct k as [|k].
    + exists [[]]. split; [constructor; [intros []|constructor]|]. split; [|reflexivity]. intros l. split; [intros [<-|[]]; split; reflexivity|]. intros [L _]. destruct l; [left; reflexivity|discriminate L].
    + exists []. split; [constructor|]. split; [|reflexivity]. intros l. split; [intros []|]. intros [L B]. destruct l; [discriminate B|discriminate L].
  - destruct k as [|k].
    + exists []. split; [constructor|]. split; [|reflexivity]. intros l. split; [intros []|]. intros [L B].
      destruct (exists_last (l := l)) as (u & b & ->); [intros ->; discriminate L|]. apply blocks_snoc in B. destruct B as [[_ B]|(j & Q & _)]; [lia|discriminate Q].
    + destruct (IH (S k)) as (L1 & N1 & I1 & C1). destruct (IH k) as (L0 & N0 & I0 & C0).
      exists (map (fun p => fst p ++ [snd p]) (list_prod L1 (seq 0 (S k))) ++ map (fun l => l ++ [k]) L0). split; [|split].
      * apply nodup_app.
        -- apply Injective_map_NoDup; [|apply nodup_prod; [exact N1|apply seq_NoDup]]. intros [u b] [v c] E. cbn [fst snd] in E. apply snoc_inj in E. destruct E as [-> ->]. reflexivity.
        -- apply Injective_map_NoDup; [|exact N0]. intros u v E. apply snoc_inj in E. apply E.
        -- intros x Hx Hy. apply in_map_iff in Hx. destruct Hx as ([u b] & <- & Hu). apply in_prod_iff in Hu. destruct Hu as [Hu _]. apply in_map_iff in Hy. destruct Hy as (v & E & Hv).
           cbn [fst snd] in E. apply snoc_inj in E. destruct E as [-> _]. apply I1 in Hu. apply I0 in Hv. destruct Hu as [_ Hu], Hv as [_ Hv]. rewrite Hu in Hv. injection Hv as Hv. lia.
      * intros l. rewrite in_app_iff, !in_map_iff. split.
        -- intros [([u b] & <- & Hu)|(u & <- & Hu)].
           ++ apply in_prod_iff in Hu. destruct Hu as [Hu Hb]. apply I1 in Hu. destruct Hu as [Lu Bu]. apply in_seq in Hb. cbn [fst snd]. split; [rewrite app_length, Lu; cbn; lia|]. apply blocks_snoc. left. split; [exact Bu|lia].
           ++ apply I0 in Hu. destruct Hu as [Lu Bu]. split; [rewrite app_length, Lu; cbn; lia|]. apply blocks_snoc. right. exists k. repeat split. exact Bu.
        -- intros [L B]. destruct (exists_last (l := l)) as (u & b & ->); [intros ->; discriminate L|]. rewrite app_length in L. cbn in L. apply blocks_snoc in B. destruct B as [[B Hb]|(j & Q & B & ->)].
           ++ left. exists (u, b). split; [reflexivity|]. apply in_prod_iff. split; [apply I1; split; [lia|exact B]|apply in_seq; lia].
           ++ injection Q as <-. right. exists u. split; [reflexivity|]. apply I0. split; [lia|exact B].
      * rewrite app_length, !map_length, prod_length, seq_length, C1, C0. cbn [exact_stirling]. lia.
Qed.
(* rows of the triangle *)
Fixpoint row (n : nat) : list N :=
  match n with
  | O => map (fun k => match k with O => 1 | S _ => 0 end) (seq 0 28)
  | S n => let r := row n in map (fun k => match k with O => 0 | S j => N.of_nat k * nth k r 0 + nth j r 0 end) (seq 0 28)
  end.
Lemma nth_map_seq (f : nat -> N) k m : (k < m)%nat -> nth k (map f (seq 0 m)) 0 = f k.
Proof. intros H. rewrite (nth_indep _ 0 (f O)) by (rewrite map_length, seq_length; exact H). rewrite map_nth, seq_nth by exact H. reflexivity. Qed.
Lemma row_ok n : forall k, (k < 28)%nat -> nth k (row n) 0 = exact_stirling n k.
Proof.
  induction n as [|n IH]; intros k Hk.
  - cbn [row exact_stirling]. rewrite nth_map_seq by exact Hk. destruct k; reflexivity.
  - cbn [row exact_stirling]. rewrite nth_map_seq by exact Hk. destruct k as [|k]; [reflexivity|]. rewrite (IH (S k) Hk), (IH k) by lia. reflexivity.
Qed.
Lemma exact_zero n : forall k, (n < k)%nat -> exact_stirling n k = 0.
Proof.
  induction n as [|n IH]; intros k H; destruct k as [|k]; try lia; [reflexivity|]. cbn [exact_stirling]. rewrite (IH (S k)), (IH k) by lia. rewrite N.mul_0_r. reflexivity.
Qed.
Lemma rows_small : forallb (fun n => forallb (fun x => x <? 2 ^ 64) (row n)) (seq 0 27) = true.
Proof. vm_compute. reflexivity. Qed.
Lemma small n k : (n <= 26)%nat -> exact_stirling n k < 2 ^ 64.
Proof.
  intros H. destruct (Nat.lt_ge_cases k 28) as [L|L]; [|rewrite exact_zero by lia; reflexivity].
  assert (R := rows_small). rewrite forallb_forall in R. specialize (R n). rewrite forallb_forall in R by (apply in_seq; lia).
  rewrite <- (row_ok n k L). apply N.ltb_lt. apply R; [apply in_seq; lia|]. apply nth_In. destruct n; cbn [row]; rewrite map_length, seq_length; exact L.
Qed.

(* ---- every way to group n elements is exactly one such list ---- *)
Definition groups (same : nat -> nat -> bool) (n : nat) (l : list nat) : Prop :=
  length l = n /\ (exists k, blocks 0 l = Some k) /\ forall i j, (i < n)%nat -> (j < n)%nat -> (same i j = true <-> nth i l O = nth j l O).
Lemma blocks_range l : forall k, blocks 0 l = Some k -> forall b, In b l <-> (b < k)%nat.
Proof.
  induction l as [|a l IH] using rev_ind; intros k E b.
  - injection E as <-. split; [intros []|lia].
  - rewrite in_app_iff. cbn [In]. apply blocks_snoc in E. destruct E as [[E A]|(j & -> & E & ->)]; rewrite (IH _ E b); split; intros Q.
    + destruct Q as [Q|[Q|[]]]; lia.
    + left. exact Q.
    + destruct Q as [Q|[Q|[]]]; lia.
    + destruct (Nat.eq_dec b j) as [->|D]; [right; left; reflexivity|left; lia].
Qed.
Lemma nth_snoc_l (l : list nat) a i : (i < length l)%nat -> nth i (l ++ [a]) O = nth i l O.
Proof. apply app_nth1. Qed.
Lemma nth_snoc_r (l : list nat) a n : length l = n -> nth n (l ++ [a]) O = a.
Proof. intros <-. rewrite app_nth2 by lia. rewrite Nat.sub_diag. reflexivity. Qed.
Lemma groups_unique same n : forall l m, groups same n l -> groups same n m -> l = m.
Proof.
  induction n as [|n IH]; intros l m (Ll & [kl Bl] & Gl) (Lm & [km Bm] & Gm).
  - destruct l; [|discriminate]. destruct m; [reflexivity|discriminate].
  - destruct (exists_last (l := l)) as (u & a & ->); [intros ->; discriminate Ll|]. destruct (exists_last (l := m)) as (v & b & ->); [intros ->; discriminate Lm|].
    rewrite app_length in Ll, Lm. cbn in Ll, Lm. assert (Lu : length u = n) by lia. assert (Lv : length v = n) by lia.
    assert (Bu : exists k, blocks 0 u = Some k) by (apply blocks_snoc in Bl; destruct Bl as [[Q _]|(j & _ & Q & _)]; eexists; exact Q).
    assert (Bv : exists k, blocks 0 v = Some k) by (apply blocks_snoc in Bm; destruct Bm as [[Q _]|(j & _ & Q & _)]; eexists; exact Q).
    assert (E : u = v).
    { apply IH; (split; [assumption|split; [assumption|]]); intros i j Hi Hj.
      - rewrite <- (nth_snoc_l u a i), <- (nth_snoc_l u a j) by lia. apply Gl; lia.
      - rewrite <- (nth_snoc_l v b i), <- (nth_snoc_l v b j) by lia. apply Gm; lia. }
    subst v. destruct Bu as [k Bu]. clear Bv.
    assert (T : forall i, (i < n)%nat -> (nth i u O = a <-> nth i u O = b)).
    { intros i Hi. assert (Gl' := Gl i n ltac:(lia) ltac:(lia)). assert (Gm' := Gm i n ltac:(lia) ltac:(lia)).
      rewrite nth_snoc_l in Gl', Gm' by lia. rewrite (nth_snoc_r u a n Lu) in Gl'. rewrite (nth_snoc_r u b n Lv) in Gm'. tauto. }
    assert (F : forall c, (c < k)%nat -> exists i, (i < n)%nat /\ nth i u O = c).
    { intros c Hc. apply (blocks_range u k Bu) in Hc. apply (In_nth _ _ O) in Hc. destruct Hc as (i & Hi & E). exists i. split; [lia|exact E]. }
    assert (Ra : (a < k)%nat \/ a = k) by (apply blocks_snoc in Bl; rewrite Bu in Bl; destruct Bl as [[Q A]|(j & -> & Q & ->)]; injection Q as <-; [left; exact A|right; reflexivity]).
    assert (Rb : (b < k)%nat \/ b = k) by (apply blocks_snoc in Bm; rewrite Bu in Bm; destruct Bm as [[Q A]|(j & -> & Q & ->)]; injection Q as <-; [left; exact A|right; reflexivity]).
    f_equal. f_equal. destruct Ra as [Ra|Ra].
    + destruct (F a Ra) as (i & Hi & E). rewrite <- E. apply (T i Hi), E.
    + destruct Rb as [Rb|Rb]; [|congruence]. destruct (F b Rb) as (i & Hi & E). rewrite <- E. symmetry. apply (T i Hi), E.
Qed.
Lemma groups_exist same n : (forall i, same i i = true) -> (forall i j, same i j = same j i) -> (forall i j k, same i j = true -> same j k = true -> same i k = true) ->
  exists l, groups same n l.
Proof.
  intros R Y T. induction n as [|n IH].
  - exists []. split; [reflexivity|]. split; [exists O; reflexivity|]. intros i j Hi. lia.
  - destruct IH as (l & L & [k B] & G). assert (Rg := blocks_range l k B).
    assert (N : forall i, (i < n)%nat -> (nth i l O < k)%nat) by (intros i Hi; apply Rg, nth_In; lia).
    assert (Step : forall b, (exists k', blocks 0 (l ++ [b]) = Some k') -> (forall i, (i < n)%nat -> (same i n = true <-> nth i l O = b)) -> groups same (S n) (l ++ [b])).
    { intros b Hb Hs. split; [rewrite app_length, L; cbn; lia|]. split; [exact Hb|]. intros i j Hi Hj.
      destruct (Nat.eq_dec i n) as [->|Di]; destruct (Nat.eq_dec j n) as [->|Dj].
      - split; intros _; [reflexivity|apply R].
      - rewrite (nth_snoc_r l b n L), nth_snoc_l by lia. rewrite Y, (Hs j) by lia. split; intros Q; symmetry; exact Q.
      - rewrite (nth_snoc_r l b n L), nth_snoc_l by lia. apply Hs. lia.
      - rewrite !nth_snoc_l by lia. apply G; lia. }
    destruct (find (fun j => same j n) (seq 0 n)) as [j|] eqn:F.
    + apply find_some in F. destruct F as [Fi F]. apply in_seq in Fi. exists (l ++ [nth j l O]). apply Step.
      * exists k. apply blocks_snoc. left. split; [exact B|apply N; lia].
      * intros i Hi. rewrite <- (G i j) by lia. split; intros Q; [apply (T i n j Q); rewrite Y; exact F|apply (T i j n Q F)].
    + exists (l ++ [k]). apply Step.
      * exists (S k). apply blocks_snoc. right. exists k. repeat split. exact B.
      * intros i Hi. assert (F' := find_none _ _ F i). cbv beta in F'. rewrite F' by (apply in_seq; lia). split; [discriminate|]. intros Q. specialize (N i Hi). lia.
Qed.
