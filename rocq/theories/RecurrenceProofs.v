(* The bits of a linear recurrence: a linear function of a state that is updated by a linear function. *)
From Coq Require Import Lia.
From Verif Require Import Base WordLemmas BitwiseModel BitwiseSpec BitwiseProofs LfsrSpec LfsrProofs LfsrCount PrngModel PrngSpec PrngProofs.

Lemma collision {A B} (eqb : forall x y : B, {x = y} + {x <> y}) (f : A -> B) l : NoDup l ->
  (exists x y, In x l /\ In y l /\ x <> y /\ f x = f y) \/ NoDup (map f l).
Proof.
  induction 1 as [|a l Ha Hl IH]; [right; constructor|]. destruct IH as [(x & y & Hx & Hy & Hn & E)|ND]; [left; exists x, y; cbn; auto|].
  destruct (in_dec eqb (f a) (map f l)) as [I|I]; [|right; constructor; assumption].
  apply in_map_iff in I. destruct I as (y & E & Hy). left. exists a, y. split; [left; reflexivity|]. split; [right; exact Hy|]. split; [intros ->; contradiction|congruence].
Qed.
Lemma last_true (c : nat -> bool) n : (exists i, (i < n)%nat /\ c i = true) -> exists r, (r < n)%nat /\ c r = true /\ forall i, (r < i < n)%nat -> c i = false.
Proof.
  induction n as [|n IH]; intros (i & Hi & Ei); [lia|]. destruct (c n) eqn:En; [exists n; repeat split; [lia|exact En|intros; lia]|].
  destruct IH as (r & Hr & Er & Hz); [exists i; split; [|exact Ei]; destruct (Nat.eq_dec i n); [congruence|lia]|].
  exists r. split; [lia|]. split; [exact Er|]. intros j Hj. destruct (Nat.eq_dec j n); [congruence|]. apply Hz. lia.
Qed.
Lemma xsum_first f k : xsum f (S k) = xorb (f O) (xsum (fun j => f (S j)) k).
Proof.
  induction k as [|k IH]; [cbn; destruct (f O); reflexivity|]. change (xsum f (S (S k))) with (xorb (xsum f (S k)) (f (S k))). rewrite IH. cbn [xsum]. apply Bool.xorb_assoc.
Qed.
Lemma xsum_rev f k : xsum (fun j => f (k - S j)%nat) k = xsum f k.
Proof.
  induction k as [|k IH] in f |- *; [reflexivity|]. rewrite xsum_first. cbn [xsum]. replace (S k - 1)%nat with k by lia.
  rewrite (xsum_ext (fun j => f (S k - S (S j))%nat) (fun j => f (k - S j)%nat)) by (intros; f_equal; lia). rewrite IH. apply Bool.xorb_comm.
Qed.
Lemma xsum_cut f r n : (r < n)%nat -> (forall i, (r < i < n)%nat -> f i = false) -> xsum f n = xorb (xsum f r) (f r).
Proof.
  induction n as [|n IH]; intros Hr Hz; [lia|]. cbn [xsum]. destruct (Nat.eq_dec n r) as [->|]; [reflexivity|]. rewrite (Hz n) by lia. rewrite IH by (intros; try apply Hz; lia). apply Bool.xorb_false_r.
Qed.

Section Linear.
Variable S : Type.
Variable valid : S -> Prop.
Variable add : S -> S -> S.
Variable zero : S.
Variable basis : list S.
Variable step : S -> S.
Variable f : S -> bool.
(* every valid state is a sum of basis states *)
Hypothesis basis_ind : forall P : S -> Prop, P zero -> (forall b, In b basis -> P b) -> (forall x y, valid x -> valid y -> P x -> P y -> P (add x y)) -> forall s, valid s -> P s.
Hypothesis add_valid : forall x y, valid x -> valid y -> valid (add x y).
Hypothesis zero_valid : valid zero.
Hypothesis step_valid : forall x, valid x -> valid (step x).
Hypothesis step_add : forall x y, valid x -> valid y -> step (add x y) = add (step x) (step y).
Hypothesis step_zero : step zero = zero.
Hypothesis f_add : forall x y, valid x -> valid y -> f (add x y) = xorb (f x) (f y).
Hypothesis f_zero : f zero = false.

Lemma iter_ok n s : valid s -> valid (Nat.iter n step s).
Proof. intros H. induction n; cbn; auto. Qed.
Lemma iter_zero n : Nat.iter n step zero = zero.
Proof. induction n; cbn; [reflexivity|]. change (nat_rect _ zero (fun _ => step) n) with (Nat.iter n step zero). rewrite IHn. exact step_zero. Qed.
Lemma iter_sum n x y : valid x -> valid y -> Nat.iter n step (add x y) = add (Nat.iter n step x) (Nat.iter n step y).
Proof. intros Hx Hy. induction n as [|n IH]; [reflexivity|]. cbn [Nat.iter nat_rect]. unfold Nat.iter in IH. rewrite IH. apply step_add; apply iter_ok; assumption. Qed.

Theorem linear_recurrence : exists r taps, (r <= length basis)%nat /\ forall s, valid s -> forall i, (r <= i)%nat ->
  f (Nat.iter i step s) = xsum (fun j => taps (Datatypes.S j) && f (Nat.iter (i - Datatypes.S j) step s)) r.
Proof.
  set (D := length basis). set (comb := fun c : list bool => map (fun b => xsum (fun i => nth i c false && f (Nat.iter i step b)) (Datatypes.S D)) basis).
  destruct (collision (list_eq_dec Bool.bool_dec) comb (seqs (Datatypes.S D)) (seqs_nodup _)) as [(c & c' & Hc & Hc' & NE & E)|ND].
  2:{ exfalso. assert (L : (length (map comb (seqs (Datatypes.S D))) <= length (seqs D))%nat).
      { apply NoDup_incl_length; [exact ND|]. intros u Hu. apply in_map_iff in Hu. destruct Hu as (c & <- & _). apply seqs_in. unfold comb. rewrite map_length. reflexivity. }
      rewrite map_length, !seqs_length in L. cbn [Nat.pow] in L. assert (2 ^ D <> 0)%nat by (apply Nat.pow_nonzero; lia). lia. }
  apply seqs_in in Hc, Hc'. set (d := fun i => xorb (nth i c false) (nth i c' false)).
  assert (Z : forall s, valid s -> xsum (fun i => d i && f (Nat.iter i step s)) (Datatypes.S D) = false).
  { apply basis_ind.
    - rewrite (xsum_ext _ (fun _ => false)); [apply xsum_false|]. intros i _. rewrite iter_zero, f_zero. apply Bool.andb_false_r.
    - intros b Hb. assert (Eb : xsum (fun i => nth i c false && f (Nat.iter i step b)) (Datatypes.S D) = xsum (fun i => nth i c' false && f (Nat.iter i step b)) (Datatypes.S D)).
      { unfold comb in E. revert Hb E. generalize basis as l. induction l as [|a l IH]; intros [] E'; injection E' as E1 E2; [subst; exact E1|apply IH; assumption]. }
      rewrite (xsum_ext _ (fun i => xorb (nth i c false && f (Nat.iter i step b)) (nth i c' false && f (Nat.iter i step b)))).
      + rewrite xsum_xor, Eb. apply Bool.xorb_nilpotent.
      + intros i _. unfold d. destruct (nth i c false), (nth i c' false), (f (Nat.iter i step b)); reflexivity.
    - intros x y Hx Hy Ex Ey. rewrite (xsum_ext _ (fun i => xorb (d i && f (Nat.iter i step x)) (d i && f (Nat.iter i step y)))).
      + rewrite xsum_xor, Ex, Ey. reflexivity.
      + intros i _. rewrite iter_sum, f_add by (try apply iter_ok; assumption). destruct (d i), (f (Nat.iter i step x)), (f (Nat.iter i step y)); reflexivity. }
  destruct (last_true d (Datatypes.S D)) as (r & Hr & Er & Hz).
  { destruct (existsb d (seq 0 (Datatypes.S D))) eqn:X.
    - apply existsb_exists in X. destruct X as (i & Hi & Ei). apply in_seq in Hi. exists i. split; [lia|exact Ei].
    - exfalso. apply NE. apply (nth_ext _ _ false false); [congruence|]. intros i Hi. rewrite Hc in Hi.
      destruct (Bool.bool_dec (nth i c false) (nth i c' false)) as [->|N0]; [reflexivity|exfalso].
      assert (existsb d (seq 0 (Datatypes.S D)) = true); [|congruence]. apply existsb_exists. exists i. split; [apply in_seq; lia|]. unfold d. destruct (nth i c false), (nth i c' false); try reflexivity; exfalso; apply N0; reflexivity. }
  exists r, (fun j => d (r - j)%nat). split; [lia|]. intros s Hs i Hi.
  set (m := (i - r)%nat). specialize (Z (Nat.iter m step s) (iter_ok m s Hs)).
  assert (IT : forall k, Nat.iter k step (Nat.iter m step s) = Nat.iter (k + m) step s) by (intro k; unfold Nat.iter; symmetry; apply nat_rect_plus).
  rewrite (xsum_cut _ r) in Z; [|exact Hr|intros k Hk; rewrite Hz by exact Hk; reflexivity]. rewrite Er in Z. cbn [andb] in Z. rewrite IT in Z. replace (r + m)%nat with i in Z by (unfold m; lia).
  rewrite <- (xsum_rev (fun k => d k && f (Nat.iter k step (Nat.iter m step s)))) in Z.
  rewrite (xsum_ext _ (fun j => d (r - Datatypes.S j)%nat && f (Nat.iter (i - Datatypes.S j) step s))) in Z.
  - apply Bool.xorb_eq in Z. symmetry. exact Z.
  - intros j Hj. rewrite IT. do 2 f_equal. f_equal. unfold m. lia.
Qed.
End Linear.
