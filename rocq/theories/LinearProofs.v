(* Maximal period of linear generators over GF(2): a monic polynomial p annihilates the step and is
   primitive (certificates checked by computation). *)
From Coq Require Import Znumtheory.
From Verif Require Import Base BitwiseSpec WordLemmas PeriodProofs.
Open Scope N_scope.

(* ---------- polynomials over GF(2) modulo p, coefficients as bits ---------- *)
Section Poly.
  Variables (n p : N).                 (* degree and bits of the modulus *)
  Definition xtime (r : N) : N :=
    let d := N.double r in if N.testbit d n then N.lxor d p else d.
  Fixpoint mulp (a : positive) (b : N) : N :=
    match a with
    | xH => b
    | xO a' => xtime (mulp a' b)
    | xI a' => N.lxor b (xtime (mulp a' b))
    end.
  Definition mulmod (a b : N) : N := match a with 0 => 0 | Npos a' => mulp a' b end.
  Fixpoint powx (e : positive) : N :=
    match e with
    | xH => 2
    | xO e' => let r := powx e' in mulmod r r
    | xI e' => let r := powx e' in xtime (mulmod r r)
    end.
End Poly.

Section Linear.
  Context {S : Type} (valid : S -> Prop) (zero : S) (add : S -> S -> S) (L : S -> S).
  Hypothesis Hz : valid zero.
  Hypothesis Ha : forall x y, valid x -> valid y -> valid (add x y).
  Hypothesis HL : forall x, valid x -> valid (L x).
  Hypothesis add_0 : forall x, add zero x = x.
  Hypothesis add_comm : forall x y, add x y = add y x.
  Hypothesis add_assoc : forall x y z, add (add x y) z = add x (add y z).
  Hypothesis add_nil : forall x, add x x = zero.
  Hypothesis L_add : forall x y, valid x -> valid y -> L (add x y) = add (L x) (L y).

  Lemma L_0 : L zero = zero.
  Proof.
    rewrite <- (add_nil zero) at 1. rewrite L_add by exact Hz. apply add_nil.
  Qed.

  Fixpoint actp (a : positive) (x : S) : S :=
    match a with
    | xH => x
    | xO a' => L (actp a' x)
    | xI a' => add x (L (actp a' x))
    end.
  Definition act (r : N) (x : S) : S := match r with 0 => zero | Npos a => actp a x end.

  Lemma actp_valid a x : valid x -> valid (actp a x).
  Proof. intros Hx. induction a; cbn; auto. Qed.
  Lemma act_valid r x : valid x -> valid (act r x).
  Proof. intros Hx. destruct r; cbn; [exact Hz|apply actp_valid, Hx]. Qed.

  Lemma act_double r x : act (N.double r) x = L (act r x).
  Proof. destruct r; cbn; [symmetry; apply L_0|reflexivity]. Qed.
  Lemma act_succ_double r x : act (N.succ_double r) x = add x (L (act r x)).
  Proof. destruct r; cbn; [|reflexivity]. rewrite L_0, add_comm, add_0. reflexivity. Qed.

  Lemma act_lxor r x : valid x -> forall s, act (N.lxor r s) x = add (act r x) (act s x).
  Proof.
    intros Hx s. destruct r as [|a], s as [|b]; cbn [N.lxor].
    - cbn. symmetry. apply add_nil.
    - cbn. symmetry. apply add_0.
    - cbn. rewrite add_comm. symmetry. apply add_0.
    - cbn [act]. revert b. induction a as [a IH|a IH|]; intros [b|b|]; cbn [Pos.lxor];
        rewrite ?act_double, ?act_succ_double, ?IH; cbn [actp act].
      + rewrite L_add by (apply actp_valid, Hx).
        set (u := L (actp a x)). set (v := L (actp b x)).
        rewrite <- (add_0 (add u v)), <- (add_nil x), !add_assoc. f_equal.
        rewrite <- !add_assoc, (add_comm u x). reflexivity.
      + rewrite L_add by (apply actp_valid, Hx). rewrite !add_assoc. reflexivity.
      + rewrite (add_comm x), add_assoc, add_nil, add_comm, add_0. reflexivity.
      + rewrite L_add by (apply actp_valid, Hx).
        set (u := L (actp a x)). set (v := L (actp b x)).
        rewrite <- !add_assoc, (add_comm x u). reflexivity.
      + rewrite L_add by (apply actp_valid, Hx). reflexivity.
      + rewrite add_comm. reflexivity.
      + rewrite <- add_assoc, add_nil, add_0. reflexivity.
      + reflexivity.
      + symmetry. apply add_nil.
  Qed.

  Lemma act_add r x y : valid x -> valid y -> act r (add x y) = add (act r x) (act r y).
  Proof.
    intros Hx Hy. destruct r as [|a]; [symmetry; apply add_nil|]. cbn [act].
    induction a as [a IH|a IH|]; cbn [actp]; [| |reflexivity].
    - rewrite IH, L_add by (apply actp_valid; assumption).
      set (u := L (actp a x)). set (v := L (actp a y)).
      rewrite !add_assoc. f_equal. rewrite <- !add_assoc. f_equal. apply add_comm.
    - rewrite IH, L_add by (apply actp_valid; assumption). reflexivity.
  Qed.

  Lemma act_0 r : act r zero = zero.
  Proof. rewrite <- (add_nil zero) at 1. rewrite act_add by exact Hz. apply add_nil. Qed.

  Variables (n p : N).
  Hypothesis Hp : forall x, valid x -> act p x = zero.

  Lemma act_xtime r x : valid x -> act (xtime n p r) x = L (act r x).
  Proof.
    intros Hx. unfold xtime. destruct (N.testbit (N.double r) n).
    - rewrite act_lxor, act_double, Hp by exact Hx. rewrite add_comm. apply add_0.
    - apply act_double.
  Qed.

  Lemma act_mulmod a b x : valid x -> act (mulmod n p a b) x = act a (act b x).
  Proof.
    intros Hx. destruct a as [|a]; [reflexivity|]. cbn [mulmod act].
    induction a as [a IH|a IH|]; cbn [mulp actp]; [| |reflexivity].
    - rewrite act_lxor, act_xtime, IH by exact Hx. reflexivity.
    - rewrite act_xtime, IH by exact Hx. reflexivity.
  Qed.

  Lemma iter_act_comm k r x : valid x -> Nat.iter k L (act r x) = act r (Nat.iter k L x).
  Proof.
    intros Hx. assert (HLc : forall y, valid y -> L (act r y) = act r (L y)).
    { intros y Hy. destruct r as [|a]; [apply L_0|]. cbn [act]. induction a as [a IH|a IH|]; cbn [actp].
      - rewrite L_add by (auto using actp_valid). rewrite IH. reflexivity.
      - rewrite IH. reflexivity.
      - reflexivity. }
    induction k as [|k IH]; [reflexivity|]. cbn [Nat.iter nat_rect].
    fold (Nat.iter k L (act r x)). fold (Nat.iter k L x). rewrite IH. apply HLc.
    apply (iter_valid valid L HL). exact Hx.
  Qed.

  Lemma act_powx e x : valid x -> act (powx n p e) x = Nat.iter (Pos.to_nat e) L x.
  Proof.
    revert x. induction e as [e IH|e IH|]; intros x Hx; cbn [powx].
    - rewrite act_xtime, act_mulmod by exact Hx. rewrite (IH x) by exact Hx.
      rewrite IH by (apply (iter_valid valid L HL); exact Hx). rewrite <- iter_add, Pos2Nat.inj_xI.
      replace (Pos.to_nat e + Pos.to_nat e)%nat with (2 * Pos.to_nat e)%nat by lia. reflexivity.
    - rewrite act_mulmod by exact Hx. rewrite (IH x) by exact Hx.
      rewrite IH by (apply (iter_valid valid L HL); exact Hx). rewrite <- iter_add, Pos2Nat.inj_xO. f_equal. lia.
    - reflexivity.
  Qed.

  (* x^e - 1 is invertible modulo p: no non-zero state returns after e steps *)
  Lemma no_return_cert e u x : valid x -> mulmod n p u (N.lxor (powx n p e) 1) = 1 ->
    Nat.iter (Pos.to_nat e) L x = x -> x = zero.
  Proof.
    intros Hx Hu E. change x with (act 1 x) at 1. rewrite <- Hu.
    rewrite act_mulmod, act_lxor, act_powx, E by exact Hx. change (act 1 x) with x. rewrite add_nil. apply act_0.
  Qed.

  Lemma return_cert e x : valid x -> powx n p e = 1 -> Nat.iter (Pos.to_nat e) L x = x.
  Proof. intros Hx Hu. rewrite <- act_powx, Hu by exact Hx. reflexivity. Qed.
End Linear.

(* ---------- trial division ---------- *)
Lemma prime_trial (n s : Z) : (1 < n)%Z -> (0 <= s)%Z -> (n < (s + 1) * (s + 1))%Z ->
  forallb (fun d => negb (n mod d =? 0)%Z) (map Z.of_nat (seq 2 (Z.to_nat (s - 1)))) = true -> prime n.
Proof.
  intros Hn Hs0 Hs Hall. destruct (prime_dec n) as [H|H]; [exact H|]. exfalso.
  rewrite forallb_forall in Hall.
  assert (Hsmall : forall d, (1 < d <= s)%Z -> ~ (d | n)%Z).
  { intros d Hd Hdiv. specialize (Hall d).
    assert (Hin : In d (map Z.of_nat (seq 2 (Z.to_nat (s - 1))))).
    { apply in_map_iff. exists (Z.to_nat d). split; [lia|]. apply in_seq. lia. }
    specialize (Hall Hin). apply Z.mod_divide in Hdiv; [|lia]. rewrite Hdiv in Hall. discriminate. }
  destruct (not_prime_divide n Hn H) as (d & Hd & q & Hq).
  destruct (Z.le_gt_cases d s) as [L|L]; [apply (Hsmall d); [lia|exists q; exact Hq]|].
  apply (Hsmall q); [nia|]. exists d. lia.
Qed.

(* ---------- order ---------- *)
Definition zprod (l : list Z) : Z := fold_right Z.mul 1%Z l.

Lemma prime_factor_of_divisor qs : Forall prime qs -> forall m, (1 < m)%Z -> (m | zprod qs)%Z ->
  exists q, In q qs /\ (q | m)%Z.
Proof.
  induction 1 as [|q qs Hq Hqs IH]; intros m Hm Hd.
  - cbn in Hd. apply Z.divide_1_r in Hd. lia.
  - destruct (Zdivide_dec q m) as [D|D]; [exists q; split; [left; reflexivity|exact D]|].
    destruct (IH m Hm) as (q' & Hin & Hd').
    + apply (Gauss m q); [exact Hd|]. apply rel_prime_sym, prime_rel_prime; assumption.
    + exists q'. split; [right; exact Hin|exact Hd'].
Qed.

Lemma proper_divisor qs T g : Forall prime qs -> zprod qs = T -> (0 < T)%Z -> (0 < g)%Z -> (g | T)%Z -> g <> T ->
  exists q, In q qs /\ (g | T / q)%Z.
Proof.
  intros Hp HT HT0 Hg [m Hm] Hne.
  assert (Hm1 : (1 < m)%Z).
  { destruct (Z.lt_trichotomy m 1) as [H|[H|H]]; [|subst m; lia|exact H]. nia. }
  destruct (prime_factor_of_divisor qs Hp m Hm1) as (q & Hin & m' & Hm').
  { exists g. rewrite HT, Hm. apply Z.mul_comm. }
  exists q. split; [exact Hin|]. exists m'.
  rewrite Forall_forall in Hp. specialize (Hp q Hin). destruct Hp as [Hq _].
  rewrite Hm, Hm'. replace (m' * q * g)%Z with (m' * g * q)%Z by ring. apply Z.div_mul. lia.
Qed.

Section MaxPeriod.
  Context {S : Type} (valid : S -> Prop) (zero : S) (L : S -> S).
  Variable (T : Z) (qs : list Z).
  Hypothesis HT : (0 < T)%Z.
  Hypothesis Hqs : Forall prime qs.
  Hypothesis HP : zprod qs = T.
  Hypothesis Hret : forall x, valid x -> Nat.iter (Z.to_nat T) L x = x.
  Hypothesis Hno : forall q x, In q qs -> valid x -> Nat.iter (Z.to_nat (T / q)) L x = x -> x = zero.

  Lemma period_divides x d : valid x -> x <> zero -> Nat.iter d L x = x -> (T | Z.of_nat d)%Z.
  Proof.
    intros Hx Hne Ed. set (g := Nat.gcd (Z.to_nat T) d).
    assert (Eg : Nat.iter g L x = x) by (apply (cycle_gcd valid L); auto).
    assert (Hg1 : Nat.divide g (Z.to_nat T)) by apply Nat.gcd_divide_l.
    assert (Hg2 : Nat.divide g d) by apply Nat.gcd_divide_r.
    assert (Hgz : (Z.of_nat g | T)%Z).
    { destruct Hg1 as [k Hk]. exists (Z.of_nat k). lia. }
    assert (Hg0 : (0 < Z.of_nat g)%Z).
    { destruct Hgz as [k Hk]. destruct g; [|lia]. lia. }
    destruct (Z.eq_dec (Z.of_nat g) T) as [E|E].
    - rewrite <- E. destruct Hg2 as [k Hk]. exists (Z.of_nat k). lia.
    - exfalso. destruct (proper_divisor qs T (Z.of_nat g) Hqs HP HT Hg0 Hgz E) as (q & Hin & k & Hk).
      apply Hne, (Hno q x Hin Hx). rewrite Hk.
      assert (0 <= k)%Z.
      { assert (0 <= T / q)%Z; [|nia]. rewrite Forall_forall in Hqs. destruct (Hqs q Hin) as [Hq _].
        apply Z.div_pos; lia. }
      replace (Z.to_nat (k * Z.of_nat g)) with (Z.to_nat k * g)%nat by nia.
      apply cycle_mult, Eg.
  Qed.
End MaxPeriod.
