(* The 128-bit linear generators have the maximal period 2^128 - 1, and what follows for their output. *)
From Coq Require Import Znumtheory.
From Verif Require Import Base BitwiseModel BitwiseSpec WordLemmas PeriodProofs LinearProofs MixerProofs PrngModel PrngSpec PrngProofs FermatPrime WordBij.
Open Scope N_scope.

Definition T128 : N := 2 ^ 128 - 1.

(* ---------- one cyclic vector is enough ----------
   If p annihilates the vector 1 and x has the maximal order modulo p, then the orbit of 1 contains every non-zero
   word, so p annihilates every word.  (The certificate of PrngProofs checks every unit vector instead.) *)
Definition orbit_cert (w p : N) (f : N -> N) (T : positive) (qs : list (positive * N)) : bool :=
  (act 0 N.lxor f p 1 =? 0) &&
  (powx w p T =? 1) &&
  forallb (fun qu => (mulmod w p (snd qu) (N.lxor (powx w p (Z.to_pos (Zpos T / Zpos (fst qu)))) 1) =? 1)
                     && (0 <? Zpos T / Zpos (fst qu))%Z) qs.

Section Orbit.
  Context (w p : N) (f : N -> N) (T : positive) (qs : list (positive * N)).
  Hypothesis lin : forall x y, f (N.lxor x y) = N.lxor (f x) (f y).
  Hypothesis word : forall x, is_word w x -> is_word w (f x).
  Hypothesis cert : orbit_cert w p f T qs = true.
  Hypothesis primes : Forall prime (map (fun qu => Zpos (fst qu)) qs).
  Hypothesis prod : zprod (map (fun qu => Zpos (fst qu)) qs) = Zpos T.
  Hypothesis T_max : N.pos T = 2 ^ w - 1.

  Let killed (x : N) : Prop := is_word w x /\ act 0 N.lxor f p x = 0.
  Lemma killed_0 : killed 0.
  Proof. split; [apply word_0|]. apply (act_0 (is_word w)); auto using word_0, word_lxor, N.lxor_nilpotent, N.lxor_0_l, N.lxor_comm, N.lxor_assoc. Qed.
  Lemma killed_lxor x y : killed x -> killed y -> killed (N.lxor x y).
  Proof.
    intros [Hx Ex] [Hy Ey]. split; [apply word_lxor; assumption|].
    rewrite (act_add (is_word w)); auto using word_0, word_lxor, N.lxor_nilpotent, N.lxor_0_l, N.lxor_comm, N.lxor_assoc.
    rewrite Ex, Ey. reflexivity.
  Qed.
  Lemma f_0 : f 0 = 0.
  Proof. rewrite <- (N.lxor_nilpotent 0) at 1. rewrite lin. apply N.lxor_nilpotent. Qed.
  Lemma killed_f x : killed x -> killed (f x).
  Proof.
    intros [Hx Ex]. split; [apply word, Hx|].
    assert (C : Nat.iter 1 f (act 0 N.lxor f p x) = act 0 N.lxor f p (Nat.iter 1 f x))
      by (apply (iter_act_comm (is_word w)); auto using word_0, word_lxor, N.lxor_nilpotent, N.lxor_0_l, N.lxor_comm, N.lxor_assoc).
    cbn in C. rewrite <- C, Ex. apply f_0.
  Qed.
  Lemma killed_return x : killed x -> Nat.iter (Pos.to_nat T) f x = x.
  Proof.
    intro Hx. pose proof cert as Hc. unfold orbit_cert in Hc. apply andb_prop in Hc. destruct Hc as [Hc _]. apply andb_prop in Hc. destruct Hc as [_ H2]. apply N.eqb_eq in H2.
    apply (return_cert killed 0 N.lxor f) with (n := w) (p := p);
      auto using killed_0, killed_lxor, killed_f, N.lxor_nilpotent, N.lxor_0_l, N.lxor_comm, N.lxor_assoc. intros y [_ Ey]. exact Ey.
  Qed.
  Lemma killed_divides x d : killed x -> x <> 0 -> Nat.iter d f x = x -> (Zpos T | Z.of_nat d)%Z.
  Proof.
    intros Hx Hne E. pose proof cert as Hc. unfold orbit_cert in Hc. apply andb_prop in Hc. destruct Hc as [_ H3].
    apply (period_divides killed 0 f (Zpos T) (map (fun qu => Zpos (fst qu)) qs)) with (x := x); auto using killed_f; [lia|intros y Hy; apply killed_return, Hy|].
    intros q y Hin Hy Ey. apply in_map_iff in Hin. destruct Hin as ([q' u] & <- & Hin). cbn [fst] in Ey.
    rewrite forallb_forall in H3. specialize (H3 _ Hin). cbn [fst snd] in H3. apply andb_prop in H3.
    destruct H3 as [H3 H4]. apply N.eqb_eq in H3. apply Z.ltb_lt in H4.
    apply (no_return_cert killed 0 N.lxor f) with (n := w) (p := p) (e := Z.to_pos (Z.pos T / Z.pos q')) (u := u);
      auto using killed_0, killed_lxor, killed_f, N.lxor_nilpotent, N.lxor_0_l, N.lxor_comm, N.lxor_assoc.
    - intros z [_ Ez]. exact Ez.
    - rewrite <- Ey at 2. f_equal. rewrite <- (Z2Pos.id _ H4) at 2. reflexivity.
  Qed.
  Lemma all_killed x : is_word w x -> killed x.
  Proof.
    assert (K1 : killed 1).
    { pose proof cert as Hc. unfold orbit_cert in Hc. apply andb_prop in Hc. destruct Hc as [Hc _]. apply andb_prop in Hc. destruct Hc as [H1 _]. apply N.eqb_eq in H1.
      split; [unfold is_word; lia|exact H1]. }
    assert (KI : forall i, killed (Nat.iter i f 1)) by (induction i as [|i IH]; [exact K1|]; apply killed_f, IH).
    assert (Z0 : forall i, Nat.iter i f 0 = 0) by (induction i as [|i IH]; [reflexivity|]; change (f (Nat.iter i f 0) = 0); rewrite IH; apply f_0).
    assert (NZ : forall i, i < N.pos T -> Nat.iter (N.to_nat i) f 1 <> 0).
    { intros i Hi E. pose proof (killed_return 1 K1) as R. replace (Pos.to_nat T) with (Pos.to_nat T - N.to_nat i + N.to_nat i)%nat in R by lia.
      rewrite iter_add, E, Z0 in R. discriminate R. }
    assert (LT : forall i j, i < j -> j < N.pos T -> Nat.iter (N.to_nat i) f 1 <> Nat.iter (N.to_nat j) f 1).
    { intros i j Hij Hj E. apply (f_equal (Nat.iter (Pos.to_nat T - N.to_nat i) f)) in E. rewrite <- !iter_add in E.
      replace (Pos.to_nat T - N.to_nat i + N.to_nat i)%nat with (Pos.to_nat T) in E by lia.
      replace (Pos.to_nat T - N.to_nat i + N.to_nat j)%nat with (Pos.to_nat T + N.to_nat (j - i))%nat in E by lia.
      rewrite iter_add in E. rewrite (killed_return _ (KI _)), (killed_return 1 K1) in E. symmetry in E.
      apply killed_divides in E; [|exact K1|discriminate]. apply Z.divide_pos_le in E; lia. }
    assert (INJ : forall i j, i < N.pos T -> j < N.pos T -> Nat.iter (N.to_nat i) f 1 = Nat.iter (N.to_nat j) f 1 -> i = j).
    { intros i j Hi' Hj' E. destruct (N.lt_trichotomy i j) as [H|[H|H]]; [|exact H|]; exfalso; [exact (LT i j H Hj' E)|exact (LT j i H Hi' (eq_sym E))]. }
    assert (B : word_bijection w (fun i => if i =? N.pos T then 0 else Nat.iter (N.to_nat i) f 1)).
    { apply inj_bij.
      - intros i _. destruct (i =? N.pos T); [apply word_0|apply KI].
      - intros i j Wi Wj E. unfold is_word in Wi, Wj. destruct (N.eqb_spec i (N.pos T)), (N.eqb_spec j (N.pos T)); subst.
        + reflexivity.
        + exfalso. symmetry in E. apply (NZ j); [lia|exact E].
        + exfalso. apply (NZ i); [lia|exact E].
        + apply INJ; [lia|lia|exact E]. }
    intro Hx. destruct B as (_ & _ & Hs). destruct (Hs x Hx) as (i & Wi & E). destruct (i =? N.pos T); rewrite <- E; [apply killed_0|apply KI].
  Qed.
End Orbit.

(* ---------- a state machine conjugate to a linear map on words ---------- *)
Section Conjugate.
  Context {S : Type} (valid : S -> Prop) (zero : S) (step : S -> S) (e : S -> N) (F : N -> N) (w p : N) (qs : list (positive * N)) (T : positive).
  Hypothesis step_valid : forall s, valid s -> valid (step s).
  Hypothesis e_word : forall s, valid s -> is_word w (e s).
  Hypothesis e_inj : forall s t, valid s -> valid t -> e s = e t -> s = t.
  Hypothesis e_surj : forall x, is_word w x -> exists s, valid s /\ e s = x.
  Hypothesis zero_valid : valid zero.
  Hypothesis e_zero : e zero = 0.
  Hypothesis F_e : forall s, valid s -> F (e s) = e (step s).
  Hypothesis F_lin : forall x y, F (N.lxor x y) = N.lxor (F x) (F y).
  Hypothesis cert : orbit_cert w p F T qs = true.
  Hypothesis primes : Forall prime (map (fun qu => Zpos (fst qu)) qs).
  Hypothesis prod : zprod (map (fun qu => Zpos (fst qu)) qs) = Zpos T.
  Hypothesis T_max : N.pos T = 2 ^ w - 1.

  Lemma F_word x : is_word w x -> is_word w (F x).
  Proof. intro Hx. destruct (e_surj x Hx) as (s & V & <-). rewrite F_e by exact V. apply e_word, step_valid, V. Qed.
  Lemma iter_step_valid i s : valid s -> valid (Nat.iter i step s).
  Proof. intro V. induction i as [|i IH]; [exact V|]. apply step_valid, IH. Qed.
  Lemma iter_e i s : valid s -> Nat.iter i F (e s) = e (Nat.iter i step s).
  Proof. intro V. induction i as [|i IH]; [reflexivity|]. change (F (Nat.iter i F (e s)) = e (step (Nat.iter i step s))). rewrite IH. apply F_e, iter_step_valid, V. Qed.
  Lemma F_return x : is_word w x -> Nat.iter (Pos.to_nat T) F x = x.
  Proof. intro Hx. apply (killed_return w p F T qs F_lin F_word cert), (all_killed w p F T qs F_lin F_word cert primes prod T_max), Hx. Qed.
  Lemma F_divides x d : is_word w x -> x <> 0 -> Nat.iter d F x = x -> (Zpos T | Z.of_nat d)%Z.
  Proof. intro Hx. exact (killed_divides w p F T qs F_lin F_word cert primes prod T_max x d (all_killed w p F T qs F_lin F_word cert primes prod T_max x Hx)). Qed.
  Lemma F_inj x y : is_word w x -> is_word w y -> F x = F y -> x = y.
  Proof.
    intros Hx Hy E. rewrite <- (F_return x Hx), <- (F_return y Hy). destruct (Pos2Nat.is_succ T) as (k & ->).
    assert (R : forall n z, Nat.iter (Datatypes.S n) F z = Nat.iter n F (F z)) by (intros n z; induction n as [|n IH]; [reflexivity|]; change (F (Nat.iter (Datatypes.S n) F z) = F (Nat.iter n F (F z))); f_equal; exact IH).
    rewrite !R, E. reflexivity.
  Qed.
  Lemma F_0 : F 0 = 0.
  Proof. rewrite <- (N.lxor_nilpotent 0) at 1. rewrite F_lin. apply N.lxor_nilpotent. Qed.

  Lemma maximal s : valid s -> s <> zero ->
    (forall i, Nat.iter i step s <> zero) /\ Nat.iter (Pos.to_nat T) step s = s /\
    (forall t, valid t -> t <> zero -> exists! i, i < N.pos T /\ Nat.iter (N.to_nat i) step s = t).
  Proof.
    intros V NZ. assert (EZ : forall t, valid t -> t <> zero -> e t <> 0) by (intros t Vt Nt C; apply Nt, e_inj; [exact Vt|exact zero_valid|rewrite C, e_zero; reflexivity]).
    destruct (max_orbit w F (N.pos T) F_word F_inj F_0 T_max F_divides (e s) (e_word s V) (EZ s V NZ)) as [A B]. split; [|split].
    - intros i C. destruct (A i) as [_ Q]. apply Q. rewrite iter_e, C by exact V. exact e_zero.
    - apply e_inj; [apply iter_step_valid, V|exact V|]. rewrite <- iter_e by exact V. apply F_return, e_word, V.
    - intros t Vt Nt. destruct (B (e t) (e_word t Vt) (EZ t Vt Nt)) as (i & [Li Ei] & U). exists i. split.
      + split; [exact Li|]. apply e_inj; [apply iter_step_valid, V|exact Vt|]. rewrite <- iter_e by exact V. exact Ei.
      + intros j [Lj Ej]. apply U. split; [exact Lj|]. rewrite iter_e, Ej by exact V. reflexivity.
  Qed.
End Conjugate.

(* ---------- consequences for the states and outputs ---------- *)
Section Visits.
  Context {S : Type} (eqd : forall x y : S, {x = y} + {x <> y}) (valid : S -> Prop) (zero : S) (st : N -> S) (T : N).
  Hypothesis st_valid : forall i, valid (st i).
  Hypothesis nonzero : forall i, st i <> zero.
  Hypothesis returns : forall i, st (i + T) = st i.
  Hypothesis visits : forall t, valid t -> t <> zero -> exists! i, i < T /\ st i = t.
  Hypothesis T_pos : 0 < T.

  Lemma st_mod i : st i = st (i mod T).
  Proof.
    assert (A : forall k j, st (j + N.of_nat k * T) = st j).
    { induction k as [|k IH]; intro j; [f_equal; lia|]. rewrite <- (returns j), <- (IH (j + T)). f_equal. lia. }
    rewrite (N.div_mod i T) at 1 by lia. rewrite N.add_comm, N.mul_comm. rewrite <- (N2Nat.id (i / T)). apply A.
  Qed.
  Lemma st_eq i j : st i = st j <-> i mod T = j mod T.
  Proof.
    split; [|intro E; rewrite (st_mod i), (st_mod j), E; reflexivity]. intro E. rewrite (st_mod i), (st_mod j) in E.
    destruct (visits (st (i mod T)) (st_valid _) (nonzero _)) as (k & _ & U). rewrite <- (U (i mod T)), <- (U (j mod T)); [reflexivity| |]; (split; [apply N.mod_lt; lia|congruence]).
  Qed.
  Lemma indexes l : NoDup l -> Forall (fun s => valid s /\ s <> zero) l -> exists occ, length occ = length l /\ NoDup occ /\ forall i, In i occ <-> i < T /\ In (st i) l.
  Proof.
    induction l as [|s l IH]; intros ND F; [exists []; split; [reflexivity|]; split; [constructor|]; intro i; cbn [In]; tauto|].
    inversion ND as [|? ? NI ND' EQ]; subst. inversion F as [|? ? [Vs Ns] F' EQ]; subst. destruct (IH ND' F') as (occ & L & NO & I). destruct (visits s Vs Ns) as (k & [Lk Ek] & U).
    exists (k :: occ). split; [cbn [length]; lia|]. split; [constructor; [|exact NO]; intro C; apply I in C; apply NI; rewrite <- Ek; tauto|].
    intro i. cbn [In]. rewrite I. split.
    - intros [<-|[A B]]; [split; [exact Lk|left; symmetry; exact Ek]|split; [exact A|right; exact B]].
    - intros [A [B|B]]; [left; apply U; split; [exact A|symmetry; exact B]|right; split; assumption].
  Qed.
  Lemma occurrences (out : S -> N) v l : NoDup l -> (forall s, In s l <-> valid s /\ out s = v) -> valid zero ->
    exists occ, NoDup occ /\ (forall i, In i occ <-> i < T /\ out (st i) = v) /\
      N.of_nat (length occ) = N.of_nat (length l) - (if out zero =? v then 1 else 0).
  Proof.
    intros ND I VZ. set (keep := fun s => if eqd s zero then false else true). destruct (indexes (filter keep l)) as (occ & L & NO & IO).
    - apply NoDup_filter, ND.
    - apply Forall_forall. intros s Hs. apply filter_In in Hs. destruct Hs as [Hs K]. apply I in Hs. unfold keep in K. destruct (eqd s zero); [discriminate|]. tauto.
    - exists occ. split; [exact NO|]. split.
      + intro i. rewrite IO, filter_In, I. unfold keep. destruct (eqd (st i) zero) as [C|C]; [exfalso; exact (nonzero i C)|]. pose proof (st_valid i). tauto.
      + rewrite L. clear - ND I VZ. destruct (N.eqb_spec (out zero) v) as [E|E].
        * assert (IN : In zero l) by (apply I; split; assumption). clear I. induction l as [|s l IH]; [destruct IN|]. inversion ND as [|? ? NI ND' EQ]; subst. cbn [filter]. unfold keep at 1. destruct (eqd s zero) as [C|C].
          { subst s. replace (filter keep l) with l; [cbn [length]; lia|]. symmetry. clear - NI. induction l as [|t l IH]; [reflexivity|]. cbn [filter]. unfold keep at 1. destruct (eqd t zero) as [C|C]; [exfalso; apply NI; left; exact C|]. f_equal. apply IH. intro C'. apply NI. right. exact C'. }
          { destruct IN as [C'|IN]; [congruence|]. cbn [length]. specialize (IH ND' IN). assert (P : (0 < length l)%nat) by (destruct l; [destruct IN|cbn [length]; lia]). lia. }
        * replace (filter keep l) with l; [lia|]. symmetry. assert (NZ : ~ In zero l) by (intro C; apply I in C; tauto). clear - NZ. induction l as [|t l IH]; [reflexivity|]. cbn [filter]. unfold keep at 1. destruct (eqd t zero) as [C|C]; [exfalso; apply NZ; left; exact C|]. f_equal. apply IH. intro C'. apply NZ. right. exact C'.
  Qed.
End Visits.
