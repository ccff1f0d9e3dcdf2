(* General lemmas on words represented in N. *)
From Verif Require Import Base.
Open Scope N_scope.

Lemma pow2_pos w : 0 < 2 ^ w.
Proof. apply N.neq_0_lt_0, N.pow_nonzero. lia. Qed.

Lemma pow2_ne0 w : 2 ^ w <> 0.
Proof. apply N.pow_nonzero. lia. Qed.

Lemma wrap_word w x : is_word w (wrap w x).
Proof. unfold is_word, wrap. apply N.mod_lt, pow2_ne0. Qed.

Lemma wrap_id w x : is_word w x -> wrap w x = x.
Proof. unfold is_word, wrap. intros H. apply N.mod_small, H. Qed.

Lemma wrap_testbit w x i : N.testbit (wrap w x) i = (i <? w) && N.testbit x i.
Proof.
  unfold wrap. destruct (N.ltb_spec i w) as [H|H]; cbn [andb].
  - apply N.mod_pow2_bits_low, H.
  - apply N.mod_pow2_bits_high, H.
Qed.

Lemma word_high w x i : is_word w x -> w <= i -> N.testbit x i = false.
Proof.
  intros Hx Hi. rewrite <- (wrap_id w x Hx), wrap_testbit.
  destruct (N.ltb_spec i w); [lia|reflexivity].
Qed.

Lemma word_of_high w x : (forall i, w <= i -> N.testbit x i = false) -> is_word w x.
Proof.
  intros H. replace x with (wrap w x); [apply wrap_word|].
  apply N.bits_inj. intro i. rewrite wrap_testbit.
  destruct (N.ltb_spec i w) as [Hi|Hi]; cbn [andb]; [reflexivity|].
  symmetry. apply H, Hi.
Qed.

Lemma word_ext w x y : is_word w x -> is_word w y ->
  (forall i, i < w -> N.testbit x i = N.testbit y i) -> x = y.
Proof.
  intros Hx Hy H. apply N.bits_inj. intro i.
  destruct (N.lt_ge_cases i w) as [Hi|Hi]; [apply H, Hi|].
  rewrite (word_high w x i Hx Hi), (word_high w y i Hy Hi). reflexivity.
Qed.

Lemma word_0 w : is_word w 0.
Proof. unfold is_word. apply pow2_pos. Qed.

Lemma word_lor w x y : is_word w x -> is_word w y -> is_word w (N.lor x y).
Proof.
  intros Hx Hy. apply word_of_high. intros i Hi.
  rewrite N.lor_spec, (word_high w x i Hx Hi), (word_high w y i Hy Hi). reflexivity.
Qed.

Lemma word_lxor w x y : is_word w x -> is_word w y -> is_word w (N.lxor x y).
Proof.
  intros Hx Hy. apply word_of_high. intros i Hi.
  rewrite N.lxor_spec, (word_high w x i Hx Hi), (word_high w y i Hy Hi). reflexivity.
Qed.

Lemma word_land_l w x y : is_word w x -> is_word w (N.land x y).
Proof.
  intros Hx. apply word_of_high. intros i Hi.
  rewrite N.land_spec, (word_high w x i Hx Hi). reflexivity.
Qed.

Lemma word_land_r w x y : is_word w y -> is_word w (N.land x y).
Proof. intros Hy. rewrite N.land_comm. apply word_land_l, Hy. Qed.

Lemma word_shiftr w x k : is_word w x -> is_word w (N.shiftr x k).
Proof.
  intros Hx. apply word_of_high. intros i Hi.
  rewrite N.shiftr_spec by lia. apply (word_high w); [exact Hx|lia].
Qed.

Lemma word_mono w w' x : w <= w' -> is_word w x -> is_word w' x.
Proof.
  unfold is_word. intros Hw Hx. apply N.lt_le_trans with (1 := Hx).
  apply N.pow_le_mono_r; lia.
Qed.

Lemma shiftl_testbit x k i : N.testbit (N.shiftl x k) i = (k <=? i) && N.testbit x (i - k).
Proof.
  destruct (N.leb_spec k i) as [H|H]; cbn [andb].
  - apply N.shiftl_spec_high'; exact H.
  - apply N.shiftl_spec_low; exact H.
Qed.

Lemma shiftr_testbit x k i : N.testbit (N.shiftr x k) i = N.testbit x (i + k).
Proof. apply N.shiftr_spec. lia. Qed.

Lemma wrap_lxor w x y : wrap w (N.lxor x y) = N.lxor (wrap w x) (wrap w y).
Proof.
  apply N.bits_inj. intro i. rewrite wrap_testbit, !N.lxor_spec, !wrap_testbit.
  destruct (i <? w); reflexivity.
Qed.

Lemma wrap_wrap w x : wrap w (wrap w x) = wrap w x.
Proof. apply wrap_id, wrap_word. Qed.

Lemma wrap_wrap_le w w' x : w <= w' -> wrap w (wrap w' x) = wrap w x.
Proof.
  intros H. apply N.bits_inj. intro i. rewrite !wrap_testbit.
  destruct (N.ltb_spec i w), (N.ltb_spec i w'); cbn [andb]; try reflexivity; lia.
Qed.

Lemma mod_word w x : is_word w (x mod 2 ^ w).
Proof. apply wrap_word. Qed.

Lemma wrap_add w x y : wrap w (wrap w x + wrap w y) = wrap w (x + y).
Proof. unfold wrap. symmetry. apply N.add_mod, pow2_ne0. Qed.
Lemma wrap_add_l w x y : wrap w (wrap w x + y) = wrap w (x + y).
Proof. unfold wrap. apply N.add_mod_idemp_l, pow2_ne0. Qed.
Lemma wrap_add_r w x y : wrap w (x + wrap w y) = wrap w (x + y).
Proof. unfold wrap. apply N.add_mod_idemp_r, pow2_ne0. Qed.
Lemma wrap_mul w x y : wrap w (wrap w x * wrap w y) = wrap w (x * y).
Proof. unfold wrap. symmetry. apply N.mul_mod, pow2_ne0. Qed.
Lemma wrap_mul_l w x y : wrap w (wrap w x * y) = wrap w (x * y).
Proof. unfold wrap. apply N.mul_mod_idemp_l, pow2_ne0. Qed.
Lemma wrap_mul_r w x y : wrap w (x * wrap w y) = wrap w (x * y).
Proof. unfold wrap. apply N.mul_mod_idemp_r, pow2_ne0. Qed.

(* Finite checks over bit positions, lifted to all positions below [w]. *)
Definition below (w : N) : list N := map N.of_nat (seq 0 (N.to_nat w)).

Lemma below_spec w i : In i (below w) <-> i < w.
Proof.
  unfold below. rewrite in_map_iff. split.
  - intros (n & <- & Hn). apply in_seq in Hn. lia.
  - intros H. exists (N.to_nat i). rewrite in_seq. lia.
Qed.

Lemma forall_below w (P : N -> bool) :
  forallb P (below w) = true -> forall i, i < w -> P i = true.
Proof. rewrite forallb_forall. intros H i Hi. apply H, below_spec, Hi. Qed.

(* Symbolic evaluation of masks, shifts, and/or/xor of one word: which input bits
   are or-ed (resp. xor-ed) together to give an output bit. *)
Inductive bexp : Type :=
| BX
| BAnd (c : N) (e : bexp)
| BOr (e1 e2 : bexp)
| BXor (e1 e2 : bexp)
| BShl (k : N) (e : bexp)
| BShr (k : N) (e : bexp)
| BWrap (w : N) (e : bexp).

Fixpoint bden (e : bexp) (x : N) : N :=
  match e with
  | BX => x
  | BAnd c e => N.land (bden e x) c
  | BOr e1 e2 => N.lor (bden e1 x) (bden e2 x)
  | BXor e1 e2 => N.lxor (bden e1 x) (bden e2 x)
  | BShl k e => N.shiftl (bden e x) k
  | BShr k e => N.shiftr (bden e x) k
  | BWrap w e => wrap w (bden e x)
  end.

(* [bsrc e i = Some l]: bit i of the result is the xor of the input bits in l.
   An 'or' is accepted only if one side is empty. *)
Fixpoint bsrc (e : bexp) (i : N) : option (list N) :=
  match e with
  | BX => Some [i]
  | BAnd c e => if N.testbit c i then bsrc e i else Some []
  | BOr e1 e2 =>
      match bsrc e1 i, bsrc e2 i with
      | Some [], Some l => Some l
      | Some l, Some [] => Some l
      | _, _ => None
      end
  | BXor e1 e2 =>
      match bsrc e1 i, bsrc e2 i with
      | Some l1, Some l2 => Some (l1 ++ l2)
      | _, _ => None
      end
  | BShl k e => if k <=? i then bsrc e (i - k) else Some []
  | BShr k e => bsrc e (i + k)
  | BWrap w e => if i <? w then bsrc e i else Some []
  end.

Definition xor_bits (x : N) (l : list N) : bool :=
  fold_right (fun j b => xorb (N.testbit x j) b) false l.

Lemma xor_bits_app x l1 l2 : xor_bits x (l1 ++ l2) = xorb (xor_bits x l1) (xor_bits x l2).
Proof.
  induction l1 as [|j l1 IH]; cbn [xor_bits app fold_right].
  - destruct (fold_right _ false l2) eqn:E; unfold xor_bits; rewrite E; reflexivity.
  - unfold xor_bits in *. rewrite IH. rewrite xorb_assoc. reflexivity.
Qed.

Lemma bsrc_sound e : forall i l x, bsrc e i = Some l -> N.testbit (bden e x) i = xor_bits x l.
Proof.
  induction e as [|c e IH|e1 IH1 e2 IH2|e1 IH1 e2 IH2|k e IH|k e IH|w e IH];
    intros i l x H; cbn [bsrc bden] in *.
  - injection H as <-. cbn [xor_bits fold_right]. rewrite xorb_false_r. reflexivity.
  - rewrite N.land_spec. destruct (N.testbit c i).
    + rewrite (IH i l x H), andb_true_r. reflexivity.
    + injection H as <-. rewrite andb_false_r. reflexivity.
  - rewrite N.lor_spec.
    destruct (bsrc e1 i) as [[|a l1]|] eqn:E1, (bsrc e2 i) as [[|b l2]|] eqn:E2; try discriminate H;
      injection H as <-;
      rewrite (IH1 i _ x E1), (IH2 i _ x E2); cbn [xor_bits fold_right];
      rewrite ?orb_false_r; reflexivity.
  - rewrite N.lxor_spec.
    destruct (bsrc e1 i) as [l1|] eqn:E1, (bsrc e2 i) as [l2|] eqn:E2; try discriminate H.
    injection H as <-. rewrite (IH1 i _ x E1), (IH2 i _ x E2), xor_bits_app. reflexivity.
  - rewrite shiftl_testbit. destruct (k <=? i).
    + rewrite (IH _ l x H). reflexivity.
    + injection H as <-. reflexivity.
  - rewrite shiftr_testbit. apply IH, H.
  - rewrite wrap_testbit. destruct (i <? w).
    + rewrite (IH _ l x H). reflexivity.
    + injection H as <-. reflexivity.
Qed.

(* An expression that moves single bits. *)
Definition bmoves (w : N) (e : bexp) (src : N -> N) : bool :=
  forallb (fun i => match bsrc e i with
                    | Some [j] => j =? src i
                    | _ => false
                    end) (below w).

Lemma bmoves_sound w e src : bmoves w e src = true ->
  forall x i, i < w -> N.testbit (bden e x) i = N.testbit x (src i).
Proof.
  intros H x i Hi. pose proof (forall_below w _ H i Hi) as Hs. cbn beta in Hs.
  destruct (bsrc e i) as [[|j [|k l]]|] eqn:E; try discriminate Hs.
  rewrite (bsrc_sound e i [j] x E). cbn [xor_bits fold_right].
  rewrite xorb_false_r. apply N.eqb_eq in Hs. rewrite Hs. reflexivity.
Qed.

(* Induction over all bit-words as lists. *)
Lemma testbit_double_add (b : bool) (x i : N) :
  N.testbit ((if b then 1 else 0) + 2 * x) i =
  match i with 0 => b | _ => N.testbit x (N.pred i) end.
Proof.
  destruct i as [|p].
  - destruct b.
    + rewrite N.add_comm. apply N.testbit_odd_0.
    + rewrite N.add_0_l. apply N.testbit_even_0.
  - replace (N.pos p) with (N.succ (N.pred (N.pos p))) at 1 by lia.
    destruct b.
    + rewrite N.add_comm. apply N.testbit_odd_succ. lia.
    + rewrite N.add_0_l. apply N.testbit_even_succ. lia.
Qed.

Lemma iter_S {A} (n : nat) (f : A -> A) x : Nat.iter (S n) f x = f (Nat.iter n f x).
Proof. reflexivity. Qed.

Lemma iter_S_r {A} (n : nat) (f : A -> A) x : Nat.iter (S n) f x = Nat.iter n f (f x).
Proof. induction n as [|n IH]; [reflexivity|]. rewrite iter_S, IH. reflexivity. Qed.

Lemma iter_add {A} (n m : nat) (f : A -> A) x : Nat.iter (n + m) f x = Nat.iter n f (Nat.iter m f x).
Proof. induction n as [|n IH]; [reflexivity|]. rewrite iter_S, <- IH. reflexivity. Qed.
