(* Periods: affine maps modulo 2^w, pigeonhole, counting. *)
From Coq Require Import FinFun ListDec.
From Verif Require Import Base BitwiseSpec WordLemmas WordBij.
Open Scope N_scope.

(* ---------- affine maps ---------- *)
Definition aff (a c x : N) : N := x * a + c.

Lemma wrap_aff w a c x : wrap w (aff a c (wrap w x)) = wrap w (aff a c x).
Proof. unfold aff. rewrite <- wrap_add_l, wrap_mul_l, wrap_add_l. reflexivity. Qed.

Lemma iter_wrap_aff w a c n x :
  wrap w (Nat.iter n (fun s => wrap w (aff a c s)) x) = wrap w (Nat.iter n (aff a c) x).
Proof.
  induction n as [|n IH]; [reflexivity|]. cbn [Nat.iter nat_rect].
  fold (Nat.iter n (fun s => wrap w (aff a c s)) x). fold (Nat.iter n (aff a c) x).
  rewrite wrap_wrap, <- wrap_aff, IH, wrap_aff. reflexivity.
Qed.

(* f^(2^k) x = A x + C with A = 1 mod 2^(k+2) and C an odd multiple of 2^k *)
Lemma aff_pow2 a c : a mod 4 = 1 -> N.odd c = true ->
  forall k, exists t u, forall x,
    Nat.iter (2 ^ k) (aff a c) x = x * (1 + 2 ^ (N.of_nat k + 2) * t) + 2 ^ N.of_nat k * (2 * u + 1).
Proof.
  intros Ha Hc. induction k as [|k (t & u & IH)].
  - exists (a / 4). apply N.odd_spec in Hc. destruct Hc as [u ->]. exists u. intro x.
    change (2 ^ 0)%nat with 1%nat. cbn [Nat.iter nat_rect]. unfold aff.
    change (2 ^ (N.of_nat 0 + 2)) with 4. change (2 ^ N.of_nat 0) with 1.
    pose proof (N.div_mod' a 4) as D. rewrite Ha in D. rewrite D at 1. lia.
  - set (P := 2 ^ N.of_nat k) in *.
    assert (EP : 2 ^ (N.of_nat k + 2) = 4 * P) by (rewrite N.pow_add_r; unfold P; change (2 ^ 2) with 4; lia).
    assert (ES : 2 ^ N.of_nat (S k) = 2 * P) by (rewrite Nat2N.inj_succ, N.pow_succ_r'; reflexivity).
    assert (ES2 : 2 ^ (N.of_nat (S k) + 2) = 8 * P).
    { rewrite N.pow_add_r, ES. change (2 ^ 2) with 4. lia. }
    exists (t + 2 * P * t * t), (u + 2 * P * t * u + P * t).
    intro x. replace (2 ^ S k)%nat with (2 ^ k + 2 ^ k)%nat by (cbn; lia).
    rewrite iter_add, !IH, ES2, ES, EP. ring.
Qed.

Lemma aff_pow2_odd a c k m : a mod 4 = 1 -> N.odd c = true -> forall x,
  exists z, Nat.iter (m * 2 ^ k) (aff a c) x = x + 2 ^ N.of_nat k * (2 * z + N.of_nat m).
Proof.
  intros Ha Hc. destruct (aff_pow2 a c Ha Hc k) as (t & u & H).
  set (P := 2 ^ N.of_nat k) in *.
  assert (EP : 2 ^ (N.of_nat k + 2) = 4 * P) by (rewrite N.pow_add_r; unfold P; change (2 ^ 2) with 4; lia).
  rewrite EP in H. induction m as [|m IH]; intro x.
  - exists 0. cbn [Nat.mul Nat.iter nat_rect N.of_nat]. lia.
  - destruct (IH x) as [z Hz]. cbn [Nat.mul]. rewrite iter_add, Hz, H.
    exists (z + 2 * t * (x + P * (2 * z + N.of_nat m)) + u). rewrite Nat2N.inj_succ. ring_simplify. lia.
Qed.

Lemma pow2_odd_decomp d : (0 < d)%nat -> exists k m, d = (m * 2 ^ k)%nat /\ Nat.odd m = true.
Proof.
  induction d as [d IH] using (well_founded_induction lt_wf). intros Hd.
  destruct (Nat.odd d) eqn:Ho.
  - exists 0%nat, d. cbn. split; [lia|exact Ho].
  - assert (He : Nat.even d = true) by (rewrite <- Nat.negb_odd, Ho; reflexivity).
    apply Nat.even_spec in He. destruct He as [h ->].
    destruct (IH h ltac:(lia) ltac:(lia)) as (k & m & -> & Hm).
    exists (S k), m. split; [cbn; lia|exact Hm].
Qed.

Lemma pow2_nat k : 2 ^ N.of_nat k = N.of_nat (2 ^ k).
Proof.
  induction k as [|k IH]; [reflexivity|]. rewrite Nat2N.inj_succ, N.pow_succ_r', IH. cbn [Nat.pow]. lia.
Qed.

(* no return before 2^w steps *)
Lemma aff_no_return a c w d x : a mod 4 = 1 -> N.odd c = true ->
  (0 < d)%nat -> N.of_nat d < 2 ^ w ->
  wrap w (Nat.iter d (aff a c) x) <> wrap w x.
Proof.
  intros Ha Hc Hd Hlt E. destruct (pow2_odd_decomp d Hd) as (k & m & -> & Hm).
  destruct (aff_pow2_odd a c k m Ha Hc x) as [z Hz]. rewrite Hz in E.
  assert (Hk : N.of_nat k < w).
  { destruct (N.lt_ge_cases (N.of_nat k) w) as [H|H]; [exact H|]. exfalso.
    apply (N.pow_le_mono_r 2) in H; [|discriminate]. rewrite pow2_nat in H.
    assert (m <> 0)%nat by (intros ->; discriminate). nia. }
  apply (f_equal (fun v => wrap (N.succ (N.of_nat k)) v)) in E.
  rewrite !wrap_wrap_le in E by lia. unfold wrap in E.
  rewrite N.pow_succ_r' in E. set (P := 2 ^ N.of_nat k) in *.
  assert (HP : P <> 0) by apply pow2_ne0.
  apply Nat.odd_spec in Hm. destruct Hm as [h ->].
  replace (x + P * (2 * z + N.of_nat (2 * h + 1))) with (x + P + (z + N.of_nat h) * (2 * P)) in E by lia.
  rewrite N.mod_add in E by lia.
  pose proof (N.div_mod' (x + P) (2 * P)) as D1. pose proof (N.div_mod' x (2 * P)) as D2. rewrite E in D1.
  set (q1 := (x + P) / (2 * P)) in *. set (q2 := x / (2 * P)) in *. set (r := x mod (2 * P)) in *.
  clearbody q1 q2 r. clear - D1 D2 HP.
  assert (C : P * (1 + 2 * q2) = P * (2 * q1)) by lia.
  apply N.mul_cancel_l in C; [lia|exact HP].
Qed.

Lemma aff_full_period a c w x : a mod 4 = 1 -> N.odd c = true ->
  wrap w (Nat.iter (N.to_nat (2 ^ w)) (aff a c) x) = wrap w x.
Proof.
  intros Ha Hc. destruct (aff_pow2_odd a c (N.to_nat w) 1 Ha Hc x) as [z Hz].
  replace (N.to_nat (2 ^ w)) with (1 * 2 ^ N.to_nat w)%nat.
  - rewrite Hz, N2Nat.id. unfold wrap. rewrite N.mul_comm, N.mod_add by apply pow2_ne0. reflexivity.
  - rewrite Nat.mul_1_l. rewrite <- (N2Nat.id w) at 2. rewrite pow2_nat, Nat2N.id. reflexivity.
Qed.

(* ---------- cancelling injective steps ---------- *)
Section Orbit.
  Context {S : Type} (valid : S -> Prop) (f : S -> S).
  Hypothesis Hv : forall s, valid s -> valid (f s).
  Hypothesis Hi : forall s t, valid s -> valid t -> f s = f t -> s = t.

  Lemma iter_valid n s : valid s -> valid (Nat.iter n f s).
  Proof. intros H. induction n; [exact H|]. cbn. apply Hv, IHn. Qed.

  Lemma iter_inj n s t : valid s -> valid t -> Nat.iter n f s = Nat.iter n f t -> s = t.
  Proof.
    intros Hs Ht. induction n as [|n IH]; [auto|]. cbn. intros E. apply IH.
    apply Hi; [apply iter_valid, Hs|apply iter_valid, Ht|exact E].
  Qed.

  Lemma iter_cancel i j s : valid s -> (i <= j)%nat -> Nat.iter i f s = Nat.iter j f s -> Nat.iter (j - i) f s = s.
  Proof.
    intros Hs Hij E. symmetry. apply (iter_inj i); [exact Hs|apply iter_valid, Hs|].
    rewrite <- iter_add. replace (i + (j - i))%nat with j by lia. exact E.
  Qed.

  (* finitely many states: every orbit is a cycle *)
  Lemma orbit_cycles (enc : S -> N) (n : N) :
    (forall s, valid s -> enc s < n) ->
    (forall s t, valid s -> valid t -> enc s = enc t -> s = t) ->
    forall s, valid s -> exists p, (0 < p)%nat /\ N.of_nat p <= n /\ Nat.iter p f s = s.
  Proof.
    intros He Hinj s Hs.
    assert (Hn : 0 < n) by (specialize (He s Hs); lia).
    set (m := N.to_nat n).
    set (L := map (fun k => N.to_nat (enc (Nat.iter k f s))) (seq 0 (Datatypes.S m))).
    destruct (NoDup_dec Nat.eq_dec L) as [ND|ND].
    - exfalso. assert (Hincl : incl L (seq 0 m)).
      { intros z Hz. apply in_map_iff in Hz. destruct Hz as (k & <- & _). apply in_seq.
        pose proof (He _ (iter_valid k s Hs)). unfold m. lia. }
      pose proof (NoDup_incl_length ND Hincl) as Hlen. unfold L in Hlen.
      rewrite map_length, !seq_length in Hlen. lia.
    - assert (Hex : exists i j, (i < j < Datatypes.S m)%nat /\ Nat.iter i f s = Nat.iter j f s).
      { clear - ND He Hinj Hs Hv Hi. unfold L in ND.
        assert (G : forall c b, (~ NoDup (map (fun k => N.to_nat (enc (Nat.iter k f s))) (seq b c))) ->
                    exists i j, (i < j < b + c)%nat /\ Nat.iter i f s = Nat.iter j f s).
        { induction c as [|c IH]; intros b H; [exfalso; apply H; constructor|].
          cbn [seq map] in H.
          destruct (in_dec Nat.eq_dec (N.to_nat (enc (Nat.iter b f s)))
            (map (fun k => N.to_nat (enc (Nat.iter k f s))) (seq (Datatypes.S b) c))) as [Hin|Hin].
          - apply in_map_iff in Hin. destruct Hin as (k & E & Hk). apply in_seq in Hk.
            exists b, k. split; [lia|]. apply Hinj; try (apply iter_valid; exact Hs). lia.
          - destruct (IH (Datatypes.S b)) as (i & j & Hij & E).
            { intro ND'. apply H. constructor; assumption. }
            exists i, j. split; [lia|exact E]. }
        destruct (G _ _ ND) as (i & j & Hij & E). exists i, j. split; [lia|exact E]. }
      destruct Hex as (i & j & Hij & E). exists (j - i)%nat. split; [lia|]. split; [unfold m in *; lia|].
      apply iter_cancel; [exact Hs|lia|exact E].
  Qed.

  Lemma cycle_mult p q s : Nat.iter p f s = s -> Nat.iter (q * p) f s = s.
  Proof. intros E. induction q as [|q IH]; [reflexivity|]. cbn [Nat.mul]. rewrite iter_add, IH, E. reflexivity. Qed.

  Lemma cycle_gcd s p q : valid s -> Nat.iter p f s = s -> Nat.iter q f s = s -> Nat.iter (Nat.gcd p q) f s = s.
  Proof.
    intros Hs. revert q. induction p as [p IH] using (well_founded_induction lt_wf). intros q Ep Eq.
    destruct p as [|p]; [exact Eq|].
    change (Nat.gcd (Datatypes.S p) q) with (Nat.gcd (q mod Datatypes.S p) (Datatypes.S p)).
    apply IH; [apply Nat.mod_upper_bound; discriminate| |exact Ep].
    rewrite (Nat.div_mod q (Datatypes.S p)) in Eq by discriminate.
    rewrite Nat.add_comm, iter_add, Nat.mul_comm, (cycle_mult _ _ _ Ep) in Eq. exact Eq.
  Qed.
End Orbit.

(* an injective, validity preserving step on finitely many states is onto *)
Lemma finite_reversible {S} (valid : S -> Prop) (f : S -> S) (enc : S -> N) n :
  (forall s, valid s -> valid (f s)) ->
  (forall s t, valid s -> valid t -> f s = f t -> s = t) ->
  (forall s, valid s -> enc s < n) ->
  (forall s t, valid s -> valid t -> enc s = enc t -> s = t) ->
  forall t, valid t -> exists s, valid s /\ f s = t.
Proof.
  intros Hv Hi He Hinj t Ht. destruct (orbit_cycles valid f Hv Hi enc n He Hinj t Ht) as (p & Hp & _ & E).
  destruct p as [|p]; [lia|]. exists (Nat.iter p f t). split; [apply iter_valid; auto|]. exact E.
Qed.

(* ---------- counting ---------- *)
Definition below_list (n : N) : list N := map N.of_nat (seq 0 (N.to_nat n)).

Lemma below_list_in n i : In i (below_list n) <-> i < n.
Proof.
  unfold below_list. rewrite in_map_iff. split.
  - intros (k & <- & Hk). apply in_seq in Hk. lia.
  - intros H. exists (N.to_nat i). rewrite N2Nat.id. split; [reflexivity|]. apply in_seq. lia.
Qed.

Lemma below_list_nodup n : NoDup (below_list n).
Proof. apply Injective_map_NoDup; [intros a b; apply Nat2N.inj|apply seq_NoDup]. Qed.

Lemma below_list_length n : N.of_nat (length (below_list n)) = n.
Proof. unfold below_list. rewrite map_length, seq_length. apply N2Nat.id. Qed.

Lemma nodup_map_on {A B} (f : A -> B) l : NoDup l ->
  (forall x y, In x l -> In y l -> f x = f y -> x = y) -> NoDup (map f l).
Proof.
  induction 1 as [|a l Ha Hl IH]; intros Hf; [constructor|]. cbn [map]. constructor.
  - intros H. apply in_map_iff in H. destruct H as (b & E & Hb).
    apply Ha. rewrite <- (Hf b a); [exact Hb|right; exact Hb|left; reflexivity|exact E].
  - apply IH. intros x y Hx Hy. apply Hf; right; assumption.
Qed.

(* preimages of a list under a bijection *)
Lemma preimages w f Y : word_bijection w f -> NoDup Y -> (forall y, In y Y -> is_word w y) ->
  exists X, NoDup X /\ (forall x, In x X <-> is_word w x /\ In (f x) Y) /\ length X = length Y.
Proof.
  intros (Hw & Hi & Hs) ND. induction ND as [|y Y Hy ND IH]; intros HY.
  - exists []. split; [constructor|]. split; [|reflexivity]. intro x. cbn. tauto.
  - destruct IH as (X & NX & HX & HL); [intros z Hz; apply HY; right; exact Hz|].
    destruct (Hs y) as (x & Hx & E); [apply HY; left; reflexivity|].
    exists (x :: X). split; [|split; [|cbn; lia]].
    + constructor; [|exact NX]. intros H. apply HX in H. rewrite E in H. tauto.
    + intro z. cbn [In]. rewrite HX. split.
      * intros [<-|[Hz Hin]]; [split; [exact Hx|left; symmetry; exact E]|tauto].
      * intros [Hz [Ey|Hin]]; [left; apply Hi; auto; congruence|tauto].
Qed.

(* words whose bits k..k+m-1 are v *)
Lemma slice_list w k m v : k + m <= w -> is_word m v ->
  exists Y, NoDup Y /\ (forall y, In y Y <-> is_word w y /\ wrap m (N.shiftr y k) = v) /\
            N.of_nat (length Y) = 2 ^ (w - m).
Proof.
  intros Hk Hv. set (e := fun j => (j / 2 ^ k) * 2 ^ (k + m) + v * 2 ^ k + j mod 2 ^ k).
  pose proof (pow2_ne0 k) as Pk. pose proof (pow2_ne0 m) as Pm. pose proof (pow2_ne0 (w - m - k)) as Pr.
  assert (Ekm : 2 ^ (k + m) = 2 ^ k * 2 ^ m) by apply N.pow_add_r.
  assert (Ewm : 2 ^ (w - m) = 2 ^ k * 2 ^ (w - m - k)) by (rewrite <- N.pow_add_r; f_equal; lia).
  assert (Ew : 2 ^ w = 2 ^ k * 2 ^ m * 2 ^ (w - m - k)) by (rewrite <- !N.pow_add_r; f_equal; lia).
  assert (Hlow : forall j, e j mod 2 ^ k = j mod 2 ^ k).
  { intro j. unfold e. rewrite Ekm.
    replace (j / 2 ^ k * (2 ^ k * 2 ^ m) + v * 2 ^ k + j mod 2 ^ k)
      with (j mod 2 ^ k + (j / 2 ^ k * 2 ^ m + v) * 2 ^ k) by ring.
    rewrite N.mod_add by exact Pk. apply N.mod_mod, Pk. }
  assert (Hmid : forall j, e j / 2 ^ k = j / 2 ^ k * 2 ^ m + v).
  { intro j. unfold e. rewrite Ekm.
    replace (j / 2 ^ k * (2 ^ k * 2 ^ m) + v * 2 ^ k + j mod 2 ^ k)
      with (j mod 2 ^ k + (j / 2 ^ k * 2 ^ m + v) * 2 ^ k) by ring.
    rewrite N.div_add by exact Pk. rewrite N.div_small by (apply N.mod_lt, Pk). reflexivity. }
  assert (Hinj : forall a b, e a = e b -> a = b).
  { intros a b E. rewrite (N.div_mod' a (2 ^ k)), (N.div_mod' b (2 ^ k)).
    rewrite <- (Hlow a), <- (Hlow b), E. f_equal. f_equal.
    apply (N.mul_cancel_r _ _ (2 ^ m)); [exact Pm|]. apply (N.add_cancel_r _ _ v).
    rewrite <- !Hmid, E. reflexivity. }
  exists (map e (below_list (2 ^ (w - m)))). split; [|split].
  - apply nodup_map_on; [apply below_list_nodup|]. intros a b _ _. apply Hinj.
  - intro y. rewrite in_map_iff. unfold wrap, is_word. rewrite N.shiftr_div_pow2. split.
    + intros (j & <- & Hj). apply below_list_in in Hj. rewrite Hmid. split.
      * rewrite Ewm in Hj.
        assert (Hq : j / 2 ^ k < 2 ^ (w - m - k)) by (apply N.div_lt_upper_bound; [exact Pk|exact Hj]).
        assert (Hr : j mod 2 ^ k < 2 ^ k) by (apply N.mod_lt, Pk).
        unfold e. rewrite Ew, Ekm. unfold is_word in Hv.
        set (A := 2 ^ k) in *. set (B := 2 ^ m) in *. set (C := 2 ^ (w - m - k)) in *.
        set (q := j / A) in *. set (r := j mod A) in *. clearbody A B C q r. clear - Hv Hq Hr.
        assert (q * B + v < C * B) by nia. nia.
      * rewrite N.add_comm, N.mod_add by exact Pm. apply N.mod_small, Hv.
    + intros [Hy Ev]. exists ((y / 2 ^ (k + m)) * 2 ^ k + y mod 2 ^ k).
      assert (Hr : y mod 2 ^ k < 2 ^ k) by (apply N.mod_lt, Pk).
      assert (Hd : (y / 2 ^ (k + m) * 2 ^ k + y mod 2 ^ k) / 2 ^ k = y / 2 ^ (k + m)).
      { rewrite N.add_comm, N.div_add by exact Pk. rewrite N.div_small by exact Hr. lia. }
      assert (Hm : (y / 2 ^ (k + m) * 2 ^ k + y mod 2 ^ k) mod 2 ^ k = y mod 2 ^ k).
      { rewrite N.add_comm, N.mod_add by exact Pk. apply N.mod_mod, Pk. }
      assert (Hdd : y / 2 ^ (k + m) = y / 2 ^ k / 2 ^ m) by (rewrite Ekm, N.div_div by assumption; reflexivity).
      split.
      * unfold e. rewrite Hd, Hm, <- Ev, Ekm. rewrite <- Ekm, Hdd, Ekm.
        pose proof (N.div_mod' (y / 2 ^ k) (2 ^ m)) as D1. pose proof (N.div_mod' y (2 ^ k)) as D2.
        rewrite D2 at 4. rewrite D1 at 3. ring.
      * apply below_list_in. rewrite Ewm.
        assert (Hq : y / 2 ^ (k + m) < 2 ^ (w - m - k)).
        { apply N.div_lt_upper_bound; [apply pow2_ne0|]. rewrite Ekm, <- Ew. exact Hy. }
        set (A := 2 ^ k) in *. set (q := y / 2 ^ (k + m)) in *. set (r := y mod A) in *.
        set (C := 2 ^ (w - m - k)) in *. clearbody A q r C. clear - Hq Hr. nia.
  - rewrite map_length. apply below_list_length.
Qed.

Lemma slice_count w f k m v : word_bijection w f -> k + m <= w -> is_word m v ->
  exists X, NoDup X /\ (forall i, In i X <-> i < 2 ^ w /\ wrap m (N.shiftr (f i) k) = v) /\
            N.of_nat (length X) = 2 ^ (w - m).
Proof.
  intros Hf Hk Hv. destruct (slice_list w k m v Hk Hv) as (Y & NY & HY & LY).
  destruct (preimages w f Y Hf NY) as (X & NX & HX & LX); [intros y Hy; apply HY, Hy|].
  exists X. split; [exact NX|]. split; [|rewrite LX; exact LY].
  intro i. rewrite HX, HY. fold (is_word w i). destruct Hf as (Hw & _). split; [tauto|].
  intros [Hi E]. split; [exact Hi|]. split; [apply Hw, Hi|exact E].
Qed.
