(* From the maximal period of the states to the distribution and least period of the outputs of the 128-bit generators. *)
From Coq Require Import Znumtheory Permutation FinFun.
From Verif Require Import Base BitwiseModel BitwiseSpec BitwiseProofs WordLemmas PeriodProofs LinearProofs MixerProofs PrngModel PrngSpec PrngProofs FermatPrime Period128 Period128Gens.
Open Scope N_scope.

(* ---------- least period from two coprime counts ---------- *)
Lemma periodic_sub out p q : periodic p out -> periodic q out -> q <= p -> periodic (p - q) out.
Proof. intros P Q L i. rewrite <- (Q (i + (p - q))). replace (i + (p - q) + q) with (i + p) by lia. apply P. Qed.
Lemma periodic_gcd out : forall n p q, p + q <= n -> periodic p out -> periodic q out -> periodic (N.gcd p q) out.
Proof.
  intro n. induction n as [n IH] using (well_founded_induction N.lt_wf_0). intros p q L P Q.
  destruct (N.eq_dec p 0) as [->|P0]; [rewrite N.gcd_0_l; exact Q|]. destruct (N.eq_dec q 0) as [->|Q0]; [rewrite N.gcd_0_r; exact P|].
  destruct (N.le_gt_cases q p) as [C|C].
  - rewrite N.gcd_comm, <- (N.gcd_sub_diag_r q p) by lia. apply (IH (q + (p - q))); [lia|lia|exact Q|apply periodic_sub; assumption].
  - rewrite <- (N.gcd_sub_diag_r p q) by lia. apply (IH (p + (q - p))); [lia|lia|exact P|apply periodic_sub; [assumption|assumption|lia]].
Qed.
Definition cnt (out : N -> N) (v : N) (a : N) (n : nat) : nat := length (filter (fun i => out i =? v) (map (fun i => a + N.of_nat i) (seq 0 n))).
Lemma cnt_shift out v d a n : periodic d out -> cnt out v (a + d) n = cnt out v a n.
Proof.
  intro P. unfold cnt. generalize (seq 0 n). intro l. induction l as [|i l IH]; [reflexivity|]. cbn [map filter]. replace (a + d + N.of_nat i) with (a + N.of_nat i + d) by lia. rewrite P.
  destruct (out (a + N.of_nat i) =? v); cbn [length]; rewrite IH; reflexivity.
Qed.
Lemma seq_shift_map n : forall m s, map (fun i => (n + i)%nat) (seq s m) = seq (n + s) m.
Proof. induction m as [|m IH]; intro s; [reflexivity|]. cbn [seq map]. f_equal. rewrite IH. f_equal. lia. Qed.
Lemma cnt_app out v a n m : cnt out v a (n + m) = (cnt out v a n + cnt out v (a + N.of_nat n) m)%nat.
Proof.
  unfold cnt. rewrite seq_app, map_app, filter_app, app_length. f_equal. rewrite Nat.add_0_l. rewrite <- (Nat.add_0_r n) at 1. rewrite <- seq_shift_map, map_map.
  f_equal. f_equal. apply map_ext. intro i. lia.
Qed.
Lemma cnt_mul out v d m : periodic d out -> cnt out v 0 (m * N.to_nat d) = (m * cnt out v 0 (N.to_nat d))%nat.
Proof.
  intro P. induction m as [|m IH]; [reflexivity|]. cbn [Nat.mul]. rewrite cnt_app. f_equal. rewrite <- IH. rewrite N2Nat.id. apply cnt_shift, P.
Qed.
Lemma occurs_cnt n k out v : occurs n k out v -> cnt out v 0 (N.to_nat n) = N.to_nat k.
Proof.
  intros (occ & ND & I & L). rewrite <- L, Nat2N.id. unfold cnt. apply Permutation_length, NoDup_Permutation.
  - apply NoDup_filter. apply Injective_map_NoDup; [intros a b E; lia|apply seq_NoDup].
  - exact ND.
  - intro i. rewrite filter_In, in_map_iff, I, N.eqb_eq. split.
    + intros [(j & E & J) O]. apply in_seq in J. split; [lia|exact O].
    + intros [A B]. split; [|exact B]. exists (N.to_nat i). split; [lia|]. apply in_seq. lia.
Qed.
Lemma least_from_counts n k out v v' : 0 < n -> periodic n out -> occurs n (k - 1) out v -> occurs n k out v' -> 0 < k -> least_period n out.
Proof.
  intros Hn P O O' K. split; [exact P|]. intros p Q. pose proof (periodic_gcd out _ n p (N.le_refl _) P Q) as G. set (d := N.gcd n p) in *.
  destruct (N.gcd_divide_l n p) as (m & E). fold d in E. apply occurs_cnt in O, O'. rewrite E in O, O'. rewrite N2Nat.inj_mul in O, O'. rewrite cnt_mul in O, O' by exact G.
  assert (M : m = 1).
  { set (x := cnt out v 0 (N.to_nat d)) in *. set (y := cnt out v' 0 (N.to_nat d)) in *. assert (X : m * (N.of_nat y) = k) by lia. assert (Y : m * N.of_nat x = k - 1) by lia.
    assert (Z : m * (N.of_nat y - N.of_nat x) = 1) by (rewrite N.mul_sub_distr_l; lia). apply N.eq_mul_1 in Z. tauto. }
  subst m. rewrite N.mul_1_l in E. rewrite E. apply N.gcd_divide_r.
Qed.

(* ---------- lists of the states with a given output ---------- *)
Lemma pair_eqd (x y : N * N) : {x = y} + {x <> y}.
Proof. decide equality; apply N.eq_dec. Qed.
Lemma quad_eqd (x y : N * N * N * N) : {x = y} + {x <> y}.
Proof. decide equality; [apply N.eq_dec|]. decide equality; [apply N.eq_dec|]. apply pair_eqd. Qed.

Lemma pair_states (out : N * N -> N) v (k : N -> N) : (forall a, is_word 64 a -> is_word 64 (k a)) ->
  (forall a b, is_word 64 a -> is_word 64 b -> out (a, b) = v <-> b = k a) ->
  exists l, NoDup l /\ (forall s, In s l <-> words2 64 s /\ out s = v) /\ N.of_nat (length l) = 2 ^ 64.
Proof.
  intros K H. exists (map (fun a => (a, k a)) (below_list (2 ^ 64))). split; [|split].
  - apply Injective_map_NoDup; [intros a b E; injection E; intros; assumption|apply below_list_nodup].
  - intros [a b]. rewrite in_map_iff. split.
    + intros (x & E & I). rewrite below_list_in in I. injection E as <- <-. assert (W : is_word 64 x) by exact I. split; [split; [exact W|apply K, W]|]. apply H; auto.
    + intros [[Wa Wb] O]. cbn [fst snd] in *. exists a. split; [f_equal; symmetry; apply H; assumption|]. rewrite below_list_in. exact Wa.
  - rewrite map_length. apply below_list_length.
Qed.
Lemma nodup_app_intro {A} (l m : list A) : NoDup l -> NoDup m -> (forall x, In x l -> ~ In x m) -> NoDup (l ++ m).
Proof.
  induction 1 as [|a l I NL IH]; intros NM D; [exact NM|]. cbn [app]. constructor.
  - rewrite in_app_iff. intros [C|C]; [exact (I C)|]. apply (D a); [left; reflexivity|exact C].
  - apply IH; [exact NM|]. intros x X. apply D. right. exact X.
Qed.
Lemma list_prod_nodup {A B} (l : list A) (m : list B) : NoDup l -> NoDup m -> NoDup (list_prod l m).
Proof.
  intros NL NM. induction NL as [|a l I NL IH]; [constructor|]. cbn [list_prod]. apply nodup_app_intro; [|exact IH|].
  - apply Injective_map_NoDup; [intros x y E; injection E; intros; assumption|exact NM].
  - intros [x y] X C. apply in_map_iff in X. destruct X as (z & E & _). injection E as <- <-. apply in_prod_iff in C. apply I. tauto.
Qed.
Lemma quad_states (out : N * N * N * N -> N) v (k : N -> N) : (forall a, is_word 32 a -> is_word 32 (k a)) ->
  (forall a b c d, is_word 32 a -> is_word 32 d -> out (a, b, c, d) = v <-> d = k a) ->
  exists l, NoDup l /\ (forall s, In s l <-> words4 32 s /\ out s = v) /\ N.of_nat (length l) = 2 ^ 96.
Proof.
  intros K H. set (W := below_list (2 ^ 32)).
  exists (map (fun s => let '(a, b, c) := s in (a, b, c, k a)) (list_prod (list_prod W W) W)). split; [|split].
  - apply Injective_map_NoDup; [intros [[a b] c] [[a' b'] c'] E; injection E; intros; congruence|]. pose proof (below_list_nodup (2 ^ 32)). repeat apply list_prod_nodup; assumption.
  - intros [[[a b] c] d]. rewrite in_map_iff. split.
    + intros ([[x y] z] & E & I). rewrite !in_prod_iff in I. unfold W in I. rewrite !below_list_in in I. destruct I as [[Ix Iy] Iz]. injection E as <- <- <- <-.
      assert (Wx : is_word 32 x) by exact Ix. split; [unfold words4; repeat split; auto|]. apply H; auto.
    + intros [(Wa & Wb & Wc & Wd) O]. exists (a, b, c). split; [f_equal; symmetry; apply (H a b c d); assumption|]. rewrite !in_prod_iff. unfold W. rewrite !below_list_in. unfold is_word in *. tauto.
  - rewrite map_length, !prod_length, !Nat2N.inj_mul. unfold W. rewrite below_list_length. reflexivity.
Qed.
Lemma solve_add w a b v : is_word w b -> is_word w a -> is_word w v -> wrap w (a + b) = v <-> b = wrap w (v + (2 ^ w - a)).
Proof.
  intros Hb Ha Hv. unfold is_word, wrap in *. pose proof (pow2_pos w). generalize dependent (2 ^ w). intros m Hb Ha Hv Hm. split.
  - intros <-. rewrite N.add_mod_idemp_l by lia. replace (a + b + (m - a)) with (b + 1 * m) by lia. rewrite N.mod_add, N.mod_small by lia. reflexivity.
  - intros ->. rewrite N.add_mod_idemp_r by lia. replace (a + (v + (m - a))) with (v + 1 * m) by lia. rewrite N.mod_add, N.mod_small by lia. reflexivity.
Qed.

(* ---------- the generators ---------- *)
Lemma gen_cycle (g : gen) (eqd : forall x y : gst g, {x = y} + {x <> y}) (valid : gst g -> Prop) zero step sd :
  (forall s, snd (gnext g s) = step s) -> reversible valid step -> valid (ginit g sd) -> valid zero ->
  (forall s, valid s -> s <> zero -> (forall i, Nat.iter i step s <> zero) /\ Nat.iter (Pos.to_nat P128) step s = s /\
    (forall t, valid t -> t <> zero -> exists! i, i < N.pos P128 /\ Nat.iter (N.to_nat i) step s = t)) ->
  ginit g sd <> zero ->
  one_cycle (2 ^ 128 - 1) valid zero (state_at g sd) /\ periodic (2 ^ 128 - 1) (output g sd) /\
  forall v l, NoDup l -> (forall s, In s l <-> valid s /\ fst (gnext g s) = v) ->
    occurs (2 ^ 128 - 1) (N.of_nat (length l) - (if fst (gnext g zero) =? v then 1 else 0)) (output g sd) v.
Proof.
  intros Hs (Rv & _ & _) V VZ M NZ. assert (ST : forall i, state_at g sd i = Nat.iter (N.to_nat i) step (ginit g sd)).
  { intro i. unfold state_at. generalize (N.to_nat i). intro n. induction n as [|n IH]; [reflexivity|]. cbn [Nat.iter nat_rect]. change (snd (gnext g (Nat.iter n (fun s => snd (gnext g s)) (ginit g sd))) = step (Nat.iter n step (ginit g sd))). rewrite IH. apply Hs. }
  change (2 ^ 128 - 1) with (N.pos P128). pose proof (M _ V NZ) as (Q1 & Q2 & Q3).
  assert (A1 : forall i, valid (state_at g sd i)) by (intro i; rewrite ST; generalize (N.to_nat i); intro n; induction n as [|n IH]; [exact V|apply Rv, IH]).
  assert (A2 : forall i, state_at g sd i <> zero) by (intro i; rewrite ST; apply Q1).
  assert (A3 : forall i, state_at g sd (i + N.pos P128) = state_at g sd i).
  { intro i. rewrite !ST, N2Nat.inj_add, iter_add. f_equal. exact Q2. }
  assert (A4 : forall t, valid t -> t <> zero -> exists! i, i < N.pos P128 /\ state_at g sd i = t).
  { intros t Vt Nt. destruct (Q3 t Vt Nt) as (i & [Li Ei] & U). exists i. split; [split; [exact Li|rewrite ST; exact Ei]|]. intros j [Lj Ej]. apply U. split; [exact Lj|rewrite <- ST; exact Ej]. }
  assert (A5 : 0 < N.pos P128) by reflexivity.
  split; [split; [intros i j; exact (st_eq eqd valid zero (state_at g sd) (N.pos P128) A1 A2 A3 A4 A5 i j)|exact A4]|].
  split; [intro i; unfold output; rewrite A3; reflexivity|].
  intros v l ND I. destruct (occurrences eqd valid zero (state_at g sd) (N.pos P128) A1 A2 A3 A4 A5 (fun s => fst (gnext g s)) v l ND I VZ) as (occ & O1 & O2 & O3). exists occ. split; [exact O1|]. split; [exact O2|exact O3].
Qed.

Definition max_step2 step p cert (rev : reversible (words2 64) step) (lin : forall s t, words2 64 s -> words2 64 t -> step (lx2 s t) = lx2 (step s) (step t))
  (ok : orbit_cert 128 p (F2 step) P128 cert = true) primes prod :=
  maximal (words2 64) (0, 0) step e2 (F2 step) 128 p cert P128 (proj1 rev) e2_word
    (fun s t Hs Ht E => eq_trans (eq_sym (d2_e2 s Hs)) (eq_trans (f_equal d2 E) (d2_e2 t Ht)))
    (fun x Hx => ex_intro _ (d2 x) (conj (d2_word x) (e2_d2 x Hx))) (conj (word_0 64) (word_0 64)) eq_refl
    (fun s Hs => f_equal (fun z => e2 (step z)) (d2_e2 s Hs)) (F2_lin step lin) ok primes prod eq_refl.
Definition max_step4 step p cert (rev : reversible (words4 32) step) (lin : forall s t, words4 32 s -> words4 32 t -> step (lx4 s t) = lx4 (step s) (step t))
  (ok : orbit_cert 128 p (F4 step) P128 cert = true) primes prod :=
  maximal (words4 32) (0, 0, 0, 0) step e4 (F4 step) 128 p cert P128 (proj1 rev) e4_word
    (fun s t Hs Ht E => eq_trans (eq_sym (d4_e4 s Hs)) (eq_trans (f_equal d4 E) (d4_e4 t Ht)))
    (fun x Hx => ex_intro _ (d4 x) (conj (d4_word x) (e4_d4 x Hx))) (conj (word_0 32) (conj (word_0 32) (conj (word_0 32) (word_0 32)))) eq_refl
    (fun s Hs => f_equal (fun z => e4 (step z)) (d4_e4 s Hs)) (F4_lin step lin) ok primes prod eq_refl.
Definition xorshift128_max := max_step2 xorshift128_step _ _ xorshift128_reversible xorshift128_lin cert_xorshift_ok primes_xorshift eq_refl.
Definition xoroshiro128_max := max_step2 xoroshiro128_step _ _ xoroshiro128_reversible xoroshiro128_lin cert_xoroshiro_ok primes_xoroshiro eq_refl.
Definition xoshiro128_max := max_step4 xoshiro128_step _ _ xoshiro128_reversible xoshiro128_lin cert_xoshiro_ok primes_xoshiro eq_refl.

(* [k] occurrences of each value, one less for zero *)
Definition all_but_zero (w k : N) (out : N -> N) : Prop :=
  forall v, is_word w v -> occurs (2 ^ 128 - 1) (if v =? 0 then k - 1 else k) out v.
Lemma least_of_all w k out : 0 < k -> 0 < w -> periodic (2 ^ 128 - 1) out -> all_but_zero w k out -> least_period (2 ^ 128 - 1) out.
Proof.
  intros K W P A. apply (least_from_counts _ k _ 0 1); [reflexivity|exact P| | |exact K].
  - apply (A 0), word_0.
  - apply (A 1). unfold is_word. apply N.pow_gt_1; lia.
Qed.

Definition plus_cycle {S} (valid : S -> Prop) (zero : S) (st : N -> S) (w k : N) (out : N -> N) : Prop :=
  one_cycle (2 ^ 128 - 1) valid zero st /\ all_but_zero w k out /\ least_period (2 ^ 128 - 1) out.

Lemma xorshift128plus_max sd : valid_seed sd -> (s64 sd 0, s64 sd 1) <> (0, 0) ->
  plus_cycle (words2 64) (0, 0) (state_at rng64_xorshift128plus sd) 64 (2 ^ 64) (output rng64_xorshift128plus sd).
Proof.
  intros H NZ. destruct (gen_cycle rng64_xorshift128plus pair_eqd (words2 64) (0, 0) xorshift128_step sd (fun s => eq_refl) xorshift128_reversible (conj (H 0%nat) (H 1%nat)) (conj (word_0 64) (word_0 64)) xorshift128_max NZ) as (A & B & C).
  assert (D : all_but_zero 64 (2 ^ 64) (output rng64_xorshift128plus sd)).
  { intros v Hv. destruct (pair_states (fun s => wrap 64 (snd s + fst s)) v (fun a => wrap 64 (v + (2 ^ 64 - a)))) as (l & L1 & L2 & L3).
    - intros. apply wrap_word.
    - intros a b Ha Hb. cbn [fst snd]. rewrite N.add_comm. apply solve_add; assumption.
    - specialize (C v l L1 L2). change (N.of_nat (@length (gst rng64_xorshift128plus) l) =  2 ^ 64) in L3. rewrite L3 in C. change (fst (gnext rng64_xorshift128plus (0, 0))) with 0 in C. rewrite N.eqb_sym in C. destruct (v =? 0); exact C. }
  split; [exact A|]. split; [exact D|]. apply (least_of_all 64 (2 ^ 64)); [reflexivity|reflexivity|exact B|exact D].
Qed.
Lemma xoroshiro128plus_max sd : valid_seed sd -> (s64 sd 0, s64 sd 1) <> (0, 0) ->
  plus_cycle (words2 64) (0, 0) (state_at rng64_xoroshiro128plus sd) 64 (2 ^ 64) (output rng64_xoroshiro128plus sd).
Proof.
  intros H NZ. destruct (gen_cycle rng64_xoroshiro128plus pair_eqd (words2 64) (0, 0) xoroshiro128_step sd (fun s => eq_refl) xoroshiro128_reversible (conj (H 0%nat) (H 1%nat)) (conj (word_0 64) (word_0 64)) xoroshiro128_max NZ) as (A & B & C).
  assert (D : all_but_zero 64 (2 ^ 64) (output rng64_xoroshiro128plus sd)).
  { intros v Hv. destruct (pair_states (fun s => wrap 64 (fst s + snd s)) v (fun a => wrap 64 (v + (2 ^ 64 - a)))) as (l & L1 & L2 & L3).
    - intros. apply wrap_word.
    - intros a b Ha Hb. cbn [fst snd]. apply solve_add; assumption.
    - specialize (C v l L1 L2). change (N.of_nat (@length (gst rng64_xoroshiro128plus) l) =  2 ^ 64) in L3. rewrite L3 in C. change (fst (gnext rng64_xoroshiro128plus (0, 0))) with 0 in C. rewrite N.eqb_sym in C. destruct (v =? 0); exact C. }
  split; [exact A|]. split; [exact D|]. apply (least_of_all 64 (2 ^ 64)); [reflexivity|reflexivity|exact B|exact D].
Qed.
Lemma quad_valid sd : words4 32 (quad sd).
Proof. unfold quad, words4, s32. repeat split; apply wrap_word. Qed.
Lemma quad_zero : words4 32 (0, 0, 0, 0).
Proof. unfold words4. repeat split; apply word_0. Qed.
Lemma xoshiro128plus_max sd : (s32 sd 0, s32 sd 1, s32 sd 2, s32 sd 3) <> (0, 0, 0, 0) ->
  plus_cycle (words4 32) (0, 0, 0, 0) (state_at rng32_xoshiro128plus sd) 32 (2 ^ 96) (output rng32_xoshiro128plus sd).
Proof.
  intros NZ. assert (E : forall s, snd (gnext rng32_xoshiro128plus s) = xoshiro128_step s) by (intros [[[a b] c] d]; reflexivity).
  destruct (gen_cycle rng32_xoshiro128plus quad_eqd (words4 32) (0, 0, 0, 0) xoshiro128_step sd E xoshiro128_reversible (quad_valid sd) quad_zero xoshiro128_max NZ) as (A & B & C).
  assert (D : all_but_zero 32 (2 ^ 96) (output rng32_xoshiro128plus sd)).
  { intros v Hv. destruct (quad_states (fun s => fst (gnext rng32_xoshiro128plus s)) v (fun a => wrap 32 (v + (2 ^ 32 - a)))) as (l & L1 & L2 & L3).
    - intros. apply wrap_word.
    - intros a b c d Ha Hd. cbn [gnext rng32_xoshiro128plus fst]. apply solve_add; assumption.
    - specialize (C v l L1 L2). change (N.of_nat (@length (gst rng32_xoshiro128plus) l) =  2 ^ 96) in L3. rewrite L3 in C. change (fst (gnext rng32_xoshiro128plus (0, 0, 0, 0))) with 0 in C. rewrite N.eqb_sym in C. destruct (v =? 0); exact C. }
  split; [exact A|]. split; [exact D|]. apply (least_of_all 32 (2 ^ 96)); [reflexivity|reflexivity|exact B|exact D].
Qed.
Lemma xoshiro128plusplus_max sd : (s32 sd 0, s32 sd 1, s32 sd 2, s32 sd 3) <> (0, 0, 0, 0) ->
  plus_cycle (words4 32) (0, 0, 0, 0) (state_at rng32_xoshiro128plusplus sd) 32 (2 ^ 96) (output rng32_xoshiro128plusplus sd).
Proof.
  intros NZ. assert (E : forall s, snd (gnext rng32_xoshiro128plusplus s) = xoshiro128_step s) by (intros [[[a b] c] d]; reflexivity).
  destruct (gen_cycle rng32_xoshiro128plusplus quad_eqd (words4 32) (0, 0, 0, 0) xoshiro128_step sd E xoshiro128_reversible (quad_valid sd) quad_zero xoshiro128_max NZ) as (A & B & C).
  assert (D : all_but_zero 32 (2 ^ 96) (output rng32_xoshiro128plusplus sd)).
  { intros v Hv. destruct (quad_states (fun s => fst (gnext rng32_xoshiro128plusplus s)) v (fun a => wrap 32 (ror 32 (wrap 32 (v + (2 ^ 32 - a))) 7 + (2 ^ 32 - a)))) as (l & L1 & L2 & L3).
    - intros. apply wrap_word.
    - intros a b c d Ha Hd. cbn [gnext rng32_xoshiro128plusplus fst]. assert (W : is_word 32 (wrap 32 (a + d))) by apply wrap_word. assert (R : is_word 32 (rol 32 (wrap 32 (a + d)) 7)) by (apply rol_word; [reflexivity|exact W]).
      rewrite (N.add_comm (rol _ _ _)). rewrite (solve_add 32 a _ v R Ha Hv). assert (U : is_word 32 (wrap 32 (v + (2 ^ 32 - a)))) by apply wrap_word. generalize dependent (wrap 32 (v + (2 ^ 32 - a))). intros u U.
      assert (Y : is_word 32 (ror 32 u 7)) by (rewrite ror_rol_neg; apply rol_word; [reflexivity|exact U]).
      rewrite <- (solve_add 32 a d (ror 32 u 7) Hd Ha Y). split; [intros <-; symmetry; apply ror_rol_id; [reflexivity|exact W]|intros ->; apply rol_ror_id; [reflexivity|exact U]].
    - specialize (C v l L1 L2). change (N.of_nat (@length (gst rng32_xoshiro128plusplus) l) =  2 ^ 96) in L3. rewrite L3 in C. change (fst (gnext rng32_xoshiro128plusplus (0, 0, 0, 0))) with 0 in C. rewrite N.eqb_sym in C. destruct (v =? 0); exact C. }
  split; [exact A|]. split; [exact D|]. apply (least_of_all 32 (2 ^ 96)); [reflexivity|reflexivity|exact B|exact D].
Qed.
