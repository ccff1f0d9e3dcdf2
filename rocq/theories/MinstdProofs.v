(* minstd_rand: full period. *)
From Coq Require Import ZArith Znumtheory Zpow_facts Lia.
From Verif Require Import Base WordLemmas StreamModel PrngModel PrngSpec PrngProofs PeriodProofs LinearProofs EngineModel.
Open Scope N_scope.

Lemma coprime_am : rel_prime 2147483647 48271.
Proof. apply Zgcd_1_rel_prime. vm_compute. reflexivity. Qed.
Definition minstd_ok (x : N) : Prop := 0 < x < minstd_m.
Definition minstd_qs : list Z := [2; 3; 3; 7; 11; 31; 151; 331]%Z.
Lemma primes_qs : Forall prime minstd_qs.
Proof.
  repeat (apply Forall_cons; [|]); try apply Forall_nil; try apply prime_2; try apply prime_3.
  - apply (prime_trial 7 2); [lia|lia|lia|reflexivity].
  - apply (prime_trial 11 3); [lia|lia|lia|reflexivity].
  - apply (prime_trial 31 5); [lia|lia|lia|reflexivity].
  - apply (prime_trial 151 12); [lia|lia|lia|reflexivity].
  - apply (prime_trial 331 18); [lia|lia|lia|reflexivity].
Qed.
Lemma step_Z x : Z.of_N (minstd_step x) = ((48271 * Z.of_N x) mod 2147483647)%Z.
Proof. unfold minstd_step. rewrite N2Z.inj_mod, N2Z.inj_mul. reflexivity. Qed.
Lemma step_ok x : minstd_ok x -> minstd_ok (minstd_step x).
Proof.
  intros H. unfold minstd_ok, minstd_m in *. pose proof (step_Z x) as E.
  assert (B : (0 <= (48271 * Z.of_N x) mod 2147483647 < 2147483647)%Z) by (apply Z.mod_pos_bound; lia).
  assert (N0 : ((48271 * Z.of_N x) mod 2147483647 <> 0)%Z).
  { intro C. apply Z.mod_divide in C; [|lia]. apply Gauss in C; [|exact coprime_am]. apply Z.divide_pos_le in C; lia. }
  lia.
Qed.
Lemma step_inj x y : minstd_ok x -> minstd_ok y -> minstd_step x = minstd_step y -> x = y.
Proof.
  intros Hx Hy E. unfold minstd_ok, minstd_m in *. apply (f_equal Z.of_N) in E. rewrite !step_Z in E.
  assert (D : (2147483647 | 48271 * (Z.of_N x - Z.of_N y))%Z).
  { apply Z.mod_divide; [lia|]. rewrite Z.mul_sub_distr_l, Zminus_mod, E, Z.sub_diag. reflexivity. }
  apply Gauss in D; [|exact coprime_am].
  destruct D as [k Hk]. assert (k = 0%Z) by lia. subst k. lia.
Qed.
Lemma iter_Z n x : Z.of_N (Nat.iter n minstd_step x) = if Nat.eqb n 0 then Z.of_N x else ((48271 ^ Z.of_nat n * Z.of_N x) mod 2147483647)%Z.
Proof.
  induction n as [|n IH]; [reflexivity|]. rewrite iter_S, step_Z, IH. cbn [Nat.eqb]. rewrite Nat2Z.inj_succ, Z.pow_succ_r by lia.
  destruct n as [|n]; [reflexivity|]. cbn [Nat.eqb]. rewrite Zmult_mod_idemp_r. f_equal. ring.
Qed.
Lemma iter_pow n x : minstd_ok x -> Z.of_N (Nat.iter n minstd_step x) = ((48271 ^ Z.of_nat n * Z.of_N x) mod 2147483647)%Z.
Proof.
  intros H. rewrite iter_Z. destruct n as [|n]; [|reflexivity]. cbn [Nat.eqb]. change (Z.of_nat 0) with 0%Z. rewrite Z.pow_0_r, Z.mul_1_l.
  symmetry. apply Z.mod_small. unfold minstd_ok, minstd_m in H. lia.
Qed.
Lemma minstd_ret x : minstd_ok x -> Nat.iter (Z.to_nat 2147483646) minstd_step x = x.
Proof.
  intros H. apply N2Z.inj. rewrite iter_pow, Z2Nat.id by (exact H || lia). rewrite <- Zmult_mod_idemp_l.
  rewrite <- Zpow_mod_correct by lia. replace (Zpow_mod 48271 2147483646 2147483647) with 1%Z by (vm_compute; reflexivity). rewrite Z.mul_1_l.
  apply Z.mod_small. unfold minstd_ok, minstd_m in H. lia.
Qed.
Lemma qs_orders : forallb (fun q => negb (Zpow_mod 48271 (2147483646 / q) 2147483647 =? 1)%Z) minstd_qs = true.
Proof. vm_compute. reflexivity. Qed.
Lemma minstd_no q : In q minstd_qs -> Nat.iter (Z.to_nat (2147483646 / q)) minstd_step 1 <> 1.
Proof.
  intros Hq E. apply (f_equal Z.of_N) in E. rewrite iter_pow in E by (split; reflexivity).
  assert (P : (0 <= 2147483646 / q)%Z) by (cbn in Hq; apply Z.div_pos; lia). rewrite Z2Nat.id in E by exact P. rewrite Z.mul_1_r in E.
  pose proof qs_orders as O. rewrite forallb_forall in O. specialize (O q Hq). apply Bool.negb_true_iff, Z.eqb_neq in O. apply O. clear O.
  rewrite Zpow_mod_correct by lia. exact E.
Qed.
Definition in_orbit (x : N) : Prop := exists k, x = Nat.iter k minstd_step 1.
Lemma orbit_ok x : in_orbit x -> minstd_ok x.
Proof. intros [k ->]. apply (iter_valid minstd_ok minstd_step step_ok). split; reflexivity. Qed.
Lemma orbit_return d : Nat.iter d minstd_step 1 = 1 -> (2147483646 | Z.of_nat d)%Z.
Proof.
  apply (period_divides in_orbit 0 minstd_step 2147483646 minstd_qs); try lia.
  - exact primes_qs.
  - reflexivity.
  - intros x H. apply minstd_ret, orbit_ok, H.
  - intros q x Hq [k ->] E. exfalso. apply (minstd_no q Hq). apply (iter_inj minstd_ok minstd_step step_ok step_inj k); [apply (iter_valid minstd_ok minstd_step step_ok); split; reflexivity|split; reflexivity|].
    rewrite <- !iter_add, Nat.add_comm, iter_add. exact E.
  - exists O. reflexivity.
Qed.
Lemma seed_ok s : minstd_ok (minstd_seed s).
Proof.
  unfold minstd_seed, minstd_ok. pose proof (N.mod_lt s minstd_m ltac:(discriminate)) as L. destruct (N.eqb_spec (s mod minstd_m) 0) as [E|E]; [split; reflexivity|lia].
Qed.
(* every value from 1 to 2^31-2 exactly once in 2^31-2 calls *)
Lemma minstd_orbit_of x : minstd_ok x -> (forall d, Nat.iter d minstd_step x = x -> (2147483646 | Z.of_nat d)%Z) -> (forall i, minstd_ok (Nat.iter i minstd_step x)) /\
  (forall v, minstd_ok v -> exists! i, i < 2147483646 /\ Nat.iter (N.to_nat i) minstd_step x = v).
Proof.
  intros Hx Hd. assert (V : forall i, minstd_ok (Nat.iter i minstd_step x)) by (intro i; apply (iter_valid minstd_ok minstd_step step_ok), Hx).
  split; [exact V|]. intros v Hv.
  assert (Hlt : forall i j, i < j -> j < 2147483646 -> Nat.iter (N.to_nat i) minstd_step x <> Nat.iter (N.to_nat j) minstd_step x).
  { intros i j Hij Hj E. apply (iter_cancel minstd_ok minstd_step step_ok step_inj) in E; [|exact Hx|lia]. apply Hd in E. apply Z.divide_pos_le in E; lia. }
  assert (Hinj : forall i j, i < 2147483646 -> j < 2147483646 -> Nat.iter (N.to_nat i) minstd_step x = Nat.iter (N.to_nat j) minstd_step x -> i = j).
  { intros i j Hi' Hj' E. destruct (N.lt_trichotomy i j) as [H|[H|H]]; [|exact H|]; exfalso; [exact (Hlt i j H Hj' E)|exact (Hlt j i H Hi' (eq_sym E))]. }
  assert (M : In v (map (fun i => Nat.iter (N.to_nat i) minstd_step x) (below_list 2147483646))).
  { assert (I : incl (map (fun i => i + 1) (below_list 2147483646)) (map (fun i => Nat.iter (N.to_nat i) minstd_step x) (below_list 2147483646))).
    { apply NoDup_length_incl.
      - apply nodup_map_on; [apply below_list_nodup|]. intros i j Hi Hj. apply below_list_in in Hi, Hj. apply Hinj; assumption.
      - rewrite !map_length. apply le_n.
      - intros u Hu. apply in_map_iff in Hu. destruct Hu as (i & <- & Hi). apply in_map_iff. exists (Nat.iter (N.to_nat i) minstd_step x - 1). pose proof (V (N.to_nat i)) as B. unfold minstd_ok, minstd_m in B. split; [lia|]. apply below_list_in. lia. }
    apply I. apply in_map_iff. exists (v - 1). unfold minstd_ok, minstd_m in Hv. split; [lia|]. apply below_list_in. lia. }
  apply in_map_iff in M. destruct M as (i & E & Hi). apply below_list_in in Hi. exists i. split; [split; assumption|]. intros j [Hj Ej]. apply Hinj; [exact Hi|exact Hj|congruence].
Qed.

Lemma all_in_orbit x : minstd_ok x -> in_orbit x.
Proof.
  intros H. destruct (minstd_orbit_of 1 ltac:(split; reflexivity) orbit_return) as [_ O]. destruct (O x H) as (i & [_ E] & _). exists (N.to_nat i). symmetry. exact E.
Qed.
Lemma minstd_return x d : minstd_ok x -> Nat.iter d minstd_step x = x -> (2147483646 | Z.of_nat d)%Z.
Proof.
  intros H E. destruct (all_in_orbit x H) as [k ->]. apply orbit_return. apply (iter_inj minstd_ok minstd_step step_ok step_inj k); [apply (iter_valid minstd_ok minstd_step step_ok); split; reflexivity|split; reflexivity|].
  rewrite <- !iter_add, Nat.add_comm, iter_add. exact E.
Qed.
Lemma minstd_orbit x : minstd_ok x -> (forall i, minstd_ok (Nat.iter i minstd_step x)) /\
  (forall v, minstd_ok v -> exists! i, i < 2147483646 /\ Nat.iter (N.to_nat i) minstd_step x = v).
Proof. intros H. apply minstd_orbit_of; [exact H|]. intros d. apply minstd_return, H. Qed.
Lemma minstd_gen sd : let out := output rng32_minstd_rand sd in (forall i, 0 < out i < 2147483647) /\ least_period 2147483646 out /\
  (forall v, 0 < v < 2147483647 -> exists! i, i < 2147483646 /\ out i = v).
Proof.
  intros out. assert (S1 : minstd_ok (minstd_step (minstd_seed (s32 sd 0)))) by apply step_ok, seed_ok.
  assert (O : forall i, out i = Nat.iter (N.to_nat i) minstd_step (minstd_step (minstd_seed (s32 sd 0)))) by (intro i; apply (xorshift_output minstd_step (fun sd => minstd_seed (s32 sd 0)))).
  destruct (minstd_orbit _ S1) as [A B]. split; [intro i; rewrite O; apply A|]. split; [split|].
  - intro i. rewrite !O, N2Nat.inj_add, iter_add. apply (f_equal (Nat.iter (N.to_nat i) minstd_step)). assert (Q : N.to_nat 2147483646 = Z.to_nat 2147483646) by (rewrite <- (Z_N_nat 2147483646); apply (f_equal N.to_nat); reflexivity). rewrite Q. apply minstd_ret, S1.
  - intros p Hp. specialize (Hp 0). rewrite !O in Hp. rewrite N.add_0_l in Hp. apply minstd_return in Hp; [|exact S1]. rewrite N_nat_Z in Hp. destruct Hp as [k Hk]. exists (Z.to_N k). lia.
  - intros v Hv. destruct (B v Hv) as (i & [Hi E] & U). exists i. split; [split; [exact Hi|rewrite O; exact E]|]. intros j [Hj Ej]. apply U. split; [exact Hj|]. rewrite <- O. exact Ej.
Qed.
