(* The largest prime factor of 2^128 - 1. *)
From Coq Require Import ZArith Znumtheory Lia List.
From Verif Require Import FermatProofs.
Open Scope Z_scope.

Lemma fermat_Z p : prime p -> p <> 2 -> (p | 2 ^ (p - 1) - 1).
Proof.
  intros H N2. assert (G1 : 1 < p) by (destruct H; assumption). destruct (fermat2 (Z.to_nat p)) as (k & E); [rewrite Z2Nat.id by lia; exact H|].
  assert (D : (p | 2 * (2 ^ (p - 1) - 1))).
  { exists (Z.of_nat k). apply (f_equal Z.of_nat) in E. rewrite Nat2Z.inj_add, Nat2Z.inj_mul, Nat2Z.inj_pow, Z2Nat.id in E by lia. change (Z.of_nat 2) with 2 in E.
    replace p with (Z.succ (p - 1)) in E at 1 by lia. rewrite Z.pow_succ_r in E by lia. lia. }
  destruct (prime_mult p H _ _ D) as [A|A]; [|exact A]. apply Z.divide_pos_le in A; lia.
Qed.
Lemma pow_divides a b p : 0 <= a -> 0 <= b -> (p | 2 ^ a - 1) -> (p | 2 ^ (a * b) - 1).
Proof.
  intros Ha Hb D. revert b Hb. apply natlike_ind; [|intros x Hx IH].
  - rewrite Z.mul_0_r. change (2 ^ 0 - 1) with 0. apply Z.divide_0_r.
  - replace (a * Z.succ x) with (a + a * x) by lia. rewrite Z.pow_add_r by nia. replace (2 ^ a * 2 ^ (a * x) - 1) with ((2 ^ a - 1) * 2 ^ (a * x) + (2 ^ (a * x) - 1)) by lia.
    apply Z.divide_add_r; [apply Z.divide_mul_l, D|exact IH].
Qed.
Lemma gcd_divides p : forall n a b, 0 <= a -> 0 <= b -> a + b <= n -> (p | 2 ^ a - 1) -> (p | 2 ^ b - 1) -> rel_prime 2 p -> (p | 2 ^ Z.gcd a b - 1).
Proof.
  intros n a b. remember (Z.to_nat n) as m eqn:Em. revert n a b Em. induction m as [m IH] using lt_wf_ind. intros n a b Em Ha Hb Hn Da Db R.
  assert (SB : forall a b, 0 <= a -> 0 < b -> b <= a -> (p | 2 ^ a - 1) -> (p | 2 ^ b - 1) -> (p | 2 ^ (a - b) - 1)).
  { clear - R. intros a b Ha Hb L Da Db. assert (D : (p | 2 ^ b * (2 ^ (a - b) - 1))).
    { rewrite Z.mul_sub_distr_l, <- Z.pow_add_r by lia. replace (b + (a - b)) with a by lia. rewrite Z.mul_1_r. replace (2 ^ a - 2 ^ b) with ((2 ^ a - 1) - (2 ^ b - 1)) by lia. apply Z.divide_sub_r; assumption. }
    apply Gauss with (2 ^ b); [exact D|]. assert (Hb' : 0 <= b) by lia. clear - R Hb'. revert b Hb'. apply natlike_ind; [apply rel_prime_sym, rel_prime_1|]. intros x Hx IH. rewrite Z.pow_succ_r by exact Hx. apply rel_prime_mult; [apply rel_prime_sym; exact R|exact IH]. }
  destruct (Z.eq_dec a 0) as [->|A0]; [rewrite Z.gcd_0_l, Z.abs_eq by lia; exact Db|]. destruct (Z.eq_dec b 0) as [->|B0]; [rewrite Z.gcd_0_r, Z.abs_eq by lia; exact Da|].
  destruct (Z.le_gt_cases b a) as [L|L].
  - rewrite Z.gcd_comm, <- (Z.gcd_sub_diag_r b a), Z.gcd_comm. apply (IH (Z.to_nat a)) with (n := a); try lia; [apply SB; lia || assumption|assumption|assumption].
  - rewrite <- (Z.gcd_sub_diag_r a b). apply (IH (Z.to_nat b)) with (n := b); try lia; [assumption|apply SB; lia || assumption|assumption].
Qed.
(* A prime that divides 2^64 + 1 is 1 modulo 128. *)
Lemma fermat_factor p : prime p -> (p | 2 ^ 64 + 1) -> (128 | p - 1).
Proof.
  intros H D. assert (G1 : 1 < p) by (destruct H; assumption).
  assert (P2 : p <> 2). { intros ->. destruct D as [k E]. assert (X : (2 * k) mod 2 = (2 ^ 64 + 1) mod 2) by (f_equal; lia). rewrite Z.mul_comm, Z.mod_mul in X by lia. vm_compute in X. discriminate X. }
  pose proof (fermat_Z p H P2) as F.
  assert (D128 : (p | 2 ^ 128 - 1)). { destruct D as [k E]. exists (k * (2 ^ 64 - 1)). transitivity ((2 ^ 64 + 1) * (2 ^ 64 - 1)); [reflexivity|]. rewrite E. ring. }
  assert (R : rel_prime 2 p). { apply rel_prime_sym, prime_rel_prime; [exact H|]. intro C. apply Z.divide_pos_le in C; lia. }
  pose proof (gcd_divides p (128 + (p - 1)) 128 (p - 1) ltac:(lia) ltac:(lia) ltac:(lia) D128 F R) as G.
  set (g := Z.gcd 128 (p - 1)) in *. assert (G128 : (g | 128)) by apply Z.gcd_divide_l. assert (GP : (g | p - 1)) by apply Z.gcd_divide_r.
  destruct (Z.eq_dec g 128) as [E|E]; [rewrite <- E; exact GP|]. exfalso.
  assert (G0 : 0 < g) by (pose proof (Z.gcd_nonneg 128 (p - 1)) as GN; change (0 <= g) in GN; destruct G128 as [k K]; destruct (Z.eq_dec g 0) as [Z0|]; [rewrite Z0, Z.mul_0_r in K; discriminate K|lia]).
  assert (G64 : (g | 64)).
  { pose proof (Z.divide_pos_le g 128 ltac:(lia) G128) as L. assert (X : forall x, In x (map Z.of_nat (seq 1 127)) -> (128 mod x =? 0) = true -> (64 mod x =? 0) = true).
    { assert (Y : forallb (fun x => implb (128 mod x =? 0) (64 mod x =? 0)) (map Z.of_nat (seq 1 127)) = true) by (vm_compute; reflexivity). intros x Hx Ex. rewrite forallb_forall in Y. specialize (Y x Hx). rewrite Ex in Y. exact Y. }
    apply Z.mod_divide; [lia|]. apply Z.eqb_eq, X; [apply in_map_iff; exists (Z.to_nat g); split; [lia|apply in_seq; lia]|]. apply Z.eqb_eq, Z.mod_divide; [lia|exact G128]. }
  destruct G64 as [k K]. assert (D64 : (p | 2 ^ 64 - 1)). { rewrite K, Z.mul_comm. apply pow_divides; [lia|nia|exact G]. }
  assert (X : (p | 2)). { replace 2 with ((2 ^ 64 + 1) - (2 ^ 64 - 1)) by reflexivity. apply Z.divide_sub_r; assumption. }
  apply Z.divide_pos_le in X; lia.
Qed.
Fixpoint trial128 (n d : Z) (k : positive) : bool :=
  match k with
  | xH => negb (n mod d =? 0)
  | xO k => trial128 n d k && trial128 n (d + 128 * Zpos k) k
  | xI k => negb (n mod d =? 0) && trial128 n (d + 128) k && trial128 n (d + 128 + 128 * Zpos k) k
  end.
Lemma trial128_ok n k : forall d, trial128 n d k = true -> forall i, 0 <= i < Zpos k -> n mod (d + 128 * i) <> 0.
Proof.
  induction k as [k IH|k IH|]; intros d H i Hi; cbn [trial128] in H.
  - apply andb_prop in H. destruct H as [H H3]. apply andb_prop in H. destruct H as [H1 H2]. destruct (Z.eq_dec i 0) as [->|I0].
    + rewrite Z.mul_0_r, Z.add_0_r. intro E. rewrite E in H1. discriminate H1.
    + destruct (Z.lt_ge_cases (i - 1) (Zpos k)) as [L|L].
      * replace (d + 128 * i) with (d + 128 + 128 * (i - 1)) by lia. apply IH; [exact H2|lia].
      * replace (d + 128 * i) with (d + 128 + 128 * Zpos k + 128 * (i - 1 - Zpos k)) by lia. apply IH; [exact H3|lia].
  - apply andb_prop in H. destruct H as [H2 H3]. destruct (Z.lt_ge_cases i (Zpos k)) as [L|L].
    + apply IH; [exact H2|lia].
    + replace (d + 128 * i) with (d + 128 * Zpos k + 128 * (i - Zpos k)) by lia. apply IH; [exact H3|lia].
  - replace i with 0 by lia. rewrite Z.mul_0_r, Z.add_0_r. intro E. rewrite E in H. discriminate H.
Qed.
Lemma trial_done : trial128 67280421310721 129 64082 = true.
Proof. vm_cast_no_check (eq_refl true). Qed.
Lemma least_prime_divisor n : 1 < n -> ~ prime n -> exists p, prime p /\ (p | n) /\ p * p <= n.
Proof.
  intros Hn. remember (Z.to_nat n) as m eqn:Em. revert n Hn Em. induction m as [m IH] using lt_wf_ind. intros n Hn Em NP.
  destruct (not_prime_divide n Hn NP) as (d & Hd & q & Hq).
  assert (A : exists e, 1 < e /\ (e | n) /\ e * e <= n /\ e < n).
  { destruct (Z.le_gt_cases d q) as [L|L]; [exists d; split; [lia|]; split; [exists q; exact Hq|]; split; [nia|lia]|]. exists q. split; [nia|]. split; [exists d; lia|]. split; nia. }
  destruct A as (e & E1 & E2 & E3 & E4). destruct (prime_dec e) as [P|P]; [exists e; split; [exact P|]; split; assumption|].
  destruct (IH (Z.to_nat e) ltac:(lia) e E1 eq_refl P) as (p & Pp & Dp & Lp). exists p. split; [exact Pp|]. split; [apply Z.divide_trans with e; assumption|]. lia.
Qed.
Lemma prime_67280421310721 : prime 67280421310721.
Proof.
  destruct (prime_dec 67280421310721) as [H|H]; [exact H|]. exfalso. destruct (least_prime_divisor 67280421310721 ltac:(lia) H) as (p & P & D & L).
  assert (G1 : 1 < p) by (destruct P; assumption).
  assert (D64 : (p | 2 ^ 64 + 1)). { apply Z.divide_trans with 67280421310721; [exact D|]. exists 274177. reflexivity. }
  destruct (fermat_factor p P D64) as [k K]. assert (PL : p <= 8202464) by nia.
  apply (trial128_ok _ _ _ trial_done (k - 1)); [lia|]. replace (129 + 128 * (k - 1)) with p by lia. apply Z.mod_divide; [lia|exact D].
Qed.
