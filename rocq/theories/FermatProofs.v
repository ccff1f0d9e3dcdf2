(* Fermat's little theorem, from mathcomp, in terms of the standard library. *)
From Coq Require Import ZArith Znumtheory Lia.
From mathcomp Require Import ssreflect ssrfun ssrbool eqtype ssrnat div prime binomial.

Lemma std_prime (p : nat) : Znumtheory.prime (Z.of_nat p) -> prime.prime p.
Proof.
  move=> H. have G1 : (1 < Z.of_nat p)%Z by case: H.
  apply/primeP; split.
  - apply/ltP. lia.
  - move=> d /dvdnP [k Ek]. have D : (Z.of_nat d | Z.of_nat p)%Z by exists (Z.of_nat k); rewrite Ek -multE Nat2Z.inj_mul.
    case: (prime_divisors _ H _ D) => [E|[E|[E|E]]]; try lia.
    + by apply/orP; left; apply/eqP; lia.
    + by apply/orP; right; apply/eqP; lia.
Qed.
Lemma expn_pow (a n : nat) : expn a n = Nat.pow a n.
Proof. elim: n => [|n IH] //. by rewrite expnS IH /= multE. Qed.
(* p divides 2^p - 2 *)
Lemma fermat2 (p : nat) : Znumtheory.prime (Z.of_nat p) -> exists k : nat, Nat.pow 2 p = Nat.add (Nat.mul k p) 2.
Proof.
  move=> H. have P := std_prime _ H. have F := fermat_little 2 P.
  have L : leq 2 (expn 2 p) by rewrite -[X in leq X _](expn1 2) leq_exp2l // prime_gt0.
  move/eqP in F. rewrite eqn_mod_dvd // in F. case/dvdnP: F => k Ek. exists k.
  rewrite -expn_pow. rewrite -(subnK L) Ek. by rewrite -plusE -multE.
Qed.
