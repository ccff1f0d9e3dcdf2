(* count_rank in the vocabulary of the standard library. *)
From Coq Require Import ZArith Lia List.
From Verif Require Import RankCount.
From mathcomp Require Import all_ssreflect.
Local Open Scope Z_scope.

Lemma expn_Z e : Z.of_nat (expn 2 e) = 2 ^ Z.of_nat e.
Proof.
elim: e => [|e IH]; first by [].
rewrite expnS -multE Nat2Z.inj_mul IH (Nat2Z.inj_succ e) Z.pow_succ_r; [by []|lia].
Qed.
(* (2^e - 1) (2^e - 2) ... (2^e - 2^(r-1)) *)
Fixpoint PZ (e r : nat) : Z := match r with O => 1 | S r' => PZ e r' * (2 ^ Z.of_nat e - 2 ^ Z.of_nat r') end.
Lemma pr_PZ e r : (Nat.le r e) -> Z.of_nat (pr e r) = PZ e r.
Proof.
elim: r => [|r IH] H; first by rewrite pr_0.
rewrite pr_last -multE Nat2Z.inj_mul IH; last lia.
rewrite -minusE Nat2Z.inj_sub; first by rewrite !expn_Z.
apply/leP. by rewrite leq_exp2l //; apply/leP; lia.
Qed.
Lemma count_rank_Z n r : (Nat.le r n) -> Z.of_nat (count_rank n n r) * PZ r r = PZ n r * PZ n r.
Proof.
move=> H. rewrite -!pr_PZ; [|done|lia]. rewrite -!Nat2Z.inj_mul !multE. by rewrite count_rank_closed.
Qed.
(* every matrix has one rank *)
Lemma count_rank_all n : Z.of_nat (List.list_sum (List.map (count_rank n n) (List.seq 0 (Datatypes.S n)))) = 2 ^ Z.of_nat (n * n)%coq_nat.
Proof.
rewrite -expn_Z multE -count_rank_total. congr Z.of_nat.
rewrite -(big_mkord xpredT (count_rank n n)) /index_iota subn0.
have G m k : List.list_sum (List.map (count_rank n n) (List.seq k m)) = (\sum_(i <- iota k m) count_rank n n i)%N.
  elim: m k => [|m IH] k; first by rewrite big_nil. by rewrite big_cons /= IH.
exact: G.
Qed.
