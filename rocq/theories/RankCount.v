(* The number of matrices over the field with two elements, by rank. *)
From mathcomp Require Import all_ssreflect all_algebra.
Set Implicit Arguments. Unset Strict Implicit. Unset Printing Implicit Defensive.
Import GRing.Theory.
Local Open Scope ring_scope.

Definition count_rank (k n r : nat) : nat := #|[set A : 'M['F_2]_(k, n) | \rank A == r]|.

Lemma card_span n m (A : 'M['F_2]_(m, n)) : #|[set v : 'rV['F_2]_n | (v <= A)%MS]| = (2 ^ \rank A)%N.
Proof.
pose f (u : 'rV['F_2]_(\rank A)) := u *m row_base A.
have fi : injective f by move=> u u' /(row_free_inj (row_base_free A)).
have -> : [set v : 'rV['F_2]_n | (v <= A)%MS] = f @: [set: 'rV['F_2]_(\rank A)].
  apply/setP => v; rewrite inE; apply/idP/imsetP => [|[u _ ->]].
    rewrite -(eq_row_base A) => /submxP[u ->]. by exists u; rewrite ?inE.
  by rewrite -(eq_row_base A) submxMl.
by rewrite card_imset // cardsT card_matrix card_Fp // mul1n.
Qed.
Lemma rank_col_mx n m (A : 'M['F_2]_(m, n)) (v : 'rV['F_2]_n) : \rank (col_mx v A) = (\rank A + ~~ (v <= A)%MS)%N.
Proof.
rewrite -addsmxE. case: (boolP (v <= A)%MS) => [vA|vA].
  by rewrite addn0 (addsmx_idPr vA).
have vn : v != 0 by apply: contraNneq vA => ->; rewrite sub0mx.
rewrite mxrank_disjoint_sum ?rank_rV ?vn ?addn1 ?add1n //.
apply/eqP; rewrite -submx0; apply/rV_subP => x. rewrite sub_capmx => /andP[/sub_rVP[a ->] avA].
case: (eqVneq a 0) => [->|a0]; first by rewrite scale0r sub0mx.
by case/negP: vA; rewrite -(scalerK a0 v) scalemx_sub.
Qed.
Lemma card_add_row k n r : count_rank k.+1 n r = (\sum_(A : 'M['F_2]_(k, n)) #|[set v : 'rV['F_2]_n | (\rank A + ~~ (v <= A)%MS)%N == r]|)%N.
Proof.
pose f (p : 'M['F_2]_(k, n) * 'rV['F_2]_n) : 'M['F_2]_(1 + k, n) := col_mx p.2 p.1.
have fi : injective f by move=> [A v] [A' v'] /eq_col_mx [/= -> ->].
rewrite /count_rank -[k.+1]/(1 + k)%N.
have -> : [set A : 'M['F_2]_(1 + k, n) | \rank A == r] = f @: [set p | (\rank p.1 + ~~ (p.2 <= p.1)%MS)%N == r].
  apply/setP => B; rewrite inE; apply/idP/imsetP => [rB|[p pin ->]].
    exists (dsubmx B, usubmx B); last by rewrite /f vsubmxK. by rewrite inE /= -rank_col_mx vsubmxK.
  by move: pin; rewrite inE -rank_col_mx.
rewrite card_imset // -sum1_card.
rewrite (eq_bigl (fun p => (xpredT p.1) && ((\rank p.1 + ~~ (p.2 <= p.1)%MS)%N == r))); last by move=> p; rewrite inE.
rewrite -(pair_big_dep xpredT (fun A (v : 'rV['F_2]_n) => (\rank A + ~~ (v <= A)%MS)%N == r) (fun _ _ => 1%N)) /=.
apply: eq_bigr => A _. rewrite -sum1_card. by apply: eq_bigl => v; rewrite inE.
Qed.
Lemma card_rows_for n k (A : 'M['F_2]_(k, n)) r : #|[set v : 'rV['F_2]_n | (\rank A + ~~ (v <= A)%MS)%N == r]| =
  ((\rank A == r) * 2 ^ r + ((\rank A).+1 == r) * (2 ^ n - 2 ^ (\rank A)))%N.
Proof.
case: (eqVneq (\rank A) r) => [E|E].
  have -> : [set v : 'rV['F_2]_n | (\rank A + ~~ (v <= A)%MS)%N == r] = [set v | (v <= A)%MS].
    apply/setP => v; rewrite !inE -E. by case: (v <= A)%MS; rewrite /= ?addn0 ?eqxx // addn1 gtn_eqF.
  rewrite card_span E mul1n. by rewrite gtn_eqF // mul0n addn0.
rewrite mul0n add0n. case: (eqVneq (\rank A).+1 r) => [E'|E'].
  have -> : [set v : 'rV['F_2]_n | (\rank A + ~~ (v <= A)%MS)%N == r] = ~: [set v | (v <= A)%MS].
    apply/setP => v; rewrite !inE -E'. by case: (v <= A)%MS; rewrite /= ?addn0 ?addn1 ?eqxx // ltn_eqF.
  rewrite cardsCs setCK card_span mul1n. by rewrite card_matrix card_Fp // mul1n.
rewrite mul0n. apply/eqP; rewrite cards_eq0; apply/eqP/setP => v; rewrite !inE. by case: (v <= A)%MS; rewrite /= ?addn0 ?addn1; apply/negbTE.
Qed.
Lemma count_rank_rec k n r : count_rank k.+1 n r =
  (count_rank k n r * 2 ^ r + (if r is r'.+1 then count_rank k n r' * (2 ^ n - 2 ^ r') else 0))%N.
Proof.
rewrite card_add_row. under eq_bigr do rewrite card_rows_for. rewrite big_split /=. congr (_ + _)%N.
  rewrite -big_distrl /=. congr (_ * _)%N. rewrite /count_rank -sum1_card [RHS]big_mkcond /=. apply: eq_bigr => A _. by rewrite inE; case: eqP.
case: r => [|r]; first by rewrite big1.
rewrite /count_rank -sum1_card big_distrl [RHS]big_mkcond /=. apply: eq_bigr => A _. rewrite inE eqSS. by case: eqP => // <-; rewrite mul1n.
Qed.
Lemma count_rank_0 n r : count_rank 0 n r = (r == 0)%N.
Proof.
rewrite /count_rank. have rk (A : 'M['F_2]_(0, n)) : \rank A = 0%N by rewrite [A]flatmx0 mxrank0.
case: r => [|r].
  have -> : [set A : 'M['F_2]_(0, n) | \rank A == 0%N] = setT by apply/setP => A; rewrite !inE rk.
  by rewrite cardsT card_matrix mul0n.
by apply/eqP; rewrite cards_eq0; apply/eqP/setP => A; rewrite !inE rk.
Qed.

(* the closed form; pr e r = (2^e - 1) (2^e - 2) ... (2^e - 2^(r-1)) *)
Definition pr (e r : nat) : nat := (\prod_(i < r) (2 ^ e - 2 ^ i))%N.
Lemma pr_0 e : pr e 0 = 1%N. Proof. by rewrite /pr big_ord0. Qed.
Lemma pr_last e r : pr e r.+1 = (pr e r * (2 ^ e - 2 ^ r))%N. Proof. by rewrite /pr big_ord_recr. Qed.
Lemma pr_first e r : pr e.+1 r.+1 = ((2 ^ e.+1 - 1) * (2 ^ r * pr e r))%N.
Proof.
rewrite /pr big_ord_recl /=. congr (_ * _)%N. under eq_bigr do rewrite /bump /= add1n !expnS -mulnBr. rewrite big_split /=. congr (_ * _)%N.
by rewrite prod_nat_const card_ord.
Qed.
Lemma pr_small e r : (e < r)%N -> pr e r = 0%N.
Proof. move=> H. rewrite /pr (bigD1 (Ordinal H)) //= subnn. by rewrite mul0n. Qed.
Theorem count_rank_closed k n r : (count_rank k n r * pr r r = pr k r * pr n r)%N.
Proof.
elim: k r => [|k IH] r.
  rewrite count_rank_0. case: r => [|r]; first by rewrite !pr_0. by rewrite mul0n pr_small // mul0n.
rewrite count_rank_rec. case: r => [|r]; first by rewrite addn0 expn0 muln1 IH !pr_0.
rewrite mulnDl. rewrite -mulnA [(2 ^ r.+1 * _)%N]mulnC mulnA IH. rewrite (pr_first r r).
have -> : (count_rank k n r * (2 ^ n - 2 ^ r) * ((2 ^ r.+1 - 1) * (2 ^ r * pr r r)) = (count_rank k n r * pr r r) * ((2 ^ n - 2 ^ r) * ((2 ^ r.+1 - 1) * 2 ^ r)))%N.
  by rewrite -!mulnA; congr (_ * _)%N; rewrite [RHS]mulnC -!mulnA; congr (_ * _)%N; congr (_ * _)%N; rewrite mulnC.
rewrite IH (pr_first k r) !pr_last.
have -> : (pr k r * pr n r * ((2 ^ n - 2 ^ r) * ((2 ^ r.+1 - 1) * 2 ^ r)) = (pr k r * (pr n r * (2 ^ n - 2 ^ r))) * ((2 ^ r.+1 - 1) * 2 ^ r))%N by rewrite -!mulnA.
have -> : (pr k r * (2 ^ k - 2 ^ r) * (pr n r * (2 ^ n - 2 ^ r)) * 2 ^ r.+1 = (pr k r * (pr n r * (2 ^ n - 2 ^ r))) * ((2 ^ k - 2 ^ r) * 2 ^ r.+1))%N.
  by rewrite -!mulnA; congr (_ * _)%N; rewrite mulnC -!mulnA; congr (_ * _)%N; congr (_ * _)%N; rewrite mulnC.
have -> : ((2 ^ k.+1 - 1) * (2 ^ r * pr k r) * (pr n r * (2 ^ n - 2 ^ r)) = (pr k r * (pr n r * (2 ^ n - 2 ^ r))) * ((2 ^ k.+1 - 1) * 2 ^ r))%N.
  by rewrite [RHS]mulnC -!mulnA.
rewrite -mulnDr. case: (leqP r k) => [rk|rk]; last by rewrite (pr_small rk) !mul0n.
congr (_ * _)%N. rewrite expnS mulnA -mulnDl. congr (_ * _)%N. rewrite expnS mulnBl.
have h1 : (2 ^ r <= 2 ^ k)%N by rewrite leq_exp2l. have h2 : (0 < 2 ^ r)%N by rewrite expn_gt0. 
rewrite [(2 ^ k * 2)%N]mulnC [(2 ^ r * 2)%N]mulnC addnBA ?muln_gt0 //. by rewrite subnK // leq_mul2l.
Qed.
Lemma count_rank_total n : (\sum_(r < n.+1) count_rank n n r = 2 ^ (n * n))%N.
Proof.
have -> : (2 ^ (n * n))%N = #|[set: 'M['F_2]_n]| by rewrite cardsT card_matrix card_Fp.
rewrite -sum1_card. rewrite (partition_big (fun A : 'M['F_2]_n => inord (\rank A) : 'I_n.+1) xpredT) //=.
apply: eq_bigr => r _. rewrite /count_rank -sum1_card. apply: eq_bigl => A. rewrite !inE /=.
by apply/idP/idP => [/eqP E|/eqP <-]; [apply/eqP/val_inj; rewrite /= inordK ?E|rewrite inordK // ltnS rank_leq_row].
Qed.
