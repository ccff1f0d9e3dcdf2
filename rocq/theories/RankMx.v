(* rank_rows is the rank over the field with two elements (mathcomp). *)
From mathcomp Require Import all_ssreflect all_algebra.
From Verif Require Import RankSpec.
Set Implicit Arguments. Unset Strict Implicit. Unset Printing Implicit Defensive.
Import GRing.Theory.
Local Open Scope ring_scope.

Definition mx_of (m n : nat) (rows : seq (seq bool)) : 'M['F_2]_(m, n) := \matrix_(i, j) ((nth false (nth [::] rows i) j)%:R).
Lemma F2_xor (a b : bool) : ((a (+) b)%:R : 'F_2) = a%:R - b%:R.
Proof. by case: a; case: b; apply/val_inj. Qed.

Lemma rank_cons n m (v : 'rV['F_2]_n) (A : 'M['F_2]_(m, n)) (c : 'I_n) : v 0 c != 0 -> (forall i, A i c = 0) ->
  \rank (col_mx v A) = (1 + \rank A)%N.
Proof.
move=> vc Ac. rewrite -addsmxE mxrank_disjoint_sum; first by rewrite rank_rV; have -> : v != 0 by apply: contraNneq vc => ->; rewrite mxE.
apply/eqP; rewrite -submx0; apply/rV_subP => x; rewrite sub_capmx => /andP[/sub_rVP [a ->] /submxP [D eD]].
have: (a *: v) 0 c = 0 by rewrite eD mxE big1 // => i _; rewrite Ac mulr0.
rewrite mxE => /eqP; rewrite mulf_eq0 (negPf vc) orbF => /eqP ->. by rewrite scale0r sub0mx.
Qed.
Lemma rank_cons0 n m (A : 'M['F_2]_(m, n)) : \rank (col_mx (0 : 'rV['F_2]_n) A) = \rank A.
Proof. by rewrite -addsmxE adds0mx. Qed.
Lemma rank_elim n m (v : 'rV['F_2]_n) (A : 'M['F_2]_(m, n)) (u : 'cV['F_2]_m) : \rank (col_mx v (A - u *m v)) = \rank (col_mx v A).
Proof.
apply: eqmx_rank; rewrite -!addsmxE. apply/andP; split.
- rewrite addsmx_sub addsmxSl /=. apply: addmx_sub; first exact: addsmxSr. by rewrite eqmx_opp (submx_trans (submxMl _ _)) ?addsmxSl.
- rewrite addsmx_sub addsmxSl /=. rewrite -[X in (X <= _)%MS](subrK (u *m v)). apply: addmx_sub; first exact: addsmxSr.
  by rewrite (submx_trans (submxMl _ _)) ?addsmxSl.
Qed.

Lemma List_map_map (A B : Type) (f : A -> B) s : List.map f s = map f s.
Proof. by elim: s => //= a s ->. Qed.
Lemma List_nth_nth (A : Type) (s : seq A) i d : List.nth i s d = nth d s i.
Proof. by elim: s i => [|a s IH] [|i] //=. Qed.
Lemma first_setP v : match first_set v with
  | None => forall j, nth false v j = false
  | Some c => nth false v c /\ (c < size v)%N end.
Proof.
elim: v => [|[] v IH] //=; first by move=> j; rewrite nth_nil.
case: (first_set v) IH => [c [H1 H2]|H] //=. by case.
Qed.
Lemma xor_rows_nth v w j : size v = size w -> nth false (xor_rows v w) j = nth false v j (+) nth false w j.
Proof.
rewrite /xor_rows List_map_map. elim: v w j => [|a v IH] [|b w] [|j] //= [] E.
  by case: a b => [] [].
by apply: IH.
Qed.
Lemma xor_rows_size v w : size v = size w -> size (xor_rows v w) = size v.
Proof. rewrite /xor_rows List_map_map. by elim: v w => [|a v IH] [|b w] //= [] E; rewrite IH. Qed.

Lemma mx_of_cons m n v rows : mx_of m.+1 n (v :: rows) = col_mx (mx_of 1 n [:: v]) (mx_of m n rows).
Proof.
apply/matrixP => i j. rewrite -[m.+1]/(1 + m)%N in i *. case: (splitP i) => k ek.
  have -> : i = lshift m k by apply/val_inj. by rewrite col_mxEu !mxE /= (ord1 k).
have -> : i = rshift 1 k by apply/val_inj. by rewrite col_mxEd !mxE.
Qed.
Theorem rank_rowsE n m rows : size rows = m -> all (fun r => size r == n) rows -> rank_rows m rows = \rank (mx_of m n rows).
Proof.
elim: m rows => [|m IH] [|v rows] //=.
move=> [sz] /andP[/eqP sv srows]. rewrite mx_of_cons. case E: (first_set v) (first_setP v) => [c|] /=.
- move=> [vc cn]. rewrite sv in cn. rewrite IH; first last.
  + rewrite List_map_map; apply/allP => r /mapP[x xin ->]. have sx := allP srows x xin. case: ifP => // _. by rewrite xor_rows_size // sv (eqP sx).
  + by rewrite List_map_map size_map.
  rewrite List_map_map. set f := (fun x => _).
  pose u : 'cV['F_2]_m := \col_i (nth false (nth [::] rows i) c)%:R.
  have eA : mx_of m n (map f rows) = mx_of m n rows - u *m mx_of 1 n [:: v].
    apply/matrixP => i j. rewrite !mxE big_ord1 !mxE /=. rewrite (nth_map [::]) ?sz //. rewrite /f List_nth_nth.
    have sx : size (nth [::] rows i) = n by apply/eqP; apply: (allP srows); rewrite mem_nth ?sz.
    case: ifP => h; last by rewrite mul0r subr0.
    by rewrite xor_rows_nth ?sx ?sv // F2_xor mul1r.
  rewrite -(rank_elim (mx_of 1 n [:: v]) (mx_of m n rows) u) -eA. rewrite (@rank_cons n m _ _ (Ordinal cn)) ?add1n //.
    by rewrite mxE /= vc oner_eq0.
  move=> i. rewrite eA !mxE big_ord1 !mxE /= vc mulr1. by rewrite subrr.
- move=> v0. rewrite IH //. have -> : mx_of 1 n [:: v] = 0; last by rewrite rank_cons0.
  by apply/matrixP => i j; rewrite !mxE (ord1 i) /= v0.
Qed.
