(* The specification of ranks: mathcomp's rank over the field with two elements. *)
From Coq Require Import NArith List Lia.
From Verif Require Import Base RankModel RankSpec RankProofs RankMx RankCount.
From mathcomp Require Import all_ssreflect all_algebra.
Import GRing.Theory.
Local Open Scope ring_scope.

(* the n x n matrix over GF(2) given by a row-major vector of cells *)
Definition gf2_matrix (n : nat) (d : list BinNums.N) : 'M['F_2]_n :=
  \matrix_(i, j) (if BinNat.N.eqb (List.nth (Nat.add (Nat.mul i n) j) d BinNums.N0) (BinNums.Npos BinNums.xH) then 1 else 0).
Definition gf2_rank (n : nat) (d : list BinNums.N) : nat := \rank (gf2_matrix n d).
(* the number of n x n matrices over GF(2) of rank r *)
Definition gf2_count (n r : nat) : nat := #|[set A : 'M['F_2]_n | \rank A == r]|.
Lemma gf2_countE n r : gf2_count n r = count_rank n n r. Proof. by []. Qed.

Lemma gf2_rank_rows n d : rank_rows n (List.map (rowof n d) (List.seq 0 n)) = gf2_rank n d.
Proof.
have sz : size (List.map (rowof n d) (List.seq 0 n)) = n by rewrite -[size _]/(Datatypes.length _) List.map_length List.seq_length.
rewrite (@rank_rowsE n) //; last first.
  apply/allP => r /(nthP [::]) [i]. rewrite sz => Hi <-. rewrite -List_nth_nth.
  rewrite (List.nth_indep _ _ (rowof n d 0)); last by rewrite List.map_length List.seq_length; apply/ltP.
  by rewrite List.map_nth -[size _]/(Datatypes.length _) rowof_len.
congr (\rank _). apply/matrixP => i j. rewrite !mxE. rewrite -!List_nth_nth.
rewrite (List.nth_indep _ _ (rowof n d 0)); last by rewrite List.map_length List.seq_length; apply/ltP.
rewrite List.map_nth List.seq_nth; last by apply/ltP.
rewrite nth_rowof; last by apply/ltP. rewrite /cell plusE multE /=. by case: (BinNat.N.eqb _ _).
Qed.
Lemma gf2_rank_le n d : Nat.le (gf2_rank n d) n.
Proof. apply/leP. exact: rank_leq_row. Qed.
