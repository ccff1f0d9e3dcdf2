(* Property C112: Stirling numbers of the second kind. *)
From Coq Require Import Lia.
From Verif Require Import Base WordLemmas StirlingModel StirlingSpec StirlingProofs.
Open Scope N_scope.
(* The lists are the partitions: every equivalence relation on the elements is the relation "in the same block" of exactly one of them. *)
Theorem C112_partitions : forall (same : nat -> nat -> bool) n,
  (forall i, same i i = true) -> (forall i j, same i j = same j i) -> (forall i j k, same i j = true -> same j k = true -> same i k = true) ->
  exists! l, (exists k, partition n k l) /\ forall i j, (i < n)%nat -> (j < n)%nat -> (same i j = true <-> nth i l O = nth j l O).
Proof.
  intros same n R Y T. destruct (groups_exist same n R Y T) as (l & L & [k B] & G). exists l. split.
  - split; [exists k; split; assumption|exact G].
  - intros m [(k' & L' & B') G']. apply (groups_unique same n); (split; [assumption|split; [eexists; eassumption|assumption]]).
Qed.
Print Assumptions C112_partitions.
(* The result is the number of partitions of n elements into k blocks, modulo 2^64. *)
Theorem C112_counts : forall n k, exists c, number_of (partition n k) c /\ stirling_second_kind n (Z.of_nat k) = N.of_nat c mod 2 ^ 64.
Proof.
  intros n k. exists (N.to_nat (exact_stirling n k)). split; [apply partitions_ok|]. rewrite N2Nat.id. apply model_exact.
Qed.
Print Assumptions C112_counts.
(* Up to 26 elements it is exact. *)
Theorem C112_exact : forall n k, (n <= 26)%nat -> number_of (partition n k) (N.to_nat (stirling_second_kind n (Z.of_nat k))).
Proof. intros n k H. rewrite model_exact, wrap_id; [apply partitions_ok|apply small, H]. Qed.
Print Assumptions C112_exact.
(* Not so for 27 elements: the number of partitions into 10 blocks is above 2^64. *)
Theorem C112_overflow_refuted : exists c, number_of (partition 27 10) c /\ N.of_nat c <> stirling_second_kind 27 10.
Proof.
  exists (N.to_nat (exact_stirling 27 10)). split; [apply partitions_ok|]. rewrite N2Nat.id. change 10%Z with (Z.of_nat 10). rewrite model_exact.
  rewrite <- (row_ok 27 10) by lia. vm_compute. discriminate.
Qed.
Print Assumptions C112_overflow_refuted.
(* No partition has a negative number of blocks. *)
Theorem C112_negative : forall n k, (k < 0)%Z -> stirling_second_kind n k = 0.
Proof. exact model_negative. Qed.
Print Assumptions C112_negative.
(* The partitions of three elements into two blocks. *)
Example C112_instance :
  (partition 3 2 [0; 0; 1] /\ partition 3 2 [0; 1; 0] /\ partition 3 2 [0; 1; 1])%nat /\ stirling_second_kind 3 2 = 3 /\ stirling_second_kind 4 2 = 7 /\ (4 <= 26)%nat.
Proof. repeat split; vm_compute; lia. Qed.
