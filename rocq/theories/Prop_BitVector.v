(* Property C07: bit_vector behaves as a sequence of bits (core/src/util/bitvector.h). *)
From Coq Require Import String.
From Verif Require Import Base BitwiseSpec BitVectorModel BitVectorSpec BitVectorProofs.
Open Scope Z_scope.

(* Any history of valid operations on bit_vector(n) is free of UB and observes the abstract
   bit sequence obtained by the same operations. *)
Theorem C07_bit_vector_refines : forall n os,
  Z.of_nat n <= int_max -> ops_ok (repeat false n) os ->
  exists bv0 bv, bv_new (Z.of_nat n) = Ok bv0 /\ ofold bv_step os bv0 = Ok bv /\
    observes bv (fold_left spec_step os (repeat false n)).
Proof. exact bit_vector_refines. Qed.
Print Assumptions C07_bit_vector_refines.

Theorem C07_default_bit_vector_refines : forall os, ops_ok [] os ->
  exists bv, ofold bv_step os bv_empty = Ok bv /\ observes bv (fold_left spec_step os []).
Proof. exact bit_vector_default_refines. Qed.
Print Assumptions C07_default_bit_vector_refines.

Theorem C07_out_of_range_is_ub : forall os bv, ops_ok [] os -> ofold bv_step os bv_empty = Ok bv ->
  (forall i, i < 0 \/ 8 * ((bv_size bv + 7) / 8) <= i -> get_bit bv i = UB) /\
  (forall i b, 8 * ((bv_size bv + 7) / 8) <= Z.of_N i -> set_bit bv i b = UB).
Proof. exact bit_vector_oob. Qed.
Print Assumptions C07_out_of_range_is_ub.

Theorem C07_add_more_than_64_is_ub : forall bv v c, 64 < c -> 0 <= bv_bits bv -> bv_add bv v c = UB.
Proof. exact bv_add_too_many. Qed.
Print Assumptions C07_add_more_than_64_is_ub.

Example C07_instance :
  let os := [OpAdd 5 3; OpAdd 0xabc 12; OpSet 1 true; OpAdd 0 (-4)] in
  ops_ok [] os /\
  (bv <- ofold bv_step os bv_empty ;; bv_to_string bv) = Ok "11100111101"%string /\
  (bv <- ofold bv_step os bv_empty ;; bv_get 16 bv 3 8) = Ok 0xbc%N.
Proof. vm_compute. repeat split; try reflexivity; discriminate. Qed.
