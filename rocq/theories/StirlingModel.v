(* Model of stirling_second_kind, core/src/util/math.h:67-75.  k * (...) is computed in uint64_t (int k is converted), so modulo 2^64.
   n is not negative (with a negative n and k <> 0 the recursion never ends), k - 1 is at least -2^31. *)
From Verif Require Import Base.
Open Scope N_scope.
Fixpoint stirling_second_kind (n : nat) (k : Z) : N :=
  match n with
  | O => if (k =? 0)%Z then 1 else 0
  | S n' => if (k =? 0)%Z then 0 else
      wrap 64 (wrap 64 (Z.to_N (k mod 2 ^ 64) * stirling_second_kind n' k) + stirling_second_kind n' (k - 1))
  end.
