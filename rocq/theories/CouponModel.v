(* Model of stirling_second_kind (core/src/util/math.h:62-70), expected_probabilities
   (core/src/statistics/coupon.h:36-53) and generate_gap_probabilities (core/src/statistics/gap.h:32-44). *)
From Verif Require Import Base FloatModel.
Open Scope N_scope.

(* math.h:62-70 with n >= 0; the int k is converted to uint64_t in k * ... .
   Simplification: k - 1 does not overflow int. *)
Fixpoint stirling_nat (n : nat) (k : Z) : N :=
  match n with
  | O => if (k =? 0)%Z then 1 else 0
  | S n' => if (k =? 0)%Z then 0
            else wrap 64 (wrap 64 (Z.to_N (k mod 2 ^ 64) * stirling_nat n' k) + stirling_nat n' (k - 1))
  end.
(* For n < 0 and k <> 0 the call stirling_second_kind(n - 1, k) repeats until n overflows. *)
Definition stirling_second_kind (n k : Z) : outcome N :=
  if (n <? 0)%Z then (if (k =? 0)%Z then Ok 0 else UB) else Ok (stirling_nat (Z.to_nat n) k).

Section Lib.
(* std::tgamma and std::pow on doubles *)
Variables (tgamma : double -> double) (pow : double -> double -> double).
(* coupon.h:36-53; [left] iterations of i < 30 remain; wanted - 1 and i - 1 do not overflow int *)
Fixpoint coupon_loop (fac_d : double) (wanted i : N) (left : nat) (sum : double) : outcome (list double) :=
  match left with
  | O => Ok [dsub d1 sum]
  | S left' =>
      if dlt sum (dconst 8917127262193582 (-53)) then (* 0.99 *)
        s <- stirling_second_kind (Z.of_N i - 1) (Z.of_N wanted - 1) ;;
        let p := dmul (ddiv fac_d (pow (double_of_N wanted) (double_of_N i))) (double_of_N s) in
        rest <- coupon_loop fac_d wanted (i + 1) left' (dadd sum p) ;; Ok (p :: rest)
      else Ok [dsub d1 sum]
  end.
Definition expected_probabilities (wanted : N) : outcome (list double) :=
  coupon_loop (tgamma (double_of_N (wanted + 1))) wanted wanted (N.to_nat (30 - wanted)) d0.
(* gap.h:32-44; None: the loop has not ended within [fuel] iterations *)
Fixpoint gap_prob_loop (a b : double) (i : N) (fuel : nat) (p_sum : double) : option (list double) :=
  match fuel with
  | O => None
  | S fuel' =>
      if dlt p_sum (dconst 8917127262193582 (-53)) then
        let p := dmul (dsub b a) (pow (dadd (dsub d1 b) a) (double_of_N i)) in
        match gap_prob_loop a b (i + 1) fuel' (dadd p_sum p) with Some l => Some (p :: l) | None => None end
      else Some [dsub d1 p_sum]
  end.
Definition generate_gap_probabilities (a b : double) (fuel : nat) : option (list double) := gap_prob_loop a b 0 fuel d0.
End Lib.
