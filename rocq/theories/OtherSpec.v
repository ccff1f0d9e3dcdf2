(* What Fisher's method, the G test, the binomial distribution and the Anderson-Darling test need of the C library, and what they mean. *)
From Coq Require Import Reals List.
From Flocq Require Import Core BinarySingleNaN.
From Verif Require Import Base FloatModel ErrorSpec.
Import ListNotations.
Open Scope R_scope.

(* log is not positive up to 1 *)
Definition log_sign (log : double -> double) : Prop := forall x, is_finite x = true -> 0 < dval x <= 1 -> dval (log x) <= 0.
(* Fisher's statistic of some p-values; values below 10^-16 count as 10^-16 *)
Definition fisher (ps : list double) : R := rsum (map (fun p => -2 * ln (Rmax (/ 10 ^ 16) (dval p))) ps).

(* The G test.  A bin is its count and its expected count.  It is used if enough is expected and something was observed. *)
Definition g_used (threshold : double) (b : N * double) : bool := if Rle_dec (dval threshold) (dval (snd b)) then negb (fst b =? 0)%N else false.
(* what the code gets: counts as doubles *)
Definition dbin (b : N * double) : double * double := (double_of_N (fst b), snd b).
Definition ok_bin (b : N * double) : Prop := (fst b < 2 ^ 53)%N /\ is_finite (snd b) = true.
(* a used bin with an expected count between 2^-64 and 2^64 *)
Definition usual_bin (threshold : double) (b : N * double) : Prop := ok_bin b /\ g_used threshold b = true /\ bpow radix2 (-64) <= dval (snd b) <= bpow radix2 64.
(* observed total, expected total and the statistic 2 (sum O ln(O/E) - T ln(T/TE)) *)
Definition g_observed (bins : list (N * double)) : R := rsum (map (fun b => IZR (Z.of_N (fst b))) bins).
Definition g_expected (bins : list (N * double)) : R := rsum (map (fun b => dval (snd b)) bins).
Definition g_value (bins : list (N * double)) : R :=
  2 * (rsum (map (fun b => IZR (Z.of_N (fst b)) * ln (IZR (Z.of_N (fst b)) / dval (snd b))) bins) - g_observed bins * ln (g_observed bins / g_expected bins)).
(* log of a negative number is NaN, exp of NaN is NaN *)
Definition nan_lib (log exp : double -> double) : Prop := (forall x, is_finite x = true -> dval x < 0 -> log x = B754_nan) /\ exp B754_nan = B754_nan.

(* The binomial distribution: exp of anything but NaN is not negative (it may be infinite); pow of numbers in [0,1] is in [0,1]. *)
Definition exp_nonneg (exp : double -> double) : Prop := forall x, is_nan x = false -> is_nan (exp x) = false /\ dle d0 (exp x) = true.
Definition pow01 (pow : double -> double -> double) : Prop := forall x y, is_finite x = true -> 0 <= dval x <= 1 -> is_finite y = true -> 0 <= dval y -> is_finite (pow x y) = true /\ 0 <= dval (pow x y) <= 1.
(* exp up to 1 and pow accurate to 2^-40 *)
Definition exp_1 (exp : double -> double) : Prop := forall x, is_finite x = true -> dval x <= 1 -> is_finite (exp x) = true /\ Rabs (dval (exp x) - Rtrigo_def.exp (dval x)) <= bpow radix2 (-40).
Definition pow_near (pow : double -> double -> double) : Prop := forall x n, is_finite x = true -> 0 <= dval x <= 1 -> (n < 2 ^ 32)%N -> Rabs (dval (pow x (double_of_N n)) - dval x ^ N.to_nat n) <= bpow radix2 (-40).
(* the probability of at most k successes in n trials *)
Definition at_most (n k : nat) (p : R) : R := sum_f_R0 (fun i => C n i * p ^ i * (1 - p) ^ (n - i)) k.

(* The Anderson-Darling statistic of sorted numbers of [0,1]: -n - 1/n sum (2i + 1) (ln x_i + ln (1 - x_(n-1-i))), numbers below 10^-16 count as 10^-16. *)
Definition floor16 (x : R) : R := Rmax (/ 10 ^ 16) x.
Definition ad_sum (xs : list R) : R :=
  rsum (map (fun i => (2 * INR i + 1) * (ln (floor16 (nth i xs 0)) + ln (floor16 (1 - nth (length xs - 1 - i) xs 0)))) (seq 0 (length xs))).
Definition ad_value (xs : list R) : R := - INR (length xs) - ad_sum xs / INR (length xs).
