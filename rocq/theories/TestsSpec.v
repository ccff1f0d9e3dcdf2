(* What a chi-square test is, and what is required of the C library, in terms of real numbers. *)
From Coq Require Import String Reals.
From Flocq Require Import Core BinarySingleNaN.
From Verif Require Import Base FloatModel ResultModel ErrorSpec CollectSpec StatsSpec CouponSpec CouponProofs EvaluateModel EvaluateSpec RankModel RankTop LfsrCount TestsModel.
Open Scope R_scope.

(* The sum of (o - e)^2 / e over the bins that expect more than [threshold]. *)
Definition chi2_sum (threshold : R) (os : list N) (es : list R) : R :=
  rsum (map (fun b => if Rlt_bool threshold (snd b) then (IZR (Z.of_N (fst b)) - snd b) ^ 2 / snd b else 0) (combine os es)).
(* [r] reports the chi-square test of the observed counts [os] against the expected counts [es], using
   the bins that expect more than [threshold]: nothing if there are fewer than two of them; otherwise
   their number minus one as degrees of freedom, the sum above up to rounding, and the probability
   [cdf] gives for the two. *)
Definition chi2_test (cdf : double -> double -> double) (threshold : R) (os : list N) (es : list R) (r : option statistic) : Prop :=
  length os = length es /\
  let k := length (filter (Rlt_bool threshold) es) in
  match r with
  | None => (k <= 1)%nat
  | Some s => (2 <= k)%nat /\ st_type s = Chi2 /\ is_finite (st_df s) = true /\ dval (st_df s) = INR (k - 1) /\
      is_finite (st_value s) = true /\
      Rabs (dval (st_value s) - chi2_sum threshold os es) <= 2 * (INR (length os) + 4) * bpow radix2 (-53) * chi2_sum threshold os es /\
      st_p s = cdf (st_value s) (st_df s)
  end.

(* What the tests need of the C library: powers of two exact, the other functions accurate to about
   2^-40 (correctly rounded functions are accurate to 2^-53), erfc of non-negative numbers in [0,1]. *)
Definition is_double (x : double) (r : R) : Prop := is_finite x = true /\ dval x = r.
Record good_math (M : mathlib) : Prop := mkgood {
  gm_pow : good_pow (m_pow M);
  gm_pow_int : forall b n, (1 <= b <= 29)%N -> (n <= 29)%N ->
    let v := m_pow M (double_of_N b) (double_of_N n) in is_finite v = true /\ within 52 (dval v) (IZR (Z.of_N (b ^ n)));
  gm_pow_half : forall i, (i <= 16)%N -> is_double (m_pow M (dconst 1 (-1)) (double_of_N i)) (bpow radix2 (- Z.of_N i));
  gm_pow_two : forall w, (w <= 64)%N -> is_double (m_pow M (double_of_N 2) (double_of_N w)) (bpow radix2 (Z.of_N w));
  gm_pow_two_neg : forall z, (- 2 ^ 53 <= z <= 0)%Z -> let v := m_pow M (double_of_N 2) (double_of_Z z) in
    is_finite v = true /\ if (z <? -1074)%Z then 0 <= dval v <= bpow radix2 (-1074) else dval v = bpow radix2 z;
  gm_tgamma : forall n, (1 <= n <= 29)%nat ->
    let v := m_tgamma M (double_of_N (N.of_nat n + 1)) in is_finite v = true /\ within 49 (dval v) (IZR (Z.of_N (fact n)));
  gm_log : forall x, is_finite x = true -> / 2 <= dval x <= bpow radix2 64 ->
    is_finite (m_log M x) = true /\ Rabs (dval (m_log M x) - ln (dval x)) <= bpow radix2 (-40);
  gm_log2 : forall x, is_finite x = true -> 1 <= dval x <= bpow radix2 53 ->
    is_finite (m_log2 M x) = true /\ Rabs (dval (m_log2 M x) - ln (dval x) / ln 2) <= bpow radix2 (-40);
  gm_log2_exact : forall k, (k <= 53)%N -> is_double (m_log2 M (double_of_N (2 ^ k))) (IZR (Z.of_N k));
  gm_erfc : forall x, is_finite x = true -> 0 <= dval x -> is_finite (m_erfc M x) = true /\ 0 <= dval (m_erfc M x) <= 1
}.

(* ---- what the tests expect of random words ---- *)
(* a result is only listed if there is one *)
Definition reported (name : string) (r : option statistic) : list sub_test := match r with Some s => [mksub name (Some s)] | None => [] end.
(* m gaps: half of them of length 1, a quarter of length 2, ... *)
Definition gap_expected (m : N) : list R := map (fun i => IZR (Z.of_N m) / IZR (Z.of_N (2 ^ i))) [1; 2; 3; 4; 5; 6; 7; 7]%N.
(* the words of 5 + k letters out of five that have all five letters for the first time at the end, as a share of all
   words of that length; for k = 24 those words of 28 letters that do not have all five *)
Definition coupon_share (k : nat) : R :=
  if (k <? 24)%nat then IZR (Z.of_N (count (finishes 5) (words 5 (5 + k)))) / IZR (Z.of_nat (length (words 5 (5 + k))))
  else IZR (Z.of_N (count (fun s => negb (ontob 5 s)) (words 5 28))) / IZR (Z.of_nat (length (words 5 28))).
(* the probability that the fifth even number comes as number 5 + k; for k = 15 that it comes later than as number 19 *)
Definition nb_share (k : nat) : R := IZR (Z.of_N (choose (k + 4) 4)) / IZR (2 ^ (Z.of_nat k + 5)).
Definition fifth_share (k : nat) : R := if (k <? 15)%nat then nb_share k else 1 - rsum (map nb_share (seq 0 15)).
(* n * w flips: c of w fair coins *)
Definition sac_expected (w n : N) (c : nat) : R := IZR (Z.of_N (n * w)) * (IZR (Z.of_N (choose (N.to_nat w) c)) / IZR (Z.of_N (2 ^ w))).
(* n pairs: c of w and k of w fair coins *)
Definition pairs_expected (w n : N) (c k : nat) : R :=
  IZR (Z.of_N n) * (IZR (Z.of_N (choose (N.to_nat w) c)) / IZR (Z.of_N (2 ^ w))) * (IZR (Z.of_N (choose (N.to_nat w) k)) / IZR (Z.of_N (2 ^ w))).
(* the share of the p x p matrices over GF(2) whose rank is s below p *)
Definition rank_prob (p s : nat) : R := INR (gf2_count p (p - s)) / IZR (2 ^ Z.of_nat (p * p)).
Definition near_expected (p : nat) (b : N) (es : list R) : Prop := length es = S p /\ forall s, (s <= p)%nat ->
  Rabs (nth s es 0 - IZR (Z.of_N b) * rank_prob p s) <= INR (14 * p + 5) * bpow radix2 (-53) * (IZR (Z.of_N b) * rank_prob p s) + bpow radix2 (-800).
(* the share of the sequences of bs bits whose linear complexity is L (C84_lc_prob) *)
Definition lc_prob (bs L : nat) : R := INR (lc_count bs L) / IZR (2 ^ Z.of_nat bs).
