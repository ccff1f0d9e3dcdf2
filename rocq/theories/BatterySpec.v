(* What the battery of default tests is given, and what a valid outcome is. *)
From Coq Require Import String Reals.
From Flocq Require Import Core BinarySingleNaN.
From Verif Require Import Base BitwiseSpec FloatModel StreamModel StreamSpec ResultModel ResultSpec EvaluateModel CommandModel CommandSpec DistSpec.
Open Scope R_scope.

(* What is required of chi2_distribution_cdf: probabilities, for whole numbers of degrees of freedom. *)
Definition good_cdf (cdf : double -> double -> double) : Prop :=
  forall x k, is_finite x = true -> 0 <= dval x -> whole_df k -> valid01 (cdf x k).
(* A source that gives words of w bits, independent of other streams. *)
Definition word_source (w : N) (src : source) : Prop := exists f, delivers (src_stream src) f /\ forall i, is_word w (f i).
(* A mixer of w-bit words. *)
Definition word_mixer (w : N) (m : N -> N) : Prop := forall x, is_word w x -> is_word w (m x).
(* The numbers of samples considered. *)
Definition samples (n : N) : Prop := (1024 <= n <= 2 ^ 26)%N.
(* A test ends without undefined behaviour, with at most k results, all with p-values in [0,1]. *)
Definition defined_valid (k : nat) (o : outcome (list sub_test)) : Prop := exists l, o = Ok l /\ valid_subs k l.
(* The subjects of a report are sources and mixers of w-bit words, not more than 2^20 sources each. *)
Definition word_sources (w : N) (l : list source) : Prop := Forall (word_source w) l /\ (N.of_nat (length l) <= 1048576)%N.
Definition word_subjects (w : N) (s : subjects) : Prop :=
  (forall l, s_trng s = Some l -> word_sources w l) /\ (forall l, s_drng s = Some l -> word_sources w l) /\
  word_sources w (s_mixer_sources s) /\ Forall (fun m => word_mixer w (snd m)) (s_mixers s) /\
  Forall (fun p => word_sources w (snd p)) (s_prngs s) /\ Forall (fun c => word_sources w (snd c)) (s_combiners s).
