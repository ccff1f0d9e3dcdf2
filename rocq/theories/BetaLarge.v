(* The continued fraction of two large samples with equal variances does not converge in 201 rounds. *)
From Coq Require Import Reals Lra Lia.
From Flocq Require Import Core BinarySingleNaN.
From Verif Require Import Base FloatModel FloatLemmas ResultModel CollectModel StatsModel StatsProofs CouponFloatProofs BetaModel BetaSpec BetaProofs.

Definition large_a : double := double_of_N 50000.
(* the rounds without the stop; true if none of them stops *)
Fixpoint never_stops (a b x : double) (left : nat) (i : N) (c d : double) : bool :=
  match left with
  | O => true
  | S left' =>
    let '(c', d') := loop_step (beta_numerator a b x i) c d in
    if dlt (dabs (dsub d1 (dmul c' d'))) beta_stop then false else never_stops a b x left' (i + 1) c' d'
  end.
Lemma never_infinite a b x front left : forall i f c d, never_stops a b x left i c d = true -> beta_loop a b x front left i f c d = infinity.
Proof.
  induction left as [|left IH]; intros i f c d H; [reflexivity|]. rewrite loop_eq. cbn [never_stops] in H. destruct (loop_step (beta_numerator a b x i) c d) as [c' d']. destruct (dlt _ beta_stop); [discriminate|]. apply IH, H.
Qed.
Lemma large_never : never_stops large_a large_a half 201 0 d1 d0 = true.
Proof. vm_compute. reflexivity. Qed.
Lemma two_infinity : dmul two infinity = infinity.
Proof. apply B2SF_inj. vm_compute. reflexivity. Qed.
Lemma beta_eq log exp depth a b x : beta_regularized log exp (S depth) a b x =
  if dlt x d0 || dlt d1 x then Some infinity
  else if dlt (beta_threshold a b) x then option_map (dsub d1) (beta_regularized log exp depth b a (dsub d1 x))
  else Some (beta_loop a b x (beta_front log exp a b x) 201 0 d1 d1 d0).
Proof. reflexivity. Qed.
Lemma large_beta log exp depth : (1 <= depth)%nat -> beta_regularized log exp depth large_a large_a half = Some infinity.
Proof.
  intros H. destruct depth as [|depth]; [lia|]. rewrite beta_eq.
  assert (O : dlt half d0 || dlt d1 half = false) by (vm_compute; reflexivity). assert (T : dlt (beta_threshold large_a large_a) half = false) by (vm_compute; reflexivity). rewrite O, T.
  exact (f_equal Some (never_infinite large_a large_a half (beta_front log exp large_a large_a half) 201 0 d1 d1 d0 large_never)).
Qed.
