(* Independent vocabulary for generator properties. *)
From Verif Require Import Base PrngModel.
Open Scope N_scope.

(* A seed_data as the API allows it: 64-bit words. *)
Definition valid_seed (sd : seed_data) : Prop := forall i, is_word 64 (sd i).

(* The captured state after i calls, and the value returned by call number i (from 0). *)
Definition state_at (g : gen) (sd : seed_data) (i : N) : gst g :=
  Nat.iter (N.to_nat i) (fun s => snd (gnext g s)) (ginit g sd).
Definition output (g : gen) (sd : seed_data) (i : N) : N := fst (gnext g (state_at g sd i)).

(* The sequence repeats itself after n steps. *)
Definition periodic (n : N) (out : N -> N) : Prop := forall i, out (i + n) = out i.

(* Among the first n outputs every w-bit value occurs exactly k times. *)
Definition equidistributed (w n k : N) (out : N -> N) : Prop :=
  (forall i, is_word w (out i)) /\
  forall v, is_word w v ->
    exists occurrences : list N,
      NoDup occurrences /\ (forall i, In i occurrences <-> i < n /\ out i = v) /\
      N.of_nat (length occurrences) = k.

(* Among the first n outputs the value v occurs exactly k times. *)
Definition occurs (n k : N) (out : N -> N) (v : N) : Prop :=
  exists occurrences : list N,
    NoDup occurrences /\ (forall i, In i occurrences <-> i < n /\ out i = v) /\ N.of_nat (length occurrences) = k.

(* The states form one cycle through all valid states but the zero state: two of them are equal exactly if
   their positions agree modulo n, and each valid non-zero state is at exactly one position below n. *)
Definition one_cycle {S : Type} (n : N) (valid : S -> Prop) (zero : S) (st : N -> S) : Prop :=
  (forall i j, st i = st j <-> i mod n = j mod n) /\
  (forall s, valid s -> s <> zero -> exists! i, i < n /\ st i = s).

(* The sequence has the period n and every other period is a multiple of n. *)
Definition least_period (n : N) (out : N -> N) : Prop :=
  periodic n out /\ forall p, periodic p out -> N.divide n p.

(* Injectivity of a state update on the valid states, which it preserves. *)
Definition reversible {S : Type} (valid : S -> Prop) (step : S -> S) : Prop :=
  (forall s, valid s -> valid (step s)) /\
  (forall s t, valid s -> valid t -> step s = step t -> s = t) /\
  (forall t, valid t -> exists s, valid s /\ step s = t).

Definition words2 (w : N) (s : N * N) : Prop := is_word w (fst s) /\ is_word w (snd s).
Definition words4 (w : N) (s : N * N * N * N) : Prop :=
  let '(a, b, c, d) := s in is_word w a /\ is_word w b /\ is_word w c /\ is_word w d.
