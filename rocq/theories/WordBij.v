(* Bijections on words. *)
From Coq Require Import FinFun.
From Verif Require Import Base BitwiseSpec WordLemmas.
Open Scope N_scope.

Lemma bij_intro w f g :
  (forall x, is_word w x -> is_word w (f x)) ->
  (forall y, is_word w y -> is_word w (g y)) ->
  (forall x, is_word w x -> g (f x) = x) ->
  (forall y, is_word w y -> f (g y) = y) -> word_bijection w f.
Proof.
  intros Hf Hg H1 H2. split; [exact Hf|]. split.
  - intros x y Hx Hy E. rewrite <- (H1 x Hx), <- (H1 y Hy), E. reflexivity.
  - intros y Hy. exists (g y). split; [apply Hg, Hy|apply H2, Hy].
Qed.

(* On the finite set of w-bit words injectivity suffices. *)
Lemma inj_bij w f :
  (forall x, is_word w x -> is_word w (f x)) ->
  (forall x y, is_word w x -> is_word w y -> f x = f y -> x = y) -> word_bijection w f.
Proof.
  intros Hf Hi. split; [exact Hf|]. split; [exact Hi|]. intros y Hy. unfold is_word in *.
  set (n := N.to_nat (2 ^ w)). set (F := fun k => N.to_nat (f (N.of_nat k))).
  assert (HF : bFun n F).
  { intros k Hk. unfold F, n in *. specialize (Hf (N.of_nat k)). lia. }
  assert (HI : bInjective n F).
  { intros a b Ha Hb E. unfold F, n in *. apply N2Nat.inj in E. apply Hi in E; lia. }
  apply (bInjective_bSurjective HF) in HI. destruct (HI (N.to_nat y)) as (k & Hk & E).
  { unfold n. lia. }
  exists (N.of_nat k). unfold F, n in *. split; [lia|]. apply N2Nat.inj, E.
Qed.

Lemma bij_comp w f g : word_bijection w f -> word_bijection w g -> word_bijection w (fun x => g (f x)).
Proof.
  intros (Hf1 & Hf2 & Hf3) (Hg1 & Hg2 & Hg3). split; [auto|]. split.
  - intros x y Hx Hy E. apply Hf2; auto.
  - intros z Hz. destruct (Hg3 z Hz) as (y & Hy & <-). destruct (Hf3 y Hy) as (x & Hx & <-).
    exists x. auto.
Qed.

Lemma bij_ext w f g : (forall x, is_word w x -> f x = g x) -> word_bijection w f -> word_bijection w g.
Proof.
  intros E (H1 & H2 & H3). split; [intros x Hx; rewrite <- E by exact Hx; auto|]. split.
  - intros x y Hx Hy Exy. apply H2; auto. rewrite !E by assumption. exact Exy.
  - intros y Hy. destruct (H3 y Hy) as (x & Hx & <-). exists x. split; [exact Hx|]. symmetry. auto.
Qed.

Lemma bij_id w : word_bijection w (fun x => x).
Proof. apply (bij_intro w _ (fun x => x)); auto. Qed.
