(* Proofs about the printed search configurations. *)
From Coq Require Import NArith ZArith List String Ascii DecimalString DecimalN Lia.
From Verif Require Import Base BitVectorModel MixerModel ResultModel ConfigModel ConfigSpec.
Import ListNotations.
Open Scope N_scope.

Lemma app_assoc_s (a b c : string) : ((a ++ b) ++ c = a ++ (b ++ c))%string.
Proof. induction a as [|x a IH]; [reflexivity|]. cbn. rewrite IH. reflexivity. Qed.
Lemma cut_app p s : cut p (p ++ s)%string = Some s.
Proof. induction p as [|a p IH]; [reflexivity|]. cbn. rewrite Ascii.eqb_refl. exact IH. Qed.
Lemma digits_uint u c r : is_digit c = false -> digits (NilEmpty.string_of_uint u ++ String c r)%string = (NilEmpty.string_of_uint u, String c r).
Proof.
  intros H. induction u as [|u IH|u IH|u IH|u IH|u IH|u IH|u IH|u IH|u IH|u IH]; cbn [NilEmpty.string_of_uint String.append digits]; [rewrite H; reflexivity|..];
    (match goal with |- context [is_digit ?a] => change (is_digit a) with true end; cbn iota; rewrite IH; reflexivity).
Qed.
Lemma to_string_nonempty n : to_string_N n <> EmptyString.
Proof.
  unfold to_string_N. intros H. assert (E : N.to_uint n = Decimal.Nil). { pose proof (NilEmpty.usu (N.to_uint n)) as A. rewrite H in A. cbn in A. congruence. }
  destruct n as [|p]; [discriminate E|]. cbn in E. exact (DecimalPos.Unsigned.to_uint_nonnil p E).
Qed.
Lemma read_number_spec n c r : is_digit c = false -> read_number (to_string_N n ++ String c r)%string = Some (n, String c r).
Proof.
  intros H. unfold read_number. pose proof (to_string_nonempty n) as NE. unfold to_string_N in *. rewrite digits_uint by exact H.
  destruct (NilEmpty.string_of_uint (N.to_uint n)) as [|a s] eqn:E; [congruence|]. rewrite <- E, NilEmpty.usu, Unsigned.of_to. reflexivity.
Qed.
Lemma number_eq w n : w <> 8 -> number w n = to_string_N n.
Proof. intros H. unfold number. apply N.eqb_neq in H. rewrite H. reflexivity. Qed.
Lemma read_shift w c r : w <> 8 -> read_line (shift_line w c ++ r)%string = Some (Shift c, r).
Proof.
  intros H. unfold shift_line. rewrite (number_eq w c H), !app_assoc_s. unfold read_line. rewrite cut_app.
  change ((";" ++ newline ++ r)%string) with (String ";" (newline ++ r)%string). rewrite read_number_spec by reflexivity.
  change (String ";" (newline ++ r)%string) with (end_of_line ++ r)%string. rewrite cut_app. reflexivity.
Qed.
Lemma read_times_ull w m r : w <> 8 -> read_line (multiply_line w "ull" m ++ r)%string = Some (Times true m, r).
Proof.
  intros H. unfold multiply_line. rewrite (number_eq w m H), !app_assoc_s. unfold read_line.
  assert (K : forall s, cut "    x ^= x >> " ("    x *= " ++ s)%string = None) by reflexivity. rewrite K, cut_app. clear K.
  change (("ull" ++ ";" ++ newline ++ r)%string) with (String "u" ("ll;" ++ newline ++ r)%string). rewrite read_number_spec by reflexivity.
  change (String "u" ("ll;" ++ newline ++ r)%string) with (("ull" ++ end_of_line) ++ r)%string. rewrite cut_app. reflexivity.
Qed.
Lemma read_times w m r : w <> 8 -> read_line (multiply_line w "" m ++ r)%string = Some (Times false m, r).
Proof.
  intros H. unfold multiply_line. rewrite (number_eq w m H), !app_assoc_s. unfold read_line.
  assert (K : forall s, cut "    x ^= x >> " ("    x *= " ++ s)%string = None) by reflexivity. rewrite K, cut_app. clear K.
  change (("" ++ ";" ++ newline ++ r)%string) with (String ";" (newline ++ r)%string). rewrite read_number_spec by reflexivity.
  assert (K : cut ("ull" ++ end_of_line) (String ";" (newline ++ r)%string) = None) by reflexivity. rewrite K.
  change (String ";" (newline ++ r)%string) with (end_of_line ++ r)%string. rewrite cut_app. reflexivity.
Qed.
Definition text_of (w : N) (l : line) : string := match l with Shift c => shift_line w c | Times true m => multiply_line w "ull" m | Times false m => multiply_line w "" m end.
Fixpoint texts (w : N) (ls : list line) : string := match ls with [] => EmptyString | l :: r => (text_of w l ++ texts w r)%string end.
Lemma read_text w l r : w <> 8 -> read_line (text_of w l ++ r)%string = Some (l, r).
Proof. intros H. destruct l as [c|[] m]; [apply read_shift, H|apply read_times_ull, H|apply read_times, H]. Qed.
Lemma length_app_s (a b : string) : String.length (a ++ b) = (String.length a + String.length b)%nat.
Proof. induction a as [|x a IH]; [reflexivity|]. cbn. rewrite IH. reflexivity. Qed.
Lemma text_cons w l : exists a s, text_of w l = String a s.
Proof. destruct l as [c|[] m]; eexists _, _; reflexivity. Qed.
Lemma read_texts w ls : w <> 8 -> forall f, (String.length (texts w ls) <= f)%nat -> read_lines f (texts w ls) = Some ls.
Proof.
  intros H. induction ls as [|l ls IH]; intros f Hf; [destruct f; reflexivity|]. cbn [texts] in *. destruct (text_cons w l) as (a & s & E). pose proof (read_text w l (texts w ls) H) as R. rewrite length_app_s in Hf.
  rewrite E in *. cbn [String.length] in Hf. destruct f as [|f]; [lia|]. cbn [String.append read_lines]. cbn [String.append] in R. rewrite R. rewrite IH by lia. reflexivity.
Qed.
Lemma read_code_texts w ls : w <> 8 -> read_code (texts w ls) = Some ls.
Proof. intros H. apply read_texts; [exact H|lia]. Qed.

Lemma app_nil_s (a : string) : (a ++ "" = a)%string.
Proof. induction a as [|x a IH]; [reflexivity|]. cbn. rewrite IH. reflexivity. Qed.
Lemma xmx_texts w c1 c2 m : xmx_to_str w c1 c2 m = texts w [Shift c1; Times true m; Shift c2].
Proof. unfold xmx_to_str. cbn [texts text_of]. rewrite app_nil_s. reflexivity. Qed.
Lemma xm2x_texts w c1 c2 c3 m : xm2x_to_str w c1 c2 c3 m = texts w [Shift c1; Times false m; Shift c2; Times false m; Shift c3].
Proof. unfold xm2x_to_str. cbn [texts text_of]. rewrite app_nil_s. reflexivity. Qed.
Lemma xm3x_texts w c1 c2 c3 c4 m : xm3x_to_str w c1 c2 c3 c4 m = texts w [Shift c1; Times true m; Shift c2; Times true m; Shift c3; Times true m; Shift c4].
Proof. unfold xm3x_to_str. cbn [texts text_of]. rewrite app_nil_s. reflexivity. Qed.

Lemma run_shift w c x y : In w widths -> xshr_assign w c x = Ok y -> run_line w (Shift c) x = Ok y.
Proof.
  intros Hw H. unfold xshr_assign, promoted in H. cbn [run_line].
  assert (W : (if w <? 32 then 32 else w) = N.max 32 w) by (destruct (w <? 32) eqn:E; [apply N.ltb_lt in E|apply N.ltb_ge in E]; lia).
  rewrite W. destruct (_ <=? c) eqn:E in H; [discriminate H|]. apply N.leb_gt in E.
  replace (c <? N.max 32 w) with true; [exact H|]. symmetry. apply N.ltb_lt. revert E. destruct Hw as [<-|[<-|[<-|[<-|[]]]]]; cbn; lia.
Qed.
Lemma mod_mod_pow a v w : w <= v -> (a mod 2 ^ v) mod 2 ^ w = a mod 2 ^ w.
Proof.
  intros H. replace v with (w + (v - w)) by lia. rewrite N.pow_add_r. set (p := 2 ^ w). set (q := 2 ^ (v - w)). assert (p <> 0) by (apply N.pow_nonzero; discriminate). assert (q <> 0) by (apply N.pow_nonzero; discriminate).
  rewrite N.mod_mul_r by assumption. rewrite (N.mul_comm p ((a / p) mod q)), N.mod_add by assumption. apply N.mod_mod; assumption.
Qed.
Lemma run_times_ull w m x y : In w widths -> is_word w m -> mul_assign w m x = Ok y -> run_line w (Times true m) x = Ok y.
Proof.
  intros Hw Hm H. assert (W : w <= 64) by (destruct Hw as [<-|[<-|[<-|[<-|[]]]]]; lia). unfold is_word in Hm.
  assert (M : m < 2 ^ 64) by (eapply N.lt_le_trans; [exact Hm|apply N.pow_le_mono_r; lia]). apply N.ltb_lt in M. cbn [run_line]. rewrite M, mod_mod_pow by exact W.
  unfold mul_assign, mulw, wrap in H. destruct (w <? 32); [destruct (_ <? x * m); [discriminate H|exact H]|exact H].
Qed.
Lemma run_times w m x y : In w widths -> is_word w m -> is_word w x -> m < 2 ^ 31 \/ (w = 64 /\ m < 2 ^ 63) -> mul_assign w m x = Ok y -> run_line w (Times false m) x = Ok y.
Proof.
  intros Hw Hm Hx B H. cbn [run_line]. unfold mul_assign, mulw, wrap in H. destruct (m <? 2 ^ 31) eqn:E.
  - destruct (w <? 32); [|exact H]. destruct (_ <? x * m) eqn:E2 in H; [discriminate H|]. apply N.ltb_ge in E2. replace (x * m <? 2 ^ 31) with true by (symmetry; apply N.ltb_lt; lia). exact H.
  - apply N.ltb_ge in E. destruct B as [B|[-> B]]; [lia|]. replace (m <? 2 ^ 63) with true by (symmetry; apply N.ltb_lt; exact B). exact H.
Qed.
Lemma xshr_word w c x y : is_word w x -> xshr_assign w c x = Ok y -> is_word w y.
Proof.
  unfold xshr_assign. intros Hx H. destruct (_ <=? _); [discriminate H|]. assert (E : y = xshr c x) by congruence. subst y. unfold xshr, is_word in *.
  destruct (N.eq_dec (N.lxor x (N.shiftr x c)) 0) as [->|NZ]; [apply N.neq_0_lt_0, N.pow_nonzero; discriminate|].
  apply N.log2_lt_pow2; [lia|]. eapply N.le_lt_trans; [apply N.log2_lxor|]. 
  destruct (N.eq_dec x 0) as [->|XZ]; [rewrite N.shiftr_0_l, N.lxor_0_l in NZ; congruence|].
  assert (L : N.log2 (N.shiftr x c) <= N.log2 x). { apply N.log2_le_mono. rewrite N.shiftr_div_pow2. apply N.div_le_upper_bound; [apply N.pow_nonzero; discriminate|]. assert (1 <= 2 ^ c) by (apply N.lt_pred_le, N.neq_0_lt_0, N.pow_nonzero; discriminate). nia. }
  rewrite N.max_l by exact L. apply N.log2_lt_pow2; lia.
Qed.
Lemma mul_word w m x y : mul_assign w m x = Ok y -> is_word w y.
Proof.
  unfold mul_assign, mulw, wrap, is_word. intros H. assert (P : 2 ^ w <> 0) by (apply N.pow_nonzero; discriminate).
  destruct (w <? 32); [destruct (_ <? _); [discriminate H|]|]; (assert (E : y = (x * m) mod 2 ^ w) by congruence; subst y; apply N.mod_lt, P).
Qed.
