(* The AES generators: bijectivity. *)
From Coq Require Import Lia.
From Verif Require Import Base WordLemmas BitwiseSpec WordBij StreamModel PrngModel PrngSpec PrngProofs PeriodProofs EngineModel MtProofs AesModel.
Open Scope N_scope.

Definition bytes256 : list N := map N.of_nat (seq 0 256).
Lemma bytes_all (P : N -> bool) : forallb P bytes256 = true -> forall a, a < 256 -> P a = true.
Proof.
  intros H a Ha. rewrite forallb_forall in H. apply H. unfold bytes256. rewrite <- (N2Nat.id a). apply in_map, in_seq. lia.
Qed.
Definition inv_sub_byte (s : N) : N := gf_inv (N.lxor (rol8 s 1) (N.lxor (rol8 s 3) (N.lxor (rol8 s 6) 5))).
Lemma sub_table : forallb (fun a => (inv_sub_byte (sub_byte a) =? a) && (sub_byte a <? 256)) bytes256 = true.
Proof. vm_compute. reflexivity. Qed.
Lemma sub_ok a : a < 256 -> inv_sub_byte (sub_byte a) = a /\ sub_byte a < 256.
Proof. intros H. apply (bytes_all _ sub_table) in H. apply andb_prop in H. destruct H as [A B]. apply N.eqb_eq in A. apply N.ltb_lt in B. split; assumption. Qed.
Lemma sub_inj a b : a < 256 -> b < 256 -> sub_byte a = sub_byte b -> a = b.
Proof. intros Ha Hb E. rewrite <- (proj1 (sub_ok a Ha)), <- (proj1 (sub_ok b Hb)), E. reflexivity. Qed.

Lemma byte_lin r : lin (byte r).
Proof. apply (comp_lin (fun x => N.shiftr x (8 * r)) (fun x => N.land x 255)); [apply shiftr_lin|apply land_lin]. Qed.
Lemma byte_lt r x : byte r x < 256.
Proof. unfold byte. change 255 with (N.ones 8). rewrite N.land_ones. apply N.mod_lt. discriminate. Qed.
Lemma lxor4 a b c d a' b' c' d' : N.lxor (N.lxor a a') (N.lxor (N.lxor b b') (N.lxor (N.lxor c c') (N.lxor d d'))) = N.lxor (N.lxor a (N.lxor b (N.lxor c d))) (N.lxor a' (N.lxor b' (N.lxor c' d'))).
Proof. rewrite (lxor_swap c c' d d'), (lxor_swap b b'), (lxor_swap a a'). reflexivity. Qed.
Lemma word4_lxor a b c d a' b' c' d' : word4 (N.lxor a a') (N.lxor b b') (N.lxor c c') (N.lxor d d') = N.lxor (word4 a b c d) (word4 a' b' c' d').
Proof. unfold word4. rewrite !N.shiftl_lxor. apply lxor4. Qed.
Lemma word4_lin f g h k : lin f -> lin g -> lin h -> lin k -> lin (fun x => word4 (f x) (g x) (h x) (k x)).
Proof. intros F G H K x y. rewrite F, G, H, K. apply word4_lxor. Qed.
Lemma split_table : forallb (fun i => N.eqb (word4 (byte 0 (2 ^ i)) (byte 1 (2 ^ i)) (byte 2 (2 ^ i)) (byte 3 (2 ^ i))) (2 ^ i)) (map N.of_nat (seq 0 32)) = true.
Proof. vm_compute. reflexivity. Qed.
Lemma basis32 (f g : N -> N) : lin f -> lin g -> forallb (fun i => f (2 ^ i) =? g (2 ^ i)) (map N.of_nat (seq 0 32)) = true -> forall x, is_word 32 x -> f x = g x.
Proof.
  intros F G T x Hx. revert x Hx. apply word_basis_ind.
  - rewrite (lin_0 f F), (lin_0 g G). reflexivity.
  - intros i Hi. rewrite forallb_forall in T. apply N.eqb_eq, T. rewrite <- (N2Nat.id i). apply in_map, in_seq. lia.
  - intros x y _ _ Ex Ey. rewrite F, G, Ex, Ey. reflexivity.
Qed.
Lemma byte_split x : is_word 32 x -> word4 (byte 0 x) (byte 1 x) (byte 2 x) (byte 3 x) = x.
Proof. apply (basis32 (fun x => word4 (byte 0 x) (byte 1 x) (byte 2 x) (byte 3 x)) (fun x => x)); [apply word4_lin; apply byte_lin|apply id_lin|exact split_table]. Qed.
Lemma byte_table : forallb (fun b => (byte 0 b =? b) && (byte 1 b =? 0) && (byte 2 b =? 0) && (byte 3 b =? 0) &&
  (byte 0 (N.shiftl b 8) =? 0) && (byte 1 (N.shiftl b 8) =? b) && (byte 2 (N.shiftl b 8) =? 0) && (byte 3 (N.shiftl b 8) =? 0) &&
  (byte 0 (N.shiftl b 16) =? 0) && (byte 1 (N.shiftl b 16) =? 0) && (byte 2 (N.shiftl b 16) =? b) && (byte 3 (N.shiftl b 16) =? 0) &&
  (byte 0 (N.shiftl b 24) =? 0) && (byte 1 (N.shiftl b 24) =? 0) && (byte 2 (N.shiftl b 24) =? 0) && (byte 3 (N.shiftl b 24) =? b) &&
  (N.shiftl b 24 <? 4294967296))%bool bytes256 = true.
Proof. vm_compute. reflexivity. Qed.
Lemma bytes_word4 a b c d : a < 256 -> b < 256 -> c < 256 -> d < 256 ->
  byte 0 (word4 a b c d) = a /\ byte 1 (word4 a b c d) = b /\ byte 2 (word4 a b c d) = c /\ byte 3 (word4 a b c d) = d.
Proof.
  intros Ha Hb Hc Hd. apply (bytes_all _ byte_table) in Ha, Hb, Hc, Hd.
  repeat (match goal with H : (_ && _)%bool = true |- _ => apply andb_prop in H; destruct H end).
  repeat (match goal with H : (_ =? _) = true |- _ => apply N.eqb_eq in H end).
  unfold word4. repeat split; rewrite !(byte_lin _); repeat (match goal with H : byte _ _ = _ |- _ => rewrite H; clear H end); rewrite ?N.lxor_0_r, ?N.lxor_0_l; reflexivity.
Qed.
Lemma word4_word a b c d : a < 256 -> b < 256 -> c < 256 -> d < 256 -> is_word 32 (word4 a b c d).
Proof.
  intros Ha Hb Hc Hd. unfold word4. assert (S : forall x k, x < 256 -> k <= 24 -> is_word 32 (N.shiftl x k)).
  { intros x k Hx Hk. unfold is_word. rewrite N.shiftl_mul_pow2. assert (K : 2 ^ k <= 2 ^ 24) by (apply N.pow_le_mono_r; lia).
    change (2 ^ 32) with (256 * 2 ^ 24). nia. }
  repeat apply word_lxor; try (apply S; [assumption|discriminate]). unfold is_word. change (2 ^ 32) with 4294967296. lia.
Qed.

Lemma xtime_lin : lin xtime.
Proof.
  intros x y. unfold xtime. rewrite N.lxor_spec, N.shiftl_lxor, (land_lin 255), lxor_swap. f_equal. destruct (N.testbit x 7), (N.testbit y 7); reflexivity.
Qed.
Lemma xtime_lt a : xtime a < 256.
Proof. change 256 with (2 ^ 8). apply (word_lxor 8); [unfold is_word; change 255 with (N.ones 8); rewrite N.land_ones; apply N.mod_lt; discriminate|destruct (N.testbit a 7); reflexivity]. Qed.
Lemma mix_row_lxor a b c d a' b' c' d' : mix_row (N.lxor a a') (N.lxor b b') (N.lxor c c') (N.lxor d d') = N.lxor (mix_row a b c d) (mix_row a' b' c' d').
Proof. unfold mix_row. rewrite !xtime_lin. rewrite (lxor_swap c c' d d'), (lxor_swap (xtime b) (xtime b') b b'), (lxor_swap _ _ (N.lxor c d)). apply lxor_swap. Qed.
Lemma lxor_lt a b : a < 256 -> b < 256 -> N.lxor a b < 256.
Proof. exact (word_lxor 8 a b). Qed.
Lemma mix_row_lt a b c d : a < 256 -> b < 256 -> c < 256 -> d < 256 -> mix_row a b c d < 256.
Proof. intros. unfold mix_row. apply lxor_lt; [apply xtime_lt|]. apply lxor_lt; [apply lxor_lt; [apply xtime_lt|assumption]|apply lxor_lt; assumption]. Qed.
Lemma mix_lin : lin mix_column.
Proof. intros x y. unfold mix_column. rewrite !(byte_lin _). rewrite !mix_row_lxor. apply word4_lxor. Qed.
Lemma mix_word x : is_word 32 (mix_column x).
Proof. apply word4_word; apply mix_row_lt; apply byte_lt. Qed.
Lemma mix_order x : is_word 32 x -> mix_column (mix_column (mix_column (mix_column x))) = x.
Proof.
  apply (basis32 (fun x => mix_column (mix_column (mix_column (mix_column x)))) (fun x => x)).
  - intros u v. rewrite !mix_lin. reflexivity.
  - apply id_lin.
  - vm_compute. reflexivity.
Qed.
Lemma mix_inj x y : is_word 32 x -> is_word 32 y -> mix_column x = mix_column y -> x = y.
Proof. intros Hx Hy E. rewrite <- (mix_order x Hx), <- (mix_order y Hy), E. reflexivity. Qed.

Lemma shift_sub_word a b c d : is_word 32 (shift_sub a b c d).
Proof. apply word4_word; apply sub_ok, byte_lt. Qed.
Lemma word4_inj a b c d a' b' c' d' : a < 256 -> b < 256 -> c < 256 -> d < 256 -> a' < 256 -> b' < 256 -> c' < 256 -> d' < 256 ->
  word4 a b c d = word4 a' b' c' d' -> a = a' /\ b = b' /\ c = c' /\ d = d'.
Proof.
  intros Ha Hb Hc Hd Ha' Hb' Hc' Hd' E. destruct (bytes_word4 a b c d Ha Hb Hc Hd) as (A0 & A1 & A2 & A3). destruct (bytes_word4 a' b' c' d' Ha' Hb' Hc' Hd') as (B0 & B1 & B2 & B3).
  rewrite E in A0, A1, A2, A3. split; [exact (eq_trans (eq_sym A0) B0)|]. split; [exact (eq_trans (eq_sym A1) B1)|]. split; [exact (eq_trans (eq_sym A2) B2)|exact (eq_trans (eq_sym A3) B3)].
Qed.
Lemma sub_byte_lt r x : sub_byte (byte r x) < 256.
Proof. exact (proj2 (sub_ok (byte r x) (byte_lt r x))). Qed.
Lemma sub_byte_inj r x y : sub_byte (byte r x) = sub_byte (byte r y) -> byte r x = byte r y.
Proof. exact (sub_inj (byte r x) (byte r y) (byte_lt r x) (byte_lt r y)). Qed.
Lemma shift_sub_eq a b c d : shift_sub a b c d = word4 (sub_byte (byte 0 a)) (sub_byte (byte 1 b)) (sub_byte (byte 2 c)) (sub_byte (byte 3 d)).
Proof. reflexivity. Qed.
Lemma shift_sub_inj a b c d a' b' c' d' : shift_sub a b c d = shift_sub a' b' c' d' ->
  byte 0 a = byte 0 a' /\ byte 1 b = byte 1 b' /\ byte 2 c = byte 2 c' /\ byte 3 d = byte 3 d'.
Proof.
  intros E. rewrite !shift_sub_eq in E. destruct (word4_inj _ _ _ _ _ _ _ _ (sub_byte_lt 0 a) (sub_byte_lt 1 b) (sub_byte_lt 2 c) (sub_byte_lt 3 d) (sub_byte_lt 0 a') (sub_byte_lt 1 b') (sub_byte_lt 2 c') (sub_byte_lt 3 d') E) as (E0 & E1 & E2 & E3).
  split; [exact (sub_byte_inj 0 a a' E0)|]. split; [exact (sub_byte_inj 1 b b' E1)|]. split; [exact (sub_byte_inj 2 c c' E2)|exact (sub_byte_inj 3 d d' E3)].
Qed.
Lemma lxor_r_inj x y k : N.lxor x k = N.lxor y k -> x = y.
Proof. intros E. rewrite <- (N.lxor_0_r x), <- (N.lxor_0_r y), <- (N.lxor_nilpotent k), <- !N.lxor_assoc, E. reflexivity. Qed.
Lemma pair4 (a b c d a' b' c' d' : N) : (a, b, c, d) = (a', b', c', d') -> a = a' /\ b = b' /\ c = c' /\ d = d'.
Proof. intros E. injection E as -> -> -> ->. repeat split. Qed.
Lemma pair2 (a b a' b' : N) : (a, b) = (a', b') -> a = a' /\ b = b'.
Proof. intros E. injection E as -> ->. repeat split. Qed.
Lemma aesenc_eq a b c d k0 k1 k2 k3 : aesenc (a, b, c, d) (k0, k1, k2, k3) =
  (N.lxor (mix_column (shift_sub a b c d)) k0, N.lxor (mix_column (shift_sub b c d a)) k1, N.lxor (mix_column (shift_sub c d a b)) k2, N.lxor (mix_column (shift_sub d a b c)) k3).
Proof. reflexivity. Qed.
Lemma column_inj a b c d a' b' c' d' k : N.lxor (mix_column (shift_sub a b c d)) k = N.lxor (mix_column (shift_sub a' b' c' d')) k ->
  byte 0 a = byte 0 a' /\ byte 1 b = byte 1 b' /\ byte 2 c = byte 2 c' /\ byte 3 d = byte 3 d'.
Proof.
  intros E. apply lxor_r_inj in E. exact (shift_sub_inj _ _ _ _ _ _ _ _ (mix_inj _ _ (shift_sub_word a b c d) (shift_sub_word a' b' c' d') E)).
Qed.
Lemma aesenc_inj s t k : words4 32 s -> words4 32 t -> aesenc s k = aesenc t k -> s = t.
Proof.
  destruct s as [[[a b] c] d], t as [[[a' b'] c'] d'], k as [[[k0 k1] k2] k3]. intros (Ha & Hb & Hc & Hd) (Ha' & Hb' & Hc' & Hd') E.
  rewrite !aesenc_eq in E. apply pair4 in E. destruct E as (E0 & E1 & E2 & E3). apply column_inj in E0, E1, E2, E3.
  destruct E0 as (P0 & P1 & P2 & P3), E1 as (Q0 & Q1 & Q2 & Q3), E2 as (R0 & R1 & R2 & R3), E3 as (S0 & S1 & S2 & S3).
  rewrite <- (byte_split a Ha), <- (byte_split b Hb), <- (byte_split c Hc), <- (byte_split d Hd).
  rewrite <- (byte_split a' Ha'), <- (byte_split b' Hb'), <- (byte_split c' Hc'), <- (byte_split d' Hd').
  rewrite P0, P1, P2, P3, Q0, Q1, Q2, Q3, R0, R1, R2, R3, S0, S1, S2, S3. reflexivity.
Qed.
Lemma aesenc_words s k : words4 32 k -> words4 32 (aesenc s k).
Proof. destruct s as [[[a b] c] d], k as [[[k0 k1] k2] k3]. intros (H0 & H1 & H2 & H3). repeat split; apply word_lxor; try assumption; apply mix_word. Qed.

Lemma aes_mix_eq x : aes_mix x = N.lxor (mix_column (shift_sub x x x x)) aes_key.
Proof. reflexivity. Qed.
Lemma aes_mix_bij : word_bijection 32 aes_mix.
Proof.
  apply inj_bij.
  - intros x _. rewrite aes_mix_eq. apply word_lxor; [apply mix_word|reflexivity].
  - intros x y Hx Hy E. rewrite !aes_mix_eq in E. apply column_inj in E.
    destruct E as (E0 & E1 & E2 & E3). rewrite <- (byte_split x Hx), <- (byte_split y Hy), E0, E1, E2, E3. reflexivity.
Qed.

(* one changed byte changes all four *)
Lemma spread_table : forallb (fun d => (d =? 0) || forallb (fun r => forallb (fun q => negb (byte q (mix_column (N.shiftl d (8 * r))) =? 0)) [0; 1; 2; 3]) [0; 1; 2; 3])%bool bytes256 = true.
Proof. vm_compute. reflexivity. Qed.
Lemma spread d r q : d < 256 -> d <> 0 -> r < 4 -> q < 4 -> byte q (mix_column (N.shiftl d (8 * r))) <> 0.
Proof.
  intros Hd Z Hr Hq E. apply (bytes_all _ spread_table) in Hd. apply Bool.orb_prop in Hd. destruct Hd as [Hd|Hd]; [apply N.eqb_eq in Hd; contradiction|].
  assert (I : forall v, v < 4 -> In v [0; 1; 2; 3]) by (intros v Hv; cbn; lia).
  rewrite forallb_forall in Hd. specialize (Hd r (I r Hr)). rewrite forallb_forall in Hd. specialize (Hd q (I q Hq)). rewrite E in Hd. discriminate Hd.
Qed.
Lemma lxor_ne a b : a <> b -> N.lxor a b <> 0.
Proof. intros H E. apply H, N.lxor_eq, E. Qed.
Lemma word4_single (v : N -> N) r : r < 4 -> (forall p, p < 4 -> p <> r -> v p = 0) -> word4 (v 0) (v 1) (v 2) (v 3) = N.shiftl (v r) (8 * r).
Proof.
  intros Hr Z. assert (R : r = 0 \/ r = 1 \/ r = 2 \/ r = 3) by lia. unfold word4.
  destruct R as [R|[R|[R|R]]]; subst r.
  - rewrite (Z 1), (Z 2), (Z 3) by (reflexivity || discriminate). rewrite !N.shiftl_0_l, !N.lxor_0_r. symmetry. apply N.shiftl_0_r.
  - rewrite (Z 0), (Z 2), (Z 3) by (reflexivity || discriminate). rewrite !N.shiftl_0_l, !N.lxor_0_r, N.lxor_0_l. reflexivity.
  - rewrite (Z 0), (Z 1), (Z 3) by (reflexivity || discriminate). rewrite !N.shiftl_0_l, !N.lxor_0_r, !N.lxor_0_l. reflexivity.
  - rewrite (Z 0), (Z 1), (Z 2) by (reflexivity || discriminate). rewrite !N.shiftl_0_l, !N.lxor_0_l. reflexivity.
Qed.
Lemma spread_diff (u v : N -> N) r q : r < 4 -> q < 4 -> (forall p, u p < 256) -> (forall p, v p < 256) -> (forall p, p < 4 -> p <> r -> u p = v p) -> u r <> v r ->
  byte q (mix_column (word4 (u 0) (u 1) (u 2) (u 3))) <> byte q (mix_column (word4 (v 0) (v 1) (v 2) (v 3))).
Proof.
  intros Hr Hq Hu Hv Z D E.
  assert (W : word4 (N.lxor (u 0) (v 0)) (N.lxor (u 1) (v 1)) (N.lxor (u 2) (v 2)) (N.lxor (u 3) (v 3)) = N.shiftl (N.lxor (u r) (v r)) (8 * r)).
  { refine (word4_single (fun p => N.lxor (u p) (v p)) r Hr _). intros p Hp Np. cbv beta. rewrite (Z p Hp Np). apply N.lxor_nilpotent. }
  apply (spread (N.lxor (u r) (v r)) r q (lxor_lt _ _ (Hu r) (Hv r)) (lxor_ne _ _ D) Hr Hq).
  rewrite <- W, word4_lxor, mix_lin, (byte_lin q _ (mix_column _)), E. apply N.lxor_nilpotent.
Qed.
Lemma key_out q a b k : byte q (N.lxor a k) = byte q (N.lxor b k) -> byte q a = byte q b.
Proof. intros E. rewrite (byte_lin q a k), (byte_lin q b k) in E. exact (lxor_r_inj _ _ _ E). Qed.
Lemma aes_mix_spread x y r q : r < 4 -> q < 4 -> (forall p, p < 4 -> (byte p x = byte p y <-> p <> r)) -> byte q (aes_mix x) <> byte q (aes_mix y).
Proof.
  intros Hr Hq D E. rewrite !aes_mix_eq in E. apply key_out in E. rewrite !shift_sub_eq in E. revert E.
  apply (spread_diff (fun p => sub_byte (byte p x)) (fun p => sub_byte (byte p y)) r q Hr Hq (fun p => sub_byte_lt p x) (fun p => sub_byte_lt p y)).
  - intros p Hp Np. rewrite (proj2 (D p Hp) Np). reflexivity.
  - intros B. apply sub_byte_inj in B. apply (D r Hr) in B. apply B. reflexivity.
Qed.

(* ---- the 128-bit state ---- *)
Lemma add64_words a b k : is_word 32 (fst (add64 a b k)) /\ is_word 32 (snd (add64 a b k)).
Proof.
  unfold add64. cbn [fst snd]. split; [apply wrap_word|]. assert (W := wrap_word 64 (a + 2 ^ 32 * b + k)). unfold is_word in *. rewrite N.shiftr_div_pow2.
  apply N.div_lt_upper_bound; [discriminate|]. exact W.
Qed.
Lemma add64_inj a b a' b' k : is_word 32 a -> is_word 32 b -> is_word 32 a' -> is_word 32 b' -> add64 a b k = add64 a' b' k -> a = a' /\ b = b'.
Proof.
  intros Ha Hb Ha' Hb' E. unfold add64 in E. apply pair2 in E. destruct E as [E1 E2]. unfold is_word in *. change (2 ^ 32) with 4294967296 in *.
  assert (E : wrap 64 (a + 4294967296 * b + k) = wrap 64 (a' + 4294967296 * b' + k)).
  { rewrite !N.shiftr_div_pow2 in E2. unfold wrap at 1 3 in E1. change (2 ^ 32) with 4294967296 in *.
    rewrite (N.div_mod (wrap 64 (a + 4294967296 * b + k)) 4294967296), (N.div_mod (wrap 64 (a' + 4294967296 * b' + k)) 4294967296) by discriminate. rewrite E1, E2. reflexivity. }
  apply (addw_inj 64) in E; [|unfold is_word; change (2 ^ 64) with (4294967296 * 4294967296); nia|unfold is_word; change (2 ^ 64) with (4294967296 * 4294967296); nia]. clear E1 E2. nia.
Qed.
Lemma aes_reversible : reversible (words4 32) aes_step.
Proof.
  apply reversible_words4.
  - intros s _. apply aesenc_words. repeat split.
  - intros s t Hs Ht E. unfold aes_step in E.
    assert (W : forall s, words4 32 (add_epi64 s aes_inc_lo aes_inc_hi)).
    { intros [[[a b] c] d]. unfold add_epi64. destruct (add64_words a b aes_inc_lo) as [A B], (add64_words c d aes_inc_hi) as [C D].
      destruct (add64 a b aes_inc_lo), (add64 c d aes_inc_hi). repeat split; assumption. }
    apply aesenc_inj in E; [|apply W|apply W]. destruct s as [[[a b] c] d], t as [[[a' b'] c'] d']. destruct Hs as (Ha & Hb & Hc & Hd), Ht as (Ha' & Hb' & Hc' & Hd').
    unfold add_epi64 in E. destruct (add64 a b aes_inc_lo) as [x1 x2] eqn:X, (add64 c d aes_inc_hi) as [y1 y2] eqn:Y.
    destruct (add64 a' b' aes_inc_lo) as [x1' x2'] eqn:X', (add64 c' d' aes_inc_hi) as [y1' y2'] eqn:Y'. apply pair4 in E. destruct E as (-> & -> & -> & ->).
    rewrite <- X' in X. rewrite <- Y' in Y. apply add64_inj in X; try assumption. apply add64_inj in Y; try assumption. destruct X as [-> ->], Y as [-> ->]. reflexivity.
Qed.
Lemma aes_output sd i : output rng32_aes sd i = Nat.iter (N.to_nat i) aes_mix (aes_mix (s32 sd 0)).
Proof. exact (xorshift_output aes_mix (fun sd => s32 sd 0) sd i). Qed.
Lemma aes_periodic sd : exists p, 0 < p /\ p <= 2 ^ 32 /\ periodic p (output rng32_aes sd).
Proof. apply (mixer_gen_cycles 32 aes_mix (fun sd => s32 sd 0) sd aes_mix_bij). apply wrap_word. Qed.
Lemma aes128_state sd i : state_at rng32_aes_128 sd i = Nat.iter (N.to_nat i) aes_step (quad sd).
Proof. reflexivity. Qed.
Lemma aes128_output sd i : output rng32_aes_128 sd i = let '(a, _, _, _) := Nat.iter (N.to_nat i) aes_step (aes_step (quad sd)) in a.
Proof. rewrite <- iter_S_r. reflexivity. Qed.
Lemma aes128_periodic sd : exists p, 0 < p /\ p <= 2 ^ 128 /\ periodic p (output rng32_aes_128 sd).
Proof.
  destruct aes_reversible as (V & I & _). assert (Q : words4 32 (quad sd)) by (repeat split; apply wrap_word).
  destruct (orbit_cycles (words4 32) aes_step V I (enc4 32) (2 ^ (4 * 32)) (enc4_bound 32) (enc4_inj 32) _ (V _ Q)) as (p & Hp & Hn & E).
  exists (N.of_nat p). split; [lia|]. split; [exact Hn|]. intro i. rewrite !aes128_output, N2Nat.inj_add, Nat2N.id, iter_add, E. reflexivity.
Qed.
