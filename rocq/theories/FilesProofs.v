(* Proofs about binary files and ppm images. *)
From Coq Require Import String.
From Verif Require Import Base BitwiseSpec FilesModel.
Open Scope N_scope.
Lemma word_bytes_S k v : word_bytes (S k) v = v mod 256 :: word_bytes k (v / 256).
Proof.
  unfold word_bytes. cbn [seq map]. change (8 * N.of_nat 0) with 0. rewrite N.shiftr_0_r. f_equal. rewrite <- seq_shift, map_map. apply map_ext. intro i.
  f_equal. rewrite <- N.shiftr_div_pow2 with (n := 8), N.shiftr_shiftr. f_equal. lia.
Qed.
Lemma bytes_inverse k : forall v, v < 256 ^ N.of_nat k -> bytes_word (word_bytes k v) = v.
Proof.
  induction k as [|k IH]; intros v H; [change (N.of_nat 0) with 0 in H; rewrite N.pow_0_r in H; cbn; lia|].
  rewrite word_bytes_S. cbn [bytes_word fold_right]. fold (bytes_word (word_bytes k (v / 256))). rewrite IH.
  - pose proof (N.div_mod v 256 ltac:(discriminate)). lia.
  - apply N.div_lt_upper_bound; [discriminate|]. rewrite Nat2N.inj_succ, N.pow_succ_r' in H. exact H.
Qed.
Lemma word_bytes_length k v : length (word_bytes k v) = k.
Proof. unfold word_bytes. rewrite map_length, seq_length. reflexivity. Qed.
Lemma pow_256 k : 256 ^ N.of_nat k = 2 ^ (8 * N.of_nat k).
Proof. change 256 with (2 ^ 8). rewrite <- N.pow_mul_r. reflexivity. Qed.
(* bytes of a word made of bytes *)
Lemma bytes_word_ok bs : Forall (fun b => b < 256) bs -> bytes_word bs < 256 ^ N.of_nat (length bs) /\ forall i, (i < length bs)%nat -> bytes_word bs / 256 ^ N.of_nat i mod 256 = nth i bs 0.
Proof.
  induction bs as [|b bs IH]; intro F; [cbn; split; [reflexivity|lia]|]. cbn [bytes_word fold_right]. fold (bytes_word bs). destruct (IH (Forall_inv_tail F)) as [B I]. pose proof (Forall_inv F) as Hb. cbn beta in Hb. cbn [length]. split.
  - rewrite Nat2N.inj_succ, N.pow_succ_r'. nia.
  - intros i Hi. destruct i as [|i].
    + change (N.of_nat 0) with 0. rewrite N.pow_0_r, N.div_1_r. cbn [nth]. rewrite N.mul_comm, N.mod_add by discriminate. apply N.mod_small, Hb.
    + cbn [nth]. rewrite <- I by lia. rewrite Nat2N.inj_succ, N.pow_succ_r', <- N.div_div by (try discriminate; apply N.pow_nonzero; discriminate).
      do 2 f_equal. rewrite N.mul_comm, N.div_add by discriminate. rewrite N.div_small by exact Hb. reflexivity.
Qed.
Lemma skipn_skipn_add {A} a b (l : list A) : skipn (a * b) (skipn b l) = skipn (S a * b) l.
Proof. cbn [Nat.mul]. generalize (a * b)%nat. intro c. revert l. induction b as [|b IH]; intro l; [reflexivity|]. destruct l; cbn [skipn Nat.add]; [apply skipn_nil|apply IH]. Qed.
Lemma groups_chopped k m : (0 < k)%nat -> forall f, (m * k <= length f)%nat -> Forall (fun b => length b = k) (groups k m f) /\ f = concat (groups k m f) ++ skipn (m * k) f.
Proof.
  intros Hk. induction m as [|m IH]; intros f H; [split; [constructor|reflexivity]|]. cbn [groups concat]. destruct (IH (skipn k f)) as [F E]; [rewrite skipn_length; nia|]. split.
  - constructor; [apply firstn_length_le; nia|exact F].
  - rewrite <- app_assoc. rewrite <- (firstn_skipn k f) at 1. f_equal. rewrite E at 1. f_equal. apply skipn_skipn_add.
Qed.

Lemma firstn_subset {A} (v : A) n l : In v (firstn n l) -> In v l.
Proof. intro H. rewrite <- (firstn_skipn n l). apply in_app_iff. left. exact H. Qed.
Lemma skipn_firstn_sub {A} k n (l : list A) : skipn k (firstn n l) = firstn (n - k) (skipn k l).
Proof. revert n l. induction k as [|k IH]; intros n l; [rewrite Nat.sub_0_r; reflexivity|]. destruct l as [|x l]; [rewrite firstn_nil; destruct (n - S k)%nat; reflexivity|]. destruct n as [|n]; [reflexivity|]. cbn [firstn skipn Nat.sub]. apply IH. Qed.
Lemma groups_firstn k m : forall n f, (m * k <= n)%nat -> groups k m (firstn n f) = groups k m f.
Proof.
  induction m as [|m IH]; intros n f H; [reflexivity|]. cbn [groups]. f_equal; [rewrite firstn_firstn; f_equal; lia|].
  rewrite skipn_firstn_sub. apply IH. lia.
Qed.
Lemma groups_min k m n : forall f, groups k (Nat.min m n) f = firstn m (groups k n f).
Proof. revert n. induction m as [|m IH]; intros n f; [reflexivity|]. destruct n as [|n]; [rewrite firstn_nil; reflexivity|]. cbn [Nat.min groups firstn]. rewrite IH. reflexivity. Qed.
(* the number of words read *)
Lemma read_count k size max : (0 < k)%nat -> (k <= 8)%nat -> size < 2 ^ 64 -> 
  let s := size - size mod N.of_nat k in let s' := if max <? s / N.of_nat k then wrap 64 (max * N.of_nat k) else s in
  s' / N.of_nat k = N.min max (size / N.of_nat k) /\ s' = s' / N.of_nat k * N.of_nat k.
Proof.
  intros H0 H8 Hs s s'. set (K := N.of_nat k) in *. assert (HK : 0 < K <= 8) by (unfold K; lia). pose proof (N.div_mod size K ltac:(lia)) as D. pose proof (N.mod_lt size K ltac:(lia)) as M.
  assert (Es : s = size / K * K) by (unfold s; clear - D; generalize dependent (size / K); generalize (size mod K); intros; nia). assert (Ed : s / K = size / K) by (rewrite Es; apply N.div_mul; lia). unfold s'. rewrite Ed. destruct (N.ltb_spec max (size / K)).
  - unfold wrap. rewrite N.mod_small by nia. rewrite N.div_mul by lia. split; [lia|reflexivity].
  - rewrite Ed. split; [lia|exact Es].
Qed.
Lemma read_ok k fs path f max : (0 < k)%nat -> (k <= 8)%nat -> fs path = Some f -> N.of_nat (length f) < 2 ^ 63 ->
  read_binary k fs path max = Data (firstn (N.to_nat max) (map bytes_word (groups k (length f / k) f))).
Proof.
  intros H0 H8 E L. unfold read_binary. rewrite E. cbn zeta. destruct (read_count k (N.of_nat (length f)) max H0 H8 ltac:(lia)) as [C S].
  set (s := if max <? _ then _ else _) in *. cbn zeta in C, S.
  assert (DN : N.of_nat (length f) / N.of_nat k = N.of_nat (length f / k)) by (symmetry; apply Nat2N.inj_div).
  pose proof (Nat.div_mod (length f) k ltac:(lia)) as D.
  destruct (N.leb_spec (2 ^ 63) (s / N.of_nat k * N.of_nat k)) as [X|_]; [exfalso; nia|].
  f_equal. rewrite groups_firstn by nia. rewrite C, DN. rewrite firstn_map. f_equal. rewrite <- groups_min. f_equal. lia.
Qed.
Lemma read_chopped k fs path f max : (0 < k)%nat -> (k <= 8)%nat -> fs path = Some f -> N.of_nat (length f) < 2 ^ 63 -> Forall (fun b => b < 256) f ->
  exists blocks ws, chopped k f blocks /\ read_binary k fs path max = Data (firstn (N.to_nat max) ws) /\
    Forall2 (fun v b => v < 256 ^ N.of_nat k /\ forall i, (i < k)%nat -> v / 256 ^ N.of_nat i mod 256 = nth i b 0) ws blocks.
Proof.
  intros H0 H8 E L F. exists (groups k (length f / k) f), (map bytes_word (groups k (length f / k) f)). pose proof (Nat.div_mod (length f) k ltac:(lia)) as D. pose proof (Nat.mod_upper_bound (length f) k ltac:(lia)) as M.
  destruct (groups_chopped k (length f / k) H0 f ltac:(lia)) as [G1 G2]. split; [|split].
  - split; [exact G1|]. exists (skipn (length f / k * k) f). split; [exact G2|]. rewrite skipn_length. lia.
  - apply read_ok; assumption.
  - assert (FB : Forall (Forall (fun b => b < 256)) (groups k (length f / k) f)).
    { rewrite G2 in F. apply Forall_app in F. destruct F as [F _]. clear - F. induction (groups k (length f / k) f) as [|g gs IH]; [constructor|]. cbn [concat] in F. apply Forall_app in F. destruct F. constructor; auto. }
    clear - G1 FB. induction (groups k (length f / k) f) as [|g gs IH]; [constructor|]. cbn [map]. constructor.
    + pose proof (Forall_inv G1) as LG. cbn beta in LG. rewrite <- LG. apply bytes_word_ok, (Forall_inv FB).
    + apply IH; [exact (Forall_inv_tail G1)|exact (Forall_inv_tail FB)].
Qed.
Lemma groups_flat k data rest : (0 < k)%nat -> groups k (length data) (flat_map (word_bytes k) data ++ rest) = map (word_bytes k) data.
Proof.
  intro H. induction data as [|v data IH]; [reflexivity|]. cbn [length flat_map groups map]. rewrite <- app_assoc. rewrite firstn_app, word_bytes_length, Nat.sub_diag, firstn_O, app_nil_r.
  rewrite firstn_all2 by (rewrite word_bytes_length; lia). f_equal. rewrite skipn_app, word_bytes_length, Nat.sub_diag, skipn_all2 by (rewrite word_bytes_length; lia). exact IH.
Qed.
Lemma flat_words_length k data : length (flat_map (word_bytes k) data) = (length data * k)%nat.
Proof. induction data as [|v data IH]; [reflexivity|]. cbn [flat_map length]. rewrite app_length, word_bytes_length, IH. lia. Qed.
Lemma words_back k data : Forall (fun v => v < 256 ^ N.of_nat k) data -> map bytes_word (map (word_bytes k) data) = data.
Proof. intro F. rewrite map_map. rewrite <- (map_id data) at 2. apply map_ext_in. intros v Hv. apply bytes_inverse. rewrite Forall_forall in F. apply F, Hv. Qed.
(* a file holding any prefix of the bytes of some words reads as a prefix of the words *)
Lemma read_prefix k fs path data n max : (0 < k)%nat -> (k <= 8)%nat -> Forall (fun v => v < 256 ^ N.of_nat k) data -> N.of_nat (length data * k) < 2 ^ 63 ->
  fs path = Some (firstn n (flat_map (word_bytes k) data)) -> read_binary k fs path max = Data (firstn (N.to_nat max) (firstn (n / k) data)).
Proof.
  intros H0 H8 F L E. set (f := firstn n (flat_map (word_bytes k) data)) in *. assert (LF : length f = Nat.min n (length data * k)) by (unfold f; rewrite firstn_length, flat_words_length; reflexivity).
  rewrite (read_ok k fs path f max H0 H8 E) by lia. f_equal. f_equal.
  assert (DK : (length f / k = Nat.min (n / k) (length data))%nat).
  { rewrite LF. destruct (Nat.le_gt_cases n (length data * k)) as [Q|Q].
    - rewrite Nat.min_l by exact Q. assert (n / k <= length data)%nat by (apply Nat.div_le_upper_bound; lia). lia.
    - rewrite Nat.min_r by lia. rewrite Nat.div_mul by lia. assert (length data <= n / k)%nat by (apply Nat.div_le_lower_bound; lia). lia. }
  rewrite DK. unfold f. pose proof (Nat.div_mod n k ltac:(lia)) as D. rewrite groups_firstn by nia. rewrite groups_min.
  pose proof (groups_flat k data [] H0) as G. rewrite app_nil_r in G. rewrite G. rewrite firstn_map. rewrite words_back; [reflexivity|].
  apply Forall_forall. intros v Hv. rewrite Forall_forall in F. apply F. apply (firstn_subset v (n / k) data Hv).
Qed.
Lemma words_back_app k old data : Forall (fun v => v < 256 ^ N.of_nat k) (old ++ data) -> flat_map (word_bytes k) (old ++ data) = flat_map (word_bytes k) old ++ flat_map (word_bytes k) data.
Proof. intros _. apply flat_map_app. Qed.
(* a history of complete appends *)
Lemma appends_ok k path hist : forall fs old, (match fs path with Some f => f | None => [] end) = flat_map (word_bytes k) old ->
  (match fold_left (fun fs data => fst (write_binary k fs path data true true (length data * k))) hist fs path with Some f => f | None => [] end) = flat_map (word_bytes k) (old ++ concat hist).
Proof.
  induction hist as [|d hist IH]; intros fs old E; [cbn [fold_left concat]; rewrite app_nil_r; exact E|]. cbn [fold_left concat]. rewrite app_assoc. apply IH.
  unfold write_binary. cbn [fst]. unfold fs_set. rewrite String.eqb_refl. rewrite E, flat_map_app. f_equal. apply firstn_all2. rewrite flat_words_length. lia.
Qed.
(* ---- ppm ---- *)
Lemma loop_ok w limit : limit < 2 ^ w -> forall n i fuel, (n <= fuel)%nat -> i + N.of_nat n = limit -> loop_values w limit fuel i = Some (map (fun j => i + N.of_nat j) (seq 0 n)).
Proof.
  intro H. induction n as [|n IH]; intros i fuel Hf E.
  - destruct fuel; cbn [loop_values]; (destruct (N.ltb_spec i limit); [lia|reflexivity]).
  - destruct fuel as [|fuel]; [lia|]. cbn [loop_values]. destruct (N.ltb_spec i limit); [|lia]. replace (wrap w (i + 1)) with (i + 1) by (unfold wrap; symmetry; apply N.mod_small; lia).
    rewrite (IH (i + 1) fuel) by lia. cbn [option_map seq map]. f_equal. f_equal; [lia|]. rewrite <- seq_shift, map_map. apply map_ext. intro j. lia.
Qed.
Lemma loop_forever w limit : 2 ^ w <= limit -> forall fuel i, i < 2 ^ w -> loop_values w limit fuel i = None.
Proof.
  intro H. induction fuel as [|fuel IH]; intros i Hi; cbn [loop_values]; (destruct (N.ltb_spec i limit); [|lia]); [reflexivity|].
  rewrite IH; [reflexivity|]. unfold wrap. apply N.mod_lt, N.pow_nonzero. discriminate.
Qed.
Lemma loop_0 w limit : limit < 2 ^ w -> forall fuel, (N.to_nat limit <= fuel)%nat -> loop_values w limit fuel 0 = Some (map N.of_nat (seq 0 (N.to_nat limit))).
Proof. intros H fuel Hf. rewrite (loop_ok w limit H (N.to_nat limit) 0 fuel Hf) by lia. f_equal. Qed.
Lemma loop_limit_nonneg w z : (0 <= z < 2 ^ 31)%Z -> 8 <= w -> loop_limit w z = Z.to_N z.
Proof.
  intros H Hw. unfold loop_limit. destruct (N.ltb_spec w 32); [reflexivity|]. rewrite Z.mod_small; [reflexivity|]. split; [lia|].
  apply Z.lt_le_trans with (2 ^ 32)%Z; [lia|]. apply Z.pow_le_mono_r; lia.
Qed.
Section Ppm.
Context {St : Type}.
Variable func : St -> N -> N -> St * N.
Lemma row_fold xs y : forall s ps, exists s' qs, ppm_row func xs y (s, ps) = (s', ps ++ qs) /\ length qs = length xs.
Proof.
  unfold ppm_row. induction xs as [|x xs IH]; intros s ps; [exists s, []; rewrite app_nil_r; split; reflexivity|]. cbn [fold_left]. destruct (func s x y) as [s1 p].
  destruct (IH s1 (ps ++ [p])) as (s' & qs & E & L). exists s', (p :: qs). rewrite E, <- app_assoc. split; [reflexivity|cbn; lia].
Qed.
Lemma rows_fold xs ys : forall s ps, length (snd (fold_left (fun acc y => ppm_row func xs y acc) ys (s, ps))) = (length ps + length xs * length ys)%nat.
Proof.
  induction ys as [|y ys IH]; intros s ps; [cbn; lia|]. cbn [fold_left length]. destruct (row_fold xs y s ps) as (s' & qs & E & L). rewrite E, IH, app_length. lia.
Qed.
Lemma pixel_length k p : length (ppm_pixel k p) = (3 * k)%nat.
Proof. unfold ppm_pixel. rewrite <- (seq_length k 0) at 2. rewrite <- (map_length (fun i => N.land (N.shiftr p (8 * N.of_nat i)) 255)). generalize (map (fun i => N.land (N.shiftr p (8 * N.of_nat i)) 255) (seq 0 k)). induction l as [|b l IH]; [reflexivity|]. cbn [flat_map app length] in *. lia. Qed.
Lemma pixels_length k ps : length (flat_map (ppm_pixel k) ps) = (3 * k * length ps)%nat.
Proof. induction ps as [|p ps IH]; [cbn; lia|]. cbn [flat_map length]. rewrite app_length, pixel_length, IH. lia. Qed.
Lemma payload_ok w width height s : 8 <= w -> (0 <= width < 2 ^ 31)%Z -> (0 <= height < 2 ^ 31)%Z -> Z.to_N width < 2 ^ w -> Z.to_N height < 2 ^ w ->
  forall fuel, (Z.to_nat width <= fuel)%nat -> (Z.to_nat height <= fuel)%nat -> exists d, ppm_payload func w fuel width height s = Some d /\ length d = (3 * N.to_nat (w / 8) * (Z.to_nat width * Z.to_nat height))%nat.
Proof.
  intros Hw W H BW BH fuel F1 F2. unfold ppm_payload, ppm_values. rewrite !loop_limit_nonneg by assumption. rewrite !loop_0 by (assumption || lia). cbn [option_map]. eexists. split; [reflexivity|].
  rewrite pixels_length, rows_fold, !map_length, !seq_length. cbn [length]. replace (N.to_nat (Z.to_N width)) with (Z.to_nat width) by lia. replace (N.to_nat (Z.to_N height)) with (Z.to_nat height) by lia. lia.
Qed.
Lemma payload_forever w width height s : (0 < width)%Z -> 8 <= w -> (0 <= height < 2 ^ 31)%Z -> 2 ^ w <= Z.to_N height -> forall fuel, ppm_payload func w fuel width height s = None.
Proof.
  intros W Hw H B fuel. unfold ppm_payload, ppm_values. rewrite (loop_limit_nonneg w height) by assumption. rewrite (loop_forever w (Z.to_N height) B fuel 0) by (apply N.neq_0_lt_0, N.pow_nonzero; discriminate).
  destruct (loop_values w (loop_limit w width) fuel 0); reflexivity.
Qed.
End Ppm.
(* a pure func: the values are in row-major order *)
Lemma values_pure (g : N -> N -> N) w width height : 8 <= w -> (0 <= width < 2 ^ 31)%Z -> (0 <= height < 2 ^ 31)%Z -> Z.to_N width < 2 ^ w -> Z.to_N height < 2 ^ w ->
  forall fuel, (Z.to_nat width <= fuel)%nat -> (Z.to_nat height <= fuel)%nat ->
  ppm_values (fun (_ : unit) x y => (tt, g x y)) w fuel width height tt = Some (flat_map (fun y => map (fun x => g (N.of_nat x) (N.of_nat y)) (seq 0 (Z.to_nat width))) (seq 0 (Z.to_nat height))).
Proof.
  intros Hw W H BW BH fuel F1 F2. unfold ppm_values. rewrite !loop_limit_nonneg by assumption. rewrite !loop_0 by (assumption || lia). f_equal.
  replace (N.to_nat (Z.to_N width)) with (Z.to_nat width) by lia. replace (N.to_nat (Z.to_N height)) with (Z.to_nat height) by lia.
  assert (R : forall xs y ps, ppm_row (fun (_ : unit) x y => (tt, g x y)) xs y (tt, ps) = (tt, ps ++ map (fun x => g x y) xs)).
  { unfold ppm_row. induction xs as [|x xs IH]; intros y ps; [cbn; rewrite app_nil_r; reflexivity|]. cbn [fold_left map]. rewrite IH, <- app_assoc. reflexivity. }
  assert (G : forall ys ps, snd (fold_left (fun acc y => ppm_row (fun (_ : unit) x y => (tt, g x y)) (map N.of_nat (seq 0 (Z.to_nat width))) y acc) (map N.of_nat ys) (tt, ps)) =
    ps ++ flat_map (fun y => map (fun x => g (N.of_nat x) (N.of_nat y)) (seq 0 (Z.to_nat width))) ys).
  { induction ys as [|y ys IH]; intro ps; [cbn; rewrite app_nil_r; reflexivity|]. cbn [map fold_left flat_map]. rewrite R, IH, map_map, <- app_assoc. reflexivity. }
  rewrite G. reflexivity.
Qed.
Lemma iter_r {A} n (f : A -> A) x : Nat.iter n f (f x) = f (Nat.iter n f x).
Proof. induction n as [|n IH]; [reflexivity|]. cbn [Nat.iter nat_rect]. f_equal. exact IH. Qed.
Lemma iter_plus {A} a b (f : A -> A) x : Nat.iter (a + b) f x = Nat.iter a f (Nat.iter b f x).
Proof. induction a as [|a IH]; [reflexivity|]. cbn [Nat.add Nat.iter nat_rect]. f_equal. exact IH. Qed.
(* a stream: successive draws *)
Lemma values_stream {St : Type} (next : St -> St * N) w width height : 8 <= w -> (0 <= width < 2 ^ 31)%Z -> (0 <= height < 2 ^ 31)%Z -> Z.to_N width < 2 ^ w -> Z.to_N height < 2 ^ w ->
  forall fuel s, (Z.to_nat width <= fuel)%nat -> (Z.to_nat height <= fuel)%nat ->
  ppm_values (fun s _ _ => next s) w fuel width height s = Some (snd (fold_left (fun '(s, ps) _ => let '(s', p) := next s in (s', ps ++ [p])) (seq 0 (Z.to_nat width * Z.to_nat height)) (s, []))).
Proof.
  intros Hw W H BW BH fuel s F1 F2. unfold ppm_values. rewrite !loop_limit_nonneg by assumption. rewrite !loop_0 by (assumption || lia). f_equal. f_equal.
  replace (N.to_nat (Z.to_N width)) with (Z.to_nat width) by lia. replace (N.to_nat (Z.to_N height)) with (Z.to_nat height) by lia.
  set (step := fun (a : St * list N) => let '(s, ps) := a in let '(s', p) := next s in (s', ps ++ [p])).
  assert (IT : forall (A : Type) (l : list A) acc, fold_left (fun a _ => step a) l acc = Nat.iter (length l) step acc).
  { intros A l. induction l as [|x l IH]; intro acc; [reflexivity|]. cbn [fold_left length]. rewrite IH. apply iter_r. }
  assert (E1 : forall (A : Type) (l : list A) acc, fold_left (fun '(s, ps) (_ : A) => let '(s', p) := next s in (s', ps ++ [p])) l acc = Nat.iter (length l) step acc).
  { intros A l acc. rewrite <- IT. revert acc. induction l as [|x l IH]; intros [a b]; [reflexivity|]. cbn [fold_left]. rewrite IH. reflexivity. }
  rewrite E1, seq_length. 
  assert (R : forall xs y acc, ppm_row (fun s _ _ => next s) xs y acc = Nat.iter (length xs) step acc) by (intros xs y acc; unfold ppm_row; apply E1).
  assert (G : forall xs ys acc, fold_left (fun acc y => ppm_row (fun s _ _ => next s) xs y acc) ys acc = Nat.iter (length xs * length ys) step acc).
  { intros xs. induction ys as [|y ys IH]; intro acc; [cbn [length]; rewrite Nat.mul_0_r; reflexivity|]. cbn [fold_left length]. rewrite IH, R. rewrite <- iter_plus. f_equal. lia. }
  rewrite G, !map_length, !seq_length. reflexivity.
Qed.
Lemma pixel_bytes k p i : (i < k)%nat -> forall c, (c < 3)%nat -> nth (3 * i + c) (ppm_pixel k p) 0 = p / 256 ^ N.of_nat i mod 256.
Proof.
  intros Hi c Hc. unfold ppm_pixel.
  assert (T : forall l j, (j < length l)%nat -> nth (3 * j + c) (flat_map (fun b => [b; b; b]) l) 0 = nth j l 0).
  { induction l as [|b l IH]; intros j Hj; [cbn in Hj; lia|]. cbn [flat_map]. destruct j as [|j]; [do 3 (destruct c as [|c]; [reflexivity|]); lia|].
    replace (3 * S j + c)%nat with (3 + (3 * j + c))%nat by lia. cbn [app nth Nat.add]. apply IH. cbn in Hj. lia. }
  rewrite T by (rewrite map_length, seq_length; exact Hi). set (g := fun i => N.land (N.shiftr p (8 * N.of_nat i)) 255). rewrite (nth_indep _ 0 (g 0%nat)) by (rewrite map_length, seq_length; exact Hi).
  rewrite (map_nth g (seq 0 k) 0%nat), seq_nth by exact Hi. cbn [Nat.add]. unfold g. change 255 with (N.ones 8). rewrite N.land_ones, N.shiftr_div_pow2, N.pow_mul_r. reflexivity.
Qed.
