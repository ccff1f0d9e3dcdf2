(* Properties C54-C55: binary files, the random data cache, and ppm images.
   A file is the list of its bytes.  The specification is [chopped] of BitwiseSpec.v: blocks of k
   bytes plus an incomplete rest. *)
From Coq Require Import String.
From Verif Require Import Base BitwiseSpec FilesModel FilesProofs.
Open Scope N_scope.
Notation length := List.length.
Notation concat := List.concat.

(* ---- C54 ---- *)
(* Any file: the words read are exactly the complete blocks of k bytes, in order, lowest byte first,
   and only the incomplete last block (less than k bytes) is left out; never more than max. *)
Theorem C54_read : forall k fs path f max, (0 < k <= 8)%nat -> fs path = Some f -> N.of_nat (length f) < 2 ^ 63 -> Forall (fun b => b < 256) f ->
  exists blocks ws, chopped k f blocks /\ read_binary k fs path max = Data (firstn (N.to_nat max) ws) /\
    Forall2 (fun v b => v < 256 ^ N.of_nat k /\ forall i, (i < k)%nat -> v / 256 ^ N.of_nat i mod 256 = nth i b 0) ws blocks.
Proof. intros k fs path f max [H0 H8]. apply read_chopped; assumption. Qed.
Print Assumptions C54_read.
(* Writing words (truncating) and reading them back gives the same words, whatever was there before;
   all other files are unchanged. *)
Theorem C54_round_trip : forall k fs path data, (0 < k <= 8)%nat -> Forall (fun v => v < 256 ^ N.of_nat k) data -> N.of_nat (length data * k) < 2 ^ 63 ->
  let '(fs', ok) := write_binary k fs path data false true (length data * k) in
  ok = true /\ (forall max, read_binary k fs' path max = Data (firstn (N.to_nat max) data)) /\ forall p, p <> path -> fs' p = fs p.
Proof.
  intros k fs path data [H0 H8] F L. unfold write_binary. split; [|split].
  - rewrite flat_words_length. apply Nat.leb_refl.
  - intro max. rewrite (read_prefix k _ path data (length data * k) max H0 H8 F L) by (unfold fs_set; rewrite String.eqb_refl; reflexivity).
    rewrite Nat.div_mul by lia. rewrite (firstn_all2 (n := length data)) by lia. reflexivity.
  - intros p Hp. unfold fs_set. destruct (String.eqb_spec p path); [contradiction|reflexivity].
Qed.
Print Assumptions C54_round_trip.
(* If the disk fills up or the program is stopped after any number of bytes, what is read is a prefix
   of the words; and write_binary reports success only if everything was written. *)
Theorem C54_partial_write : forall k fs path data accepted max, (0 < k <= 8)%nat -> Forall (fun v => v < 256 ^ N.of_nat k) data -> N.of_nat (length data * k) < 2 ^ 63 ->
  let '(fs', ok) := write_binary k fs path data false true accepted in
  read_binary k fs' path max = Data (firstn (N.to_nat max) (firstn (accepted / k) data)) /\ (ok = true <-> (length data * k <= accepted)%nat).
Proof.
  intros k fs path data n max [H0 H8] F L. unfold write_binary. split.
  - apply (read_prefix k _ path data n max H0 H8 F L). unfold fs_set. rewrite String.eqb_refl. reflexivity.
  - rewrite flat_words_length. apply Nat.leb_le.
Qed.
Print Assumptions C54_partial_write.
(* Every history of appended chunks, starting with no file: the file reads as their concatenation. *)
Theorem C54_append_history : forall k fs path hist max, (0 < k <= 8)%nat -> fs path = None -> hist <> [] -> Forall (Forall (fun v => v < 256 ^ N.of_nat k)) hist -> N.of_nat (length (concat hist) * k) < 2 ^ 63 ->
  read_binary k (fold_left (fun fs data => fst (write_binary k fs path data true true (length data * k))) hist fs) path max = Data (firstn (N.to_nat max) (concat hist)).
Proof.
  intros k fs path hist max [H0 H8] N0 NE F L. set (fs' := fold_left (fun fs data => fst (write_binary k fs path data true true (length data * k))) hist fs). pose proof (appends_ok k path hist fs [] ltac:(rewrite N0; reflexivity)) as A. cbn [app] in A. fold fs' in A.
  assert (FC : Forall (fun v => v < 256 ^ N.of_nat k) (concat hist)) by (clear - F; induction F; cbn [concat]; [constructor|apply Forall_app; split; assumption]).
  assert (S : exists f, fs' path = Some f).
  { assert (G : forall h fs0, (exists f, fs0 path = Some f) \/ h <> [] -> exists f, fold_left (fun fs data => fst (write_binary k fs path data true true (length data * k))) h fs0 path = Some f).
    { induction h as [|d h IH]; intros fs0 [P|P]; [exact P|contradiction| |]; cbn [fold_left]; apply IH; left; unfold write_binary; cbn [fst]; unfold fs_set; rewrite String.eqb_refl; eexists; reflexivity. }
    apply G. right. exact NE. }
  destruct S as [f Sf]. rewrite Sf in A. subst f.
  rewrite (read_prefix k fs' path (concat hist) (length (concat hist) * k) max H0 H8 FC L).
  - rewrite Nat.div_mul by lia. rewrite (firstn_all2 (n := length (concat hist))) by lia. reflexivity.
  - rewrite Sf. f_equal. symmetry. apply firstn_all2. rewrite flat_words_length. lia.
Qed.
Print Assumptions C54_append_history.
(* Finding: in a release build a missing file is not reported.  With the default maximum the program
   dies with std::length_error (not a std::runtime_error); with a maximum it gets that many zeros. *)
Theorem C54_missing_file_refuted : forall k fs path max, (0 < k <= 8)%nat -> fs path = None ->
  read_binary k fs path (2 ^ 64 - 1) = Throws /\ (max * 16 < 2 ^ 63 -> read_binary k fs path max = Data (repeat 0 (N.to_nat max))).
Proof.
  intros k fs path max [H0 H8] E. split.
  - unfold read_binary. rewrite E. cbn zeta. destruct (read_count k (2 ^ 64 - 1) (2 ^ 64 - 1) H0 H8 ltac:(reflexivity)) as [C S]. cbn zeta in C, S. rewrite C.
    rewrite N.min_r by (apply N.div_le_upper_bound; lia). do 9 (destruct k as [|k]; [first [lia|reflexivity]|]). lia.
  - intro M. unfold read_binary. rewrite E. cbn zeta. destruct (read_count k (2 ^ 64 - 1) max H0 H8 ltac:(reflexivity)) as [C S]. cbn zeta in C, S. rewrite C.
    assert (D : max <= (2 ^ 64 - 1) / N.of_nat k) by (apply N.div_le_lower_bound; [lia|]; change (2 ^ 63) with 9223372036854775808 in M; change (2 ^ 64 - 1) with 18446744073709551615; nia).
    rewrite N.min_l by exact D. destruct (N.leb_spec (2 ^ 63) (max * N.of_nat k)) as [X|_]; [change (2 ^ 63) with 9223372036854775808 in X, M; exfalso; nia|reflexivity].
Qed.
Print Assumptions C54_missing_file_refuted.
(* The random data of the cache seen as words of k bytes is what reading the file as such words gives;
   and later calls do not see later changes of the file. *)
Theorem C54_cached_words : forall k fs path f, (0 < k <= 8)%nat -> fs path = Some f -> N.of_nat (length f) < 2 ^ 63 -> Forall (fun b => b < 256) f ->
  get_trng_data k fs path None = (Some f, Some (read_binary k fs path (2 ^ 64 - 1))) /\
  forall k' fs' f', (0 < k' <= 8)%nat -> fs' path = Some f' -> get_trng_data k' fs' path (Some f) = (Some f, Some (read_binary k' fs path (2 ^ 64 - 1))).
Proof.
  intros k fs path f K E L F.
  assert (B1 : forall k', (0 < k' <= 8)%nat -> read_binary k' fs path (2 ^ 64 - 1) = Data (map bytes_word (groups k' (length f / k') f))).
  { intros k' K'. rewrite (read_ok k' fs path f) by (assumption || lia). f_equal. apply firstn_all2. rewrite map_length.
    assert (GL : forall m g, length (groups k' m g) = m) by (induction m as [|m IH]; intro g; [reflexivity|cbn [groups length]; rewrite IH; reflexivity]).
    rewrite GL. assert (length f / k' <= length f)%nat by (apply Nat.div_le_upper_bound; nia). lia. }
  split.
  - unfold get_trng_data. rewrite E. rewrite (read_ok 1 fs path f) by (assumption || lia). rewrite Nat.div_1_r.
    assert (G1 : forall g, Forall (fun b => b < 256) g -> map bytes_word (groups 1 (length g) g) = g).
    { induction g as [|b g IH]; intro Fg; [reflexivity|]. cbn [length groups map firstn skipn]. rewrite IH by exact (Forall_inv_tail Fg). f_equal. cbn. lia. }
    rewrite G1 by exact F. rewrite firstn_all2 by lia. rewrite (B1 k K). reflexivity.
  - intros k' fs' f' K' E'. unfold get_trng_data. rewrite E'. rewrite (B1 k' K'). reflexivity.
Qed.
Print Assumptions C54_cached_words.
Example C54_instance : let fs0 : file_system := fun _ => None in
  let fs1 := fst (write_binary 4 fs0 "a" [1; 2 ^ 32 - 1; 258] false true 12) in
  fs1 "a"%string = Some [1; 0; 0; 0; 255; 255; 255; 255; 2; 1; 0; 0] /\ read_binary 4 fs1 "a" 2 = Data [1; 2 ^ 32 - 1] /\ read_binary 8 fs1 "a" (2 ^ 64 - 1) = Data [1 + 2 ^ 32 * (2 ^ 32 - 1)] /\
  read_binary 4 (fst (write_binary 4 fs0 "a" [1; 2 ^ 32 - 1; 258] false true 11)) "a" 9 = Data [1; 2 ^ 32 - 1] /\ read_binary 4 fs0 "b" 3 = Data [0; 0; 0].
Proof. repeat split. Qed.

(* ---- C55 ---- *)
(* The header declares width * height pixels of 3 bytes.  The payload has 3 * sizeof(T) bytes for each
   value of func: it is right for one-byte types only ... *)
Theorem C55_payload_size : forall (St : Type) (func : St -> N -> N -> St * N) w width height s, w = 8 \/ w = 16 \/ w = 32 \/ w = 64 ->
  (0 < width < 2 ^ 31)%Z -> (0 < height < 2 ^ 31)%Z -> Z.to_N width < 2 ^ w -> Z.to_N height < 2 ^ w ->
  exists d, (forall fuel, (Z.to_nat (width + height) <= fuel)%nat -> ppm_payload func w fuel width height s = Some d) /\ Z.of_nat (length d) = (3 * (Z.of_N w / 8) * (width * height))%Z /\
    (Z.of_nat (length d) = (3 * (width * height))%Z <-> w = 8).
Proof.
  intros St func w width height s Hw W H BW BH.
  assert (Hw8 : 8 <= w) by (destruct Hw as [->|[->|[->| ->]]]; lia).
  assert (ND : forall fuel, (Z.to_nat (width + height) <= fuel)%nat -> ppm_payload func w fuel width height s = ppm_payload func w (Z.to_nat (width + height)) width height s).
  { intros fuel Hf. unfold ppm_payload, ppm_values. rewrite !(loop_limit_nonneg w width), !(loop_limit_nonneg w height) by (assumption || lia). rewrite !(loop_0 w (Z.to_N width)), !(loop_0 w (Z.to_N height)) by (assumption || lia). reflexivity. }
  destruct (payload_ok func w width height s Hw8 ltac:(lia) ltac:(lia) BW BH (Z.to_nat (width + height)) ltac:(lia) ltac:(lia)) as (d & E & L).
  exists d. split; [intros fuel Hf; rewrite ND by exact Hf; exact E|]. split.
  - rewrite L. destruct Hw as [->|[->|[->| ->]]]; change (N.to_nat (8 / 8)) with 1%nat; change (N.to_nat (16 / 8)) with 2%nat; change (N.to_nat (32 / 8)) with 4%nat; change (N.to_nat (64 / 8)) with 8%nat;
      change (Z.of_N 8 / 8)%Z with 1%Z; change (Z.of_N 16 / 8)%Z with 2%Z; change (Z.of_N 32 / 8)%Z with 4%Z; change (Z.of_N 64 / 8)%Z with 8%Z; nia.
  - rewrite L. destruct Hw as [->|[->|[->| ->]]]; change (N.to_nat (8 / 8)) with 1%nat; change (N.to_nat (16 / 8)) with 2%nat; change (N.to_nat (32 / 8)) with 4%nat; change (N.to_nat (64 / 8)) with 8%nat;
      (split; [intro Q; first [reflexivity|exfalso; nia]|intro Q; first [discriminate|nia]]).
Qed.
Print Assumptions C55_payload_size.
(* ... and wrong for the ppm command: 512 x 512 values of uint32_t give four times too much. *)
Theorem C55_tool_image_refuted : forall (St : Type) (func : St -> N -> N -> St * N) s, exists d, ppm_payload func 32 1024 512 512 s = Some d /\ Z.of_nat (length d) = (4 * (3 * (512 * 512)))%Z.
Proof.
  intros St func s. destruct (C55_payload_size St func 32 512 512 s) as (d & E & L & _); try lia. exists d. split; [apply E; lia|exact L].
Qed.
Print Assumptions C55_tool_image_refuted.
(* Finding: for a one-byte type the 512 x 512 image of a stream never ends: the loop variable wraps
   before it reaches 512 (for any number of steps the loops are not done). *)
Theorem C55_uint8_never_ends_refuted : forall (St : Type) (func : St -> N -> N -> St * N) width height s fuel, (0 < width < 2 ^ 31)%Z -> (256 <= height < 2 ^ 31)%Z -> ppm_payload func 8 fuel width height s = None.
Proof. intros. apply payload_forever; lia. Qed.
Print Assumptions C55_uint8_never_ends_refuted.
(* The values: for a function of the coordinates, row by row; for a stream, its successive values. *)
Theorem C55_row_major : forall (g : N -> N -> N) w width height fuel, 8 <= w -> (0 <= width < 2 ^ 31)%Z -> (0 <= height < 2 ^ 31)%Z -> Z.to_N width < 2 ^ w -> Z.to_N height < 2 ^ w ->
  (Z.to_nat width <= fuel)%nat -> (Z.to_nat height <= fuel)%nat ->
  ppm_values (fun (_ : unit) x y => (tt, g x y)) w fuel width height tt = Some (flat_map (fun y => map (fun x => g (N.of_nat x) (N.of_nat y)) (seq 0 (Z.to_nat width))) (seq 0 (Z.to_nat height))).
Proof. intros. apply values_pure; assumption. Qed.
Print Assumptions C55_row_major.
Theorem C55_stream_values : forall (St : Type) (next : St -> St * N) w width height fuel s, 8 <= w -> (0 <= width < 2 ^ 31)%Z -> (0 <= height < 2 ^ 31)%Z -> Z.to_N width < 2 ^ w -> Z.to_N height < 2 ^ w ->
  (Z.to_nat width <= fuel)%nat -> (Z.to_nat height <= fuel)%nat ->
  ppm_values (fun s _ _ => next s) w fuel width height s = Some (snd (fold_left (fun '(s, ps) _ => let '(s', p) := next s in (s', ps ++ [p])) (seq 0 (Z.to_nat width * Z.to_nat height)) (s, []))).
Proof. intros. apply values_stream; assumption. Qed.
Print Assumptions C55_stream_values.
(* Each value gives its bytes, lowest first, three times each (grey). *)
Theorem C55_pixel : forall k p i, (i < k)%nat -> forall c, (c < 3)%nat -> nth (3 * i + c) (ppm_pixel k p) 0 = p / 256 ^ N.of_nat i mod 256.
Proof. exact pixel_bytes. Qed.
Print Assumptions C55_pixel.
Example C55_instance : ppm_payload (fun (_ : unit) x y => (tt, 10 * y + x)) 8 9 3 2 tt = Some [0;0;0; 1;1;1; 2;2;2; 10;10;10; 11;11;11; 12;12;12] /\
  ppm_payload (fun s _ _ => (s + 1, s)) 16 9 1 2 511 = Some [255;255;255; 1;1;1; 0;0;0; 2;2;2] /\ ppm_header 512 512 255 = ["P6"; "512"; "512"; "255"]%string.
Proof. repeat split; vm_compute; reflexivity. Qed.
