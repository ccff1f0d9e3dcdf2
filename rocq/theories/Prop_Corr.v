(* Properties C98-C100: Kendall's, Pearson's and Spearman's correlation tests. *)
From Coq Require Import String Reals Lra Lia Permutation Sorted.
From Flocq Require Import Core BinarySingleNaN.
From Verif Require Import Base FloatModel FloatLemmas ResultModel ResultSpec CollectModel StatsModel RescaleProofs StatsProofs CouponFloatProofs StatFormulas EvaluateModel CommandModel
  CorrModel CorrSpec CorrCount CorrKendall CorrProofs CorrPearson CorrPearson2 CorrPearson3 CorrSpearman CorrTest ErrorSpec SetupProofs TestsModel TestsSpec LibInst TestsPerm DistInst Prop_Detect.
Open Scope R_scope.

(* ---- C98: Kendall's test ---- *)
Lemma differ_all xs ys (g : R * R -> R) (h : nat -> double) : length xs = length ys -> (forall i, (i < length xs)%nat -> g (nth i (points xs ys) (0, 0)) = dval (h i)) ->
  count_pairs (differ g) (points xs ys) = 0%nat <-> forall i j, (i < length xs)%nat -> (j < length xs)%nat -> dval (h i) = dval (h j).
Proof.
  intros L H. rewrite (count_pairs_0 (differ g) (0, 0)), points_len by exact L. unfold differ. split.
  - intros K i j Hi Hj. assert (W : forall i j, (i < j < length xs)%nat -> dval (h i) = dval (h j)).
    { intros a b Hab. specialize (K a b Hab). rewrite !H in K by lia. destruct (Req_bool_spec (dval (h a)) (dval (h b))); [assumption|discriminate]. }
    destruct (lt_eq_lt_dec i j) as [[C|C]|C]; [apply W; lia|subst; reflexivity|symmetry; apply W; lia].
  - intros K i j Hij. rewrite !H by lia. rewrite Req_bool_true by (apply K; lia). reflexivity.
Qed.
Lemma all_equal_nth xs : (forall i j, (i < length xs)%nat -> (j < length xs)%nat -> dval (nth i xs d0) = dval (nth j xs d0)) <-> forall a b, In a xs -> In b xs -> dval a = dval b.
Proof.
  split; intros H.
  - intros a b Ia Ib. destruct (In_nth _ _ d0 Ia) as (i & Hi & <-). destruct (In_nth _ _ d0 Ib) as (j & Hj & <-). apply H; assumption.
  - intros i j Hi Hj. apply H; apply nth_In; assumption.
Qed.
Lemma valid_two_tailed erfc z : erfc_bounded erfc -> fin z -> valid01 (normal_two_tailed_cdf erfc z).
Proof. intros HE F. destruct (two_tailed_val erfc z HE F) as (a & _ & _ & _ & Fp & _ & Bp). split; assumption. Qed.
Lemma no_pair_x xs ys : length xs = length ys -> count_pairs (differ fst) (points xs ys) = 0%nat <-> all_equal xs.
Proof.
  intros L. rewrite (differ_all xs ys fst (fun i => nth i xs d0) L) by (intros i Hi; rewrite nth_points by assumption; reflexivity). apply all_equal_nth.
Qed.
Lemma no_pair_y xs ys : length xs = length ys -> count_pairs (differ snd) (points xs ys) = 0%nat <-> all_equal ys.
Proof.
  intros L. rewrite (differ_all xs ys snd (fun i => nth i ys d0) L) by (intros i Hi; rewrite nth_points by assumption; reflexivity). rewrite L. apply all_equal_nth.
Qed.
Lemma short_equal xs : (length xs < 2)%nat -> all_equal xs.
Proof. intros H a b. destruct xs as [|x [|y l]]; cbn in *; [intros []|intros [->|[]] [->|[]]; reflexivity|lia]. Qed.

Theorem C98_test : forall erfc xs ys, erfc_bounded erfc -> Forall usual xs -> Forall usual ys -> length xs = length ys -> (N.of_nat (length xs) <= 2 ^ 26)%N ->
  exists r, kendall_correlation_stats erfc xs ys = Ok r /\ (r = None <-> all_equal xs \/ all_equal ys) /\
  forall s, r = Some s -> st_type s = Z_score /\ is_finite (st_value s) = true /\ within 48 (dval (st_value s)) (kendall_z (points xs ys)) /\
    st_p s = normal_two_tailed_cdf erfc (st_value s) /\ valid_stat s /\ dval (st_df s) = INR (length xs).
Proof.
  intros erfc xs ys HE Ux Uy L B. destruct (Nat.lt_ge_cases (length xs) 2) as [H|H].
  - exists None. rewrite kendall_short by exact H. split; [reflexivity|]. split; [|discriminate]. split; [intros _; left; apply short_equal, H|reflexivity].
  - pose proof (kendall_ok erfc xs ys Ux Uy L B H) as K. destruct (kendall_correlation_stats erfc xs ys) as [r|]; [|destruct K]. exists r. split; [reflexivity|].
    rewrite <- (no_pair_x xs ys L), <- (no_pair_y xs ys L). destruct r as [s|].
    + destruct K as (N1 & N2 & T & F & A & _ & P & D). split; [split; [discriminate|intros [E|E]; contradiction]|]. intros s' Es. injection Es as <-.
      split; [exact T|]. split; [exact F|]. split; [exact A|]. split; [exact P|]. split; [unfold valid_stat; rewrite P; apply valid_two_tailed; assumption|].
      rewrite D. destruct (double_of_N_exact (N.of_nat (length xs))) as [V _]; [change (2 ^ 26)%N with 67108864%N in B; change (2 ^ 53)%N with 9007199254740992%N; lia|].
      rewrite V, INR_IZR_INZ. f_equal. lia.
    + split; [split; [intros _; exact K|reflexivity]|discriminate].
Qed.
Print Assumptions C98_test.

(* Only the order of the values counts. *)
Theorem C98_order : forall erfc xs ys xs' ys', Forall usual xs -> Forall usual ys -> Forall usual xs' -> Forall usual ys' -> length xs = length ys -> (N.of_nat (length xs) <= 2 ^ 26)%N ->
  same_order xs xs' -> same_order ys ys' -> kendall_correlation_stats erfc xs ys = kendall_correlation_stats erfc xs' ys'.
Proof.
  intros erfc xs ys xs' ys' Ux Uy Ux' Uy' L B SX SY. assert (LX : length xs = length xs') by apply SX. assert (LY : length ys = length ys') by apply SY.
  apply kendall_eq; try assumption; [congruence|]. apply counts_order; assumption.
Qed.
Print Assumptions C98_order.
(* The order of the points does not count. *)
Theorem C98_permutation : forall erfc xs ys xs' ys', Forall usual xs -> Forall usual ys -> Forall usual xs' -> Forall usual ys' -> length xs = length ys -> length xs' = length ys' ->
  (N.of_nat (length xs) <= 2 ^ 26)%N -> Permutation (points xs ys) (points xs' ys') -> kendall_correlation_stats erfc xs ys = kendall_correlation_stats erfc xs' ys'.
Proof.
  intros erfc xs ys xs' ys' Ux Uy Ux' Uy' L L' B P. apply kendall_eq; try assumption.
  - apply Permutation_length in P. rewrite !points_len in P by assumption. exact P.
  - apply counts_perm, P.
Qed.
Print Assumptions C98_permutation.
Lemma finish_swap erfc n a b c : kendall_finish erfc n (b, a, c) = kendall_finish erfc n (a, b, c).
Proof. unfold kendall_finish. rewrite orb_comm, (dmul_comm (dsqrt (double_of_N b))). reflexivity. Qed.
Theorem C98_swap : forall erfc xs ys, Forall usual xs -> Forall usual ys -> length xs = length ys -> (N.of_nat (length xs) <= 2 ^ 26)%N ->
  kendall_correlation_stats erfc ys xs = kendall_correlation_stats erfc xs ys.
Proof.
  intros erfc xs ys Ux Uy L B. destruct (Nat.lt_ge_cases (length xs) 2) as [H|H]; [rewrite !kendall_short by lia; reflexivity|].
  rewrite (kendall_counts erfc xs ys), (kendall_counts erfc ys xs) by (assumption || congruence || (rewrite <- L; assumption)). pose proof (counts_swap xs ys L) as S. destruct (counts (points xs ys)) as [[a b] c]. rewrite S, finish_swap, L. reflexivity.
Qed.
Print Assumptions C98_swap.
(* Reversing the order of the values of one coordinate negates the score and keeps the p-value. *)
Theorem C98_reverse : forall erfc xs ys xs', Forall usual xs -> Forall usual ys -> Forall usual xs' -> length xs = length ys -> (N.of_nat (length xs) <= 2 ^ 26)%N -> reversed_order xs xs' ->
  exists r r', kendall_correlation_stats erfc xs ys = Ok r /\ kendall_correlation_stats erfc xs' ys = Ok r' /\
  (r = None <-> r' = None) /\ forall s s', r = Some s -> r' = Some s' -> dval (st_value s') = - dval (st_value s) /\ st_p s' = st_p s.
Proof.
  intros erfc xs ys xs' Ux Uy Ux' L B RO. assert (LX : length xs = length xs') by apply RO. destruct (Nat.lt_ge_cases (length xs) 2) as [H|H].
  { exists None, None. rewrite !kendall_short by lia. repeat split; discriminate. }
  rewrite (kendall_counts erfc xs ys), (kendall_counts erfc xs' ys) by (assumption || congruence || (rewrite <- LX; assumption)). pose proof (counts_reverse xs ys xs' L RO) as S.
  pose proof (is_le xs ys L B) as [I1 I2]. pose proof (cnt_le xs ys L B (differ fst)) as C1. pose proof (cnt_le xs ys L B (differ snd)) as C2.
  destruct (counts (points xs ys)) as [[a b] c] eqn:EC. rewrite S, <- LX. unfold counts in EC. injection EC as Ea Eb Ec. rewrite Ea in I1, C1. rewrite Eb in I2, C2. rewrite Ec in I1, I2.
  eexists _, _. split; [reflexivity|]. split; [reflexivity|].
  pose proof (finish_reverse erfc (length xs) a b c H B C1 C2 I1 I2) as R.
  destruct (kendall_finish erfc (length xs) (a, b, c)) as [s|]; destruct (kendall_finish erfc (length xs) (a, b, (- c)%Z)) as [s'|]; try (exfalso; exact R); (split; [split; congruence|]).
  - intros v v' Ev Ev'. injection Ev as <-. injection Ev' as <-. destruct R as (V & _ & P & _). split; assumption.
  - intros v v' Ev. discriminate.
Qed.
Print Assumptions C98_reverse.
(* The test of a stream of words: blocks of at most 10000 points, each of two successive words. *)
Definition block (w : N) (stream : nat -> N) (i size : nat) : list double * list double :=
  (map (fun j => rescale_type_to_01 w (stream (2 * (i * size + j))%nat)) (seq 0 size), map (fun j => rescale_type_to_01 w (stream (2 * (i * size + j) + 1)%nat)) (seq 0 size)).
Lemma block_serial w stream i size : create_serial_xy w stream (2 * size * i) size = block w stream i size.
Proof. unfold create_serial_xy, block. f_equal; apply map_ext; intros j; do 2 f_equal; lia. Qed.
Definition block_count (n max : N) : nat := if (n <=? max)%N then 1%nat else N.to_nat (N.max 2 (n / max)).
Theorem C98_stream : forall erfc w n stream, erfc_bounded erfc -> (0 < w <= 64)%N -> (forall i, is_word w (stream i)) ->
  exists subs, kendall_correlation_test erfc w n stream = Ok subs /\ length subs = block_count n 10000 /\
  forall i sub, nth_error subs i = Some sub -> let b := block w stream i (N.to_nat (N.min n 10000)) in
    kendall_correlation_stats erfc (fst b) (snd b) = Ok (sub_stats sub) /\ (sub_stats sub = None <-> all_equal (fst b) \/ all_equal (snd b)) /\
    forall s, sub_stats sub = Some s -> within 48 (dval (st_value s)) (kendall_z (points (fst b) (snd b))) /\ st_p s = normal_two_tailed_cdf erfc (st_value s) /\ valid_stat s.
Proof.
  intros erfc w n stream HE Hw Hs. destruct (corr_split (kendall_correlation_stats erfc) 10000 w n stream ltac:(lia)) as (subs & E & Ls & Hi).
  exists subs. split; [exact E|]. split; [exact Ls|]. intros i sub Es. assert (Li : (i < length subs)%nat) by (apply nth_error_Some; rewrite Es; discriminate). rewrite Ls in Li. specialize (Hi i Li). rewrite Es in Hi. cbn [option_map] in Hi.
  set (size := N.to_nat (N.min n 10000)) in *. destruct (serial_lengths w stream (2 * size * i) size) as [L1 L2]. destruct (serial_forall usual w stream (2 * size * i) size) as [U1 U2]; [intros j; apply rescale_usual; [exact Hw|apply Hs]|].
  rewrite block_serial in *. set (b := block w stream i size) in *.
  destruct (C98_test erfc (fst b) (snd b) HE U1 U2 ltac:(congruence)) as (r & Er & Hn & Hr). { rewrite L1. unfold size. change (2 ^ 26)%N with 67108864%N. lia. }
  rewrite Er in Hi. injection Hi as Hi. rewrite Hi. cbn zeta. split; [exact Er|]. split; [exact Hn|]. intros s Hsm. destruct (Hr s Hsm) as (_ & _ & A & P & V & _). repeat split; assumption || apply V.
Qed.
Print Assumptions C98_stream.
(* four points with one tie in x *)
Definition kx : list double := map double_of_N [1; 2; 2; 4]%N.
Definition ky : list double := map double_of_N [3; 1; 5; 8]%N.
Lemma usual_N k : (k < 2 ^ 53)%N -> usual (double_of_N k).
Proof.
  intros H. destruct (double_of_N_exact k) as [V F]; [lia|]. split; [exact F|]. rewrite V. split.
  - rewrite Rabs_pos_eq by (apply IZR_le; lia). apply Rle_trans with (bpow radix2 53); [|apply bpow_le; lia]. rewrite <- IZR_pow2 by lia. apply IZR_le. change (2 ^ 53)%Z with (Z.of_N (2 ^ 53)). lia.
  - exists (Z.of_N k * 2 ^ 500)%Z. rewrite mult_IZR, IZR_pow2, Rmult_assoc, <- bpow_plus by lia. cbn. ring.
Qed.
Example C98_instance : erfc_bounded lib_erfc /\ Forall usual kx /\ Forall usual ky /\ length kx = length ky /\ (N.of_nat (length kx) <= 2 ^ 26)%N /\
  count_pairs concordant (points kx ky) = 4%nat /\ count_pairs discordant (points kx ky) = 1%nat /\ ~ all_equal kx /\ ~ all_equal ky.
Proof.
  assert (Ux : Forall usual kx) by (repeat first [apply Forall_nil|apply Forall_cons; [apply usual_N; reflexivity|]]). assert (Uy : Forall usual ky) by (repeat first [apply Forall_nil|apply Forall_cons; [apply usual_N; reflexivity|]]).
  assert (V : forall k, (k < 100)%N -> dval (double_of_N k) = IZR (Z.of_N k)) by (intros k H; apply double_of_N_exact; change (2 ^ 53)%N with 9007199254740992%N; lia).
  split; [exact (gm_erfc _ lib_math_good)|]. split; [exact Ux|]. split; [exact Uy|]. split; [reflexivity|]. split; [discriminate|].
  assert (P : points kx ky = [(1, 3); (2, 1); (2, 5); (4, 8)]). { unfold points, kx, ky. cbn [map combine]. rewrite !V by reflexivity. reflexivity. }
  rewrite P. split; [|split; [|split]].
  - cbn [count_pairs filter length]. unfold concordant; cbn [fst snd]. repeat match goal with |- context [Rlt_bool ?a ?b] => destruct (Rlt_bool_spec a b); try (exfalso; lra) end. reflexivity.
  - cbn [count_pairs filter length]. unfold discordant; cbn [fst snd]. repeat match goal with |- context [Rlt_bool ?a ?b] => destruct (Rlt_bool_spec a b); try (exfalso; lra) end. reflexivity.
  - intros H. specialize (H (double_of_N 1) (double_of_N 2) (or_introl eq_refl) (or_intror (or_introl eq_refl))). rewrite !V in H by reflexivity. cbn in H. lra.
  - intros H. specialize (H (double_of_N 3) (double_of_N 1) (or_introl eq_refl) (or_intror (or_introl eq_refl))). rewrite !V in H by reflexivity. cbn in H. lra.
Qed.
(* the score of the example: tau-b is 3 / sqrt 30 *)
Example C98_instance_z : kendall_z (points kx ky) = 3 / sqrt 30 / sqrt (26 / 108).
Proof.
  destruct C98_instance as (_ & _ & _ & _ & _ & C & D & _). unfold kendall_z, kendall_tau. rewrite C, D.
  assert (V : forall k, (k < 100)%N -> dval (double_of_N k) = IZR (Z.of_N k)) by (intros k H; apply double_of_N_exact; change (2 ^ 53)%N with 9007199254740992%N; lia).
  assert (P : points kx ky = [(1, 3); (2, 1); (2, 5); (4, 8)]). { unfold points, kx, ky. cbn [map combine]. rewrite !V by reflexivity. reflexivity. }
  assert (X : count_pairs (differ fst) (points kx ky) = 5%nat).
  { rewrite P. cbn [count_pairs filter length]. unfold differ; cbn [fst snd]. repeat match goal with |- context [Req_bool ?a ?b] => destruct (Req_bool_spec a b); try (exfalso; lra) end. reflexivity. }
  assert (Y : count_pairs (differ snd) (points kx ky) = 6%nat).
  { rewrite P. cbn [count_pairs filter length]. unfold differ; cbn [fst snd]. repeat match goal with |- context [Req_bool ?a ?b] => destruct (Req_bool_spec a b); try (exfalso; lra) end. reflexivity. }
  rewrite X, Y, P. cbn [length INR]. f_equal; [f_equal; [lra|f_equal; lra]|f_equal; lra].
Qed.

(* ---- C99: Pearson's test ---- *)
(* std::atanh, correctly rounded *)
Definition lib_atanh (x : double) : double := double_of_R (artanh (dval x)).
Lemma lib_atanh_good : good_atanh lib_atanh.
Proof.
  intros x F B. pose proof (artanh_bound (dval x) B) as A. destruct (double_of_R_ok (artanh (dval x))) as [V F']; [apply (small_bpow _ 5); [lia|change (bpow radix2 5) with 32; lra]|].
  unfold lib_atanh. split; [exact F'|]. rewrite V. apply Rle_trans with (1 := rnd_err_abs _). pose proof tiny_u. pose proof u_pos. assert (u * Rabs (artanh (dval x)) <= u * 27) by (apply Rmult_le_compat_l; lra). assert (u * u <= u) by (rewrite u_val; lra).
  change (bpow radix2 (-46)) with (/ 70368744177664). rewrite u_val in *. lra.
Qed.
(* No result for fewer than three points only; ys must not be shorter than xs, further values of ys do not count. *)
Theorem C99_defined : forall atanh erfc xs ys adj,
  ((length xs < 3)%nat -> pearson_correlation_stats atanh erfc xs ys adj = Ok None) /\
  ((3 <= length xs)%nat -> (length ys < length xs)%nat -> pearson_correlation_stats atanh erfc xs ys adj = UB) /\
  ((3 <= length xs <= length ys)%nat -> exists s, pearson_correlation_stats atanh erfc xs ys adj = Ok (Some s) /\ pearson_correlation_stats atanh erfc xs (firstn (length xs) ys) adj = Ok (Some s)).
Proof.
  intros atanh erfc xs ys adj. split; [|split].
  - intros H. unfold pearson_correlation_stats. replace (length xs <? 3)%nat with true by (symmetry; apply Nat.ltb_lt, H). reflexivity.
  - intros H K. unfold pearson_correlation_stats. replace (length xs <? 3)%nat with false by (symmetry; apply Nat.ltb_ge, H). replace (length ys <? length xs)%nat with true by (symmetry; apply Nat.ltb_lt, K). reflexivity.
  - intros [H K]. assert (L : length xs = length (firstn (length xs) ys)) by (rewrite firstn_length; lia). rewrite (pearson_form atanh erfc xs (firstn (length xs) ys) adj L H). eexists. split; [|reflexivity].
    rewrite <- (pearson_form atanh erfc xs (firstn (length xs) ys) adj L H). unfold pearson_correlation_stats. replace (length xs <? 3)%nat with false by (symmetry; apply Nat.ltb_ge, H). rewrite <- L.
    replace (length ys <? length xs)%nat with false by (symmetry; apply Nat.ltb_ge, K). rewrite Nat.ltb_irrefl, firstn_firstn, Nat.min_id. reflexivity.
Qed.
Print Assumptions C99_defined.
(* Numbers from 0 to 1, up to a million: always a finite score and a probability. *)
Theorem C99_valid : forall atanh erfc xs ys adj, good_atanh atanh -> erfc_bounded erfc -> unit_data xs -> unit_data ys -> length xs = length ys -> good_size (length xs) -> is_finite adj = true -> 1 <= dval adj <= 2 ->
  exists s, pearson_correlation_stats atanh erfc xs ys adj = Ok (Some s) /\ st_type s = Z_score /\ is_finite (st_value s) = true /\ valid_stat s.
Proof.
  intros atanh erfc xs ys adj G HE Hx Hy L Hn Fa Ba. destruct (pearson_valid xs ys Hx Hy L Hn atanh erfc adj G HE Fa Ba) as (s & E & T & F & _ & V). exists s. repeat split; try assumption; apply V.
Qed.
Print Assumptions C99_valid.
(* The score is Fisher's transformation of Pearson's coefficient times sqrt((n - 3) / adjustment), up to the error of the coefficient 16384 n 2^-53. *)
Theorem C99_formula : forall atanh erfc xs ys adj, good_atanh atanh -> erfc_bounded erfc -> unit_data xs -> unit_data ys -> length xs = length ys -> good_size (length xs) -> is_finite adj = true -> 1 <= dval adj <= 2 ->
  let X := map dval xs in let Y := map dval ys in let n := INR (length xs) in
  n / 32 <= crossR X X -> n / 32 <= crossR Y Y -> Rabs (pearson X Y) <= / 2 ->
  exists s, pearson_correlation_stats atanh erfc xs ys adj = Ok (Some s) /\
    Rabs (dval (st_value s) - artanh (pearson X Y) * sqrt ((n - 3) / dval adj)) <= 16384 * n * bpow radix2 (-53) * sqrt ((n - 3) / dval adj) /\ st_p s = normal_two_tailed_cdf erfc (st_value s).
Proof.
  intros atanh erfc xs ys adj G HE Hx Hy L Hn Fa Ba X Y n Vx Vy BR. destruct (pearson_accurate atanh erfc xs ys adj G HE Hx Hy L Hn Fa Ba Vx Vy BR) as (s & E & _ & _ & A & P). exists s. split; [exact E|]. split; [|exact P].
  fold X Y n in A. replace (16384 * n * bpow radix2 (-53)) with (32 * rho n); [exact A|]. unfold rho. change (bpow radix2 (-53)) with u. ring.
Qed.
Print Assumptions C99_formula.
Theorem C99_symmetric : forall atanh erfc xs ys adj, length xs = length ys -> pearson_correlation_stats atanh erfc ys xs adj = pearson_correlation_stats atanh erfc xs ys adj.
Proof. exact pearson_symmetric. Qed.
Print Assumptions C99_symmetric.
(* Constant data have the score 0 and the p-value 1. *)
Theorem C99_constant : forall atanh erfc xs ys adj, unit_data xs -> unit_data ys -> length xs = length ys -> good_size (length xs) -> all_equal xs \/ all_equal ys ->
  pearson_correlation_stats atanh erfc xs ys adj = Ok (Some (mkstat Z_score d0 d1 (double_of_N (N.of_nat (length xs))))).
Proof.
  intros atanh erfc xs ys adj Hx Hy L Hn H. assert (Hn' : good_size (length ys)) by (rewrite <- L; exact Hn). rewrite pearson_form by (exact L || apply Hn). destruct H as [H|H].
  - rewrite (constant_near xs Hx Hn H). reflexivity.
  - pose proof (constant_near ys Hy Hn' H) as K. rewrite <- L in K. rewrite K, orb_true_r. reflexivity.
Qed.
Print Assumptions C99_constant.
(* Identical data: the coefficient 1 is taken as 1 - 2^-53. *)
Theorem C99_identical : forall atanh erfc xs adj, good_atanh atanh -> unit_data xs -> good_size (length xs) -> is_finite adj = true -> 1 <= dval adj <= 2 -> INR (length xs) / 32 <= crossR (map dval xs) (map dval xs) ->
  exists s, pearson_correlation_stats atanh erfc xs xs adj = Ok (Some s) /\ st_p s = normal_two_tailed_cdf erfc (st_value s) /\ 18 * sqrt ((INR (length xs) - 3) / dval adj) <= dval (st_value s).
Proof.
  intros atanh erfc xs adj G Hx Hn Fa Ba V. rewrite (identical_form atanh erfc xs adj Hx Hn V). eexists. split; [reflexivity|]. split; [reflexivity|]. cbn [st_value].
  destruct top_val as [Ft Vt]. pose proof u_pos as Pu. destruct (G top Ft) as [Fm Em]; [rewrite Vt, Rabs_pos_eq by (rewrite u_val; lra); apply Rle_refl|]. rewrite Vt in Em. pose proof (size_R _ Hn) as Bn.
  assert (Ek : IZR (Z.of_N (N.of_nat (length xs) - 3)) = INR (length xs) - 3). { rewrite INR_IZR_INZ, <- minus_IZR. f_equal. destruct Hn. lia. }
  destruct (scale_ok (N.of_nat (length xs) - 3) adj) as (Ff & Af & Bf & Z0 & BF & PF); [destruct Hn; lia|exact Fa|exact Ba|]. rewrite Ek in *. set (f := dsqrt _) in *. set (F := sqrt _) in *. unfold approx in Af. rewrite (Rabs_pos_eq F PF) in Af. apply Rabs_le_inv in Af.
  assert (LA : 37 / 2 <= artanh (1 - u)).
  { unfold artanh. replace ((1 + (1 - u)) / (1 - (1 - u))) with (2 / u - 1) by (field; lra). assert (L2 : 69 / 100 <= ln 2) by (pose proof TestsPerm.ln2_lower; lra).
    assert (Q : ln (2 ^ 54 / (1 + / 1000)) <= ln (2 / u - 1)). { assert (K : 2 ^ 54 / (1 + / 1000) <= 2 / u - 1) by (rewrite u_val; replace (2 ^ 54) with 18014398509481984 by (simpl; lra); lra). destruct (Rle_lt_or_eq_dec _ _ K) as [C|C]; [left; apply ln_increasing; [replace (2 ^ 54) with 18014398509481984 by (simpl; lra); lra|exact C]|rewrite C; lra]. }
    rewrite ln_div in Q by (try apply pow_lt; lra). rewrite ln_pow in Q by lra. pose proof (ln_le_sub (1 + / 1000) ltac:(lra)). replace (INR 54) with 54 in Q by (cbn; lra). lra. }
  apply Rabs_le_inv in Em. change (bpow radix2 (-46)) with (/ 70368744177664) in Em. pose proof (artanh_bound (1 - u) ltac:(rewrite Rabs_pos_eq by (rewrite u_val; lra); lra)) as UB. apply Rabs_le_inv in UB. set (m := atanh top) in *.
  assert (Bm : 184 / 10 <= dval m <= 28) by lra.
  assert (Bz : 0 <= dval m * dval f <= 56000). { split; [apply Rmult_le_pos; lra|]. replace 56000 with (28 * 2000) by lra. apply Rmult_le_compat; lra. }
  destruct (dmul_ok m f Fm Ff) as [Vz Fz]; [apply small_bpow with 16%Z; [lia|]; change (bpow radix2 16) with 65536; rewrite Rabs_pos_eq; lra|]. rewrite Vz.
  destruct (N.eq_dec (N.of_nat (length xs) - 3) 0) as [E|E].
  - assert (ZF : F = 0). { unfold F. rewrite <- Ek, E. unfold Rdiv. cbn. rewrite Rmult_0_l. apply sqrt_0. } rewrite ZF, Rmult_0_r. rewrite <- (rnd_id 0 F64_0) at 1. apply rnd_mono. lra.
  - specialize (BF E). pose proof (rnd_err_abs (dval m * dval f)) as Er. rewrite (Rabs_pos_eq (dval m * dval f)) in Er by lra. apply Rabs_le_inv in Er. pose proof tiny_u as TU. assert (u * u <= u * F) by (apply Rmult_le_compat_l; [lra|rewrite u_val; lra]).
    assert (Lf : (1 - 3 * u) * F <= dval f) by lra. assert (Lz : 184 / 10 * ((1 - 3 * u) * F) <= dval m * dval f). { apply Rmult_le_compat; try lra. apply Rmult_le_pos; [rewrite u_val; lra|lra]. }
    assert ((1 - u) * (184 / 10 * ((1 - 3 * u) * F)) <= (1 - u) * (dval m * dval f)) by (apply Rmult_le_compat_l; [rewrite u_val; lra|exact Lz]). rewrite u_val in *. lra.
Qed.
Print Assumptions C99_identical.
(* The test of a stream: blocks of at most a million points of two successive words. *)
Theorem C99_stream : forall atanh erfc w n stream, good_atanh atanh -> erfc_bounded erfc -> (0 < w <= 64)%N -> (forall i, is_word w (stream i)) -> (3 <= n)%N ->
  exists subs, pearson_correlation_test atanh erfc w n stream = Ok subs /\ length subs = block_count n 1000000 /\
  forall i sub, nth_error subs i = Some sub -> let b := block w stream i (N.to_nat (N.min n 1000000)) in
    pearson_correlation_stats atanh erfc (fst b) (snd b) d1 = Ok (sub_stats sub) /\ exists s, sub_stats sub = Some s /\ st_type s = Z_score /\ is_finite (st_value s) = true /\ valid_stat s.
Proof.
  intros atanh erfc w n stream G HE Hw Hs H3. destruct (corr_split (fun xs ys => pearson_correlation_stats atanh erfc xs ys d1) 1000000 w n stream ltac:(lia)) as (subs & E & Ls & Hi).
  exists subs. split; [exact E|]. split; [exact Ls|]. intros i sub Es. assert (Li : (i < length subs)%nat) by (apply nth_error_Some; rewrite Es; discriminate). rewrite Ls in Li. specialize (Hi i Li). rewrite Es in Hi. cbn [option_map] in Hi.
  set (size := N.to_nat (N.min n 1000000)) in *. destruct (serial_lengths w stream (2 * size * i) size) as [L1 L2]. destruct (serial_forall (fun x => is_finite x = true /\ 0 <= dval x <= 1) w stream (2 * size * i) size) as [U1 U2]; [intros j; apply rescale_unit; [exact Hw|apply Hs]|].
  rewrite block_serial in *. set (b := block w stream i size) in *. destruct d1_val as [V1 F1].
  destruct (C99_valid atanh erfc (fst b) (snd b) d1 G HE U1 U2 ltac:(congruence)) as (s & Er & T & F & V); [rewrite L1; unfold size; split; lia|exact F1|rewrite V1; lra|].
  rewrite Er in Hi. injection Hi as Hi. rewrite Hi. cbn zeta. split; [exact Er|]. exists s. repeat split; assumption || apply V.
Qed.
Print Assumptions C99_stream.
(* four points without correlation *)
Definition px : list double := map double_of_N [0; 1; 0; 1]%N.
Definition py : list double := map double_of_N [0; 0; 1; 1]%N.
Example C99_instance : good_atanh lib_atanh /\ erfc_bounded lib_erfc /\ unit_data px /\ unit_data py /\ good_size (length px) /\ INR (length px) / 32 <= crossR (map dval px) (map dval px) /\
  INR (length px) / 32 <= crossR (map dval py) (map dval py) /\ pearson (map dval px) (map dval py) = 0 /\ all_equal (map double_of_N [1; 1; 1]%N).
Proof.
  assert (V : forall k, (k < 100)%N -> dval (double_of_N k) = IZR (Z.of_N k) /\ is_finite (double_of_N k) = true) by (intros k H; apply double_of_N_exact; change (2 ^ 53)%N with 9007199254740992%N; lia).
  assert (U : forall l, Forall (fun k => k < 2)%N l -> unit_data (map double_of_N l)).
  { intros l H. apply Forall_map. apply Forall_impl with (2 := H). intros k Hk. destruct (V k ltac:(lia)) as [-> F]. split; [exact F|]. split; apply IZR_le; lia. }
  assert (W : forall k, (k < 100)%N -> dval (double_of_N k) = IZR (Z.of_N k)) by (intros k H; apply V, H).
  assert (Ex : map dval px = [0; 1; 0; 1]) by (unfold px; cbn [map]; rewrite !W by reflexivity; reflexivity). assert (Ey : map dval py = [0; 0; 1; 1]) by (unfold py; cbn [map]; rewrite !W by reflexivity; reflexivity).
  split; [exact lib_atanh_good|]. split; [exact (gm_erfc _ lib_math_good)|]. split; [apply U; repeat constructor|]. split; [apply U; repeat constructor|]. split; [split; cbn; lia|]. rewrite Ex, Ey.
  assert (M : meanR [0; 1; 0; 1] = / 2 /\ meanR [0; 0; 1; 1] = / 2) by (unfold meanR, rsum; cbn; split; lra). destruct M as [M1 M2].
  split; [unfold crossR; rewrite M1; unfold rsum; cbn; lra|]. split; [unfold crossR; rewrite M2; unfold rsum; cbn; lra|]. split.
  - unfold pearson. replace (crossR [0; 1; 0; 1] [0; 0; 1; 1]) with 0; [unfold Rdiv; ring|]. unfold crossR. rewrite M1, M2. unfold rsum. cbn. lra.
  - intros a b Ha Hb. cbn [map] in Ha, Hb. destruct Ha as [<-|[<-|[<-|[]]]], Hb as [<-|[<-|[<-|[]]]]; reflexivity.
Qed.

(* ---- C100: Spearman's test ---- *)
Lemma spearman_unfold sort atanh erfc xs ys p q : good_index_sort sort -> distinct xs -> distinct ys -> sorts_positions xs p -> sorts_positions ys q ->
  spearman_correlation_stats sort atanh erfc xs ys = pearson_correlation_stats atanh erfc (rescale_ranks p) (rescale_ranks q) adj06.
Proof.
  intros G Dx Dy Sx Sy. unfold spearman_correlation_stats. rewrite (positions_unique xs _ p (get_ranks_ok sort xs G Dx) Sx), (positions_unique ys _ q (get_ranks_ok sort ys G Dy) Sy). reflexivity.
Qed.
(* Only the order of the values counts. *)
Theorem C100_order : forall sort atanh erfc xs ys xs' ys', good_index_sort sort -> distinct xs -> distinct ys -> distinct xs' -> distinct ys' -> same_order xs xs' -> same_order ys ys' ->
  spearman_correlation_stats sort atanh erfc xs ys = spearman_correlation_stats sort atanh erfc xs' ys'.
Proof.
  intros sort atanh erfc xs ys xs' ys' G Dx Dy Dx' Dy' SX SY. pose proof (get_ranks_ok sort xs G Dx) as Px. pose proof (get_ranks_ok sort ys G Dy) as Py.
  rewrite (spearman_unfold sort atanh erfc xs ys _ _ G Dx Dy Px Py). symmetry. apply spearman_unfold; try assumption; eapply positions_order; eassumption.
Qed.
Print Assumptions C100_order.
Theorem C100_valid : forall sort atanh erfc xs ys, good_index_sort sort -> good_atanh atanh -> erfc_bounded erfc -> distinct xs -> distinct ys -> length xs = length ys -> good_size (length xs) ->
  exists s, spearman_correlation_stats sort atanh erfc xs ys = Ok (Some s) /\ st_type s = Z_score /\ is_finite (st_value s) = true /\ valid_stat s.
Proof.
  intros sort atanh erfc xs ys GS G HE Dx Dy L Hn. pose proof (get_ranks_ok sort xs GS Dx) as Px. pose proof (get_ranks_ok sort ys GS Dy) as Py. rewrite (spearman_unfold sort atanh erfc xs ys _ _ GS Dx Dy Px Py).
  destruct (rescale_perm (length xs) _ (proj1 Px)) as (L1 & U1 & _); [destruct Hn; lia|destruct Hn; lia|]. destruct (rescale_perm (length ys) _ (proj1 Py)) as (L2 & U2 & _); [destruct Hn; lia|destruct Hn; lia|].
  destruct adj06_val as (Fa & Va & Ba). apply C99_valid; try assumption; first [congruence|rewrite L1; exact Hn|rewrite Va; exact Ba].
Qed.
Print Assumptions C100_valid.
(* The score belongs to the correlation of the two lists of positions in the order of size. *)
Theorem C100_formula : forall sort atanh erfc xs ys p q, good_index_sort sort -> good_atanh atanh -> erfc_bounded erfc -> distinct xs -> distinct ys -> length xs = length ys -> good_size (length xs) ->
  sorts_positions xs p -> sorts_positions ys q -> let n := INR (length xs) in let r := pearson (map INR p) (map INR q) in Rabs r <= / 2 ->
  exists s, spearman_correlation_stats sort atanh erfc xs ys = Ok (Some s) /\
    Rabs (dval (st_value s) - artanh r * sqrt ((n - 3) / adjustment)) <= 16384 * n * bpow radix2 (-53) * sqrt ((n - 3) / adjustment) /\ st_p s = normal_two_tailed_cdf erfc (st_value s).
Proof.
  intros sort atanh erfc xs ys p q GS G HE Dx Dy L Hn Sx Sy n r Br. rewrite (spearman_unfold sort atanh erfc xs ys p q GS Dx Dy Sx Sy).
  assert (Pq : Permutation q (seq 0 (length xs))) by (rewrite L; apply Sy).
  destruct (spearman_core (length xs) p q (proj1 Sx) Pq Hn atanh erfc G HE Br) as (s & E & _ & _ & A & P). exists s. split; [exact E|]. split; [|exact P].
  fold n r in A. replace (16384 * n * bpow radix2 (-53)) with (32 * rho n); [exact A|]. unfold rho. change (bpow radix2 (-53)) with u. ring.
Qed.
Print Assumptions C100_formula.
(* For points in the order of x this is Spearman's coefficient... *)
Theorem C100_sorted : forall sort atanh erfc xs ys, good_index_sort sort -> good_atanh atanh -> erfc_bounded erfc -> distinct xs -> distinct ys -> length xs = length ys -> good_size (length xs) ->
  sorts_positions xs (seq 0 (length xs)) -> let n := INR (length xs) in let r := spearman xs ys in Rabs r <= / 2 ->
  exists s, spearman_correlation_stats sort atanh erfc xs ys = Ok (Some s) /\
    Rabs (dval (st_value s) - artanh r * sqrt ((n - 3) / adjustment)) <= 16384 * n * bpow radix2 (-53) * sqrt ((n - 3) / adjustment) /\ st_p s = normal_two_tailed_cdf erfc (st_value s).
Proof.
  intros sort atanh erfc xs ys GS G HE Dx Dy L Hn Sx n r Br. pose proof (get_ranks_ok sort ys GS Dy) as Sy.
  pose proof (C100_formula sort atanh erfc xs ys _ _ GS G HE Dx Dy L Hn Sx Sy) as K. cbv zeta in K. rewrite (sorted_spearman xs ys _ L Sx Sy) in K. apply K, Br.
Qed.
Print Assumptions C100_sorted.
(* ... but the result depends on the order of the points: two orders of the same four points, with Spearman's coefficient 2/5, have scores of opposite signs. *)
Definition sx : list double := map double_of_N [0; 1; 3; 2]%N.
Definition sy : list double := map double_of_N [1; 2; 3; 0]%N.
Definition sx' : list double := map double_of_N [0; 1; 2; 3]%N.
Definition sy' : list double := map double_of_N [1; 2; 0; 3]%N.
Lemma small_val k : (k < 100)%N -> dval (double_of_N k) = IZR (Z.of_N k) /\ is_finite (double_of_N k) = true.
Proof. intros H. apply double_of_N_exact. change (2 ^ 53)%N with 9007199254740992%N. lia. Qed.
Lemma small_map l : Forall (fun k => k < 100)%N l -> map dval (map double_of_N l) = map (fun k => IZR (Z.of_N k)) l /\ Forall (fun x => is_finite x = true) (map double_of_N l).
Proof. induction 1 as [|k l H _ [IH1 IH2]]; cbn [map]; [split; constructor|]. destruct (small_val k H) as [V F]. split; [f_equal; assumption|constructor; assumption]. Qed.
Lemma small_distinct l : Forall (fun k => k < 100)%N l -> NoDup l -> distinct (map double_of_N l).
Proof.
  intros H N. destruct (small_map l H) as [V F]. split; [exact F|]. rewrite V. apply FinFun.Injective_map_NoDup; [|exact N]. intros a b E. apply eq_IZR in E. lia.
Qed.
Lemma small_sorts l p : Forall (fun k => k < 100)%N l -> Permutation p (seq 0 (length l)) -> StronglySorted (fun i j => (nth i l 0 < nth j l 0)%N) p -> sorts_positions (map double_of_N l) p.
Proof.
  intros H P S. split; [rewrite map_length; exact P|]. assert (B : Forall (fun i => (i < length l)%nat) p). { apply Forall_forall. intros i Hi. apply (Permutation_in _ P), in_seq in Hi. lia. }
  assert (W : forall i, (i < length l)%nat -> dval (nth i (map double_of_N l) d0) = IZR (Z.of_N (nth i l 0%N))).
  { intros i Hi. rewrite (nth_indep _ d0 (double_of_N 0)) by (rewrite map_length; exact Hi). rewrite map_nth. apply small_val. rewrite Forall_forall in H. apply H, nth_In, Hi. }
  clear P. induction S as [|a p S IH K]; [constructor|]. pose proof (Forall_inv B) as Ba. apply Forall_inv_tail in B. constructor; [apply IH, B|]. rewrite Forall_forall in *. intros j Hj. rewrite !W by (assumption || apply B, Hj). apply IZR_lt. specialize (K j Hj). lia.
Qed.
Lemma pearson4 (a b : list R) r : length a = 4%nat -> length b = 4%nat -> crossR a a = 5 -> crossR b b = 5 -> crossR a b = 5 * r -> pearson a b = r.
Proof. intros _ _ A B C. unfold pearson. rewrite A, B, C. rewrite sqrt_square by lra. field. Qed.
Lemma artanh_04 : 2 / 5 <= artanh (2 / 5) /\ artanh (- (2 / 5)) <= - (2 / 5).
Proof.
  assert (H : 2 / 5 <= artanh (2 / 5)). { unfold artanh. replace ((1 + 2 / 5) / (1 - 2 / 5)) with (7 / 3) by lra. pose proof (ln_le_sub (3 / 7) ltac:(lra)) as K. replace (3 / 7) with (/ (7 / 3)) in K at 1 by lra. rewrite ln_Rinv in K by lra.
    assert (69 / 100 <= ln 2) by (pose proof TestsPerm.ln2_lower; lra). replace (7 / 3) with (2 * (7 / 6)) by lra. rewrite ln_mult by lra. pose proof (ln_le_sub (6 / 7) ltac:(lra)) as K2. replace (6 / 7) with (/ (7 / 6)) in K2 at 1 by lra. rewrite ln_Rinv in K2 by lra. lra. }
  split; [exact H|]. replace (artanh (- (2 / 5))) with (- artanh (2 / 5)); [lra|]. unfold artanh. replace ((1 + - (2 / 5)) / (1 - - (2 / 5))) with (/ ((1 + 2 / 5) / (1 - 2 / 5))) by (field; lra). rewrite ln_Rinv by lra. lra.
Qed.
Ltac small_list := repeat first [apply Forall_nil|apply Forall_cons; [reflexivity|]].
Ltac small_nodup := repeat (constructor; [cbn; intuition discriminate|]); constructor.
Ltac small_sorted := repeat first [apply SSorted_nil|apply SSorted_cons|apply Forall_nil|apply Forall_cons]; reflexivity.
Theorem C100_depends_on_order : length sx = length sy /\ length sx' = length sy' /\ Permutation (points sx sy) (points sx' sy') /\ distinct sx /\ distinct sy /\ distinct sx' /\ distinct sy' /\ spearman sx sy = 2 / 5 /\ spearman sx' sy' = 2 / 5 /\
  forall sort atanh erfc, good_index_sort sort -> good_atanh atanh -> erfc_bounded erfc ->
  exists s s', spearman_correlation_stats sort atanh erfc sx sy = Ok (Some s) /\ spearman_correlation_stats sort atanh erfc sx' sy' = Ok (Some s') /\ dval (st_value s) < 0 < dval (st_value s').
Proof.
  assert (Dx : distinct sx) by (apply small_distinct; [small_list|small_nodup]). assert (Dy : distinct sy) by (apply small_distinct; [small_list|small_nodup]).
  assert (Dx' : distinct sx') by (apply small_distinct; [small_list|small_nodup]). assert (Dy' : distinct sy') by (apply small_distinct; [small_list|small_nodup]).
  destruct (small_map [0; 1; 3; 2]%N ltac:(small_list)) as [Vx _]. destruct (small_map [1; 2; 3; 0]%N ltac:(small_list)) as [Vy _]. destruct (small_map [0; 1; 2; 3]%N ltac:(small_list)) as [Vx' _]. destruct (small_map [1; 2; 0; 3]%N ltac:(small_list)) as [Vy' _].
  fold sx in Vx. fold sy in Vy. fold sx' in Vx'. fold sy' in Vy'. cbn [map Z.of_N] in Vx, Vy, Vx', Vy'.
  assert (PP : Permutation (points sx sy) (points sx' sy')) by (unfold points; rewrite Vx, Vy, Vx', Vy'; cbn [combine]; do 2 apply perm_skip; apply perm_swap).
  assert (M : forall a b c d, a + b + c + d = 6 -> meanR [a; b; c; d] = 3 / 2) by (intros a b c d E; unfold meanR, rsum; cbn [fold_right length INR]; lra).
  assert (R : forall l m, length l = 4%nat -> map dval l = map INR m -> ranks l = map (fun k => length (filter (fun j => (j <? k)%nat) m)) m).
  { intros l m _ E. unfold ranks. transitivity (map (fun v => length (filter (fun y => Rlt_bool y v) (map dval l))) (map dval l)).
    - rewrite map_map. apply map_ext. intros x. rewrite filter_map_len. reflexivity.
    - rewrite E, map_map. apply map_ext. intros k. rewrite filter_map_len. f_equal. apply filter_ext. intros j. destruct (Nat.ltb_spec j k) as [C|C]; [apply Rlt_bool_true, lt_INR, C|apply Rlt_bool_false, le_INR, C]. }
  assert (Rx : ranks sx = [0; 1; 3; 2]%nat) by (rewrite (R sx [0; 1; 3; 2]%nat); [reflexivity|reflexivity|rewrite Vx; cbn; repeat f_equal; lra]). assert (Ry : ranks sy = [1; 2; 3; 0]%nat) by (rewrite (R sy [1; 2; 3; 0]%nat); [reflexivity|reflexivity|rewrite Vy; cbn; repeat f_equal; lra]).
  assert (Rx' : ranks sx' = [0; 1; 2; 3]%nat) by (rewrite (R sx' [0; 1; 2; 3]%nat); [reflexivity|reflexivity|rewrite Vx'; cbn; repeat f_equal; lra]). assert (Ry' : ranks sy' = [1; 2; 0; 3]%nat) by (rewrite (R sy' [1; 2; 0; 3]%nat); [reflexivity|reflexivity|rewrite Vy'; cbn; repeat f_equal; lra]).
  assert (E5 : forall a b c d, a + b + c + d = 6 -> (a - 3/2)*(a - 3/2) + (b - 3/2)*(b - 3/2) + (c - 3/2)*(c - 3/2) + (d - 3/2)*(d - 3/2) = 5 -> crossR [a; b; c; d] [a; b; c; d] = 5) by (intros a b c d E E'; unfold crossR; rewrite (M a b c d E); unfold rsum; cbn [combine map fst snd fold_right]; lra).
  assert (EP : forall a b c d a' b' c' d' r, a + b + c + d = 6 -> a' + b' + c' + d' = 6 -> (a - 3/2)*(a - 3/2) + (b - 3/2)*(b - 3/2) + (c - 3/2)*(c - 3/2) + (d - 3/2)*(d - 3/2) = 5 -> (a' - 3/2)*(a' - 3/2) + (b' - 3/2)*(b' - 3/2) + (c' - 3/2)*(c' - 3/2) + (d' - 3/2)*(d' - 3/2) = 5 ->
    (a - 3/2)*(a' - 3/2) + (b - 3/2)*(b' - 3/2) + (c - 3/2)*(c' - 3/2) + (d - 3/2)*(d' - 3/2) = 5 * r -> pearson [a; b; c; d] [a'; b'; c'; d'] = r).
  { intros a b c d a' b' c' d' r E E' S S' C. apply pearson4; try reflexivity; [apply E5; assumption|apply E5; assumption|]. unfold crossR. rewrite (M a b c d E), (M a' b' c' d' E'). unfold rsum. cbn [combine map fst snd fold_right]. lra. }
  split; [reflexivity|]. split; [reflexivity|]. split; [exact PP|]. split; [exact Dx|]. split; [exact Dy|]. split; [exact Dx'|]. split; [exact Dy'|].
  split; [unfold spearman; rewrite Rx, Ry; cbn [map INR]; apply EP; lra|]. split; [unfold spearman; rewrite Rx', Ry'; cbn [map INR]; apply EP; lra|].
  intros sort atanh erfc GS G HE. assert (GZ : good_size (length sx)) by (split; cbn; lia). assert (GZ' : good_size (length sx') ) by (split; cbn; lia).
  assert (Sx : sorts_positions sx [0; 1; 3; 2]%nat) by (apply small_sorts; [small_list|cbn; do 2 apply perm_skip; apply perm_swap|small_sorted]).
  assert (Sy : sorts_positions sy [3; 0; 1; 2]%nat) by (apply small_sorts; [small_list|cbn; apply (Permutation_app_comm [3]%nat [0; 1; 2]%nat)|small_sorted]).
  assert (Sx' : sorts_positions sx' [0; 1; 2; 3]%nat) by (apply small_sorts; [small_list|reflexivity|small_sorted]).
  assert (Sy' : sorts_positions sy' [2; 0; 1; 3]%nat) by (apply small_sorts; [small_list|cbn; apply (Permutation_app_tail [3]%nat (Permutation_app_comm [2]%nat [0; 1]%nat))|small_sorted]).
  assert (P1 : pearson (map INR [0; 1; 3; 2]%nat) (map INR [3; 0; 1; 2]%nat) = - (2 / 5)) by (cbn [map INR]; apply EP; lra).
  assert (P2 : pearson (map INR [0; 1; 2; 3]%nat) (map INR [2; 0; 1; 3]%nat) = 2 / 5) by (cbn [map INR]; apply EP; lra).
  destruct (C100_formula sort atanh erfc sx sy _ _ GS G HE Dx Dy eq_refl GZ Sx Sy) as (s & Es & As & _); [rewrite P1, Rabs_Ropp, Rabs_pos_eq; lra|].
  destruct (C100_formula sort atanh erfc sx' sy' _ _ GS G HE Dx' Dy' eq_refl GZ' Sx' Sy') as (s' & Es' & As' & _); [rewrite P2, Rabs_pos_eq; lra|].
  exists s, s'. split; [exact Es|]. split; [exact Es'|]. rewrite P1 in As. rewrite P2 in As'. destruct artanh_04 as [A1 A2]. destruct adj06_val as (_ & _ & Ba).
  replace (INR (length sx)) with 4 in As by (cbn; lra). replace (INR (length sx')) with 4 in As' by (cbn; lra). change (bpow radix2 (-53)) with u in *. set (F := sqrt ((4 - 3) / adjustment)) in *.
  assert (PF : 0 < F). { apply sqrt_lt_R0, Rdiv_lt_0_compat; lra. } apply Rabs_le_inv in As. apply Rabs_le_inv in As'. rewrite u_val in *.
  assert (artanh (- (2 / 5)) * F <= - (2 / 5) * F) by (apply Rmult_le_compat_r; lra). assert (2 / 5 * F <= artanh (2 / 5) * F) by (apply Rmult_le_compat_r; lra). lra.
Qed.
Print Assumptions C100_depends_on_order.
(* A sort as required. *)
Lemma isort_good_index : good_index_sort (fun lt => isort lt).
Proof.
  intros vec F lt. assert (W : forall i, (i < length vec)%nat -> fin (nth i vec d0)) by (intros i Hi; rewrite Forall_forall in F; apply F, nth_In, Hi).
  apply (isort_sorts lt (fun i => (i < length vec)%nat)).
  - intros a b Ha Hb H. unfold lt in *. apply dlt_iff in H; [|apply W, Ha|apply W, Hb]. apply dlt_false; [apply W, Hb|apply W, Ha|lra].
  - intros a b c Ha Hb Hc H1 H2. unfold lt in *. apply dlt_false in H1; [|apply W, Hb|apply W, Ha]. apply dlt_false in H2; [|apply W, Hc|apply W, Hb]. apply dlt_false; [apply W, Hc|apply W, Ha|lra].
  - apply Forall_forall. intros i Hi. apply in_seq in Hi. lia.
Qed.
Example C100_instance : good_index_sort (fun lt => isort lt) /\ good_atanh lib_atanh /\ erfc_bounded lib_erfc /\ distinct sx' /\ distinct sy' /\ length sx' = length sy' /\ good_size (length sx') /\
  sorts_positions sx' (seq 0 (length sx')) /\ Rabs (spearman sx' sy') <= / 2.
Proof.
  destruct C100_depends_on_order as (_ & L & _ & _ & _ & Dx & Dy & _ & E & _). split; [exact isort_good_index|]. split; [exact lib_atanh_good|]. split; [exact (gm_erfc _ lib_math_good)|]. split; [exact Dx|]. split; [exact Dy|]. split; [exact L|].
  split; [split; cbn; lia|]. split; [apply small_sorts; [small_list|reflexivity|small_sorted]|]. rewrite E, Rabs_pos_eq; lra.
Qed.
