(* The sources the tool builds deliver words. *)
From Coq Require Import String Reals Lra.
From Verif Require Import Base BitwiseModel BitwiseSpec BitwiseProofs WordLemmas FloatModel StreamModel StreamSpec StreamProofs ResultModel EvaluateModel EvaluateSpec CommandModel CommandSpec PrngModel SeedModel BatterySpec BatteryModel BatteryProofs
  TestsModel TestsSpec Prop_Streams Prop_Seeds.
Open Scope N_scope.

Definition word_stream (w : N) (s : stream N) : Prop := exists f, delivers s f /\ forall i, is_word w (f i).
Lemma word_stream_source w s nm : word_stream w s -> word_source w (mksrc nm s).
Proof. intros H. exact H. Qed.
Lemma widths_pos w : In w widths -> 0 < w.
Proof. intros [<-|[<-|[<-|[<-|[]]]]]; reflexivity. Qed.
Lemma split_index w m : (0 < w)%nat -> (m < 4 * w)%nat -> exists k t r, nth_error rrc_types k = Some t /\ (r < w)%nat /\ m = (k * w + r)%nat.
Proof.
  intros Hw Hm. assert (Q : (m / w < 4)%nat) by (apply Nat.div_lt_upper_bound; lia).
  assert (E : nth_error rrc_types (m / w) <> None) by (apply nth_error_Some; exact Q). destruct (nth_error rrc_types (m / w)) as [t|] eqn:Et; [|congruence].
  exists (m / w)%nat, t, (m mod w)%nat. split; [exact Et|]. split; [apply Nat.mod_upper_bound; lia|]. rewrite (Nat.mul_comm (m / w)). apply Nat.div_mod. lia.
Qed.
Lemma sources_words w : In w widths -> Forall (word_stream w) (create_sources w).
Proof.
  intros W. pose proof (widths_pos w W) as P. destruct (C68_sources w W) as [L S]. apply Forall_forall. intros s Hs. apply In_nth_error in Hs. destruct Hs as [m Hm].
  assert (B : (m < 4 * N.to_nat w)%nat) by (rewrite <- L; apply nth_error_Some; congruence).
  destruct (split_index (N.to_nat w) m ltac:(lia) B) as (k & t & r & Hk & Hr & ->). destruct (S k t r Hk Hr) as (s' & E & D). rewrite E in Hm. injection Hm as <-.
  eexists. split; [exact D|]. intros i. apply C13_permute_bits; [exact W|apply wrap_word].
Qed.
Lemma combiner_words w c : In w widths -> (forall x y, is_word w x -> is_word w y -> is_word w (c x y)) -> Forall (word_stream w) (create_combiner_sources w c).
Proof.
  intros W Hc. pose proof (widths_pos w W) as P. assert (Z0 : is_word w 0) by (unfold is_word; apply N.neq_0_lt_0, N.pow_nonzero; discriminate).
  destruct (C68_combiner_first w c W) as [L (s0 & s1 & s2 & F & D0 & D1 & D2)]. pose proof (C68_combiner_pairs w c W) as S.
  apply Forall_forall. intros s Hs. apply In_nth_error in Hs. destruct Hs as [m Hm].
  assert (B : (m < 3 + 3 * (4 * N.to_nat w))%nat) by (rewrite <- L; apply nth_error_Some; congruence).
  destruct (Nat.lt_ge_cases m 3) as [H3|H3].
  - assert (E : nth_error (firstn 3 (create_combiner_sources w c)) m = Some s) by (destruct m as [|[|[|m]]]; [| | |lia]; destruct (create_combiner_sources w c) as [|a [|b [|e l]]]; try discriminate; exact Hm).
    rewrite F in E. destruct m as [|[|[|m]]]; [| | |lia]; injection E as <-; eexists; (split; [eassumption|]); intros i; cbn beta.
    + apply Hc; [|exact Z0]. induction i as [|i IH]; [exact Z0|]. apply Hc; [exact IH|exact Z0].
    + apply Hc; [exact Z0|apply wrap_word].
    + apply Hc; [apply wrap_word|exact Z0].
  - set (q := (4 * N.to_nat w)%nat) in *. assert (Q0 : q <> 0%nat) by lia. assert (A : ((m - 3) / q < 3)%nat) by (apply Nat.div_lt_upper_bound; lia).
    destruct (split_index (N.to_nat w) ((m - 3) mod q) ltac:(lia) (Nat.mod_upper_bound _ _ Q0)) as (k & t & r & Hk & Hr & E).
    destruct (S _ k t r A Hk Hr) as (s' & E' & D). assert (Em : m = (3 + ((m - 3) / q * q + (k * N.to_nat w + r)))%nat) by (rewrite <- E; pose proof (Nat.div_mod (m - 3) q Q0); lia).
    fold q in E'. rewrite <- Em in E'. rewrite E' in Hm. injection Hm as <-. eexists. split; [exact D|]. intros i. cbn zeta. apply Hc; apply C13_permute_bits; try exact W; apply wrap_word.
Qed.
Lemma prng_words w create_prng value fuel streams : In w widths -> (forall sd, delivers (create_prng sd) (value sd)) -> (forall sd i, is_word w (value sd i)) -> (1024 <= fuel)%nat ->
  create_prng_test_setup w create_prng fuel = Ok (Some streams) -> Forall (word_stream w) streams /\ length streams = (4 * N.to_nat w)%nat.
Proof.
  intros W D V Hf E. destruct (C58_prng_setup w W) as (seeds & L & _ & _ & S). destruct (S create_prng value fuel D Hf) as (streams' & E' & L' & N'). rewrite E' in E. injection E as ->. split; [|exact L'].
  apply Forall_forall. intros s Hs. apply In_nth_error in Hs. destruct Hs as [m Hm]. assert (B : (m < length seeds)%nat) by (rewrite L, <- L'; apply nth_error_Some; congruence).
  destruct (nth_error seeds m) as [sd|] eqn:Es; [|apply nth_error_None in Es; lia]. eexists. split; [exact (N' m s sd Hm Es)|]. intros i. apply ror_word; [apply widths_pos, W|apply V].
Qed.
Lemma data_words w data k streams : Forall (is_word w) data -> data <> [] -> N.of_nat (length data) < 2 ^ 64 -> (0 < k < 2 ^ 31)%Z -> create_evenly_seeded_stream data k = Ok streams ->
  Forall (word_stream w) streams /\ length streams = Z.to_nat k.
Proof.
  intros F Hd Hl Hk E. unfold create_evenly_seeded_stream in E. destruct (Z.leb_spec k 0) as [|_]; [lia|]. injection E as <-. split; [|rewrite map_length, seq_length; reflexivity].
  apply Forall_map, Forall_forall. intros i _. eexists. split; [apply data_delivers; [exact Hd|apply wrap_word]|]. intros j. cbn beta. rewrite Forall_forall in F. apply F, nth_In.
  assert (L0 : N.of_nat (length data) <> 0) by (destruct data; [congruence|cbn [length]; lia]).
  match goal with |- context [(?a mod ?b)] => pose proof (N.mod_lt a b L0) end. lia.
Qed.

Lemma default_count M cdf w : length (default_tests M cdf w) = 12%nat.
Proof. reflexivity. Qed.
Lemma types_count E M cdf w : e_defs E = default_tests M cdf w -> length (default_test_types (e_defs E)) = 12%nat.
Proof. intros ->. unfold default_test_types. rewrite map_length. reflexivity. Qed.
Lemma subjects_sound M cdf w E s : good_math M -> good_cdf cdf -> In w [8; 16; 32; 64] -> e_defs E = default_tests M cdf w -> 1 <= e_threads E -> word_subjects w s ->
  Forall (fun x => sound_setup (mixed_name (ts_name x)) E x) (test_setups E w s).
Proof.
  intros G C W DE HT (S1 & S2 & [S3 S3'] & S4 & S5 & S6).
  assert (TC := types_count E M cdf w DE).
  assert (D : forall name l stop, word_sources w l -> (10 <= stop <= 26)%Z -> sound_setup (mixed_name (ts_name (data_setup E name l 10 stop))) E (data_setup E name l 10 stop)).
  { intros name l stop [F L] Hs. apply (default_sound M cdf w); try assumption; cbn [data_setup ts_sources ts_mix ts_max_threads ts_start ts_stop ts_tests]; [discriminate|lia|lia|].
    rewrite TC. change (2 ^ 24) with 16777216. lia. }
  unfold test_setups, on_data. rewrite !Forall_app. split; [|split; [|split; [|split]]].
  - destruct (s_trng s) as [l|]; constructor; [|constructor]. apply D; [apply S1; reflexivity|lia].
  - destruct (s_drng s) as [l|]; constructor; [|constructor]. apply D; [apply S2; reflexivity|lia].
  - apply Forall_map. rewrite Forall_forall in S4 |- *. intros m Hm. apply (default_sound M cdf w); try assumption; cbn [mixer_setup ts_sources ts_mix ts_max_threads ts_start ts_stop ts_tests]; [|lia|lia|].
    + intros m' Em. injection Em as <-. apply S4, Hm.
    + rewrite TC. change (2 ^ 24) with 16777216. lia.
  - apply Forall_map. rewrite Forall_forall in S5 |- *. intros p Hp. apply D; [apply S5, Hp|lia].
  - apply Forall_map. rewrite Forall_forall in S6 |- *. intros p Hp. apply D; [apply S6, Hp|lia].
Qed.
