(* xorshift128+, xoroshiro128+, xoshiro128+ and xoshiro128++: one cycle of 2^128 - 1 states, and the distribution
   and least period of their outputs. *)
From Coq Require Import Znumtheory.
From Verif Require Import Base BitwiseModel BitwiseSpec BitwiseProofs WordLemmas PeriodProofs LinearProofs MixerProofs PrngModel PrngSpec PrngProofs FermatPrime Period128.
Open Scope N_scope.

(* ---------- splitting a word into two halves ---------- *)
Definition join (w a b : N) : N := N.lxor a (N.shiftl b w).
Definition lo (w x : N) : N := wrap w x.
Definition hi (w x : N) : N := wrap w (N.shiftr x w).
Lemma lo_lin w x y : lo w (N.lxor x y) = N.lxor (lo w x) (lo w y).
Proof. apply wrap_lxor. Qed.
Lemma hi_lin w x y : hi w (N.lxor x y) = N.lxor (hi w x) (hi w y).
Proof. unfold hi. rewrite N.shiftr_lxor. apply wrap_lxor. Qed.
Lemma join_lin w a b a' b' : join w (N.lxor a a') (N.lxor b b') = N.lxor (join w a b) (join w a' b').
Proof. unfold join. rewrite N.shiftl_lxor. apply lxor_swap. Qed.
Lemma lo_join w a b : is_word w a -> lo w (join w a b) = a.
Proof.
  intro Ha. apply N.bits_inj. intro i. unfold lo, join. rewrite wrap_testbit, N.lxor_spec, shiftl_testbit.
  destruct (N.ltb_spec i w) as [L|L]; cbn [andb].
  - destruct (N.leb_spec w i); [lia|]. cbn [andb]. apply Bool.xorb_false_r.
  - symmetry. apply (word_high w); assumption.
Qed.
Lemma hi_join w a b : is_word w a -> is_word w b -> hi w (join w a b) = b.
Proof.
  intros Ha Hb. apply N.bits_inj. intro i. unfold hi, join. rewrite wrap_testbit, shiftr_testbit, N.lxor_spec, shiftl_testbit.
  destruct (N.ltb_spec i w) as [L|L]; cbn [andb].
  - rewrite (word_high w a (i + w)) by (assumption || lia). destruct (N.leb_spec w (i + w)); [|lia]. cbn [andb xorb]. replace (i + w - w) with i by lia. destruct (N.testbit b i); reflexivity.
  - symmetry. apply (word_high w); assumption.
Qed.
Lemma join_split w x : is_word (2 * w) x -> join w (lo w x) (hi w x) = x.
Proof.
  intro Hx. apply N.bits_inj. intro i. unfold lo, hi, join. rewrite N.lxor_spec, shiftl_testbit, !wrap_testbit, shiftr_testbit.
  destruct (N.ltb_spec i w) as [L|L]; cbn [andb].
  - destruct (N.leb_spec w i); [lia|]. cbn [andb]. apply Bool.xorb_false_r.
  - destruct (N.leb_spec w i); [|lia]. cbn [andb]. replace (i - w + w) with i by lia. destruct (N.ltb_spec (i - w) w); cbn [andb xorb]; [destruct (N.testbit x i); reflexivity|]. symmetry. apply (word_high (2 * w)); [exact Hx|lia].
Qed.
Lemma join_word w a b : is_word w a -> is_word w b -> is_word (2 * w) (join w a b).
Proof.
  intros Ha Hb. apply word_of_high. intros i Hi. unfold join. rewrite N.lxor_spec, shiftl_testbit, (word_high w a i), (word_high w b (i - w)) by (assumption || lia).
  destruct (w <=? i); reflexivity.
Qed.

(* ---------- pairs of 64-bit words ---------- *)
Definition e2 (s : N * N) : N := join 64 (fst s) (snd s).
Definition d2 (x : N) : N * N := (lo 64 x, hi 64 x).
Definition F2 (step : N * N -> N * N) (x : N) : N := e2 (step (d2 x)).
Definition lx2 (s t : N * N) : N * N := (N.lxor (fst s) (fst t), N.lxor (snd s) (snd t)).
Lemma d2_word x : words2 64 (d2 x).
Proof. split; apply wrap_word. Qed.
Lemma d2_e2 s : words2 64 s -> d2 (e2 s) = s.
Proof. destruct s as [a b]. intros [Ha Hb]. unfold d2, e2. cbn [fst snd] in *. rewrite lo_join, hi_join by assumption. reflexivity. Qed.
Lemma e2_d2 x : is_word 128 x -> e2 (d2 x) = x.
Proof. intro Hx. apply (join_split 64 x), Hx. Qed.
Lemma e2_word s : words2 64 s -> is_word 128 (e2 s).
Proof. intros [Ha Hb]. apply (join_word 64); assumption. Qed.
Lemma F2_lin step : (forall s t, words2 64 s -> words2 64 t -> step (lx2 s t) = lx2 (step s) (step t)) ->
  forall x y, F2 step (N.lxor x y) = N.lxor (F2 step x) (F2 step y).
Proof.
  intros L x y. unfold F2. replace (d2 (N.lxor x y)) with (lx2 (d2 x) (d2 y)) by (unfold d2, lx2; cbn [fst snd]; rewrite lo_lin, hi_lin; reflexivity).
  rewrite L by apply d2_word. unfold e2, lx2. cbn [fst snd]. apply join_lin.
Qed.

(* ---------- quadruples of 32-bit words ---------- *)
Definition e4 (s : N * N * N * N) : N := let '(a, b, c, d) := s in join 64 (join 32 a b) (join 32 c d).
Definition d4 (x : N) : N * N * N * N := (lo 32 (lo 64 x), hi 32 (lo 64 x), lo 32 (hi 64 x), hi 32 (hi 64 x)).
Definition F4 (step : N * N * N * N -> N * N * N * N) (x : N) : N := e4 (step (d4 x)).
Definition lx4 (s t : N * N * N * N) : N * N * N * N :=
  let '(a, b, c, d) := s in let '(a', b', c', d') := t in (N.lxor a a', N.lxor b b', N.lxor c c', N.lxor d d').
Lemma d4_word x : words4 32 (d4 x).
Proof. unfold words4, d4. repeat split; apply wrap_word. Qed.
Lemma d4_e4 s : words4 32 s -> d4 (e4 s) = s.
Proof.
  destruct s as [[[a b] c] d]. intros (Ha & Hb & Hc & Hd). unfold d4, e4. pose proof (join_word 32 a b Ha Hb) as P. pose proof (join_word 32 c d Hc Hd) as Q. change (2 * 32) with 64 in P, Q.
  rewrite (lo_join 64), (hi_join 64), !(lo_join 32), !(hi_join 32) by assumption. reflexivity.
Qed.
Lemma e4_d4 x : is_word 128 x -> e4 (d4 x) = x.
Proof. intro Hx. unfold e4, d4. rewrite (join_split 32 (lo 64 x)), (join_split 32 (hi 64 x)) by apply wrap_word. apply (join_split 64 x), Hx. Qed.
Lemma e4_word s : words4 32 s -> is_word 128 (e4 s).
Proof. destruct s as [[[a b] c] d]. intros (Ha & Hb & Hc & Hd). apply (join_word 64); apply (join_word 32); assumption. Qed.
Lemma F4_lin step : (forall s t, words4 32 s -> words4 32 t -> step (lx4 s t) = lx4 (step s) (step t)) ->
  forall x y, F4 step (N.lxor x y) = N.lxor (F4 step x) (F4 step y).
Proof.
  intros L x y. unfold F4. replace (d4 (N.lxor x y)) with (lx4 (d4 x) (d4 y)) by (unfold d4, lx4; rewrite ?lo_lin, ?hi_lin, ?lo_lin, ?hi_lin; reflexivity).
  rewrite L by apply d4_word. destruct (step (d4 x)) as [[[a b] c] d], (step (d4 y)) as [[[a' b'] c'] d']. unfold e4, lx4. rewrite !join_lin. reflexivity.
Qed.

(* ---------- the steps are linear ---------- *)
Ltac xor_bits := apply N.bits_inj; intro; rewrite ?N.lxor_spec; repeat match goal with |- context [N.testbit ?a ?b] => destruct (N.testbit a b) end; reflexivity.
Lemma xorshift128_lin s t : words2 64 s -> words2 64 t -> xorshift128_step (lx2 s t) = lx2 (xorshift128_step s) (xorshift128_step t).
Proof.
  destruct s as [a b], t as [a' b']. intros _ _. unfold xorshift128_step, lx2. cbn [fst snd]. f_equal. rewrite xshl_lin, !N.shiftr_lxor. generalize (xshl 64 23 a), (xshl 64 23 a'). intros. xor_bits.
Qed.
Lemma xoroshiro128_lin s t : words2 64 s -> words2 64 t -> xoroshiro128_step (lx2 s t) = lx2 (xoroshiro128_step s) (xoroshiro128_step t).
Proof.
  destruct s as [a b], t as [a' b']. intros [Ha Hb] [Ha' Hb']. unfold xoroshiro128_step, lx2. cbn [fst snd] in *.
  rewrite (lxor_swap b b' a a'). assert (P : is_word 64 (N.lxor b a)) by (apply word_lxor; assumption). assert (P' : is_word 64 (N.lxor b' a')) by (apply word_lxor; assumption).
  rewrite !rol_lxor by (reflexivity || assumption). rewrite N.shiftl_lxor, wrap_lxor. f_equal.
  generalize (rol 64 a 55), (rol 64 a' 55), (wrap 64 (N.shiftl (N.lxor b a) 14)), (wrap 64 (N.shiftl (N.lxor b' a') 14)). intros. xor_bits.
Qed.
Lemma xoshiro128_lin s t : words4 32 s -> words4 32 t -> xoshiro128_step (lx4 s t) = lx4 (xoshiro128_step s) (xoshiro128_step t).
Proof.
  destruct s as [[[a b] c] d], t as [[[a' b'] c'] d']. intros (Ha & Hb & Hc & Hd) (Ha' & Hb' & Hc' & Hd'). unfold xoshiro128_step, lx4.
  rewrite N.shiftl_lxor, wrap_lxor. assert (P : is_word 32 (N.lxor d b)) by (apply word_lxor; assumption). assert (P' : is_word 32 (N.lxor d' b')) by (apply word_lxor; assumption).
  generalize (wrap 32 (N.shiftl b 9)), (wrap 32 (N.shiftl b' 9)). intros u u'.
  rewrite (lxor_swap d d' b b'), rol_lxor by (reflexivity || assumption). generalize (rol 32 (N.lxor d b) 11), (rol 32 (N.lxor d' b') 11). intros v v'.
  repeat apply (f_equal2 pair); xor_bits.
Qed.

(* ---------- certificates ---------- *)
Lemma prime_274177 : prime 274177. Proof. apply (prime_trial 274177 523); [lia|lia|lia|vm_compute; reflexivity]. Qed.
Definition primes128_list : list positive := [3; 5; 17; 257; 641; 65537; 274177; 6700417; 67280421310721]%positive.
Definition cert_xorshift : list (positive * N) := combine primes128_list
  [158559727607240789902919099517439469047; 113526408348880941083180420693471817064; 149808063571662190574603864620377744220;
   51306174325386397428511966121656031994; 3268343882342998841821371150616072681; 161647651825394152921544737375745907074;
   56652727513372076627891934522887607217; 338670947001646916172314639469603959837; 262487359091900871616605872545234828590].
Definition cert_xoroshiro : list (positive * N) := combine primes128_list
  [339684922512269150648188650129484257985; 90991884491403615689821015006884264618; 67481503958701135341991910118637827629;
   200643509749754149543881246771237346283; 223166042147608860999685649669858008525; 314640099785086560439829855140133681932;
   310885545668885776524078371853018124112; 27636064999617809599041363807146333937; 26064454974707524672697536179217033117].
Definition cert_xoshiro : list (positive * N) := combine primes128_list
  [32633097235849249870287979738670633877; 277435409453467619097345968410624289780; 166640993442403432366759952892064705362;
   331707896873957130909386624351431266253; 85988378671516255400565745670560759691; 165100398451025042585645145076737775906;
   93422864948956968609259514956537479865; 276061777348479961299566151919856046626; 75789009165674735289783591463107151402].
Definition P128 : positive := 340282366920938463463374607431768211455.

Lemma cert_xorshift_ok : orbit_cert 128 393808575383607335054555469227158281647 (F2 xorshift128_step) P128 cert_xorshift = true.
Proof. vm_compute. reflexivity. Qed.
Lemma cert_xoroshiro_ok : orbit_cert 128 340808024664656551940088912187419115521 (F2 xoroshiro128_step) P128 cert_xoroshiro = true.
Proof. vm_compute. reflexivity. Qed.
Lemma cert_xoshiro_ok : orbit_cert 128 341592887087740410831446291735224318977 (F4 xoshiro128_step) P128 cert_xoshiro = true.
Proof. vm_compute. reflexivity. Qed.
Ltac primes128 := cbn; repeat (apply Forall_cons; [first [apply prime_3|apply prime_5|apply prime_17|apply prime_257
    |apply prime_641|apply prime_65537|apply prime_274177|apply prime_6700417|apply prime_67280421310721]|]); apply Forall_nil.
Lemma primes_xorshift : Forall prime (map (fun qu => Zpos (fst qu)) cert_xorshift). Proof. primes128. Qed.
Lemma primes_xoroshiro : Forall prime (map (fun qu => Zpos (fst qu)) cert_xoroshiro). Proof. primes128. Qed.
Lemma primes_xoshiro : Forall prime (map (fun qu => Zpos (fst qu)) cert_xoshiro). Proof. primes128. Qed.
