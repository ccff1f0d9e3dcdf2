(* Model of core/src/stream.h, core/src/streams.h, core/src/rrc.h, core/src/rrc_streams.h,
   core/src/prng.h (create_prng_from_mixer) and the stream helpers of core/src/util/algo.h.
   Stream names are not modelled. *)
From Verif Require Import Base BitwiseModel.
Open Scope N_scope.

(* The only state shared between streams: the function-local
   'static std::atomic_size_t index' of streams.h:86. *)
Definition world : Type := N.

(* stream.h:10-27.  A stream is a std::function with state captured by value: calling it maps
   the captured state (and the shared world) to a value and a new captured state.
   Copying a stream copies the captured state. *)
Record stream (T : Type) : Type := mkstream {
  sstate : Type;
  scur : sstate;
  sstep : sstate -> world -> outcome (T * sstate * world)
}.
Arguments mkstream {T} sstate scur sstep.
Arguments sstate {T} s.
Arguments scur {T} s.
Arguments sstep {T} s _ _.

(* stream.h:20-22 operator(): returns the value, the advanced stream, and the world. *)
Definition call {T} (s : stream T) (g : world) : outcome (T * stream T * world) :=
  r <- sstep s (scur s) g ;;
  let '(v, c, g') := r in Ok (v, mkstream (sstate s) c (sstep s), g').

(* algo.h:29-37 get_raw_by_ref: n calls on the stream passed by reference. *)
Fixpoint draw {T} (n : nat) (s : stream T) (g : world) : outcome (list T * stream T * world) :=
  match n with
  | O => Ok ([], s, g)
  | S k =>
      r <- call s g ;;
      let '(v, s', g') := r in
      r' <- draw k s' g' ;;
      let '(vs, s'', g'') := r' in Ok (v :: vs, s'', g'')
  end.

(* ---------- ranged streams ---------- *)

(* stream.h:30-68 stream_iterator; the constructor (35-40) draws the first value. *)
Record siter (T : Type) : Type := mkiter {
  it_s : stream T; it_value : T; it_index : N; it_n : N
}.
Arguments mkiter {T}. Arguments it_s {T}. Arguments it_value {T}.
Arguments it_index {T}. Arguments it_n {T}.

Definition iter_new {T} (s : stream T) (n index : N) (g : world) : outcome (siter T * world) :=
  r <- call s g ;; let '(v, s', g') := r in Ok (mkiter s' v index n, g').

(* stream.h:47-51 operator++ *)
Definition iter_next {T} (it : siter T) (g : world) : outcome (siter T * world) :=
  r <- call (it_s it) g ;;
  let '(v, s', g') := r in Ok (mkiter s' v (wrap 64 (it_index it + 1)) (it_n it), g').

(* stream.h:71-98 ranged_stream: begin() and end() are const and copy the stream. *)
Record ranged (T : Type) : Type := mkranged { rs_s : stream T; rs_n : N }.
Arguments mkranged {T}. Arguments rs_s {T}. Arguments rs_n {T}.
Definition rs_begin {T} (r : ranged T) (g : world) := iter_new (rs_s r) (rs_n r) 0 g.
Definition rs_end {T} (r : ranged T) (g : world) := iter_new (rs_s r) (rs_n r) (rs_n r) g.

(* The loop 'for (const auto v : r)': visits *it, then ++it, until it == end (59-61 compares
   indices only).  Out of fuel is reported as UB; the theorems show it is not reached. *)
Fixpoint iter_loop {T} (fuel : nat) (it : siter T) (e : N) (g : world) : outcome (list T * world) :=
  if it_index it =? e then Ok ([], g)
  else match fuel with
  | O => UB
  | S k =>
      r <- iter_next it g ;;
      let '(it', g') := r in
      r' <- iter_loop k it' e g' ;;
      let '(vs, g'') := r' in Ok (it_value it :: vs, g'')
  end.
Definition range_for {T} (r : ranged T) (g : world) : outcome (list T * world) :=
  b <- rs_begin r g ;;
  let '(it, g1) := b in
  e <- rs_end r g1 ;;
  let '(ite, g2) := e in
  iter_loop (N.to_nat (rs_n r)) it (it_index ite) g2.

(* ---------- sources ---------- *)

(* streams.h:10-24, 31-34 counter_stream<T>, T of w bits *)
Definition counter_stream (w increment start : N) : stream N :=
  mkstream N start (fun state g =>
    let state' := wrap 64 (state + increment) in Ok (wrap w state', state', g)).

(* streams.h:26-29 *)
Definition constant_stream (c : N) : stream N :=
  mkstream unit tt (fun st g => Ok (c, st, g)).

(* streams.h:36-44 create_stream_from_data: data[index++ % data.size()]; '% 0' is UB. *)
Definition data_stream (data : list N) (start_index : N) : stream N :=
  mkstream N start_index (fun index g =>
    if N.of_nat (length data) =? 0 then UB
    else
      v <- at_ data (N.to_nat (index mod N.of_nat (length data))) ;;
      Ok (v, wrap 64 (index + 1), g)).

(* streams.h:84-92 create_stream_from_data_thread_safe: the index is the shared static one;
   every instance (for the same T) uses the same index. *)
Definition shared_data_stream (data : list N) : stream N :=
  mkstream unit tt (fun st g =>
    if N.of_nat (length data) =? 0 then UB
    else
      v <- at_ data (N.to_nat (g mod N.of_nat (length data))) ;;
      Ok (v, st, wrap 64 (g + 1))).

(* ---------- adaptors ---------- *)

(* A lambda '[source]() mutable { return f(source()); }' *)
Definition map_stream {A B} (f : A -> B) (s : stream A) : stream B :=
  mkstream (sstate s) (scur s) (fun c g =>
    r <- sstep s c g ;; let '(v, c', g') := r in Ok (f v, c', g')).

(* algo.h:109-121 isolate_bit_by_ref<T>: m = T(1ull << bit), v & m, x |= 1ull << i *)
Fixpoint isolate_loop {S : Type} (step : S -> world -> outcome (N * S * world))
  (m : N) (is : list N) (x : N) (c : S) (g : world) : outcome (N * S * world) :=
  match is with
  | [] => Ok (x, c, g)
  | i :: is' =>
      r <- step c g ;;
      let '(v, c', g') := r in
      isolate_loop step m is' (if N.land v m =? 0 then x else N.lor x (N.shiftl 1 i)) c' g'
  end.
Definition isolate_bit {S : Type} (step : S -> world -> outcome (N * S * world))
  (w : N) (bit : Z) (c : S) (g : world) : outcome (N * S * world) :=
  if ((bit <? 0) || (64 <=? bit))%Z then UB
  else isolate_loop step (wrap w (N.shiftl 1 (Z.to_N bit))) (map N.of_nat (seq 0 (N.to_nat w))) 0 c g.
Definition isolate_bit_by_ref (w : N) (s : stream N) (bit : Z) (g : world)
  : outcome (N * stream N * world) :=
  r <- isolate_bit (sstep s) w bit (scur s) g ;;
  let '(v, c, g') := r in Ok (v, mkstream (sstate s) c (sstep s), g').

(* streams.h:46-53 *)
Definition bit_isolation_stream (w : N) (s : stream N) (bit : Z) : stream N :=
  mkstream (sstate s) (scur s) (isolate_bit (sstep s) w bit).

(* streams.h:55-62 *)
Definition bit_reverse_stream (w : N) (s : stream N) : stream N := map_stream (reverse_bits w) s.
(* streams.h:64-71 *)
Definition byteswap_stream (w : N) (s : stream N) : stream N := map_stream (byteswap w) s.
(* streams.h:73-83 *)
Definition ror_stream (w : N) (s : stream N) (rotate_right : Z) : stream N :=
  if (rotate_right =? 0)%Z then s else map_stream (fun v => ror w v rotate_right) s.
(* streams.h:94-100; a mixer is a pure function on words *)
Definition stream_from_mixer (s : stream N) (mix : N -> N) : stream N := map_stream mix s.

(* streams.h:102-110.  The two arguments source_a(), source_b() are unsequenced relative to each
   other; the sources do not share state, so the order is irrelevant: a first is chosen. *)
Definition combined_stream (a b : stream N) (combine : N -> N -> N) : stream N :=
  mkstream (sstate a * sstate b) (scur a, scur b) (fun ab g =>
    ra <- sstep a (fst ab) g ;;
    let '(x, a', g1) := ra in
    rb <- sstep b (snd ab) g1 ;;
    let '(y, b', g2) := rb in Ok (combine x y, (a', b'), g2)).

(* streams.h:112-121 *)
Definition combined_incremental_stream (seed : N) (s : stream N) (combine : N -> N -> N) : stream N :=
  mkstream (N * sstate s) (seed, scur s) (fun xs g =>
    r <- sstep s (snd xs) g ;;
    let '(y, s', g') := r in
    let x := combine (fst xs) y in Ok (x, (x, s'), g')).

(* prng.h:26-33 create_prng_from_mixer *)
Definition prng_from_mixer (mix : N -> N) (seed : N) : stream N :=
  mkstream N seed (fun state g => let state' := mix state in Ok (state', state', g)).

(* ---------- rotate / reverse / complement ---------- *)

(* rrc.h:10-15, 17 *)
Inductive rrc_type : Type := Identity | Reverse | Complement | ReverseComplement.
Definition rrc_types : list rrc_type := [Identity; Reverse; Complement; ReverseComplement].

(* '~c' converted back to the w-bit type T *)
Definition bnot (w c : N) : N := wrap w (2 ^ w - 1 - wrap w c).

(* rrc.h:19-29 permute<T> *)
Definition permute (w c : N) (rot : Z) (type : rrc_type) : N :=
  match type with
  | Identity => ror w c rot
  | Reverse => ror w (reverse_bits w c) rot
  | Complement => ror w (bnot w c) rot
  | ReverseComplement => ror w (bnot w (reverse_bits w c)) rot
  end.

(* rrc.h:42-51 get_rrc_permutations<T> *)
Definition rots (w : N) : list Z := map Z.of_nat (seq 0 (N.to_nat w)).
Definition get_rrc_permutations (w x : N) : list N :=
  flat_map (fun type => map (fun rot => permute w x rot type) (rots w)) rrc_types.

(* rrc_streams.h:7-15 add_rrc *)
Definition add_rrc (w : N) (s : stream N) (rot : Z) (type : rrc_type) : stream N :=
  map_stream (fun v => permute w v rot type) s.

(* rrc_streams.h:18-30 create_rrc_sources *)
Definition create_rrc_sources (w : N) (sources : list (stream N)) : list (stream N) :=
  flat_map (fun s => flat_map (fun type => map (fun rot => add_rrc w s rot type) (rots w)) rrc_types)
           sources.

(* ---------- derived pair data (algo.h) ---------- *)

(* algo.h:84-97 create_bit_flipped_xy; [resc] is rescale_type_to_01.  The source is taken by value.
   flip_bit is applied to m = mixer(v), not to v. *)
Fixpoint bit_flipped_loop {D} (w : N) (resc : N -> D) (mix : N -> N) (n : nat) (s : stream N) (g : world)
  : outcome (list D * list D * world) :=
  match n with
  | O => Ok ([], [], g)
  | S k =>
      r <- call s g ;;
      let '(v, s', g') := r in
      let m := mix v in
      flips <- omapM (fun bit => flip_bit w m bit) (rots w) ;;
      rest <- bit_flipped_loop w resc mix k s' g' ;;
      let '(xs, ys, g'') := rest in
      Ok (map (fun _ => resc m) flips ++ xs, map (fun u => resc (mix u)) flips ++ ys, g'')
  end.
Definition create_bit_flipped_xy {D} (w : N) (resc : N -> D) (n : nat) (s : stream N) (mix : N -> N)
  (g : world) := bit_flipped_loop w resc mix n s g.

(* algo.h:99-107 create_serial_xy_by_ref: two calls per point *)
Fixpoint create_serial_xy_by_ref {D} (resc : N -> D) (n : nat) (s : stream N) (g : world)
  : outcome (list D * list D * stream N * world) :=
  match n with
  | O => Ok ([], [], s, g)
  | S k =>
      r1 <- call s g ;;
      let '(x, s1, g1) := r1 in
      r2 <- call s1 g1 ;;
      let '(y, s2, g2) := r2 in
      r3 <- create_serial_xy_by_ref resc k s2 g2 ;;
      let '(xs, ys, s3, g3) := r3 in
      Ok (resc x :: xs, resc y :: ys, s3, g3)
  end.

(* ---------- concurrent use of the thread-safe stream ---------- *)

(* streams.h:86-90: each call atomically fetches-and-increments the shared index (claim), then reads
   data[old % size] (finish).  [pending] lists claimed but unfinished calls (caller, old index);
   [returned] the finished calls in order of completion. *)
Record shared_state : Type := mkshared {
  sh_index : N; sh_pending : list (nat * N); sh_returned : list (nat * N)
}.
(* [shared_steps data k s s']: an execution from s to s' containing k claims. *)
Inductive shared_steps (data : list N) : nat -> shared_state -> shared_state -> Prop :=
| shs_refl : forall s, shared_steps data 0 s s
| shs_claim : forall k i p r t s3,
    shared_steps data k (mkshared (wrap 64 (i + 1)) ((t, i) :: p) r) s3 ->
    shared_steps data (S k) (mkshared i p r) s3
| shs_finish : forall k i p1 p2 r t j v s3,
    at_ data (N.to_nat (j mod N.of_nat (length data))) = Ok v ->
    shared_steps data k (mkshared i (p1 ++ p2) ((t, v) :: r)) s3 ->
    shared_steps data k (mkshared i (p1 ++ (t, j) :: p2) r) s3.
