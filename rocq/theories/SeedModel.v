(* Model of tool/src/util/test_setups.h:8-47, 77-108 and tool/src/util/stream_sources.h.
   Names and console output are not modelled. *)
From Verif Require Import Base BitwiseModel StreamModel MixerModel PrngModel.
Open Scope N_scope.

(* get_default_mixer<T>(): mixers8.h:27, mixers16.h:27, mixers32.h:115, mixers64.h:152 *)
Definition default_mixer (w x : N) : outcome N :=
  if w =? 8 then mix8_xm3x x else if w =? 16 then mix16_xm3x x else if w =? 32 then Ok (default_mixer32 x) else Ok (default_mixer64 x).

(* std::set<T>: ascending *)
Fixpoint set_insert (x : N) (s : list N) : list N :=
  match s with
  | [] => [x]
  | y :: r => if x <? y then x :: s else if x =? y then s else y :: set_insert x r
  end.

(* the result of a loop that may not end: None when [fuel] iterations were not enough *)
(* test_setups.h:16-18; n is converted from int to size_t *)
Fixpoint fill_set (w n : N) (fuel : nat) (x : N) (added : list N) : outcome (option (list N)) :=
  if N.of_nat (length added) <? n then
    match fuel with
    | O => Ok None
    | S fuel' => v <- default_mixer w x ;; fill_set w n fuel' (wrap w (x + 1)) (set_insert v added)
    end
  else Ok (Some added).
(* test_setups.h:20-31: the secondary words come from a counter *)
Fixpoint seed_words (y : N) (primaries : list N) : list seed_data :=
  match primaries with
  | [] => []
  | p :: r =>
      (fun i => nth i [p; mix64_mx3 (wrap 64 y); mix64_mx3 (wrap 64 (y + 1)); mix64_mx3 (wrap 64 (y + 2))] 0) :: seed_words (y + 3) r
  end.
(* test_setups.h:8-32 *)
Definition initial_set (w : N) : list N := fold_left (fun s x => set_insert x s) (get_rrc_permutations w 1) [].
Definition generate_seeds (w : N) (n : Z) (fuel : nat) : outcome (option (list seed_data)) :=
  added <- fill_set w (Z.to_N (n mod 2 ^ 64)) fuel (wrap w 1234) (initial_set w) ;;
  Ok (option_map (seed_words 12345) added).

(* test_setups.h:34-47; sample_count must be positive (0 divides by zero) *)
Definition create_evenly_seeded_stream (data : list N) (sample_count : Z) : outcome (list (stream N)) :=
  if (sample_count <=? 0)%Z then UB
  else
    let interval := N.of_nat (length data) / Z.to_N sample_count in
    Ok (map (fun i => data_stream data (wrap 64 (N.of_nat i * interval))) (seq 0 (Z.to_nat sample_count))).

(* test_setups.h:77-108: pop_seed takes the last seed; the first w - 1 streams are rotated *)
Definition seed_count (w : N) : Z := Z.of_N (N.min (2 ^ w - 1 - 1) 1024).
Fixpoint pop_and_add (w : N) (create_prng : seed_data -> stream N) (bits : list Z) (seeds : list seed_data) : outcome (list (stream N) * list seed_data) :=
  match bits with
  | [] => Ok ([], seeds)
  | bit :: bits' =>
      match rev seeds with
      | [] => UB
      | seed :: _ =>
          r <- pop_and_add w create_prng bits' (removelast seeds) ;;
          Ok (ror_stream w (create_prng seed) bit :: fst r, snd r)
      end
  end.
Definition create_prng_test_setup (w : N) (create_prng : seed_data -> stream N) (fuel : nat) : outcome (option (list (stream N))) :=
  seeds <- generate_seeds w (seed_count w) fuel ;;
  match seeds with
  | None => Ok None
  | Some seeds =>
      (* 95-97 *)
      a <- pop_and_add w create_prng (map Z.of_nat (seq 1 (N.to_nat w - 1))) seeds ;;
      (* 99-101: no outer function, which is the same as rotating by 0 (streams.h:75) *)
      b <- pop_and_add w create_prng (repeat 0%Z (4 * N.to_nat w - length (fst a))) (snd a) ;;
      Ok (Some (fst a ++ fst b))
  end.

(* stream_sources.h:8-11 *)
Definition create_sources (w : N) : list (stream N) := create_rrc_sources w [counter_stream w 1 0].
(* stream_sources.h:13-54 *)
Definition create_combiner_sources (w : N) (combiner : N -> N -> N) : list (stream N) :=
  let streams_a := [counter_stream w 1 1; counter_stream w 1 (2 ^ 32); counter_stream w 1 1] in
  let streams_b := [counter_stream w 1 2; counter_stream w 1 (2 ^ 32); counter_stream w (2 ^ 64 - 1) 1] in
  [combined_incremental_stream 0 (constant_stream 0) combiner;
   combined_stream (constant_stream 0) (counter_stream w 1 0) combiner;
   combined_stream (counter_stream w 1 0) (constant_stream 0) combiner] ++
  map (fun '(a, b) => combined_stream a b combiner) (combine (create_rrc_sources w streams_a) (create_rrc_sources w streams_b)).
