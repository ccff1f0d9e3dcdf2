(* Model of core/src/util/fileutil.h:19-47, core/src/trng_data.h and core/src/util/ppm.h.
   A file is the list of its bytes; the file system maps paths to files.  Words are stored in
   the byte order of the machine, here little-endian (x86, the platform of the project). *)
From Coq Require Import String DecimalString.
From Verif Require Import Base.
Open Scope N_scope.

Definition file_system : Type := string -> option (list N).
Definition fs_set (fs : file_system) (path : string) (f : list N) : file_system := fun p => if String.eqb p path then Some f else fs p.
(* the k bytes of a word, lowest first *)
Definition word_bytes (k : nat) (v : N) : list N := map (fun i => N.shiftr v (8 * N.of_nat i) mod 256) (seq 0 k).
(* the word made of bytes, lowest first *)
Definition bytes_word (bs : list N) : N := fold_right (fun b v => b + 256 * v) 0 bs.
(* successive groups of k bytes *)
Fixpoint groups (k m : nat) (bs : list N) : list (list N) := match m with O => [] | S m' => firstn k bs :: groups k m' (skipn k bs) end.

(* fileutil.h:41-47, sizeof(value_type) = k.  [opened]: the file could be opened; [accepted]: how
   many of the bytes reached the file.  The result is true only if all of them did. *)
Definition write_binary (k : nat) (fs : file_system) (path : string) (data : list N) (append opened : bool) (accepted : nat) : file_system * bool :=
  if opened then
    let old := if append then match fs path with Some f => f | None => [] end else [] in
    let bytes := flat_map (word_bytes k) data in
    (fs_set fs path (old ++ firstn accepted bytes), Nat.leb (length bytes) accepted)
  else (fs, false).

Inductive read_result : Type := Data (d : list N) | Throws.
(* fileutil.h:19-39.  The assertion is compiled out: for a missing file tellg() is -1 and the read
   leaves the zeros of the vector.  A vector of 2^63 bytes or more throws std::length_error. *)
Definition read_binary (k : nat) (fs : file_system) (path : string) (max_elements : N) : read_result :=
  let size := match fs path with Some f => N.of_nat (length f) | None => 2 ^ 64 - 1 end in
  let size := size - size mod N.of_nat k in
  let size := if max_elements <? size / N.of_nat k then wrap 64 (max_elements * N.of_nat k) else size in
  let count := size / N.of_nat k in
  if 2 ^ 63 <=? count * N.of_nat k then Throws
  else Data match fs path with
            | Some f => map bytes_word (groups k (N.to_nat count) (firstn (N.to_nat size) f))
            | None => repeat 0 (N.to_nat count)
            end.

(* trng_data.h:17-20, 28-37: the bytes are read once and kept, then viewed as words of k bytes.
   [cache] is the static variable. *)
Definition get_trng_data (k : nat) (fs : file_system) (path : string) (cache : option (list N)) : option (list N) * option read_result :=
  match fs path with
  | None => (cache, None)
  | Some _ =>
    match (match cache with Some c => Data c | None => read_binary 1 fs path (2 ^ 64 - 1) end) with
    | Throws => (cache, Some Throws)
    | Data bytes => (Some bytes, Some (Data (map bytes_word (groups k (length bytes / k) bytes))))
    end
  end.

(* ---- ppm.h ---- *)
(* for (T i = 0; i < limit; ++i) with limit an int: types narrower than int are promoted, wider
   ones convert the limit *)
Definition loop_limit (w : N) (limit : Z) : N := if w <? 32 then Z.to_N limit else Z.to_N (limit mod 2 ^ Z.of_N w).
Fixpoint loop_values (w limit : N) (fuel : nat) (i : N) : option (list N) :=
  if i <? limit then match fuel with O => None | S fuel' => option_map (cons i) (loop_values w limit fuel' (wrap w (i + 1))) end else Some [].
(* 27-32: the bytes of one value, each three times *)
Definition ppm_pixel (k : nat) (p : N) : list N := flat_map (fun b => [b; b; b]) (map (fun i => N.land (N.shiftr p (8 * N.of_nat i)) 255) (seq 0 k)).
Section Ppm.
Context {St : Type}.
Variable func : St -> N -> N -> St * N.
(* 24-34: the successive values of func *)
Definition ppm_row (xs : list N) (y : N) (acc : St * list N) : St * list N :=
  fold_left (fun '(s, ps) x => let '(s', p) := func s x y in (s', ps ++ [p])) xs acc.
Definition ppm_values (w : N) (fuel : nat) (width height : Z) (s : St) : option (list N) :=
  match loop_values w (loop_limit w width) fuel 0, loop_values w (loop_limit w height) fuel 0 with
  | Some xs, Some ys => Some (snd (fold_left (fun acc y => ppm_row xs y acc) ys (s, [])))
  | None, Some [] => Some []
  | _, _ => None
  end.
(* 22-37: the data after the header; None if the loops never end *)
Definition ppm_payload (w : N) (fuel : nat) (width height : Z) (s : St) : option (list N) :=
  option_map (flat_map (ppm_pixel (N.to_nat (w / 8)))) (ppm_values w fuel width height s).
End Ppm.
(* 16: the header as characters: magic, width, height, maximum *)
Definition Z_string (z : Z) : string := NilEmpty.string_of_int (Z.to_int z).
Definition ppm_header (width height max : Z) : list string := ["P6"; Z_string width; Z_string height; Z_string max]%string.
