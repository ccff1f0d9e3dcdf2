(* Model of the string helpers of core/src/util/algo.h:123-143,182-200 and of core/src/util/table.h.
   A std::string is the list of its characters. *)
From Coq Require Import Ascii.
From Verif Require Import Base.
Open Scope nat_scope.
Notation text := (list ascii).

Fixpoint prefixb (eq : ascii -> ascii -> bool) (p s : text) : bool :=
  match p, s with
  | [], _ => true
  | a :: p', b :: s' => eq a b && prefixb eq p' s'
  | _, [] => false
  end.
(* the first position at which p starts, comparing with eq; None stands for npos / end() *)
Fixpoint search (eq : ascii -> ascii -> bool) (p s : text) : option nat :=
  if prefixb eq p s then Some 0
  else match s with [] => None | _ :: s' => option_map S (search eq p s') end.
(* std::string::find(p, pos) *)
Definition str_find (s p : text) (pos : nat) : option nat :=
  if pos <=? length s then option_map (Nat.add pos) (search Ascii.eqb p (skipn pos s)) else None.
(* algo.h:123-125 *)
Definition contains (s p : text) : bool := match str_find s p 0 with Some _ => true | None => false end.
(* std::tolower in the "C" locale (characters >= 128 are left alone; passing them as negative
   chars is formally undefined, not modelled) *)
Definition tolower (c : ascii) : ascii :=
  let n := nat_of_ascii c in if (65 <=? n) && (n <=? 90) then ascii_of_nat (n + 32) else c.
(* 127-133: std::search returns end() if there is no match, and begin() for an empty pattern *)
Definition contains_ignore_case (s p : text) : bool :=
  match search (fun a b => Ascii.eqb (tolower a) (tolower b)) p s with
  | Some i => negb (i =? length s)
  | None => false
  end.
(* 135-143 *)
Definition join (strs : list text) (delimiter : text) : text :=
  fold_left (fun r s => match s with [] => r | _ => match r with [] => r ++ s | _ => (r ++ delimiter) ++ s end end) strs [].
(* 187-191; the fuel bounds the number of iterations, None is out of fuel *)
Fixpoint replace_loop (find replace : text) (fuel : nat) (str : text) (pos : option nat) : option text :=
  match pos with
  | None => Some str
  | Some pos =>
    match fuel with
    | O => None
    | S fuel' =>
      let str := firstn pos str ++ replace ++ skipn (pos + length find) str in
      replace_loop find replace fuel' str (str_find str find (pos + length replace))
    end
  end.
(* 182-192 *)
Definition replace_all (fuel : nat) (str find replace : text) : option text :=
  match find with [] => Some str | _ => replace_loop find replace fuel str (str_find str find 0) end.
(* 195 *)
Definition special_chars : text := map ascii_of_nat [92; 96; 42; 95; 123; 125; 91; 93; 40; 41; 35; 43; 45; 46; 33].
Definition backslash : ascii := ascii_of_nat 92.
(* 194-200 *)
Definition escape_for_md (fuel : nat) (s : text) : option text :=
  fold_left (fun t c => match t with Some t => replace_all fuel t [c] [backslash; c] | None => None end) special_chars (Some s).

(* ---- table.h ---- *)
Record table : Type := mktable { t_columns : nat; t_spaces : list nat; t_index : nat; t_current : text; t_rows : list (list text) }.
(* 26-29 app(const std::string&); the other overloads format their argument first *)
Definition t_app (s : text) (t : table) : table := mktable (t_columns t) (t_spaces t) (t_index t) (t_current t ++ s) (t_rows t).
(* 90-96 col(); _getRow() of no rows is undefined (145-147) *)
Definition t_col (t : table) : outcome table :=
  if t_index t <? length (t_spaces t) then
    let spaces := upd (t_spaces t) (t_index t) (Nat.max (nth (t_index t) (t_spaces t) 0) (length (t_current t) + 2)) in
    match rev (t_rows t) with
    | [] => UB
    | r :: rs => Ok (mktable (t_columns t) spaces (S (t_index t)) [] (rev ((r ++ [t_current t]) :: rs)))
    end
  else UB.
(* 58-61 *)
Definition t_col_text (s : text) (t : table) : outcome table := t_col (t_app s t).
(* 98-106; _columns - 1 wraps for no columns *)
Definition t_row (t : table) : outcome table :=
  t <- (if (t_columns t =? S (t_index t)) then t_col t else Ok t) ;;
  Ok (mktable (t_columns t) (t_spaces t) 0 (t_current t) (t_rows t ++ [[]])).
(* 8-15 *)
Definition t_new (headers : list text) : outcome table :=
  t <- t_row (mktable (length headers) (repeat 0 (length headers)) 0 [] []) ;;
  t <- ofold (fun t h => t_col_text h t) headers t ;;
  t_row t.
Definition space : ascii := ascii_of_nat 32.
Definition newline : ascii := ascii_of_nat 10.
(* 113-120; the subtraction is not negative (proved) *)
Definition t_cell (spaces : list nat) (i : nat) (c : text) : outcome text :=
  w <- at_ spaces i ;; if w <? length c then UB else Ok (c ++ repeat space (w - length c)).
Definition t_line (spaces : list nat) (row : list text) : outcome text :=
  cells <- omapM (fun ic => t_cell spaces (fst ic) (snd ic)) (combine (seq 0 (length row)) row) ;;
  Ok (match row with [] => [] | _ => concat cells ++ [newline] end).
(* 108-127 *)
Definition t_to_string (t : table) : outcome text := ls <- omapM (t_line (t_spaces t)) (t_rows t) ;; Ok (concat ls).
