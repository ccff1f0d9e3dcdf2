(* What the printed lines mean in C++: a reader and an interpreter for lines "x ^= x >> 13;" and "x *= 5;" or "x *= 5ull;". *)
From Coq Require Import NArith ZArith List String Ascii DecimalString.
From Verif Require Import Base.
Import ListNotations.
Open Scope N_scope.

Inductive line : Type :=
| Shift : N -> line
| Times : bool -> N -> line.  (* true: the literal is an unsigned long long *)

Definition is_digit (c : ascii) : bool := let n := N_of_ascii c in (48 <=? n) && (n <=? 57).
(* the digits at the beginning and the rest *)
Fixpoint digits (s : string) : string * string :=
  match s with
  | EmptyString => (EmptyString, EmptyString)
  | String c r => if is_digit c then let '(d, t) := digits r in (String c d, t) else (EmptyString, s)
  end.
Definition read_number (s : string) : option (N * string) :=
  let '(d, r) := digits s in
  match d with EmptyString => None | _ => match NilEmpty.uint_of_string d with Some u => Some (N.of_uint u, r) | None => None end end.
(* s without the prefix p *)
Fixpoint cut (p s : string) : option string :=
  match p, s with
  | EmptyString, _ => Some s
  | String a p', String b s' => if Ascii.eqb a b then cut p' s' else None
  | String _ _, EmptyString => None
  end.
Definition end_of_line : string := String ";" (String (ascii_of_N 10) EmptyString).
Definition read_line (s : string) : option (line * string) :=
  match cut "    x ^= x >> " s with
  | Some r => match read_number r with
              | Some (n, r) => match cut end_of_line r with Some r => Some (Shift n, r) | None => None end
              | None => None
              end
  | None =>
    match cut "    x *= " s with
    | Some r => match read_number r with
                | Some (n, r) =>
                  match cut ("ull" ++ end_of_line) r with
                  | Some r => Some (Times true n, r)
                  | None => match cut end_of_line r with Some r => Some (Times false n, r) | None => None end
                  end
                | None => None
                end
    | None => None
    end
  end.
Fixpoint read_lines (fuel : nat) (s : string) : option (list line) :=
  match s with
  | EmptyString => Some []
  | _ => match fuel with
         | O => None
         | S f => match read_line s with Some (l, r) => match read_lines f r with Some ls => Some (l :: ls) | None => None end | None => None end
         end
  end.
(* every line takes at least one character *)
Definition read_code (s : string) : option (list line) := read_lines (String.length s) s.

(* One line on an unsigned w-bit variable x (uint16_t and uint8_t are promoted to int; long has 64 bits).
   - the literal of a shift is an int; shifting by the width of the promoted type or more is undefined;
   - with ull the product is computed modulo 2^64;
   - without, the literal is an int below 2^31, a long below 2^63, and otherwise not allowed: no meaning here (UB);
     int or long times a narrower x is signed and must not overflow, times an unsigned x of the same size it is unsigned. *)
Definition run_line (w : N) (l : line) (x : N) : outcome N :=
  match l with
  | Shift n => if n <? (if w <? 32 then 32 else w) then Ok (N.lxor x (N.shiftr x n)) else UB
  | Times true m => if m <? 2 ^ 64 then Ok (((x * m) mod 2 ^ 64) mod 2 ^ w) else UB
  | Times false m =>
    if m <? 2 ^ 31 then (if w <? 32 then (if x * m <? 2 ^ 31 then Ok ((x * m) mod 2 ^ w) else UB) else Ok ((x * m) mod 2 ^ w))
    else if m <? 2 ^ 63 then (if w <? 64 then (if x * m <? 2 ^ 63 then Ok ((x * m) mod 2 ^ w) else UB) else Ok ((x * m) mod 2 ^ w))
    else UB
  end.
Fixpoint run_code (w : N) (ls : list line) (x : N) : outcome N :=
  match ls with
  | [] => Ok x
  | l :: r => x <- run_line w l x ;; run_code w r x
  end.
(* the text is code that computes f wherever f is defined *)
Definition code_of (w : N) (text : string) (f : N -> outcome N) : Prop :=
  exists ls, read_code text = Some ls /\ forall x y, is_word w x -> f x = Ok y -> run_code w ls x = Ok y.
