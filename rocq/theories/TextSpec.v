(* Specifications for strings and tables. *)
From Coq Require Import Ascii.
From Verif Require Import Base.
Open Scope nat_scope.
Section S.
Context {A : Type}.
Definition occurs (p s : list A) : Prop := exists a b, s = a ++ p ++ b.
(* r is s with the occurrences of f, taken from left to right without overlap, replaced by g *)
Inductive replaced (f g : list A) : list A -> list A -> Prop :=
| replaced_end : replaced f g [] []
| replaced_here s r : replaced f g s r -> replaced f g (f ++ s) (g ++ r)
| replaced_keep c s r : (forall t, c :: s <> f ++ t) -> replaced f g s r -> replaced f g (c :: s) (c :: r).
Fixpoint intercalate (d : list A) (l : list (list A)) : list A :=
  match l with [] => [] | [x] => x | x :: l' => x ++ d ++ intercalate d l' end.
End S.
(* the markdown special characters *)
Definition md_special (c : ascii) : bool := existsb (Ascii.eqb c) (map ascii_of_nat [92; 96; 42; 95; 123; 125; 91; 93; 40; 41; 35; 43; 45; 46; 33]).
Definition md_escaped (s : list ascii) : list ascii := flat_map (fun c => if md_special c then [ascii_of_nat 92; c] else [c]) s.
Fixpoint md_unescape (s : list ascii) : list ascii :=
  match s with
  | [] => []
  | c :: s' => if Ascii.eqb c (ascii_of_nat 92) then match s' with d :: s'' => d :: md_unescape s'' | [] => [c] end else c :: md_unescape s'
  end.
(* letters differing only in case, and other characters that are equal *)
Definition same_letter (a b : ascii) : Prop :=
  let x := nat_of_ascii a in let y := nat_of_ascii b in
  x = y \/ (65 <= x <= 90 /\ y = x + 32) \/ (65 <= y <= 90 /\ x = y + 32).

(* ---- tables ---- *)
(* the widest cell of column i, plus two *)
Definition column_width (rows : list (list (list ascii))) (i : nat) : nat := fold_right Nat.max 0 (map (fun r => length (nth i r [])) rows) + 2.
(* the text padded with blanks on the right to the given width *)
Definition padded (width : nat) (s : list ascii) : list ascii := s ++ repeat (ascii_of_nat 32) (width - length s).
Definition rendered_row (width : nat -> nat) (row : list (list ascii)) : list ascii :=
  concat (map (fun ic => padded (width (fst ic)) (snd ic)) (combine (seq 0 (length row)) row)) ++ [ascii_of_nat 10].
Definition rendered (rows : list (list (list ascii))) : list ascii := concat (map (rendered_row (column_width rows)) rows).
