(* Ranks by elimination over lists of bit rows (helper), and chopping into matrices. *)
From Verif Require Import Base.
(* the first set position of a row *)
Fixpoint first_set (v : list bool) : option nat :=
  match v with [] => None | true :: _ => Some O | false :: v' => option_map S (first_set v') end.
Definition xor_rows (v w : list bool) : list bool := map (fun p => xorb (fst p) (snd p)) (combine v w).
Fixpoint rank_rows (fuel : nat) (rows : list (list bool)) : nat :=
  match fuel, rows with
  | S fuel', v :: rest =>
    match first_set v with
    | None => rank_rows fuel' rest
    | Some c => S (rank_rows fuel' (map (fun x => if nth c x false then xor_rows x v else x) rest))
    end
  | _, _ => O
  end.
