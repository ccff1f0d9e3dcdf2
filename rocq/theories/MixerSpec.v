(* Which search construction belongs to which list of shifts. *)
From Verif Require Import Base MixerModel.
Open Scope N_scope.

(* [mixer] is the xmx / xm2x / xm3x mixer with the given shift constants and multiplier. *)
Definition is_construction (w m : N) (shifts : list N) (mixer : N -> outcome N) : Prop :=
  match shifts with
  | [c1; c2] => mixer = xmx_mixer w c1 c2 m
  | [c1; c2; c3] => mixer = xm2x_mixer w c1 c2 c3 m
  | [c1; c2; c3; c4] => mixer = xm3x_mixer w c1 c2 c3 c4 m
  | _ => False
  end.
