(* Model of tool/src/search/search_configs.h: the number of bits and the texts of the three search configurations.
   The fitness functions are in CommandModel (fitness_test). *)
From Coq Require Import NArith ZArith List String Ascii.
From Verif Require Import Base BitVectorModel MixerModel ResultModel.
Import ListNotations.
Open Scope N_scope.

(* operator<< of an integer: uint8_t is printed as a character *)
Definition number (w n : N) : string := if w =? 8 then String (ascii_of_N n) EmptyString else to_string_N n.
Definition newline : string := String (ascii_of_N 10) EmptyString.
(* the lines "    x ^= x >> c;" and "    x *= m;" with a suffix behind the multiplier *)
Definition shift_line (w c : N) : string := "    x ^= x >> " ++ number w c ++ ";" ++ newline.
Definition multiply_line (w : N) (suffix : string) (m : N) : string := "    x *= " ++ number w m ++ suffix ++ ";" ++ newline.

(* search_configs.h:13-18 *)
Definition xmx_to_str (w c1 c2 m1 : N) : string :=
  (shift_line w c1 ++ multiply_line w "ull" m1 ++ shift_line w c2)%string.
(* search_configs.h:44-51; no suffix *)
Definition xm2x_to_str (w c1 c2 c3 m1 : N) : string :=
  (shift_line w c1 ++ multiply_line w "" m1 ++ shift_line w c2 ++ multiply_line w "" m1 ++ shift_line w c3)%string.
(* search_configs.h:77-86 *)
Definition xm3x_to_str (w c1 c2 c3 c4 m1 : N) : string :=
  (shift_line w c1 ++ multiply_line w "ull" m1 ++ shift_line w c2 ++ multiply_line w "ull" m1 ++ shift_line w c3 ++ multiply_line w "ull" m1 ++ shift_line w c4)%string.

(* 20-25, 54-59, 89-94 *)
Definition xmx_to_arr_str (w c1 c2 m1 : N) : string := (number w c1 ++ ", " ++ number w c2 ++ ", " ++ number w m1)%string.
Definition xm2x_to_arr_str (w c1 c2 c3 m1 : N) : string := (number w c1 ++ ", " ++ number w c2 ++ ", " ++ number w c3 ++ ", " ++ number w m1)%string.
Definition xm3x_to_arr_str (w c1 c2 c3 c4 m1 : N) : string := (number w c1 ++ ", " ++ number w c2 ++ ", " ++ number w c3 ++ ", " ++ number w c4 ++ ", " ++ number w m1)%string.

(* 31-34, 65-68, 101-104 *)
Definition xmx_bits (w : N) : Z := (2 * shift_sizeof w + Z.of_N w)%Z.
Definition xm2x_bits (w : N) : Z := (3 * shift_sizeof w + Z.of_N w)%Z.
Definition xm3x_bits (w : N) : Z := (4 * shift_sizeof w + Z.of_N w)%Z.

(* the texts of a bit vector: the constants are read first (11-12, 43, 76, ...) *)
Definition xmx_text (w : N) (bits : bit_vector) : outcome (string * string) :=
  r <- to_constants w bits 2 ;; match r with ([c1; c2], m) => Ok (xmx_to_str w c1 c2 m, xmx_to_arr_str w c1 c2 m) | _ => UB end.
Definition xm2x_text (w : N) (bits : bit_vector) : outcome (string * string) :=
  r <- to_constants w bits 3 ;; match r with ([c1; c2; c3], m) => Ok (xm2x_to_str w c1 c2 c3 m, xm2x_to_arr_str w c1 c2 c3 m) | _ => UB end.
Definition xm3x_text (w : N) (bits : bit_vector) : outcome (string * string) :=
  r <- to_constants w bits 4 ;; match r with ([c1; c2; c3; c4], m) => Ok (xm3x_to_str w c1 c2 c3 c4 m, xm3x_to_arr_str w c1 c2 c3 c4 m) | _ => UB end.
