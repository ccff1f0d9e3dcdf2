(* Model of the generators of impl/src/prngs32.h:147-163: std::mt19937 and std::minstd_rand as the C++
   standard defines them ([rand.eng.mers], [rand.eng.lcong]; the library itself is not in /repo). *)
From Verif Require Import Base StreamModel PrngModel.
Open Scope N_scope.

(* prngs32.h:156-163: minstd_rand = linear_congruential_engine<uint_fast32_t, 48271, 0, 2147483647>.
   Seeding: s mod m, but 1 if that is 0 (the increment is 0); a call makes the transition and returns the new state. *)
Definition minstd_m : N := 2147483647.
Definition minstd_a : N := 48271.
Definition minstd_seed (s : N) : N := let x := s mod minstd_m in if x =? 0 then 1 else x.
Definition minstd_step (x : N) : N := (minstd_a * x) mod minstd_m.
Definition rng32_minstd_rand : gen :=
  mkgen N (fun sd => minstd_seed (s32 sd 0)) (fun x => let x' := minstd_step x in (x', x')).

(* prngs32.h:147-154: mt19937 = mersenne_twister_engine<uint_fast32_t, 32, 624, 397, 31, 0x9908b0df, 11, 0xffffffff, 7,
   0x9d2c5680, 15, 0xefc60000, 18, 1812433253>.  The state is the list of the last 624 words X_{i-624}, ..., X_{i-1}; the
   standard describes it so, libraries compute the words in blocks. *)
Definition mt_n : nat := 624.
Definition mt_m : nat := 397.
Definition mt_a : N := 0x9908b0df.
(* seeding: X_{-624} = s, X_k = 1812433253 (X_{k-1} xor (X_{k-1} >> 30)) + (k mod 624) modulo 2^32 *)
Fixpoint mt_fill (n : nat) (i x : N) : list N :=
  match n with
  | O => []
  | S n => x :: mt_fill n (i + 1) (wrap 32 (1812433253 * N.lxor x (N.shiftr x 30) + (i + 1)))
  end.
Definition mt_seed (s : N) : list N := mt_fill mt_n 0 s.
(* upper bit of the first word, lower 31 of the second *)
Definition mt_join (x y : N) : N := N.lor (N.land x 0x80000000) (N.land y 0x7fffffff).
Definition mt_twist (y : N) : N := N.lxor (N.shiftr y 1) (if N.testbit y 0 then mt_a else 0).
(* X_i = X_{i+397-624} xor twist (upper bit of X_{i-624}, lower bits of X_{i-623}) *)
Definition mt_new (s : list N) : N := N.lxor (nth mt_m s 0) (mt_twist (mt_join (nth 0 s 0) (nth 1 s 0))).
Definition mt_step (s : list N) : list N := skipn 1 s ++ [mt_new s].
(* tempering *)
Definition mt_temper (x : N) : N :=
  let x := N.lxor x (N.land (N.shiftr x 11) 0xffffffff) in
  let x := N.lxor x (N.land (wrap 32 (N.shiftl x 7)) 0x9d2c5680) in
  let x := N.lxor x (N.land (wrap 32 (N.shiftl x 15)) 0xefc60000) in
  N.lxor x (N.shiftr x 18).
Definition rng32_mt19937 : gen :=
  mkgen (list N) (fun sd => mt_seed (s32 sd 0)) (fun s => let s' := mt_step s in (mt_temper (nth (mt_n - 1) s' 0), s')).
