(* Model of impl/src/mixers8.h, mixers16.h, mixers32.h, mixers64.h, combiners32.h and of
   tool/src/search/mixer_constructions.h *)
From Coq Require Import String.
From Verif Require Import Base BitwiseModel BitVectorModel.
Open Scope N_scope.

(* 'x ^= x >> k' on a w-bit word (the result never exceeds the word). *)
Definition xshr (k x : N) : N := N.lxor x (N.shiftr x k).

(* 'x *= c' on w-bit unsigned words of at least int width *)
Definition mulw (w c x : N) : N := wrap w (x * c).
(* 'x += c' *)
Definition addw (w c x : N) : N := wrap w (x + c).

(* 'x *= c' for any T: narrow operands are multiplied as (signed, 32-bit) int, overflow is UB. *)
Definition mul_assign (w c x : N) : outcome N :=
  if w <? 32 then (if 2147483647 <? x * c then UB else Ok (wrap w (x * c)))
  else Ok (mulw w c x).

(* 'x ^= (x >> c)': over-wide shifts are UB. *)
Definition xshr_assign (w k x : N) : outcome N :=
  if promoted w <=? k then UB else Ok (xshr k x).

(* ---------- mixers8.h / mixers16.h ---------- *)

(* mixers8.h:10-22 mix8::xm3x *)
Definition mix8_xm3x (x : N) : outcome N :=
  let C := 119 in
  x <- Ok (xshr 4 x) ;; x <- mul_assign 8 C x ;;
  x <- Ok (xshr 3 x) ;; x <- mul_assign 8 C x ;;
  x <- Ok (xshr 4 x) ;; x <- mul_assign 8 C x ;;
  Ok (xshr 3 x).

(* mixers16.h:10-22 mix16::xm3x *)
Definition mix16_xm3x (x : N) : outcome N :=
  let C := 13487 in
  x <- Ok (xshr 8 x) ;; x <- mul_assign 16 C x ;;
  x <- Ok (xshr 7 x) ;; x <- mul_assign 16 C x ;;
  x <- Ok (xshr 8 x) ;; x <- mul_assign 16 C x ;;
  Ok (xshr 7 x).

(* ---------- mixers32.h ---------- *)

(* mixers32.h:10-18 *)
Definition mix32_mx1 (x : N) : N :=
  let C := 2471660141 in
  let x := xshr 16 x in let x := mulw 32 C x in xshr 14 x.
(* mixers32.h:20-30 *)
Definition mix32_mx2 (x : N) : N :=
  let C := 1159349557 in
  let x := xshr 16 x in let x := mulw 32 C x in
  let x := xshr 14 x in let x := mulw 32 C x in xshr 13 x.
(* mixers32.h:32-44 *)
Definition mix32_mx3 (x : N) : N :=
  let C := 1159349557 in
  let x := xshr 16 x in let x := mulw 32 C x in
  let x := xshr 14 x in let x := mulw 32 C x in
  let x := xshr 16 x in let x := mulw 32 C x in xshr 14 x.
(* mixers32.h:46-55 *)
Definition mix32_prospector (x : N) : N :=
  let x := xshr 15 x in let x := mulw 32 0x2c1b3c6d x in
  let x := xshr 12 x in let x := mulw 32 0x297a2d39 x in xshr 15 x.
(* mixers32.h:57-66 *)
Definition mix32_prospector_boost (x : N) : N :=
  let x := xshr 16 x in let x := mulw 32 0x21f0aaad x in
  let x := xshr 15 x in let x := mulw 32 0x735a2d97 x in xshr 15 x.
(* mixers32.h:68-76 *)
Definition mix32_h2_sql (x : N) : N :=
  let x := mulw 32 0x45d9f3b (N.lxor (N.shiftr x 16) x) in
  let x := mulw 32 0x45d9f3b (N.lxor (N.shiftr x 16) x) in
  N.lxor (N.shiftr x 16) x.
(* mixers32.h:78-87 *)
Definition mix32_murmur (x : N) : N :=
  let x := xshr 16 x in let x := mulw 32 0x85ebca6b x in
  let x := xshr 13 x in let x := mulw 32 0xc2b2ae35 x in xshr 16 x.
(* mixers32.h:89-98 *)
Definition mix32_wang_1 (x : N) : N :=
  let x := N.lxor (N.lxor x 61) (N.shiftr x 16) in
  let x := mulw 32 9 x in
  let x := xshr 4 x in
  let x := mulw 32 0x27d4eb2d x in
  xshr 15 x.
(* mixers32.h:100-110; '(x << k)' wraps to 32 bits *)
Definition mix32_jenkins (x : N) : N :=
  let x := wrap 32 (wrap 32 (x + 0x7ed55d16) + wrap 32 (N.shiftl x 12)) in
  let x := N.lxor (N.lxor x 0xc761c23c) (N.shiftr x 19) in
  let x := wrap 32 (wrap 32 (x + 0x165667b1) + wrap 32 (N.shiftl x 5)) in
  let x := N.lxor (wrap 32 (x + 0xd3a2646c)) (wrap 32 (N.shiftl x 9)) in
  let x := wrap 32 (wrap 32 (x + 0xfd7046c5) + wrap 32 (N.shiftl x 3)) in
  N.lxor (N.lxor x 0xb55a4f09) (N.shiftr x 16).

(* mixers32.h:114-117 get_default_mixer<uint32_t> *)
Definition default_mixer32 : N -> N := mix32_mx3.

(* mixers32.h:119-132 get_mixers<uint32_t>, with the declared names *)
Definition mixers32 : list (string * (N -> N)) :=
  [("mix32::mx1", mix32_mx1); ("mix32::mx2", mix32_mx2); ("mix32::mx3", mix32_mx3);
   ("mix32::prospector", mix32_prospector); ("mix32::prospector_boost", mix32_prospector_boost);
   ("mix32::murmur", mix32_murmur); ("mix32::h2sql", mix32_h2_sql); ("mix32::wang_1", mix32_wang_1);
   ("mix32::jenkins", mix32_jenkins)]%string.

(* ---------- mixers64.h ---------- *)

(* two rounds: x ^= x >> a; x *= c; x ^= x >> b; x *= d; x ^= x >> e *)
Definition xmxmx64 (a c b d e x : N) : N :=
  let x := xshr a x in let x := mulw 64 c x in
  let x := xshr b x in let x := mulw 64 d x in xshr e x.

(* mixers64.h:19-27 *)
Definition mix64_mx1 (x : N) : N :=
  let x := xshr 32 x in let x := mulw 64 0xe9846af9b1a615d x in xshr 29 x.
(* mixers64.h:29-39 *)
Definition mix64_mx2 : N -> N := xmxmx64 32 0x7574708ca19c768b 29 0x7574708ca19c768b 28.
(* mixers64.h:41-53 *)
Definition mix64_mx3 (x : N) : N :=
  let C := 0xbea225f9eb34556d in
  let x := xshr 32 x in let x := mulw 64 C x in
  let x := xshr 29 x in let x := mulw 64 C x in
  let x := xshr 32 x in let x := mulw 64 C x in xshr 29 x.
(* mixers64.h:55-64; '>>' binds tighter than '^' *)
Definition mix64_nasam (x : N) : N :=
  let x := N.lxor x (N.lxor (ror 64 x 25) (ror 64 x 47)) in
  let x := mulw 64 0x9E6C63D0676A9A99 x in
  let x := N.lxor x (N.lxor (N.shiftr x 23) (N.shiftr x 51)) in
  let x := mulw 64 0x9E6D62D06F6A9A9B x in
  N.lxor x (N.lxor (N.shiftr x 23) (N.shiftr x 51)).
(* mixers64.h:66-75 *)
Definition mix64_moremur : N -> N := xmxmx64 27 0x3C79AC492BA7B653 33 0x1C69B3F74AC4AE35 27.
(* mixers64.h:77-86 *)
Definition mix64_lea64 : N -> N := xmxmx64 32 0xdaba0b6eb09322e3 32 0xdaba0b6eb09322e3 32.
(* mixers64.h:88-97 *)
Definition mix64_degski64 : N -> N := xmxmx64 32 0xd6e8feb86659fd93 32 0xd6e8feb86659fd93 32.
(* mixers64.h:99-108 *)
Definition mix64_split_mix_v13 : N -> N := xmxmx64 30 0xbf58476d1ce4e5b9 27 0x94d049bb133111eb 31.
(* mixers64.h:110-119 *)
Definition mix64_split_mix : N -> N := xmxmx64 30 0xbf58476d1ce4e5b9 27 0x94d049bb133111eb 31.
(* mixers64.h:121-130 *)
Definition mix64_murmur3 : N -> N := xmxmx64 33 0xff51afd7ed558ccd 33 0xc4ceb9fe1a85ec53 33.
(* mixers64.h:132-139 *)
Definition mix64_xxh3 (x : N) : N :=
  let x := xshr 37 x in let x := mulw 64 0x165667919E3779F9 x in xshr 32 x.
(* mixers64.h:141-148 *)
Definition mix64_fast_hash (x : N) : N :=
  let x := xshr 23 x in let x := mulw 64 0x2127599bf4325c37 x in xshr 47 x.

(* mixers64.h:151-154 get_default_mixer<uint64_t> *)
Definition default_mixer64 : N -> N := mix64_mx3.

(* mixers64.h:156-172 get_mixers<uint64_t> *)
Definition mixers64 : list (string * (N -> N)) :=
  [("mix64::mx1", mix64_mx1); ("mix64::mx2", mix64_mx2); ("mix64::mx3", mix64_mx3);
   ("mix64::nasam", mix64_nasam); ("mix64::moremur", mix64_moremur); ("mix64::lea64", mix64_lea64);
   ("mix64::degski64", mix64_degski64); ("mix64::splitmix_v13", mix64_split_mix_v13);
   ("mix64::splitmix", mix64_split_mix); ("mix64::murmur3", mix64_murmur3);
   ("mix64::xxh3", mix64_xxh3); ("mix64::fast_hash", mix64_fast_hash)]%string.

(* ---------- combiners32.h ---------- *)

(* combiners32.h:10-22 *)
Definition combine32_mx1 (x y : N) : N :=
  let C := 2471660141 in
  let y := xshr 16 y in let y := mulw 32 C y in
  let x := N.lxor x y in let x := addw 32 C x in
  let x := xshr 14 x in let x := mulw 32 C x in xshr 13 x.
(* combiners32.h:24-38 *)
Definition combine32_mx2 (x y : N) : N :=
  let C := 1159349557 in
  let y := xshr 16 y in let y := mulw 32 C y in
  let x := N.lxor x y in let x := addw 32 C x in
  let x := xshr 14 x in let x := mulw 32 C x in
  let x := xshr 13 x in let x := mulw 32 C x in xshr 16 x.
(* combiners32.h:40-56 *)
Definition combine32_mx3 (x y : N) : N :=
  let C := 1159349557 in
  let y := xshr 16 y in let y := mulw 32 C y in
  let x := N.lxor x y in let x := addw 32 C x in
  let x := xshr 14 x in let x := mulw 32 C x in
  let x := xshr 13 x in let x := mulw 32 C x in
  let x := xshr 16 x in let x := mulw 32 C x in xshr 14 x.
(* combiners32.h:60-67 boost_hash, 58-72 boost *)
Definition boost_hash (x : N) : N :=
  let x := xshr 16 x in let x := mulw 32 0x21f0aaad x in
  let x := xshr 15 x in let x := mulw 32 0x735a2d97 x in xshr 15 x.
Definition combine32_boost (x y : N) : N :=
  N.lxor x (wrap 32 (wrap 32 (wrap 32 (boost_hash y + 0x9e3779b9) + wrap 32 (N.shiftl x 6)) + N.shiftr x 2)).

(* combiners32.h:76-84 get_combiners<uint32_t> *)
Definition combiners32 : list (string * (N -> N -> N)) :=
  [("combine32::mx1", combine32_mx1); ("combine32::mx2", combine32_mx2);
   ("combine32::mx3", combine32_mx3); ("combine32::boost", combine32_boost)]%string.

(* ---------- mixer_constructions.h ---------- *)

(* mixer_constructions.h:26-34 create_xmx_mixer *)
Definition xmx_mixer (w c1 c2 m1 x : N) : outcome N :=
  x <- xshr_assign w c1 x ;; x <- mul_assign w m1 x ;; xshr_assign w c2 x.
(* mixer_constructions.h:60-70 create_xm2x_mixer *)
Definition xm2x_mixer (w c1 c2 c3 m1 x : N) : outcome N :=
  x <- xshr_assign w c1 x ;; x <- mul_assign w m1 x ;;
  x <- xshr_assign w c2 x ;; x <- mul_assign w m1 x ;; xshr_assign w c3 x.
(* mixer_constructions.h:98-110 create_xm3x_mixer *)
Definition xm3x_mixer (w c1 c2 c3 c4 m1 x : N) : outcome N :=
  x <- xshr_assign w c1 x ;; x <- mul_assign w m1 x ;;
  x <- xshr_assign w c2 x ;; x <- mul_assign w m1 x ;;
  x <- xshr_assign w c3 x ;; x <- mul_assign w m1 x ;; xshr_assign w c4 x.

(* bitwise.h:17-28 shift_sizeof<T> *)
Definition shift_sizeof (w : N) : Z :=
  if w =? 64 then 6 else if w =? 32 then 5 else if w =? 16 then 4 else if w =? 8 then 3 else 0%Z.

(* mixer_constructions.h:18-23, 52-57, 91-95 to_*_constants, then create_*_mixer(bits) *)
Definition to_constants (w : N) (bits : bit_vector) (n : nat) : outcome (list N * N) :=
  let s := shift_sizeof w in
  cs <- omapM (fun k => bv_get w bits (Z.of_nat k * s) s) (seq 0 n) ;;
  m <- bv_get w bits (Z.of_nat n * s) (Z.of_N w) ;;
  Ok (cs, m).
