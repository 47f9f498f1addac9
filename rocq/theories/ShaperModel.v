(** The quad waveshapers surgeshaper-{clip,tanh,digi,asym,sine}, the x86_64 (SSE2) versions.
    Every operation is lane-wise except the packing in asym/sine, which is modelled for all four
    lanes.  Definitions only; theorems in ShaperProps.v. *)
From Coq Require Import Reals.
From Flocq Require Import Core.Core.
From Verif Require Import Base Util F32 BlockModel ParamModel LfoModel.
Local Open Scope Z_scope.

Section Arith.
Context {T : Type} (A : arith T).
(** surge-filter/src/filter_traits.rs:28-33 (clip_bipolar), one lane *)
Definition clip_bipolar (y : T) : T := smax A (smin A y (ar_lit A 1 1)) (ar_lit A (-1) 1).

(** surgeshaper-clip/src/clipper.rs:9-13 *)
Definition shape_clip (input drive : T) : T := clip_bipolar (ar_mul A input drive).

(** surgeshaper-tanh/src/tanh.rs:612-633; [rcp] is the processor's reciprocal approximation
    _mm_rcp_ps and is a parameter of every theorem *)
Definition shape_tanh (rcp : T -> T) (input drive : T) : T :=
  let x := ar_mul A input drive in
  let xx := ar_mul A x x in
  let denom := ar_add A (ar_lit A 27 1) (ar_mul A (ar_lit A 9 1) xx) in
  let numerator := ar_mul A x (ar_add A (ar_lit A 27 1) xx) in
  clip_bipolar (ar_mul A numerator (rcp denom)).
End Arith.

(** ** over exact reals *)

(** _mm_cvtps_epi32: round to nearest, ties to even; out-of-range values give 0x80000000 *)
Definition cvtps_epi32 (x : R) : Z :=
  let n := ZnearestE x in if (i32_min <=? n) && (n <=? i32_max) then n else i32_min.

(** surgeshaper-digi/src/digi.rs:10-36 (x86_64) *)
Definition shape_digi (rcp : R -> R) (input drive : R) : R :=
  let t1 := (rcp drive * (16 * input))%R in
  let a := cvtps_epi32 (1 / 2 + t1)%R in
  (drive * (625 / 10000 * (IZR a - 1 / 2)))%R.

(** _mm_packs_epi32: saturate a 32-bit integer to 16 bits *)
Definition packs (n : Z) : Z := Z.max (-32768) (Z.min 32767 n).
(** a 32-bit integer made of two 16-bit halves (low, high), read back as i32 *)
Definition pair16 (lo hi : Z) : Z := as_signed 32 ((lo mod 65536) + 65536 * (hi mod 65536)).

(** surgeshaper-asym/src/sse2.rs:31-36 and surgeshaper-sine/src/sse2.rs:29-33: the four i32 values
    taken out of the packed register.  _mm_cvtsi128_si32 reads two adjacent 16-bit lanes: lanes 0
    and 1 of e for buf[0]; for buf[k] the shuffle has put lane k in both. *)
Definition packed_index (e : Z -> Z) (k : Z) : Z :=
  if k =? 0 then pair16 (e 0) (e 1) else pair16 (e k) (e k).

(** surge-tables/src/tables.rs:125-134 and surge-tables/src/surge.rs:117-122.  [tables idx i] is
    entry i of waveshaper table idx.  The function converts its parameter [idx], not its parameter
    [_offset], to the element offset; both assertions are kept; the pointer is dereferenced by
    the caller's _mm_load_ss, so the value read is returned. *)
Definition get_waveshaper_ptr (tables : Z -> Z -> R) (idx _offset : Z) : res R :=
  if negb (idx <? 8) then Panic else
  let offset := idx in
  if negb (Z.land offset 1023 =? offset) then Panic else
  Ok (tables idx offset).

(** the four look-ups, the four look-ups one entry further (`e4.buf[k] + 1` is checked i32
    arithmetic), and the interpolation:
    surgeshaper-asym/src/sse2.rs:44-64, surgeshaper-sine/src/sse2.rs:40-63 *)
Definition shape_lookup (tables : Z -> Z -> R) (idx : Z) (e : Z -> Z) (a : Z -> R) (k : Z) : res R :=
  obind (get_waveshaper_ptr tables idx (packed_index e k)) (fun ws =>
  obind (i32 (packed_index e k + 1)) (fun n1 =>
  obind (get_waveshaper_ptr tables idx n1) (fun wsn =>
  Ok ((1 - a k) * ws + a k * wsn)%R))).

(** surgeshaper-asym/src/sse2.rs:6-66, lane k of the result *)
Definition shape_asym (tables : Z -> Z -> R) (input drive : Z -> R) (k : Z) : res R :=
  let x := fun j => (input j * drive j * 32 + 512)%R in
  let e := fun j => cvtps_epi32 (x j) in
  let a := fun j => (x j - IZR (e j))%R in
  let e16 := fun j => Z.max (Z.min (packs (e j)) 1022) 0 in
  shape_lookup tables 2 e16 a k.

(** surgeshaper-sine/src/sse2.rs:4-66, lane k of the result *)
Definition shape_sine (tables : Z -> Z -> R) (input drive : Z -> R) (k : Z) : res R :=
  let x := fun j => (input j * drive j * 256 + 512)%R in
  let e := fun j => cvtps_epi32 (x j) in
  let a := fun j => (x j - IZR (e j))%R in
  let e16 := fun j => packs (e j) in
  shape_lookup tables 3 e16 a k.

(** surge-math/src/tanh.rs:186-190 *)
Definition shafted_tanh (x : R) : R := ((exp x - exp (- x * (12 / 10))) / (exp x + exp (- x)))%R.
(** surge-tables/src/waveshape.rs:79-104: entries 2 (asym) and 3 (sine) of the initialised tables;
    the other tables are not read by these shapers and are left arbitrary *)
Definition init_tables (other : Z -> Z -> R) (idx i : Z) : R :=
  let t := (IZR i - 512)%R in
  let x := (t * (1 / 32))%R in
  if idx =? 2 then (shafted_tanh (x + 1 / 2) - shafted_tanh (1 / 2))%R
  else if idx =? 3 then sin (t * PI / 512)
  else other idx i.
