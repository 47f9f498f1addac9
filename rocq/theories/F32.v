(* F32.v - Rust's f32 as IEEE-754 binary32, from Flocq (BinarySingleNaN: one NaN, no payload).
   Definitions only; the facts used in proofs are in F32Facts.v.
   Simplification: Rust does not fix NaN payloads or the sign of a NaN, and neither is observable here. *)
From Coq Require Import ZArith.
From Flocq Require Import Core.Core IEEE754.BinarySingleNaN.
From Verif Require Import Base.
Local Open Scope Z_scope.

#[global] Instance prec24_gt_0 : Prec_gt_0 24 := eq_refl.
#[global] Instance prec24_lt_128 : Prec_lt_emax 24 128 := eq_refl.

Definition f32 : Type := binary_float 24 128.

Definition fnan : f32 := B754_nan.
Definition finf (neg : bool) : f32 := B754_infinity neg.
Definition f0 : f32 := B754_zero false.

(* `n as f32`, and the literal m * 2^e *)
Definition fpow (m e : Z) : f32 := binary_normalize 24 128 prec24_gt_0 prec24_lt_128 mode_NE m e false.
Definition fofZ (n : Z) : f32 := fpow n 0.
Definition f1 : f32 := fofZ 1.

Definition fadd (x y : f32) : f32 := Bplus mode_NE x y.
Definition fsub (x y : f32) : f32 := Bminus mode_NE x y.
Definition fmul (x y : f32) : f32 := Bmult mode_NE x y.
Definition fdiv (x y : f32) : f32 := Bdiv mode_NE x y.
Definition fopp (x : f32) : f32 := Bopp x.
Definition fabs (x : f32) : f32 := Babs x.
(* the decimal literal n/d (both at most 2^24, so this is the correctly rounded literal) *)
Definition flit (n d : Z) : f32 := fdiv (fofZ n) (fofZ d).

(* x < y, x <= y, x == y (false on NaN) *)
Definition fltb (x y : f32) : bool := Bltb x y.
Definition fleb (x y : f32) : bool := Bleb x y.
Definition feqb (x y : f32) : bool := Beqb x y.

(* f32::max, f32::min: a NaN argument is ignored *)
Definition fmax (x y : f32) : f32 := if is_nan x then y else if is_nan y then x else if fltb x y then y else x.
Definition fmin (x y : f32) : f32 := if is_nan x then y else if is_nan y then x else if fltb y x then y else x.

(* `x as <int lo..hi>`: truncation toward zero, saturating; NaN gives 0 *)
Definition fcast (lo hi : Z) (x : f32) : Z :=
  match x with
  | B754_nan => 0
  | B754_infinity s => if s then lo else hi
  | _ => Z.max lo (Z.min hi (Btrunc x))
  end.
Definition as_usize_f (x : f32) : Z := fcast 0 18446744073709551615 x.
Definition as_u64_f (x : f32) : Z := fcast 0 18446744073709551615 x.
Definition as_i32_f (x : f32) : Z := fcast (-2147483648) 2147483647 x.

(* f32::floor / ceil / round (half away from zero) / trunc: exact integers or the argument itself when |x| is huge.
   Flocq's Bnearbyint rounds to an integer in the given direction. *)
Definition ffloor (x : f32) : f32 := Bnearbyint mode_DN x.
Definition fceil (x : f32) : f32 := Bnearbyint mode_UP x.
Definition fround (x : f32) : f32 := Bnearbyint mode_NA x.
Definition ftrunc (x : f32) : f32 := Bnearbyint mode_ZR x.
