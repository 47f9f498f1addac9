(* MathModel.v - scalar helpers of surge-math: conversions, byte order, absolute maxima on bit patterns, noise, tanh. *)
From Coq Require Import Reals.
From Verif Require Import Base Util F32 BlockModel.
Local Open Scope Z_scope.

(** *** integers *)
(* surge-math/src/limit_range.rs:47-60: i32 and u32 *)
Definition limit_range_i (x l h : Z) : Z := Z.max (Z.min x h) l.
(* surge-math/src/get_sign.rs:12-18 (x86_64) *)
Definition sign (x : Z) : Z := if x <? 0 then -1 else 1.
(* surge-math/src/scan.rs:3-6: core::intrinsics::cttz on u32 - counts TRAILING zeros; cttz(0) = 32 *)
Fixpoint cttz_from (fuel : nat) (i : Z) (bits : Z) : Z :=
  match fuel with O => 32 | S k => if Z.testbit bits i then i else cttz_from k (i + 1) bits end.
Definition bitscan_reverse (bits : Z) : Z := cttz_from 32 0 bits.
(* surge-math/src/mul.rs:7-11 *)
Definition big_mul_r16 (a b : Z) : Z := as_u32 (Z.shiftr (a * b) 16).
(* surge-math/src/utility.rs:64-69 vt_write_int32_be (and 39-41 vt_read_int32_be); shifts of u32 drop high bits *)
Definition vt_int32_be (t : Z) : Z :=
  Z.lor (Z.lor (Z.lor (Z.land (as_u32 (Z.shiftl t 24)) 4278190080) (Z.land (as_u32 (Z.shiftl t 8)) 16711680))
               (Z.land (Z.shiftr t 8) 65280)) (Z.land (Z.shiftr t 24) 255).
(* utility.rs:73-76 vt_write_int16_be (and 47-49) *)
Definition vt_int16_be (t : Z) : Z := Z.lor (Z.land (as_u16 (Z.shiftl t 8)) 65280) (Z.land (Z.shiftr t 8) 255).

(* surge-math/src/sine.rs:151-183 sine (x86_64): 16-bit sine on i32; `x + 0x8000` is the only operation that can overflow
   (checked below); the constants are (0.7750*65536.0) as i32 and (0.2250*32768.0) as i32 *)
Definition sine16 (x0 : Z) : res Z :=
  if negb (in_signedb 32 (x0 + 32768)) then Panic else
  let x := Z.land (x0 + 32768) 65535 - 32768 in
  let h := Z.shiftr x 1 in
  let b0 := Z.abs h * h in
  let y := Z.shiftl x 2 - Z.shiftr b0 11 in
  let p0 := Z.shiftr y 2 * Z.abs (Z.shiftr y 2) in
  let p2 := Z.shiftr p0 11 * 7372 in
  if in_signedb 32 b0 && in_signedb 32 (Z.shiftl x 2) && in_signedb 32 y && in_signedb 32 (50790 * y) && in_signedb 32 p0 && in_signedb 32 p2
  then Ok (Z.shiftr (50790 * y) 16 + Z.shiftr p2 15) else Panic.

(** *** conversions, binary32 *)
(* surge-math/src/value_cast.rs:10-15 float2i15_block, one element *)
Definition float2i15 (f : f32) : Z := as_i16 (limit_range_i (as_i32_f (fmul f (fofZ 16384))) (-16384) 16383).
(* value_cast.rs:17-24 i152float_block, one element: SCALE = 1.0 / 16384.0 *)
Definition i152float (s : Z) : f32 := fmul (fofZ s) (fdiv f1 (fofZ 16384)).
Definition float2i15_block (f : list f32) : list Z := map float2i15 f.
Definition i152float_block (s : list Z) : list f32 := map i152float s.
(* surge-math/src/convert.rs:92-99 int7_to_bipolar_float (x - 64 does not overflow for the inputs considered) *)
Definition int7_to_bipolar_float (x : Z) : f32 :=
  if 64 <? x then fmul (fofZ (x - 64)) (fdiv f1 (fofZ 63))
  else if x <? 64 then fmul (fofZ (x - 64)) (fdiv f1 (fofZ 64)) else f0.

(** *** absolute maxima, on f32 bit patterns *)
(* IEEE comparison a > b on 32-bit patterns: false if either is NaN; sign-magnitude order otherwise *)
Definition bits_nan (p : Z) : bool := 2139095040 <? p mod 2147483648.
Definition bits_key (p : Z) : Z := if p <? 2147483648 then p else - (p - 2147483648).
Definition bits_gt (a b : Z) : bool := negb (bits_nan a) && negb (bits_nan b) && (bits_key b <? bits_key a).
(* MAXPS: the second operand unless first > second *)
Definition bmax (x y : Z) : Z := if bits_gt x y then x else y.
Definition vbmax (x y : Z -> Z) : Z -> Z := fun j => bmax (x j) (y j).
(* surge-math/src/m128.rs:6-7 m128_mask_absval: _mm_set1_ps(0x7fffffff as f32): the NUMBER 2147483647 rounded to f32,
   2147483648.0, whose bit pattern is 0x4F000000 *)
Definition mask_absval : Z := 1325400064.
(* absmax.rs:3-6 abs_ps, one lane *)
Definition abs_ps (x : Z) : Z := Z.land x mask_absval.
Definition bmax_ps_to_ss (x : Z -> Z) : Z := bmax (bmax (x 0) (x 1)) (bmax (x 2) (x 3)).
(* absmax.rs:20-44 get_absmax *)
Definition get_absmax (m : Z -> Z) (d n : Z) : Z :=
  let '(mx1, mx2) := fold_left (fun '(mx1, mx2) i =>
     (vbmax mx1 (fun j => Z.land (vload m (quad d i) j) mask_absval), vbmax mx2 (fun j => Z.land (vload m (quad d (i + 1)) j) mask_absval)))
    (stepby n 2) ((fun _ => 0), (fun _ => 0)) in
  bmax_ps_to_ss (vbmax mx1 mx2).
(* absmax.rs:52-87 get_absmax_2: asserts alignment; mask 0x7FFFFFFF as a bit pattern *)
Definition get_absmax_2 (m : Z -> Z) (d1 d2 n : Z) : res Z :=
  if negb (d1 mod 4 =? 0) then Panic else if negb (d2 mod 4 =? 0) then Panic else
  let mv := fold_left (fun mv i =>
     vbmax mv (vbmax (fun j => Z.land (vload m (d1 + i * 4) j) 2147483647) (fun j => Z.land (vload m (d2 + i * 4) j) 2147483647)))
    (stepby n 1) (fun _ => 0) in
  (* _MM_SHUFFLE(2,3,0,1): lanes 1,0,3,2; _MM_SHUFFLE(1,0,3,2): lanes 2,3,0,1 *)
  let t1 := fun j => bmax (mv j) (mv (nth (Z.to_nat j) [1; 0; 3; 2] 0)) in
  let t2 := fun j => bmax (t1 j) (t1 (nth (Z.to_nat j) [2; 3; 0; 1] 0)) in
  Ok (t2 0).

(** *** real-valued helpers (exact arithmetic; f64 or f32 in the code) *)
Local Open Scope R_scope.
(* surge-math/src/convert.rs:7-10 amp_to_linear *)
Definition amp_to_linear (x : R) : R := let x := Rmax x 0 in x * x * x.
(* surge-math/src/correlated_noise.rs:21-34 correlated_noise; `r` is the draw of rand11(), in [-1,1) *)
Definition correlated_noise (lastval correlation r : R) : R :=
  let wf := correlation * (9/10) in r * (1 - Rabs wf) - wf * lastval.
(* correlated_noise.rs:40-51 correlated_noise_mk2 *)
Definition correlated_noise_mk2 (lastval correlation r : R) : R :=
  let wf := correlation * (9/10) in (r * (1 - Rabs wf) - wf * lastval) * (1 / sqrt (1 - Rabs wf)).
(* correlated_noise.rs:75-86 correlated_noise_o2 *)
Definition correlated_noise_o2 (lastval lastval2 correlation r : R) : R :=
  let wf := correlation * (9/10) in let lastval2 := r * (1 - Rabs wf) - wf * lastval2 in lastval2 * (1 - Rabs wf) - wf * lastval.
(* correlated_noise.rs:57-67 drift_noise: the value returned is scaled by 1/sqrt(filter) *)
Definition drift_noise (lastval r : R) : R :=
  let filter := 1/100000 in (lastval * (1 - filter) + r * filter) * (1 / sqrt filter).
(* surge-math/src/tanh.rs:167-176 tanh_fast *)
Definition tanh_fast (x_in : R) : R :=
  let x := Rabs x_in in let xx := x * x in
  let denom := 1 + x + xx + (2/3 * x * xx) in
  if Rlt_dec 0 x_in then 1 * (1 - 1 / denom) else -1 * (1 - 1 / denom).
(* surge-math/src/trixpan.rs:3-5 bend *)
Definition bend (x b : R) : R := (1 + b) * x - b * x * x * x.

(* surgeosc-fm2/src/process.rs:7 (the same statement in surgeosc-snh/src/process.rs:41, surgeosc-super/src/process/no_fm.rs:12,
   surgeosc-wavetable/src/process/nofm.rs:11, surgeosc-window/src/process.rs:34): per block, driftlfo := drift_noise(driftlfo2);
   drift_noise takes its argument by value, so driftlfo2 keeps its value. State: (driftlfo, driftlfo2). *)
Definition osc_drift_block (s : R * R) (r : R) : R * R := (drift_noise (snd s) r, snd s).

(** *** fast approximations (surge-math/src/fast.rs), exact arithmetic *)
(* fast.rs:22-39, 47-61 *)
Definition fastsin (x : R) : R :=
  let x2 := x * x in
  (- x * (-11511339840 + x2 * (1640635920 + x2 * (-52785432 + x2 * 479249)))) / (11511339840 + x2 * (277920720 + x2 * (3177720 + x2 * 18361))).
Definition fastcos (x : R) : R :=
  let x2 := x * x in
  - (-39251520 + x2 * (18471600 + x2 * (-1075032 + 14615 * x2))) / (39251520 + x2 * (1154160 + x2 * (16632 + x2 * 127))).
(* fast.rs:95-101 fasttanh (fasttanh_sse 115-150 per lane); 152-163 fasttanh_sse_clamped *)
Definition fasttanh (x : R) : R :=
  let x2 := x * x in (x * (135135 + x2 * (17325 + x2 * (378 + x2)))) / (135135 + x2 * (62370 + x2 * (3150 + 28 * x2))).
Definition fasttanh_clamped (x : R) : R := fasttanh (smin arithR 5 (smax arithR (-5) x)).
(* fast.rs:107-113 fasttan *)
Definition fasttan (x : R) : R :=
  let x2 := x * x in (x * (-135135 + x2 * (17325 + x2 * (-378 + x2)))) / (-135135 + x2 * (62370 + x2 * (-3150 + 28 * x2))).
(* fast.rs:172-177 fastexp (fastexp_sse per lane) *)
Definition fastexp (x : R) : R :=
  (1680 + x * (840 + x * (180 + x * (20 + x)))) / (1680 + x * (-840 + x * (180 + x * (-20 + x)))).
(* fast.rs:68-91 clamp_to_pi_range; `trunc` is the value of `(y * OO2P) as i32`, truncation toward zero (no saturation for |y| < 2^31) *)
Definition truncR (x : R) : Z := if Rle_dec 0 x then (up x - 1)%Z else (- (up (- x) - 1))%Z.
Definition clamp_to_pi_range (x : R) : R :=
  if (if Rle_dec (- PI) x then if Rle_dec x PI then true else false else false) then x else
  let y := x + PI in
  let p := y - 2 * PI * IZR (truncR (y * (1 / (2 * PI)))) in
  let p := if Rlt_dec p 0 then p + 2 * PI else p in
  p - PI.

(** *** windows (surge-math/src/window.rs), exact arithmetic; i and n as reals *)
(* window.rs:10-18 blackman *)
Definition blackman (i n : R) : R := 42/100 - 5/10 * cos (2 * PI * i / (n - 1)) + 8/100 * cos (4 * PI * i / (n - 1)).
(* window.rs:31-40 blackman_harris *)
Definition blackman_harris (i n : R) : R :=
  35875/100000 - 48829/100000 * cos (2 * PI * i / (n - 1)) + 14128/100000 * cos (4 * PI * i / (n - 1)) - 1168/100000 * cos (6 * PI * i / (n - 1)).
(* window.rs:54-66 hamming *)
Definition hamming (i n : R) : R := if Rle_dec n i then 0 else 54/100 - 46/100 * cos (2 * PI * i / (n - 1)).
(* window.rs:68-80 hanning *)
Definition hanning (i n : R) : R := if Rle_dec n i then 0 else 5/10 * (1 - cos (2 * PI * i / (n - 1))).
