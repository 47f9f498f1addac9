(* BlockModel.v - the SSE block routines of surge-math and surge-lipol.

   Memory is a total map from f32-cell addresses to values: `*mut f32` is a cell address, `p.add(i)` is p+i, and a
   pointer is 16-byte aligned iff its cell address is a multiple of 4. What a call touches is then visible as the set of
   addresses whose contents change; accesses outside an allocation are ordinary (and unwanted) accesses here.
   Alignment faults of _mm_load_ps/_mm_store_ps are not modelled (aligned pointers are the documented precondition).

   Arithmetic is a parameter (record arith): instantiated with the reals (arithR) for exact statements and with IEEE
   binary32 (arith32) for statements about the real machine arithmetic. *)
From Coq Require Import Reals.
From Verif Require Import Base Util F32.
Local Open Scope Z_scope.

Record arith (T : Type) := {
  ar_add : T -> T -> T; ar_sub : T -> T -> T; ar_mul : T -> T -> T; ar_div : T -> T -> T;
  ar_lt : T -> T -> bool;       (* ordered less-than: false if either side is NaN *)
  ar_lit : Z -> Z -> T          (* the literal n/d *)
}.
Arguments ar_add {T}. Arguments ar_sub {T}. Arguments ar_mul {T}. Arguments ar_div {T}. Arguments ar_lt {T}. Arguments ar_lit {T}.

Definition arithR : arith R := {|
  ar_add := Rplus; ar_sub := Rminus; ar_mul := Rmult; ar_div := Rdiv;
  ar_lt := fun x y => if Rlt_dec x y then true else false;
  ar_lit := fun n d => (IZR n / IZR d)%R |}.
Definition arith32 : arith f32 := {|
  ar_add := fadd; ar_sub := fsub; ar_mul := fmul; ar_div := fdiv; ar_lt := fltb; ar_lit := flit |}.

Section Blocks.
Context {T : Type} (A : arith T).

Definition mem : Type := Z -> T.
(* a __m128 register: lanes 0..3 *)
Definition m128 : Type := Z -> T.
Definition vload (m : mem) (p : Z) : m128 := fun j => m (p + j).
Definition vstore (m : mem) (p : Z) (v : m128) : mem :=
  fun a => if (p <=? a) && (a <? p + 4) then v (a - p) else m a.

(* lane-wise SSE operations; MINPS/MAXPS return the second operand when the comparison is false (also on NaN) *)
Definition vadd (x y : m128) : m128 := fun j => ar_add A (x j) (y j).
Definition vsub (x y : m128) : m128 := fun j => ar_sub A (x j) (y j).
Definition vmul (x y : m128) : m128 := fun j => ar_mul A (x j) (y j).
Definition smin (x y : T) : T := if ar_lt A x y then x else y.
Definition smax (x y : T) : T := if ar_lt A y x then x else y.
Definition vmin (x y : m128) : m128 := fun j => smin (x j) (y j).
Definition vmax (x y : m128) : m128 := fun j => smax (x j) (y j).
Definition set1 (x : T) : m128 := fun _ => x.
Definition lit (n d : Z) : T := ar_lit A n d.

(* for i in (0..n).step_by(s) *)
Definition stepby (n s : Z) : list Z := map (fun k => s * Z.of_nat k) (seq 0 (Z.to_nat ((n + s - 1) / s))).

(* surge-math/src/access.rs:3-9: quad pointer: (ptr as *mut __m128).add(offset) *)
Definition quad (p i : Z) : Z := p + 4 * i.

(** *** surge-math *)
(* the common shape of add/sub/mul: four quads per iteration *)
Definition unroll4 (f : mem -> Z -> mem) (n : Z) (m : mem) : mem :=
  fold_left (fun m i => f (f (f (f m i) (i + 1)) (i + 2)) (i + 3)) (stepby n 4) m.

Inductive align_error := SrcPtr (idx : Z) | DstPtr (idx : Z).
(* surge-math/src/add.rs:15-62 add_block (offset arithmetic on usize, no overflow for real buffers) *)
Definition add_block (m : mem) (src1 src2 dst n : Z) : outcome align_error mem :=
  if negb (src1 mod 4 =? 0) then Err (SrcPtr 0) else
  if negb (src2 mod 4 =? 0) then Err (SrcPtr 1) else
  if negb (dst mod 4 =? 0) then Err (DstPtr 0) else
  Ok (unroll4 (fun m o => vstore m (quad dst o) (vadd (vload m (quad src1 o)) (vload m (quad src2 o)))) n m).
(* surge-math/src/sub.rs:17-52 subtract_block *)
Definition subtract_block (m : mem) (src1 src2 dst n : Z) : mem :=
  unroll4 (fun m o => vstore m (quad dst o) (vsub (vload m (quad src1 o)) (vload m (quad src2 o)))) n m.
(* surge-math/src/mul.rs:27-58 mul_block *)
Definition mul_block (m : mem) (src1 src2 dst n : Z) : mem :=
  unroll4 (fun m o => vstore m (quad dst o) (vmul (vload m (quad src1 o)) (vload m (quad src2 o)))) n m.
(* surge-math/src/accum.rs:15-27 accumulate_block: assert_eq! on both alignments *)
Definition accumulate_block (m : mem) (src dst n : Z) : res mem :=
  if negb (src mod 4 =? 0) then Panic else if negb (dst mod 4 =? 0) then Panic else
  Ok (fold_left (fun m i => vstore m (dst + i * 4) (vadd (vload m (dst + i * 4)) (vload m (src + i * 4)))) (stepby n 1) m).
(* surge-math/src/copy.rs:27-58 copy_block (and the unaligned variants 75-106, 123-154, 171-203, which differ only in the
   alignment the load/store instruction requires) *)
Definition copy_block (m : mem) (src dst n : Z) : mem :=
  fold_left (fun m i =>
    let store m idx := vstore m (dst + idx) (vload m (src + idx)) in
    store (store (store (store (store (store (store (store m i) (i + 4)) (i + 8)) (i + 12)) (i + 16)) (i + 20)) (i + 24)) (i + 28))
   (stepby (4 * n) 32) m.
(* surge-math/src/clear.rs:12-32 clear_block::<NQUADS> *)
Definition clear_block (m : mem) (input n : Z) : outcome align_error mem :=
  if negb (input mod 4 =? 0) then Err (SrcPtr 0) else
  fold_left (fun r i => obind r (fun m => if negb ((input + i) mod 4 =? 0) then Err (SrcPtr i) else Ok (vstore m (input + i) (set1 (lit 0 1)))))
   (stepby (4 * n) 4) (Ok m).
(* surge-math/src/encode.rs:16-74 encode_mid_side *)
Definition encode_mid_side (m : mem) (l r mm s n : Z) : mem :=
  unroll4 (fun m o =>
    let m1 := vstore m (quad mm o) (vmul (vadd (vload m (quad l o)) (vload m (quad r o))) (set1 (lit 1 2))) in
    vstore m1 (quad s o) (vmul (vsub (vload m1 (quad l o)) (vload m1 (quad r o))) (set1 (lit 1 2)))) n m.
(* surge-math/src/encode.rs:95-130 decode_mid_side *)
Definition decode_mid_side (m : mem) (mm s l r n : Z) : mem :=
  unroll4 (fun m o =>
    let m1 := vstore m (quad l o) (vadd (vload m (quad mm o)) (vload m (quad s o))) in
    vstore m1 (quad r o) (vsub (vload m1 (quad mm o)) (vload m1 (quad s o)))) n m.

(* two quads per iteration, indexed by cell offset *)
Definition unroll2c (f : mem -> Z -> mem) (n : Z) (m : mem) : mem :=
  fold_left (fun m i => f (f m i) (i + 4)) (stepby (4 * n) 8) m.
(* surge-math/src/hardclip.rs:4-31 *)
Definition hardclip (x : T) : T := smax (smin x (lit 1 1)) (lit (-1) 1).
Definition hardclip8_sd (x : T) : T := smax (smin x (lit 8 1)) (lit (-7) 1).
(* surge-math/src/hardclip.rs:38-58 hardclip_block *)
Definition hardclip_block (m : mem) (x n : Z) : mem :=
  unroll2c (fun m o => vstore m (x + o) (vmax (vmin (vload m (x + o)) (set1 (lit 1 1))) (set1 (lit (-1) 1)))) n m.
(* surge-math/src/hardclip.rs:64-91 hardclip_block8 *)
Definition hardclip_block8 (m : mem) (x n : Z) : mem :=
  unroll2c (fun m o => vstore m (x + o) (vmax (vmin (vload m (x + o)) (set1 (lit 8 1))) (set1 (lit (-8) 1)))) n m.
(* surge-math/src/saturate.rs:4-16 saturate: the same clamp on one value *)
Definition saturate (x : T) : T := smax (smin x (lit 1 1)) (lit (-1) 1).
(* surge-math/src/limit_range.rs:23-41 impl LimitRange for f32 *)
Definition limit_range_f32 (x low high : T) : T := smin (smax x low) high.
(* surge-math/src/clamp.rs:19-21, 34-36 *)
Definition clamp01 (x : T) : T := limit_range_f32 x (lit 0 1) (lit 1 1).
Definition clamp1_bipolar (x : T) : T := limit_range_f32 x (lit (-1) 1) (lit 1 1).

(* surge-math/src/softclip.rs:6-40 softclip_ss, softclip_ps (one lane) *)
Definition softclip (x_in : T) : T :=
  let x := smax (smin x_in (lit 3 2)) (lit (-3) 2) in
  let xx := ar_mul A x x in
  ar_add A (ar_mul A (ar_mul A x (lit (-4) 27)) xx) x.
(* surge-math/src/softclip.rs:86-104 softclip8_ps (one lane) *)
Definition softclip8_ps (x_in : T) : T :=
  let x := smax (smin x_in (lit 12 1)) (lit (-12) 1) in
  let xx := ar_mul A x x in
  ar_add A (ar_mul A (ar_mul A x (lit (-28935185) 100000000000)) xx) x.
(* surge-math/src/softclip.rs:43-82: the f64 variants clamp with comparisons (NaN goes to the lower limit) *)
Definition softclip_gen (c lo hi : T) (input : T) : T :=
  let x := if ar_lt A lo input then input else lo in
  let x := if ar_lt A x hi then x else hi in
  ar_sub A x (ar_mul A (ar_mul A c x) (ar_mul A x x)).
Definition softclip_f64 (x : T) : T := softclip_gen (lit 4 27) (lit (-3) 2) (lit 3 2) x.
Definition softclip4_f64 (x : T) : T := softclip_gen (lit 23148148148 10000000000000) (lit (-6) 1) (lit 6 1) x.
Definition softclip8_f64 (x : T) : T := softclip_gen (lit 28935185185 100000000000000) (lit (-12) 1) (lit 12 1) x.
Definition softclip2_f64 (x : T) : T := softclip_gen (lit 18518518518518517 100000000000000000) (lit (-3) 1) (lit 3 1) x.
(* surge-math/src/softclip.rs:112-150 softclip_block *)
Definition softclip_block (m : mem) (input n : Z) : mem :=
  fold_left (fun m i =>
    let x0 := vmax (vmin (vload m (input + 4 * i)) (set1 (lit 3 2))) (set1 (lit (-3) 2)) in
    let x1 := vmax (vmin (vload m (input + 4 * (i + 1))) (set1 (lit 3 2))) (set1 (lit (-3) 2)) in
    let t0 := vadd (vmul (vmul x0 (set1 (lit (-4) 27))) (vmul x0 x0)) x0 in
    let t1 := vadd (vmul (vmul x1 (set1 (lit (-4) 27))) (vmul x1 x1)) x1 in
    vstore (vstore m (input + 4 * i) t0) (input + 4 * (i + 1)) t1) (stepby n 2) m.
(* surge-math/src/tanh.rs:5-22 tanh7_ps (one lane); 48-63 tanh7_ss the same *)
Definition tanh7 (x : T) : T :=
  let xx := ar_mul A x x in
  let y := ar_add A (lit 1 1) (ar_mul A (lit (-1) 3) xx) in
  let x4 := ar_mul A xx xx in
  let y := ar_add A y (ar_mul A (lit 2 15) x4) in
  let x6 := ar_mul A x4 xx in
  let y := ar_add A y (ar_mul A (lit (-17) 315) x6) in
  ar_mul A y x.
(* surge-math/src/tanh.rs:87-164 tanh7_block (one quad) *)
Definition tanh7_clipped (x : T) : T :=
  let x := smin (smax x (lit (-1139) 1000)) (lit 1139 1000) in
  let xx := ar_mul A x x in
  let t := ar_mul A xx (lit (-17) 315) in
  let t := ar_mul A (ar_add A t (lit 2 15)) xx in
  let t := ar_mul A (ar_add A t (lit (-1) 3)) xx in
  ar_mul A (ar_add A t (lit 1 1)) x.
Definition tanh7_block (m : mem) (xb n : Z) : mem :=
  fold_left (fun m i =>
    (* all four quads are loaded before any is stored *)
    let t k := fun j => tanh7_clipped (vload m (quad xb (i + k)) j) in
    vstore (vstore (vstore (vstore m (quad xb i) (t 0)) (quad xb (i + 1)) (t 1)) (quad xb (i + 2)) (t 2)) (quad xb (i + 3)) (t 3))
   (stepby n 4) m.
(* surge-math/src/utility.rs:13-23 max_ps_to_ss, lane 0 *)
Definition max_ps_to_ss (x : m128) : T := smax (smax (x 0) (x 1)) (smax (x 2) (x 3)).
(* surge-math/src/utility.rs:26-31 sum_ps_to_ss lane 0; sum.rs:6-28 v_sum *)
Definition v_sum (x : m128) : T := ar_add A (ar_add A (x 0) (x 2)) (ar_add A (x 1) (x 3)).
(* surge-math/src/square.rs:14-40 get_squaremax *)
Definition get_squaremax (m : mem) (d n : Z) : T :=
  let '(a, b) := fold_left (fun '(mx1, mx2) i =>
     (vmax mx1 (vmul (vload m (quad d i)) (vload m (quad d i))),
      vmax mx2 (vmul (vload m (quad d (i + 1))) (vload m (quad d (i + 1))))))
    (stepby n 2) (set1 (lit 0 1), set1 (lit 0 1)) in
  max_ps_to_ss (vmax a b).

(* surge-math/src/trixpan.rs:8-18 trixpan *)
Definition trixpan (l r x : T) : T * T :=
  if ar_lt A x (lit 0 1)
  then (ar_sub A l (ar_mul A x r), ar_mul A r (ar_add A (lit 1 1) x))
  else (ar_mul A l (ar_sub A (lit 1 1) x), ar_add A r (ar_mul A x l)).
(* surge-math/src/pan.rs:4-28 megapan_left, megapan_right *)
Definition megapan_clip (pos : T) : T :=
  let pos := if ar_lt A (lit 2 1) pos then lit 2 1 else pos in
  if ar_lt A pos (lit (-2) 1) then lit (-2) 1 else pos.
Definition megapan_left (pos : T) : T :=
  let pos := megapan_clip pos in
  ar_sub A (ar_sub A (lit 1 1) (ar_mul A (lit 3 4) pos)) (ar_mul A (ar_mul A (lit 1 4) pos) pos).
Definition megapan_right (pos : T) : T :=
  let pos := megapan_clip pos in
  ar_sub A (ar_add A (lit 1 1) (ar_mul A (lit 3 4) pos)) (ar_mul A (ar_mul A (lit 1 4) pos) pos).
(* surge-math/src/saturate.rs:18-27 boundfreq *)
Definition boundfreq (f : T) : T :=
  let f := if ar_lt A (lit 75 1) f then lit 75 1 else f in
  if ar_lt A f (lit (-55) 1) then lit (-55) 1 else f.
(* surge-math/src/interp.rs:21-29 lerp: `valid_range.contains` of the half-open range 0..1 is asserted *)
Definition lerp (x a b : T) : res T :=
  if negb (ar_lt A x (lit 0 1)) && ar_lt A x (lit 1 1)
  then Ok (ar_add A (ar_mul A (ar_sub A (lit 1 1) x) a) (ar_mul A x b)) else Panic.
(* surge-math/src/interp.rs:4-18 cubic_interpolate *)
Definition cubic_interpolate (y0 y1 y2 y3 mu : T) : T :=
  let mu2 := ar_mul A mu mu in
  let a0 := ar_add A (ar_sub A (ar_sub A y3 y2) y0) y1 in
  let a1 := ar_sub A (ar_sub A y0 y1) a0 in
  let a2 := ar_sub A y2 y0 in
  ar_add A (ar_add A (ar_add A (ar_mul A (ar_mul A a0 mu) mu2) (ar_mul A a1 mu2)) (ar_mul A a2 mu)) y1.

(** *** surge-lipol: LipolPs *)
(* surge-lipol/src/lipol_ps.rs:29-83. Only lane 0 of target, currentval, coef, coef_m1 and bs4_inv is ever used
   (initblock broadcasts lane 0; the _ss operations act on lane 0), so these are single values here. *)
Record lipolps := { ps_target : T; ps_current : T; ps_coef : T; ps_coef_m1 : T; ps_bs4_inv : T }.
Definition starter : m128 := fun j => lit (j + 1) 4.
(* lipol_ps.rs:128-133 set_blocksize *)
Definition ps_set_blocksize (s : lipolps) (bs : Z) : lipolps :=
  {| ps_target := ps_target s; ps_current := ps_current s; ps_coef := ps_coef s; ps_coef_m1 := ps_coef_m1 s;
     ps_bs4_inv := ar_div A (lit 4 1) (lit bs 1) |}.
(* lipol_ps.rs:87-104 Default, 111-115 new, 120-124 new_with_blocksize *)
Definition ps_default : lipolps :=
  {| ps_target := lit 0 1; ps_current := lit 0 1; ps_coef := lit 1 4; ps_coef_m1 := ar_sub A (lit 1 1) (lit 1 4);
     ps_bs4_inv := ar_div A (lit 4 1) (lit 64 1) |}.
Definition ps_new_with_blocksize (n : Z) : lipolps := ps_set_blocksize ps_default n.
(* lipol_ps.rs:139-144 set_target, 150-154 set_target_m128 *)
Definition ps_set_target (s : lipolps) (t : T) : lipolps :=
  {| ps_target := t; ps_current := ps_target s; ps_coef := ps_coef s; ps_coef_m1 := ps_coef_m1 s; ps_bs4_inv := ps_bs4_inv s |}.
(* lipol_ps.rs:159-163 *)
Definition ps_set_target_instantize (s : lipolps) (t : T) : lipolps :=
  {| ps_target := t; ps_current := t; ps_coef := ps_coef s; ps_coef_m1 := ps_coef_m1 s; ps_bs4_inv := ps_bs4_inv s |}.
(* lipol_ps.rs:170-178 *)
Definition ps_set_target_smoothed (s : lipolps) (t : T) : lipolps :=
  {| ps_target := ar_add A (ar_mul A (ps_coef s) t) (ar_mul A (ps_coef_m1 s) (ps_target s)); ps_current := ps_target s;
     ps_coef := ps_coef s; ps_coef_m1 := ps_coef_m1 s; ps_bs4_inv := ps_bs4_inv s |}.
(* lipol_ps.rs:183-185 *)
Definition ps_instantize (s : lipolps) : lipolps :=
  {| ps_target := ps_target s; ps_current := ps_target s; ps_coef := ps_coef s; ps_coef_m1 := ps_coef_m1 s; ps_bs4_inv := ps_bs4_inv s |}.
(* lipol_ps.rs:202-235 initblock: (y, dy) *)
Definition ps_initblock (s : lipolps) : m128 * m128 :=
  let dy := set1 (ar_mul A (ar_sub A (ps_target s) (ps_current s)) (ps_bs4_inv s)) in
  (vadd (set1 (ps_current s)) (vmul dy starter), dy).

(* surge-lipol/src/sse_block.rs:18-92 lipol_ps_sse_block!. `$code(i, y1, y2, dy)` passes the registers by value
   (__m128 is Copy); the closures bind their parameters with `ref mut`, i.e. they update their own copies. A closure is
   therefore modelled as returning the memory and its updated copies (y1', y2'), which the macro discards. *)
Definition code : Type := mem -> Z -> m128 -> m128 -> m128 -> mem * m128 * m128.
Definition sse_block (s : lipolps) (n : Z) (kind8 : bool) (c : code) (m : mem) : mem :=
  let '(y1, dy) := ps_initblock s in
  let y2 := vadd y1 dy in
  let dy := vmul dy (set1 (lit 2 1)) in
  fold_left (fun m i => let '(m', _, _) := c m i y1 y2 dy in m')
    (if kind8 then stepby (4 * n) 8 else stepby n 2) m.

(* lipol_ps.rs:256-274 store_block *)
Definition ps_store_block (s : lipolps) (m : mem) (dst n : Z) : mem :=
  sse_block s n true (fun m i y1 y2 dy =>
    (vstore (vstore m (dst + i) y1) (dst + i + 4) y2, vadd y1 dy, vadd y2 dy)) m.
(* surge-lipol/src/multiply.rs:111-143 multiply_block *)
Definition ps_multiply_block (s : lipolps) (m : mem) (src n : Z) : mem :=
  sse_block s n true (fun m i y1 y2 dy =>
    let m1 := vstore m (src + i) (vmul (vload m (src + i)) y1) in
    (vstore m1 (src + i + 4) (vmul (vload m1 (src + i + 4)) y2), vadd y1 dy, vadd y2 dy)) m.
(* multiply.rs:153-192 multiply_block_sat1 *)
Definition ps_multiply_block_sat1 (s : lipolps) (m : mem) (src n : Z) : mem :=
  sse_block s n true (fun m i y1 y2 dy =>
    let m1 := vstore m (src + i) (vmul (vload m (src + i)) y1) in
    (vstore m1 (src + i + 4) (vmul (vload m1 (src + i + 4)) y2), vmin (set1 (lit 1 1)) (vadd y1 dy), vmin (set1 (lit 1 1)) (vadd y2 dy))) m.
(* multiply.rs:9-36 multiply_block_to *)
Definition ps_multiply_block_to (s : lipolps) (m : mem) (src dst n : Z) : mem :=
  sse_block s n false (fun m i y1 y2 dy =>
    let m1 := vstore m (quad dst i) (vmul (vload m (quad src i)) y1) in
    (vstore m1 (quad dst (i + 1)) (vmul (vload m1 (quad src (i + 1))) y2), vadd y1 dy, vadd y2 dy)) m.
(* multiply.rs:43-72 multiply_2_blocks_to *)
Definition ps_multiply_2_blocks_to (s : lipolps) (m : mem) (src1 src2 dst1 dst2 n : Z) : mem :=
  sse_block s n false (fun m i y1 y2 dy =>
    let m := vstore m (quad dst1 i) (vmul (vload m (quad src1 i)) y1) in
    let m := vstore m (quad dst2 i) (vmul (vload m (quad src2 i)) y1) in
    let m := vstore m (quad dst1 (i + 1)) (vmul (vload m (quad src1 (i + 1))) y2) in
    (vstore m (quad dst2 (i + 1)) (vmul (vload m (quad src2 (i + 1))) y2), vadd y1 dy, vadd y2 dy)) m.
(* multiply.rs:79-104 multiply_2_blocks: the same in place *)
Definition ps_multiply_2_blocks (s : lipolps) (m : mem) (src1 src2 n : Z) : mem :=
  ps_multiply_2_blocks_to s m src1 src2 src1 src2 n.
(* surge-lipol/src/add.rs:58-80 add_block *)
Definition ps_add_block (s : lipolps) (m : mem) (src n : Z) : mem :=
  sse_block s n false (fun m i y1 y2 dy =>
    let m1 := vstore m (quad src i) (vadd (vload m (quad src i)) y1) in
    (vstore m1 (quad src (i + 1)) (vadd (vload m1 (quad src (i + 1))) y2), vadd y1 dy, vadd y2 dy)) m.
(* add.rs:116-145 subtract_block *)
Definition ps_subtract_block (s : lipolps) (m : mem) (src n : Z) : mem :=
  sse_block s n false (fun m i y1 y2 dy =>
    let m1 := vstore m (quad src i) (vsub (vload m (quad src i)) y1) in
    (vstore m1 (quad src (i + 1)) (vsub (vload m1 (quad src (i + 1))) y2), vadd y1 dy, vadd y2 dy)) m.
(* surge-lipol/src/mac.rs:11-42 mac_block_to *)
Definition ps_mac_block_to (s : lipolps) (m : mem) (src dst n : Z) : mem :=
  sse_block s n false (fun m i y1 y2 dy =>
    let m1 := vstore m (quad dst i) (vadd (vload m (quad dst i)) (vmul (vload m (quad src i)) y1)) in
    (vstore m1 (quad dst (i + 1)) (vadd (vload m1 (quad dst (i + 1))) (vmul (vload m1 (quad src (i + 1))) y2)), vadd y1 dy, vadd y2 dy)) m.
(* mac.rs:50-104 mac_2_blocks_to *)
Definition ps_mac_2_blocks_to (s : lipolps) (m : mem) (src1 src2 dst1 dst2 n : Z) : mem :=
  sse_block s n false (fun m i y1 y2 dy =>
    let m := vstore m (quad dst1 i) (vadd (vload m (quad dst1 i)) (vmul (vload m (quad src1 i)) y1)) in
    let m := vstore m (quad dst2 i) (vadd (vload m (quad dst2 i)) (vmul (vload m (quad src2 i)) y1)) in
    let m := vstore m (quad dst1 (i + 1)) (vadd (vload m (quad dst1 (i + 1))) (vmul (vload m (quad src1 (i + 1))) y2)) in
    (vstore m (quad dst2 (i + 1)) (vadd (vload m (quad dst2 (i + 1))) (vmul (vload m (quad src2 (i + 1))) y2)), vadd y1 dy, vadd y2 dy)) m.
Definition fade2 (a b y : m128) : m128 := vadd (vmul a (vsub (set1 (lit 1 1)) y)) (vmul b y).
(* surge-lipol/src/fade.rs:63-116 fade_block_to *)
Definition ps_fade_block_to (s : lipolps) (m : mem) (src1 src2 dst n : Z) : mem :=
  sse_block s n false (fun m i y1 y2 dy =>
    let m1 := vstore m (quad dst i) (fade2 (vload m (quad src1 i)) (vload m (quad src2 i)) y1) in
    (vstore m1 (quad dst (i + 1)) (fade2 (vload m1 (quad src1 (i + 1))) (vload m1 (quad src2 (i + 1))) y2), vadd y1 dy, vadd y2 dy)) m.
(* fade.rs:139-224 fade_2_blocks_to *)
Definition ps_fade_2_blocks_to (s : lipolps) (m : mem) (src11 src12 src21 src22 dst1 dst2 n : Z) : mem :=
  sse_block s n false (fun m i y1 y2 dy =>
    let m := vstore m (quad dst1 i) (fade2 (vload m (quad src11 i)) (vload m (quad src12 i)) y1) in
    let m := vstore m (quad dst2 i) (fade2 (vload m (quad src21 i)) (vload m (quad src22 i)) y1) in
    let m := vstore m (quad dst1 (i + 1)) (fade2 (vload m (quad src11 (i + 1))) (vload m (quad src12 (i + 1))) y2) in
    (vstore m (quad dst2 (i + 1)) (fade2 (vload m (quad src21 (i + 1))) (vload m (quad src22 (i + 1))) y2), vadd y1 dy, vadd y2 dy)) m.

(* surge-lipol/src/trixpan.rs:9-25 trixpan_left, 31-47 trixpan_right *)
Definition trixpan_left (a b l r : m128) : m128 := vsub (vmul (vsub (set1 (lit 1 1)) a) l) (vmul b r).
Definition trixpan_right (a b l r : m128) : m128 := vadd (vmul a l) (vmul (vadd (set1 (lit 1 1)) b) r).
(* trixpan.rs:49-65 trixpan_blocks_do_quad: `*y` is advanced through the reference *)
Definition trixpan_do_quad (m : mem) (l r dl dr : Z) (y dy : m128) : mem * m128 :=
  let a := vmax (set1 (lit 0 1)) y in
  let b := vmin (set1 (lit 0 1)) y in
  let m1 := vstore m dl (trixpan_left a b (vload m l) (vload m r)) in
  (vstore m1 dr (trixpan_right a b (vload m1 l) (vload m1 r)), vadd y dy).
(* trixpan.rs:74-111 trixpan_blocks *)
Definition ps_trixpan_blocks (s : lipolps) (m : mem) (l r dl dr n : Z) : mem :=
  let '(y, dy) := ps_initblock s in
  fst (fold_left (fun '(m, y) i => trixpan_do_quad m (quad l i) (quad r i) (quad dl i) (quad dr i) y dy) (stepby n 1) (m, y)).
End Blocks.
Arguments mem : clear implicits.
Arguments m128 : clear implicits.
Arguments lipolps : clear implicits.
