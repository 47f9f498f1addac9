(** OB-Xd voice filters: surgefilter-obxd.

    Conventions.
    - All SSE operations of these filters are lane-wise; one lane is modelled.  Compare masks select one of two values, so an
      and/andnot pair is an [if].
    - Exact reals (fused multiply-add and plain multiply-add agree).  The cutoff tuner.n2p(freq + 69) and the inverse sample rate are
      arguments; tan and atan are the exact functions.
    - `_mm_load_ps` / `_mm_store_ps` on a stack array (process_4pole.rs:63-82) are taken to be aligned.
    - process.rs:3-12 process_quad is `todo!()`: the filter panics when it is run as a voice filter; the two public functions
      process_2_pole and process_4_pole are modelled.
    Definitions only; theorems in ObxdProps*.v. *)
From Coq Require Import Reals List.
From Verif Require Import Base Util BlockModel.
Import ListNotations.
Local Open Scope R_scope.

(* process.rs:3-12 process_quad *)
Definition obxd_process_quad : res R := Panic.

(* obxd_types.rs:5-12: the coefficients of the two-pole filter *)
Record ob2 := mk_ob2 { o2_g : R; o2_r : R; o2_mm : R; o2_bp : R; o2_push : R }.
(* obxd_types.rs:14-23 *)
Record ob4 := mk_ob4 { o4_g : R; o4_r : R; o4_rcor : R; o4_rcorinv : R; o4_mix : R; o4_int : R; o4_sc : R }.

(* coeff.rs:56-64; FloatOrd min = Rmin *)
Definition ob_cutoff (n2p sr_os_inv : R) : R := Rmin (n2p * (817579891564371 / 100000000000000)) 22000 * sr_os_inv * PI.
(* coeff.rs:66-105, Poles::TwoPole; a sub outside 0..=7 leaves MultiMode at 0 *)
Definition ob2_coeff (sub : Z) (n2p sr_os_inv reso : R) : ob2 :=
  let mm := match sub with 1%Z | 5%Z => 1 / 2 | 2%Z | 6%Z => 1 | 3%Z | 7%Z => 1 / 2 | _ => 0 end in
  let bp := match sub with 1%Z | 5%Z => 1 | _ => 0 end in
  mk_ob2 (tan (ob_cutoff n2p sr_os_inv)) (1 - reso) mm bp (if (3 <? sub)%Z then 1 else 0).
(* coeff.rs:106-116, Poles::FourPole *)
Definition ob4_coeff (sub : Z) (n2p sr_os_inv reso : R) : ob4 :=
  let rcrate := sqrt (44000 * sr_os_inv) in
  let rcor := 970 / 44000 * rcrate in
  let mix := 1 - IZR sub / 3 in
  let inv := 3 - IZR sub in
  mk_ob4 (tan (ob_cutoff n2p sr_os_inv)) (7 / 2 * reso) rcor (1 / rcor) mix inv (mix * 3 - inv).

(** ** Two poles *)
(* obxd.rs:43-51 diode_pair_resistance_approx *)
Definition ob_diode (x : R) : R :=
  let d := 103592 / 10000000 * x + 920833 / 100000000 in
  let e := d * x + 185 / 1000 in
  let f := e * x + 5 / 100 in
  f * x + 1.
(* obxd.rs:57-76 get_12db_self_osc and 17-35 cfb *)
Definition ob_tcfb (push s1 : R) : R :=
  let r_approx := ob_diode (s1 * (876 / 10000)) in
  if Req_EM_T push 1 then r_approx - 1035 / 1000 else r_approx - 1.
(* obxd.rs:79-125 newton_raphson_12db *)
Definition ob2_solve (sample : R) (c : ob2) (s : R * R) : R :=
  let s1 := fst s in let s2 := snd s in
  let t := ob_tcfb (o2_push c) s1 in
  let r := o2_r c in let g := o2_g c in
  (sample - 2 * (s1 * (r + t)) - g * s1 - s2) / (1 + g * (2 * (r + t) + g)).
(* process_2pole.rs:7-9: coeff += dcoeff *)
Definition ob2_move (c d : ob2) : ob2 := mk_ob2 (o2_g c + o2_g d) (o2_r c + o2_r d) (o2_mm c + o2_mm d) (o2_bp c + o2_bp d) (o2_push c + o2_push d).
(* process_2pole.rs:42-99: the output mode *)
Definition ob2_mix (c : ob2) (v y1 y2 : R) : R :=
  let mm := o2_mm c in
  let bp_false := (1 - mm) * y2 + mm * v in
  let val1 := (1 / 2 - mm) * y2 + mm * y1 in
  let val2 := (1 - mm) * y1 + (mm - 1 / 2) * v in
  let bp_true := if Rlt_dec mm (1 / 2) then val1 else val2 in
  let mc := if Req_EM_T (o2_bp c) 0 then bp_false else bp_true in
  mc * (74 / 100).
Record ob2state := mk_o2s { o2s_c : ob2; o2s_d : ob2; o2s_s : R * R }.
(* process_2pole.rs:5-100 process_2_pole *)
Definition ob2_process (st : ob2state) (sample : R) : ob2state * R :=
  let c := ob2_move (o2s_c st) (o2s_d st) in
  let v := ob2_solve sample c (o2s_s st) in
  let g := o2_g c in
  let y1 := v * g + fst (o2s_s st) in
  let s1 := v * g + y1 in
  let y2 := y1 * g + snd (o2s_s st) in
  let s2 := y1 * g + y2 in
  (mk_o2s c (o2s_d st) (s1, s2), ob2_mix c v y1 y2).

(** ** Four poles *)
Record ob4reg := mk_o4r { p_s1 : R; p_s2 : R; p_s3 : R; p_s4 : R }.
(* obxd.rs:127-162 newton_raphson_r24_db; surge-math one_over_one_plus_x, x_to_the_fourth *)
Definition ob4_solve (sample lpc : R) (c : ob4) (s : ob4reg) : R :=
  let ml := 1 / (1 + o4_g c) in
  let sum := (lpc * (lpc * (lpc * p_s1 s + p_s2 s) + p_s3 s) + p_s4 s) * ml in
  let g := lpc * lpc * lpc * lpc in
  (sample - o4_r c * sum) / (1 + o4_r c * g).
(* obxd.rs:164-179 tptpc: new state and result *)
Definition ob_tptpc (state inp cutoff : R) : R * R :=
  let v := (inp - state) * cutoff / (1 + cutoff) in
  let r := v + state in (r + v, r).
(* process_4pole.rs:18-20 *)
Definition ob4_move (c d : ob4) : ob4 :=
  mk_ob4 (o4_g c + o4_g d) (o4_r c + o4_r d) (o4_rcor c + o4_rcor d) (o4_rcorinv c + o4_rcorinv d) (o4_mix c + o4_mix d) (o4_int c + o4_int d) (o4_sc c + o4_sc d).
(* process_4pole.rs:104-168: the output mode; inv_int and sc are the values from before the coefficients moved on. The four masked
   values are added; none of the masks is set unless inv_int is 0, 1, 2 or 3 *)
Definition ob4_mix (inv_int sc y1 y2 y3 y4 : R) : R :=
  let zero_val := (1 - sc) * y4 + (sc + y3) in
  let one_val := (1 - sc) * y3 + sc * y2 in
  let two_val := (1 - sc) * y2 + sc * y1 in
  if Req_EM_T inv_int 0 then zero_val else if Req_EM_T inv_int 1 then one_val else if Req_EM_T inv_int 2 then two_val else if Req_EM_T inv_int 3 then y1 else 0.
Record ob4state := mk_o4s { o4s_c : ob4; o4s_d : ob4; o4s_r : ob4reg }.
(* process_4pole.rs:5-168 process_4_pole; [active] = qfu.active[lane] != 0.  g24, the first state and the pole mix are read before the
   coefficients move on (12-16), r24, 1/(1+g24), rcor24 and its inverse after *)
Definition ob4_process (active : bool) (st : ob4state) (sample : R) : ob4state * R :=
  let g24 := o4_g (o4s_c st) in
  let s1 := p_s1 (o4s_r st) in
  let inv_int := o4_int (o4s_c st) in
  let sc := o4_sc (o4s_c st) in
  let c := ob4_move (o4s_c st) (o4s_d st) in
  let lpc := g24 / (1 + g24) in
  let y0 := ob4_solve sample lpc c (o4s_r st) in
  let v := (y0 - s1) * lpc in
  let y1 := v + s1 in
  let damped := if active then atan ((y1 + v) * o4_rcor c) else 0 in
  let s1' := damped * o4_rcorinv c in
  let '(s2', y2) := ob_tptpc (p_s2 (o4s_r st)) y1 g24 in
  let '(s3', y3) := ob_tptpc (p_s3 (o4s_r st)) y2 g24 in
  let '(s4', y4) := ob_tptpc (p_s4 (o4s_r st)) y3 g24 in
  (mk_o4s c (o4s_d st) (mk_o4r s1' s2' s3' s4'), ob4_mix inv_int sc y1 y2 y3 y4 * (1 + o4_r c * (45 / 100)) * (60 / 100)).
(* a run over a sequence of samples *)
Fixpoint ob_run {St} (f : St -> R -> St * R) (s : St) (xs : list R) : St * list R :=
  match xs with [] => (s, []) | x :: t => let '(s', y) := f s x in let '(s2, ys) := ob_run f s' t in (s2, y :: ys) end.
