(** Ladder voice filters: surgefilter-rungekutta and surgefilter-huovilainen.

    Conventions.
    - All SSE operations of these filters are lane-wise; one lane is modelled.
    - Exact reals.  The cutoff tuner.n2p(freq + 69) and the sample rates are arguments.
    - The four passes of the oversampling loop are written as a list of output samples.
    Definitions only; theorems in LadderProps*.v. *)
From Coq Require Import Reals List.
From Flocq Require Import Core.Core.
From Verif Require Import Base Util F32 BlockModel MathModel.
Import ListNotations.
Local Open Scope R_scope.

(* surgefilter-rungekutta/src/runge_kutta.rs:36-40, surgefilter-huovilainen/src/huovilainen.rs:48-52 clamped_frequency *)
Definition ladder_freq (n2p sr_os : R) : R := limit_range_f32 arithR (n2p * (817579891564371 / 100000000000000)) 5 (sr_os * (3 / 10)).
(* runge_kutta_process.rs:197-222, huovilainen_process.rs:195-231: the output of the oversampling loop; FIR over its four samples *)
Definition ladder_out (o0 o1 o2 o3 : R) : R :=
  15 / 10 * ((((0 + o0 * (-636844 / 10000000)) + o1 * 0) + o2 * (57315916 / 100000000)) + o3 * 1).

(** ** Runge-Kutta ladder *)
(* runge_kutta.rs:3-8: the coefficient registers *)
Record rkc := mk_rkc { rk_cut : R; rk_res : R; rk_gc : R }.
(* the four state registers *)
Definition vec : Type := R * R * R * R.
(* runge_kutta.rs:42-78 clip with saturation 3 and saturation_inv 1/3 *)
Definition rk_clip (value : R) : R :=
  let vtsi := value * (1 / 3) in
  let v2 := smin arithR 1 (smax arithR (-1) vtsi) in
  let v23 := v2 * (v2 * v2) in
  3 * (v2 - 1 / 3 * v23).
(* derivatives.rs:16-96 calculate_derivatives *)
Definition rk_deriv (input : R) (c : rkc) (s : vec) : vec :=
  let '(s0, s1, s2, s3) := s in
  let satstate0 := rk_clip s0 in
  let satstate1 := rk_clip s1 in
  let satstate2 := rk_clip s2 in
  let startstate := rk_clip (input - rk_res c * (s3 - rk_gc c * input)) in
  (rk_cut c * (startstate - satstate0), rk_cut c * (satstate0 - satstate1), rk_cut c * (satstate1 - satstate2), rk_cut c * (satstate2 - rk_clip s3)).
(* runge_kutta_process.rs:105-112, 126-133, 147-154: `state[i] + h * deriv[i]` for i in 0..4 *)
Definition vaxpy (s : vec) (h : R) (d : vec) : vec :=
  let '(s0, s1, s2, s3) := s in let '(d0, d1, d2, d3) := d in (s0 + h * d0, s1 + h * d1, s2 + h * d2, s3 + h * d3).
(* runge_kutta_process.rs:168-191: the weighted sum of the derivatives *)
Definition rk_sum (d1 d2 d3 d4 : R) : R := d1 + (2 * d2 + (2 * d3 + d4)).
Definition vsum (d1 d2 d3 d4 : vec) : vec :=
  let '(a1, b1, c1, e1) := d1 in let '(a2, b2, c2, e2) := d2 in let '(a3, b3, c3, e3) := d3 in let '(a4, b4, c4, e4) := d4 in
  (rk_sum a1 a2 a3 a4, rk_sum b1 b2 b3 b4, rk_sum c1 c2 c3 c4, rk_sum e1 e2 e3 e4).
(* runge_kutta_process.rs:89-193: one pass of the loop after the coefficients were moved on; the temporary state for the
   fourth derivative is built with half_step_size, as the code does *)
Definition rk_step (sr_os : R) (c : rkc) (input : R) (s : vec) : vec :=
  let step_size := 1 / sr_os * (1 / 4) in
  let half_step_size := 1 / 2 * (1 / sr_os) * (1 / 4) in
  let deriv1 := rk_deriv input c s in
  let temp_state := vaxpy s half_step_size deriv1 in
  let deriv2 := rk_deriv input c temp_state in
  let temp_state := vaxpy s half_step_size deriv2 in
  let deriv3 := rk_deriv input c temp_state in
  let temp_state := vaxpy s half_step_size deriv3 in
  let deriv4 := rk_deriv input c temp_state in
  vaxpy s (1 / 6 * step_size) (vsum deriv1 deriv2 deriv3 deriv4).
(* runge_kutta_process.rs:79-87: coeff += d_fac * dcoeff *)
Definition rk_move (c d : rkc) : rkc := mk_rkc (rk_cut c + 1 / 4 * rk_cut d) (rk_res c + 1 / 4 * rk_res d) (rk_gc c + 1 / 4 * rk_gc d).
Definition last4 (s : vec) : R := let '(_, _, _, s3) := s in s3.
Record rkstate := mk_rks { rs_c : rkc; rs_d : rkc; rs_s : vec }.
(* runge_kutta_process.rs:52-223 process_quad: four passes, the input is set to zero after the first *)
Definition rk_pass (sr_os input : R) (st : rkstate) : rkstate :=
  let c := rk_move (rs_c st) (rs_d st) in mk_rks c (rs_d st) (rk_step sr_os c input (rs_s st)).
Definition rk_process (sr_os : R) (st : rkstate) (input : R) : rkstate * R :=
  let s1 := rk_pass sr_os input st in
  let s2 := rk_pass sr_os 0 s1 in
  let s3 := rk_pass sr_os 0 s2 in
  let s4 := rk_pass sr_os 0 s3 in
  (s4, ladder_out (last4 (rs_s s1)) (last4 (rs_s s2)) (last4 (rs_s s3)) (last4 (rs_s s4))).
(* runge_kutta_coeff.rs:3-20 coeff_make *)
Definition rk_coeff (gc : option R) (n2p sr_os reso : R) : rkc :=
  mk_rkc (ladder_freq n2p sr_os * 2 * PI) (limit_range_f32 arithR reso 0 1 * (45 / 10)) (match gc with Some g => g | None => 0 end).

(** ** Huovilainen ladder *)
(* huovilainen.rs:7-12: the coefficient registers *)
Record huc := mk_huc { hu_cut : R; hu_res : R; hu_fc : R; hu_gc : R }.
(* the registers Stage 0..3, StageTanh 0..2 (4..6), Delay 0..5 (7..12); huovilainen.rs:14-23 *)
Record hureg := mk_hr { h_s0 : R; h_s1 : R; h_s2 : R; h_s3 : R; h_t0 : R; h_t1 : R; h_t2 : R; h_d0 : R; h_d1 : R; h_d2 : R; h_d3 : R; h_d4 : R; h_d5 : R }.
Definition hu_thermal : R := 25 / 1000000.
(* huovilainen_process.rs:55-107: tuning from Fc *)
Definition hu_tune (fc : R) : R :=
  let fr := fc * (1 / 2) in
  let fc2 := fc * fc in
  let fc3 := fc * fc2 in
  let fcr := 1873 / 1000 * fc3 + (4995 / 10000 * fc2 + (-649 / 1000 * fc + 9988 / 10000)) in
  (1 - fastexp (-2 * PI * (fr * fcr))) * 40000.
Definition hu_resquad (fc res : R) : R :=
  let fc2 := fc * fc in
  let acr := -39364 / 10000 * fc2 + (18409 / 10000 * fc + 9968 / 10000) in
  4 * (res * acr).
(* huovilainen_process.rs:28-31, 109-115: coeff += d_fac * dcoeff, d_fac = 0.5 * 0.5 *)
Definition hu_move (c d : huc) : huc :=
  let f := 1 / 2 * (1 / 2) in mk_huc (hu_cut c + f * hu_cut d) (hu_res c + f * hu_res d) (hu_fc c + f * hu_fc d) (hu_gc c + f * hu_gc d).
Record hustate := mk_hus { hs_c : huc; hs_d : huc; hs_r : hureg }.
(* huovilainen_process.rs:53-193: one pass of the loop.  Fc and Res are read before the coefficients move on, GainCompensation after *)
Definition hu_pass (input : R) (st : hustate) : hustate :=
  let tune := hu_tune (hu_fc (hs_c st)) in
  let resquad := hu_resquad (hu_fc (hs_c st)) (hu_res (hs_c st)) in
  let c := hu_move (hs_c st) (hs_d st) in
  let r := hs_r st in
  let inputx := input - resquad * (h_d5 r - hu_gc c * input) in
  let s0 := h_d0 r + tune * (fasttanh_clamped (inputx * hu_thermal) - h_t0 r) in
  let d0 := s0 in
  (* k = 1 *)
  let t0 := fasttanh_clamped (s0 * hu_thermal) in
  let s1 := h_d1 r + tune * (t0 - h_t1 r) in
  let d1 := s1 in
  (* k = 2 *)
  let t1 := fasttanh_clamped (s1 * hu_thermal) in
  let s2 := h_d2 r + tune * (t1 - h_t2 r) in
  let d2 := s2 in
  (* k = 3 *)
  let t2 := fasttanh_clamped (s2 * hu_thermal) in
  let s3 := h_d3 r + tune * (t2 - fasttanh_clamped (h_d3 r * hu_thermal)) in
  let d3 := s3 in
  let d5 := 1 / 2 * (s3 + h_d4 r) in
  let d4 := s3 in
  mk_hus c (hs_d st) (mk_hr s0 s1 s2 s3 t0 t1 t2 d0 d1 d2 d3 d4 d5).
(* huovilainen_process.rs:27-231 process_quad: four passes, the input is set to zero after the first *)
Definition hu_process (st : hustate) (input : R) : hustate * R :=
  let s1 := hu_pass input st in
  let s2 := hu_pass 0 s1 in
  let s3 := hu_pass 0 s2 in
  let s4 := hu_pass 0 s3 in
  (s4, ladder_out (h_d5 (hs_r s1)) (h_d5 (hs_r s2)) (h_d5 (hs_r s3)) (h_d5 (hs_r s4))).
(* huovilainen_coeff.rs:5-41 coeff_make; [sr] = samplerate, [sr_os] = samplerate_os; FloatOrd max = Rmax *)
Definition hu_coeff (gc : option R) (n2p sr sr_os reso : R) : huc :=
  let cutoff := ladder_freq n2p sr_os in
  let co := Rmax (cutoff - sr * (33333 / 100000)) 0 * (1 / 10) * (1 / sr_os) in
  let gctrim := match gc with Some _ => 5 / 100 | None => 0 end in
  let reso := limit_range_f32 arithR (limit_range_f32 arithR reso 0 (9925 / 10000)) 0 (994 / 1000 - co - gctrim) in
  mk_huc cutoff reso (cutoff * (1 / sr_os) * (1 / 2)) (match gc with Some g => g | None => 0 end).
(* a run over a sequence of samples *)
Fixpoint ladder_run {S} (f : S -> R -> S * R) (s : S) (xs : list R) : S * list R :=
  match xs with [] => (s, []) | x :: t => let '(s', y) := f s x in let '(s2, ys) := ladder_run f s' t in (s2, y :: ys) end.
