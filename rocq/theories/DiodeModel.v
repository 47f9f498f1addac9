(** Diode ladder voice filter: surgefilter-diode.

    Conventions.
    - All SSE operations of the filter are lane-wise; one lane is modelled.
    - Exact reals.  `_mm_rcp_ps` is the processor's approximate reciprocal: an argument [rcp].
    - The cutoff tuner.n2p(freq + 69) and the oversampled rate are arguments; the inverse rate is 1 / rate.
    Definitions only; theorems in DiodeProps*.v. *)
From Coq Require Import Reals List.
From Verif Require Import Base Util BlockModel MathModel.
Import ListNotations.
Local Open Scope R_scope.

(* diode.rs:39-49 DiodeLadderCoeff *)
Record dic := mk_dic { d_alpha : R; d_gamma : R; d_g : R; d_g4 : R; d_g3 : R; d_g2 : R; d_g1 : R; d_k : R }.
(* diode.rs:53-62 DiodeLadderState *)
Record dst := mk_dst { z1 : R; z2 : R; z3 : R; z4 : R; fb3 : R; fb2 : R; fb1 : R }.
(* diode.rs:10-15 clamped_frequency *)
Definition di_freq (n2p sr_os : R) : R := limit_range_f32 arithR (n2p * (817579891564371 / 100000000000000)) 5 (sr_os * (3 / 10)).
(* coeff.rs:12-14: the warped tuning *)
Definition di_warp (n2p sr_os : R) : R :=
  let wd := di_freq n2p sr_os * 2 * PI in
  let wa := (2 * sr_os) * fasttan (wd * (1 / sr_os) * (1 / 2)) in
  wa * (1 / sr_os) * (1 / 2).
(* coeff.rs:16-37 from g on; the second `let g` hides the first, so it is g / (1 + g) that is stored as Alpha and as G *)
Definition di_coeffs (g reso : R) : dic :=
  let g4 := 1 / 2 * g / (1 + g) in
  let g3 := 1 / 2 * g / (1 + g - 1 / 2 * g * g4) in
  let g2 := 1 / 2 * g / (1 + g - 1 / 2 * g * g3) in
  let g1 := g / (1 + g - g * g2) in
  let m_gamma := g4 * g3 * g2 * g1 in
  let g := g / (1 + g) in
  let k := reso * 16 in
  let km := limit_range_f32 arithR k 0 16 in
  mk_dic g m_gamma g g4 g3 g2 g1 km.
(* coeff.rs:5-38 coeff_make *)
Definition di_coeff (n2p sr_os reso : R) : dic := di_coeffs (di_warp n2p sr_os) reso.

(* diode.rs:17-34 get_feedback_output *)
Definition di_fb (beta delta feedback z : R) : R := (feedback * delta + z) * beta.
(* lpf.rs:14-43 do_lpf: result and new state *)
Definition di_lpf (input alpha gamma epsilon ma0 feedback feedback_output output : R) : R * R :=
  let i := (input * gamma + feedback) + epsilon * feedback_output in
  let v := (ma0 * i - output) * alpha in
  let result := v + output in
  (result, v + result).
(* process_quad.rs:6-11 update_qfu *)
Definition di_move (c d : dic) : dic :=
  mk_dic (d_alpha c + d_alpha d) (d_gamma c + d_gamma d) (d_g c + d_g d) (d_g4 c + d_g4 d) (d_g3 c + d_g3 d) (d_g2 c + d_g2 d) (d_g1 c + d_g1 d) (d_k c + d_k d).
Section Diode.
Context (rcp : R -> R).
(* process_quad.rs:17-274, with the coefficients already moved on: new state, the ladder's input u and the output.  feedback2 and
   feedback1 are computed from the registers of the sample before (116-117) *)
Definition di_step (c : dic) (s : dst) (input : R) : dst * (R * R) :=
  let sg3 := d_g4 c in
  let sg2 := sg3 * d_g3 c in
  let sg1 := sg2 * d_g2 c in
  let g := d_g c in
  let gp1 := g + 1 in
  let hg := g * (1 / 2) in
  let beta1 := rcp (gp1 - g * d_g2 c) in
  let beta2 := rcp (gp1 - hg * d_g3 c) in
  let beta3 := rcp (gp1 - hg * d_g4 c) in
  let beta4 := rcp gp1 in
  let gamma1 := d_g1 c * d_g2 c + 1 in
  let gamma2 := d_g2 c * d_g3 c + 1 in
  let gamma3 := d_g3 c * d_g4 c + 1 in
  let feedback3 := di_fb beta4 0 0 (z4 s) in
  let feedback2 := di_fb beta3 hg (fb3 s) (z3 s) in
  let feedback1 := di_fb beta2 hg (fb2 s) (z2 s) in
  let sigma := ((sg1 * di_fb beta1 g feedback1 (z1 s) + sg2 * di_fb beta2 hg feedback2 (z2 s)) + sg3 * di_fb beta3 hg feedback3 (z3 s)) + 1 * di_fb beta4 0 0 (z4 s) in
  let comp := (3 / 10 * d_k c + 1) * input in
  let u := (comp - d_k c * sigma) / (d_k c * d_gamma c + 1) in
  let '(result1, z1') := di_lpf u (d_alpha c) gamma1 (d_g2 c) 1 feedback1 (di_fb beta1 g feedback1 (z1 s)) (z1 s) in
  let '(result2, z2') := di_lpf result1 (d_alpha c) gamma2 (d_g3 c) (1 / 2) feedback2 (di_fb beta2 hg feedback2 (z2 s)) (z2 s) in
  let '(result3, z3') := di_lpf result2 (d_alpha c) gamma3 (d_g4 c) (1 / 2) feedback3 (di_fb beta3 hg feedback3 (z3 s)) (z3 s) in
  let '(result4, z4') := di_lpf result3 (d_alpha c) 1 0 (1 / 2) 0 (di_fb beta4 0 0 (z4 s)) (z4 s) in
  (mk_dst z1' z2' z3' z4' feedback3 feedback2 feedback1, (u, result4)).
Record distate := mk_dis { dis_c : dic; dis_d : dic; dis_s : dst }.
(* process_quad.rs:13-275 process_quad *)
Definition di_process (st : distate) (input : R) : distate * R :=
  let c := di_move (dis_c st) (dis_d st) in
  let '(s', (_, y)) := di_step c (dis_s st) input in
  (mk_dis c (dis_d st) s', y).
(* a run over a sequence of samples *)
Fixpoint di_run (st : distate) (xs : list R) : distate * list R :=
  match xs with [] => (st, []) | x :: t => let '(s', y) := di_process st x in let '(s2, ys) := di_run s' t in (s2, y :: ys) end.
End Diode.
