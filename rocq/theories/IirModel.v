(** IIR voice filters: surgefilter-iir.

    Conventions.
    - All SSE operations of these filters are lane-wise; one lane is modelled.  Exact reals; the f64 to f32 conversions of the
      coefficients are not modelled.
    - [omega] is the pair that tuner.note_to_omega returns: (sine, cosine) (surge-tuning/src/tuner.rs:122-154).
    - [clip] is tables.clipscale (LfoModel.clipscale); [rsq] is the hardware reciprocal square root.
    - iir_12_wdf_quad is not modelled (no filter uses it).
    Definitions only; theorems in IirProps*.v. *)
From Coq Require Import Reals List.
From Flocq Require Import Core.Core.
From Verif Require Import Base Util F32 BlockModel MathModel.
Import ListNotations.
Local Open Scope R_scope.

(* surge-filter FilterSubType, PoleType; FilterTypeIIR *)
Inductive isub := ISvf | IRough | ISmooth | IMedium.
Inductive ipole := ITwo | IFour.
Inductive ity := ILow | IBand | IHigh.

(* coeffs.rs:4-11 FilterCoeffs *)
Record fcs := mk_fcs { fa0 : R; fa1 : R; fa2 : R; fb0 : R; fb1 : R; fb2 : R }.
(* coeffs.rs:19-28 *)
Definition f_bandreject (alpha cosi : R) : fcs := mk_fcs (1 + alpha) (-2 * cosi) (1 - alpha) 1 (-2 * cosi) 1.
(* coeffs.rs:30-42; 0.5 / q2inv is infinite when q2inv is 0, and infinite times an alpha of 0 is not a number: None *)
Definition f_bandpass (alpha cosi q2inv : R) : option fcs :=
  if Req_EM_T q2inv 0 then None else
  let quality_factor := 1 / 2 / q2inv in
  Some (mk_fcs (1 + alpha) (-2 * cosi) (1 - alpha) (quality_factor * alpha) 0 (- quality_factor * alpha)).
(* coeffs.rs:44-53 *)
Definition f_lowpass (alpha cosi : R) : fcs := mk_fcs (1 + alpha) (-2 * cosi) (1 - alpha) ((1 - cosi) * (1 / 2)) (1 - cosi) ((1 - cosi) * (1 / 2)).
(* coeffs.rs:55-64 *)
Definition f_highpass (alpha cosi : R) : fcs := mk_fcs (1 + alpha) (-2 * cosi) (1 - alpha) ((1 + cosi) * (1 / 2)) (- (1 + cosi)) ((1 + cosi) * (1 / 2)).
(* coeffs.rs:87-104 *)
Definition f_alpha (sinu cosi q2inv : R) (sub : isub) : R :=
  let x := sinu * q2inv in
  match sub with ISvf => x | _ => Rmin x (sqrt (1 - cosi * cosi) - 1 / 10000) end.

(* reso.rs:3-19, 36-49: the taper above note 58; FloatOrd max = Rmax *)
Definition reso_taper (reso freq : R) : R := reso * Rmax 0 (1 - Rmax 0 ((freq - 58) * (5 / 100))).
Definition reso_curve (reso : R) : R := 1 - (1 - reso) * (1 - reso).
(* reso.rs:3-19 *)
Definition map_2pole (reso freq : R) (sub : isub) : R :=
  match sub with
  | IMedium => 99 / 100 - 1 * limit_range_f32 arithR (reso_curve (reso_taper reso freq)) 0 1
  | IRough => 1 - 105 / 100 * limit_range_f32 arithR (reso_curve (reso_taper reso freq)) (1 / 1000) 1
  | ISmooth => 25 / 10 - 245 / 100 * limit_range_f32 arithR (reso_curve reso) 0 1
  | ISvf => 0
  end.
(* reso.rs:34-50 *)
Definition map_4pole (reso freq : R) (sub : isub) : R :=
  match sub with
  | IMedium => 99 / 100 - 9949 / 10000 * limit_range_f32 arithR (reso_taper reso freq) 0 1
  | IRough => 1 - 105 / 100 * limit_range_f32 arithR (reso_taper reso freq) (1 / 1000) 1
  | _ => 25 / 10 - 23 / 10 * limit_range_f32 arithR reso 0 1
  end.
(* reso.rs:52-60 *)
Definition resoscale (reso : R) (sub : isub) : R :=
  match sub with IMedium => 1 - 75 / 100 * reso * reso | IRough => 1 - 1 / 2 * reso * reso | ISmooth => 1 - 25 / 100 * reso * reso | ISvf => 1 end.
(* surge-math/src/saturate.rs:18-27 boundfreq *)
Definition boundfreq (freq : R) : R :=
  let freq := if Rlt_dec 75 freq then 75 else freq in if Rlt_dec freq (-55) then -55 else freq.

(* lattice.rs: coefficients K1 K2 Q1 Q2 V1 V2 V3 and the clip gain *)
Record lat := mk_lat { k1 : R; k2 : R; q1 : R; q2 : R; v1 : R; v2 : R; v3 : R; lcg : R }.
(* lattice.rs:5-50 to_normalized_lattice *)
Definition to_lattice (f : fcs) (gain clip : R) : lat :=
  let a0inv := 1 / fa0 f in
  let b0 := fb0 f * gain * a0inv in
  let b1 := fb1 f * gain * a0inv in
  let b2 := fb2 f * gain * a0inv in
  let a1 := fa1 f * a0inv in
  let a2 := fa2 f * a0inv in
  let k1 := a1 / (1 + a2) in
  let k2 := a2 in
  let q1 := sqrt (Rabs (1 - k1 * k1)) in
  let q2 := sqrt (Rabs (1 - k2 * k2)) in
  let v3 := b2 in
  let v2 := (b1 - a1 * v3) / q2 in
  let v1 := (b0 - k1 * v2 * q2 - k2 * v3) / (q1 * q2) in
  mk_lat k1 k2 q1 q2 v1 v2 v3 clip.
(* coupled.rs: coefficients ar ai b1 c1 c2 d and the clip gain (coefficient 3 is 0 and never used) *)
Record cpl := mk_cpl { ar : R; ai : R; cb1 : R; c1 : R; c2 : R; cd : R; ccg : R }.
(* coupled.rs:5-60 to_coupled_form; FloatOrd min, max = Rmin, Rmax *)
Definition to_coupled (f : fcs) (gain clip : R) : cpl :=
  let a0inv := 1 / fa0 f in
  let b0 := fb0 f * gain * a0inv in
  let b1 := fb1 f * gain * a0inv in
  let b2 := fb2 f * gain * a0inv in
  let a1 := fa1 f * a0inv in
  let a2 := fa2 f * a0inv in
  let ar := 1 / 2 * - a1 in
  let sq := Rmin 0 (a1 * a1 - 4 * a2) in
  let ai := Rmax (1 / 2 * sqrt (- sq)) (8 * (1192092896 / 10000000000000000)) in
  let bb1 := b1 - a1 * b0 in
  let bb2 := b2 - a2 * b0 in
  mk_cpl ar ai 1 bb1 ((bb1 * ar + bb2) / ai) b0 clip.

(* iir.rs:34-49: the design; the pair returned by note_to_omega is bound to (cosi, sinu) *)
Definition iir_design (ty : ity) (sub : isub) (pole : ipole) (freq reso : R) (omega : R * R) : option fcs :=
  let freq := boundfreq freq in
  let q2inv := match pole with ITwo => map_2pole reso freq sub | IFour => map_4pole reso freq sub end in
  let '(cosi, sinu) := omega in
  let alpha := f_alpha sinu cosi q2inv sub in
  match ty with
  | ILow => Some (f_lowpass alpha cosi)
  | IBand => f_bandpass alpha cosi q2inv
  | IHigh => Some (f_highpass alpha cosi)
  end.
(* iir.rs:30-58 coeff_make: None when a coefficient is not a number *)
Inductive icoef := CLat (c : lat) | CCpl (c : cpl).
Definition iir_coeff (ty : ity) (sub : isub) (pole : ipole) (freq reso : R) (omega : R * R) (clip : R) : option icoef :=
  let gain := resoscale reso sub in
  match iir_design ty sub pole freq reso omega with
  | None => None
  | Some f => Some (match sub with ISmooth => CLat (to_lattice f gain clip) | _ => CCpl (to_coupled f gain clip) end)
  end.
(* bandreject.rs:22-60 BandRejectFilter::coeff_make; the same pattern (cosi, sinu) *)
Definition br_design (rough : bool) (reso : R) (omega : R * R) : fcs :=
  let r := limit_range_f32 arithR (1 - (1 - reso) * (1 - reso)) 0 1 in
  let q2inv := if rough then 1 - 99 / 100 * r else 25 / 10 - 249 / 100 * r in
  let '(cosi, sinu) := omega in f_bandreject (sinu * q2inv) cosi.
Definition br_coeff (rough : bool) (reso : R) (omega : R * R) : lat := to_lattice (br_design rough reso omega) 1 (5 / 1000).

(** ** Processing *)
(* max(0.1, 1 - clipgain * (y * y)): _mm_max_ps *)
Definition clip_reg (cg y : R) : R := smax arithR (1 / 10) (1 - cg * (y * y)).
Record latst := mk_ls { l_c : lat; l_d : lat; l_1 : R; l_2 : R; l_3 : R; l_4 : R; l_clip : R }.
(* one pass through the lattice: the two rotations with coefficients [c] before and [c'] after the glide step; returns f1, g1 and the output *)
Definition lat_pass (c c' : lat) (x s1 s2 : R) : R * R * R :=
  let f2 := q2 c * x - k2 c * s2 in
  let g2 := k2 c' * x + q2 c' * s2 in
  let f1 := q1 c * f2 - k1 c * s1 in
  let g1 := k1 c' * f2 + q1 c' * s1 in
  let y := (v3 c' * g2 + v2 c' * g1) + v1 c' * f1 in
  (f1, g1, y).
(* coeff += dcoeff without the clip gain, and with it *)
Definition lat_add7 (c d : lat) : lat :=
  mk_lat (k1 c + k1 d) (k2 c + k2 d) (q1 c + q1 d) (q2 c + q2 d) (v1 c + v1 d) (v2 c + v2 d) (v3 c + v3 d) (lcg c).
Definition lat_add (c d : lat) : lat :=
  mk_lat (k1 c + k1 d) (k2 c + k2 d) (q1 c + q1 d) (q2 c + q2 d) (v1 c + v1 d) (v2 c + v2 d) (v3 c + v3 d) (lcg c + lcg d).
(* quad_iir_12_a.rs:15-68: all coefficients move on before they are used *)
Definition iir_12_a (st : latst) (x : R) : latst * R :=
  let c := lat_add7 (l_c st) (l_d st) in
  let '(f1, g1, y) := lat_pass c c x (l_1 st) (l_2 st) in
  (mk_ls c (l_d st) f1 g1 (l_3 st) (l_4 st) (l_clip st), y).
(* quad_iir_12_b.rs:16-82: f2 and f1 are computed before K2, Q2 and K1, Q1 move on, g2 and g1 after.  The clip register is l_clip *)
Definition iir_12_b (st : latst) (x : R) : latst * R :=
  let c := lat_add (l_c st) (l_d st) in
  let '(f1, g1, y) := lat_pass (l_c st) c x (l_1 st) (l_2 st) in
  (mk_ls c (l_d st) (f1 * l_clip st) (g1 * l_clip st) (l_3 st) (l_4 st) (clip_reg (lcg c) y), y).
(* quad_iir_24_B.rs:16-117 *)
Definition iir_24_b (st : latst) (x : R) : latst * R :=
  let c := lat_add (l_c st) (l_d st) in
  let '(f1, g1, y1) := lat_pass c c x (l_1 st) (l_2 st) in
  let '(f3, g3, y2) := lat_pass c c y1 (l_3 st) (l_4 st) in
  (mk_ls c (l_d st) (f1 * l_clip st) (g1 * l_clip st) (f3 * l_clip st) (g3 * l_clip st) (clip_reg (lcg c) y2), y2).

Record cplst := mk_cs { p_c : cpl; p_d : cpl; p_1 : R; p_2 : R; p_3 : R; p_4 : R; p_clip : R }.
Definition cpl_add6 (c d : cpl) : cpl := mk_cpl (ar c + ar d) (ai c + ai d) (cb1 c + cb1 d) (c1 c + c1 d) (c2 c + c2 d) (cd c + cd d) (ccg c).
Definition cpl_add (c d : cpl) : cpl := mk_cpl (ar c + ar d) (ai c + ai d) (cb1 c + cb1 d) (c1 c + c1 d) (c2 c + c2 d) (cd c + cd d) (ccg c + ccg d).
Definition cpl_out (c : cpl) (x s1 s2 : R) : R := (c1 c * s1 + cd c * x) + c2 c * s2.
(* the rotation with factors a, b and its input *)
Definition cpl_turn (a b b1 x s1 s2 : R) : R * R := (x * b1 + (a * s1 - b * s2), b * s1 + a * s2).
(* quad_iir_12_CFC.rs:16-72 *)
Definition iir_12_cfc (st : cplst) (x : R) : cplst * R :=
  let c := cpl_add (p_c st) (p_d st) in
  let y := cpl_out c x (p_1 st) (p_2 st) in
  let '(s1, s2) := cpl_turn (ar c) (ai c) (cb1 c) x (p_1 st) (p_2 st) in
  (mk_cs c (p_d st) (s1 * p_clip st) (s2 * p_clip st) (p_3 st) (p_4 st) (clip_reg (ccg c) y), y).
(* quad_iir_24_CFG.rs:16-98 iir_24_cfc_quad *)
Definition iir_24_cfc (st : cplst) (x : R) : cplst * R :=
  let c := cpl_add (p_c st) (p_d st) in
  let y := cpl_out c x (p_1 st) (p_2 st) in
  let '(s1, s2) := cpl_turn (ar c) (ai c) (cb1 c) x (p_1 st) (p_2 st) in
  let y2 := cpl_out c y (p_3 st) (p_4 st) in
  let '(s3, s4) := cpl_turn (ar c) (ai c) (cb1 c) y (p_3 st) (p_4 st) in
  (mk_cs c (p_d st) (s1 * p_clip st) (s2 * p_clip st) (s3 * p_clip st) (s4 * p_clip st) (clip_reg (ccg c) y2), y2).
(* quad_iir_12_CFL.rs:66-84, quad_iir_24_CFL.rs:86-104: the limiter register *)
Definition limit_reg (rsq : R -> R) (mr y : R) : R := mr * (999 / 1000) + rsq (smax arithR 1 (2 * Rabs y)) * (1 / 1000).
(* quad_iir_12_CFL.rs:15-87 *)
Definition iir_12_cfl (rsq : R -> R) (st : cplst) (x : R) : cplst * R :=
  let c := cpl_add6 (p_c st) (p_d st) in
  let y := cpl_out c x (p_1 st) (p_2 st) in
  let '(s1, s2) := cpl_turn (ar c * p_clip st) (ai c * p_clip st) (cb1 c) x (p_1 st) (p_2 st) in
  (mk_cs c (p_d st) s1 s2 (p_3 st) (p_4 st) (limit_reg rsq (p_clip st) y), y).
(* quad_iir_24_CFL.rs:16-107 *)
Definition iir_24_cfl (rsq : R -> R) (st : cplst) (x : R) : cplst * R :=
  let c := cpl_add6 (p_c st) (p_d st) in
  let a := ar c * p_clip st in
  let b := ai c * p_clip st in
  let y := cpl_out c x (p_1 st) (p_2 st) in
  let '(s1, s2) := cpl_turn a b (cb1 c) x (p_1 st) (p_2 st) in
  let y2 := cpl_out c y (p_3 st) (p_4 st) in
  let '(s3, s4) := cpl_turn a b (cb1 c) y (p_3 st) (p_4 st) in
  (mk_cs c (p_d st) s1 s2 s3 s4 (limit_reg rsq (p_clip st) y2), y2).
(* iir_process_quad.rs:34-66: which routine runs; `_ => unreachable!()` panics *)
Inductive iproc := PCfc2 | PB2 | PCfl2 | PCfc4 | PB4 | PCfl4.
Definition iir_dispatch (ty : ity) (sub : isub) (pole : ipole) : res iproc :=
  match sub, pole with
  | IRough, ITwo => Ok PCfc2
  | IRough, IFour => Ok PCfc4
  | ISmooth, ITwo => Ok PB2
  | ISmooth, IFour => Ok PB4
  | IMedium, ITwo => Ok PCfl2
  | IMedium, IFour => Ok PCfl4
  | ISvf, _ => Panic
  end.

(* signals: the state before sample n and the output of sample n *)
Fixpoint sig_state {S} (f : S -> R -> S * R) (s : S) (x : nat -> R) (n : nat) : S :=
  match n with O => s | Datatypes.S k => fst (f (sig_state f s x k) (x k)) end.
Definition sig_out {S} (f : S -> R -> S * R) (s : S) (x : nat -> R) (n : nat) : R := snd (f (sig_state f s x n) (x n)).
