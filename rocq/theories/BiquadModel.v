(* BiquadModel.v - model of crate surge-biquad (src/*.rs). No proofs here.
   f64 and f32 arithmetic is exact real arithmetic: rounding, overflow and NaN are not modelled, the
   `as f32` / `as f64` casts are the identity, `PI` is the real pi, and sin, cos, tan, sqrt, atan, sinh,
   powf are the real functions. The tuner / tables / samplerate handles are passed as functions. *)
From Coq Require Import Reals.
From Coquelicot Require Complex.
From Verif Require Import Base LagModel.
Local Open Scope R_scope.

(* biquad.rs:3-16. reg0[0], reg1[0] are the left (or mono) registers, reg0[1], reg1[1] the right ones. *)
Record biquad := mk_bq {
  q_a1 : vlag; q_a2 : vlag; q_b0 : vlag; q_b1 : vlag; q_b2 : vlag;
  q_r0l : R; q_r1l : R; q_r0r : R; q_r1r : R;
  q_first : bool }.

(* biquad.rs:57-69 (init) and 73-92 (new): the same state *)
Definition bq_new : biquad := mk_bq vlag_new vlag_new vlag_new vlag_new vlag_new 0 0 0 0 true.

(* biquad.rs:22-28 coeff_process *)
Definition coeff_process (s : biquad) : biquad :=
  mk_bq (vlag_process (q_a1 s)) (vlag_process (q_a2 s)) (vlag_process (q_b0 s)) (vlag_process (q_b1 s)) (vlag_process (q_b2 s))
        (q_r0l s) (q_r1l s) (q_r0r s) (q_r1r s) (q_first s).
(* biquad.rs:30-37 coeff_instantize *)
Definition coeff_instantize (s : biquad) : biquad :=
  mk_bq (vlag_instantize (q_a1 s)) (vlag_instantize (q_a2 s)) (vlag_instantize (q_b0 s)) (vlag_instantize (q_b1 s)) (vlag_instantize (q_b2 s))
        (q_r0l s) (q_r1l s) (q_r0r s) (q_r1r s) (q_first s).

(* the six arguments of set_coef *)
Record coef6 := mk_c6 { c_a0 : R; c_a1 : R; c_a2 : R; c_b0 : R; c_b1 : R; c_b2 : R }.

(* set_coeffs.rs:29-60 *)
Definition set_coef (c : coef6) (s : biquad) : biquad :=
  let a0inv := 1 / c_a0 c in
  let b0 := c_b0 c * a0inv in let b1 := c_b1 c * a0inv in let b2 := c_b2 c * a0inv in
  let a1 := c_a1 c * a0inv in let a2 := c_a2 c * a0inv in
  let s1 := if q_first s
            then mk_bq (vlag_start_value (q_a1 s) a1) (vlag_start_value (q_a2 s) a2) (vlag_start_value (q_b0 s) b0)
                       (vlag_start_value (q_b1 s) b1) (vlag_start_value (q_b2 s) b2)
                       (q_r0l s) (q_r1l s) (q_r0r s) (q_r1r s) false
            else s in
  mk_bq (vlag_new_value (q_a1 s1) a1) (vlag_new_value (q_a2 s1) a2) (vlag_new_value (q_b0 s1) b0)
        (vlag_new_value (q_b1 s1) b1) (vlag_new_value (q_b2 s1) b2)
        (q_r0l s1) (q_r1l s1) (q_r0r s1) (q_r1r s1) (q_first s1).

(* surge-math/src/limit_range.rs:23-41 *)
Definition limit_range_R (x low high : R) : R := Rmin (Rmax x low) high.

Definition bypass : coef6 := mk_c6 1 0 0 1 0 0.

(* coeff_lp.rs:86-118 *)
Definition design_lp (omega q : R) : coef6 :=
  if Rlt_dec PI omega then mk_c6 1 0 0 1 0 0
  else
    let cosi := cos omega in let sinu := sin omega in
    let alpha := sinu / (2 * q) in
    mk_c6 (1 + alpha) (-2 * cosi) (1 - alpha) ((1 - cosi) * (1 / 2)) (1 - cosi) ((1 - cosi) * (1 / 2)).
(* coeff_lp.rs:130-133 *)
Definition design_lp_bw (omega bandwidth : R) : coef6 := design_lp omega (1 / bandwidth).

(* coeff_hp.rs:104-122 *)
Definition design_hp (omega q : R) : coef6 :=
  if Rlt_dec PI omega then mk_c6 1 0 0 0 0 0
  else
    let cosi := cos omega in let sinu := sin omega in
    let alpha := sinu / (2 * q) in
    mk_c6 (1 + alpha) (-2 * cosi) (1 - alpha) ((1 + cosi) * (1 / 2)) (- (1 + cosi)) ((1 + cosi) * (1 / 2)).
(* coeff_hp.rs:146-149 *)
Definition design_hp_bw (omega bandwidth : R) : coef6 := design_hp omega (1 / bandwidth).

(* coeff_bp.rs:37-49 *)
Definition design_bp (omega quality_factor : R) : coef6 :=
  let cosi := cos omega in let sinu := sin omega in
  let alpha := sinu / (2 * quality_factor) in
  mk_c6 (1 + alpha) (-2 * cosi) (1 - alpha) alpha 0 (- alpha).

(* coeff_bp2a.rs:29-42 *)
Definition design_bp2a (omega bandwidth : R) : coef6 :=
  let cosi := cos omega in let sinu := sin omega in
  let q := 1 / (2 / 100 + 30 * bandwidth * bandwidth) in
  let alpha := sinu / (2 * q) in
  mk_c6 (1 + alpha) (-2 * cosi) (1 - alpha) alpha 0 (- alpha).

(* coeff_pka.rs:34-48 *)
Definition design_pka (omega qq : R) : coef6 :=
  let cosi := cos omega in let sinu := sin omega in
  let reso := limit_range_R qq 0 1 in
  let q := 1 / 10 + 10 * reso * reso in
  let alpha := sinu / (2 * q) in
  mk_c6 (1 + alpha) (-2 * cosi) (1 - alpha) (q * alpha) 0 (- q * alpha).

(* coeff_apf.rs:48-75 *)
Definition design_apf (omega quality_factor : R) : coef6 :=
  if Rlt_dec omega 0 then bypass
  else if Rlt_dec PI omega then bypass
  else
    let cosi := cos omega in let sinu := sin omega in
    let alpha := sinu / (2 * quality_factor) in
    mk_c6 (1 + alpha) (-2 * cosi) (1 - alpha) (1 - alpha) (-2 * cosi) (1 + alpha).

(* coeff_lph.rs:75-130: the third argument is ignored *)
Definition design_lph_morph (omega quality_factor _morph : R) : coef6 :=
  let cosi := cos omega in let sinu := sin omega in
  let alpha := sinu / (2 * quality_factor) in
  mk_c6 (1 + alpha) (-2 * cosi) (1 - alpha) alpha 0 (- alpha).

(* coeff_notch.rs:109-192 *)
Definition design_notch (omega qq : R) : coef6 :=
  if Rlt_dec PI omega then mk_c6 1 0 0 1 0 0
  else
    let cosi := cos omega in let sinu := sin omega in
    let reso := limit_range_R qq 0 1 in
    let q := 1 / (2 / 100 + 30 * reso * reso) in
    let alpha := sinu / (2 * q) in
    mk_c6 (1 + alpha) (-2 * cosi) (1 - alpha) 1 (-2 * cosi) 1.

(* coeff_lp2b.rs:117-132: the gain at half the sample rate *)
Definition lp2b_g1 (omega quality_factor : R) : R :=
  let w_sq := omega * omega in
  let den := w_sq * w_sq + PI * PI * PI * PI + w_sq * (PI * PI) * (1 / quality_factor - 2) in
  Rmin 1 (sqrt (w_sq * w_sq / den) * (1 / 2)).
(* coeff_lp2b.rs:92-154 *)
Definition design_lp2b (omega quality_factor : R) : coef6 :=
  if Rlt_dec PI omega then mk_c6 1 0 0 1 0 0
  else
    let g1 := lp2b_g1 omega quality_factor in
    let cosi := cos omega in let sinu := sin omega in
    let alpha := sinu / (2 * quality_factor) in
    let a := 2 * sqrt g1 * sqrt (2 - g1) in
    mk_c6 (1 + alpha) (-2 * cosi) (1 - alpha)
          ((1 - cosi + g1 * (1 + cosi) + a * sinu) * (1 / 2))
          (1 - cosi - g1 * (1 + cosi))
          ((1 - cosi + g1 * (1 + cosi) - a * sinu) * (1 / 2)).

(* coeff_peak_eq.rs:31-169. [db_to_linear] is the table lookup of surge-tables, [pow2] is 2.powf,
   [sinh_] is sinh, log10 2 is written ln 2 / ln 10. *)
Definition design_peak_eq (db_to_linear pow2 sinh_ : R -> R) (omega bandwidth gain : R) : coef6 :=
  let g := db_to_linear gain in
  let gb := db_to_linear (gain * (1 / 2)) in
  let g0 := 1 in
  let w0 := omega in
  let bandwidth := Rmax (1 / 10000) bandwidth in
  let dww := 2 * w0 * sinh_ (ln 2 / ln 10 / 2 * bandwidth) in
  if Rlt_dec (1 / 100000) (Rabs (g - g0)) then
    let gg_minus_gbgb := Rabs (g * g - gb * gb) in
    let g00 := Rabs (g * g - g0 * g0) in
    let f00 := Rabs (gb * gb - g0 * g0) in
    let sq x := x * x in
    let num := g0 * g0 * sq (w0 * w0 - PI * PI) + g * g * f00 * (PI * PI) * dww * dww / gg_minus_gbgb in
    let den := sq (w0 * w0 - PI * PI) + f00 * PI * PI * dww * dww / gg_minus_gbgb in
    let g1 := sqrt (num / den) in
    let hi := if Rlt_dec PI omega then true else false in
    let g := if hi then g1 * (9999 / 10000) else g in
    let w0 := if hi then PI - 1 / 100000 else w0 in
    let g00 := if hi then Rabs (g * g - g0 * g0) else g00 in
    let gg := g * g in
    let gbgb := gb * gb in
    let g01 := Rabs (gg - g0 * g1) in
    let g11 := Rabs (gg - g1 * g1) in
    let f01 := Rabs (gbgb - g0 * g1) in
    let f11 := Rabs (gbgb - g1 * g1) in
    let w2 := sqrt (g11 / g00) * sq (tan (w0 / 2)) in
    let w_lower := w0 * pow2 (- (1 / 2) * bandwidth) in
    let w_upper := 2 * atan (sqrt (f00 / f11) * sqrt (g11 / g00) * sq (tan (w0 / 2)) / tan (w_lower / 2)) in
    let dw := (1 + sqrt (f00 / f11) * w2) * tan (Rabs (w_upper - w_lower) / 2) in
    let c := f11 * dw * dw - 2 * w2 * (f01 - sqrt (f00 * f11)) in
    let d := 2 * w2 * (g01 - sqrt (g00 * g11)) in
    let rt := sqrt ((c + d) / gg_minus_gbgb) in
    let b := sqrt ((gg * c + gbgb * d) / gg_minus_gbgb) in
    mk_c6 (1 + w2 + rt) (-2 * (1 - w2)) (1 + w2 - rt) (g1 + g0 * w2 + b) (-2 * (g1 - g0 * w2)) (g1 - b + g0 * w2)
  else mk_c6 1 0 0 1 0 0.

(* calc.rs:37-42; [n2p] is the tuner's note-to-pitch, [srinv] the inverse sample rate *)
Definition calc_omega (n2p : R -> R) (srinv scfreq : R) : R := 2 * PI * 440 * n2p (12 * scfreq) * srinv.
(* calc.rs:49-52 *)
Definition calc_omega_from_hertz (srinv hertz : R) : R := 2 * PI * hertz * srinv.
(* calc.rs:58-60 *)
Definition calc_v1_q (reso : R) : R := 1 / (102 / 100 - limit_range_R reso 0 1).

(* the coefficients in effect: v[0] of each lag *)
Record coef5 := mk_c5 { k_a1 : R; k_a2 : R; k_b0 : R; k_b1 : R; k_b2 : R }.
Definition coefs (s : biquad) : coef5 :=
  mk_c5 (vl_v (q_a1 s)) (vl_v (q_a2 s)) (vl_v (q_b0 s)) (vl_v (q_b1 s)) (vl_v (q_b2 s)).

(* The five-line step on one channel that every processing function repeats (e.g. process_sample.rs:52-75):
   new reg0, new reg1, output *)
Definition chan_step (k : coef5) (input r0 r1 : R) : R * R * R :=
  let op := input * k_b0 k + r0 in
  let r0' := input * k_b1 k - k_a1 k * op + r1 in
  let r1' := input * k_b2 k - k_a2 k * op in
  (r0', r1', op).

Definition set_left (s : biquad) (r0 r1 : R) : biquad :=
  mk_bq (q_a1 s) (q_a2 s) (q_b0 s) (q_b1 s) (q_b2 s) r0 r1 (q_r0r s) (q_r1r s) (q_first s).
Definition set_right (s : biquad) (r0 r1 : R) : biquad :=
  mk_bq (q_a1 s) (q_a2 s) (q_b0 s) (q_b1 s) (q_b2 s) (q_r0l s) (q_r1l s) r0 r1 (q_first s).

Definition step_left (s : biquad) (input : R) : biquad * R :=
  let '(r0, r1, op) := chan_step (coefs s) input (q_r0l s) (q_r1l s) in (set_left s r0 r1, op).
Definition step_right (s : biquad) (input : R) : biquad * R :=
  let '(r0, r1, op) := chan_step (coefs s) input (q_r0r s) (q_r1r s) in (set_right s r0 r1, op).

(* process_sample.rs:19-78 *)
Definition process_sample (s : biquad) (input : R) : biquad * R := step_left (coeff_process s) input.
(* process_sample_nolag.rs:44-113: the result (l, r) replaces the arguments *)
Definition process_sample_nolag (s : biquad) (l r : R) : biquad * (R * R) :=
  let (s1, ol) := step_left s l in let (s2, or) := step_right s1 r in (s2, (ol, or)).
(* process_sample_stereo.rs:30-97 *)
Definition process_sample_stereo (s : biquad) (l r : R) : biquad * (R * R) :=
  let (s1, ol) := step_left (coeff_process s) l in let (s2, or) := step_right s1 r in (s2, (ol, or)).
(* process_sample_stereo_nolag.rs:44-120: as nolag, but the outputs go to l_out, r_out *)
Definition process_sample_stereo_nolag (s : biquad) (l r : R) : biquad * (R * R) :=
  let (s1, ol) := step_left s l in let (s2, or) := step_right s1 r in (s2, (ol, or)).
(* process_sample_nolag_noinput.rs:59-131 *)
Definition process_sample_nolag_noinput (s : biquad) : biquad * (R * R) :=
  let k := coefs s in
  let ol := q_r0l s in
  let s1 := set_left s (- k_a1 k * ol + q_r1l s) (- k_a2 k * ol) in
  let or := q_r0r s in
  let s2 := set_right s1 (- k_a1 k * or + q_r1r s) (- k_a2 k * or) in
  (s2, (ol, or)).

(* surge-math/src/flops.rs:3-7 *)
Definition flush_denormal (d : R) : R := if Rlt_dec (Rabs d) (1 / 10 ^ 30) then 0 else d.
Definition flush_left (s : biquad) : biquad := set_left s (flush_denormal (q_r0l s)) (flush_denormal (q_r1l s)).
Definition flush_right (s : biquad) : biquad := set_right s (flush_denormal (q_r0r s)) (flush_denormal (q_r1r s)).

(* the loop of process_mono.rs:54-105 on the values of the block in order *)
Fixpoint mono_loop (s : biquad) (data : list R) : biquad * list R :=
  match data with
  | [] => (s, [])
  | x :: r => let (s1, o) := step_left (coeff_process s) x in
              let (s2, os) := mono_loop s1 r in (s2, o :: os)
  end.
(* process_mono.rs:40-114: [data] is the 32 values at the pointer; with out = Some the outputs are written
   there and data is left alone, with None they replace data. Result: state, data, contents of out. *)
Definition process_block_mono (s : biquad) (data : list R) (out : option (list R)) : biquad * list R * option (list R) :=
  let (s1, os) := mono_loop s data in
  let s2 := flush_left s1 in
  match out with Some _ => (s2, data, Some os) | None => (s2, os, None) end.

(* the loop of process_stereo.rs:126-185 *)
Fixpoint stereo_loop (s : biquad) (data : list (R * R)) : biquad * list (R * R) :=
  match data with
  | [] => (s, [])
  | (l, r) :: rest =>
      let (s1, ol) := step_left (coeff_process s) l in
      let (s2, or) := step_right s1 r in
      let (s3, os) := stereo_loop s2 rest in (s3, (ol, or) :: os)
  end.
(* process_stereo.rs:113-192 *)
Definition process_block_stereo (s : biquad) (data : list (R * R)) (out : option (list (R * R)))
  : biquad * list (R * R) * option (list (R * R)) :=
  let (s1, os) := stereo_loop s data in
  let s2 := flush_right (flush_left s1) in
  match out with Some _ => (s2, data, Some os) | None => (s2, os, None) end.

(* the loop of process_slowlag.rs:61-140 *)
Fixpoint slow_loop (s : biquad) (data : list (R * R)) : biquad * list (R * R) :=
  match data with
  | [] => (s, [])
  | (l, r) :: rest =>
      let (s1, ol) := step_left s l in
      let (s2, or) := step_right s1 r in
      let (s3, os) := slow_loop s2 rest in (s3, (ol, or) :: os)
  end.
(* process_slowlag.rs:45-151: the coefficients move once per block *)
Definition process_block_slowlag (s : biquad) (data : list (R * R)) : biquad * list (R * R) :=
  let (s1, os) := slow_loop (coeff_process s) data in (flush_right (flush_left s1), os).

(* plot_magnitude.rs:8-53. Complex64 is a pair of reals; exp of the purely imaginary -2 pi freq i is
   (cos, sin) of that angle; to_polar().0 is the modulus. *)
Definition zfreq (freq : R) : Complex.C := (cos (-2 * PI * freq), sin (-2 * PI * freq)).
Definition transfer (k : coef5) (z : Complex.C) : Complex.C :=
  Complex.Cdiv
    (Complex.Cplus (Complex.Cplus (Complex.RtoC (k_b0 k)) (Complex.Cmult (Complex.RtoC (k_b1 k)) z))
                   (Complex.Cmult (Complex.Cmult (Complex.RtoC (k_b2 k)) z) z))
    (Complex.Cplus (Complex.Cplus (Complex.RtoC 1) (Complex.Cmult (Complex.RtoC (k_a1 k)) z))
                   (Complex.Cmult (Complex.Cmult (Complex.RtoC (k_a2 k)) z) z)).
Definition plot_magnitude (s : biquad) (freq : R) : R := Complex.Cmod (transfer (coefs s) (zfreq freq)).
