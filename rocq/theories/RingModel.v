(** Ring modulator effect (surgefx-ringmod) and the waveform shapes of the sine oscillator it uses for its
    carrier (surgeosc-sine/src/compute.rs).

    Conventions.
    - Samples, phases and parameters are exact reals; PI_32 is the real pi.  FloatOrd's total order on the
      (non-NaN) parameters is the order of the reals.
    - The arrays phase, detune_offset, pan_l, pan_r (RINGMOD_MAX_UNISON = 16 entries) are lists; indexing
      beyond them panics.
    - [dphase] (one increment per voice, computed from the tuning tables, process.rs:52-72) is an argument.
    - The low- and high-cut biquads after the core (process.rs:176-197) are modelled in BiquadModel.v and
      not repeated here.
    Definitions only; theorems in RingProps.v. *)
From Coq Require Import Reals.
From Verif Require Import Base Util MathModel QfModel HalfModel.
Local Open Scope R_scope.

(** diode_sim.rs:5-30; the max of lines 12 is FloatOrd's *)
Definition diode_sim (forward_bias linear_region v : R) : R :=
  let lin := Rmax linear_region (forward_bias + 2 / 100) in
  if Rlt_dec v forward_bias then 0
  else if Rlt_dec v lin then let vvb := v - forward_bias in 1 * vvb * vvb / (2 * lin - 2 * forward_bias)
  else let vlvb := lin - forward_bias in 1 * v - 1 * lin + 1 * vlvb * vlvb / (2 * lin - 2 * forward_bias).

(** surgeosc-sine/src/compute.rs:5-76 *)
Definition quadrant (s c : R) : Z :=
  if Rlt_dec 0 s then (if Rlt_dec 0 c then 1 else 2)%Z else (if Rlt_dec 0 c then 4 else 3)%Z.
Definition sine_shape (s c : R) (shape : Z) : R :=
  let q := quadrant s c in
  match shape with
  | 1%Z => 2 * (if (q =? 3)%Z || (q =? 4)%Z then 0 else s) - 1
  | 2%Z => if (q =? 1)%Z || (q =? 3)%Z then 0 else s
  | 3%Z => if (q =? 2)%Z || (q =? 4)%Z then 0 else s
  | 4%Z => match q with 1%Z => 1 - c | 2%Z => 1 + c | 3%Z => -1 - c | _ => -1 + c end
  | 5%Z => 2 * (match q with 1%Z => 1 - c | 2%Z => 1 + c | _ => 0 end) - 1
  | 6%Z => if (q <=? 2)%Z then 2 * s * c else 0
  | 7%Z => if (q =? 2)%Z || (q =? 3)%Z then - (2 * s * c) else 2 * s * c
  | 8%Z => if (q =? 2)%Z || (q =? 4)%Z then 0 else if (q =? 3)%Z then - (2 * s * c) else 2 * s * c
  | _ => s
  end.

(** the carrier's value at a phase, process.rs:88-92 *)
Definition carrier (shape : Z) (phase : R) : R :=
  sine_shape (fastsin (2 * PI * (phase - 1 / 2))) (fastcos (2 * PI * (phase - 1 / 2))) shape.

(** process.rs:94-99: advancing one voice's phase *)
Definition advance (phase dphase : R) : R :=
  let p := phase + dphase in if Rlt_dec 1 p then p - p else p.

(** process.rs:114-122: the diode ring for one input and one carrier value *)
Definition ring (fb lin vin vc : R) : R :=
  let a := 1 / 2 * vin + vc in
  let b := vc - 1 / 2 * vin in
  diode_sim fb lin a + diode_sim fb lin (- a) - diode_sim fb lin b - diode_sim fb lin (- b).

(** update.rs:4-28 *)
Record unison := mk_uni { u_phase : list R; u_detune : list R; u_pan_l : list R; u_pan_r : list R }.
Definition RINGMOD_MAX_UNISON : Z := 16.
Definition uni_new : unison := let z := repeat 0 (Z.to_nat RINGMOD_MAX_UNISON) in mk_uni z z z z.
Definition uni_set (s : unison) (u : Z) (ph de pl pr : R) : res unison :=
  obind (zset (u_phase s) u ph) (fun a => obind (zset (u_detune s) u de) (fun b =>
  obind (zset (u_pan_l s) u pl) (fun c => obind (zset (u_pan_r s) u pr) (fun d => Ok (mk_uni a b c d))))).
Definition update_unison_settings (uni : Z) (s : unison) : res unison :=
  if (uni =? 1)%Z then uni_set s 0 0 0 1 1
  else let detune_bias := 2 / (IZR uni - 1) in
    foldM (fun s u => uni_set s u (IZR u * 1 / IZR uni) (-1 + detune_bias * IZR u) (IZR u / (IZR uni - 1)) ((IZR uni - 1 - IZR u) / (IZR uni - 1)))
          (map Z.of_nat (seq 0 (Z.to_nat uni))) s.

(** process.rs:24-36: voices used and the gain scale *)
Definition voices_of (unison_param : Z) : Z := Z.max 1 unison_param.
Definition gscale (uni : Z) : R := 4 / 10 + 6 / 10 * (1 / sqrt (IZR uni)).

(** one voice of the loop: phase, its increment, pans *)
Record rvoice := mk_rv { rv_phase : R; rv_dphase : R; rv_pan_l : R; rv_pan_r : R }.
(** process.rs:85-132: one oversampled sample through all voices; the two channels c = 0, 1 are both added
    into both sums *)
Definition voice_step (shape : Z) (fb lin l r : R) (acc : list rvoice * (R * R)) (v : rvoice) : list rvoice * (R * R) :=
  let '(vs, (res_l, res_r)) := acc in
  let vc := carrier shape (rv_phase v) in
  let v' := mk_rv (advance (rv_phase v) (rv_dphase v)) (rv_dphase v) (rv_pan_l v) (rv_pan_r v) in
  let r0 := ring fb lin l vc in
  let r1 := ring fb lin r vc in
  (vs ++ [v'], (res_l + r0 * rv_pan_l v + r1 * rv_pan_l v, res_r + r0 * rv_pan_r v + r1 * rv_pan_r v)).
(** process.rs:143-147 *)
Definition shape_out (x : R) : R := 15 / 10 * x - 5 / 10 * x * x * x.
(** process.rs:79-160 for one sample *)
Definition ring_sample (shape : Z) (fb lin mix g : R) (vs : list rvoice) (x : R * R) : list rvoice * (R * R) :=
  let '(l, r) := x in
  let '(vs', (res_l, res_r)) := fold_left (voice_step shape fb lin l r) vs ([], (0, 0)) in
  (vs', (shape_out (g * (mix * res_l + (1 - mix) * l)), shape_out (g * (mix * res_r + (1 - mix) * r)))).
Fixpoint ring_samples (shape : Z) (fb lin mix g : R) (vs : list rvoice) (xs : list (R * R)) : list rvoice * list (R * R) :=
  match xs with
  | [] => (vs, [])
  | x :: rest => let '(vs1, y) := ring_sample shape fb lin mix g vs x in
                 let '(vs2, ys) := ring_samples shape fb lin mix g vs1 rest in (vs2, y :: ys)
  end.
(** process.rs:38-49, 74-175: up-sample, ring, down-sample, first N samples back *)
Definition ring_core (shape : Z) (fb lin mix g : R) (h_in h_out : half) (vs : list rvoice) (l r : list R) : res (half * half * list rvoice * (list R * list R)) :=
  obind (upsample_by_two h_in l r) (fun '(h_in', ol, orr) =>
  let '(vs', ys) := ring_samples shape fb lin mix g vs (combine ol orr) in
  obind (downsample_by_two h_out (map fst ys) (map snd ys)) (fun '(h_out', dl, dr) =>
  Ok (h_in', h_out', vs', (firstn (length l) dl, firstn (length r) dr)))).
