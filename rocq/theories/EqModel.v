(* EqModel.v - surgefx-eq3band: the three-band equaliser. No proofs here.
   Samples, gains and coefficients are exact reals. A block is a list of 32 pairs (the block operations are taken sample by sample, as
   proved in RampProps). [om] is calc_omega of a frequency in octaves from A (the tuner's lookup, total here: the parameters stay inside
   its table), [dbl] the decibel table, [pow2], [sh] as in BiquadModel.design_peak_eq. set_blocksize of a BiquadFilter does nothing. *)
From Coq Require Import Reals.
From Verif Require Import Base Util BlockModel RampProps LagModel BiquadModel ChorusModel.
Local Open Scope R_scope.

(* eq3band.rs:5-19 *)
Record eq3 := mk_eq { e_gain : lipolps R; e_1 : biquad; e_2 : biquad; e_3 : biquad; e_bi : Z }.
(* the parameters, param.rs:5-17: frequency in semitones, bandwidth, gain in dB of each band; the Gain parameter; ReturnLevel *)
Record eqband := mk_band { b_freq : R; b_bw : R; b_gain : R }.
Record eqpar := mk_ep { ep_1 : eqband; ep_2 : eqband; ep_3 : eqband; ep_gain : R; ep_return : R }.
Section Eq.
Context (om dbl pow2 sh : R -> R).
(* update.rs:67-104, one band; `over` is gain_override (band_gain, update.rs:54-65); SCALE = 1/12 *)
Definition eq_tune (over : option R) (b : eqband) (q : biquad) : biquad :=
  set_coef (design_peak_eq dbl pow2 sh (om (b_freq b * (1 / 12))) (b_bw b) (match over with Some g => g | None => b_gain b end)) q.
(* update.rs:24-30 *)
Definition eq_update_all (over : option R) (p : eqpar) (s : eq3) : eq3 :=
  mk_eq (e_gain s) (eq_tune over (ep_1 p) (e_1 s)) (eq_tune over (ep_2 p) (e_2 s)) (eq_tune over (ep_3 p) (e_3 s)) (e_bi s).
(* update.rs:14-22; SLOWRATE_M1 = 7 *)
Definition eq_maybe_update (p : eqpar) (s : eq3) : eq3 :=
  let s := if (e_bi s =? 0)%Z then eq_update_all None p s else s in
  mk_eq (e_gain s) (e_1 s) (e_2 s) (e_3 s) (Z.land (e_bi s + 1) 7).
(* surge-biquad/src/biquad.rs:55-69 by way of surge-traits/src/effect.rs:29-31: suspend is init, which makes the filter new *)
Definition bq_suspend (q : biquad) : biquad := bq_new.
(* init.rs:5-20 with update.rs:32-43 *)
Definition eq_init (p : eqpar) (s : eq3) : eq3 :=
  let s := mk_eq (ps_instantize (ps_set_target (e_gain s) 1)) (e_1 s) (e_2 s) (e_3 s) (e_bi s) in
  let s := eq_update_all (Some 1) p s in
  let s := mk_eq (e_gain s) (coeff_instantize (e_1 s)) (coeff_instantize (e_2 s)) (coeff_instantize (e_3 s)) (e_bi s) in
  mk_eq (e_gain s) (bq_suspend (e_1 s)) (bq_suspend (e_2 s)) (bq_suspend (e_3 s)) 0.
(* init.rs:25-48 *)
Definition eq_new : eq3 := mk_eq (ps_new_with_blocksize arithR 32) bq_new bq_new bq_new 0.
(* eq3band.rs:30: the trait's default, effect.rs:29-31 *)
Definition eq_suspend (p : eqpar) (s : eq3) : eq3 := eq_init p s.
(* process.rs:26-46 *)
Definition eq_bands (s : eq3) (xs : list (R * R)) : eq3 * list (R * R) :=
  let '(q1, y1, _) := process_block_stereo (e_1 s) xs None in
  let '(q2, y2, _) := process_block_stereo (e_2 s) y1 None in
  let '(q3, y3, _) := process_block_stereo (e_3 s) y2 None in
  (mk_eq (e_gain s) q1 q2 q3 (e_bi s), y3).
(* process.rs:48-58 *)
Definition eq_scale (g : lipolps R) (k : Z) (_ y : R * R) : R * R := let m := gain8 arithR g k in (fst y * m, snd y * m).
(* process.rs:5-21, update.rs:45-52 *)
Definition eq_process (p : eqpar) (s : eq3) (xs : list (R * R)) : eq3 * list (R * R) :=
  let (s1, ys) := eq_bands (eq_maybe_update p s) xs in
  let g := ps_set_target_smoothed arithR (e_gain s1) (dbl (ep_gain p)) in
  (mk_eq g (e_1 s1) (e_2 s1) (e_3 s1) (e_bi s1), zip (eq_scale g) ys ys).
(* a history of blocks *)
Fixpoint eq_run (h : list (eqpar * list (R * R))) (s : eq3) : eq3 * list (list (R * R)) :=
  match h with
  | [] => (s, [])
  | (p, xs) :: r => let (s1, ys) := eq_process p s xs in let (s2, yss) := eq_run r s1 in (s2, ys :: yss)
  end.
End Eq.
