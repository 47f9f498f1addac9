(* PhaserModel.v - crate surgefx-phaser. No proofs here.
   Samples, coefficients and the LFO are exact reals (f32/f64 rounding is not modelled; in particular the right channel's Q, which
   update.rs:44-46 computes in f32, equals the left one's). The tuner's note-to-pitch lookup is an argument that may panic; the value
   envelope_rate_linear(-LFORate) * temposync ratio is the argument [rate]. *)
From Coq Require Import Reals.
From Verif Require Import Base Util LagModel BiquadModel BlockModel RampProps.
Local Open Scope R_scope.

(* phaser.rs:5-26; biquad[0..3] and biquad[4..7] are the left and the right chain *)
Record phaser := mk_ph { ph_l : list biquad; ph_r : list biquad; ph_fb : lipol; ph_dl : R; ph_dr : R; ph_phase : R; ph_bi : Z; ph_mix : lipolps R }.
(* the values of the parameters during a block, param.rs:4-13 *)
Record phpar := mk_pp { pp_base : R; pp_fb : R; pp_q : R; pp_rate : R; pp_depth : R; pp_stereo : R; pp_mix : R }.

(* constants.rs:4-16 *)
Definition PH_FREQ : list R := [15 / 10 / 12; 195 / 10 / 12; 35 / 12; 50 / 12].
Definition PH_PAN : list R := [2; 15 / 10; 1; 5 / 10].
(* update.rs:13-15, 22-24 *)
Definition ph_wrap (p : R) : R := if Rlt_dec 1 p then p - 1 else p.
(* update.rs:26-27 *)
Definition ph_lfo (p : R) : R := 1 - Rabs (2 - 4 * p).
(* update.rs:31-36 with surge-biquad/src/calc.rs:37-42 *)
Definition ph_omega (n2p : R -> res R) (srinv : R) (p : phpar) (lfo freq pan : R) : res R :=
  let x := 2 * pp_base p + freq + pan * lfo * pp_depth p in
  obind (n2p (12 * x)) (fun v => Ok (calc_omega (fun _ => v) srinv x)).
(* update.rs:29-47, one chain *)
Fixpoint ph_tune (n2p : R -> res R) (srinv : R) (p : phpar) (lfo : R) (fs ps : list R) (bs : list biquad) : res (list biquad) :=
  match fs, ps, bs with
  | f :: fs', a :: ps', b :: bs' =>
      obind (ph_omega n2p srinv p lfo f a) (fun om =>
      obind (ph_tune n2p srinv p lfo fs' ps' bs') (fun r => Ok (set_coef (design_apf om (1 + 8 / 10 * pp_q p)) b :: r)))
  | _, _, _ => Ok []
  end.
(* update.rs:5-51; SLOWRATE = 8 *)
Definition ph_update (n2p : R -> res R) (srinv : R) (p : phpar) (s : phaser) : res phaser :=
  let ph := ph_wrap (ph_phase s + 8 * pp_rate p) in
  let phr := ph_wrap (ph + 1 / 2 * pp_stereo p) in
  obind (ph_tune n2p srinv p (ph_lfo ph) PH_FREQ PH_PAN (ph_l s)) (fun l =>
  obind (ph_tune n2p srinv p (ph_lfo phr) PH_FREQ PH_PAN (ph_r s)) (fun r =>
  Ok (mk_ph l r (lipol_new_value (ph_fb s) (95 / 100 * pp_fb p)) (ph_dl s) (ph_dr s) ph (ph_bi s) (ph_mix s)))).

(* block.rs:18-25: the four sections in series *)
Fixpoint chain (bs : list biquad) (x : R) : list biquad * R :=
  match bs with
  | [] => ([], x)
  | b :: r => let (b', y) := process_sample b x in let (r', z) := chain r y in (b' :: r', z)
  end.
(* block.rs:12-25, one channel: v the feedback, d the previous output *)
Definition ph_channel (v : R) (bs : list biquad) (d x : R) : list biquad * R := chain bs (limit_range_R (x + d * v) (-32) 32).
(* block.rs:5-29 *)
Definition ph_sample (s : phaser) (x : R * R) : phaser * (R * R) :=
  let fb := lipol_process (ph_fb s) in
  let (l, yl) := ph_channel (p_v fb) (ph_l s) (ph_dl s) (fst x) in
  let (r, yr) := ph_channel (p_v fb) (ph_r s) (ph_dr s) (snd x) in
  (mk_ph l r fb yl yr (ph_phase s) (ph_bi s) (ph_mix s), (yl, yr)).
Fixpoint ph_samples (s : phaser) (xs : list (R * R)) : phaser * list (R * R) :=
  match xs with
  | [] => (s, [])
  | x :: r => let (s1, y) := ph_sample s x in let (s2, ys) := ph_samples s1 r in (s2, y :: ys)
  end.
(* process.rs:30-39 fade_2_blocks_to: sample i is dry (1 - g) + wet g, where g is the mix's value at sample i (RampProps: blocks_use_gain8) *)
Definition ph_fade (m : lipolps R) (i : Z) (x y : R * R) : R * R :=
  let g := gain8 arithR m i in (fst x * (1 - g) + fst y * g, snd x * (1 - g) + snd y * g).
Fixpoint ph_fades (m : lipolps R) (i : Z) (xs ys : list (R * R)) : list (R * R) :=
  match xs, ys with x :: xs', y :: ys' => ph_fade m i x y :: ph_fades m (i + 1) xs' ys' | _, _ => [] end.
(* process.rs:5-42 *)
Definition ph_process (n2p : R -> res R) (srinv : R) (p : phpar) (s : phaser) (xs : list (R * R)) : res (phaser * list (R * R)) :=
  obind (if (ph_bi s =? 0)%Z then ph_update n2p srinv p s else Ok s) (fun s1 =>
  let s2 := mk_ph (ph_l s1) (ph_r s1) (ph_fb s1) (ph_dl s1) (ph_dr s1) (ph_phase s1) (Z.land (ph_bi s1 + 1) 7) (ph_mix s1) in
  let (s3, ys) := ph_samples s2 xs in
  let m := ps_set_target_smoothed arithR (ph_mix s3) (limit_range_R (pp_mix p) 0 1) in
  Ok (mk_ph (ph_l s3) (ph_r s3) (ph_fb s3) (ph_dl s3) (ph_dr s3) (ph_phase s3) (ph_bi s3) m, ph_fades m 0 xs ys)).
(* process.rs:45-69 *)
Definition ph_only_control (p : phpar) (s : phaser) : phaser :=
  mk_ph (ph_l s) (ph_r s) (ph_fb s) (ph_dl s) (ph_dr s) (ph_wrap (ph_phase s + 8 * pp_rate p)) (ph_bi s) (ph_mix s).
(* init.rs:37-59 then 5-21; suspend of a biquad is its init (surge-traits/src/effect.rs:29-31); the feedback ramp is BLOCK_SIZE * SLOWRATE long *)
Definition ph_init : phaser :=
  mk_ph (repeat bq_new 4) (repeat bq_new 4) (lipol_new 256) 0 0 (1 / 4) 0
    (ps_instantize (ps_set_target (ps_new_with_blocksize arithR 32) 1)).
(* a history of blocks *)
Fixpoint ph_run (n2p : R -> res R) (srinv : R) (s : phaser) (h : list (phpar * list (R * R))) : res (phaser * list (list (R * R))) :=
  match h with
  | [] => Ok (s, [])
  | (p, xs) :: r => obind (ph_process n2p srinv p s xs) (fun '(s1, ys) => obind (ph_run n2p srinv s1 r) (fun '(s2, yss) => Ok (s2, ys :: yss)))
  end.
