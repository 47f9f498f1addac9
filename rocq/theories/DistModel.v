(** Distortion effect (surgefx-distortion).

    Conventions.
    - Samples are exact reals.  The waveshaper (tables.lookup_waveshape of the selected curve) is an
      arbitrary function [shape]; the two smoothed gains are given by the sequence of factors the ramp
      applies within the block (surge-lipol, BlockModel.v), lists of 32.
    - A block has N = 32 samples per channel (process.rs:17 asserts it).  wetblock has 128 entries per
      channel; it is written through pointers at s + 4k < 128.
    - The peaking bands before and after (process.rs:54-65, 119-130) are biquads (BiquadModel.v) on the
      same buffers and are not repeated here.
    Definitions only; theorems in DistProps.v. *)
From Coq Require Import Reals.
From Verif Require Import Base LagModel BiquadModel QfModel HalfModel.
From Verif Require Import Util.
Local Open Scope R_scope.

(** distortion.rs:6-24: the fields used here *)
Record dist := mk_dist { d_left : R; d_right : R; d_lp1 : biquad; d_lp2 : biquad; d_hr_a : half; d_hr_b : half }.

(** block.rs:5-10 *)
Definition denormalizer (k : Z) : R := if (Z.land k 16 =? 0)%Z then - (1 / 10 ^ 8) else 1 / 10 ^ 8.

(** block.rs:50-64: one of the four passes over input sample k; gives the value stored in wetblock *)
Definition pass (shape : R -> R) (feedback a l_in r_in : R) (d : dist) : dist * (R * R) :=
  let lf := l_in + feedback * d_left d in
  let rt := r_in + feedback * d_right d in
  let '(lp1, (lf, rt)) := process_sample_nolag (d_lp1 d) lf rt in
  let lf := shape lf in
  let rt := shape rt in
  let lf := lf + a in
  let rt := rt + a in
  let '(lp2, (lf, rt)) := process_sample_nolag (d_lp2 d) lf rt in
  (mk_dist lf rt lp1 lp2 (d_hr_a d) (d_hr_b d), (lf, rt)).
Fixpoint passes (shape : R -> R) (feedback a l_in r_in : R) (n : nat) (d : dist) : dist * list (R * R) :=
  match n with
  | O => (d, [])
  | Datatypes.S n' => let '(d1, y) := pass shape feedback a l_in r_in d in
                      let '(d2, ys) := passes shape feedback a l_in r_in n' d1 in (d2, y :: ys)
  end.
(** block.rs:36-66 for sample k, DISTORTION_OS = 4 passes; process.rs:80-97 for all samples.  The values
    are stored at s + (k << 2), i.e. in this order. *)
Fixpoint process_blocks (shape : R -> R) (feedback : R) (k : Z) (xs : list (R * R)) (d : dist) : dist * list (R * R) :=
  match xs with
  | [] => (d, [])
  | (l, r) :: rest => let '(d1, ys) := passes shape feedback (denormalizer k) l r 4 d in
                      let '(d2, zs) := process_blocks shape feedback (k + 1) rest d1 in (d2, ys ++ zs)
  end.

(** multiply_2_blocks / multiply_2_blocks_to with the ramp's factors (process.rs:67-78, 132-145) *)
Definition scale (g xs : list R) : list R := map (fun '(a, b) => a * b) (combine xs g).

(** process.rs:99-117 writes hr_a's 64 samples and then hr_b's 32 through the pointers to the block's 32
    entries.  The result: the block's 32 entries, and what was written behind them. *)
Definition process_halfrate (d : dist) (wl wr : list R) : res (dist * (list R * list R) * (list R * list R)) :=
  obind (downsample_by_two (d_hr_a d) wl wr) (fun '(ha, al, ar) =>
  obind (downsample_by_two (d_hr_b d) (firstn 64 wl) (firstn 64 wr)) (fun '(hb, bl, br) =>
  let put (a b : list R) := b ++ skipn (length b) a in
  let dl := put al bl in let dr := put ar br in
  Ok (mk_dist (d_left d) (d_right d) (d_lp1 d) (d_lp2 d) ha hb, (firstn 32 dl, firstn 32 dr), (skipn 32 dl, skipn 32 dr)))).

(** process.rs:9-48 between the two bands: drive, oversampled shaping, half-rate filters, output gain.
    Result: state, block, and the samples written behind the block. *)
Definition dist_core (shape : R -> R) (feedback : R) (drive outgain : list R) (d : dist) (l r : list R)
  : res (dist * (list R * list R) * (list R * list R)) :=
  let xs := combine (scale drive l) (scale drive r) in
  let '(d1, wet) := process_blocks shape feedback 0 xs d in
  let wl := map fst wet in let wr := map snd wet in
  obind (process_halfrate d1 wl wr) (fun '(d2, _, over) =>
  Ok (d2, (scale outgain (firstn 32 wl), scale outgain (firstn 32 wr)), over)).

(** get.rs:5-14; [count] is WaveshapeType::count() *)
Definition get_waveshape_idx (count ws : Z) : res Z :=
  let ws := if (count <=? ws)%Z then 0%Z else ws in
  if (ws <? 0)%Z then Panic else Ok ws.
