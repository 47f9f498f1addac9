(** Flanger effect (surgefx-flanger): interpolating delay lines, comb weights, LFOs, feedback clipper, one block.

    Conventions.
    - Samples, phases and ramps are exact reals.  `line` (8192 samples) and `sin_lfo_table` (8192) are bounds-checked.
    - Random draws ([rnd], one per comb) and the tuner's inverse pitch ([pinv] = n2pinv::<f32,false>) are arguments, as is the
      value [rate] = envelope_rate_linear(-Rate) * temposyncratio.
    - The two channels have equal code; a channel is a record and the shared ramps are kept once.
    - The four combs of a channel are a list of length four; `combs`, `vweights` are scratch values of one block.
    Definitions only; theorems in FlangerProps.v. *)
From Coq Require Import Reals.
From Verif Require Import Base Util MathModel ParamModel AdsrModel LfoModel LagModel BiquadModel.
Local Open Scope R_scope.

(** constants.rs:1-8; FLANGER_ONE_OVER_F0 = 1 / 8.175798915 *)
Definition FL_SIZE : Z := 8192.
Definition FL_MASK : Z := FL_SIZE - 1.
Definition FL_TABLE : Z := 8192.
Definition FL_TABLE_MASK : Z := FL_TABLE - 1.
Definition FL_COMBS : Z := 4.
Definition FL_ONE_OVER_F0 : R := 1 / (8175798915 / 1000000000).

(** interp_delay.rs:4-16 *)
Record idelay := mk_id { id_line : Z -> R; id_k : Z }.
(** interp_delay.rs:18-24 new, 26-29 reset *)
Definition id_new : idelay := mk_id (fun _ => 0) 0.
Definition id_reset (d : idelay) : idelay := id_new.
Definition id_get (d : idelay) (i : Z) : res R := if ((0 <=? i) && (i <? FL_SIZE))%Z then Ok (id_line d i) else Panic.
(** interp_delay.rs:31-44; i32 arithmetic overflows only for a tap near the ends of i32 (a panic in checked builds) *)
Definition id_value (d : idelay) (by_ : R) : res R :=
  let itap := as_i32R by_ in
  let frac := by_ - IZR itap in
  let x1 := (id_k d + FL_SIZE - itap)%Z in
  let x0 := (x1 - 1)%Z in
  if ((i32_min <=? x0) && (x1 <=? i32_max))%Z then
    obind (id_get d (Z.land x0 FL_MASK)) (fun a => obind (id_get d (Z.land x1 FL_MASK)) (fun b => Ok (a * frac + b * (1 - frac))))
  else Panic.
(** interp_delay.rs:46-49 *)
Definition id_push (d : idelay) (v : R) : res idelay :=
  let k := Z.land (id_k d + 1) FL_MASK in
  if ((0 <=? k) && (k <? FL_SIZE))%Z then Ok (mk_id (fun i => if (i =? k)%Z then v else id_line d i) k) else Panic.

(** surge-types/src/effect.rs:44-65 *)
Inductive fwave := WTri | WSin | WSaw | WSandH.
Inductive ftype := FUnison | FDoppler | FArp.
Definition feedback_scale (t : ftype) : R := match t with FUnison => 4 / 10 | FDoppler => 6 / 10 | FArp => 9 / 10 end.
Definition ftype_of (i : Z) : res ftype := if (i =? 0)%Z then Ok FUnison else if (i =? 1)%Z then Ok FDoppler else if (i =? 2)%Z then Ok FArp else Panic.
Definition fwave_of (i : Z) : res fwave := if (i =? 0)%Z then Ok WTri else if (i =? 1)%Z then Ok WSin else if (i =? 2)%Z then Ok WSaw else if (i =? 3)%Z then Ok WSandH else Panic.
(** process.rs:30, 38-39: the i32 Mode value cast to usize, then mode / 4 and mode % 4 *)
Definition mode_of (m : Z) : res (ftype * fwave) :=
  let mode := (m mod 2 ^ 64)%Z in
  obind (ftype_of (mode / 4)) (fun t => obind (fwave_of (mode mod 4)) (fun w => Ok (t, w))).

(** per comb: lfophase, lfoval, delaybase *)
Record comb := mk_comb { cb_phase : R; cb_lfo : lipol; cb_base : lipol }.
(** per channel: the combs, the delay line, the one-pole state *)
Record chan := mk_chan { ch_combs : list comb; ch_line : idelay; ch_lpa : R }.
(** flanger.rs:5-37 *)
Record flanger := mk_fl { fl_l : chan; fl_r : chan; fl_long : R; fl_depth : lipol; fl_mix : lipol; fl_fb : lipol; fl_damp : lipol; fl_gain : lipol; fl_table : Z -> R }.
(** init.rs:5-26: LFO phases (i + c/2)/4, the sine table *)
Definition init_phase (c i : Z) : R := 1 * (IZR i + 1 / 2 * IZR c) / IZR FL_COMBS.
Definition sin_table (i : Z) : R := sin (2 * PI * IZR i / IZR FL_TABLE).
(** init.rs:30-63 with LiPol::default() = LiPol::new(BLOCK_SIZE) *)
Definition new_chan (c : Z) : chan :=
  mk_chan (map (fun i => mk_comb (init_phase c i) (lipol_new 32) (lipol_new 32)) [0; 1; 2; 3]%Z) id_new 0.
Definition fl_new : flanger :=
  mk_fl (new_chan 0) (new_chan 1) 0 (lipol_new 32) (lipol_new 32) (lipol_new 32) (lipol_new 32) (lipol_new 32) sin_table.

(** process.rs:5-12 *)
Definition adjust_longphase (long rate : R) : R :=
  let l := long + rate in if Rle_dec (IZR FL_COMBS) l then l - IZR FL_COMBS else l.
(** init_comb.rs:32-57 *)
Definition lfo_wave (tab : Z -> R) (w : fwave) (ph held rnd : R) (reset : bool) : res R :=
  match w with
  | WTri => Ok (2 * Rabs (2 * ph - 1) - 1)
  | WSin =>
      let ps := ph * IZR FL_TABLE in let psi := as_i32R ps in let psf := ps - IZR psi in
      let psn := Z.land (psi + 1) FL_TABLE_MASK in
      if ((0 <=? psi) && (psi <? FL_TABLE) && (0 <=? psn) && (psn <? FL_TABLE))%Z then Ok (tab psi * (1 - psf) + psf * tab psn) else Panic
  | WSaw => Ok (ph * 2 - 1)
  | WSandH => Ok (if reset then rnd else held)
  end.
(** init_comb.rs:5-68; idx is comb_idx *)
Definition init_comb (tab : Z -> R) (pinv : R -> R) (sr : R) (ty : ftype) (w : fwave) (v0 rate long rnd : R) (idx : Z) (c : comb) : res comb :=
  let p := cb_phase c + rate in
  let reset := if Rlt_dec 1 p then true else false in
  let p := if reset then p - 1 else p in
  let this := match ty with FArp => long - IZR (as_i32R long) | _ => p end in
  obind (lfo_wave tab w this (p_v (cb_lfo c)) rnd reset) (fun lfo =>
  Ok (mk_comb p (lipol_new_value (cb_lfo c) lfo) (lipol_new_value (cb_base c) (sr * FL_ONE_OVER_F0 * pinv (v0 + IZR idx * 6))))).
(** weights.rs:5-62; the four weights of a channel *)
Definition zero4 : list R := [0; 0; 0; 0].
Definition fill_weights (long : R) (voices : Z) (ty : ftype) : res (list R) :=
  match ty with
  | FArp =>
      let ilp0 := as_i32R long in
      let flp := long - IZR ilp0 in
      let ilp := if (ilp0 =? FL_COMBS)%Z then 0%Z else ilp0 in
      if Rlt_dec (9 / 10) flp then
        let dt := (flp - 9 / 10) * 10 in
        obind (zset zero4 ilp (sqrt (1 - dt))) (fun w =>
        if (ilp =? FL_COMBS - 1)%Z then zset w 0 (sqrt dt) else zset w (ilp + 1) (sqrt dt))
      else zset zero4 ilp 1
  | _ =>
      obind (zset zero4 0 1) (fun w =>
      (* for i in 0..voices, left at i = 4 *)
      obind (foldM (fun w i => zset w (Z.of_nat i) 1) (seq 0 (Z.to_nat (Z.min voices 4))) w) (fun w =>
      let fi := IZR voices - IZR voices in
      if (voices <? 4)%Z then zset w voices fi else Ok w))
  end.

(** block_comb_process.rs:14-30, one channel *)
Fixpoint comb_sum (depth : R) (d : idelay) (ws : list R) (cs : list comb) (acc : R) : res R :=
  match ws, cs with
  | w :: ws', c :: cs' =>
      obind (if Rlt_dec 0 w then
               obind (id_value d (p_v (cb_base c) * (1 + p_v (cb_lfo c) * depth) + 1)) (fun v => Ok (acc + w * v))
             else Ok acc) (fun acc' => comb_sum depth d ws' cs' acc')
  | _, _ => Ok acc
  end.
Definition comb_tick (c : comb) : comb := mk_comb (cb_phase c) (lipol_process (cb_lfo c)) (lipol_process (cb_base c)).
(** x -> 1.5 x - 0.5 x^3 on the clipped value *)
Definition soft (x : R) : R := 3 / 2 * x - 1 / 2 * x * x * x.
(** softclip_feedback.rs:5-38, one channel: the feedback and the new one-pole state *)
Definition fb_clip (fb damp lpa comb : R) : R * R :=
  if Rlt_dec 0 fb then
    let f := soft (limit_range_R (fb * comb) (-1) 1) in
    let lpa' := lpa * (1 - damp) + f * damp in (f - lpa', lpa')
  else (0, lpa).
(** block.rs:5-69, one channel of one sample *)
Definition chan_sample (ty : ftype) (depth mix fb damp gain : R) (ws : list R) (x : R) (c : chan) : res (chan * R) :=
  obind (comb_sum depth (ch_line c) ws (ch_combs c) 0) (fun cmb =>
  let '(f, lpa) := fb_clip fb damp (ch_lpa c) cmb in
  obind (id_push (ch_line c) (x - f)) (fun line =>
  let origw := match ty with FDoppler => 0 | _ => 1 end in
  let out := origw * x + mix * cmb in
  let out := soft (limit_range_R ((1 + gain) * out) (-1) 1) in
  Ok (mk_chan (map comb_tick (ch_combs c)) line lpa, out))).
Definition fl_sample (ty : ftype) (wl wr : list R) (f : flanger) (x : R * R) : res (flanger * (R * R)) :=
  let d := p_v (fl_depth f) in let m := p_v (fl_mix f) in let b := p_v (fl_fb f) in let a := p_v (fl_damp f) in let g := p_v (fl_gain f) in
  obind (chan_sample ty d m b a g wl (fst x) (fl_l f)) (fun '(cl, yl) =>
  obind (chan_sample ty d m b a g wr (snd x) (fl_r f)) (fun '(cr, yr) =>
  Ok (mk_fl cl cr (fl_long f) (lipol_process (fl_depth f)) (lipol_process (fl_mix f)) (lipol_process (fl_fb f)) (lipol_process (fl_damp f)) (lipol_process (fl_gain f)) (fl_table f), (yl, yr)))).
Fixpoint fl_samples (ty : ftype) (wl wr : list R) (f : flanger) (xs : list (R * R)) : res (flanger * list (R * R)) :=
  match xs with
  | [] => Ok (f, [])
  | x :: r => obind (fl_sample ty wl wr f x) (fun '(f1, y) => obind (fl_samples ty wl wr f1 r) (fun '(f2, ys) => Ok (f2, y :: ys)))
  end.
(** the parameters of a block (process.rs:25-36) *)
Record flpar := { q_rate : R; q_mode : Z; q_voices : Z; q_v0 : R; q_depth : R; q_mix : R; q_fb : R; q_damp : R; q_gain : R }.
Fixpoint init_combs (k : R -> Z -> comb -> res comb) (rnd : Z -> R) (i : Z) (cs : list comb) : res (list comb) :=
  match cs with
  | [] => Ok []
  | c :: r => obind (k (rnd i) i c) (fun c' => obind (init_combs k rnd (i + 1) r) (fun r' => Ok (c' :: r')))
  end.
(** process.rs:17-78: one block of 32 samples *)
Definition fl_process (pinv : R -> R) (sr : R) (rnd_l rnd_r : Z -> R) (p : flpar) (f : flanger) (xs : list (R * R)) : res (flanger * list (R * R)) :=
  obind (mode_of (q_mode p)) (fun '(ty, w) =>
  let long := adjust_longphase (fl_long f) (q_rate p) in
  let k := fun r i c => init_comb (fl_table f) pinv sr ty w (q_v0 p) (q_rate p) long r i c in
  obind (init_combs k rnd_l 0 (ch_combs (fl_l f))) (fun cl =>
  obind (init_combs k rnd_r 0 (ch_combs (fl_r f))) (fun cr =>
  let fbv := q_fb p * q_fb p * q_fb p in
  let f1 := mk_fl (mk_chan cl (ch_line (fl_l f)) (ch_lpa (fl_l f))) (mk_chan cr (ch_line (fl_r f)) (ch_lpa (fl_r f))) long
              (lipol_new_value (fl_depth f) (q_depth p)) (lipol_new_value (fl_mix f) (q_mix p)) (lipol_new_value (fl_fb f) (feedback_scale ty * fbv))
              (lipol_new_value (fl_damp f) (4 / 10 * q_damp p)) (lipol_new_value (fl_gain f) (q_gain p)) (fl_table f) in
  obind (fill_weights long (q_voices p) ty) (fun wl => obind (fill_weights long (q_voices p) ty) (fun wr =>
  fl_samples ty wl wr f1 xs))))).
