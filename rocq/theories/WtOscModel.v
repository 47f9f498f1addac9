(* WtOscModel.v - the wavetable oscillator of surgeosc-wavetable, over exact reals. No proofs here.
   Modelled: creation as far as the unison count and the frame choice (new.rs, init.rs, set_pitch.rs), the smoothed settings (update.rs), the choice
   of the frame and of the mipmap level, one impulse of `convolute` with its level, its period and its place in the buffers, the
   loop of process/nofm.rs and the output integrator of process/block.rs. The table is one that is not flagged as a sample.
   The impulse buffers, their clearing and wrapping and the twelve taps are those of SsoModel (the same text).
   Not modelled: the FM path (it reads a null pointer, new.rs:16), tables flagged as samples, rounding, unaligned loads. *)
From Coq Require Import Reals ZArith List Lia.
From Verif Require Import Base Util ParamModel LagModel SsoModel AdsrModel.
Import ListNotations.
Local Open Scope R_scope.

(** ** Creation and settings *)
(* param.rs:69, 84, 99: default, minimum and maximum of UniCount; control type OscCountWT *)
Definition wo_count_desc : @pdesc R :=
  {| pd_min := PInt 1; pd_max := PInt 16; pd_default := PFloat 1; pd_ctype := CtOther 0; pd_snap := true; pd_extend := false; pd_float_vt := false |}.
(* init.rs:21-24: n_unison = limit_range(pvali(UniCount), 1, MAX_UNISON) *)
Definition wo_unison (count : pdataR) : res Z := obind (pvali count) (fun u => Ok (Z.max 1 (Z.min u 16))).
(* update.rs:20-33: the targets of l_vskew, l_hskew, l_clip, l_shape; formant_t *)
Definition wo_skew_target (x : R) : R := limR3 x (-1) 1.
Definition wo_clip_target (saturate : R) : R := let c := limR3 saturate 0 1 in -8 * c * c * c.
Definition wo_shape_target (morph : R) : R := limR3 morph 0 1.
Definition wo_formant (formant : R) : R := Rmax 0 formant.

(** ** Frames *)
(* surge-math/src/flops.rs:12-22; the cast to i32 is taken to be in range *)
Definition wo_split (f : R) : R * R := (IZR (truncR f), f - IZR (truncR f)).
(* set_pitch.rs:28-29, update_tables.rs:32-33: `(n_tables - 2) as i32` on usize *)
Definition wo_frame (n intpart : Z) : res Z := if (n <? 2)%Z then Panic else Ok (Z.max 0 (Z.min intpart (n - 2))).
(* tableid, tableipol, last_tableid, last_tableipol *)
Record wo_tab := { tb_id : Z; tb_ipol : R; tb_last : Z; tb_lastipol : R }.
Definition wo_shape (n : Z) (morph : R) : R := morph * ((IZR n - 1) * (99999 / 100000)).
(* set_pitch.rs:17-33 *)
Definition wo_tab_start (n : Z) (morph : R) : res wo_tab :=
  let s := wo_shape n morph in
  obind (wo_frame n (truncR s)) (fun id => Ok {| tb_id := id; tb_ipol := snd (wo_split s); tb_last := id; tb_lastipol := snd (wo_split s) |}).
(* f32::EPSILON *)
Definition EPS32 : R := / 8388608.
(* update_tables.rs:5-62 (not a sample); morph = l_shape.v *)
Definition wo_tab_update (n : Z) (morph : R) (t : wo_tab) : res wo_tab :=
  if ((n =? 1) || (n <=? tb_id t))%Z%bool then Ok {| tb_id := 0; tb_ipol := 0; tb_last := 0; tb_lastipol := 0 |}
  else
    let s := wo_shape n morph in
    obind (wo_frame n (truncR s)) (fun id =>
    let ip := snd (wo_split s) in
    let last := tb_id t in
    let lip := tb_ipol t in
    if (last <? id)%Z then
      if Rlt_dec (Rabs (lip - 1)) EPS32 then Ok {| tb_id := last; tb_ipol := 1; tb_last := last; tb_lastipol := lip |}
      else Ok {| tb_id := id; tb_ipol := ip; tb_last := last; tb_lastipol := 0 |}
    else if (id <? last)%Z then
      if Rlt_dec (Rabs (lip - 0)) EPS32 then Ok {| tb_id := last; tb_ipol := 0; tb_last := last; tb_lastipol := lip |}
      else Ok {| tb_id := id; tb_ipol := ip; tb_last := last; tb_lastipol := 1 |}
    else Ok {| tb_id := id; tb_ipol := ip; tb_last := last; tb_lastipol := lip |}).

(* WaveTableBase::<i16>: num_tables, num_samples_per_table, mipmap_levels and the cell [level, frame, position]; base.rs:49-72 *)
Record wo_wave := { wv_n : Z; wv_ts : Z; wv_mips : Z; wv_at : Z -> Z -> Z -> Z }.
(* ndarray indexing with a checked [usize; 3] *)
Definition wo_get (w : wo_wave) (mip id pos : Z) : res R :=
  if ((0 <=? mip) && (mip <? wv_mips w) && (0 <=? id) && (id <? wv_n w) && (0 <=? pos) && (pos <? wv_ts w))%Z%bool
  then Ok (IZR (wv_at w mip id pos)) else Panic.
(* surge-math/src/interp.rs:20-28 *)
Definition wo_lerp (x a b : R) : res R :=
  if Rle_dec 0 x then if Rlt_dec x 1 then Ok ((1 - x) * a + x * b) else Panic else Panic.
(* update.rs:5-12 *)
Definition wo_distort (vskew clip x : R) : R :=
  let a := vskew * (1 / 2) in
  let x := x - a * x * x + a in
  limR3 (x * (1 - clip) + clip * x * x * x) (-1) 1.
(* blitstate_zero.rs:36-49; a = dt * pitchmult_inv *)
Definition wo_mip (ts : Z) (pinv : R) : Z :=
  let a := 1 / IZR ts * pinv in
  let below x m := (if Rlt_dec a (x * (18 / 10)) then (m <=? ts)%Z else false) in
  if below (1 / 64) 128%Z then 6 else if below (1 / 32) 64%Z then 5 else if below (1 / 16) 32%Z then 4
  else if below (1 / 8) 16%Z then 3 else if below (1 / 4) 8%Z then 2 else if below (1 / 2) 4%Z then 1 else 0.

(** ** Impulses *)
(* what the impulses of a block read: the table, the frames, l_vskew.v, l_clip.v, l_hskew.v, formant_t, pitchmult_inv, tempt
   (convolute.rs:39-53) and tuner.n2p_tuningctr *)
Record wo_cfg := { q_wave : wo_wave; q_tab : wo_tab; q_vskew : R; q_clip : R; q_hskew : R; q_formant : R; q_pinv : R; q_t : R; q_n2p : R -> R }.
(* formant_last and hskew, shared by the voices *)
Record wo_sh := { z_formant : R; z_hskew : R }.
(* oscstate, state, last_level, mipmap at index `voice` *)
Record wo_voice := { u_osc : R; u_state : Z; u_last : R; u_mip : Z }.
(* one impulse: its position in the phase space of the block, its height before attenuation and panning *)
Record wo_ev := { i_pos : R; i_g : R }.

(* blitstate_zero.rs:9-11, 36-49 *)
Definition wo_zero (c : wo_cfg) (s : wo_sh * wo_voice) : wo_sh * wo_voice :=
  if (u_state (snd s) =? 0)%Z then
    ({| z_formant := q_formant c; z_hskew := q_hskew c |},
     {| u_osc := u_osc (snd s); u_state := u_state (snd s); u_last := u_last (snd s); u_mip := wo_mip (wv_ts (q_wave c)) (q_pinv c) |})
  else s.
(* get.rs:29-48 *)
Definition wo_newlevel (c : wo_cfg) (mip state : Z) (pos : R) : res R :=
  obind (wo_lerp pos (tb_lastipol (q_tab c)) (tb_ipol (q_tab c))) (fun x =>
  obind (wo_get (q_wave c) mip (tb_id (q_tab c)) state) (fun a =>
  obind (wo_get (q_wave c) mip (tb_id (q_tab c) + 1) state) (fun b =>
  obind (wo_lerp x a b) (fun y => Ok (wo_distort (q_vskew c) (q_clip c) y))))).
(* convolute.rs:55-64; x = (state + 0.5) dt, h = hskew *)
Definition wo_skew (h x : R) : R := 1 + h * 4 * x * (x - 1) * (2 * x - 1) * sqrt (27 / 4).
(* convolute.rs:5-109 (no FM) without the buffers *)
Definition wo_convolute (c : wo_cfg) (s0 : wo_sh * wo_voice) : res (wo_sh * wo_voice * wo_ev) :=
  let pos := u_osc (snd s0) * (1 / 64) * q_pinv c in
  let s := wo_zero c s0 in
  let '(sh, v) := s in
  let inc := (2 ^ u_mip v)%Z in
  let dt := 1 / IZR (wv_ts (q_wave c)) * IZR inc in
  let xt := wo_skew (z_hskew sh) ((IZR (u_state v) + 1 / 2) * dt) in
  obind (wo_lerp pos (z_formant sh) (q_formant c)) (fun ft =>
  let formant := q_n2p c (- ft) in
  let wtsize := Z.shiftr (wv_ts (q_wave c)) (u_mip v) in
  if (wtsize <? 1)%Z then Panic (* usize underflow of wtsize - 1 *) else
  let dt := dt * (formant * xt) + (if (wtsize - 1 <=? u_state v)%Z then 1 - formant else 0) in
  let t := dt * q_t c in
  let st := Z.land (u_state v) (wtsize - 1) in
  obind (wo_newlevel c (u_mip v) st pos) (fun lev =>
  Ok (sh, {| u_osc := Rmax 0 (u_osc v + t); u_state := Z.land (st + 1) (wtsize - 1); u_last := lev; u_mip := u_mip v |},
      {| i_pos := u_osc v; i_g := lev - u_last v |}))).

(* nofm.rs:13-17: the loop of one voice; a = BLOCK_SIZE_OS * pitchmult; None when it has not ended after `fuel` rounds *)
Fixpoint wo_loop (fuel : nat) (c : wo_cfg) (a : R) (s : wo_sh * wo_voice) : res (option (wo_sh * wo_voice * list wo_ev)) :=
  if Rlt_dec (u_osc (snd s)) a then
    match fuel with
    | O => Ok None
    | Datatypes.S fuel =>
        obind (wo_convolute c s) (fun r =>
        obind (wo_loop fuel c a (fst r)) (fun q =>
        Ok (match q with None => None | Some (s', es) => Some (s', snd r :: es) end)))
    end
  else Ok (Some (s, [])).
Definition wo_advance (a : R) (s : wo_sh * wo_voice) : wo_sh * wo_voice :=
  (fst s, {| u_osc := u_osc (snd s) - a; u_state := u_state (snd s); u_last := u_last (snd s); u_mip := u_mip (snd s) |}).
Definition wo_voice_block (fuel : nat) (c : wo_cfg) (s : wo_sh * wo_voice) : res (option (wo_sh * wo_voice * list wo_ev)) :=
  let a := 64 * (1 / q_pinv c) in
  obind (wo_loop fuel c a s) (fun q => Ok (match q with None => None | Some (s', es) => Some (wo_advance a s', es) end)).
(* set_pitch.rs:40-58: a voice at the start of a note; draw = rand01() *)
Definition wo_voice_start (is_display : bool) (draw : R) : wo_voice :=
  {| u_osc := if is_display then 0 else draw; u_state := 0; u_last := 0; u_mip := 0 |}.

(** ** Buffers and output *)
(* convolute.rs:89-102, mono.rs, stereo.rs: the two channels; att = out_attenuation, panl = pan_l[voice] (pan_r is not read) *)
Definition wo_place (tab : Z -> R) (stereo : bool) (att panl panr pinv : R) (bufpos : nat) (b : list R * list R) (e : wo_ev) : res (list R * list R) :=
  let ipos := sso_ipos pinv (i_pos e) in
  let g := i_g e * att in
  let g := if stereo then g * panl else g in
  obind (sso_convolve tab g bufpos ipos (fst b)) (fun l =>
  obind (if stereo then sso_convolve tab g bufpos ipos (snd b) else Ok (snd b)) (fun r => Ok (l, r))).
(* block.rs:5-24: one sample: hpf = the gain of li_hpf, bl and br the buffer cells; the state is (osc_out_l, osc_out_r) *)
Definition wo_sample (stereo : bool) (hpf bl br : R) (s : R * R) : R * R :=
  (fst s * hpf + bl, if stereo then snd s * hpf + br else snd s).
(* process.rs:44-46; hp = the gains, cells read at bufpos + k *)
Fixpoint wo_samples (stereo : bool) (hp : nat -> R) (b : list R * list R) (bufpos n i : nat) (s : R * R) : res (R * R * list (R * R)) :=
  match n with
  | O => Ok (s, [])
  | Datatypes.S n =>
      obind (ob_get (fst b) (bufpos + i)) (fun xl =>
      obind (if stereo then ob_get (snd b) (bufpos + i) else Ok 0) (fun xr =>
      let s' := wo_sample stereo (hp i) xl xr s in
      obind (wo_samples stereo hp b bufpos n (Datatypes.S i) s') (fun q => Ok (fst q, s' :: snd q))))
  end.
(* the impulses of several voices, each with its own pans: (panl, panr, impulses) *)
Definition wo_place_voice (tab : Z -> R) (stereo : bool) (att pinv : R) (bufpos : nat) (b : list R * list R) (v : R * R * list wo_ev) : res (list R * list R) :=
  foldR (wo_place tab stereo att (fst (fst v)) (snd (fst v)) pinv bufpos) b (snd v).
(* process.rs:44-63: samples of the block, then the buffers for the next one *)
Definition wo_emit (tab : Z -> R) (stereo : bool) (att pinv : R) (hp : nat -> R) (bufpos : nat) (b : list R * list R) (vs : list (R * R * list wo_ev)) (s : R * R)
  : res (list R * list R * (R * R) * list (R * R)) :=
  obind (foldR (wo_place_voice tab stereo att pinv bufpos) b vs) (fun b' =>
  obind (wo_samples stereo hp b' bufpos 64 0 s) (fun r =>
  Ok ((ob_turn bufpos (fst b'), if stereo then ob_turn bufpos (snd b') else snd b'), fst r, snd r))).
