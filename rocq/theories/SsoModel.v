(* SsoModel.v - the super oscillator of surgeosc-super (and the buffers it borrows from surge-blitter), over exact reals.
   Modelled: the settings of a block (process/process.rs, update_lagvals.rs), the impulse generator `convolute` with its
   period `get_t` and its four-impulse state machine `get_g`, the loop of process/no_fm.rs, the impulse buffers
   (convolve_mono/stereo, clear, wrap), the output filter of process/block.rs, the character filter and set_pitch.
   Not modelled: the FM path (it reads the null pointer `master_osc`, new.rs:13), rounding, the approximate reciprocal `rcp`
   (taken as 1/x), memory alignment (the SSE loads are taken to be aligned). *)
From Coq Require Import Reals ZArith List Lia.
From Verif Require Import Base Util ParamModel LagModel.
Import ListNotations.
Local Open Scope R_scope.

(** ** Settings *)
(* surge-math limit_range for f32 *)
Definition limR3 (x lo hi : R) : R := Rmax lo (Rmin hi x).
(* sso.rs: the five smoothed parameters *)
Record sso_lags := { lg_sync : lag; lg_pw : lag; lg_pw2 : lag; lg_shape : lag; lg_sub : lag }.
(* the raw parameter values read by update_lagvals.rs:13-17 *)
Record sso_par := { pp_sync : R; pp_pw : R; pp_pw2 : R; pp_shape : R; pp_sub : R }.
(* init.rs:18 set_rate_all(0.05) on the Lag::default of new.rs:26-32; set.rs:9-15 *)
Definition sso_lag0 : lag := lag_set_rate lag_default (5 / 100).
Definition sso_lags_init : sso_lags :=
  {| lg_sync := sso_lag0; lg_pw := sso_lag0; lg_pw2 := sso_lag0; lg_shape := sso_lag0; lg_sub := sso_lag0 |}.
(* update_lagvals.rs:19-23 *)
Definition sso_targets (l : sso_lags) (p : sso_par) : sso_lags :=
  {| lg_sync := lag_new_value (lg_sync l) (Rmax 0 (pp_sync p));
     lg_pw := lag_new_value (lg_pw l) (limR3 (pp_pw p) (1 / 1000) (999 / 1000));
     lg_pw2 := lag_new_value (lg_pw2 l) (limR3 (pp_pw2 p) (1 / 1000) (999 / 1000));
     lg_shape := lag_new_value (lg_shape l) (limR3 (pp_shape p) (-1) 1);
     lg_sub := lag_new_value (lg_sub l) (limR3 (pp_sub p) 0 1) |}.
Definition sso_map (f : lag -> lag) (l : sso_lags) : sso_lags :=
  {| lg_sync := f (lg_sync l); lg_pw := f (lg_pw l); lg_pw2 := f (lg_pw2 l); lg_shape := f (lg_shape l); lg_sub := f (lg_sub l) |}.
(* process.rs:24-29: update_lagvals(false) and one step of every lag *)
Definition sso_lags_block (l : sso_lags) (p : sso_par) : sso_lags := sso_map lag_process (sso_targets l p).
(* update_lagvals.rs:37-46 with is_init (set_pitch.rs:12): every lag jumps to its target *)
Definition sso_lags_start (l : sso_lags) (p : sso_par) : sso_lags := sso_map lag_instantize (sso_targets l p).

(* process.rs:8, 11-16: pitch = minf(148, pitch0); pitchmult_inv = maxd(1, dsamplerate_os / 8.175798915 * n2pinv(pitch)) *)
Definition sso_pitch (pitch0 : R) : R := Rmin 148 pitch0.
Definition sso_pinv (sr_os inv_pitch : R) : R := Rmax 1 (sr_os * (1 / 8.175798915) * inv_pitch).
(* update_lagvals.rs:25-33: invt = 4 min(1, 8.175798915 pp / dsamplerate_os); target = minf(SSO_INTEGRATOR_HPF, SSO_HPF_CYCLE_LOSS^invt) with the constants of sso.rs *)
Definition sso_hpf (sr_os pp : R) : R :=
  Rmin (9982 / 10000) (Rpower (995 / 1000) (4 * Rmin 1 (8.175798915 * pp / sr_os))).

(** ** Impulses *)
(* what one convolute call reads beside the voice's own state *)
Record sso_cfg := {
  c_sync : R;    (* l_sync.v *)
  c_pw : R;      (* l_pw.v *)
  c_pw2 : R;     (* l_pw2.v *)
  c_wf : R;      (* l_shape.v *)
  c_sub : R;     (* l_sub.v *)
  c_t : R;       (* get_t(sync, detune).0 *)
  c_T : R        (* 2 * n2pinv_tuningctr(detune): the period of the hard-sync master, convolute.rs:52 *)
}.
(* blitter.oscstate/syncstate/state, pwidth, pwidth2, last_level, dc_uni at index `voice` *)
Record sso_voice := { w_osc : R; w_sync : R; w_state : Z; w_pw : R; w_pw2 : R; w_last : R; w_dc : R }.
(* one impulse: its position in the phase space of the block, its height before attenuation and panning (get_g.rs:177-182),
   the change of slope added to dcbuffer (convolute.rs:117-123) *)
Record sso_ev := { e_pos : R; e_g : R; e_ddc : R }.

(* get_t.rs:5-55. inv_true = n2pinv::<f64,true>, inv_ctr = n2pinv_tuningctr *)
Definition sso_get_t (inv_true inv_ctr : R -> R) (absolute : bool) (pitch sync detune : R) : R :=
  if absolute then
    let note := detune * inv_true pitch * 16 / 0.9443 + sync in
    let t := inv_true note in
    if Rlt_dec t (1 / 10) then 0 else t
  else inv_ctr (detune + sync).
(* convolute.rs:102-105 *)
Definition sso_sync_arg (l_sync pitch : R) : R := Rmin l_sync (12 + 72 + 72 - pitch).
(* convolute.rs:27-34: drift and unison spread *)
Definition sso_detune (drift driftlfo : R) (n_unison : Z) (spread bias offset : R) (voice : nat) : R :=
  drift * driftlfo + (if (1 <? n_unison)%Z then spread * (bias * INR voice + offset) else 0).

(* get_g.rs:43-53: the level of the first step of the cycle *)
Definition sso_tg (wf sub pw pw2 : R) : R :=
  ((1 + wf) * (1 / 2) + (1 - pw) * - wf) * (1 - sub) + 1 / 2 * sub * (2 - pw2).
(* get_g.rs:160-182 and the four impulse functions 32-152: (height, last_level, pwidth, pwidth2); a state outside 0..3 is
   the unwrap of 160-161 *)
Definition sso_get_g (c : sso_cfg) (state : Z) (pw pw2 last : R) : res (R * R * R * R) :=
  let wf := c_wf c in let sub := c_sub c in
  if (state =? 0)%Z then
    let pw := c_pw c in let pw2 := 2 * c_pw2 c in
    let tg := sso_tg wf sub pw pw2 in
    Ok (tg - last, tg - pw * pw2 * (1 + wf) * (1 - sub), pw, pw2)
  else if (state =? 1)%Z then
    let g := wf * (1 - sub) - sub in Ok (g, last + g - (1 - pw) * (2 - pw2) * (1 + wf) * (1 - sub), pw, pw2)
  else if (state =? 2)%Z then
    let g := 1 - sub in Ok (g, last + g - pw * (2 - pw2) * (1 + wf) * (1 - sub), pw, pw2)
  else if (state =? 3)%Z then
    let g := wf * (1 - sub) + sub in Ok (g, last + g - (1 - pw) * pw2 * (1 + wf) * (1 - sub), pw, pw2)
  else Panic.

(* convolute.rs:44-66: hard sync. The result is the position of the impulse and the voice as get_g will see it *)
Definition sso_synced (c : sso_cfg) (w : sso_voice) : bool :=
  if Rlt_dec 0 (c_sync c) then if Rlt_dec (w_sync w) (w_osc w) then true else false else false.
Definition sso_sync_step (c : sso_cfg) (w : sso_voice) : sso_voice :=
  if sso_synced c w then
    {| w_osc := w_sync w; w_sync := Rmax 0 (w_sync w + c_T c); w_state := 0; w_pw := w_pw w; w_pw2 := w_pw2 w;
       w_last := w_last w + w_dc w * (w_osc w - w_sync w); w_dc := w_dc w |}
  else w.
(* convolute.rs:126-134: the phase space until the next impulse *)
Definition sso_rate (t : R) (state : Z) (pw pw2 : R) : R :=
  (if (Z.land state 1 =? 0)%Z then t * pw else t * (1 - pw)) * (if (Z.land (state + 1) 2 =? 0)%Z then pw2 else 2 - pw2).
(* convolute.rs:17-139 without the buffers *)
Definition sso_convolute (c : sso_cfg) (w0 : sso_voice) : res (sso_voice * sso_ev) :=
  let w := sso_sync_step c w0 in
  obind (sso_get_g c (w_state w) (w_pw w) (w_pw2 w) (w_last w)) (fun r =>
  let '(g, last, pw, pw2) := r in
  let dc := 1 / c_t c * (1 + c_wf c) * (1 - c_sub c) in
  Ok ({| w_osc := Rmax 0 (w_osc w + sso_rate (c_t c) (w_state w) pw pw2); w_sync := w_sync w;
         w_state := Z.land (w_state w + 1) 3; w_pw := pw; w_pw2 := pw2; w_last := last; w_dc := dc |},
      {| e_pos := w_osc w; e_g := g; e_ddc := dc - w_dc w |})).

(* no_fm.rs:16-19: the loop condition; a = BLOCK_SIZE_OS * pitchmult (no_fm.rs:8) *)
Definition sso_more (c : sso_cfg) (a : R) (w : sso_voice) : bool :=
  (if Rlt_dec 0 (c_sync c) then if Rlt_dec (w_sync w) a then true else false else false)
  || (if Rlt_dec (w_osc w) a then true else false).
(* no_fm.rs:16-25: None when the loop has not ended after `fuel` rounds *)
Fixpoint sso_loop (fuel : nat) (c : sso_cfg) (a : R) (w : sso_voice) : res (option (sso_voice * list sso_ev)) :=
  if sso_more c a w then
    match fuel with
    | O => Ok None
    | Datatypes.S fuel =>
        obind (sso_convolute c w) (fun r =>
        obind (sso_loop fuel c a (fst r)) (fun q =>
        Ok (match q with None => None | Some (w', es) => Some (w', snd r :: es) end)))
    end
  else Ok (Some (w, [])).
(* no_fm.rs:28-32 *)
Definition sso_advance (c : sso_cfg) (a : R) (w : sso_voice) : sso_voice :=
  {| w_osc := w_osc w - a; w_sync := if Rlt_dec 0 (c_sync c) then w_sync w - a else w_sync w;
     w_state := w_state w; w_pw := w_pw w; w_pw2 := w_pw2 w; w_last := w_last w; w_dc := w_dc w |}.
(* one voice, one block *)
Definition sso_voice_block (fuel : nat) (c : sso_cfg) (a : R) (w : sso_voice) : res (option (sso_voice * list sso_ev)) :=
  obind (sso_loop fuel c a w) (fun q =>
  Ok (match q with None => None | Some (w', es) => Some (sso_advance c a w', es) end)).

(* set_pitch.rs:12-37: a voice at the start of a note; draw = rand01(), ictr = n2pinv_tuningctr(detune) *)
Definition sso_start (retrigger : bool) (draw ictr pw pw2_old : R) : sso_voice :=
  let st := 1 / 2 * draw * ictr in
  {| w_osc := if retrigger then 0 else st; w_sync := if retrigger then 0 else st; w_state := 0;
     w_pw := limR3 pw (1 / 1000) (999 / 1000); w_pw2 := pw2_old; w_last := if retrigger then -4 / 10 else 0; w_dc := 0 |}.

(** ** Buffers *)
Definition OBL : nat := 140.   (* OB_LENGTH + FIR_IPOL_N, surge-blitter/src/init.rs:38-40 *)
(* `x as u32` of a real *)
Definition as_u32R (x : R) : Z := Z.max 0 (Z.min 4294967295 (Int_part x)).
(* convolute.rs:46-65: 24 bits of fraction *)
Definition sso_ipos (pinv pos : R) : Z := as_u32R (16777216 * (pos * pinv)).
(* get_g.rs:22-30, convolute.rs:92-93 *)
Definition sso_delay (ipos : Z) : nat := Z.to_nat (Z.land (Z.shiftr ipos 24) 63).
Definition sso_m (ipos : Z) : Z := (Z.land (Z.shiftr ipos 16) 255 * 24)%Z.
Definition sso_lipol (ipos : Z) : R := IZR (Z.land ipos 65535).
(* the sinc table is bounds checked (surge-tables/src/surge.rs): SIZE = 6168 *)
Definition sinc_at (tab : Z -> R) (i : Z) : res R := if ((0 <=? i) && (i <? 6168))%Z%bool then Ok (tab i) else Panic.
(* checked read and write of one cell *)
Definition ob_get (b : list R) (i : nat) : res R := match nth_error b i with Some x => Ok x | None => Panic end.
Fixpoint ob_set (b : list R) (i : nat) (x : R) : res (list R) :=
  match b, i with
  | [], _ => Panic
  | _ :: r, O => Ok (x :: r)
  | y :: r, Datatypes.S i => obind (ob_set r i x) (fun r' => Ok (y :: r'))
  end.
Definition ob_add (b : list R) (i : nat) (x : R) : res (list R) := obind (ob_get b i) (fun y => ob_set b i (y + x)).
(* one lane of mono.rs:17-46 / stereo.rs *)
Definition sso_tap (tab : Z -> R) (g : R) (bufpos delay : nat) (m : Z) (lipol : R) (b : list R) (j : nat) : res (list R) :=
  obind (sinc_at tab (m + Z.of_nat j)) (fun st =>
  obind (sinc_at tab (m + Z.of_nat j + 12)) (fun so =>
  ob_add b (bufpos + j + delay) (g * (st + so * lipol)))).
Fixpoint foldR {S0 X} (f : S0 -> X -> res S0) (s : S0) (l : list X) : res S0 :=
  match l with [] => Ok s | x :: r => obind (f s x) (fun s' => foldR f s' r) end.
(* mono.rs:5-48: twelve taps (three groups of four lanes) *)
Definition sso_convolve (tab : Z -> R) (g : R) (bufpos : nat) (ipos : Z) (b : list R) : res (list R) :=
  foldR (fun b j => sso_tap tab g bufpos (sso_delay ipos) (sso_m ipos) (sso_lipol ipos) b j) b (seq 0 12).
(* the three buffers: oscbuffer_l, oscbuffer_r, dcbuffer *)
Record sso_bufs := { b_l : list R; b_r : list R; b_dc : list R; b_pos : nat }.
(* convolute.rs:110-124 for one impulse. att = out_attenuation; in mono the right buffer is untouched *)
Definition sso_place (tab : Z -> R) (stereo : bool) (att panl panr pinv : R) (s : sso_bufs) (e : sso_ev) : res sso_bufs :=
  let ipos := sso_ipos pinv (e_pos e) in
  let g := e_g e * att in
  obind (sso_convolve tab (if stereo then g * panl else g) (b_pos s) ipos (b_l s)) (fun l =>
  obind (if stereo then sso_convolve tab (g * panr) (b_pos s) ipos (b_r s) else Ok (b_r s)) (fun r =>
  obind (ob_add (b_dc s) (b_pos s + 6 + sso_delay ipos) (e_ddc e)) (fun d =>
  Ok {| b_l := l; b_r := r; b_dc := d; b_pos := b_pos s |}))).
(* process.rs:79-85 clear_block::<BLOCK_SIZE_OS_QUAD>: 64 cells from bufpos *)
Definition ob_clear (b : list R) (p : nat) : list R :=
  map (fun ix => if (Nat.leb p (fst ix) && Nat.ltb (fst ix) (p + 64))%bool then 0 else snd ix) (combine (seq 0 (length b)) b).
(* handle_wrap.rs:21-36: cells 128..139 move to 0..11 *)
Definition ob_wrap (b : list R) : list R := skipn 128 b ++ firstn 116 (skipn 12 b) ++ repeat 0 12.
(* process.rs:79-89 for one buffer (the right one is cleared and wrapped only in stereo) *)
Definition sso_nextpos (p : nat) : nat := Z.to_nat (Z.land (Z.of_nat p + 64) 127).
Definition ob_turn (p : nat) (b : list R) : list R :=
  let b := ob_clear b p in if Nat.eqb (sso_nextpos p) 0 then ob_wrap b else b.
Definition sso_turn (stereo : bool) (s : sso_bufs) : sso_bufs :=
  {| b_l := ob_turn (b_pos s) (b_l s); b_r := if stereo then ob_turn (b_pos s) (b_r s) else b_r s;
     b_dc := ob_turn (b_pos s) (b_dc s); b_pos := sso_nextpos (b_pos s) |}.
(* init.rs:15, 26: bufpos = 0 and cleared buffers *)
Definition sso_bufs_init : sso_bufs := {| b_l := repeat 0 OBL; b_r := repeat 0 OBL; b_dc := repeat 0 OBL; b_pos := 0 |}.

(** ** Output *)
(* set.rs:24-47 CharacterMode (order Warm, Neutral, Bright) and the coefficients; sr_inv = samplerate_inv *)
Inductive character := Warm | Neutral | Bright.
Record coeffs := { k_a1 : R; k_b0 : R; k_b1 : R }.
Definition sso_coeffs (m : character) (sr_inv : R) : coeffs :=
  let f := (1 - 2 * 5000 * sr_inv) * (1 - 2 * 5000 * sr_inv) in
  match m with
  | Warm => {| k_b0 := 1 - f; k_b1 := 0; k_a1 := f |}
  | Neutral => {| k_b0 := 1; k_b1 := 0; k_a1 := 0 |}
  | Bright => {| k_b0 := 1 * (1 / (1 - f)); k_b1 := - f * (1 / (1 - f)); k_a1 := 0 |}
  end.
(* set.rs:5-7: CharacterMode::try_from(..).unwrap() *)
Definition character_of (i : Z) : res character :=
  if (i =? 0)%Z then Ok Warm else if (i =? 1)%Z then Ok Neutral else if (i =? 2)%Z then Ok Bright else Panic.

(* osc_out_l, osc_out_2l, osc_out_r, osc_out_2r, dc *)
Record sso_out := { o_l : R; o_2l : R; o_r : R; o_2r : R; o_dc : R }.
(* block.rs:16-74: one sample; oa = out_attenuation * pitchmult (process.rs:47-49) *)
Definition sso_sample (k : coeffs) (stereo : bool) (oa hpf bl br bdc : R) (s : sso_out) : sso_out * (R * R) :=
  let mdc := o_dc s + bdc in
  let l := o_l s * hpf + (bl - mdc * oa) in
  let l2 := o_2l s * k_a1 k + (l * k_b0 k + o_l s * k_b1 k) in
  let r := if stereo then o_r s * hpf + (br - mdc * oa) else o_r s in
  let r2 := if stereo then o_2r s * k_a1 k + (r * k_b0 k + o_r s * k_b1 k) else o_2r s in
  ({| o_l := l; o_2l := l2; o_r := r; o_2r := r2; o_dc := mdc |}, (l2, r2)).
(* process.rs:57-71: samples k = 0..63 of the block read the cells bufpos + k; hp = the high-pass gains of the block *)
Fixpoint sso_samples (k : coeffs) (stereo : bool) (oa : R) (hp : nat -> R) (b : sso_bufs) (n : nat) (i : nat) (s : sso_out)
  : res (sso_out * list (R * R)) :=
  match n with
  | O => Ok (s, [])
  | Datatypes.S n =>
      obind (ob_get (b_l b) (b_pos b + i)) (fun xl =>
      obind (ob_get (b_r b) (b_pos b + i)) (fun xr =>
      obind (ob_get (b_dc b) (b_pos b + i)) (fun xd =>
      let '(s', y) := sso_sample k stereo oa (hp i) xl xr xd s in
      obind (sso_samples k stereo oa hp b n (Datatypes.S i) s') (fun q => Ok (fst q, y :: snd q)))))
  end.

(** ** One block of the oscillator *)
(* the per-voice constants: settings and pans *)
Record sso_chan := { ch_cfg : sso_cfg; ch_panl : R; ch_panr : R }.
(* no_fm.rs:10-38: every voice in turn; None = some voice's loop has not ended *)
Fixpoint sso_voices (fuel : nat) (tab : Z -> R) (stereo : bool) (att pinv : R) (cs : list sso_chan) (ws : list sso_voice) (b : sso_bufs)
  : res (option (list sso_voice * sso_bufs)) :=
  match cs, ws with
  | c :: cs, w :: ws =>
      obind (sso_voice_block fuel (ch_cfg c) (64 * (1 / pinv)) w) (fun q =>
      match q with
      | None => Ok None
      | Some (w', es) =>
          obind (foldR (sso_place tab stereo att (ch_panl c) (ch_panr c) pinv) b es) (fun b =>
          obind (sso_voices fuel tab stereo att pinv cs ws b) (fun q =>
          Ok (match q with None => None | Some (ws', b') => Some (w' :: ws', b') end)))
      end)
  | _, _ => Ok (Some ([], b))
  end.
(* process.rs:5-97 after the settings are known *)
Definition sso_block (fuel : nat) (tab : Z -> R) (k : coeffs) (stereo : bool) (att pinv : R) (hp : nat -> R) (cs : list sso_chan)
  (ws : list sso_voice) (b : sso_bufs) (o : sso_out) : res (option (list sso_voice * sso_bufs * sso_out * list (R * R))) :=
  obind (sso_voices fuel tab stereo att pinv cs ws b) (fun q =>
  match q with
  | None => Ok None
  | Some (ws', b') =>
      obind (sso_samples k stereo (att * (1 / pinv)) hp b' 64 0 o) (fun r =>
      Ok (Some (ws', sso_turn stereo b', fst r, snd r)))
  end).
