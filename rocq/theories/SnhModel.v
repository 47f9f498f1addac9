(* SnhModel.v - the sample-and-hold oscillator of surgeosc-snh, over exact reals. No proofs here.
   Modelled: the unison count (init.rs) and the detuning that reads it again, the settings of a block (update.rs), the drift noise, the impulse
   generator `convolute` with its random level, its period and its hard sync, the loop of process.rs, the impulse buffers (whose
   clearing and wrapping are those of SsoModel: ob_turn), the output integrator. Every random draw is an argument; the list of draws
   a loop is given also bounds its rounds.
   Not modelled: rounding; the approximate reciprocal `rcp` is 1/x; the loads of the impulse buffers are taken to be aligned, and so are
   the four-lane loads from a temporary copy of one table entry (convolute.rs:126-127, 156-157): lanes 1-3 of those read whatever
   lies behind the copy, here the argument `junk`. *)
From Coq Require Import Reals ZArith List Lia.
From Verif Require Import Base Util ParamModel LagModel SsoModel VocModel.
Import ListNotations.
Local Open Scope R_scope.

(** ** Settings *)
(* surge-param/src/pdata.rs:13-21: reading an integer from a float parameter panics *)
Definition as_int (d : pdata) : res Z := match d with PInt n => Ok n | PFloat _ => Panic end.
(* init.rs:24-26 *)
Definition snh_init_unison (count : pdata) : res Z := obind (as_int count) (fun n => Ok (Z.max 1 (Z.min 16 n))).
(* convolute.rs:18-23 *)
Definition snh_detune (n_unison : Z) (count : pdata) (drift driftlfo bias offset : R) (voice : nat) : res R :=
  let d := drift * driftlfo in
  if (1 <? n_unison)%Z then obind (as_float count) (fun u => Ok (d + u * (bias * INR voice + offset))) else Ok d.
(* surge-math/src/correlated_noise.rs:57-66, f = 0.00001, r = rand11() *)
Definition drift_noise (r lastval : R) : R := (lastval * (1 - 1 / 100000) + r * (1 / 100000)) * (1 / sqrt (1 / 100000)).
(* process.rs:58, 79: driftlfo[l] = drift_noise(driftlfo2[l]); the pair is (driftlfo, driftlfo2) *)
Definition drift_step (r : R) (s : R * R) : R * R := (drift_noise r (snd s), snd s).
(* update.rs:13-15 and 34-42, process.rs:31-35; correlation is not limited *)
Definition snh_sync_step_lag (start : bool) (l : lag) (x : R) : lag := let l := lag_new_value l (Rmax 0 x) in if start then lag_instantize l else lag_process l.
Definition snh_pw_lag (start : bool) (l : lag) (x : R) : lag := let l := lag_new_value l (limR3 x (1 / 1000) (999 / 1000)) in if start then lag_instantize l else lag_process l.
Definition snh_shape_lag (start : bool) (l : lag) (x : R) : lag := let l := lag_new_value l x in if start then lag_instantize l else lag_process l.
(* what one convolute call reads beside the voice's own state *)
Record snh_cfg := {
  n_sync : R;   (* l_sync.v *)
  n_pw : R;     (* l_pw.v *)
  n_wf : R;     (* 0.8 * l_shape.v, convolute.rs:88 before the sign *)
  n_t : R;      (* the period, convolute.rs:70-84 *)
  n_T : R       (* n2pinv_tuningctr(detune): the period of the sync master, convolute.rs:41 *)
}.
(* convolute.rs:70-84 *)
Definition snh_period (inv_true inv_ctr : R -> R) (absolute : bool) (pitch sync detune : R) : R :=
  if absolute then Rmax (1 / 10) (inv_true (detune * inv_true pitch * 16 / 0.9443)) else inv_ctr (detune + sync).

(** ** Impulses *)
(* oscstate, syncstate, state, pwidth, last_level of one voice *)
Record snh_voice := { h_osc : R; h_sync : R; h_state : Z; h_pw : R; h_last : R }.
(* position and height of an impulse *)
Record snh_ev := { v_pos : R; v_g : R }.
(* convolute.rs:88-95 *)
Definition snh_level (wf r last : R) : R := Rmin (1 / 2) (Rmax (- (1 / 2)) ((r * (1 - Rabs wf) - wf * last) * (1 / (1 - Rabs wf)))).
(* convolute.rs:17-178 without the buffers; r = rand11() *)
Definition snh_convolute (c : snh_cfg) (r : R) (v : snh_voice) : snh_voice * snh_ev :=
  let synced := if Rlt_dec (h_sync v) (h_osc v) then true else false in
  let inv := if (synced && (h_state v =? 1)%Z)%bool then -1 else 1 in
  let pos := if synced then h_sync v else h_osc v in
  let state := if synced then 0%Z else h_state v in
  let sync := if synced then h_sync v + n_T c else h_sync v in
  let level := snh_level (n_wf c * inv) r (h_last v) in
  let pw := if (state =? 0)%Z then n_pw c else h_pw v in
  let rate := if (Z.land state 1 =? 0)%Z then n_t c * pw else n_t c * (1 - pw) in
  ({| h_osc := Rmax 0 (pos + rate); h_sync := sync; h_state := Z.land (state + 1) 1; h_pw := pw; h_last := level |},
   {| v_pos := pos; v_g := level - h_last v |}).
(* process.rs:81: unlike the super oscillator's, the condition does not ask whether sync is on *)
Definition snh_more (a : R) (v : snh_voice) : bool :=
  (if Rlt_dec (h_sync v) a then true else false) || (if Rlt_dec (h_osc v) a then true else false).
(* process.rs:81-86: None when the draws have run out before the end; the last component is what is left of them *)
Fixpoint snh_loop (ds : list R) (c : snh_cfg) (a : R) (v : snh_voice) : option (snh_voice * list snh_ev * list R) :=
  if snh_more a v then
    match ds with
    | [] => None
    | r :: ds =>
        let '(v1, e) := snh_convolute c r v in
        match snh_loop ds c a v1 with None => None | Some (v', es, ds') => Some (v', e :: es, ds') end
    end
  else Some (v, [], ds).
(* process.rs:88-92 *)
Definition snh_advance (c : snh_cfg) (a : R) (v : snh_voice) : snh_voice :=
  {| h_osc := h_osc v - a; h_sync := if Rlt_dec 0 (n_sync c) then h_sync v - a else h_sync v; h_state := h_state v; h_pw := h_pw v; h_last := h_last v |}.
Definition snh_voice_block (ds : list R) (c : snh_cfg) (a : R) (v : snh_voice) : option (snh_voice * list snh_ev * list R) :=
  match snh_loop ds c a v with None => None | Some (v', es, ds') => Some (snh_advance c a v', es, ds') end.
(* set_pitch.rs:18-60: the voice at the start of a note; ctr = n2p_tuningctr(detune); on = retrigger || is_display *)
Definition snh_start (on : bool) (draw ctr pw : R) : snh_voice :=
  let st := draw * ctr * (1 / 2) in
  {| h_osc := if on then 0 else st; h_sync := if on then 0 else st; h_state := 0; h_pw := limR3 pw (1 / 1000) (999 / 1000); h_last := 0 |}.

(** ** Buffers *)
(* convolute.rs:33-37, 43: `as i32` truncates and saturates *)
Definition snh_ipos (pinv pos : R) : Z := Z.max (-2147483648) (Z.min 2147483647 (let x := 16777216 * (pos * pinv) in if Rle_dec 0 x then Int_part x else (- Int_part (- x))%Z)).
(* convolute.rs:126-130, 156-160: lane j mod 4 of the load at entry m + 4 (j/4); the index is bounds checked (sso_delay, sso_m, sso_lipol: SsoModel) *)
Definition snh_row (tab : Z -> R) (junk : Z -> nat -> R) (i : Z) (lane : nat) : res R :=
  obind (sinc_at tab i) (fun x => Ok (match lane with O => x | _ => junk i lane end)).
Definition snh_tap (tab : Z -> R) (junk : Z -> nat -> R) (g : R) (bufpos delay : nat) (m : Z) (lipol : R) (b : list R) (j : nat) : res (list R) :=
  let k := (4 * (j / 4))%nat in
  obind (snh_row tab junk (m + Z.of_nat k) (j mod 4)) (fun st =>
  obind (snh_row tab junk (m + Z.of_nat k + 12) (j mod 4)) (fun so =>
  ob_add b (bufpos + j + delay) (g * (st + so * lipol)))).
(* convolute.rs:149-166: the three groups of four lanes *)
Definition snh_convolve (tab : Z -> R) (junk : Z -> nat -> R) (g : R) (bufpos : nat) (ipos : Z) (b : list R) : res (list R) :=
  foldR (fun b j => snh_tap tab junk g bufpos (sso_delay ipos) (sso_m ipos) (sso_lipol ipos) b j) b (seq 0 12).

(** ** Output *)
(* process.rs:97-129, one sample of one channel: dc is never changed; oa = out_attenuation * pitchmult *)
Definition snh_sample (oa hpf dc b out : R) : R := out * hpf + (b - dc * oa).
Fixpoint snh_samples (oa dc : R) (xs : list (R * R)) (out : R) : list R :=
  match xs with [] => [] | (hpf, b) :: r => let o := snh_sample oa hpf dc b out in o :: snh_samples oa dc r o end.
(* update.rs:19-30: the high-pass gain of a block; pp = n2p_tuningctr(pitch + sync) *)
Definition snh_hpf (sr_os_inv pp : R) : R := Rmin (999 / 1000) (Rpower (995 / 1000) (4 * Rmin 1 (8.175798915 * pp * sr_os_inv))).
(* process.rs:54-66: the FM path reads the null pointer master_osc of new.rs:18 before anything else *)
Definition snh_block_entry (fm : bool) : res unit := if fm then Panic else Ok tt.
