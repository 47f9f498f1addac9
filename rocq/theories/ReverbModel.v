(** Reverb effect (surgefx-reverb): sixteen damped delay lines with a shared feedback, the pre-delay, presets.

    Conventions.
    - Samples are exact reals.  The ndarrays are total maps with explicit bounds: `delay` has 16 * 32768 cells,
      `predelay` 32768 (new.rs:9-35); an index outside is a Panic.  The 16-entry arrays (out_tap, delay_fb, pans,
      delay_time) are only indexed by the tap numbers 0..15.
    - [chk] says whether integer overflow is checked (a debug build); when not, `usize` subtraction wraps at 2^64.
    - The three biquads, the mid/side stage, width and mix after the network are not part of this file (they are
      modelled in BiquadModel.v and BlockModel.v).
    Definitions only; theorems in ReverbProps.v. *)
From Coq Require Import Reals.
From Verif Require Import Base Util BlockModel MathModel AdsrModel LfoModel.
Local Open Scope R_scope.

(** constants.rs:3-7 *)
Definition RV_MAX : Z := Z.shiftl 1 15.
Definition RV_TAPBITS : Z := 4.
Definition RV_TAPS : Z := Z.shiftl 1 RV_TAPBITS.

(** reverb.rs:5-28, the fields of the network *)
Record reverb := mk_rv { rv_delay : Z -> R; rv_pre : Z -> R; rv_out : Z -> R; rv_pos : Z; rv_fb : Z -> R; rv_time : Z -> Z; rv_pl : Z -> R; rv_pr : Z -> R }.

(** block.rs:11-24; delay_pos is below 32768, the shifted time below 2^23 in size, so the i32 difference is in range *)
Definition delay_idx (s : reverb) (tap offset : Z) : Z :=
  let dp := (rv_pos s - Z.shiftr (as_i32 (rv_time s (tap + offset))) 8)%Z in
  let dp := Z.land dp (RV_MAX - 1) in
  (tap + offset + Z.shiftl dp RV_TAPBITS)%Z.
Definition rv_get (s : reverb) (i : Z) : res R :=
  if ((0 <=? i) && (i <? RV_TAPS * RV_MAX))%Z then Ok (rv_delay s i) else Panic.
(** four lanes stored at p *)
Definition store4 (a : Z -> R) (p : Z) (v : Z -> R) : Z -> R := fun i => if ((p <=? i) && (i <? p + 4))%Z then v (i - p)%Z else a i.
(** pre_tap.rs:5-33 *)
Definition do_pre_tap (damp damp1 : R) (s : reverb) (tap : Z) : res reverb :=
  obind (rv_get s (delay_idx s tap 0)) (fun a => obind (rv_get s (delay_idx s tap 1)) (fun b =>
  obind (rv_get s (delay_idx s tap 2)) (fun c => obind (rv_get s (delay_idx s tap 3)) (fun d =>
  let new4 := fun j : Z => if (j =? 0)%Z then a else if (j =? 1)%Z then b else if (j =? 2)%Z then c else d in
  let o := fun j => rv_out s (tap + j)%Z * damp + new4 j * damp1 in
  Ok (mk_rv (rv_delay s) (rv_pre s) (store4 (rv_out s) tap o) (rv_pos s) (rv_fb s) (rv_time s) (rv_pl s) (rv_pr s)))))).
(** block.rs:74-83 *)
Definition do_pre_taps (damp : R) (s : reverb) : res reverb := foldM (do_pre_tap damp (1 - damp)) [0; 4; 8; 12]%Z s.
(** get.rs:5-44; predelay_time is an i32, `as usize` sign-extends to 64 bits *)
Definition usize_sub (chk : bool) (a b : Z) : res Z :=
  let b := (b mod 2 ^ 64)%Z in
  if (chk && (a <? b)%Z)%bool then Panic else Ok ((a - b) mod 2 ^ 64)%Z.
Definition get_fb (chk : bool) (pd : Z) (s : reverb) : res R :=
  let o := rv_out s in
  let sum4 := fun j : Z => (o j + o (4 + j)%Z) + (o (8 + j)%Z + o (12 + j)%Z) in
  let fb := v_sum arithR sum4 in
  obind (usize_sub chk (rv_pos s) pd) (fun pos =>
  let idx := Z.land pos (RV_MAX - 1) in
  if ((0 <=? idx) && (idx <? RV_MAX))%Z then Ok (-2 / IZR RV_TAPS * fb + rv_pre s idx) else Panic).
(** post_tap.rs:5-27 *)
Definition do_post_tap (fb : R) (st : reverb * (Z -> R) * (Z -> R)) (tap : Z) : res (reverb * (Z -> R) * (Z -> R)) :=
  let '(s, l, r) := st in
  let ot := fun j => rv_out s (tap + j)%Z in
  let a := fun j => rv_fb s (tap + j)%Z * (fb + ot j) in
  let p := (Z.shiftl (rv_pos s) RV_TAPBITS + tap)%Z in
  if ((0 <=? p) && (p + 4 <=? RV_TAPS * RV_MAX))%Z then
    Ok (mk_rv (store4 (rv_delay s) p a) (rv_pre s) (rv_out s) (rv_pos s) (rv_fb s) (rv_time s) (rv_pl s) (rv_pr s),
        fun j => l j + ot j * rv_pl s (tap + j)%Z, fun j => r j + ot j * rv_pr s (tap + j)%Z)
  else Panic.
(** block.rs:85-102 *)
Definition do_post_taps (chk : bool) (pd : Z) (s : reverb) : res (reverb * (Z -> R) * (Z -> R)) :=
  obind (get_fb chk pd s) (fun fb => foldM (do_post_tap fb) [0; 4; 8; 12]%Z (s, fun _ => 0, fun _ => 0)).
(** block.rs:104-128: one sample of the block; damp is the Damping value, pd the pre-delay in samples *)
Definition rv_sample (chk : bool) (damp : R) (pd : Z) (s : reverb) (x : R * R) : res (reverb * (R * R)) :=
  obind (do_pre_taps damp s) (fun s =>
  let pos := Z.land (rv_pos s + 1) (RV_MAX - 1) in
  if ((0 <=? pos) && (pos <? RV_MAX))%Z then
    let pre := fun i => if (i =? pos)%Z then (1 / 2) * (fst x + snd x) else rv_pre s i in
    let s := mk_rv (rv_delay s) pre (rv_out s) pos (rv_fb s) (rv_time s) (rv_pl s) (rv_pr s) in
    obind (do_post_taps chk pd s) (fun '(s, l, r) => Ok (s, (v_sum arithR l, v_sum arithR r)))
  else Panic).

(** block.rs:26-37: sr the sample rate (truncated to an integer), pitch = n2p(12 * PreDelay), tsr_inv the tempo ratio *)
Definition predelay_time (sr : Z) (pitch tsr_inv : R) : Z := as_i32R (IZR sr * pitch * tsr_inv).

(** init.rs:42-56 *)
Definition pan_x (t : Z) : R := -1 + 2 * (IZR t / (IZR RV_TAPS - 1)).
Definition pan_l (t : Z) : R := sqrt (1 / 2 - 495 / 1000 * pan_x t).
Definition pan_r (t : Z) : R := sqrt (1 / 2 + 495 / 1000 * pan_x t).

(** preset.rs:5-12 ReverbPreset; 16-49 the tables *)
Inductive preset := PA | PB | PC | PD.
Definition preset_times (p : preset) : list Z :=
  match p with
  | PA => [1339934; 0962710; 1004427; 1103966; 1198575; 1743348; 1033425; 0933313; 0949407; 1402754; 1379894; 1225304; 1135598; 1402107; 0956152; 1137737]
  | PB => [1265607; 0844703; 0856159; 1406425; 0786608; 1163557; 1091206; 1129434; 1270379; 0896997; 1415393; 0782808; 0868582; 1234463; 1000336; 0968299]
  | PC => [1293101; 1334867; 1178781; 1850949; 1663760; 1982922; 1211021; 1824481; 1520266; 1351822; 1102711; 1513696; 1057618; 1671799; 1406360; 1170468]
  | PD => [1833435; 2462309; 2711583; 2219764; 1664194; 2109157; 1626137; 1434473; 2271242; 1621375; 1831218; 2640903; 1577737; 1871624; 2439164; 1427343]
  end%Z.
(** the enum conversion of enhanced_enum!, `as i32` and try_from *)
Definition preset_num (p : preset) : Z := match p with PA => 0 | PB => 1 | PC => 2 | PD => 3 end.
Definition preset_of (i : Z) : res preset :=
  if (i =? 0)%Z then Ok PA else if (i =? 1)%Z then Ok PB else if (i =? 2)%Z then Ok PC else if (i =? 3)%Z then Ok PD else Panic.
(** preset.rs:67-75: `as usize` of a non-negative real (negative values saturate at 0); rounding of the products ignored *)
Definition as_usizeR (x : R) : Z := Z.max 0 (truncR x).
Definition scaled_time (room : R) (t : Z) : Z := as_usizeR (2 * room * IZR t).
(** update.rs:52-62: db60 = 10^(0.05 * -60) *)
Definition db60 : R := Rpower 10 (5 / 100 * -60).
Definition fb_gain (sr : Z) (decay : R) (t : Z) : R := Rpower db60 (IZR t / (256 * IZR sr * Rpower 2 decay)).

(** the whole effect: the network plus what process.rs, update.rs and preset.rs keep *)
Record rvfx := mk_rvfx { fx_net : reverb; fx_preset : preset; fx_b : Z; fx_lastroom : R; fx_lastdecay : R }.
(** the parameters read by the control code *)
Record rvpar := { pr_shape : Z; pr_room : R; pr_decay : R }.
(** update.rs:47-72 (the ringout length is not kept here) *)
Definition update_rtime (sr : Z) (p : rvpar) (f : rvfx) : rvfx :=
  let n := fx_net f in
  mk_rvfx (mk_rv (rv_delay n) (rv_pre n) (rv_out n) (rv_pos n) (fun t => fb_gain sr (pr_decay p) (rv_time n t)) (rv_time n) (rv_pl n) (rv_pr n))
          (fx_preset f) (fx_b f) (fx_lastroom f) (pr_decay p).
(** preset.rs:54-80 with clear.rs:3-14 *)
Definition load_preset (sr : Z) (p : rvpar) (q : preset) (f : rvfx) : rvfx :=
  let n := fx_net f in
  let tm := fun t => if ((0 <=? t) && (t <? RV_TAPS))%Z then scaled_time (pr_room p) (nth (Z.to_nat t) (preset_times q) 0%Z) else 0%Z in
  update_rtime sr p (mk_rvfx (mk_rv (fun _ => 0) (fun _ => 0) (rv_out n) (rv_pos n) (rv_fb n) tm (rv_pl n) (rv_pr n)) q (fx_b f) (pr_room p) (fx_lastdecay f)).
(** process.rs:44-67 *)
Definition maybe_update_preset (sr : Z) (p : rvpar) (f : rvfx) : res rvfx :=
  let diff := Rabs (pr_room p - fx_lastroom f) in
  let requested := negb (pr_shape p =? preset_num (fx_preset f))%Z in
  let need := (fx_b f =? 0)%Z && (if Rlt_dec (1 / 1000) diff then true else false) in
  if need || requested then obind (preset_of (pr_shape p)) (fun q => Ok (load_preset sr p q f)) else Ok f.
(** update.rs:5-13: need_recalc_coefficients *)
Definition next_b (f : rvfx) : rvfx := mk_rvfx (fx_net f) (fx_preset f) (Z.land (fx_b f + 1) 31) (fx_lastroom f) (fx_lastdecay f).
(** process.rs:10-21: the control part of stereo_process *)
Definition rv_control (sr : Z) (p : rvpar) (f : rvfx) : res rvfx :=
  let need_rt := if Rlt_dec (1 / 1000) (Rabs (pr_decay p - fx_lastdecay f)) then true else false in
  obind (maybe_update_preset sr p f) (fun f => Ok (next_b (if need_rt then update_rtime sr p f else f))).
(** process.rs:52-72 of block.rs: the 32 samples of a block *)
Fixpoint rv_samples (chk : bool) (damp : R) (pd : Z) (s : reverb) (xs : list (R * R)) : res (reverb * list (R * R)) :=
  match xs with
  | [] => Ok (s, [])
  | x :: r => obind (rv_sample chk damp pd s x) (fun '(s1, y) => obind (rv_samples chk damp pd s1 r) (fun '(s2, ys) => Ok (s2, y :: ys)))
  end.
(** new.rs:5-36 then init.rs:5-31: load_preset A, update_rsize, taps, delay_pos *)
Definition rv_init (sr : Z) (p : rvpar) : rvfx :=
  let z := mk_rv (fun _ => 0) (fun _ => 0) (fun _ => 0) 0 (fun _ => 0) (fun _ => 0%Z) (fun _ => 0) (fun _ => 0) in
  let f := load_preset sr p PA (mk_rvfx z PA 0 0 0) in
  let f := load_preset sr p (fx_preset f) f in
  let n := fx_net f in
  mk_rvfx (mk_rv (rv_delay n) (rv_pre n) (fun _ => 0) 0 (rv_fb n) (rv_time n) pan_l pan_r) (fx_preset f) 0 (fx_lastroom f) (fx_lastdecay f).
