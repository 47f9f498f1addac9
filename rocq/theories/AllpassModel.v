(** All-pass reverb effect "reverb2" (surgefx-allpass): all-pass sections, one-pole dampers, modulated delays, pre-delay,
    the loop of four blocks, the control code of a block of samples.

    Conventions.
    - Samples and smoothed parameters are exact reals.  Arrays are total maps with explicit bounds; an index outside is a
      Panic, a failed assert! is a Panic, i32 arithmetic is checked ([i32]; the ranges in the theorems exclude overflow, so
      release builds agree).
    - ALLPASS_REVERB_NUM_BLOCKS = 4 blocks are a list of records; input_allpass is a list of four sections.
    - powf is [Rpower] (base 2 and db60); the two f32 constants 0.5508 and the millisecond literals are exact decimals.
    - The mid/side width stage and the dry/wet fade after the loop (process.rs:60-88) are block routines of BlockModel.v
      and are not repeated here.
    Definitions only; theorems in AllpassProps.v. *)
From Coq Require Import Reals.
From Verif Require Import Base Util BlockModel MathModel ParamModel AdsrModel LfoModel LagModel SmallModel UnitModel.
Local Open Scope R_scope.

(** constants.rs:1-11 *)
Definition AP_MAX : Z := 16384.
Definition AP_MASK : Z := AP_MAX - 1.
Definition AP_SUB_BITS : Z := 8.
Definition AP_SUB : Z := Z.shiftl 1 AP_SUB_BITS.
Definition PD_SIZE : Z := 48000 * 4 * 2.

(** a store into an array kept as a map *)
Definition put (f : Z -> R) (i : Z) (v : R) : Z -> R := fun j => if (j =? i)%Z then v else f j.

(** allpass.rs:4-8, 10-18 *)
Record allp := mk_ap { a_len : Z; a_k : Z; a_data : Z -> R }.
Definition ap_default : allp := mk_ap 1 0 (fun _ => 0).
(** allpass.rs:22 *)
Definition ap_set_len (s : allp) (len : Z) : allp := mk_ap len (a_k s) (a_data s).
(** allpass.rs:24-42 *)
Definition ap_process (s : allp) (input coeff : R) : res (allp * R) :=
  let k := (a_k s + 1)%Z in
  let k := if (a_len s <=? k)%Z then 0%Z else k in
  if ((0 <=? k) && (k <? AP_MAX))%Z then
    let delay_in := input - coeff * a_data s k in
    let result := a_data s k + coeff * delay_in in
    Ok (mk_ap (a_len s) k (put (a_data s) k delay_in), result)
  else Panic.

(** one_pole_filter.rs:10-18: (new a0, output) *)
Definition op_lowpass (a0 x c0 : R) : R * R := let a := a0 * c0 + x * (1 - c0) in (a, a).
Definition op_highpass (a0 x c0 : R) : R * R := let a := a0 * (1 - c0) + x * c0 in (a, x - a).

(** delay.rs:4-22 *)
Record adel := mk_ad { d_len : Z; d_k : Z; d_data : Z -> R }.
Definition ad_default : adel := mk_ad 1 0 (fun _ => 0).
Definition ad_set_len (s : adel) (len : Z) : adel := mk_ad len (d_k s) (d_data s).
Definition ad_get (s : adel) (i : Z) : res R := if ((0 <=? i) && (i <? AP_MAX))%Z then Ok (d_data s i) else Panic.
(** delay.rs:30-55; saturating_sub cannot saturate here; result, then the two tap outputs *)
Definition ad_process (s : adel) (input : R) (tap1 tap2 modulation : Z) : res (adel * (R * R * R)) :=
  obind (i32 (d_k s + 1)) (fun k1 =>
  let k := Z.land k1 AP_MASK in
  obind (i32 (k - tap1)) (fun i1 => obind (i32 (k - tap2)) (fun i2 =>
  obind (ad_get s (Z.land i1 AP_MASK)) (fun t1 => obind (ad_get s (Z.land i2 AP_MASK)) (fun t2 =>
  let mi := Z.shiftr modulation AP_SUB_BITS in
  let f1 := Z.land modulation (AP_SUB - 1) in
  let f2 := (AP_SUB - f1)%Z in
  obind (i32 (k - d_len s)) (fun b0 => obind (i32 (b0 + mi)) (fun b => obind (i32 (b + 1)) (fun b1 =>
  obind (ad_get s (Z.land b1 AP_MASK)) (fun d1 => obind (ad_get s (Z.land b AP_MASK)) (fun d2 =>
  let result := (d1 * IZR f1 + d2 * IZR f2) * (1 / IZR AP_SUB) in
  if ((0 <=? k) && (k <? AP_MAX))%Z then Ok (mk_ad (d_len s) k (put (d_data s) k input), (result, t1, t2)) else Panic)))))))))).

(** predelay.rs:4-16 *)
Record pdel := mk_pd { p_k : Z; p_data : Z -> R }.
Definition pd_default : pdel := mk_pd 0 (fun _ => 0).
(** predelay.rs:24-43 *)
Definition pd_process (s : pdel) (input : R) (tap : Z) : res (pdel * R) :=
  obind (i32 (p_k s + 1)) (fun k =>
  let k := if (k =? PD_SIZE)%Z then 0%Z else k in
  obind (i32 (k - tap)) (fun p =>
  obind (if (p <? 0)%Z then i32 (p + PD_SIZE) else Ok p) (fun p =>
  if negb (0 <? p)%Z then Panic else
  if ((0 <=? p) && (p <? PD_SIZE) && (0 <=? k) && (k <? PD_SIZE))%Z then Ok (mk_pd k (put (p_data s) k input), p_data s p) else Panic))).

(** one of the four blocks: allpass[[b,0]], allpass[[b,1]], hf_damper[b], lf_damper[b], delay[b], tap times and gains *)
Record ablock := mk_ab { b_a0 : allp; b_a1 : allp; b_hf : R; b_lf : R; b_del : adel; b_tl : Z; b_tr : Z; b_gl : R; b_gr : R }.
(** effect.rs:5-31 *)
Record averb := mk_av { v_in : list allp; v_blocks : list ablock; v_pre : pdel; v_state : R;
  v_decay : lipol; v_diff : lipol; v_build : lipol; v_hfc : lipol; v_lfc : lipol; v_mod : lipol; v_lfo : quadrosc; v_last : R }.

(** the smoothed values a sample sees *)
Record avals := mk_vals { s_decay : R; s_diff : R; s_build : R; s_hf : R; s_lf : R; s_mod : R }.
Definition vals_of (s : averb) : avals :=
  mk_vals (p_v (v_decay s)) (p_v (v_diff s)) (p_v (v_build s)) (p_v (v_hfc s)) (p_v (v_lfc s)) (p_v (v_mod s)).

(** block.rs:14-58: one block; gives the block, x, and what it adds to out_l, out_r *)
Definition do_block (q : avals) (lfo input : R) (b : ablock) (x : R) : res (ablock * R * (R * R)) :=
  let x := x + input in
  obind (ap_process (b_a0 b) x (s_build q)) (fun '(a0, x) =>
  obind (ap_process (b_a1 b) x (s_build q)) (fun '(a1, x) =>
  let '(hf, x) := op_lowpass (b_hf b) x (s_hf q) in
  let '(lf, x) := op_highpass (b_lf b) x (s_lf q) in
  let modulation := as_i32R (s_mod q * lfo * IZR AP_SUB) in
  obind (ad_process (b_del b) x (b_tl b) (b_tr b) modulation) (fun '(del, (x, tl, tr)) =>
  Ok (mk_ab a0 a1 hf lf del (b_tl b) (b_tr b) (b_gl b) (b_gr b), x * s_decay q, (tl * b_gl b, tr * b_gr b))))).
(** block.rs:93-104: the loop over the blocks; lfos are r, i, -r, -i *)
Fixpoint do_blocks (q : avals) (lfos : list R) (input : R) (bs : list ablock) (x ol orr : R) : res (list ablock * R * (R * R)) :=
  match lfos, bs with
  | lfo :: lfos', b :: bs' =>
      obind (do_block q lfo input b x) (fun '(b', x', (tl, tr)) =>
      obind (do_blocks q lfos' input bs' x' (ol + tl) (orr + tr)) (fun '(bs'', x'', o) => Ok (b' :: bs'', x'', o)))
  | _, _ => Ok (bs, x, (ol, orr))
  end.
(** block.rs:74-77: the four diffusers in series *)
Fixpoint diffuse (c : R) (l : list allp) (x : R) : res (list allp * R) :=
  match l with
  | [] => Ok ([], x)
  | a :: r => obind (ap_process a x c) (fun '(a', y) => obind (diffuse c r y) (fun '(r', z) => Ok (a' :: r', z)))
  end.
Definition lfos_of (o : quadrosc) : list R := [qo_r o; qo_i o; - qo_r o; - qo_i o].
(** block.rs:60-117: one sample.  lf_damp_coefficient is not advanced. *)
Definition av_sample (pdt : Z) (s : averb) (x : R * R) : res (averb * (R * R)) :=
  let q := vals_of s in
  let input := (fst x + snd x) * (1 / 2) in
  obind (pd_process (v_pre s) input pdt) (fun '(pre, input) =>
  obind (diffuse (s_diff q) (v_in s) input) (fun '(ins, input) =>
  obind (do_blocks q (lfos_of (v_lfo s)) input (v_blocks s) (v_state s) 0 0) (fun '(bs, st, out) =>
  Ok (mk_av ins bs pre st (lipol_process (v_decay s)) (lipol_process (v_diff s)) (lipol_process (v_build s))
            (lipol_process (v_hfc s)) (v_lfc s) (lipol_process (v_mod s)) (qo_process (v_lfo s)) (v_last s), out)))).
Fixpoint av_samples (pdt : Z) (s : averb) (xs : list (R * R)) : res (averb * list (R * R)) :=
  match xs with
  | [] => Ok (s, [])
  | x :: r => obind (av_sample pdt s x) (fun '(s1, y) => obind (av_samples pdt s1 r) (fun '(s2, ys) => Ok (s2, y :: ys)))
  end.

(** surge-samplerate/src/handle.rs:50-61; `as usize` of a real *)
Definition ms_2_samples (sr ms scale : R) : Z := Z.max 0 (truncR (sr * ms * (1 / 1000) * scale)).
(** calc_size.rs:9-38: per block tap_time_l, tap_time_r, the two section lengths and the delay length, in milliseconds *)
Definition size_table : list (R * R * R * R * R) :=
  [(803 / 10, 355 / 10, 382 / 10, 534 / 10, 1788 / 10);
   (593 / 10, 1016 / 10, 440 / 10, 410 / 10, 1265 / 10);
   (977 / 10, 739 / 10, 483 / 10, 605 / 10, 1061 / 10);
   (1226 / 10, 803 / 10, 389 / 10, 422 / 10, 1394 / 10)].
Definition in_table : list R := [476 / 100; 681 / 100; 1013 / 100; 1672 / 100].
(** `usize as i32` keeps the low 32 bits; the lengths here are far below 2^31 *)
Definition size_block (sr m : R) (b : ablock) (t : R * R * R * R * R) : ablock :=
  let '(tl, tr, l0, l1, d) := t in
  mk_ab (ap_set_len (b_a0 b) (ms_2_samples sr l0 m)) (ap_set_len (b_a1 b) (ms_2_samples sr l1 m)) (b_hf b) (b_lf b)
        (ad_set_len (b_del b) (ms_2_samples sr d m)) (ms_2_samples sr tl m) (ms_2_samples sr tr m) (b_gl b) (b_gr b).
Definition calc_size (sr m : R) (s : averb) : res averb :=
  if Rlt_dec 0 m then
    Ok (mk_av (map (fun '(a, ms) => ap_set_len a (ms_2_samples sr ms m)) (combine (v_in s) in_table))
              (map (fun '(b, t) => size_block sr m b t) (combine (v_blocks s) size_table))
              (v_pre s) (v_state s) (v_decay s) (v_diff s) (v_build s) (v_hfc s) (v_lfc s) (v_mod s) (v_lfo s) (v_last s))
  else Panic.
(** init.rs:5-31; BLOCK_SIZE = 32 *)
Definition new_block : ablock := mk_ab ap_default ap_default 0 0 ad_default 0 0 0 0.
Definition av_new : averb :=
  mk_av (repeat ap_default 4) (repeat new_block 4) pd_default 0
        (lipol_new 32) (lipol_new 32) (lipol_new 32) (lipol_new 32) (lipol_new 32) (lipol_new 32) qo_default 0.
(** update.rs:22-36, called by init (surge-macros/src/lib.rs:30-41) *)
Definition gain_table : list R := [15 / 10 / 4; 12 / 10 / 4; 1 / 4; 8 / 10 / 4].
Definition av_update (sr : R) (s : averb) : res averb :=
  calc_size sr 1
    (mk_av (v_in s)
           (map (fun '(b, g) => mk_ab (b_a0 b) (b_a1 b) (b_hf b) (b_lf b) (b_del b) (b_tl b) (b_tr b) g g) (combine (v_blocks s) gain_table))
           (v_pre s) (v_state s) (v_decay s) (v_diff s) (v_build s) (v_hfc s) (v_lfc s) (v_mod s) (v_lfo s) (v_last s)).

(** the parameters of a block (param.rs:5-18) *)
Record avpar := mk_avp { r_predelay : R; r_room : R; r_decay : R; r_diff : R; r_build : R; r_mod : R; r_lf : R; r_hf : R }.
Definition av_db60 : R := Rpower 10 (5 / 100 * -60).
Definition room_scale (room : R) : R := Rpower 2 (1 * room).
(** process.rs:29-31 *)
Definition decay_factor (room decay_time : R) : R :=
  Rpower av_db60 (5508 / 10000 * room_scale room / (4 * Rpower 2 decay_time)).
(** process.rs:54 *)
Definition pdt_of (sr predelay : R) : Z := as_i32R (sr * Rpower 2 predelay).
(** process.rs:12-52: the control part of a block; the ringout length (15-18) is not kept.  The LFO is set before the
    samples are processed; its rate is given by the sample rate. *)
Definition av_control (sr : R) (p : avpar) (s : averb) : res averb :=
  obind (calc_size sr (room_scale (r_room p)) s) (fun s =>
  obind (qo_set_rate (v_lfo s) (2 * PI * Rpower 2 (-2) * (1 / sr))) (fun lfo =>
  Ok (mk_av (v_in s) (v_blocks s) (v_pre s) (v_state s)
        (lipol_new_value (v_decay s) (decay_factor (r_room p) (r_decay p)))
        (lipol_new_value (v_diff s) (7 / 10 * r_diff p)) (lipol_new_value (v_build s) (7 / 10 * r_build p))
        (lipol_new_value (v_hfc s) (8 / 10 * r_hf p)) (lipol_new_value (v_lfc s) (2 / 10 * r_lf p))
        (lipol_new_value (v_mod s) (r_mod p * sr * (1 / 1000) * 5)) lfo (r_decay p)))).
(** process.rs:5-60: one block; the wet signal before width and mix *)
Definition av_process (sr : R) (p : avpar) (s : averb) (xs : list (R * R)) : res (averb * list (R * R)) :=
  obind (av_control sr p s) (fun s => av_samples (pdt_of sr (r_predelay p)) s xs).
(** a sequence of blocks with their parameters *)
Fixpoint av_run (sr : R) (l : list (avpar * list (R * R))) (s : averb) : res (averb * list (R * R)) :=
  match l with
  | [] => Ok (s, [])
  | (p, xs) :: r => obind (av_process sr p s xs) (fun '(s1, ys) => obind (av_run sr r s1) (fun '(s2, zs) => Ok (s2, ys ++ zs)))
  end.
