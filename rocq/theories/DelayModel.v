(* DelayModel.v - surgefx-dualdelay: the stereo delay. Sample arithmetic over the reals. The two rows of the delay buffer are
   total maps with explicit bounds (2^18 + 12 cells each): an access outside is a Panic (for raw pointers: undefined behaviour).
   The effect's other blocks live in one memory at fixed disjoint places (they are separate fields / arguments in the code). *)
From Coq Require Import Reals.
From Verif Require Import Base Util F32 BlockModel MathModel ParamModel AdsrModel LfoModel.
Local Open Scope Z_scope.

(* dual_delay.rs:3; surge-constants/src/lib.rs:74, 90; init.rs:80-82 *)
Definition DLEN : Z := 262144.
Definition FIRN : Z := 12.
Definition FIRM : Z := 256.
Definition DCELLS : Z := DLEN + FIRN.
Definition dbuf : Type := Z -> R.

(* block.rs:12-23 get_dtime, 25-30 get_rp, 32-41 get_sinc; v is the smoothed delay time in samples *)
Definition dd_dtime (v : R) : Z := Z.max 32 (Z.min (as_i32R v) (DLEN - FIRN - 1)).
Definition dd_rp (wpos dt k : Z) : Z := Z.land ((wpos - dt + k) - FIRN) (DLEN - 1).
Definition dd_sinc (dt : Z) (v : R) : Z := FIRN * limit_range_i (as_i32R (IZR FIRM * (IZR (dt + 1) - v))%R) 0 (FIRM - 1).
(* block.rs:43-108, one channel: three unaligned loads of 4 from the buffer row, three loads of 4 from the sinc table (which
   has (FIR_IPOL_M + 1) * FIR_IPOL_N entries), products summed lane-wise, then across lanes *)
Definition dd_read (tab : Z -> R) (b : dbuf) (wpos k : Z) (v : R) : res R :=
  let dt := dd_dtime v in let rp := dd_rp wpos dt k in let si := dd_sinc dt v in
  if (0 <=? rp) && (rp + 12 <=? DCELLS) && (0 <=? si) && (si + 12 <=? (FIRM + 1) * FIRN) then
    Ok (v_sum arithR (fun j => (tab (si + j)%Z * b (rp + j)%Z + tab (si + 4 + j)%Z * b (rp + 4 + j)%Z + tab (si + 8 + j)%Z * b (rp + 8 + j)%Z)%R))
  else Panic.

(* set_buffer.rs:5-41, one channel; w k is sample k of the wet block *)
Definition bset (b : dbuf) (i : Z) (x : R) : res dbuf :=
  if (0 <=? i) && (i <? DCELLS) then Ok (fun j => if j =? i then x else b j) else Panic.
Definition dd_write (b : dbuf) (wpos : Z) (w : Z -> R) : res dbuf :=
  obind (if DLEN <=? wpos + 32 then foldM (fun b k => bset b (Z.land (wpos + k) (DLEN - 1)) (w k)) (map Z.of_nat (seq 0 32)) b
         else if (0 <=? wpos) && (wpos + 32 <=? DCELLS) then Ok (fun i => if (wpos <=? i) && (i <? wpos + 32) then w (i - wpos) else b i) else Panic) (fun b1 =>
  if wpos =? 0 then foldM (fun b k => bset b (k + DLEN) (b k)) (map Z.of_nat (seq 0 12)) b1 else Ok b1).
(* process.rs:158-161 update_wpos *)
Definition dd_advance (wpos : Z) : Z := Z.land (wpos + 32) (DLEN - 1).

(* dual_delay.rs:7-40, without the filters, lags, tables and handles *)
Record ddelay := { dd_fb : lipolps R; dd_cf : lipolps R; dd_pan : lipolps R; dd_mix : lipolps R; dd_width : lipolps R; dd_bl : dbuf; dd_br : dbuf; dd_wpos : Z }.
(* init.rs:5-57: new / init: buffers cleared, write position 0; pan, mix, feedback, crossfeed get the block size, width does not *)
Definition dd_new : ddelay :=
  {| dd_fb := ps_new_with_blocksize arithR 32; dd_cf := ps_new_with_blocksize arithR 32; dd_pan := ps_new_with_blocksize arithR 32;
     dd_mix := ps_new_with_blocksize arithR 32; dd_width := ps_default arithR; dd_bl := fun _ => 0%R; dd_br := fun _ => 0%R; dd_wpos := 0 |}.
(* where the 32-sample blocks live *)
Definition SCL : Z := 0.    (* scratch_left *)
Definition SCR : Z := 32.   (* scratch_right *)
Definition WETL : Z := 64.  (* wetblock.l *)
Definition WETR : Z := 96.
Definition MID : Z := 128.  (* MSBlock of do_mid_side *)
Definition SIDE : Z := 160.
Definition INL : Z := 192.  (* data_l, in and out *)
Definition INR_ : Z := 224. (* data_r *)
Definition fill (m : mem R) (p n : Z) (f : Z -> R) : mem R := fun a => if (p <=? a) && (a <? p + n) then f (a - p) else m a.
(* process.rs:19-22: the 32 reads of a block; tl k, tr k are the smoothed delay times at sample k *)
Definition dd_reads (tab : Z -> R) (b : dbuf) (wpos : Z) (t : Z -> R) (p : Z) (m : mem R) : res (mem R) :=
  foldM (fun m k => obind (dd_read tab b wpos k (t k)) (fun x => Ok (fill m (p + k) 1 (fun _ => x)))) (map Z.of_nat (seq 0 32)) m.
(* process.rs:5-44, 50-161. `filt` is the two biquad filters acting on the scratch blocks (do_filters, 71-85). update() has
   already set the ramps' targets. *)
Definition dd_process (tab : Z -> R) (filt : mem R -> mem R) (tl tr : Z -> R) (d : ddelay) (m : mem R) : res (ddelay * mem R) :=
  let m := fill (fill (fill (fill m SCL 32 (fun _ => 0%R)) SCR 32 (fun _ => 0%R)) WETL 32 (fun _ => 0%R)) WETR 32 (fun _ => 0%R) in
  obind (dd_reads tab (dd_bl d) (dd_wpos d) tl SCL m) (fun m =>
  obind (dd_reads tab (dd_br d) (dd_wpos d) tr SCR m) (fun m =>
  let m := softclip_block arithR (softclip_block arithR m SCL 8) SCR 8 in
  let m := filt m in
  let m := ps_trixpan_blocks arithR (dd_pan d) m INL INR_ WETL WETR 8 in
  let m := ps_mac_2_blocks_to arithR (dd_fb d) m SCL SCR WETL WETR 8 in
  let m := ps_mac_2_blocks_to arithR (dd_fb d) m SCL SCR WETR WETL 8 in
  obind (dd_write (dd_bl d) (dd_wpos d) (fun k => m (WETL + k))) (fun bl =>
  obind (dd_write (dd_br d) (dd_wpos d) (fun k => m (WETR + k))) (fun br =>
  let m := fill (fill m MID 32 (fun _ => 0%R)) SIDE 32 (fun _ => 0%R) in
  let m := encode_mid_side arithR m SCL SCR MID SIDE 8 in
  let m := ps_multiply_block arithR (dd_width d) m SIDE 8 in
  let m := decode_mid_side arithR m MID SIDE SCL SCR 8 in
  let m := ps_fade_2_blocks_to arithR (dd_mix d) m INL SCL INR_ SCR INL INR_ 8 in
  Ok ({| dd_fb := dd_fb d; dd_cf := dd_cf d; dd_pan := dd_pan d; dd_mix := dd_mix d; dd_width := dd_width d; dd_bl := bl; dd_br := br; dd_wpos := dd_advance (dd_wpos d) |}, m))))).

(* update.rs:18-43, the triangle of the delay-time modulation: rate is the increment per block, inc the depth term *)
Record ddlfo := { dl_phase : R; dl_val : R; dl_dir : bool }.
Definition dd_lfo (s : ddlfo) (rate inc : R) : ddlfo :=
  let p := (dl_phase s + rate)%R in
  let '(p, dir) := if Rlt_dec (1 / 2) p then ((p - 1)%R, negb (dl_dir s)) else (p, dl_dir s) in
  {| dl_phase := p; dl_val := if dir then (99 / 100 * dl_val s + inc)%R else (99 / 100 * dl_val s - inc)%R; dl_dir := dir |}.
(* update.rs:46-66: the delay time in samples aimed at: sr samples per second, ratio the tempo ratio, pitch = 2^time, lfo the
   modulation; FIR_OFFSET_F32 = 6 *)
Definition dd_target (sr ratio pitch lfo : R) : R := (sr * (ratio * pitch) + lfo - 6)%R.
