(* FshiftModel.v - surgefx-freqshift: the frequency shifter. No proofs here.
   Samples, gains and angles are exact reals (the f64 -> f32 casts of the oscillators are the identity). Blocks are lists of 32 pairs
   (N = BLOCK_SIZE). Left out: ringout, inithadtempo and the two lags shift_l, shift_r (never read while processing).
   i32 arithmetic is checked (debug profile). *)
From Coq Require Import Reals.
From Verif Require Import Base Util BlockModel RampProps LagModel MathModel ParamModel LfoModel UnitModel DelayModel HalfModel ChorusModel RotaryModel.
Local Open Scope R_scope.

(* freq_shift.rs:8-29 *)
Record fshift := mk_fs { fs_fr : half; fs_fi : half; fs_mix : lipolps R; fs_fb : lipol; fs_time : lag; fs_bl : dbuf; fs_br : dbuf; fs_wpos : Z;
  fs_o1l : quadrosc; fs_o2l : quadrosc; fs_o1r : quadrosc; fs_o2r : quadrosc }.
(* what update() reads: gain = amp_to_linear(Feedback), pitch = n2p(12 Delay), whether Delay is tempo-synced and the inverse tempo ratio,
   Mix, Shift and whether its range is extended, RMult *)
Record fspar := mk_fp { fp_gain : R; fp_pitch : R; fp_sync : bool; fp_inv : R; fp_mix : R; fp_shift : R; fp_ext : bool; fp_rmult : R }.
(* update.rs:9-17; FIR_OFFSET = 6 *)
Definition fs_target (sr : R) (p : fspar) : R := sync (fp_sync p) (fp_inv p) * sr * fp_pitch p - 6.
(* update.rs:23-27 *)
Definition fs_omega (sr : R) (p : fspar) : R := fp_shift p * (if fp_ext p then 1000 else 10) * PI * 2 * (1 / sr).
(* update.rs:33; f32::EPSILON = 2^-23 *)
Definition fs_locked (p : fspar) : bool := if Rlt_dec (Rabs (fp_rmult p - 1)) (1 / 8388608) then true else false.
(* update.rs:35-39, one oscillator *)
Definition fs_lock (l r : quadrosc) : quadrosc :=
  mk_qo (1 / 100 * qo_r l + (1 - 1 / 100) * qo_r r) (1 / 100 * qo_i l + (1 - 1 / 100) * qo_i r) (qo_dr r) (qo_di r).
(* update.rs:41-44 *)
Definition fs_omega_r (sr : R) (p : fspar) : R := if fs_locked p then fs_omega sr p else fs_omega sr p * fp_rmult p * fp_rmult p.
(* update.rs:29-30, 46-47 *)
Definition fs_rate1 (w : R) : R := PI * (1 / 2) - Rmin 0 w.
Definition fs_rate2 (w : R) : R := PI * (1 / 2) + Rmax 0 w.
(* update.rs:5-47 *)
Definition fs_update (sr : R) (p : fspar) (s : fshift) : res fshift :=
  let w := fs_omega sr p in let wr := fs_omega_r sr p in
  obind (qo_set_rate (fs_o1l s) (fs_rate1 w)) (fun a =>
  obind (qo_set_rate (fs_o2l s) (fs_rate2 w)) (fun b =>
  obind (qo_set_rate (if fs_locked p then fs_lock a (fs_o1r s) else fs_o1r s) (fs_rate1 wr)) (fun c =>
  obind (qo_set_rate (if fs_locked p then fs_lock b (fs_o2r s) else fs_o2r s) (fs_rate2 wr)) (fun d =>
  Ok (mk_fs (fs_fr s) (fs_fi s) (ps_set_target_smoothed arithR (fs_mix s) (fp_mix p)) (lipol_new_value (fs_fb s) (fp_gain p)) (lag_new_value (fs_time s) (fs_target sr p))
    (fs_bl s) (fs_br s) (fs_wpos s) a b c d))))).
(* init.rs:5-22 *)
Definition fs_init (sr : R) (p : fspar) (s : fshift) : res fshift :=
  fs_update sr p (mk_fs (half_reset (fs_fr s)) (half_reset (fs_fi s)) (fs_mix s) (fs_fb s) (fs_time s) (fun _ => 0) (fun _ => 0) 0 (fs_o1l s) (fs_o2l s) (fs_o1r s) (fs_o2r s)).
(* init.rs:28-57 *)
Definition fs_new (sr : R) (p : fspar) : res fshift :=
  obind (half_new 6 true) (fun h =>
  fs_init sr p (mk_fs h h (ps_default arithR) (lipol_new 32) (lag_new (1 / 10000)) (fun _ => 0) (fun _ => 0) 0 qo_default qo_default qo_default qo_default)).
(* init.rs:65-71 *)
Definition fs_suspend (sr : R) (p : fspar) (s : fshift) : res fshift := fs_init sr p s.
(* pre_block.rs:18-25 *)
Definition fs_dtime (v : R) : Z := Z.max 44 (Z.min (as_i32R v) (DLEN - 13)).
(* pre_block.rs:29-37: the cast comes before the multiplication *)
Definition fs_sinc (dt : Z) (v : R) : res Z := obind (i32 (256 * as_i32R (IZR (dt + 1) - v))) (fun m => Ok (12 * limit_range_i m 0 255)%Z).
(* pre_block.rs:27, 42-55, one channel *)
Definition fs_read (tab : Z -> R) (b : dbuf) (wpos k : Z) (v : R) : res R :=
  let dt := fs_dtime v in let rp := (wpos - dt + k)%Z in
  obind (fs_sinc dt v) (fun si =>
  foldM (fun acc i => obind (rget b (Z.land (rp - i) (DLEN - 1))) (fun x => obind (sget tab (si + 12 - i)) (fun c => Ok (acc + x * c)))) [0; 1; 2; 3; 4; 5; 6; 7; 8; 9; 10; 11]%Z 0).
(* pre_block.rs:5-65: the sample's real and imaginary products, (left, right) each *)
Definition fs_pre (tab : Z -> R) (k : Z) (s : fshift) : res (fshift * ((R * R) * (R * R))) :=
  let t := lag_process (fs_time s) in
  obind (fs_read tab (fs_bl s) (fs_wpos s) k (l_v t)) (fun xl =>
  obind (fs_read tab (fs_br s) (fs_wpos s) k (l_v t)) (fun xr =>
  let a := qo_process (fs_o1l s) in let c := qo_process (fs_o1r s) in
  Ok (mk_fs (fs_fr s) (fs_fi s) (fs_mix s) (fs_fb s) t (fs_bl s) (fs_br s) (fs_wpos s) a (fs_o2l s) c (fs_o2r s), ((xl * qo_r a, xr * qo_r c), (xl * qo_i a, xr * qo_i c))))).
Fixpoint fs_pres (tab : Z -> R) (n : nat) (k : Z) (s : fshift) : res (fshift * list ((R * R) * (R * R))) :=
  match n with
  | O => Ok (s, [])
  | Datatypes.S n' => obind (fs_pre tab k s) (fun '(s1, y) => obind (fs_pres tab n' (k + 1) s1) (fun '(s2, ys) => Ok (s2, y :: ys)))
  end.
(* post_block.rs:5-47: x the input, rr and ii the filtered products; the result is the wet sample. ws is the waveshaper's table 0 *)
Definition fs_post (ws : Z -> R) (k : Z) (x rr ii : R * R) (s : fshift) : res (fshift * (R * R)) :=
  let b := qo_process (fs_o2l s) in let d := qo_process (fs_o2r s) in
  let wl := 2 * (fst rr * qo_r b + fst ii * qo_i b) in let wr := 2 * (snd rr * qo_r d + snd ii * qo_i d) in
  let wp := Z.land (fs_wpos s + k) (DLEN - 1) in
  let fb := lipol_process (fs_fb s) in
  obind (lookup_waveshape ws (wl * p_v fb)) (fun yl =>
  obind (rset (fs_bl s) wp (fst x + yl)) (fun bl =>
  obind (lookup_waveshape ws (wr * p_v fb)) (fun yr =>
  obind (rset (fs_br s) wp (snd x + yr)) (fun br =>
  Ok (mk_fs (fs_fr s) (fs_fi s) (fs_mix s) fb (fs_time s) bl br (fs_wpos s) (fs_o1l s) b (fs_o1r s) d, (wl, wr)))))).
Fixpoint fs_posts (ws : Z -> R) (k : Z) (xs rrs iis : list (R * R)) (s : fshift) : res (fshift * list (R * R)) :=
  match xs, rrs, iis with
  | x :: xs', a :: rrs', b :: iis' => obind (fs_post ws k x a b s) (fun '(s1, y) => obind (fs_posts ws (k + 1) xs' rrs' iis' s1) (fun '(s2, ys) => Ok (s2, y :: ys)))
  | _, _, _ => Ok (s, [])
  end.
(* process.rs:5-68 *)
Definition fs_process (tab ws : Z -> R) (sr : R) (p : fspar) (s0 : fshift) (xs : list (R * R)) : res (fshift * list (R * R)) :=
  obind (fs_update sr p s0) (fun s1 =>
  obind (fs_pres tab 32 0 s1) (fun '(s2, prods) =>
  obind (process_block (fs_fr s2) (map (fun y => fst (fst y)) prods) (map (fun y => snd (fst y)) prods)) (fun '(fr, rl, rr) =>
  obind (process_block (fs_fi s2) (map (fun y => fst (snd y)) prods) (map (fun y => snd (snd y)) prods)) (fun '(fi, il, ir) =>
  obind (fs_posts ws 0 xs (combine rl rr) (combine il ir) (mk_fs fr fi (fs_mix s2) (fs_fb s2) (fs_time s2) (fs_bl s2) (fs_br s2) (fs_wpos s2) (fs_o1l s2) (fs_o2l s2) (fs_o1r s2) (fs_o2r s2))) (fun '(s3, wet) =>
  Ok (mk_fs (fs_fr s3) (fs_fi s3) (fs_mix s3) (fs_fb s3) (fs_time s3) (fs_bl s3) (fs_br s3) (Z.land (fs_wpos s3 + 32) (DLEN - 1)) (fs_o1l s3) (fs_o2l s3) (fs_o1r s3) (fs_o2r s3),
      zip (ch_fade (fs_mix s3)) xs wet)))))).
(* a history of blocks *)
Fixpoint fs_run (tab ws : Z -> R) (sr : R) (h : list (fspar * list (R * R))) (s : fshift) : res (fshift * list (list (R * R))) :=
  match h with
  | [] => Ok (s, [])
  | (p, xs) :: r => obind (fs_process tab ws sr p s xs) (fun '(s1, ys) => obind (fs_run tab ws sr r s1) (fun '(s2, yss) => Ok (s2, ys :: yss)))
  end.
