(* RotaryModel.v - surgefx-rotary: the rotary speaker. No proofs here.
   Samples and gains are exact reals (the f64 -> f32 casts of the LFOs are the identity). Blocks are lists of 32 pairs. The field
   `drive` (a LiPol never given a value and never read, only stepped) and `first_run` (never read) are left out. *)
From Coq Require Import Reals.
From Verif Require Import Base Util LagModel MathModel LfoModel BiquadModel UnitModel DelayModel.
Local Open Scope R_scope.

(* rotary_speaker.rs:9-26 *)
Record rotary := mk_ro { ro_buf : dbuf; ro_wpos : Z; ro_xo : biquad; ro_lb : biquad; ro_lfo : quadrosc; ro_lf : quadrosc; ro_dl : lipol; ro_dr : lipol; ro_hl : lipol; ro_hr : lipol }.
(* the parameters: HornRate, its tempo ratio (maybe_temposyncratio), Doppler, AmpMod, ReturnLevel *)
Record ropar := mk_rp { rp_rate : R; rp_ratio : R; rp_doppler : R; rp_amp : R; rp_return : R }.
(* new.rs:11-32 *)
Definition ro_new : rotary := mk_ro (fun _ => 0) 0 bq_new bq_new qo_default qo_default (lipol_new 32) (lipol_new 32) (lipol_new 32) (lipol_new 32).
(* init.rs:14-25; BiquadFilter::suspend is the trait default (init, surge-traits/src/effect.rs:29-31), which makes the filter new (surge-biquad/src/biquad.rs:55-69).
   om is the sample rate's calc_omega *)
Definition ro_init (om : R -> R) (s : rotary) : rotary :=
  mk_ro (fun _ => 0) 0 (set_coef (design_lp2b (om (862496 / 1000000)) (707 / 1000)) bq_new) (set_coef (design_lp2b (om (- (114 / 100))) (707 / 1000)) bq_new) (ro_lfo s) (ro_lf s) (ro_dl s) (ro_dr s) (ro_hl s) (ro_hr s).
(* init.rs:3-12 *)
Definition ro_suspend (s : rotary) : rotary := mk_ro (fun _ => 0) 0 bq_new bq_new (ro_lfo s) (ro_lf s) (ro_dl s) (ro_dr s) (ro_hl s) (ro_hr s).
(* set.rs:5-22 *)
Definition ro_x (sr : R) (p : ropar) : R := 2 * PI * Rpower 2 (rp_rate p * rp_ratio p) * (1 / sr).
Definition ro_set_lfos (sr : R) (p : ropar) (s : rotary) : res rotary :=
  obind (qo_set_rate (ro_lfo s) (ro_x sr p * 32)) (fun a =>
  obind (qo_set_rate (ro_lf s) (7 / 10 * ro_x sr p * 32)) (fun b => Ok (mk_ro (ro_buf s) (ro_wpos s) (ro_xo s) (ro_lb s) a b (ro_dl s) (ro_dr s) (ro_hl s) (ro_hr s)))).
(* process.rs:14-33: (len_l, len_r, dotp_l, dotp_r) *)
Definition ro_geom (r i : R) : R * R * R * R :=
  let p0 := -2 - i in let p1 := -1 - r in let p2 := 1 - r in
  let ll := sqrt (p0 * p0 + p1 * p1) in let lr := sqrt (p0 * p0 + p2 * p2) in
  (ll, lr, (p1 * r + p0 * i) / ll, (p2 * r + p0 * i) / lr).
(* process.rs:20-40: the new targets of the delays and of the horn's levels, then one step of the horn's LFO *)
Definition ro_targets (sr : R) (p : ropar) (s : rotary) : rotary :=
  let '(ll, lr, dl, dr) := ro_geom (qo_r (ro_lfo s)) (qo_i (ro_lfo s)) in
  let delay := sr * (18 / 10000) * rp_doppler p in let a := rp_amp p * (6 / 10) in
  mk_ro (ro_buf s) (ro_wpos s) (ro_xo s) (ro_lb s) (qo_process (ro_lfo s)) (ro_lf s)
    (lipol_new_value (ro_dl s) (delay * ll)) (lipol_new_value (ro_dr s) (delay * lr)) (lipol_new_value (ro_hl s) (1 - a + a * dl)) (lipol_new_value (ro_hr s) (1 - a + a * dr)).
(* block.rs:17-18 / 23-33 *)
Definition ro_sinc (dt : Z) (v : R) : Z := as_i32R (12 * limit_range_R (256 * (IZR (dt + 1) - v)) 0 255).
(* buffer[..] and sinctable_1x(..) are bounds-checked; the buffer has 2^18 cells, the table 257 * 12 *)
Definition rget (b : dbuf) (i : Z) : res R := if (0 <=? i)%Z && (i <? DLEN)%Z then Ok (b i) else Panic.
Definition rset (b : dbuf) (i : Z) (x : R) : res dbuf := if (0 <=? i)%Z && (i <? DLEN)%Z then Ok (fun j => if (j =? i)%Z then x else b j) else Panic.
Definition sget (tab : Z -> R) (i : Z) : res R := if (0 <=? i)%Z && (i <? 3084)%Z then Ok (tab i) else Panic.
(* block.rs:35-49, one channel *)
Definition ro_read (tab : Z -> R) (b : dbuf) (wpos k : Z) (v : R) : res R :=
  let dt := dd_dtime v in let rp := (wpos - dt + k)%Z in let si := ro_sinc dt v in
  foldM (fun acc i => obind (rget b (Z.land (rp - i) (DLEN - 1))) (fun x => obind (sget tab (si + 12 - i)) (fun c => Ok (acc + x * c)))) [0; 1; 2; 3; 4; 5; 6; 7; 8; 9; 10; 11]%Z 0.
(* block.rs:5-53: u is the upper part of the input at sample k; result (state, (left, right)) *)
Definition ro_sample (tab : Z -> R) (k : Z) (u : R) (s : rotary) : res (rotary * (R * R)) :=
  obind (rset (ro_buf s) (Z.land (ro_wpos s + k) (DLEN - 1)) u) (fun b =>
  obind (ro_read tab b (ro_wpos s) k (p_v (ro_dl s))) (fun l =>
  obind (ro_read tab b (ro_wpos s) k (p_v (ro_dr s))) (fun r =>
  Ok (mk_ro b (ro_wpos s) (ro_xo s) (ro_lb s) (ro_lfo s) (ro_lf s) (lipol_process (ro_dl s)) (lipol_process (ro_dr s)) (ro_hl s) (ro_hr s), (l, r))))).
Fixpoint ro_samples (tab : Z -> R) (k : Z) (us : list R) (s : rotary) : res (rotary * list (R * R)) :=
  match us with
  | [] => Ok (s, [])
  | u :: us' => obind (ro_sample tab k u s) (fun '(s1, y) => obind (ro_samples tab (k + 1) us' s1) (fun '(s2, ys) => Ok (s2, y :: ys)))
  end.
(* post_block.rs:5-22: low, sub and horn are the sample's lower part, its lowest part and the two delayed upper parts *)
Definition ro_post (s : rotary) (low sub : R) (horn : R * R) : rotary * (R * R) :=
  let bass := sub + (low - sub) * (qo_r (ro_lf s) * (6 / 10) + 3 / 10) in
  (mk_ro (ro_buf s) (ro_wpos s) (ro_xo s) (ro_lb s) (ro_lfo s) (qo_process (ro_lf s)) (ro_dl s) (ro_dr s) (lipol_process (ro_hl s)) (lipol_process (ro_hr s)),
   (p_v (ro_hl s) * fst horn + bass, p_v (ro_hr s) * snd horn + bass)).
Fixpoint ro_posts (lows subs : list R) (horns : list (R * R)) (s : rotary) : rotary * list (R * R) :=
  match lows, subs, horns with
  | a :: lows', b :: subs', c :: horns' => let (s1, y) := ro_post s a b c in let (s2, ys) := ro_posts lows' subs' horns' s1 in (s2, y :: ys)
  | _, _, _ => (s, [])
  end.
(* pre_block.rs:12-15 *)
Definition ro_in (x : R * R) : R := 1 / 2 * (fst x + snd x).
(* process.rs:5-87 *)
Definition ro_process (tab : Z -> R) (sr : R) (p : ropar) (s0 : rotary) (xs : list (R * R)) : res (rotary * list (R * R)) :=
  obind (ro_set_lfos sr p s0) (fun s1 =>
  let s := ro_targets sr p s1 in
  let ins := map ro_in xs in
  let '(xo, lows, _) := process_block_mono (ro_xo s) ins None in
  let ups := map (fun '(u, l) => u - l) (combine ins lows) in
  obind (ro_samples tab 0 ups s) (fun '(s2, horns) =>
  let '(lb, subs, _) := process_block_mono (ro_lb s) lows None in
  let (s3, ys) := ro_posts lows subs horns s2 in
  Ok (mk_ro (ro_buf s3) (Z.land (ro_wpos s3 + 32) (DLEN - 1)) xo lb (ro_lfo s3) (ro_lf s3) (ro_dl s3) (ro_dr s3) (ro_hl s3) (ro_hr s3), ys))).
(* process.rs:91-101 *)
Definition ro_control (sr : R) (p : ropar) (s0 : rotary) : res rotary :=
  obind (ro_set_lfos sr p s0) (fun s => Ok (mk_ro (ro_buf s) (ro_wpos s) (ro_xo s) (ro_lb s) (qo_process (ro_lfo s)) (qo_process (ro_lf s)) (ro_dl s) (ro_dr s) (ro_hl s) (ro_hr s))).
(* a history of blocks *)
Fixpoint ro_run (tab : Z -> R) (sr : R) (h : list (ropar * list (R * R))) (s : rotary) : res (rotary * list (list (R * R))) :=
  match h with
  | [] => Ok (s, [])
  | (p, xs) :: r => obind (ro_process tab sr p s xs) (fun '(s1, ys) => obind (ro_run tab sr r s1) (fun '(s2, yss) => Ok (s2, ys :: yss)))
  end.
