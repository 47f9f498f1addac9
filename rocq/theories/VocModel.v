(* VocModel.v - surgefx-vocoder with surge-svf (VectorizedSvfFilter). No proofs here.
   Samples and coefficients are exact reals. The four lanes of a vector filter never meet, so band i stands for lane i mod 4 of vector
   i / 4 of each of the four arrays; active_bands is a multiple of 4, so whole vectors are processed and tuned. A block is 32 samples.
   The input handle's two channels are arguments (add_block takes them 16-byte aligned). [sq] is v_sqrt_fast, the processor's
   approximation of the square root, [dbl] the decibel table, [srinv] the inverse sample rate; powf is the exact power. *)
From Coq Require Import Reals.
From Verif Require Import Base Util BlockModel RampProps LagModel.
Local Open Scope R_scope.

(* surge-svf/src/svf.rs:4-17, one lane *)
Record svf1 := mk_sv { v_l1 : R; v_b1 : R; v_l2 : R; v_b2 : R; v_f1 : R; v_f2 : R; v_q : R }.
(* svf.rs:33-49 *)
Definition sv_new : svf1 := mk_sv 0 0 0 0 0 0 0.
(* svf.rs:53-61 *)
Definition sv_calc_f (omega : R) : R := 2 * sin (PI * omega).
Definition sv_calc_q (quality : R) : R := 1 / quality.
(* svf.rs:63-86 *)
Definition sv_set_coeff (omega qf spread : R) (s : svf1) : svf1 :=
  mk_sv (v_l1 s) (v_b1 s) (v_l2 s) (v_b2 s) (sv_calc_f (omega * (1 - spread))) (sv_calc_f (omega * (1 + spread))) (sv_calc_q qf).
(* svf.rs:88-92 *)
Definition sv_copy_coeff (o s : svf1) : svf1 := mk_sv (v_l1 s) (v_b1 s) (v_l2 s) (v_b2 s) (v_f1 o) (v_f2 o) (v_q o).
(* svf.rs:94-161 *)
Definition sv_bpf (s : svf1) (x : R) : svf1 * R :=
  let l1 := v_f1 s * v_b1 s + v_l1 s in
  let h1 := (x * v_q s - l1) - v_q s * v_b1 s in
  let b1 := v_f1 s * h1 + v_b1 s in
  let l2 := v_f2 s * v_b2 s + v_l2 s in
  let h2 := (b1 * v_q s - l2) - v_q s * v_b2 s in
  let b2 := v_f2 s * h2 + v_b2 s in
  (mk_sv l1 b1 l2 b2 (v_f1 s) (v_f2 s) (v_q s), b2).

(* vocoder.rs:5-23: one band = one lane of modulator, carrier_l, carrier_r, env_f *)
Record vband := mk_vb { vb_m : svf1; vb_l : svf1; vb_r : svf1; vb_e : R }.
Record vocoder := mk_voc { vo_bands : list vband; vo_gain : lipolps R; vo_bi : Z; vo_active : Z }.
(* surge-param/src/pdata.rs:4-8 *)
Inductive pdata := PFloat (x : R) | PInt (n : Z).
(* param.rs:5-17 *)
Record vpar := mk_vp { vp_gain : R; vp_gate : R; vp_rate : R; vp_unvoiced : R; vp_quality : R; vp_nbands : Z; vp_lo : pdata; vp_hi : pdata; vp_expand : pdata; vp_center : pdata; vp_return : R }.
(* surge-param/src/pdata.rs:13-21: pvalf of an integer parameter panics *)
Definition as_float (d : pdata) : res R := match d with PFloat x => Ok x | PInt _ => Panic end.
(* constants.rs:3 *)
Definition N_VOCODER_BANDS : Z := 20.
(* init.rs:5-34 *)
Definition vb_new : vband := mk_vb sv_new sv_new sv_new 0.
Definition voc_new : vocoder := mk_voc (repeat vb_new 20) (ps_new_with_blocksize arithR 32) 0 N_VOCODER_BANDS.

Section Voc.
Context (sq dbl : R -> R) (srinv : R).
(* update.rs:79-103: the bands still to be tuned, fb and mb the current frequencies; indexing past the arrays panics (the assert at 81 and
   the arrays' lengths are both 20) *)
Fixpoint voc_tune (n : nat) (fb mb dhz mdhz qf spread : R) (sep : bool) (bs : list vband) : res (list vband) :=
  match n with
  | O => Ok bs
  | S n' => match bs with
    | [] => Panic
    | b :: r =>
      let c := sv_set_coeff (fb * srinv) qf spread (vb_l b) in
      let m := if sep then sv_set_coeff (mb * srinv) qf spread (vb_m b) else sv_copy_coeff c (vb_m b) in
      obind (voc_tune n' (fb * dhz) (mb * mdhz) dhz mdhz qf spread sep r) (fun r' => Ok (mk_vb m c (sv_copy_coeff c (vb_r b)) (vb_e b) :: r'))
    end
  end.
(* update.rs:5-105 *)
Definition voc_update (p : vpar) (s : vocoder) : res vocoder :=
  obind (as_float (vp_lo p)) (fun f_lo => obind (as_float (vp_hi p)) (fun f_hi =>
  obind (as_float (vp_center p)) (fun m_c => obind (as_float (vp_expand p)) (fun m_x =>
  let qf := 20 * (1 + 1 / 2 * vp_quality p) in
  let spread := 4 / 10 / qf in
  let active := (vp_nbands p - Z.rem (vp_nbands p) 4)%Z in
  let flo := if Rlt_dec f_hi f_lo then f_hi else f_lo in
  let fhi := if Rlt_dec f_hi f_lo then f_lo else f_hi in
  let a := IZR active in
  let df := (fhi - flo) / (a - 1) in
  let hzlo := 440 * Rpower 2 (flo / 12) in
  let dhz := Rpower 2 (df / 12) in
  let sep := if Req_EM_T m_c 0 then (if Req_EM_T m_x 0 then false else true) else true in
  let half := (fhi - flo) / 2 in
  let mid := half + flo + 3 / 10 * m_c * half in
  let lo := mid - half * (1 + 7 / 10 * m_x) in
  let d_m := half * 2 * (1 + 7 / 10 * m_x) / (a - 1) in
  let hi := lo + d_m * (a - 1) in
  let d_m := if Rlt_dec 60 hi then (60 - lo) / (a - 1) else d_m in
  let mb := if sep then 440 * Rpower 2 (lo / 12) else hzlo in
  let mdhz := if sep then Rpower 2 (d_m / 12) else dhz in
  obind (voc_tune (Z.to_nat active) hzlo mb dhz mdhz qf spread sep (vo_bands s)) (fun bs =>
  Ok (mk_voc bs (vo_gain s) (vo_bi s) active)))))).
(* vocoder.rs:35 (surge-macros/src/lib.rs:30-41): init is update *)
Definition voc_init (p : vpar) (s : vocoder) : res vocoder := voc_update p s.
(* vocoder.rs:36 (surge-macros/src/lib.rs:44-50, surge-traits/src/effect.rs:29-31): suspend is init *)
Definition voc_suspend (p : vpar) (s : vocoder) : res vocoder := voc_init p s.
(* mismatch.rs:5-22; [lo0], [hi0] are the default frequencies of constants.rs:30-36 *)
Definition voc_mismatch (lo0 hi0 : R) (rev : Z) (p : vpar) : vpar :=
  if (rev <=? 10)%Z then mk_vp (vp_gain p) (vp_gate p) (vp_rate p) (vp_unvoiced p) (vp_quality p) 20 (PFloat lo0) (PFloat hi0) (PInt 0) (PInt 0) (vp_return p) else p.
(* process.rs:5-9 *)
Definition voc_db (p : vpar) : R := vp_gain p + 24.
(* cfg.rs:10-26: rate, rate_m1, gate_level; max_level = 6 *)
Definition voc_rate (p : vpar) : R := 1 / 1000 * Rpower 2 (4 * vp_rate p).
Definition voc_gate (p : vpar) : R := let g := dbl (vp_gate p + voc_db p) in g * g.
(* block.rs:26-50, one lane: new state and the two carriers' outputs. The comparison mask of an ordered comparison: 0 or the value *)
Definition vb_step (rate gate : R) (b : vband) (m l r : R) : vband * (R * R) :=
  let (sm, y) := sv_bpf (vb_m b) m in
  let y := Rmin (y * y) 6 in
  let y := if Rle_dec gate y then y else 0 in
  let e := vb_e b * (1 - rate) + rate * y in
  let w := sq e in
  let (sl, yl) := sv_bpf (vb_l b) (l * w) in
  let (sr, yr) := sv_bpf (vb_r b) (r * w) in
  (mk_vb sm sl sr e, (yl, yr)).
(* the loop over the first n bands, with the sums *)
Fixpoint vb_steps (rate gate : R) (n : nat) (bs : list vband) (m l r : R) : list vband * (R * R) :=
  match n, bs with
  | S n', b :: t => let (b1, y) := vb_step rate gate b m l r in let (t1, z) := vb_steps rate gate n' t m l r in (b1 :: t1, (fst y + fst z, snd y + snd z))
  | _, _ => (bs, (0, 0))
  end.
(* block.rs:5-55; active_bands <= 20 is asserted at 22 *)
Definition voc_sample (p : vpar) (s : vocoder) (m : R) (x : R * R) : res (vocoder * (R * R)) :=
  if (vo_active s <=? N_VOCODER_BANDS)%Z then
    let (bs, y) := vb_steps (voc_rate p) (voc_gate p) (4 * Z.to_nat (Z.shiftr (vo_active s) 2)) (vo_bands s) m (fst x) (snd x) in
    Ok (mk_voc bs (vo_gain s) (vo_bi s) (vo_active s), (fst y * 4, snd y * 4))
  else Panic.
Fixpoint voc_samples (p : vpar) (s : vocoder) (ms : list R) (xs : list (R * R)) : res (vocoder * list (R * R)) :=
  match ms, xs with
  | m :: ms', x :: xs' => obind (voc_sample p s m x) (fun a => obind (voc_samples p (fst a) ms' xs') (fun b => Ok (fst b, snd a :: snd b)))
  | _, _ => Ok (s, [])
  end.
(* process.rs:17-54; [side] the audio input's two channels, added and scaled by the gain ramp (multiply_block, see RampProps) *)
Definition voc_modulator (g : lipolps R) (side : list (R * R)) : list R := map (fun '(k, y) => (fst y + snd y) * gain8 arithR g (Z.of_nat k)) (combine (seq 0 (length side)) side).
Definition voc_process (p : vpar) (s : vocoder) (side xs : list (R * R)) : res (vocoder * list (R * R)) :=
  let bi := Z.land (vo_bi s + 1) 63 in
  let s := mk_voc (vo_bands s) (vo_gain s) bi (vo_active s) in
  obind (if (bi =? 0)%Z then voc_update p s else Ok s) (fun s =>
  let g := ps_set_target_smoothed arithR (vo_gain s) (dbl (voc_db p)) in
  voc_samples p (mk_voc (vo_bands s) g (vo_bi s) (vo_active s)) (voc_modulator g side) xs).
(* a history of blocks: parameters, side chain, carrier *)
Fixpoint voc_run (h : list (vpar * list (R * R) * list (R * R))) (s : vocoder) : res (vocoder * list (list (R * R))) :=
  match h with
  | [] => Ok (s, [])
  | (p, side, xs) :: r => obind (voc_process p s side xs) (fun a => obind (voc_run r (fst a)) (fun b => Ok (fst b, snd a :: snd b)))
  end.
End Voc.
