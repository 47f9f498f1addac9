(** Voice filters: surgefilter-svf (all six variants), surgefilter-moog, surgefilter-snh and
    surgefilter-comb, the x86_64 versions.

    Conventions.
    - Every SSE operation of these filters is lane-wise, so one lane is modelled; where one lane's
      state is read by all four (the Moog output stage) it is a separate argument, and the comb, which
      works lane by lane through memory, is modelled for a quad as four lanes.
    - The record [fu] is one lane of QuadFilterUnitState (surge-qfunit/src/qf_unit_state.rs:4-27):
      coefficients 0..3 with their per-sample increments, registers 0..4.  coeff 4..7 and reg 5..14
      are not touched by these filters.
    - Arithmetic is over exact reals, except the sample & hold, which is written over an arithmetic
      record and read with both reals and binary32.
    - What the tuner returns for the cutoff (n2p, modelled in TuneModel.v) is an argument, as is the
      sample rate.
    Definitions only; theorems in FiltProps*.v. *)
From Coq Require Import Reals.
From Flocq Require Import Core.Core.
From Verif Require Import Base Util F32 BlockModel ParamModel ShaperModel.
Local Open Scope R_scope.

(** one lane of a filter unit: coefficients k0..k3, increments e0..e3, registers g0..g4 *)
Record fu := mk_fu {
  k0 : R; k1 : R; k2 : R; k3 : R;
  e0 : R; e1 : R; e2 : R; e3 : R;
  g0 : R; g1 : R; g2 : R; g3 : R; g4 : R }.

(** ** State-variable filter *)

Inductive svf_out := LowPass | BandPass | HighPass.
Inductive poles := TwoPole | FourPole.

(** surgefilter-svf/src/svf.rs:23-61 SvfFilter::coeff_make. [pitch] = n2p(freq), [sr] the sample rate;
    `FloatOrd` minima are Rmin, the f32 casts are the identity.  Returns coeff 0..3. *)
Definition svf_f1 (pitch sr : R) : R :=
  let f := 440 * pitch in
  2 * sin (PI * Rmin (11 / 100) (f * (25 / 100 * (1 / sr)))).
Definition svf_reso (reso : R) : R := sqrt (limit_range_f32 arithR reso 0 1).
Definition overshoot (p : poles) : R := match p with FourPole => 1 / 10 | TwoPole => 15 / 100 end.
Definition svf_q1 (p : poles) (f1 r : R) : R :=
  let q1 := 2 - r * (2 + overshoot p) + f1 * f1 * overshoot p * (9 / 10) in
  Rmin q1 (Rmin 2 (2 - 152 / 100 * f1)).
Definition svf_coeffs (p : poles) (pitch sr reso : R) : R * R * R * R :=
  let f1 := svf_f1 pitch sr in
  let r := svf_reso reso in
  (f1, svf_q1 p f1 r, 1 / 10 * r * f1, 1 - 65 / 100 * r).

(** the half step that the code writes out two (12 dB) or four (24 dB) times: quad_svf_lp12_a.rs:18-36
    and 38-56; quad_svf_lp24_a.rs:18-41, 43-63, 77-100, 102-122; the other four files alike.
    State (b, l); returns (b', l', h') *)
Definition svf_half (f q x : R) (b l : R) : R * R * R :=
  let l' := l + f * b in
  let h' := x - l' - q * b in
  let b' := b + f * h' in
  (b', l', h').

(** quad_svf_lp12_a.rs:4-95, quad_svf_bp12_a.rs:4-89, quad_svf_hp12_a.rs:4-104: the three differ in the
    returned value only.  The damping register g2 is applied before it is updated, and it is updated
    from the band-pass value of the first half step. *)
Definition svf12 (o : svf_out) (s : fu) (x : R) : fu * R :=
  let f := k0 s + e0 s in
  let q := k1 s + e1 s in
  let '(b, l, _) := svf_half f q x (g0 s) (g1 s) in
  let '(b2, l2, h2) := svf_half f q x b l in
  let r0 := b2 * g2 s in
  let r1 := l2 * g2 s in
  let c2 := k2 s + e2 s in
  let r2 := Rmax (1 / 10) (1 - c2 * (b * b)) in
  let c3 := k3 s + e3 s in
  let y := match o with LowPass => l2 | BandPass => b2 | HighPass => h2 end in
  (mk_fu f q c2 c3 (e0 s) (e1 s) (e2 s) (e3 s) r0 r1 r2 (g3 s) (g4 s), y * c3).

(** quad_svf_lp24_a.rs:4-161, quad_svf_bp24_a.rs:4-158, quad_svf_hp24_a.rs:4-161: two such stages, the
    second fed with the first one's output of the same kind; the damping register is updated from the
    last band-pass value of the second stage. *)
Definition svf24 (o : svf_out) (s : fu) (x : R) : fu * R :=
  let f := k0 s + e0 s in
  let q := k1 s + e1 s in
  let '(b, l, _) := svf_half f q x (g0 s) (g1 s) in
  let '(b, l, h) := svf_half f q x b l in
  let r0 := b * g2 s in
  let r1 := l * g2 s in
  let x2 := match o with LowPass => l | BandPass => b | HighPass => h end in
  let '(b, l, _) := svf_half f q x2 (g3 s) (g4 s) in
  let '(b, l, h) := svf_half f q x2 b l in
  let r3 := b * g2 s in
  let r4 := l * g2 s in
  let c2 := k2 s + e2 s in
  let r2 := Rmax (1 / 10) (1 - c2 * (b * b)) in
  let c3 := k3 s + e3 s in
  let y := match o with LowPass => l | BandPass => b | HighPass => h end in
  (mk_fu f q c2 c3 (e0 s) (e1 s) (e2 s) (e3 s) r0 r1 r2 r3 r4, y * c3).

(** surgefilter-svf/src/svf_process.rs:20-34 *)
Definition svf_process (o : svf_out) (p : poles) : fu -> R -> fu * R :=
  match p with TwoPole => svf12 o | FourPole => svf24 o end.

(** ** Moog ladder *)

(** surgefilter-moog/src/coeff.rs:5-30 LpMoogFilter::coeff_make: coeff 0..2.  The cap 0.5 / t^4 is +inf
    in the code when t_b1 = 0 (pitch 0); then the minimum is the other operand *)
Definition moog_coeffs (pitch sr_os_inv reso : R) : R * R * R :=
  let gg := limit_range_f32 arithR (440 * pitch * sr_os_inv) 0 (187 / 1000) in
  let t := 1 - exp (-2 * PI * gg) in
  let a := 215 / 100 * limit_range_f32 arithR reso 0 1 in
  let q := if Req_EM_T t 0 then a else Rmin a (5 / 10 / (t * t * t * t)) in
  (3 / (3 - q), t, q).

(** surgefilter-moog/src/process.rs:9-66.  [wp0] is comb_write_position[0], which for this filter holds
    the number of the output stage of the whole quad *)
Definition moog_step (wp0 : Z) (s : fu) (x : R) : fu * R :=
  let c0 := k0 s + e0 s in
  let c1 := k1 s + e1 s in
  let c2 := k2 s + e2 s in
  let r0 := softclip8_ps arithR (g0 s + c1 * (x * c0 - c2 * (g3 s + g4 s) - g0 s)) in
  let r1 := g1 s + c1 * (r0 - g1 s) in
  let r2 := g2 s + c1 * (r1 - g2 s) in
  let r4 := g3 s in
  let r3 := g3 s + c1 * (r2 - g3 s) in
  let i := Z.land wp0 3 in
  let y := if (i =? 0)%Z then r0 else if (i =? 1)%Z then r1 else if (i =? 2)%Z then r2 else r3 in
  (mk_fu c0 c1 c2 (k3 s) (e0 s) (e1 s) (e2 s) (e3 s) r0 r1 r2 r3 r4, y).

(** ** Sample and hold *)

(** surgefilter-snh/src/snh.rs:37-53: coeff 0 and 1; n2p is called with the negated frequency *)
Definition snh_coeffs (pitch_neg sr_os reso : R) : R * R :=
  let dtime := 1 / 440 * pitch_neg * sr_os in
  (1 / dtime, reso).

Section Snh.
Context {T : Type} (A : arith T).
(** one lane: coefficients 0, 1, increments, registers 0 (phase) and 1 (held value) *)
Record snh := mk_snh { h_c0 : T; h_c1 : T; h_d0 : T; h_d1 : T; h_phase : T; h_val : T }.
(** surgefilter-snh/src/snh.rs:14-34; the select with and/andnot/or of a comparison mask is [if];
    `and (m1, mask)` is -1 or +0 *)
Definition snh_step (s : snh) (x : T) : snh * T :=
  let c0 := ar_add A (h_c0 s) (h_d0 s) in
  let c1 := ar_add A (h_c1 s) (h_d1 s) in
  let ph := ar_add A (h_phase s) c0 in
  let mask := ar_lt A (ar_lit A 0 1) ph in
  let v := if mask then softclip A (ar_sub A x (ar_mul A c1 (h_val s))) else h_val s in
  let ph := ar_add A ph (if mask then ar_lit A (-1) 1 else ar_lit A 0 1) in
  (mk_snh c0 c1 (h_d0 s) (h_d1 s) ph v, v).
End Snh.
Arguments mk_snh {T}. Arguments h_c0 {T}. Arguments h_c1 {T}. Arguments h_d0 {T}. Arguments h_d1 {T}. Arguments h_phase {T}. Arguments h_val {T}.
Arguments snh : clear implicits.

(** ** Comb *)

(** surgefilter-comb/src/comb.rs:11-26; FilterSubType distinguishes Smooth, Rough and the rest here *)
Inductive comb_sub := CSmooth | CRough | COther.
Definition reso_factor (t : comb_sub) : R := match t with CSmooth => -1 | _ => 1 end.
Definition combmix (t : comb_sub) : R := match t with CRough => 0 | _ => 5 / 10 end.
(** surgefilter-comb/src/coeff.rs:5-39: coeff 0..3; n2p of the negated frequency; FIR_OFFSET = 6,
    FIR_IPOL_N = 12, MAX_FB_COMB = 2048 *)
Definition comb_coeffs (t : comb_sub) (pitch_neg sr_os reso : R) : R * R * R * R :=
  let dtime := limit_range_f32 arithR (1 / 440 * pitch_neg * sr_os - 6) 12 (2048 - 12) in
  let r := reso_factor t * limit_range_f32 arithR reso 0 1 in
  (dtime, r, combmix t, 1 - combmix t).

(** one lane of the quad: the mask, the write position, the voice's delay buffer (MAX_FB_COMB +
    FIR_IPOL_N = 2060 cells, surge-voice/src/filter.rs:36; an access outside is undefined behaviour,
    shown as Panic), coefficients 0..3 and the increments of coefficients 0, 1 *)
Record comb := mk_comb { m_active : bool; m_wp : Z; m_buf : Z -> R; m_c0 : R; m_c1 : R; m_c2 : R; m_c3 : R; m_d0 : R; m_d1 : R }.

Local Open Scope Z_scope.
Definition CB : Z := 2048.
Definition CCELLS : Z := 2060.
Definition SINC_SIZE : Z := (256 + 1) * 12 * 2.
(** surgefilter-comb/src/process_sse2.rs:22-36: e = cvtps(coeff0 * 256), delay e >> 8 (logical), fraction
    index 255 - (e & 255) *)
Definition comb_e (c0 : R) : Z := cvtps_epi32 (c0 * 256)%R.
Definition comb_dt (e : Z) : Z := (e mod 2 ^ 32) / 256.
Definition comb_se (e : Z) : Z := 255 - Z.land e 255.

(** four cells from p: _mm_loadu_ps on the delay buffer *)
Definition cload (l : comb) (p : Z) : res (Z -> R) :=
  if (0 <=? p) && (p + 4 <=? CCELLS) then Ok (fun j => m_buf l (p + j)) else Panic.
(** _mm_load_ps(sinctable_ptr(idx)): bounds-checked first element, 16-byte aligned load of four *)
Definition tload (tab : Z -> R) (idx : Z) : res (Z -> R) :=
  if (0 <=? idx) && (idx <? SINC_SIZE) && (idx mod 4 =? 0) then Ok (fun j => tab (idx + j)) else Panic.
Definition dot4 (a b : Z -> R) : R := (a 0%Z * b 0%Z + a 1%Z * b 1%Z + a 2%Z * b 2%Z + a 3%Z * b 3%Z)%R.

(** process_sse2.rs:38-66, one lane.  [row] maps the fraction index to the table index: it stands for
    `simd_extract::<__m128i, i64>` applied to the array of fraction indices; the multiplication by
    FIR_IPOL_N << 1 in line 50 comes after the extraction and is never read.  The sum of the twelve
    products is order-independent over the reals. *)
Definition comb_read (row : Z -> res Z) (tab : Z -> R) (l : comb) (e : Z) : res R :=
  if m_active l then
    let rp := (m_wp l - comb_dt e - 6) mod CB in
    obind (row (comb_se e)) (fun idx =>
    obind (cload l rp) (fun a0 => obind (tload tab idx) (fun b0 =>
    obind (cload l (rp + 4)) (fun a1 => obind (tload tab (idx + 4)) (fun b1 =>
    obind (cload l (rp + 8)) (fun a2 => obind (tload tab (idx + 8)) (fun b2 =>
    Ok (dot4 a0 b0 + dot4 a1 b1 + dot4 a2 b2)%R)))))))
  else Ok 0%R.

Definition cset (b : Z -> R) (i : Z) (v : R) : Z -> R := fun j => if j =? i then v else b j.
(** process_sse2.rs:68-91, one lane; [xf] stands for `simd_extract::<__m128, f32>` *)
Definition comb_write (xf : R -> res R) (l : comb) (d : R) : res comb :=
  if m_active l then
    obind (xf d) (fun t =>
    if (0 <=? m_wp l) && (m_wp l <? CCELLS) then
      let b := cset (m_buf l) (m_wp l) t in
      let b := if m_wp l <? 12 then cset b (m_wp l + CB) t else b in
      Ok (mk_comb (m_active l) (Z.land (m_wp l + 1) (CB - 1)) b (m_c0 l) (m_c1 l) (m_c2 l) (m_c3 l) (m_d0 l) (m_d1 l))
    else Panic)
  else Ok l.

(** process_sse2.rs:7-96, one lane *)
Definition comb_step (row : Z -> res Z) (xf : R -> res R) (tab : Z -> R) (l : comb) (x : R) : res (comb * R) :=
  let c0 := (m_c0 l + m_d0 l)%R in
  let c1 := (m_c1 l + m_d1 l)%R in
  let l := mk_comb (m_active l) (m_wp l) (m_buf l) c0 c1 (m_c2 l) (m_c3 l) (m_d0 l) (m_d1 l) in
  obind (comb_read row tab l (comb_e c0)) (fun r =>
  let d := softclip arithR (x + r * c1)%R in
  obind (comb_write xf l d) (fun l' =>
  Ok (l', (m_c3 l * r + m_c2 l * x)%R))).
(** a quad: four lanes, each with its own buffer; a panic in any lane is a panic of the call *)
Definition comb_quad (row : Z -> res Z) (xf : R -> res R) (tab : Z -> R) (ls : list comb) (xs : list R) : res (list (comb * R)) :=
  fold_right (fun '(l, x) acc => obind (comb_step row xf tab l x) (fun p => obind acc (fun ps => Ok (p :: ps)))) (Ok []) (combine ls xs).

(** surge-math/src/align.rs:34-36: simd_extract is todo!() *)
Definition simd_extract_shipped {X Y} (_ : X) : res Y := Panic.
