(** Model of the K35 (Korg 35) voice filter: surgefilter-k35/src.

    The crate compiles k35.rs, coeff.rs and process.rs (lib.rs:5-7).  process_quad is todo!() (process.rs:3-7), so the filter panics when a
    voice runs it.  The two files that say what it should compute, lowpass.rs and highpass.rs, are not part of the crate; they are modelled
    here as the "intended" processing, so that the coefficients, which are part of the crate, can be judged by what they are for.
    Exact real arithmetic, one SIMD lane.  Definitions only; theorems in K35Props.v. *)
From Coq Require Import Reals List.
From Verif Require Import Base Util BlockModel MathModel.
Import ListNotations.
Local Open Scope R_scope.

(* process.rs:3-7 process_quad *)
Definition k35_process_quad : res R := Panic.

(* k35.rs:3-13: the coefficients *)
Record kco := mk_kco { k_g : R; k_lpf : R; k_hpf : R; k_mod : R; k_alpha : R; k_sat : R; k_blend : R; k_blendinv : R }.
(* k35.rs:15-20: the registers *)
Record kreg := mk_kreg { k_lpf1 : R; k_hpf1 : R; k_xpf2 : R }.
(* k35.rs:34-38 clamped_frequency; n2p is the table value for pitch + 69 *)
Definition k35_freq (n2p sr_os : R) : R := limit_range_f32 arithR (n2p * (817579891564371 / 100000000000000)) 5 (sr_os * (3 / 10)).
(* coeff.rs:13-15: the warped tuning *)
Definition k35_warp (n2p sr_os : R) : R :=
  let wd := k35_freq n2p sr_os * 2 * PI in
  let wa := (2 * sr_os) * fasttan (wd * (1 / sr_os) * (1 / 2)) in
  wa * (1 / sr_os) * (1 / 2).
(* coeff.rs:16-41 from g on; FloatOrd min = Rmin *)
Definition k35_coeffs (g reso : R) (lowpass : bool) (sat : R) : kco :=
  let gp1 := 1 + g in
  let gscaled := g / gp1 in
  let k := reso * (196 / 100) in
  let mk := limit_range_f32 arithR k (1 / 100) (196 / 100) in
  let lpf := if lowpass then (mk - mk * gscaled) / gp1 else 1 / gp1 in
  let hpf := if lowpass then -1 / gp1 else - gscaled / gp1 in
  let blend := Rmin sat 1 in
  mk_kco gscaled lpf hpf mk (1 / (1 - mk * gscaled + mk * gscaled * gscaled)) sat blend (1 - blend).
(* coeff.rs:5-42 coeff_make *)
Definition k35_coeff (n2p sr_os reso : R) (lowpass : bool) (sat : R) : kco := k35_coeffs (k35_warp n2p sr_os) reso lowpass sat.

(* k35.rs:57-64 do_lpf: result and new state *)
Definition k_do_lpf (g input z : R) : R * R :=
  let v := (input - z) * g in
  let result := v + z in
  (result, v + result).
(* k35.rs:66-70 do_hpf *)
Definition k_do_hpf (g input z : R) : R * R :=
  let '(result, z') := k_do_lpf g input z in (input - result, z').

(** ** The intended processing (not compiled) *)
(* the blend of the clean and the driven signal: lowpass.rs:30-46, highpass.rs:35-45 *)
Definition k_drive (c : kco) (x : R) : R := x * k_blendinv c + fasttanh_clamped (x * k_sat c) * k_blend c.
(* lowpass.rs:5-63 process_lp, with the coefficients already moved on: new registers and output *)
Definition k35_lp (c : kco) (s : kreg) (input : R) : kreg * R :=
  let '(y1, l1) := k_do_lpf (k_g c) input (k_lpf1 s) in
  let s35 := k_lpf c * k_xpf2 s + k_hpf c * k_hpf1 s in
  let u := k_drive c (k_alpha c * (y1 + s35)) in
  let '(l2, x2) := k_do_lpf (k_g c) u (k_xpf2 s) in
  let y := k_mod c * l2 in
  let '(_, h1) := k_do_hpf (k_g c) y (k_hpf1 s) in
  (mk_kreg l1 h1 x2, y / k_mod c).
(* highpass.rs:5-58 process_hp *)
Definition k35_hp (c : kco) (s : kreg) (input : R) : kreg * R :=
  let '(y1, h1) := k_do_hpf (k_g c) input (k_hpf1 s) in
  let s35 := k_hpf c * k_xpf2 s + k_lpf c * k_lpf1 s in
  let u := k_alpha c * (y1 + s35) in
  let y := k_drive c (k_mod c * u) in
  let '(h2, x2) := k_do_hpf (k_g c) y (k_xpf2 s) in
  let '(_, l1) := k_do_lpf (k_g c) h2 (k_lpf1 s) in
  (mk_kreg l1 h1 x2, y / k_mod c).
(* a run over a sequence of samples *)
Fixpoint k_run (f : kreg -> R -> kreg * R) (s : kreg) (xs : list R) : kreg * list R :=
  match xs with [] => (s, []) | x :: t => let '(s', y) := f s x in let '(s2, ys) := k_run f s' t in (s2, y :: ys) end.
