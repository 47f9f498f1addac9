(** Nonlinear biquad voice filters: surgefilter-nlfeedback and surgefilter-nlstates.

    Conventions.
    - All SSE operations of these filters are lane-wise; one lane is modelled.
    - Exact reals; `_mm_load_ps` on a stack array (nlff.rs:79, 113) is taken to be an aligned load.
    - The eight state registers Z1..Z8 are a list of four pairs (one pair per stage); the loop runs over
      stages 0..=stages with stages <= 3, so it never leaves them.
    - What the tuner returns for the cutoff, n2p(freq + 69), and the sample rate are arguments.
    Definitions only; theorems in NlfProps*.v. *)
From Coq Require Import Reals List.
From Flocq Require Import Core.Core.
From Verif Require Import Base Util F32 BlockModel MathModel.
Import ListNotations.
Local Open Scope R_scope.

(* surgefilter-nlfeedback/src/nlff.rs:13-20, surgefilter-nlstates/src/nlsf_coeff.rs: the coefficient registers *)
Record nlc := mk_nlc { cA1 : R; cA2 : R; cB0 : R; cB1 : R; cB2 : R; cMk : R }.
(* nlff.rs:22-30, surgefilter-nlstates/src/nlsf_type.rs *)
Inductive nlty := NLowPass | NHighPass | NBandPass | NNotch | NAllpass.

(* nlff.rs:62-65, surgefilter-nlstates/src/nlsf.rs:90-95 clamped_frequency; [n2p] = tuner.n2p(pitch + 69) *)
Definition nl_freq (n2p sr_os : R) : R := limit_range_f32 arithR (n2p * (817579891564371 / 100000000000000)) 5 (sr_os * (3 / 10)).
(* surgefilter-nlfeedback/src/coeff.rs:9-11, surgefilter-nlstates/src/coeff.rs:14-55: q *)
Definition nl_q (reso : R) : R := let r := limit_range_f32 arithR reso 0 1 in r * r * r * 18 + 1 / 10.
(* surgefilter-nlfeedback/src/coeff.rs:34-49 LP_NORM_TABLE; the index is a FilterSubType (SVF, Rough, Smooth, Medium = 0..3) *)
Definition lp_norm : list R :=
  [153273 / 100000; 133407 / 100000; 108197 / 100000; 958219 / 1000000; 127374 / 100000; 932342 / 1000000; 761765 / 1000000;
   665462 / 1000000; 776856 / 1000000; 597575 / 1000000; 496207 / 1000000; 471714 / 1000000].
(* the five filter coefficients from sine, cosine and q: surgefilter-nlfeedback/src/coeff.rs:5-117 and surgefilter-nlstates/src/coeff.rs:14-192 compute the same ones *)
Definition nl_design (ty : nlty) (wsin wcos q : R) : R * R * R * R * R :=
  let alpha := wsin / (2 * q) in
  let a0r := 1 / (1 + alpha) in
  let a1 := -2 * wcos * a0r in
  let a2 := (1 - alpha) * a0r in
  match ty with
  | NLowPass => let b1 := (1 - wcos) * a0r in let b0 := b1 * (1 / 2) in (a1, a2, b0, b1, b0)
  | NHighPass => let b1 := - (1 + wcos) * a0r in let b0 := b1 * (-1 / 2) in (a1, a2, b0, b1, b0)
  | NBandPass => let b0 := wsin * (1 / 2) * a0r in (a1, a2, b0, 0, - b0)
  | NNotch => (a1, a2, a0r, -2 * wcos * a0r, a0r)
  | NAllpass => (a1, a2, a2, a1, 1)
  end.
(* surgefilter-nlfeedback/src/coeff.rs:30-101: the makeup gain; `self.subty as usize < 8` always, so res_makeup is 1; FloatOrd max = Rmax *)
Definition nlff_makeup (ty : nlty) (subty : nat) (nf : R) : R :=
  match ty with
  | NLowPass => 1 * nth subty lp_norm 0 / Rpower (Rmax nf (1 / 1000)) (1 / 10)
  | NHighPass => 1 * nth subty lp_norm 0 / Rpower (Rmax (1 - nf) (1 / 1000)) (1 / 10)
  | _ => 1
  end.
(* surgefilter-nlfeedback/src/coeff.rs:5-117 NonlinearFeedbackFilter::coeff_make *)
Definition nlff_coeff (ty : nlty) (subty : nat) (n2p sr_os reso : R) : nlc :=
  let nf := 2 * nl_freq n2p sr_os / sr_os in
  let wc := PI * nf in
  let '(a1, a2, b0, b1, b2) := nl_design ty (fastsin wc) (fastcos wc) (nl_q reso) in
  mk_nlc a1 a2 b0 b1 b2 (nlff_makeup ty subty nf).
(* surgefilter-nlstates/src/coeff.rs:14-192 NonlinearStatesFilter::coeff_make (coeff 5 stays 0) *)
Definition nlsf_coeff (ty : nlty) (n2p sr_os reso : R) : nlc :=
  let wc := 2 * PI * nl_freq n2p sr_os / sr_os in
  let '(a1, a2, b0, b1, b2) := nl_design ty (fastsin wc) (fastcos wc) (nl_q reso) in
  mk_nlc a1 a2 b0 b1 b2 0.

(* nlff.rs:3-10 NLFFSaturator; surgefilter-nlstates/src/nlsf_saturator.rs NLSFSaturator *)
Inductive nlsat := STanh | SSoft | SOjd | SSine.
Definition nlff_sat (i : Z) : option nlsat :=
  match i with 0 => Some STanh | 1 => Some SSoft | 2 => Some SOjd | 3 => Some SSine | _ => None end%Z.
Definition nlsf_sat (i : Z) : option nlsat :=
  match i with 0 => Some STanh | 1 => Some SSoft | _ => None end%Z.
(* nlff.rs:82-102 ojd_waveshaper: the arms in the order in which they are written *)
Definition ojd (input : R) : R :=
  if Rle_dec input (17 / 10) then -1 else
  if (if Rlt_dec (-17 / 10) input then if Rlt_dec input (-3 / 10) then true else false else false) then
    let i := input + 3 / 10 in i + i * i / (4 * (1 - 3 / 10)) - 3 / 10 else
  if (if Rlt_dec (9 / 10) input then if Rlt_dec input (11 / 10) then true else false else false) then
    let i := input - 9 / 10 in i - i * i / (4 * (1 - 9 / 10)) + 9 / 10 else
  if Rlt_dec (11 / 10) input then 1 else 1.
(* surgefilter-nlfeedback/src/process.rs:28-42: the match on the saturator; nlff.rs:67-79 fastsin_ps, 104-116 ojd_waveshaper_ps lane by lane *)
Definition saturate_nl (s : nlsat) (x : R) : R :=
  match s with STanh => fasttanh_clamped x | SSoft => softclip arithR x | SOjd => ojd x | SSine => fastsin x end.

(* surgefilter-nlfeedback/src/process.rs:13-60: one pass of the stage loop. State (z1, z2); returns the new state and the next input *)
Definition nlff_stage (s : nlsat) (c : nlc) (z : R * R) (input : R) : (R * R) * R :=
  let out := fst z + cB0 c * input in
  let nf := saturate_nl s out in
  ((snd z + (cB1 c * input - cA1 c * nf), cB2 c * input - cA2 c * nf), out * cMk c).
(* surgefilter-nlstates/src/process.rs:177-266: the registers are first given the new state and then overwritten with the saturated
   copies z1, z2 that were read at the start of the stage *)
Definition nlsf_stage (s : nlsat) (c : nlc) (z : R * R) (input : R) : (R * R) * R :=
  let z1 := fst z in let z2 := snd z in
  let out := z1 + cB0 c * input in
  let reg := (z2 + (cB1 c * input - cA1 c * out), cB2 c * input - cA2 c * out) in
  let reg := (saturate_nl s z1, snd reg) in
  let reg := (fst reg, saturate_nl s z2) in
  (reg, out).
(* the loop `for stage in 0..=stages`: [n] passes are left, [zs] are the registers from the current stage on *)
Fixpoint nl_stages (stage : R * R -> R -> (R * R) * R) (n : nat) (zs : list (R * R)) (input : R) : list (R * R) * R :=
  match n, zs with
  | Datatypes.S k, z :: rest => let '(z', y) := stage z input in let '(r, o) := nl_stages stage k rest y in (z' :: r, o)
  | _, _ => (zs, input)
  end.
(* surgefilter-nlfeedback/src/process.rs:62-69, surgefilter-nlstates/src/process.rs:268-276: coeff += dcoeff *)
Definition nlc_add (c d : nlc) : nlc :=
  mk_nlc (cA1 c + cA1 d) (cA2 c + cA2 d) (cB0 c + cB0 d) (cB1 c + cB1 d) (cB2 c + cB2 d) (cMk c + cMk d).
(* `comb_write_position[0] & 3` and `(comb_write_position[0] >> 2) & 3`; [cwp] is the filter's subtype number *)
Definition nl_stage_count (cwp : Z) : nat := Z.to_nat (Z.land cwp 3 + 1).
Definition nl_sat_index (cwp : Z) : Z := Z.land (Z.shiftr cwp 2) 3.
Record nlstate := mk_nls { ns_c : nlc; ns_d : nlc; ns_z : list (R * R) }.
(* surgefilter-nlfeedback/src/process.rs:5-72 process_quad *)
Definition nlff_process (cwp : Z) (s : nlstate) (input : R) : res (nlstate * R) :=
  match nlff_sat (nl_sat_index cwp) with
  | None => Panic
  | Some sat =>
    let '(zs, y) := nl_stages (nlff_stage sat (ns_c s)) (nl_stage_count cwp) (ns_z s) input in
    Ok (mk_nls (nlc_add (ns_c s) (ns_d s)) (ns_d s) zs, y)
  end.
(* surgefilter-nlstates/src/process.rs:145-278 process_quad *)
Definition nlsf_process (cwp : Z) (s : nlstate) (input : R) : res (nlstate * R) :=
  match nlsf_sat (nl_sat_index cwp) with
  | None => Panic
  | Some sat =>
    let '(zs, y) := nl_stages (nlsf_stage sat (ns_c s)) (nl_stage_count cwp) (ns_z s) input in
    Ok (mk_nls (nlc_add (ns_c s) (ns_d s)) (ns_d s) zs, y)
  end.
(* a run over a sequence of samples *)
Fixpoint nl_run (f : nlstate -> R -> res (nlstate * R)) (s : nlstate) (xs : list R) : res (nlstate * list R) :=
  match xs with
  | [] => Ok (s, [])
  | x :: t => obind (f s x) (fun '(s', y) => obind (nl_run f s' t) (fun '(s2, ys) => Ok (s2, y :: ys)))
  end.
