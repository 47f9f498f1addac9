(** Small stateful units shared by the oscillators, effects and voices:
    - surge-timeunit/src/unit.rs       (tempo-sync ratios),
    - surge-quadrosc/src/lib.rs        (quadrature oscillator),
    - surge-svf/src/svf.rs             (two-stage vectorised state-variable band-pass),
    - surge-coeffmaker/src/maker.rs    (filter coefficient smoothing).
    Definitions only; the theorems are in UnitProps*.v. *)
From Coq Require Import Reals.
From Flocq Require Import IEEE754.BinarySingleNaN.
From Verif Require Import Base Util F32 SmallModel.
Local Open Scope Z_scope.

(** ** TimeUnit *)

(** surge-timeunit/src/unit.rs:3-13.  The sample-rate handle is not used by any method and is
    dropped.  f64 and f32 are IEEE binary64 and binary32. *)
Record timeunit := mk_tu {
  tu_ppq : f64; tu_tempo : f64; tu_num : Z; tu_den : Z;
  tu_ratio : f32; tu_ratio_inv : f32; tu_songpos : f64 }.

(** f64 literal 0.0 and 120.0 *)
Definition d0 : f64 := B754_zero false.
Definition d120 : f64 := dofZ 120.

(** surge-timeunit/src/unit.rs:16-30 (Initialize::init) *)
Definition tu_init (s : timeunit) : timeunit :=
  mk_tu (tu_ppq s) (tu_tempo s) (tu_num s) (tu_den s) f1 f0 d0.

(** surge-timeunit/src/unit.rs:35-48 (TimeUnit::new) *)
Definition tu_new : timeunit := tu_init (mk_tu d0 d0 4 4 f1 f1 d0).

(** surge-timeunit/src/unit.rs:50-54 (TimeUnit::update) *)
Definition tu_update (s : timeunit) : timeunit :=
  let ratio := f64_as_f32 (ddiv (tu_tempo s) d120) in
  mk_tu (tu_ppq s) (tu_tempo s) (tu_num s) (tu_den s) ratio (fdiv f1 ratio) (tu_ppq s).

(** surge-timeunit/src/unit.rs:56-88: the operations of TimeUnitHandle.  The handle's inner
    cell is private, so these are the only ways the rest of the program can touch the unit. *)
Inductive tu_op :=
| TuUpdate                    (* unit.rs:75-77 *)
| TuSetRatio (v : f32)        (* unit.rs:79-81 *)
| TuSetRatioInv (v : f32)     (* unit.rs:83-85 *)
| TuSetSongpos (v : f64).     (* unit.rs:87-89 *)

(** surge-timeunit/src/unit.rs:75-89 *)
Definition tu_step (s : timeunit) (o : tu_op) : timeunit :=
  match o with
  | TuUpdate => tu_update s
  | TuSetRatio v => mk_tu (tu_ppq s) (tu_tempo s) (tu_num s) (tu_den s) v (tu_ratio_inv s) (tu_songpos s)
  | TuSetRatioInv v => mk_tu (tu_ppq s) (tu_tempo s) (tu_num s) (tu_den s) (tu_ratio s) v (tu_songpos s)
  | TuSetSongpos v => mk_tu (tu_ppq s) (tu_tempo s) (tu_num s) (tu_den s) (tu_ratio s) (tu_ratio_inv s) v
  end.

(** a history of calls through the handle *)
Definition tu_run (s : timeunit) (l : list tu_op) : timeunit := fold_left tu_step l s.

(** ** QuadrOsc, over exact reals (the code computes in f64) *)

(** surge-quadrosc/src/lib.rs:2-7 *)
Record quadrosc := mk_qo { qo_r : R; qo_i : R; qo_dr : R; qo_di : R }.

(** surge-quadrosc/src/lib.rs:21-31 *)
Definition qo_default : quadrosc := mk_qo 0 (-1) 0 0.

(** surge-quadrosc/src/lib.rs:33-47.  The division by the square root is guarded: the code
    divides by zero (giving an infinity and then NaN states) exactly when r*r+i*i = 0; the
    model returns Panic there so that no theorem can rely on Coq's 1/0. *)
Definition qo_set_rate (s : quadrosc) (w : R) : res quadrosc :=
  let m := (qo_r s * qo_r s + qo_i s * qo_i s)%R in
  if Req_EM_T m 0 then Panic
  else
    let n := (1 / sqrt m)%R in
    Ok (mk_qo (qo_r s * n) (qo_i s * n) (cos w) (sin w)).

(** surge-quadrosc/src/lib.rs:49-55 *)
Definition qo_set_phase (s : quadrosc) (w : R) : quadrosc :=
  mk_qo (sin w) (- cos w) (qo_dr s) (qo_di s).

(** surge-quadrosc/src/lib.rs:57-65 *)
Definition qo_process (s : quadrosc) : quadrosc :=
  mk_qo (qo_dr s * qo_r s - qo_di s * qo_i s) (qo_dr s * qo_i s + qo_di s * qo_r s) (qo_dr s) (qo_di s).

(** histories of calls *)
Inductive qo_op := QoRate (w : R) | QoPhase (w : R) | QoProcess.
Definition qo_step (s : quadrosc) (o : qo_op) : res quadrosc :=
  match o with
  | QoRate w => qo_set_rate s w
  | QoPhase w => Ok (qo_set_phase s w)
  | QoProcess => Ok (qo_process s)
  end.
Fixpoint qo_run (s : quadrosc) (l : list qo_op) : res quadrosc :=
  match l with
  | [] => Ok s
  | o :: l' => obind (qo_step s o) (fun s' => qo_run s' l')
  end.

(** ** VectorizedSvfFilter, one lane, over exact reals.
    All operations of the code are lane-wise (surge-svf/src/svf.rs:92-160 uses only
    v_madd, v_nmsub, _mm_mul_ps, _mm_sub_ps), so lane e of the vector filter is this filter. *)

(** surge-svf/src/svf.rs:3-17 *)
Record svf := mk_svf {
  sv_l1 : R; sv_b1 : R; sv_l2 : R; sv_b2 : R; sv_f1 : R; sv_f2 : R; sv_q : R }.

(** surge-svf/src/svf.rs:19-47 (reset and default agree) *)
Definition svf_default : svf := mk_svf 0 0 0 0 0 0 0.
Definition svf_reset (_ : svf) : svf := mk_svf 0 0 0 0 0 0 0.

(** surge-svf/src/svf.rs:52-55 *)
Definition svf_calc_f (omega : R) : R := (2 * sin (PI * omega))%R.
(** surge-svf/src/svf.rs:57-60 *)
Definition svf_calc_q (quality : R) : R := (1 / quality)%R.

(** surge-svf/src/svf.rs:62-84 (one lane: omega is the lane's item) *)
Definition svf_set_coeff (s : svf) (omega quality_factor spread : R) : svf :=
  mk_svf (sv_l1 s) (sv_b1 s) (sv_l2 s) (sv_b2 s)
    (svf_calc_f (omega * (1 - spread))) (svf_calc_f (omega * (1 + spread))) (svf_calc_q quality_factor).

(** surge-svf/src/svf.rs:86-90 *)
Definition svf_copy_coeff (s other : svf) : svf :=
  mk_svf (sv_l1 s) (sv_b1 s) (sv_l2 s) (sv_b2 s) (sv_f1 other) (sv_f2 other) (sv_q other).

(** one stage of surge-svf/src/svf.rs:97-124 resp. 126-153:
    L += f*B; h = x*q - L - q*B; B += f*h *)
Definition svf_stage (f q l b x : R) : R * R :=
  let l' := (f * b + l)%R in
  let h := ((x * q - l') - q * b)%R in
  (l', (f * h + b)%R).

(** surge-svf/src/svf.rs:92-160 (calc_bpf) *)
Definition svf_calc_bpf (s : svf) (x : R) : svf * R :=
  let '(l1, b1) := svf_stage (sv_f1 s) (sv_q s) (sv_l1 s) (sv_b1 s) x in
  let '(l2, b2) := svf_stage (sv_f2 s) (sv_q s) (sv_l2 s) (sv_b2 s) b1 in
  (mk_svf l1 b1 l2 b2 (sv_f1 s) (sv_f2 s) (sv_q s), b2).

(** a run over an input signal *)
Fixpoint svf_run (s : svf) (xs : list R) : svf * list R :=
  match xs with
  | [] => (s, [])
  | x :: xs' =>
      let '(s1, y) := svf_calc_bpf s x in
      let '(s2, ys) := svf_run s1 xs' in (s2, y :: ys)
  end.

(** ** FilterCoefficientMaker, one of the N_COEFFMAKER_COEFFS independent coefficients *)

(** surge-coeffmaker/src/maker.rs:13-41; [first_run] is shared by all coefficients, which are
    otherwise independent (maker.rs:103-108 updates index i from index i only). *)
Record cmaker := mk_cm { cm_coeff : list R; cm_dcoeff : list R; cm_tcoeff : list R; cm_first : bool }.

(** surge-constants/src/lib.rs:328 *)
Definition N_COEFFMAKER_COEFFS : nat := 8.
(** surge-coeffmaker/src/maker.rs:7 *)
Definition SMOOTH : R := (2 / 10)%R.
(** surge-constants: BLOCK_SIZE_OS = 64, BLOCK_SIZE_OS_INV = 1/64 *)
Definition BLOCK_SIZE_OS_INV : R := (1 / 64)%R.

Definition zeros8 : list R := repeat 0%R N_COEFFMAKER_COEFFS.

(** surge-coeffmaker/src/init.rs:66-75 (Reset::reset) *)
Definition cm_reset (_ : cmaker) : cmaker := mk_cm zeros8 zeros8 zeros8 true.
(** surge-coeffmaker/src/init.rs:22-51 (new) *)
Definition cm_new : cmaker := cm_reset (mk_cm zeros8 zeros8 zeros8 true).

(** surge-coeffmaker/src/maker.rs:103-108, the loop body's two assignments for one index *)
Definition cm_target (t item : R) : R := ((1 - SMOOTH) * t + SMOOTH * item)%R.
Definition cm_delta (t c : R) : R := ((t - c) * BLOCK_SIZE_OS_INV)%R.

Fixpoint map2 {A B C} (f : A -> B -> C) (l : list A) (m : list B) : list C :=
  match l, m with a :: l', b :: m' => f a b :: map2 f l' m' | _, _ => [] end.

(** surge-coeffmaker/src/maker.rs:69-111 (from_direct) *)
Definition cm_from_direct (s : cmaker) (coeffs : list R) : cmaker :=
  if cm_first s
  then mk_cm zeros8 zeros8 zeros8 false
  else
    let t := map2 cm_target (cm_tcoeff s) coeffs in
    mk_cm (cm_coeff s) (map2 cm_delta t (cm_coeff s)) t false.

(** surge-coeffmaker/src/maker.rs:56-63 (make_coeffs): the generator is an arbitrary function *)
Definition cm_make_coeffs (s : cmaker) (freq reso : R) (generator : R -> R -> list R) : cmaker :=
  cm_from_direct s (generator freq reso).

(** One block as the voice drives it: set_quad_filterblock copies coeff and dcoeff into the
    lane (surge-voice/src/set_qfb.rs:119-124), a quad filter that adds dcoeff to coeff once per
    oversampled sample does so 64 times (e.g. surgefilter-moog/src/process.rs), and
    sync_registers_from_qfb copies the lane's coeff back (surge-voice/src/sync_from_qfb.rs:25-31).
    Over exact reals 64 additions of dcoeff are coeff + 64*dcoeff. *)
Definition cm_block (s : cmaker) (coeffs : list R) : cmaker :=
  let s' := cm_from_direct s coeffs in
  mk_cm (map2 (fun c d => Nat.iter 64 (Rplus d) c) (cm_coeff s') (cm_dcoeff s')) (cm_dcoeff s') (cm_tcoeff s') (cm_first s').
