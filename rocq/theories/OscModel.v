(* OscModel.v - the oscillators without band limiting: surgeosc-audioin, surgeosc-sine, surgeosc-fm, surgeosc-fm2. No proofs here.
   Samples, phases, depths and parameters are exact reals (the code's f32/f64 roundings and casts are not modelled; parameters are the
   values pvalf/pvali return, see ShipModel). A random draw is an argument of its block. *)
From Coq Require Import Reals.
From Verif Require Import Base Util LagModel MathModel TuneModel BiquadModel UnitModel RingModel.
Local Open Scope R_scope.

(** ** shared *)
(* surge-constants/src/lib.rs:345 *)
Definition note_freq_c0 : R := 16351599 / 1000000.
(* surge-tuning/src/tuner.rs:156-164; inv is dsamplerate_os_inv *)
Definition pitch2omega (t : tuner) (inv x : R) : res R := obind (n2p t false x) (fun v => Ok (PI * note_freq_c0 * v * inv)).
(* surge-math/src/ord.rs:25-27 mind *)
Definition omega_of (t : tuner) (inv x : R) : res R := obind (pitch2omega t inv x) (fun w => Ok (Rmin PI w)).
(* surge-traits OscillatorProcessBlockCfg, plus the draw and what master_osc points at: None is the null pointer *)
Record ocfg := mk_oc { oc_pitch : R; oc_drift : R; oc_stereo : bool; oc_fm : bool; oc_depth : R; oc_rand : R; oc_master : option (nat -> R) }.
(* `*self.master_osc.add(k)`: through a null pointer it is undefined behaviour, here Panic *)
Definition read_master (m : option (nat -> R)) (k : nat) : res R := match m with Some f => Ok (f k) | None => Panic end.
(* new.rs of each oscillator leaves master_osc null, and AssignFM is the trait's empty default (surge-traits/src/misc.rs:11-13) *)
Definition shipped_master : option (nat -> R) := None.
(* a block: 64 samples (BLOCK_SIZE_OS) *)
Definition os_block : nat := 64.
Fixpoint srun {S : Type} (f : nat -> S -> res (S * R)) (k n : nat) (s : S) : res (S * list R) :=
  match n with
  | O => Ok (s, [])
  | Datatypes.S n' => obind (f k s) (fun '(s1, y) => obind (srun f (Datatypes.S k) n' s1) (fun '(s2, ys) => Ok (s2, y :: ys)))
  end.
(* the two output buffers after a block: surge-math/src/scratch.rs:99-113 dup_channel_to_stereo *)
Definition outs (stereo : bool) (l : list R) (old_r : list R) : list R * list R := (l, if stereo then l else old_r).

(** ** surgeosc-audioin *)
(* surge-input/src/handle.rs:158-182 audio_in0, audio_in1: row 0 and row 1 of the 64x2 array, read k cells on; [a] is the array cell by cell *)
Definition audio_in0 (a : Z -> R) (k : nat) : R := a (Z.of_nat k).
Definition audio_in1 (a : Z -> R) (k : nat) : R := a (2 + Z.of_nat k)%Z.
(* surgeosc-audioin/src/process.rs:17-67; g is db_to_linear of the Gain parameter *)
Definition audioin_gains (g inp : R) : R * R :=
  let i := limit_range_R inp (-1) 1 in (g * (1 - i), g * (1 + i)).
Definition audioin_block (stereo : bool) (g inp : R) (a : Z -> R) (old_r : list R) : list R * list R :=
  let '(ga, gb) := audioin_gains g inp in
  if stereo then (map (fun k => ga * audio_in0 a k) (seq 0 os_block), map (fun k => gb * audio_in1 a k) (seq 0 os_block))
  else (map (fun k => ga * audio_in0 a k + gb * audio_in1 a k) (seq 0 os_block), old_r).

(** ** surgeosc-sine *)
(* sine.rs:5-18 *)
Record sineosc := mk_so { so_phase : R; so_sine : quadrosc; so_d1 : R; so_d2 : R; so_fmd : lag; so_fb : lag; so_last : R; so_out : list R * list R }.
(* new.rs:5-21; OscillatorOut::default is silent *)
Definition silent : list R := repeat 0 os_block.
Definition sine_new : sineosc := mk_so 0 qo_default 0 0 (lag_new 0) (lag_new 0) 0 (silent, silent).
(* init.rs:5-14 *)
Definition sine_init (s : sineosc) : sineosc := mk_so 0 (qo_set_phase (so_sine s) 0) 0 0 (so_fmd s) (so_fb s) 0 (so_out s).
(* block.rs:5-28; value_from_sin_and_cos (compute.rs) is RingModel.sine_shape *)
Definition sine_sample (shape : Z) (omega : R) (fm : bool) (m : option (nat -> R)) (k : nat) (s : sineosc) : res (sineosc * R) :=
  obind (read_master m k) (fun mo =>
  let p := so_phase s + so_last s in
  let p := if fm then p + l_v (so_fmd s) * mo else p in
  let y := sine_shape (sin p) (cos p) shape in
  Ok (mk_so (so_phase s + omega) (so_sine s) (so_d1 s) (so_d2 s) (lag_process (so_fmd s)) (lag_process (so_fb s)) (y * l_v (so_fb s)) (so_out s), y)).
(* legacy.rs:29-45, with FM *)
Definition sine_legacy_fm_sample (shape : Z) (omega : R) (m : option (nat -> R)) (k : nat) (s : sineosc) : res (sineosc * R) :=
  obind (read_master m k) (fun mo =>
  let y := sine_shape (sin (so_phase s)) (cos (so_phase s)) shape in
  Ok (mk_so (so_phase s + (omega + mo * l_v (so_fmd s))) (so_sine s) (so_d1 s) (so_d2 s) (lag_process (so_fmd s)) (so_fb s) (so_last s) (so_out s), y)).
(* legacy.rs:59-72, without *)
Definition sine_legacy_sample (shape : Z) (k : nat) (s : sineosc) : res (sineosc * R) :=
  let q := qo_process (so_sine s) in
  Ok (mk_so (so_phase s) q (so_d1 s) (so_d2 s) (so_fmd s) (so_fb s) (so_last s) (so_out s), sine_shape (qo_r q) (qo_i q) shape).
(* process.rs:4-56, legacy.rs:5-75; behaviour is FMBehavior *)
Definition sine_block (t : tuner) (inv : R) (shape : Z) (feedback : R) (behaviour : Z) (c : ocfg) (s : sineosc) : res sineosc :=
  let '(d1, d2) := osc_drift_block (so_d1 s, so_d2 s) (oc_rand c) in
  obind (omega_of t inv (oc_pitch c + oc_drift c * d1)) (fun w =>
  let fin := fun p : sineosc * list R => let '(s', l) := p in
    Ok (mk_so (so_phase s') (so_sine s') (so_d1 s') (so_d2 s') (so_fmd s') (so_fb s') (so_last s') (outs (oc_stereo c) l (snd (so_out s')))) in
  if (behaviour =? 0)%Z then
    if oc_fm c then
      obind (srun (sine_legacy_fm_sample shape w (oc_master c)) 0 os_block
        (mk_so (so_phase s) (so_sine s) d1 d2 (lag_new_value (so_fmd s) (oc_depth c)) (so_fb s) (so_last s) (so_out s))) fin
    else
      obind (qo_set_rate (so_sine s) w) (fun q =>
      obind (srun (sine_legacy_sample shape) 0 os_block (mk_so (so_phase s) q d1 d2 (so_fmd s) (so_fb s) (so_last s) (so_out s))) fin)
  else
    obind (srun (sine_sample shape w (oc_fm c) (oc_master c)) 0 os_block
      (mk_so (so_phase s) (so_sine s) d1 d2 (lag_new_value (so_fmd s) (32 * PI * oc_depth c * oc_depth c * oc_depth c)) (lag_new_value (so_fb s) feedback) (so_last s) (so_out s))) fin).

(** ** surgeosc-fm *)
(* fm.rs:5-23 *)
Record fmosc := mk_fo { fo_phase : R; fo_last : R; fo_rm1 : quadrosc; fo_rm2 : quadrosc; fo_am : quadrosc; fo_d1 : R; fo_d2 : R;
  fo_fmd : lag; fo_abs : lag; fo_rel1 : lag; fo_rel2 : lag; fo_fb : lag; fo_out : list R * list R }.
(* new.rs:5-25 *)
Definition fm_new : fmosc := mk_fo 0 0 qo_default qo_default qo_default 0 0 (lag_new 0) (lag_new 0) (lag_new 0) (lag_new 0) (lag_new 0) (silent, silent).
(* init.rs:5-19 *)
Definition fm_init (s : fmosc) : fmosc :=
  mk_fo 0 0 (qo_set_phase (fo_rm1 s) 0) (qo_set_phase (fo_rm2 s) 0) (qo_set_phase (fo_am s) 0) 0 0 (fo_fmd s) (fo_abs s) (fo_rel1 s) (fo_rel2 s) (fo_fb s) (fo_out s).
(* block.rs:5-40 *)
Definition fm_sample (omega : R) (fm : bool) (m : option (nat -> R)) (k : nat) (s : fmosc) : res (fmosc * R) :=
  obind (read_master m k) (fun mo =>
  let r1 := qo_process (fo_rm1 s) in let r2 := qo_process (fo_rm2 s) in let am := qo_process (fo_am s) in
  let p := fo_phase s + l_v (fo_rel1 s) * qo_r r1 + l_v (fo_rel2 s) * qo_r r2 + l_v (fo_abs s) * qo_r am + fo_last s in
  let p := if fm then p + l_v (fo_fmd s) * mo else p in
  let y := sin p in
  Ok (mk_fo (fo_phase s + omega) (y * l_v (fo_fb s)) r1 r2 am (fo_d1 s) (fo_d2 s) (if fm then lag_process (fo_fmd s) else fo_fmd s)
        (lag_process (fo_abs s)) (lag_process (fo_rel1 s)) (lag_process (fo_rel2 s)) (lag_process (fo_fb s)) (fo_out s), y)).
(* the parameters; FM2 reads a3 and f3 as its shift and start phase *)
Record fmpar := mk_fp { fp_a1 : R; fp_a2 : R; fp_a3 : R; fp_r1 : R; fp_r2 : R; fp_f3 : R; fp_fb : R }.
(* process.rs:5-68 *)
Definition fm_depth_of (a : R) : R := 32 * PI * a * a * a.
Definition fm_block (t : tuner) (inv : R) (p : fmpar) (c : ocfg) (s : fmosc) : res fmosc :=
  let '(n, d2) := osc_drift_block (fo_d1 s, fo_d2 s) (oc_rand c) in
  let d1 := n * oc_drift c in
  obind (pitch2omega t inv (oc_pitch c + d1)) (fun dw =>
  obind (qo_set_rate (fo_rm1 s) (Rmin PI (dw * fp_r1 p))) (fun r1 =>
  obind (qo_set_rate (fo_rm2 s) (Rmin PI (dw * fp_r2 p))) (fun r2 =>
  obind (omega_of t inv (60 + fp_f3 p)) (fun w3 =>
  obind (qo_set_rate (fo_am s) w3) (fun am =>
  obind (srun (fm_sample (Rmin PI dw) (oc_fm c) (oc_master c)) 0 os_block
    (mk_fo (fo_phase s) (fo_last s) r1 r2 am d1 d2 (if oc_fm c then lag_new_value (fo_fmd s) (fm_depth_of (oc_depth c)) else fo_fmd s)
       (lag_new_value (fo_abs s) (fm_depth_of (fp_a3 p))) (lag_new_value (fo_rel1 s) (fm_depth_of (fp_a1 p))) (lag_new_value (fo_rel2 s) (fm_depth_of (fp_a2 p)))
       (lag_new_value (fo_fb s) (fp_fb p)) (fo_out s))) (fun '(s', l) =>
  Ok (mk_fo (fo_phase s') (fo_last s') (fo_rm1 s') (fo_rm2 s') (fo_am s') (fo_d1 s') (fo_d2 s') (fo_fmd s') (fo_abs s') (fo_rel1 s') (fo_rel2 s') (fo_fb s')
        (outs (oc_stereo c) l (snd (fo_out s')))))))))).

(** ** surgeosc-fm2 *)
(* fm2.rs:5-23 *)
Record fm2osc := mk_f2 { f2_phase : R; f2_last : R; f2_rm1 : quadrosc; f2_rm2 : quadrosc; f2_d1 : R; f2_d2 : R;
  f2_fmd : lag; f2_rel1 : lag; f2_rel2 : lag; f2_fb : lag; f2_off : lag; f2_out : list R * list R }.
(* new.rs:5-27 *)
Definition fm2_new : fm2osc := mk_f2 0 0 qo_default qo_default 0 0 (lag_new 0) (lag_new 0) (lag_new 0) (lag_new 0) (lag_new 0) (silent, silent).
Record fm2par := mk_f2p { p2_a1 : R; p2_a2 : R; p2_r1 : Z; p2_r2 : Z; p2_shift : R; p2_start : R; p2_fb : R }.
(* init.rs:3-6 fm2_calcmd *)
Definition fm2_calcmd (x : R) : R := x * x * x * 8 * PI.
(* init.rs:8-24 *)
Definition fm2_init (p : fm2par) (s : fm2osc) : fm2osc :=
  let ph := 2 * PI * p2_start p in
  mk_f2 (sin (- ph) * (fm2_calcmd (p2_a1 p) + fm2_calcmd (p2_a2 p)) - ph) 0 (qo_set_phase (f2_rm1 s) ph) (qo_set_phase (f2_rm2 s) ph) 0 0
    (f2_fmd s) (f2_rel1 s) (f2_rel2 s) (f2_fb s) (f2_off s) (f2_out s).
(* block.rs:5-35: here the pointer is read only when there is FM *)
Definition fm2_sample (omega : R) (fm : bool) (m : option (nat -> R)) (k : nat) (s : fm2osc) : res (fm2osc * R) :=
  let r1 := qo_process (f2_rm1 s) in let r2 := qo_process (f2_rm2 s) in
  let p := f2_phase s + l_v (f2_rel1 s) * qo_r r1 + l_v (f2_rel2 s) * qo_r r2 + f2_last s + l_v (f2_off s) in
  obind (if fm then obind (read_master m k) (fun mo => Ok (p + l_v (f2_fmd s) * mo)) else Ok p) (fun p =>
  let y := sin p in
  Ok (mk_f2 (f2_phase s + omega) (y * l_v (f2_fb s)) r1 r2 (f2_d1 s) (f2_d2 s) (if fm then lag_process (f2_fmd s) else f2_fmd s)
        (lag_process (f2_rel1 s)) (lag_process (f2_rel2 s)) (lag_process (f2_fb s)) (lag_process (f2_off s)) (f2_out s), y)).
(* process.rs:5-50; srinv is dsamplerate_inv *)
Definition fm2_block (t : tuner) (inv srinv : R) (p : fm2par) (c : ocfg) (s : fm2osc) : res fm2osc :=
  let '(n, d2) := osc_drift_block (f2_d1 s, f2_d2 s) (oc_rand c) in
  let d1 := n * oc_drift c in
  let shift := p2_shift p * srinv in
  obind (pitch2omega t inv (oc_pitch c + d1)) (fun w =>
  obind (qo_set_rate (f2_rm1 s) (Rmin PI (w * IZR (p2_r1 p) + shift))) (fun r1 =>
  obind (qo_set_rate (f2_rm2 s) (Rmin PI (w * IZR (p2_r2 p) - shift))) (fun r2 =>
  obind (srun (fm2_sample (Rmin PI w) (oc_fm c) (oc_master c)) 0 os_block
    (mk_f2 (f2_phase s) (f2_last s) r1 r2 d1 d2 (if oc_fm c then lag_new_value (f2_fmd s) (fm_depth_of (oc_depth c)) else f2_fmd s)
       (lag_new_value (f2_rel1 s) (fm2_calcmd (p2_a1 p))) (lag_new_value (f2_rel2 s) (fm2_calcmd (p2_a2 p)))
       (lag_new_value (f2_fb s) (p2_fb p)) (lag_new_value (f2_off s) (2 * PI * p2_start p)) (f2_out s))) (fun '(s', l) =>
  Ok (mk_f2 (f2_phase s') (f2_last s') (f2_rm1 s') (f2_rm2 s') (f2_d1 s') (f2_d2 s') (f2_fmd s') (f2_rel1 s') (f2_rel2 s') (f2_fb s') (f2_off s')
        (outs (oc_stereo c) l (snd (f2_out s')))))))).
(* several blocks: the sound is the left channel, block after block *)
Fixpoint orun {S C : Type} (blk : C -> S -> res S) (left_of : S -> list R) (h : list C) (s : S) : res (S * list R) :=
  match h with
  | [] => Ok (s, [])
  | c :: r => obind (blk c s) (fun s1 => obind (orun blk left_of r s1) (fun '(s2, ys) => Ok (s2, left_of s1 ++ ys)))
  end.
