(** Conditioner effect (surgefx-conditioner): look-ahead level tracker, gain computer and delay.

    Conventions.
    - Samples are exact reals.  [rcp] is the processor's reciprocal approximation (surge-math/src/
      basic_ops.rs:4-9, _mm_rcp_ss); sqrt is the exact square root.
    - lamax is the A1d of CONDITIONER_LOOKAHEAD << 1 = 256 entries, delayed the A2d of shape (2,128) kept
      as two rows; ndarray indexing out of bounds panics.
    - The bands, the mid/side stage and the meters around the per-sample loop are not part of this file.
    Definitions only; theorems in CondProps.v. *)
From Coq Require Import Reals.
From Verif Require Import Base Util.
Local Open Scope R_scope.

(** constants.rs:4-5 *)
Definition LOOKAHEAD_BITS : Z := 7.
Definition LOOKAHEAD : Z := Z.shiftl 1 LOOKAHEAD_BITS.

(** the part of Conditioner (conditioner.rs:5-30) used by the limiter *)
Record cond := mk_cond { c_lamax : list R; c_del_l : list R; c_del_r : list R; c_bufpos : Z; c_flam : R; c_flam2 : R; c_gain : R }.
(** init.rs:55-66 *)
Definition new_lamax : list R := repeat 0 (Z.to_nat (Z.shiftl LOOKAHEAD 1)).
Definition new_delayed : list R := repeat 0 (Z.to_nat LOOKAHEAD).
(** init.rs:28-53 *)
Definition cond_new : cond := mk_cond new_lamax new_delayed new_delayed 0 0 0 0.
(** init.rs:5-25 *)
Definition cond_init (s : cond) : cond := mk_cond new_lamax new_delayed new_delayed 0 1 1 1.

(** maxf(a,b): the SSE maximum, b unless a > b *)
Definition maxf (a b : R) : R := if Rlt_dec b a then a else b.

(** lookahead.rs:5-11 *)
Definition get_lookahead (s : cond) : res R :=
  obind (zget (c_lamax s) (LOOKAHEAD - 2)) (fun la => Ok (maxf 1 (sqrt (2 * la)))).

(** one round of lookahead.rs:13-30 *)
Definition look_step (bufpos : Z) (st : list R * Z) (i : Z) : res (list R * Z) :=
  let '(lam, ofs) := st in
  let nextof := (ofs + Z.shiftr LOOKAHEAD i)%Z in
  let store_idx := (nextof + Z.shiftr bufpos (i + 1))%Z in
  let load_idx1 := (ofs + Z.shiftr bufpos i)%Z in
  let load_idx2 := (ofs + Z.lxor (Z.shiftr bufpos i) 1)%Z in
  obind (zget lam load_idx1) (fun a => obind (zget lam load_idx2) (fun b =>
  obind (zset lam store_idx (maxf a b)) (fun lam' => Ok (lam', nextof)))).
Definition do_lookahead (bufpos : Z) (lam : list R) : res (list R) :=
  obind (foldM (look_step bufpos) [0; 1; 2; 3; 4; 5; 6]%Z (lam, 0%Z)) (fun st => Ok (fst st)).

(** block.rs:59-76 *)
Definition update_filtered_lamax (attack release la : R) (s : cond) : cond :=
  let f1 := (1 - attack) * c_flam s + attack * la in
  let f2 := (1 - release) * c_flam2 s + release * f1 in
  let f2' := if Rlt_dec f2 f1 then f1 else f2 in
  mk_cond (c_lamax s) (c_del_l s) (c_del_r s) (c_bufpos s) f1 f2' (c_gain s).

(** block.rs:5-33 with 35-57 and 78-85: one sample (l, r) of the block, and the two outputs *)
Definition cond_sample (rcp : R -> R) (attack release : R) (s : cond) (x : R * R) : res (cond * (R * R)) :=
  let '(l, r) := x in
  let bufpos := c_bufpos s in
  if (bufpos <? 0)%Z then Panic else
  obind (zget (c_del_l s) bufpos) (fun d_l => obind (zget (c_del_r s) bufpos) (fun d_r =>
  obind (get_lookahead s) (fun la =>
  let s1 := update_filtered_lamax attack release la s in
  let gain := rcp (c_flam2 s1) in
  obind (zset (c_del_l s) bufpos l) (fun dl => obind (zset (c_del_r s) bufpos r) (fun dr =>
  let pk := maxf (Rabs l) (Rabs r) in
  obind (zset (c_lamax s) bufpos (pk * pk)) (fun lam =>
  obind (do_lookahead bufpos lam) (fun lam' =>
  Ok (mk_cond lam' dl dr (Z.land (bufpos + 1) (LOOKAHEAD - 1)) (c_flam s1) (c_flam2 s1) gain,
      (gain * d_l, gain * d_r))))))))).

(** the loop of process.rs:40-46 over a block, and over the blocks of a whole stream (attack and
    release are recomputed for every block, process.rs:20) *)
Fixpoint cond_block (rcp : R -> R) (attack release : R) (s : cond) (xs : list (R * R)) : res (cond * list (R * R)) :=
  match xs with
  | [] => Ok (s, [])
  | x :: rest => obind (cond_sample rcp attack release s x) (fun '(s1, y) =>
      obind (cond_block rcp attack release s1 rest) (fun '(s2, ys) => Ok (s2, y :: ys)))
  end.

(** cfg.rs:30-33: the smoothing factors from the two rate parameters *)
Definition cfg_attack (attack_rate : R) : R := let am := 1 + 9 / 10 * attack_rate in 1 / 1000 * am * am.
Definition cfg_release (release_rate : R) : R := let rm := 1 + 9 / 10 * release_rate in 1 / 10000 * rm * rm.

(** process.rs:228-252: process_only_control, the smoothing loop run N times (the meters left out) *)
Definition control_step (attack release : R) (s : cond) : cond :=
  let f1 := (1 - attack) * c_flam s + attack in
  let f2 := (1 - release) * c_flam2 s + release * f1 in
  let f2' := if Rlt_dec f2 f1 then f1 else f2 in
  mk_cond (c_lamax s) (c_del_l s) (c_del_r s) (c_bufpos s) f1 f2' (1 / f2').
Definition process_only_control (attack release : R) (n : nat) (s : cond) : cond := Nat.iter n (control_step attack release) s.

(** process.rs:103-110: the targets of the two input gains; clamp1_bipolar limits to -1..1 *)
Definition clamp1R (x : R) : R := Rmin (Rmax x (-1)) 1.
Definition amp_targets (pregain balance : R) : R * R :=
  (pregain * (1 / 2) * clamp1R (1 - balance), pregain * (1 / 2) * clamp1R (1 + balance)).
