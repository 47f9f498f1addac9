(** C231: how each filter-block configuration wires its units, signal by signal. *)
From Coq Require Import Reals Lra Psatz.
From Verif Require Import Base Util F32 BlockModel QfModel QfProofs QfProps.
Local Open Scope R_scope.

(** ** specification: a configuration as a network of signals (functions of the sample number) *)
Section Spec.
Context {U : Type}.
Definition signal := nat -> R.
(** the state of a unit after k samples of its input, and the unit's output; an absent unit passes its input *)
Fixpoint unit_state (f : option (U -> R -> U * R)) (u : U) (x : signal) (k : nat) : U :=
  match k with O => u | S j => match f with None => unit_state f u x j | Some h => fst (h (unit_state f u x j) (x j)) end end.
Definition through (f : option (U -> R -> U * R)) (u : U) (x : signal) : signal :=
  fun k => match f with None => x k | Some h => snd (h (unit_state f u x k) (x k)) end.
(** the low-pass in front of the shaper: half of the last value plus the input; w is the value before the block *)
Fixpoint low_state (w : R) (x : signal) (k : nat) : R := match k with O => w | S j => / 2 * (low_state w x j + x j) end.
Definition lowpass (w : R) (x : signal) : signal := fun k => low_state w x (S k).
Definition shaped (f : option (R -> R -> R)) (w : R) (drive x : signal) : signal :=
  fun k => match f with None => x k | Some h => h (lowpass w x k) (drive k) end.
Definition shaped_raw (f : option (R -> R -> R)) (drive x : signal) : signal :=
  fun k => match f with None => x k | Some h => h (x k) (drive k) end.
(** a parameter gliding by d per sample; the value at sample k *)
Definition glide (a d : R) : signal := fun k => a + (INR k + 1) * d.
(** a signal one sample later *)
Definition delayed (v : R) (x : signal) : signal := fun k => match k with O => v | S j => x j end.
Definition xfade (m a b : signal) : signal := fun k => a k * (1 - m k) + b k * m k.

(** what a network delivers: two output signals, the new feedback lines, the unit states after k samples *)
Record network := { n_out : signal; n_out2 : signal; n_lineL : signal; n_lineR : signal;
  n_s0 : nat -> U; n_s1 : nat -> U; n_s2 : nat -> U; n_s3 : nat -> U; n_low : signal (* the shaper's input, before its low-pass *) }.

(** the network of a configuration, given the signals on the two feedback lines *)
Definition wiring (cfg : fbconfig) (g : fbq R U) (c : chain R bool U) (lineL lineR : signal) : network :=
  let m1 := glide (c_mix1 c) (c_dmix1 c) in let m2 := glide (c_mix2 c) (c_dmix2 c) in
  let gain := glide (c_gain c) (c_dgain c) in let drive := glide (c_drive c) (c_ddrive c) in let fb := glide (c_feedback c) (c_dfeedback c) in
  let L : signal := fun k => nth k (c_dl c) 0 in let R : signal := fun k => nth k (c_dr c) 0 in
  let backL : signal := fun k => softclip arithR (fb k * delayed (c_fbl c) lineL k) in
  let backR : signal := fun k => softclip arithR (fb k * delayed (c_fbr c) lineR k) in
  let plus (a b : signal) : signal := fun k => a k + b k in
  let amp (x : signal) : signal := fun k => if c_active c then x k * gain k else 0 in
  let A := fu1ptr g in let B := fu2ptr g in let W := wsptr g in
  let shape := shaped W (c_wslpf c) drive in
  let first_stage := is_some A || is_some W in
  let idle0 := fun _ : nat => c_u2 c in let idle1 := fun _ : nat => c_u3 c in let none : signal := fun _ => 0 in
  let keepL : signal := fun _ => c_fbl c in let keepR : signal := fun _ => c_fbr c in
  match cfg with
  | Serial1 =>
      let a := through A (c_u0 c) L in
      let x := if first_stage then xfade m1 L (shape a) else L in
      let out := amp (xfade m2 x (through B (c_u1 c) (plus x R))) in
      {| n_out := out; n_out2 := none; n_lineL := keepL; n_lineR := keepR;
         n_s0 := unit_state A (c_u0 c) L; n_s1 := unit_state B (c_u1 c) (plus x R); n_s2 := idle0; n_s3 := idle1; n_low := a |}
  | Serial2 =>
      let i := plus L backL in
      let a := through A (c_u0 c) i in
      let x := if first_stage then xfade m1 i (shape a) else i in
      let out := amp (xfade m2 x (through B (c_u1 c) (plus x R))) in
      {| n_out := out; n_out2 := none; n_lineL := out; n_lineR := keepR;
         n_s0 := unit_state A (c_u0 c) i; n_s1 := unit_state B (c_u1 c) (plus x R); n_s2 := idle0; n_s3 := idle1; n_low := a |}
  | Serial3 =>
      let i := plus L backL in
      let a := through A (c_u0 c) i in
      let out := amp (if first_stage then xfade m1 i (shape a) else i) in
      {| n_out := out; n_out2 := none; n_lineL := through B (c_u1 c) (plus out R); n_lineR := keepR;
         n_s0 := unit_state A (c_u0 c) i; n_s1 := unit_state B (c_u1 c) (plus out R); n_s2 := idle0; n_s3 := idle1; n_low := a |}
  | Dual1 =>
      let i := plus L backL in let j := plus R backL in
      let mix : signal := fun k => through A (c_u0 c) i k * m1 k + through B (c_u1 c) j k * m2 k in
      let out := amp (shape mix) in
      {| n_out := out; n_out2 := none; n_lineL := out; n_lineR := keepR;
         n_s0 := unit_state A (c_u0 c) i; n_s1 := unit_state B (c_u1 c) j; n_s2 := idle0; n_s3 := idle1; n_low := mix |}
  | Dual2 =>
      let i := plus L backL in let j := plus R backL in
      let a := through A (c_u0 c) i in
      let out := amp (fun k => shape a k * m1 k + through B (c_u1 c) j k * m2 k) in
      {| n_out := out; n_out2 := none; n_lineL := out; n_lineR := keepR;
         n_s0 := unit_state A (c_u0 c) i; n_s1 := unit_state B (c_u1 c) j; n_s2 := idle0; n_s3 := idle1; n_low := a |}
  | Ring =>
      let i := plus L backL in let j := plus R backL in
      let a := through A (c_u0 c) i in let b := through B (c_u1 c) j in
      let ring : signal := fun k => ((1 - m1 k) * b k + a k * m1 k) * ((1 - m2 k) * a k + b k * m2 k) in
      let out := amp (shape ring) in
      {| n_out := out; n_out2 := none; n_lineL := out; n_lineR := keepR;
         n_s0 := unit_state A (c_u0 c) i; n_s1 := unit_state B (c_u1 c) j; n_s2 := idle0; n_s3 := idle1; n_low := ring |}
  | Stereo =>
      let i := plus L backL in let j := plus R backL in
      let sh := shaped_raw W drive in
      let out := amp (fun k => sh (through A (c_u0 c) i) k * m1 k) in
      let out2 := amp (fun k => sh (through B (c_u1 c) j) k * m2 k) in
      {| n_out := out; n_out2 := out2; n_lineL := plus out out2; n_lineR := keepR;
         n_s0 := unit_state A (c_u0 c) i; n_s1 := unit_state B (c_u1 c) j; n_s2 := idle0; n_s3 := idle1; n_low := none |}
  | Wide =>
      let i := plus L backL in let j := plus R backR in
      let sh := shaped_raw W drive in
      let x := if first_stage then xfade m1 i (sh (through A (c_u0 c) i)) else i in
      let y := if first_stage then xfade m1 j (sh (through A (c_u2 c) j)) else j in
      let second (a b : signal) := if is_some B then xfade m2 a b else a in
      let out := amp (second x (through B (c_u1 c) x)) in
      let out2 := amp (second y (through B (c_u3 c) y)) in
      {| n_out := out; n_out2 := out2; n_lineL := out; n_lineR := out2;
         n_s0 := unit_state A (c_u0 c) i; n_s1 := unit_state B (c_u1 c) x; n_s2 := unit_state A (c_u2 c) j; n_s3 := unit_state B (c_u3 c) y; n_low := none |}
  end.
Definition low_passed (cfg : fbconfig) : bool := match cfg with Stereo | Wide => false | _ => true end.
End Spec.

(** ** proof *)
Section Proof.
Context {U : Type}.
(** state after k samples *)
Fixpoint traj (cfg : fbconfig) (g : fbq R U) (s : qst R R bool U) (k : nat) : qst R R bool U :=
  match k with O => s | S j => match sample1 cfg g (traj cfg g s j) j with Ok s' => s' | _ => s end end.
Lemma traj_step cfg g s k : sample1 cfg g (traj cfg g s k) k = Ok (traj cfg g s (S k)).
Proof. cbn [traj]. destruct (sample1_ok cfg g (traj cfg g s k) k) as [s' E]. rewrite E. reflexivity. Qed.
Lemma traj_loop cfg g s n : loop1 cfg g n 0 s = Ok (traj cfg g s n).
Proof. induction n as [|n IH]; [reflexivity|]. rewrite loop1_S, IH. cbn [obind Nat.add]. apply traj_step. Qed.

Definition lineL_of cfg g s : signal := fun k => c_fbl (q_c (traj cfg g s (S k))).
Definition lineR_of cfg g s : signal := fun k => c_fbr (q_c (traj cfg g s (S k))).
Definition tracks cfg (g : fbq R U) c0 (N : network) (k : nat) (c : chain R bool U) : Prop :=
  same_static c0 c /\ ramped cfg g (INR k) c0 c /\
  c_u0 c = n_s0 N k /\ c_u1 c = n_s1 N k /\ c_u2 c = n_s2 N k /\ c_u3 c = n_s3 N k /\
  c_wslpf c = (if low_passed cfg && is_some (wsptr g) then low_state (c_wslpf c0) (n_low N) k else c_wslpf c0).

Lemma wiring_step cfg (g : fbq R U) c0 lineL lineR k s s' : let N := wiring cfg g c0 lineL lineR in
  tracks cfg g c0 N k (q_c s) -> c_fbl (q_c s) = delayed (c_fbl c0) lineL k -> c_fbr (q_c s) = delayed (c_fbr c0) lineR k ->
  sample1 cfg g s k = Ok s' ->
  tracks cfg g c0 N (S k) (q_c s') /\ c_fbl (q_c s') = (match cfg with Serial1 => c_fbl (q_c s) | _ => n_lineL N k end) /\ c_fbr (q_c s') = (match cfg with Wide => n_lineR N k | _ => c_fbr (q_c s) end) /\
  q_l s' = setn (q_l s) k (nth k (q_l s) 0 + (n_out N k * c_outl (q_c s') + n_out2 N k * c_out2l (q_c s'))) /\
  q_r s' = setn (q_r s) k (nth k (q_r s) 0 + (n_out N k * c_outr (q_c s') + n_out2 N k * c_out2r (q_c s'))).
Proof.
  intros N (SS & RR & I0 & I1 & I2 & I3 & IW) FL FR E. pose proof (sample_ramps cfg g s k s' E) as (S1 & R1).
  assert (ST : same_static c0 (q_c s') /\ ramped cfg g (INR (S k)) c0 (q_c s')).
  { clear - SS RR S1 R1. unfold same_static, ramped in *. destruct SS as (e1 & e2 & e3 & e4 & e5 & e6 & e7 & e8 & e9 & e10 & e11 & e12). destruct S1 as (f1 & f2 & f3 & f4 & f5 & f6 & f7 & f8 & f9 & f10 & f11 & f12).
    destruct RR as (r1 & r2 & r3 & r4 & r5 & r6 & r7 & r8 & r9). destruct R1 as (t1 & t2 & t3 & t4 & t5 & t6 & t7 & t8 & t9).
    rewrite t1, t2, t3, t4, t5, t6, t7, t8, t9, f1, f2, f3, f4, f5, f6, f7, f8, f9, f10, f11, f12, r1, r2, r3, r4, r5, r6, r7, r8, r9, e1, e2, e3, e4, e5, e6, e7, e8, e9, e10, e11, e12, S_INR. repeat split; ring. }
  unfold tracks. destruct ST as (ST1 & ST2). enough (G : (c_u0 (q_c s') = n_s0 N (S k) /\ c_u1 (q_c s') = n_s1 N (S k) /\ c_u2 (q_c s') = n_s2 N (S k) /\ c_u3 (q_c s') = n_s3 N (S k) /\
     c_wslpf (q_c s') = (if low_passed cfg && is_some (wsptr g) then lowpass (c_wslpf c0) (n_low N) k else c_wslpf c0)) /\
    c_fbl (q_c s') = (match cfg with Serial1 => c_fbl (q_c s) | _ => n_lineL N k end) /\ c_fbr (q_c s') = (match cfg with Wide => n_lineR N k | _ => c_fbr (q_c s) end) /\
    q_l s' = setn (q_l s) k (nth k (q_l s) 0 + (n_out N k * c_outl (q_c s') + n_out2 N k * c_out2l (q_c s'))) /\
    q_r s' = setn (q_r s) k (nth k (q_r s) 0 + (n_out N k * c_outr (q_c s') + n_out2 N k * c_out2r (q_c s')))).
  { destruct G as (G1 & G2). split; [split; [exact ST1|]; split; [exact ST2|exact G1]|exact G2]. }
  clear ST1 ST2 R1 S1. unfold same_static, ramped in *. destruct SS as (e1 & e2 & e3 & e4 & e5 & e6 & e7 & e8 & e9 & e10 & e11 & e12). destruct RR as (r1 & r2 & r3 & r4 & r5 & r6 & r7 & r8 & r9). clear e6 e7 e8 e9 r6 r7 r8 r9.
  assert (Gg : c_gain (q_c s) + c_dgain (q_c s) = glide (c_gain c0) (c_dgain c0) k) by (unfold glide; rewrite r1, e1; ring).
  assert (Gf : b2r (match cfg with Serial1 => false | _ => true end) = 1 -> c_feedback (q_c s) + c_dfeedback (q_c s) = glide (c_feedback c0) (c_dfeedback c0) k) by (intros X; unfold glide; rewrite r2, e2, X; ring).
  assert (G1 : b2r (mix1_moves cfg g) = 1 -> c_mix1 (q_c s) + c_dmix1 (q_c s) = glide (c_mix1 c0) (c_dmix1 c0) k) by (intros X; unfold glide; rewrite r3, e3, X; ring).
  assert (G2 : b2r (mix2_moves cfg g) = 1 -> c_mix2 (q_c s) + c_dmix2 (q_c s) = glide (c_mix2 c0) (c_dmix2 c0) k) by (intros X; unfold glide; rewrite r4, e4, X; ring).
  assert (Gd : b2r (is_some (wsptr g)) = 1 -> c_drive (q_c s) + c_ddrive (q_c s) = glide (c_drive c0) (c_ddrive c0) k) by (intros X; unfold glide; rewrite r5, e5, X; ring).
  clear r1 r2 r3 r4 r5 e1 e2 e3 e4 e5. subst N. dstate s. cbn [QfModel.q_c QfModel.q_l QfModel.q_r QfModel.c_u0 QfModel.c_u1 QfModel.c_u2 QfModel.c_u3 QfModel.c_active QfModel.c_gain QfModel.c_feedback QfModel.c_mix1 QfModel.c_mix2 QfModel.c_drive QfModel.c_dgain QfModel.c_dfeedback QfModel.c_dmix1 QfModel.c_dmix2 QfModel.c_ddrive QfModel.c_wslpf QfModel.c_fbl QfModel.c_fbr QfModel.c_dl QfModel.c_dr] in *.
  dg g; destruct cfg; qcbv_in E; apply ok_inj in E; subst s'; cbn [mix1_moves mix2_moves is_some fu1ptr fu2ptr wsptr orb b2r] in G1, G2, Gd, Gf;
   try rewrite !Gg; try rewrite !(Gf eq_refl); try rewrite !(G1 eq_refl); try rewrite !(G2 eq_refl); try rewrite !(Gd eq_refl); clear Gg Gf G1 G2 Gd;
   rewrite I0, I1, I2, I3, IW, FL, FR, e10, e11, e12; clear I0 I1 I2 I3 IW FL FR e10 e11 e12;
   cbn [QfModel.q_c QfModel.q_l QfModel.q_r QfModel.c_u0 QfModel.c_u1 QfModel.c_u2 QfModel.c_u3 QfModel.c_wslpf QfModel.c_fbl QfModel.c_fbr QfModel.c_outl QfModel.c_outr QfModel.c_out2l QfModel.c_out2r];
   cbn [wiring n_s0 n_s1 n_s2 n_s3 n_low n_out n_out2 n_lineL n_lineR low_passed is_some fu1ptr fu2ptr wsptr andb orb].
  all: split; [split; [reflexivity|]; split; [reflexivity|]; split; [reflexivity|]; split; [reflexivity|]; reflexivity|].
  all: split; [reflexivity|]; split; [reflexivity|].
  all: try rewrite (Rmult_0_l c_out2l), (Rmult_0_l c_out2r), !Rplus_0_r.
  all: split; reflexivity.
Qed.

Lemma traj_tracks cfg (g : fbq R U) c bl br : let s := mk_qst c bl br in forall k,
  let N := wiring cfg g c (lineL_of cfg g s) (lineR_of cfg g s) in
  tracks cfg g c N k (q_c (traj cfg g s k)).
Proof.
  intros s k N. induction k as [|k IH].
  - unfold tracks. cbn [traj]. split; [unfold same_static; repeat split|]. split; [unfold ramped; subst s; cbn [INR q_c]; repeat split; ring|]. subst N s. destruct cfg; cbn [wiring n_s0 n_s1 n_s2 n_s3 n_low low_passed andb q_c]; destruct (is_some (wsptr g)); repeat split.
  - assert (FL : c_fbl (q_c (traj cfg g s k)) = delayed (c_fbl c) (lineL_of cfg g s) k) by (destruct k; reflexivity).
    assert (FR : c_fbr (q_c (traj cfg g s k)) = delayed (c_fbr c) (lineR_of cfg g s) k) by (destruct k; reflexivity).
    exact (proj1 (wiring_step cfg g c _ _ k _ _ IH FL FR (traj_step cfg g s k))).
Qed.
End Proof.

(** For every configuration, filters, shaper, chain state and input there are signals on the feedback lines, each sample of which is what the
    network delivers to them, such that the block adds to every output sample the network's two outputs times their gliding pan levels (the
    left level of the first bus gliding twice as fast in the two-bus configurations: C125), and leaves the units, the low-pass and the lines
    where the network has them after 64 samples.  Since a line's sample k depends only on earlier samples, the lines are determined. *)
Theorem C231_wiring : forall U cfg (g : fbq R U) c bl br, length bl = 64%nat -> length br = 64%nat ->
  exists lineL lineR s', block1 cfg g (mk_qst c bl br) = Ok s' /\
  let N := wiring cfg g c lineL lineR in
  (forall k, lineL k = n_lineL N k /\ lineR k = n_lineR N k) /\
  (forall k, (k < 64)%nat ->
     nth k (q_l s') 0 = nth k bl 0 + (n_out N k * glide (c_outl c) ((if two_outputs cfg then 2 else 1) * c_doutl c) k + n_out2 N k * glide (c_out2l c) (c_dout2l c) k) /\
     nth k (q_r s') 0 = nth k br 0 + (n_out N k * glide (c_outr c) (c_doutr c) k + n_out2 N k * glide (c_out2r c) (c_dout2r c) k)) /\
  c_u0 (q_c s') = n_s0 N 64%nat /\ c_u1 (q_c s') = n_s1 N 64%nat /\ c_u2 (q_c s') = n_s2 N 64%nat /\ c_u3 (q_c s') = n_s3 N 64%nat /\
  c_fbl (q_c s') = lineL 63%nat /\ c_fbr (q_c s') = lineR 63%nat /\
  (is_some (wsptr g) = true -> low_passed cfg = true -> c_wslpf (q_c s') = lowpass (c_wslpf c) (n_low N) 63%nat).
Proof.
  intros U cfg g c bl br Hl Hr. set (s := mk_qst c bl br). exists (lineL_of cfg g s), (lineR_of cfg g s), (traj cfg g s 64). split; [apply traj_loop|].
  intros N. pose proof (traj_tracks cfg g c bl br : forall k, tracks cfg g c N k (q_c (traj cfg g s k))) as T.
  assert (FL : forall k, c_fbl (q_c (traj cfg g s k)) = delayed (c_fbl c) (lineL_of cfg g s) k) by (intros k; destruct k; reflexivity).
  assert (FR : forall k, c_fbr (q_c (traj cfg g s k)) = delayed (c_fbr c) (lineR_of cfg g s) k) by (intros k; destruct k; reflexivity).
  assert (STEP := fun k => wiring_step cfg g c _ _ k _ _ (T k) (FL k) (FR k) (traj_step cfg g s k)). cbv zeta in STEP. change (wiring cfg g c (lineL_of cfg g s) (lineR_of cfg g s)) with N in STEP.
  split; [|split].
  - intros k. destruct (STEP k) as (_ & EL & ER & _). split.
    + destruct cfg; try exact EL. change (n_lineL N k) with (c_fbl c). clear - STEP. unfold lineL_of. induction k as [|k IH]; destruct (STEP O) as (_ & E0 & _); [exact E0|]. destruct (STEP (S k)) as (_ & EL & _). rewrite EL. exact IH.
    + destruct cfg; try exact ER; change (n_lineR N k) with (c_fbr c); clear - STEP; unfold lineR_of; (induction k as [|k IH]; [destruct (STEP O) as (_ & _ & E0 & _); exact E0|]); destruct (STEP (S k)) as (_ & _ & ER & _); rewrite ER; exact IH.
  - pose proof (loop_out cfg g (fun k s1 => s1 = traj cfg g s k) (fun k xl xr => xl = n_out N k * glide (c_outl c) ((if two_outputs cfg then 2 else 1) * c_doutl c) k + n_out2 N k * glide (c_out2l c) (c_dout2l c) k /\ xr = n_out N k * glide (c_outr c) (c_doutr c) k + n_out2 N k * glide (c_out2r c) (c_dout2r c) k)) as LO.
    destruct (fun H => LO H s 64%nat (traj cfg g s 64)) as (_ & _ & _ & J); [|reflexivity|apply traj_loop|].
    + intros k s1 s2 -> H. rewrite traj_step in H. apply ok_inj in H. subst s2. split; [reflexivity|]. destruct (STEP k) as ((_ & RM & _) & _ & _ & OL & OR). unfold ramped in RM. destruct RM as (_ & _ & _ & _ & _ & r6 & r7 & r8 & r9). rewrite S_INR in *.
      assert (NB : two_outputs cfg = false -> n_out2 N k = 0) by (subst N; destruct cfg; intros X; try discriminate X; reflexivity).
      eexists. eexists. split; [split; reflexivity|]. rewrite OL, OR, r6, r7, r8, r9. unfold glide. split; do 2 f_equal; destruct (two_outputs cfg); cbn [b2r]; rewrite ?(NB eq_refl); ring.
    + intros k Hk. specialize (J k ltac:(cbn [s q_l]; lia) ltac:(cbn [s q_r]; lia)). rewrite (proj2 (Nat.ltb_lt k 64) Hk) in J. destruct J as (xl & xr & (-> & ->) & J1 & J2). split; [exact J1|exact J2].
  - destruct (T 64%nat) as (_ & _ & I0 & I1 & I2 & I3 & IW). do 4 (split; [assumption|]). split; [reflexivity|]. split; [reflexivity|]. intros W LP. rewrite W, LP in IW. exact IW.
Qed.
Print Assumptions C231_wiring.

(** ** debug builds *)
Definition audible {U} (s : qst R R bool U) (k : nat) : Prop := -32 < nth k (q_l s) 0 < 32 /\ -32 < nth k (q_r s) 0 < 32.
Definition audible_dec {U} (s : qst R R bool U) k : {audible s k} + {~ audible s k}.
Proof.
  unfold audible. destruct (Rlt_dec (-32) (nth k (q_l s) 0)), (Rlt_dec (nth k (q_l s) 0) 32), (Rlt_dec (-32) (nth k (q_r s) 0)), (Rlt_dec (nth k (q_r s) 0) 32); (left; tauto) || (right; tauto).
Defined.
Definition dsample1 {U} cfg (g : fbq R U) (s : qst R R bool U) k := do_sample ops1 0 0 cfg (is_some (fu1ptr g)) (is_some (wsptr g)) (is_some (fu2ptr g)) g true s k.
Lemma assert_is {U} (s : qst R R bool U) k : assert_reasonable ops1 0 true s k = if audible_dec s k then Ok s else Panic.
Proof.
  unfold assert_reasonable. cbn [andb ops1 vo_reasonable]. destruct (audible_dec s k) as [A|A]; unfold audible in A; destruct (Rlt_dec (nth k (q_l s) 0) 32), (Rlt_dec (-32) (nth k (q_l s) 0)), (Rlt_dec (nth k (q_r s) 0) 32), (Rlt_dec (-32) (nth k (q_r s) 0)); cbn [andb negb]; try reflexivity; exfalso; tauto.
Qed.
Lemma dsample_is {U} cfg (g : fbq R U) s k : cfg = Stereo \/ cfg = Wide -> dsample1 cfg g s k = obind (sample1 cfg g s k) (fun s' => assert_reasonable ops1 0 true s' k).
Proof.
  intros [-> | ->]; unfold dsample1, sample1; cbn [do_sample]; unfold do_stereo, do_wide.
  - destruct (feed2 ops1 0 s k) as [s1 [x y]]. destruct (filt _ _ 0 s1 x) as [[s2 x2]| |]; cbn [obind]; [|reflexivity|reflexivity]. destruct (filt _ _ 1 s2 y) as [[s3 y3]| |]; cbn [obind]; [|reflexivity|reflexivity]. destruct (shape2 ops1 _ _ s3 x2 y3) as [[s4 [x4 y4]]| |]; cbn [obind]; reflexivity.
  - cbv zeta. destruct (filt _ _ 0 _ _) as [[s2 x2]| |]; cbn [obind]; [|reflexivity|reflexivity]. destruct (filt _ _ 2 s2 _) as [[s3 y3]| |]; cbn [obind]; [|reflexivity|reflexivity]. destruct (shape2 ops1 _ _ s3 x2 y3) as [[s4 [x4 y4]]| |]; cbn [obind]; [|reflexivity|reflexivity].
    destruct (is_some (fu1ptr g) || is_some (wsptr g)); cbv beta iota zeta; (match goal with |- obind ?t _ = _ => destruct t as [[s6 [x6 y6]]| |] end; cbn [obind]; reflexivity).
Qed.
Lemma sample_keeps {U} cfg (g : fbq R U) s k s' j : sample1 cfg g s k = Ok s' -> j <> k -> nth j (q_l s') 0 = nth j (q_l s) 0 /\ nth j (q_r s') 0 = nth j (q_r s) 0.
Proof.
  intros E D. apply Nat.eqb_neq in D. dstate s. dg g; destruct cfg; qcbv_in E; apply ok_inj in E; subst s'; cbn [QfModel.q_l QfModel.q_r]; rewrite !setn_nth, D; cbn [andb]; auto.
Qed.
Lemma loop_keeps {U} cfg (g : fbq R U) : forall n k s s' j, loop1 cfg g n k s = Ok s' -> (j < k)%nat -> nth j (q_l s') 0 = nth j (q_l s) 0 /\ nth j (q_r s') 0 = nth j (q_r s) 0.
Proof.
  unfold loop1. induction n as [|n IH]; intros k s s' j E L; cbn [do_loop] in E; [apply ok_inj in E; subst; auto|]. destruct (sample1 cfg g s k) as [s1| |] eqn:E1; cbn [obind] in E; [|discriminate|discriminate].
  destruct (IH (S k) s1 s' j E ltac:(lia)) as (A & B). destruct (sample_keeps cfg g s k s1 j E1 ltac:(lia)) as (C & D). split; congruence.
Qed.
(** In the two-bus configurations a debug build does exactly what a release build does as long as every sample of the two output buffers it
    writes stays strictly between -32 and 32, and panics otherwise. *)
Theorem C231_debug_build : forall U cfg (g : fbq R U) s s', cfg = Stereo \/ cfg = Wide -> block1 cfg g s = Ok s' ->
  ((forall k, (k < 64)%nat -> audible s' k) -> process_quad ops1 0 0 cfg g true s = Ok s') /\
  ((exists k, (k < 64)%nat /\ ~ audible s' k) -> process_quad ops1 0 0 cfg g true s = Panic).
Proof.
  intros U cfg g s s' HC E. rewrite block1_loop in E. change (process_quad ops1 0 0 cfg g true s) with (do_loop (dsample1 cfg g) 64 0 s).
  assert (G : forall n k s s', loop1 cfg g n k s = Ok s' -> ((forall j, (k <= j < k + n)%nat -> audible s' j) -> do_loop (dsample1 cfg g) n k s = Ok s') /\ ((exists j, (k <= j < k + n)%nat /\ ~ audible s' j) -> do_loop (dsample1 cfg g) n k s = Panic)).
  { clear E s s'. unfold loop1. induction n as [|n IH]; intros k s s' E; cbn [do_loop] in *; [split; [intros _; exact E|intros (j & L & _); lia]|].
    rewrite (dsample_is cfg g s k HC). destruct (sample1 cfg g s k) as [s1| |] eqn:E1; cbn [obind] in *; [|discriminate|discriminate]. rewrite assert_is.
    assert (K : audible s' k <-> audible s1 k). { destruct (loop_keeps cfg g n (S k) s1 s' k E ltac:(lia)) as (A & B). unfold audible. rewrite A, B. tauto. }
    destruct (IH (S k) s1 s' E) as (I1 & I2). destruct (audible_dec s1 k) as [A|A]; cbn [obind]; split.
    - intros H. apply I1. intros j L. apply H. lia.
    - intros (j & L & H). apply I2. exists j. split; [|exact H]. destruct (Nat.eq_dec j k) as [->|]; [tauto|lia].
    - intros H. exfalso. apply A, K, H. lia.
    - reflexivity. }
  destruct (G 64%nat 0%nat s s' E) as (G1 & G2). split; [intros H; apply G1; intros j L; apply H; lia|]. intros (k & L & H). apply G2. exists k. split; [lia|exact H].
Qed.
Print Assumptions C231_debug_build.

(** not vacuous: a dual chain with two one-pole filters and a shaper *)
Example C231_ex : exists (g : fbq R R) (c : chain R bool R), is_some (fu1ptr g) = true /\ c_feedback c <> 0 /\ length (c_dl c) = 64%nat /\ n_out (wiring Dual1 g c (fun _ => 0) (fun _ => 0)) 0%nat <> 0.
Proof.
  exists {| fu1ptr := Some (fun u x => ((u + x) / 2, (u + x) / 2)); fu2ptr := None; wsptr := None |}, (mk_chain 0 0 0 0 true 1 1 1 1 1 0 0 0 0 0 0 0 0 (repeat 1 64) (repeat 1 64) 1 1 0 0 0 0 0 0).
  split; [reflexivity|]. split; [cbn; lra|]. split; [reflexivity|]. cbn [wiring n_out c_active shaped wsptr]. cbn [through fu1ptr fu2ptr glide delayed c_u0 c_u1 unit_state snd INR c_mix1 c_dmix1 c_mix2 c_dmix2 c_gain c_dgain c_feedback c_dfeedback c_dl c_dr c_fbl nth repeat]. match goal with |- context [softclip arithR ?t] => let H := fresh in assert (H : t = 0) by (unfold glide, delayed; cbn [INR]; ring); rewrite !H end. rewrite softclip_0. unfold glide. cbn [INR]. lra.
Qed.
