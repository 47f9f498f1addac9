(** Theorems about the OB-Xd voice filters (C275-C282). *)
From Coq Require Import Reals List Lra Psatz Lia.
From Verif Require Import Base Util BlockModel ObxdModel.
Import ListNotations.
Local Open Scope R_scope.

(** ** C282: as a voice filter the OB-Xd filters panic on the first block *)
Theorem C282_voice_filter_panics_refuted : obxd_process_quad = Panic.
Proof. reflexivity. Qed.
Print Assumptions C282_voice_filter_panics_refuted.

(* ================= two poles ================= *)
(** The damping the filter has at a state: the knob's, plus what the diode pair adds (and, in the push modes, takes away). *)
Definition damping (c : ob2) (s1 : R) : R := o2_r c + ob_tcfb (o2_push c) s1.

Lemma diode_poly x : ob_diode x - 1 = x * (5 / 100 + x * (185 / 1000 + x * (920833 / 100000000 + x * (103592 / 10000000)))).
Proof. unfold ob_diode. field. Qed.
Lemma quart x : 0 <= x * x * (21 / 10000 + x * (920833 / 100000000 + x * (103592 / 10000000))).
Proof.
  assert (Q : 0 <= 21 / 10000 + x * (920833 / 100000000 + x * (103592 / 10000000))).
  { replace (21 / 10000 + x * (920833 / 100000000 + x * (103592 / 10000000)))
      with (103592 / 10000000 * Rsqr (x + 920833 / 2071840) + (21 / 10000 - 103592 / 10000000 * Rsqr (920833 / 2071840))) by (unfold Rsqr; field).
    assert (P := Rle_0_sqr (x + 920833 / 2071840)). unfold Rsqr at 2. lra. }
  apply Rmult_le_pos; [apply Rle_0_sqr|exact Q].
Qed.
Lemma diode_low x : - (35 / 10000) <= ob_diode x - 1.
Proof.
  rewrite diode_poly. assert (Q := quart x). assert (S := Rle_0_sqr (x + 25 / 183)). unfold Rsqr in S.
  replace (x * (5 / 100 + x * (185 / 1000 + x * (920833 / 100000000 + x * (103592 / 10000000))))) with
    (x * x * (21 / 10000 + x * (920833 / 100000000 + x * (103592 / 10000000))) + (5 / 100 * x + (185 / 1000 - 21 / 10000) * (x * x))) by field.
  nra.
Qed.
(* how far the damping can fall below the knob's value *)
Lemma damping_low c s1 : o2_r c - (35 / 1000 + 35 / 10000) <= damping c s1 /\ (o2_push c <> 1 -> o2_r c - 35 / 10000 <= damping c s1).
Proof. unfold damping, ob_tcfb. cbv zeta. assert (D := diode_low (s1 * (876 / 10000))). destruct (Req_EM_T (o2_push c) 1); split; intros; try lra; contradiction. Qed.

(** ** C275: the feedback without delay is solved exactly *)
Theorem C275_exact : forall sample c s1 s2, 0 <= o2_g c -> 0 <= o2_r c ->
  let v := ob2_solve sample c (s1, s2) in let y1 := o2_g c * v + s1 in let y2 := o2_g c * y1 + s2 in
  v = sample - 2 * damping c s1 * y1 - y2 /\ 99 / 100 <= 1 + o2_g c * (2 * damping c s1 + o2_g c).
Proof.
  intros x c s1 s2 G Rr. cbv zeta. destruct (damping_low c s1) as [L _].
  assert (D : 99 / 100 <= 1 + o2_g c * (2 * damping c s1 + o2_g c)).
  { assert (M : o2_g c * (- (77 / 1000)) <= o2_g c * (2 * damping c s1)) by (apply Rmult_le_compat_l; lra).
    assert (S := Rle_0_sqr (o2_g c - 77 / 2000)). unfold Rsqr in S. nra. }
  split; [|exact D]. unfold ob2_solve. cbn [fst snd]. cbv zeta. fold (damping c s1) in *. unfold damping in *.
  set (p := o2_r c + ob_tcfb (o2_push c) s1) in *. clearbody p. set (g := o2_g c) in *. clearbody g. field. lra.
Qed.
Print Assumptions C275_exact.
(* the solution is the only one *)
Theorem C275_unique : forall sample c s1 s2 v, 0 <= o2_g c -> 0 <= o2_r c ->
  v = sample - 2 * damping c s1 * (o2_g c * v + s1) - (o2_g c * (o2_g c * v + s1) + s2) -> v = ob2_solve sample c (s1, s2).
Proof.
  intros x c s1 s2 v G Rr E. destruct (C275_exact x c s1 s2 G Rr) as [F D]. cbv zeta in F. set (w := ob2_solve x c (s1, s2)) in *. clearbody w.
  set (p := damping c s1) in *. set (g := o2_g c) in *. clearbody p g.
  assert (H : (v - w) * (1 + g * (2 * p + g)) = 0). { replace ((v - w) * (1 + g * (2 * p + g))) with ((v + 2 * p * (g * v + s1) + (g * (g * v + s1) + s2)) - (w + 2 * p * (g * w + s1) + (g * (g * w + s1) + s2))) by ring. lra. }
  apply Rmult_integral in H as [H | H]; lra.
Qed.
Print Assumptions C275_unique.
Example C275_instance : exists v, v = ob2_solve 1 (mk_ob2 (1 / 2) 0 0 0 1) (0, 0) /\ 0 < v.
Proof.
  eexists; split; [reflexivity|]. destruct (C275_exact 1 (mk_ob2 (1 / 2) 0 0 0 1) 0 0) as [_ D]; cbn [o2_g o2_r]; try lra. cbn [o2_g] in D.
  unfold ob2_solve. cbn [fst snd o2_g o2_r o2_push]. cbv zeta. unfold damping in D. cbn [o2_g o2_r o2_push] in D. apply Rdiv_lt_0_compat; lra.
Qed.

(** ** C276: the energy balance *)
Definition energy (s : R * R) : R := fst s * fst s + snd s * snd s.
Definition no_move2 : ob2 := mk_ob2 0 0 0 0 0.
Lemma move2_0 c : ob2_move c no_move2 = c.
Proof. destruct c. unfold ob2_move, no_move2. cbn. rewrite !Rplus_0_r. reflexivity. Qed.
(* the band-pass value of the sample, which the energy is fed and drained through *)
Definition bandpass (sample : R) (c : ob2) (s : R * R) : R := o2_g c * ob2_solve sample c s + fst s.
(* with the coefficients of the sample (c already moved on): the change of the energy is 4g times band-pass (input - 2 damping band-pass) *)
Theorem C276_balance : forall c d s sample, 0 <= o2_g (ob2_move c d) -> 0 <= o2_r (ob2_move c d) -> let m := ob2_move c d in let y := bandpass sample m s in
  energy (o2s_s (fst (ob2_process (mk_o2s c d s) sample))) - energy s = 4 * o2_g m * y * (sample - 2 * damping m (fst s) * y).
Proof.
  intros c d [s1 s2] x. cbv zeta. unfold ob2_process, bandpass. cbn [o2s_c o2s_d o2s_s fst snd]. set (m := ob2_move c d). clearbody m. intros G Rr.
  destruct (C275_exact x m s1 s2 G Rr) as [E _]. cbv zeta in E. set (v := ob2_solve x m (s1, s2)) in *. clearbody v. unfold energy. cbn [fst snd].
  set (p := damping m s1) in *. clearbody p. set (g := o2_g m) in *. clearbody g.
  transitivity (4 * g * (g * v + s1) * (v + (g * (g * v + s1) + s2))); [ring|]. rewrite E at 2. ring.
Qed.
Print Assumptions C276_balance.

Lemma passive_step c s x delta : 0 <= o2_g c -> 0 <= o2_r c -> 0 < delta -> delta <= damping c (fst s) ->
  energy (o2s_s (fst (ob2_process (mk_o2s c no_move2 s) x))) <= energy s + o2_g c / (2 * delta) * (x * x).
Proof.
  intros G Rr D P. assert (B := C276_balance c no_move2 s x). rewrite move2_0 in B. specialize (B G Rr). cbv zeta in B.
  set (y := bandpass x c s) in *. set (E' := energy (o2s_s _)) in *. clearbody E' y. set (p := damping c (fst s)) in *. clearbody p. set (g := o2_g c) in *. clearbody g.
  assert (K : 4 * (y * (x - 2 * p * y)) <= 1 / (2 * delta) * (x * x)).
  { assert (S : 0 <= (x - 4 * delta * y) * (x - 4 * delta * y)) by apply Rle_0_sqr.
    assert (I : 0 < / (2 * delta)) by (apply Rinv_0_lt_compat; lra).
    assert (Y : 0 <= y * y) by apply Rle_0_sqr.
    assert (M : delta * (y * y) <= p * (y * y)) by (apply Rmult_le_compat_r; assumption).
    assert (Z : 0 <= / (2 * delta) * ((x - 4 * delta * y) * (x - 4 * delta * y))) by (apply Rmult_le_pos; lra).
    replace (/ (2 * delta) * ((x - 4 * delta * y) * (x - 4 * delta * y))) with (1 / (2 * delta) * (x * x) - 4 * (x * y) + 8 * (delta * (y * y))) in Z by (field; lra). lra. }
  assert (N : g * (4 * (y * (x - 2 * p * y))) <= g * (1 / (2 * delta) * (x * x))) by (apply Rmult_le_compat_l; assumption).
  replace (g / (2 * delta) * (x * x)) with (g * (1 / (2 * delta) * (x * x))) by (field; lra). lra.
Qed.
Definition sum_squares (xs : list R) : R := fold_right (fun x a => x * x + a) 0 xs.
(* the whole run: what the knob leaves of damping is [delta] *)
Theorem C276_passive : forall c s xs delta, 0 <= o2_g c -> 0 < delta ->
  (o2_push c <> 1 /\ delta <= o2_r c - 35 / 10000) \/ delta <= o2_r c - 385 / 10000 ->
  energy (o2s_s (fst (ob_run ob2_process (mk_o2s c no_move2 s) xs))) <= energy s + o2_g c / (2 * delta) * sum_squares xs.
Proof.
  intros c s xs delta G D H. revert s. induction xs as [|x t IH]; intros s; cbn [ob_run sum_squares fold_right fst o2s_s]; [lra|].
  assert (P : delta <= damping c (fst s)). { destruct (damping_low c (fst s)) as [A B]. destruct H as [[H1 H2] | H]; [specialize (B H1)|]; lra. }
  assert (Rr : 0 <= o2_r c) by (destruct H as [[_ H] | H]; lra).
  assert (St := passive_step c s x delta G Rr D P).
  assert (Sh : exists s', fst (ob2_process (mk_o2s c no_move2 s) x) = mk_o2s c no_move2 s').
  { unfold ob2_process. cbn [o2s_c o2s_d o2s_s]. rewrite move2_0. cbv zeta. eexists. reflexivity. }
  destruct Sh as [s' Es]. destruct (ob2_process (mk_o2s c no_move2 s) x) as [st y]. cbn [fst] in *. subst st. cbn [o2s_s] in St.
  specialize (IH s'). destruct (ob_run ob2_process (mk_o2s c no_move2 s') t) as [s2 ys]. cbn [fst] in *. fold (sum_squares t). lra.
Qed.
Print Assumptions C276_passive.
Example C276_instance : energy (o2s_s (fst (ob_run ob2_process (mk_o2s (mk_ob2 1 1 0 0 0) no_move2 (0, 0)) [1; -1; 1]))) <= 3.
Proof.
  assert (H := C276_passive (mk_ob2 1 1 0 0 0) (0, 0) [1; -1; 1] (1 / 2)). cbn [o2_g o2_r o2_push] in H.
  assert (E : energy (0, 0) = 0) by (unfold energy; cbn; ring). rewrite E in H. eapply Rle_trans; [apply H; [lra|lra|right; lra]|]. cbn [sum_squares fold_right]. lra.
Qed.

(** ** C277: self-oscillation.  With full resonance a push mode at rest feeds its own ringing: while the first state lies in [-6, 3.5]
    a silent input never lowers the energy, and beyond [-7, 4] never raises it *)
Theorem C277_push : forall c s, 0 <= o2_g c -> o2_r c = 0 -> o2_push c = 1 ->
  let E' := energy (o2s_s (fst (ob2_process (mk_o2s c no_move2 s) 0))) in
  (-6 <= fst s <= 35 / 10 -> energy s <= E') /\ (fst s <= -7 \/ 4 <= fst s -> E' <= energy s).
Proof.
  intros c s G Rr P. assert (B := C276_balance c no_move2 s 0). rewrite move2_0 in B. specialize (B G ltac:(lra)). cbv zeta in *.
  set (y := bandpass 0 c s) in *. set (E' := energy (o2s_s _)) in *. clearbody E' y.
  assert (V : damping c (fst s) = ob_diode (fst s * (876 / 10000)) - 1 - 35 / 1000).
  { unfold damping, ob_tcfb. cbv zeta. rewrite P, Rr. destruct (Req_EM_T 1 1); [lra|congruence]. }
  rewrite diode_poly in V. set (p := damping c (fst s)) in *. clearbody p. set (g := o2_g c) in *. clearbody g.
  assert (Y : 0 <= y * y) by apply Rle_0_sqr. assert (GY : 0 <= g * (y * y)) by (apply Rmult_le_pos; assumption).
  set (x := fst s * (876 / 10000)) in *. assert (X : x = fst s * (876 / 10000)) by reflexivity. clearbody x.
  split; intros H.
  - assert (X2 : -5256 / 10000 <= x <= 3066 / 10000) by lra.
    assert (p <= 0).
    { rewrite V. assert (X3 : x * (920833 / 100000000 + x * (103592 / 10000000)) <= 45 / 10000) by nra.
      assert (x * x * (x * (920833 / 100000000 + x * (103592 / 10000000))) <= x * x * (45 / 10000)) by (apply Rmult_le_compat_l; [apply Rle_0_sqr|exact X3]).
      assert ((x + 5256 / 10000) * (x - 3066 / 10000) <= 0) by nra. nra. }
    assert (0 <= g * (y * y) * - p) by (apply Rmult_le_pos; lra). lra.
  - assert (0 <= p).
    { rewrite V. assert (Q := quart x).
      replace (x * (5 / 100 + x * (185 / 1000 + x * (920833 / 100000000 + x * (103592 / 10000000))))) with
        (x * x * (21 / 10000 + x * (920833 / 100000000 + x * (103592 / 10000000))) + (5 / 100 * x + (185 / 1000 - 21 / 10000) * (x * x))) by field.
      destruct H as [H | H].
      - assert (x <= -6132 / 10000) by lra. nra.
      - assert (3504 / 10000 <= x) by lra. nra. }
    assert (0 <= g * (y * y) * p) by (apply Rmult_le_pos; assumption). lra.
Qed.
Print Assumptions C277_push.
(* without push nothing rings for ever once the resonance is at most 0.9965 *)
Theorem C277_no_push : forall c s n, 0 <= o2_g c -> 35 / 10000 <= o2_r c -> o2_push c <> 1 ->
  energy (o2s_s (fst (ob_run ob2_process (mk_o2s c no_move2 s) (repeat 0 n)))) <= energy s.
Proof.
  intros c s n G Rr P. revert s. induction n as [|n IH]; intros s; cbn [ob_run repeat fst o2s_s]; [lra|].
  assert (B := C276_balance c no_move2 s 0). rewrite move2_0 in B. specialize (B G ltac:(lra)). cbv zeta in B.
  destruct (damping_low c (fst s)) as [_ L]. specialize (L P).
  assert (Sh : exists s', fst (ob2_process (mk_o2s c no_move2 s) 0) = mk_o2s c no_move2 s').
  { unfold ob2_process. cbn [o2s_c o2s_d o2s_s]. rewrite move2_0. cbv zeta. eexists. reflexivity. }
  destruct Sh as [s' Es]. destruct (ob2_process (mk_o2s c no_move2 s) 0) as [st o]. cbn [fst] in *. subst st. cbn [o2s_s] in B.
  specialize (IH s'). destruct (ob_run ob2_process (mk_o2s c no_move2 s') (repeat 0 n)) as [s2 ys]. cbn [fst] in *.
  set (y := bandpass 0 c s) in *. clearbody y. set (p := damping c (fst s)) in *. clearbody p. set (g := o2_g c) in *. clearbody g.
  assert (0 <= g * (y * y) * p) by (apply Rmult_le_pos; [apply Rmult_le_pos; [assumption|apply Rle_0_sqr]|lra]). lra.
Qed.
Print Assumptions C277_no_push.
Example C277_instance : exists c s, 0 <= o2_g c /\ o2_r c = 0 /\ o2_push c = 1 /\ -6 <= fst s <= 35 / 10 /\ 0 < energy s.
Proof. exists (mk_ob2 (1 / 10) 0 0 0 1), (1, 0). unfold energy. cbn. lra. Qed.

(** ** C278: what the two-pole subtypes put out: low, band, high and notch, each also with push *)
Definition mode_out (sub : Z) (v y1 y2 : R) : R :=
  match sub with 0%Z | 4%Z => 0.74 * y2 | 1%Z | 5%Z => 0.37 * y1 | 2%Z | 6%Z => 0.74 * v | _ => 0.37 * (y2 + v) end.
Theorem C278_modes : forall sub n2p inv reso s sample, (0 <= sub <= 7)%Z -> let c := ob2_coeff sub n2p inv reso in
  let v := ob2_solve sample c s in let y1 := bandpass sample c s in let y2 := o2_g c * y1 + snd s in
  snd (ob2_process (mk_o2s c no_move2 s) sample) = mode_out sub v y1 y2 /\ (o2_push c = 1 <-> (4 <= sub)%Z) /\
  o2_r c = 1 - reso /\ o2_g c = tan (PI * Rmin (8.17579891564371 * n2p) 22000 * inv).
Proof.
  intros sub n2p inv reso s x Hs. cbv zeta. refine (conj _ (conj _ (conj _ _))).
  - unfold ob2_process. cbn [o2s_c o2s_d o2s_s]. rewrite move2_0. cbv zeta. cbn [snd]. unfold bandpass. rewrite (Rmult_comm (o2_g _) (ob2_solve _ _ _)).
    set (v := ob2_solve _ _ _). clearbody v. set (y1 := v * _ + _). clearbody y1. rewrite (Rmult_comm (o2_g _) y1). set (y2 := y1 * _ + _). clearbody y2.
    unfold ob2_mix. cbv zeta.
    assert (K : (sub = 0 \/ sub = 1 \/ sub = 2 \/ sub = 3 \/ sub = 4 \/ sub = 5 \/ sub = 6 \/ sub = 7)%Z) by lia.
    destruct K as [-> | [-> | [-> | [-> | [-> | [-> | [-> | ->]]]]]]]; cbv beta iota zeta delta [ob2_coeff o2_mm o2_bp mode_out];
      destruct (Req_EM_T _ _); try lra; destruct (Rlt_dec _ _); lra.
  - unfold ob2_coeff. cbv zeta. cbn [o2_push]. destruct (Z.ltb_spec 3 sub); split; intros; try lia; lra.
  - reflexivity.
  - cbn [ob2_coeff o2_g]. unfold ob_cutoff. f_equal. replace (8.17579891564371 * n2p) with (n2p * (817579891564371 / 100000000000000)) by lra. ring.
Qed.
Print Assumptions C278_modes.
(* a constant: passed by the low-pass, halved by the notch (like every signal in its pass band), stopped by the others *)
Theorem C278_constant : forall sub n2p inv reso X n, (0 <= sub <= 7)%Z -> let c := ob2_coeff sub n2p inv reso in
  ob_run ob2_process (mk_o2s c no_move2 (0, X)) (repeat X n) = (mk_o2s c no_move2 (0, X), repeat (mode_out sub 0 0 X) n).
Proof.
  intros sub n2p inv reso X n Hs. cbv zeta. set (c := ob2_coeff _ _ _ _). induction n as [|n IH]; [reflexivity|]. cbn [repeat ob_run].
  assert (V : ob2_solve X c (0, X) = 0). { unfold ob2_solve. cbn [fst snd]. cbv zeta. replace (X - 2 * (0 * (o2_r c + ob_tcfb (o2_push c) 0)) - o2_g c * 0 - X) with 0 by ring. apply Rmult_0_l. }
  assert (St : ob2_process (mk_o2s c no_move2 (0, X)) X = (mk_o2s c no_move2 (0, X), mode_out sub 0 0 X)).
  { destruct (C278_modes sub n2p inv reso (0, X) X Hs) as (M & _). cbv zeta in M. fold c in M. unfold bandpass in M. rewrite V in M. cbn [fst snd] in M.
    replace (o2_g c * (o2_g c * 0 + 0) + X) with X in M by ring. replace (o2_g c * 0 + 0) with 0 in M by ring. apply injective_projections; [|exact M].
    unfold ob2_process. cbn [o2s_c o2s_d o2s_s]. rewrite move2_0, V. cbn [fst snd]. apply f_equal. apply f_equal2; ring. }
  rewrite St, IH. reflexivity.
Qed.
Print Assumptions C278_constant.
