(** Theorems about the four-pole OB-Xd filter (C279-C281). *)
From Coq Require Import Reals Ratan List Lra Psatz Lia.
From Coquelicot Require Rcomplements.
From Verif Require Import Base Util BlockModel ObxdModel ObxdProps.
Import ListNotations.
Local Open Scope R_scope.

Definition no_move4 : ob4 := mk_ob4 0 0 0 0 0 0 0.
Lemma move4_0 c : ob4_move c no_move4 = c.
Proof. destruct c. unfold ob4_move, no_move4. cbn. rewrite !Rplus_0_r. reflexivity. Qed.

(** Specification: a one-pole low-pass without delay: its output is the state plus g times the difference of input and output, and the
    next state is the output plus that same step. *)
Definition onepole (g s x y s' : R) : Prop := y = s + g * (x - y) /\ s' = y + g * (x - y).
Lemma tptpc_onepole s x g : 0 <= g -> onepole g s x (snd (ob_tptpc s x g)) (fst (ob_tptpc s x g)).
Proof. intros G. unfold onepole, ob_tptpc. cbv zeta. cbn [fst snd]. split; field; lra. Qed.

Lemma pow4_pos z : 0 <= z -> 0 <= z * z * z * z.
Proof. intros H. repeat apply Rmult_le_pos; exact H. Qed.

(** ** C279: four one-poles in series round which the last output is fed back, without delay *)
(* [y0] drives the chain, [y1..y4] are its outputs; the first state is afterwards squeezed through atan *)
Definition chain4 (g : R) (r : ob4reg) (y0 y1 y2 y3 y4 u1 : R) (r' : ob4reg) : Prop :=
  onepole g (p_s1 r) y0 y1 u1 /\ onepole g (p_s2 r) y1 y2 (p_s2 r') /\ onepole g (p_s3 r) y2 y3 (p_s3 r') /\ onepole g (p_s4 r) y3 y4 (p_s4 r').
Definition damped (active : bool) (c : ob4) (u1 : R) : R := if active then atan (u1 * o4_rcor c) * o4_rcorinv c else 0.
Theorem C279_chain : forall active c d r sample, 0 <= o4_g c -> let st' := fst (ob4_process active (mk_o4s c d r) sample) in
  exists y0 y1 y2 y3 y4 u1,
    chain4 (o4_g c) r y0 y1 y2 y3 y4 u1 (o4s_r st') /\ p_s1 (o4s_r st') = damped active (ob4_move c d) u1 /\ o4s_c st' = ob4_move c d /\ o4s_d st' = d /\
    snd (ob4_process active (mk_o4s c d r) sample) = ob4_mix (o4_int c) (o4_sc c) y1 y2 y3 y4 * (1 + 0.45 * o4_r (ob4_move c d)) * 0.6 /\
    (d = no_move4 -> 0 <= o4_r c -> y0 = sample - o4_r c * y4).
Proof.
  intros active c d r x G. cbv zeta. unfold ob4_process. cbn [o4s_c o4s_d o4s_r]. cbv zeta.
  set (y0 := ob4_solve _ _ _ _). set (lpc := o4_g c / (1 + o4_g c)) in *. set (y1 := (y0 - p_s1 r) * lpc + p_s1 r). set (u1 := y1 + (y0 - p_s1 r) * lpc).
  destruct (ob_tptpc (p_s2 r) y1 (o4_g c)) as [s2' y2] eqn:E2. destruct (ob_tptpc (p_s3 r) y2 (o4_g c)) as [s3' y3] eqn:E3. destruct (ob_tptpc (p_s4 r) y3 (o4_g c)) as [s4' y4] eqn:E4.
  exists y0, y1, y2, y3, y4, u1. cbn [fst snd o4s_c o4s_d o4s_r p_s1 p_s2 p_s3 p_s4].
  assert (T2 := tptpc_onepole (p_s2 r) y1 (o4_g c) G). assert (T3 := tptpc_onepole (p_s3 r) y2 (o4_g c) G). assert (T4 := tptpc_onepole (p_s4 r) y3 (o4_g c) G).
  rewrite E2 in T2. rewrite E3 in T3. rewrite E4 in T4. cbn [fst snd] in *.
  assert (L : (1 + o4_g c) * lpc = o4_g c) by (unfold lpc; field; lra).
  split; [|split; [|split; [reflexivity|split; [reflexivity|split]]]].
  - unfold chain4. cbn [p_s1 p_s2 p_s3 p_s4]. split; [|split; [exact T2|split; assumption]]. unfold onepole, u1, y1, lpc. clearbody y0. split; field; lra.
  - unfold damped. destruct active; [reflexivity|ring].
  - replace (1 + 0.45 * o4_r (ob4_move c d)) with (1 + o4_r (ob4_move c d) * (45 / 100)) by lra. replace 0.6 with (60 / 100) by lra. reflexivity.
  - intros -> Rr. assert (L0 : 0 <= lpc) by (apply Rmult_le_pos; [exact G|apply Rlt_le, Rinv_0_lt_compat; lra]).
    assert (L4 : 0 <= o4_r c * (lpc * lpc * lpc * lpc)) by (apply Rmult_le_pos; [exact Rr|exact (pow4_pos lpc L0)]).
    assert (ML : 1 / (1 + o4_g c) = 1 - lpc) by (unfold lpc; field; lra).
    assert (V : y0 * (1 + o4_r c * (lpc * lpc * lpc * lpc)) = x - o4_r c * ((lpc * (lpc * (lpc * p_s1 r + p_s2 r) + p_s3 r) + p_s4 r) * (1 - lpc))).
    { unfold y0, ob4_solve. cbv zeta. rewrite move4_0, ML. field. lra. }
    assert (Y : forall s i o n, onepole (o4_g c) s i o n -> o = lpc * i + (1 - lpc) * s).
    { intros s i o n [H _]. unfold lpc. assert (N : (1 + o4_g c) * o = s + o4_g c * i) by lra. apply (Rmult_eq_reg_l (1 + o4_g c)); [|lra]. rewrite N. field. lra. }
    rewrite (Y _ _ _ _ T4), (Y _ _ _ _ T3), (Y _ _ _ _ T2). unfold y1 at 1. clearbody y0 lpc. lra.
Qed.
Print Assumptions C279_chain.
(* while the resonance glides the equation is solved for the new value, while the tuning glides for a mixture: the loop is then not closed exactly *)
Theorem C279_tuning_glide_refuted : exists c d r sample y0 y1 y2 y3 y4 u1, 0 <= o4_g c /\ 0 <= o4_r (ob4_move c d) /\ o4_r d = 0 /\
  chain4 (o4_g c) r y0 y1 y2 y3 y4 u1 (o4s_r (fst (ob4_process true (mk_o4s c d r) sample))) /\ y0 <> sample - o4_r c * y4 /\
  y0 = ob4_solve sample (o4_g c / (1 + o4_g c)) (ob4_move c d) r.
Proof.
  set (c := mk_ob4 1 1 1 1 0 0 0). set (d := mk_ob4 1 0 0 0 0 0 0). set (r := mk_o4r 0 0 0 1).
  assert (Y0 : ob4_solve 0 (o4_g c / (1 + o4_g c)) (ob4_move c d) r = - (16 / 51)).
  { unfold ob4_solve, c, d, r, ob4_move. cbn [o4_g o4_r p_s1 p_s2 p_s3 p_s4]. cbv zeta. field. }
  exists c, d, r, 0. destruct (C279_chain true c d r 0) as (y0 & y1 & y2 & y3 & y4 & u1 & H & _); [cbn; lra|].
  exists (- (16 / 51)), (- (8 / 51)), (- (4 / 51)), (- (2 / 51)), (- (1 / 51) + 1 / 2), (- (16 / 51)). rewrite Y0.
  split; [cbn; lra|]. split; [cbn; lra|]. split; [reflexivity|]. split; [|split; [cbn [o4_r c]; lra|reflexivity]].
  clear H. unfold ob4_process. cbn [o4s_c o4s_d o4s_r]. cbv zeta. rewrite Y0. unfold ob_tptpc. cbv zeta. cbn [fst o4s_r].
  unfold chain4, onepole, c, r. cbn [o4_g p_s1 p_s2 p_s3 p_s4]. repeat split; field.
Qed.
Print Assumptions C279_tuning_glide_refuted.
Example C279_instance : exists y0 y1 y2 y3 y4 u1 r', chain4 1 (mk_o4r 0 0 0 0) y0 y1 y2 y3 y4 u1 r' /\ y0 = 1 - 1 * y4 /\ 0 < y4.
Proof.
  exists (16 / 17), (8 / 17), (4 / 17), (2 / 17), (1 / 17), (16 / 17), (mk_o4r 0 (8 / 17) (4 / 17) (2 / 17)).
  unfold chain4, onepole. cbn. repeat split; lra.
Qed.

(** ** C280: which pole each subtype puts out.  6, 12 and 18 dB per octave are the first, second and third stage; the 24 dB subtype puts
    out the sum of the third and fourth *)
Definition stage_out (sub : Z) (y1 y2 y3 y4 : R) : R := match sub with 0%Z => y1 | 1%Z => y2 | 2%Z => y3 | _ => y4 end.
Theorem C280_poles : forall sub n2p inv reso y1 y2 y3 y4, (0 <= sub <= 3)%Z -> let c := ob4_coeff sub n2p inv reso in
  ob4_mix (o4_int c) (o4_sc c) y1 y2 y3 y4 = stage_out sub y1 y2 y3 y4 + (if (sub =? 3)%Z then y3 else 0) /\
  o4_g c = tan (PI * Rmin (8.17579891564371 * n2p) 22000 * inv) /\ o4_r c = 3.5 * reso /\ (0 < inv -> 0 < o4_rcor c /\ o4_rcor c * o4_rcorinv c = 1).
Proof.
  intros sub n2p inv reso y1 y2 y3 y4 Hs. cbv zeta. split; [|split; [|split]].
  - assert (K : (sub = 0 \/ sub = 1 \/ sub = 2 \/ sub = 3)%Z) by lia. unfold ob4_mix. cbv zeta.
    destruct K as [-> | [-> | [-> | ->]]]; cbv beta iota zeta delta [ob4_coeff o4_int o4_sc stage_out Z.eqb Pos.eqb];
      repeat (destruct (Req_EM_T _ _)); try lra.
  - cbn [ob4_coeff o4_g]. unfold ob_cutoff. f_equal. replace (8.17579891564371 * n2p) with (n2p * (817579891564371 / 100000000000000)) by lra. ring.
  - cbn [ob4_coeff o4_r]. lra.
  - intros I. assert (Q : 0 < 970 / 44000 * sqrt (44000 * inv)) by (apply Rmult_lt_0_compat; [lra|apply sqrt_lt_R0; lra]).
    cbn [ob4_coeff o4_rcor o4_rcorinv]. split; [exact Q|]. field. lra.
Qed.
Print Assumptions C280_poles.
Theorem C280_24dB_is_a_sum_refuted : forall n2p inv reso y1 y2 y3 y4, let c := ob4_coeff 3 n2p inv reso in
  ob4_mix (o4_int c) (o4_sc c) y1 y2 y3 y4 = y4 + y3 /\ (y3 <> 0 -> ob4_mix (o4_int c) (o4_sc c) y1 y2 y3 y4 <> y4).
Proof.
  intros n2p inv reso y1 y2 y3 y4. cbv zeta. destruct (C280_poles 3 n2p inv reso y1 y2 y3 y4 ltac:(lia)) as (E & _). cbv zeta in E. cbn [stage_out] in E.
  change (3 =? 3)%Z with true in E. cbv iota in E. rewrite E. split; [reflexivity|lra].
Qed.
Print Assumptions C280_24dB_is_a_sum_refuted.

(** ** C281: bounds, polarity and silence *)
Definition within4 (B : R) (r : ob4reg) : Prop := Rabs (p_s1 r) <= B /\ Rabs (p_s2 r) <= B /\ Rabs (p_s3 r) <= B /\ Rabs (p_s4 r) <= B.
Lemma onepole_within g s x y s' B : 0 <= g <= 1 -> Rabs s <= B -> Rabs x <= B -> onepole g s x y s' -> Rabs y <= B /\ Rabs s' <= B.
Proof.
  intros G Hs Hx [E1 E2]. apply Rcomplements.Rabs_le_between in Hs, Hx.
  assert (Y : (1 + g) * y = s + g * x) by lra.
  assert (Z : (1 + g) * s' = (1 - g) * s + 2 * g * x).
  { rewrite E2. replace ((1 + g) * (y + g * (x - y))) with ((1 + g) * y * (1 - g) + (1 + g) * g * x) by ring. rewrite Y. ring. }
  assert (A1 : g * x <= g * B) by (apply Rmult_le_compat_l; lra). assert (A2 : g * (- B) <= g * x) by (apply Rmult_le_compat_l; lra).
  assert (A3 : (1 - g) * s <= (1 - g) * B) by (apply Rmult_le_compat_l; lra). assert (A4 : (1 - g) * (- B) <= (1 - g) * s) by (apply Rmult_le_compat_l; lra).
  split; apply Rcomplements.Rabs_le_between; split; apply (Rmult_le_reg_l (1 + g)); lra.
Qed.
Lemma atan_le x : Rabs (atan x) <= Rabs x.
Proof.
  assert (P : forall z, 0 <= z -> 0 <= atan z <= z).
  { intros z Hz. split.
    - destruct Hz as [Hz | <-]; [|rewrite atan_0; lra]. rewrite <- atan_0. apply Rlt_le, atan_increasing. exact Hz.
    - destruct (Rle_lt_dec (atan z) z) as [L|L]; [exact L|]. destruct Hz as [Hz | <-]; [|rewrite atan_0 in L; lra].
      destruct (MVT_cor2 atan (fun x => / (1 + x ^ 2)) 0 z Hz) as (c & E & C); [intros c C; apply derivable_pt_lim_atan|].
      rewrite atan_0 in E. assert (S : 0 <= c ^ 2) by (cbn [pow]; rewrite Rmult_1_r; apply Rle_0_sqr).
      assert (I : / (1 + c ^ 2) <= 1) by (rewrite <- Rinv_1 at 2; apply Rinv_le_contravar; lra).
      assert (/ (1 + c ^ 2) * (z - 0) <= 1 * (z - 0)) by (apply Rmult_le_compat_r; lra). lra. }
  destruct (Rle_lt_dec 0 x) as [H | H].
  - destruct (P x H). rewrite !Rabs_pos_eq by lra. assumption.
  - destruct (P (- x)) as [A B]; [lra|]. rewrite atan_opp in A, B. rewrite !Rabs_left1 by lra. exact B.
Qed.
Lemma damped_within active c u B : 0 < o4_rcor c -> o4_rcor c * o4_rcorinv c = 1 -> Rabs u <= B -> Rabs (damped active c u) <= B /\ Rabs (damped active c u) <= PI / 2 * o4_rcorinv c.
Proof.
  intros P I U. assert (Q : 0 < o4_rcorinv c). { destruct (Rle_lt_dec (o4_rcorinv c) 0) as [L|L]; [|exact L]. assert (o4_rcor c * o4_rcorinv c <= o4_rcor c * 0) by (apply Rmult_le_compat_l; lra). lra. }
  assert (PP := PI_RGT_0). unfold damped. destruct active.
  - rewrite Rabs_mult, (Rabs_pos_eq (o4_rcorinv c)) by lra. split.
    + apply Rle_trans with (Rabs (u * o4_rcor c) * o4_rcorinv c); [apply Rmult_le_compat_r; [lra|apply atan_le]|].
      rewrite Rabs_mult, (Rabs_pos_eq (o4_rcor c)) by lra. rewrite Rmult_assoc, I, Rmult_1_r. exact U.
    + apply Rmult_le_compat_r; [lra|]. destruct (atan_bound (u * o4_rcor c)). apply Rcomplements.Rabs_le_between. lra.
  - rewrite Rabs_R0. split; [eapply Rle_trans; [apply Rabs_pos|exact U]|apply Rmult_le_pos; lra].
Qed.
(** without resonance, tuned below a quarter of the sample rate (always so at 44.1 kHz twice oversampled: C281_tuning_range), nothing ever
    exceeds the largest of input and state; the 24 dB subtype may double it *)
Theorem C281_no_overshoot : forall active sub n2p inv r xs B, (0 <= sub <= 3)%Z -> 0 < inv -> let c := ob4_coeff sub n2p inv 0 in 0 <= o4_g c <= 1 ->
  within4 B r -> Forall (fun x => Rabs x <= B) xs ->
  let out := ob_run (ob4_process active) (mk_o4s c no_move4 r) xs in
  within4 B (o4s_r (fst out)) /\ Forall (fun y => Rabs y <= (if (sub =? 3)%Z then 1.2 else 0.6) * B) (snd out).
Proof.
  intros active sub n2p inv r xs B Hs I. cbv zeta. set (c := ob4_coeff sub n2p inv 0). intros G W F. revert r W. induction F as [|x t Hx F IH]; intros r W.
  - cbn [ob_run fst snd o4s_r]. split; [exact W|constructor].
  - cbn [ob_run]. destruct (C279_chain active c no_move4 r x (proj1 G)) as (y0 & y1 & y2 & y3 & y4 & u1 & (O1 & O2 & O3 & O4) & S1 & C & D & Y & E).
    assert (R0 : o4_r c = 0) by (cbn [c ob4_coeff o4_r]; ring).
    rewrite move4_0 in *. specialize (E eq_refl ltac:(lra)). rewrite R0 in *. replace y0 with x in O1 by (rewrite E; ring). clear E.
    destruct W as (W1 & W2 & W3 & W4). destruct (onepole_within _ _ _ _ _ B G W1 Hx O1) as [A1 B1]. destruct (onepole_within _ _ _ _ _ B G W2 A1 O2) as [A2 B2].
    destruct (onepole_within _ _ _ _ _ B G W3 A2 O3) as [A3 B3]. destruct (onepole_within _ _ _ _ _ B G W4 A3 O4) as [A4 B4].
    destruct (C280_poles sub n2p inv 0 y1 y2 y3 y4 Hs) as (M & _ & _ & K). cbv zeta in M, K. fold c in M, K. destruct (K I) as [K1 K2].
    destruct (damped_within active c u1 B K1 K2 B1) as [B1' _]. rewrite <- S1 in B1'.
    destruct (ob4_process active (mk_o4s c no_move4 r) x) as [st y]. cbn [fst snd] in *. destruct st as [c' d' r']. cbn [o4s_c o4s_d o4s_r] in *. subst c' d'.
    specialize (IH r' (conj B1' (conj B2 (conj B3 B4)))). destruct (ob_run (ob4_process active) (mk_o4s c no_move4 r') t) as [s2 ys]. cbn [fst snd] in *.
    split; [exact (proj1 IH)|]. constructor; [|exact (proj2 IH)]. rewrite Y, M. clear - A1 A2 A3 A4 Hs.
    apply Rcomplements.Rabs_le_between in A1, A2, A3, A4. apply Rcomplements.Rabs_le_between.
    assert (Kk : (sub = 0 \/ sub = 1 \/ sub = 2 \/ sub = 3)%Z) by lia. destruct Kk as [-> | [-> | [-> | ->]]]; cbn [stage_out Z.eqb Pos.eqb]; lra.
Qed.
Print Assumptions C281_no_overshoot.
(* the tuning coefficient lies strictly between 0 and 1 at every pitch when the oversampled rate is above 88 kHz *)
Theorem C281_tuning_range : forall n2p inv sub reso, 0 < n2p -> 0 < inv < 1 / 88000 -> 0 < o4_g (ob4_coeff sub n2p inv reso) < 1 /\ 0 < o2_g (ob2_coeff sub n2p inv reso) < 1.
Proof.
  intros n2p inv sub reso N I. cbn [ob4_coeff ob2_coeff o4_g o2_g]. assert (PP := PI_RGT_0).
  assert (B : 0 < ob_cutoff n2p inv < PI / 4).
  { unfold ob_cutoff. set (f := n2p * _). assert (F : 0 < f) by (apply Rmult_lt_0_compat; lra).
    assert (M : 0 < Rmin f 22000 <= 22000) by (split; [apply Rmin_glb_lt; lra|apply Rmin_r]). set (m := Rmin f 22000) in *. clearbody m.
    assert (Q : 0 < m * inv < 1 / 4). { split; [apply Rmult_lt_0_compat; lra|]. apply Rle_lt_trans with (22000 * inv); [apply Rmult_le_compat_r; lra|lra]. }
    split; [apply Rmult_lt_0_compat; lra|]. replace (PI / 4) with (1 / 4 * PI) by field. apply Rmult_lt_compat_r; lra. }
  assert (T : 0 < tan (ob_cutoff n2p inv) < 1).
  { split; [apply tan_gt_0; lra|]. rewrite <- tan_PI4. apply tan_increasing; lra. }
  split; exact T.
Qed.
Print Assumptions C281_tuning_range.
Example C281_instance : 0 < o4_g (ob4_coeff 3 1000 (1 / 88200) 0) < 1.
Proof. apply (C281_tuning_range 1000 (1 / 88200) 3 0); lra. Qed.
(* at any resonance, from a cleared state: inverting the input inverts the output, and silence stays silence *)
Definition neg4 (r : ob4reg) : ob4reg := mk_o4r (- p_s1 r) (- p_s2 r) (- p_s3 r) (- p_s4 r).
Lemma solve4_opp x lpc c r : ob4_solve (- x) lpc c (neg4 r) = - ob4_solve x lpc c r.
Proof. unfold ob4_solve, neg4. cbn [p_s1 p_s2 p_s3 p_s4]. cbv zeta. unfold Rdiv. ring. Qed.
Lemma tptpc_opp s x g : ob_tptpc (- s) (- x) g = (- fst (ob_tptpc s x g), - snd (ob_tptpc s x g)).
Proof. unfold ob_tptpc. cbv zeta. cbn [fst snd]. unfold Rdiv. apply f_equal2; ring. Qed.
Lemma mix4_opp i y1 y2 y3 y4 : ob4_mix i 0 (- y1) (- y2) (- y3) (- y4) = - ob4_mix i 0 y1 y2 y3 y4.
Proof. unfold ob4_mix. cbv zeta. repeat (destruct (Req_EM_T _ _)); ring. Qed.
Lemma process4_opp active c d r x : o4_sc c = 0 ->
  ob4_process active (mk_o4s c d (neg4 r)) (- x) = (mk_o4s (ob4_move c d) d (neg4 (o4s_r (fst (ob4_process active (mk_o4s c d r) x)))), - snd (ob4_process active (mk_o4s c d r) x)).
Proof.
  intros Z. unfold ob4_process. cbn [o4s_c o4s_d o4s_r]. cbv zeta. rewrite solve4_opp, Z. set (y0 := ob4_solve _ _ _ _). clearbody y0. set (lpc := o4_g c / (1 + o4_g c)). clearbody lpc.
  cbn [neg4 p_s1 p_s2 p_s3 p_s4]. replace ((- y0 - - p_s1 r) * lpc + - p_s1 r) with (- ((y0 - p_s1 r) * lpc + p_s1 r)) by ring. set (y1 := (y0 - p_s1 r) * lpc + p_s1 r).
  replace (- y1 + (- y0 - - p_s1 r) * lpc) with (- (y1 + (y0 - p_s1 r) * lpc)) by ring. set (u1 := y1 + _). clearbody y1 u1.
  rewrite (tptpc_opp (p_s2 r) y1). destruct (ob_tptpc (p_s2 r) y1 (o4_g c)) as [s2' y2]. cbn [fst snd].
  rewrite (tptpc_opp (p_s3 r) y2). destruct (ob_tptpc (p_s3 r) y2 (o4_g c)) as [s3' y3]. cbn [fst snd].
  rewrite (tptpc_opp (p_s4 r) y3). destruct (ob_tptpc (p_s4 r) y3 (o4_g c)) as [s4' y4]. cbn [fst snd o4s_r p_s1 p_s2 p_s3 p_s4].
  rewrite mix4_opp. apply f_equal2; [|ring]. f_equal. unfold neg4. cbn [p_s1 p_s2 p_s3 p_s4]. f_equal. destruct active; [|ring]. replace (- u1 * o4_rcor (ob4_move c d)) with (- (u1 * o4_rcor (ob4_move c d))) by ring. rewrite atan_opp. ring.
Qed.
(* every subtype has pole mix 0; it must stay so while gliding *)
Theorem C281_polarity : forall active d xs c r, o4_sc c = 0 -> o4_sc d = 0 ->
  ob_run (ob4_process active) (mk_o4s c d (neg4 r)) (map Ropp xs) =
    (let out := ob_run (ob4_process active) (mk_o4s c d r) xs in (mk_o4s (o4s_c (fst out)) d (neg4 (o4s_r (fst out))), map Ropp (snd out))).
Proof.
  intros active d xs. cbv zeta. induction xs as [|x t IH]; intros c r Zc Zd; [reflexivity|]. cbn [map ob_run]. rewrite (process4_opp active c d r x Zc).
  assert (K : exists r', fst (ob4_process active (mk_o4s c d r) x) = mk_o4s (ob4_move c d) d r').
  { unfold ob4_process. cbn [o4s_c o4s_d o4s_r]. cbv zeta. destruct (ob_tptpc _ _ _) as [? ?]. destruct (ob_tptpc _ _ _) as [? ?]. destruct (ob_tptpc _ _ _) as [? ?]. eexists. reflexivity. }
  destruct K as [r' K]. destruct (ob4_process active (mk_o4s c d r) x) as [st y]. cbn [fst snd] in *. subst st. cbn [o4s_r].
  rewrite (IH (ob4_move c d) r'); [|cbn [ob4_move o4_sc]; lra|exact Zd]. destruct (ob_run (ob4_process active) (mk_o4s (ob4_move c d) d r') t) as [s2 ys]. reflexivity.
Qed.
Print Assumptions C281_polarity.
Theorem C281_silence : forall active d c n, o4_sc c = 0 -> o4_sc d = 0 ->
  snd (ob_run (ob4_process active) (mk_o4s c d (mk_o4r 0 0 0 0)) (repeat 0 n)) = repeat 0 n.
Proof.
  intros active d c n Zc Zd. assert (P := C281_polarity active d (repeat 0 n) c (mk_o4r 0 0 0 0) Zc Zd). cbv zeta in P.
  assert (N : neg4 (mk_o4r 0 0 0 0) = mk_o4r 0 0 0 0) by (unfold neg4; cbn [p_s1 p_s2 p_s3 p_s4]; rewrite Ropp_0; reflexivity).
  assert (M : map Ropp (repeat 0 n) = repeat 0 n) by (clear; induction n as [|n IH]; [reflexivity|cbn [repeat map]; rewrite Ropp_0, IH; reflexivity]).
  rewrite N, M in P. apply (f_equal snd) in P. cbn [snd] in P.
  assert (L : forall xs st, length (snd (ob_run (ob4_process active) st xs)) = length xs).
  { induction xs as [|x t IH]; intros st; [reflexivity|]. cbn [ob_run]. destruct (ob4_process active st x) as [s' y]. specialize (IH s'). destruct (ob_run _ s' t) as [s2 ys]. cbn [snd length] in *. rewrite IH. reflexivity. }
  specialize (L (repeat 0 n) (mk_o4s c d (mk_o4r 0 0 0 0))). rewrite repeat_length in L. set (ys := snd _) in *. clearbody ys.
  revert n M N P L. clear. induction ys as [|y t IH]; intros n M N P L; destruct n; try discriminate; [reflexivity|]. cbn [map] in P. assert (P1 := f_equal (fun l => hd 0 l) P). assert (P2 := f_equal (@tl R) P). cbn [hd tl] in P1, P2.
  cbn [repeat]. f_equal; [lra|]. apply IH; [|exact N|exact P2|cbn [length] in L; congruence]. cbn [repeat map] in M. assert (M2 := f_equal (@tl R) M). exact M2.
Qed.
Print Assumptions C281_silence.
(* a lane that is not active forgets its first stage at every sample *)
Theorem C281_inactive : forall c d r x, p_s1 (o4s_r (fst (ob4_process false (mk_o4s c d r) x))) = 0.
Proof.
  intros. unfold ob4_process. cbn [o4s_c o4s_d o4s_r]. cbv zeta. destruct (ob_tptpc _ _ _) as [? ?]. destruct (ob_tptpc _ _ _) as [? ?]. destruct (ob_tptpc _ _ _) as [? ?]. cbn [fst o4s_r p_s1]. ring.
Qed.
Print Assumptions C281_inactive.
