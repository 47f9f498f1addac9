(* BiquadProps.v - C109..C114: the second-order filter of surge-biquad. *)
From Coq Require Import Reals Lra Psatz List.
From Coquelicot Require Complex.
From Verif Require Import Base LagModel BiquadModel BiquadProofs.
Local Open Scope R_scope.

(* ================= the filter designs a caller can ask for ================= *)
Inductive kind := KLp | KHp | KLp2b | KApf | KBp | KLph (morph : R) | KNotch | KPka | KBp2a.
Definition design_of (d : kind) (om q : R) : coef6 :=
  match d with
  | KLp => design_lp om q | KHp => design_hp om q | KLp2b => design_lp2b om q | KApf => design_apf om q
  | KBp => design_bp om q | KLph m => design_lph_morph om q m
  | KNotch => design_notch om q | KPka => design_pka om q | KBp2a => design_bp2a om q
  end.
(* the designs whose second argument is the quality factor itself; the other three map any number to a positive one *)
Definition takes_q (d : kind) : bool := match d with KNotch | KPka | KBp2a => false | _ => true end.
(* the designs with a case for cutoffs above half the sample rate *)
Definition guarded (d : kind) : bool := match d with KLp | KHp | KLp2b | KApf | KNotch => true | _ => false end.
(* a usable request: cutoff (radians per sample) below Nyquist, or above it for a guarded design *)
Definition usable (d : kind) (om q : R) : Prop :=
  0 < om /\ (om < PI \/ (guarded d = true /\ PI < om)) /\ (takes_q d = true -> 0 < q).
(* a filter in any condition, retuned and snapped to the new coefficients *)
Definition tuned (s0 : biquad) (d : kind) (om q : R) : biquad := coeff_instantize (set_coef (design_of d om q) s0).

Lemma reso_q : forall x, 0 < 1 / (2 / 100 + 30 * x * x).
Proof. intros x. apply Rdiv_lt_0_compat; [lra|]. pose proof (Rle_0_sqr x). unfold Rsqr in *. nra. Qed.

Lemma shape : forall d om q, 0 < om < PI -> (takes_q d = true -> 0 < q) ->
  exists al, 0 < al /\ c_a0 (design_of d om q) = 1 + al /\ c_a1 (design_of d om q) = -2 * cos om /\ c_a2 (design_of d om q) = 1 - al.
Proof.
  intros d om q Ho Hq. assert (S0 : 0 < sin om) by (apply sin_gt_0; lra).
  assert (G : ~ PI < om) by lra. assert (G0 : ~ om < 0) by lra.
  assert (P : forall Q, 0 < Q -> 0 < sin om / (2 * Q)) by (intros Q HQ; apply Rdiv_lt_0_compat; lra).
  destruct d; cbn [takes_q] in Hq; try (specialize (Hq eq_refl));
    unfold design_of, design_lp, design_hp, design_lp2b, design_apf, design_bp, design_lph_morph, design_notch, design_pka, design_bp2a;
    try destruct (Rlt_dec PI om) as [X|_]; try contradiction; try destruct (Rlt_dec om 0) as [X|_]; try contradiction; cbv zeta; cbn [c_a0 c_a1 c_a2].
  all: try (exists (sin om / (2 * q)); split; [apply P; exact Hq|repeat split; reflexivity]).
  - eexists; split; [|repeat split; reflexivity]. apply P, reso_q.
  - eexists; split; [|repeat split; reflexivity]. apply P. set (l := limit_range_R q 0 1).
    pose proof (Rle_0_sqr l). unfold Rsqr in *. nra.
  - eexists; split; [|repeat split; reflexivity]. apply P, reso_q.
Qed.

Lemma tuned_settled : forall s0 d om q, settled (tuned s0 d om q).
Proof. intros. apply settled_instantize. Qed.
Lemma coefs_tuned : forall s0 d om q, coefs (tuned s0 d om q) =
  let c := design_of d om q in mk_c5 (c_a1 c / c_a0 c) (c_a2 c / c_a0 c) (c_b0 c / c_a0 c) (c_b1 c / c_a0 c) (c_b2 c / c_a0 c).
Proof.
  intros. unfold tuned. cbv zeta. set (c := design_of d om q). unfold coefs, coeff_instantize, set_coef, Rdiv.
  destruct (q_first s0); cbn; rewrite !Rmult_1_l; reflexivity.
Qed.
Lemma regs_tuned : forall s0 d om q,
  q_r0l (tuned s0 d om q) = q_r0l s0 /\ q_r1l (tuned s0 d om q) = q_r1l s0 /\
  q_r0r (tuned s0 d om q) = q_r0r s0 /\ q_r1r (tuned s0 d om q) = q_r1r s0.
Proof. intros. unfold tuned, set_coef. destruct (q_first s0); repeat split. Qed.
Lemma tuned_fresh : forall d om q, tuned bq_new d om q = set_coef (design_of d om q) bq_new.
Proof. reflexivity. Qed.

Lemma jury_norm : forall al co, 0 < al -> -1 < co < 1 -> jury (-2 * co / (1 + al)) ((1 - al) / (1 + al)).
Proof.
  intros al co Ha Hc. assert (H : 0 < / (1 + al)) by (apply Rinv_0_lt_compat; lra).
  assert (E : (1 - al) / (1 + al) = 2 * / (1 + al) - 1) by (field; lra).
  assert (E2 : -2 * co / (1 + al) = -2 * co * / (1 + al)) by reflexivity.
  unfold jury. rewrite E, E2. assert (H1 : / (1 + al) < 1) by (rewrite <- Rinv_1; apply Rinv_lt_contravar; lra). nra.
Qed.
Lemma cos_open : forall om, 0 < om < PI -> -1 < cos om < 1.
Proof.
  intros om H. pose proof (ct_one om). assert (0 < sin om) by (apply sin_gt_0; lra). assert (0 < sin om * sin om) by nra. nra.
Qed.
Lemma above_shape : forall d om q, guarded d = true -> PI < om ->
  let c := design_of d om q in c_a0 c = 1 /\ c_a1 c = 0 /\ c_a2 c = 0 /\ c_b1 c = 0 /\ c_b2 c = 0 /\ c_b0 c = match d with KHp => 0 | _ => 1 end.
Proof.
  intros d om q G H. pose proof PI_RGT_0.
  destruct d; try discriminate G; cbv zeta; unfold design_of, design_lp, design_hp, design_lp2b, design_apf, design_notch;
    destruct (Rlt_dec PI om); try contradiction; try destruct (Rlt_dec om 0); try lra; repeat split; reflexivity.
Qed.
Lemma usable_jury : forall s0 d om q, usable d om q -> let k := coefs (tuned s0 d om q) in jury (k_a1 k) (k_a2 k).
Proof.
  intros s0 d om q (H0 & H1 & Hq). rewrite coefs_tuned. cbv zeta. cbn [k_a1 k_a2]. destruct H1 as [H1|[G H1]].
  - destruct (shape d om q (conj H0 H1) Hq) as (al & Ha & -> & -> & ->). apply jury_norm; [exact Ha|]. apply cos_open; lra.
  - destruct (above_shape d om q G H1) as (-> & -> & -> & _). unfold Rdiv. rewrite Rmult_0_l. unfold jury. lra.
Qed.

(* ================= C109: stability ================= *)

(* Whatever is left in the registers, a retuned filter fed any number of blocks with samples of size at most U
   answers with samples of size at most K * (registers + U + 1e-30); K depends on the design only. *)
Theorem C109_bounded_input_bounded_output : forall d om q, usable d om q ->
  exists K, 0 < K /\
  forall s0 U blocks, 0 <= U ->
    Forall (fun b => length b = 32%nat /\ Forall (fun x => Rabs x <= U) b) blocks ->
    Forall (fun y => Rabs y <= K * (Rabs (q_r0l s0) + Rabs (q_r1l s0) + U + 1 / 10 ^ 30)) (run_blocks (tuned s0 d om q) blocks).
Proof.
  intros d om q Hu. destruct (bibo_blocks (coefs (tuned bq_new d om q)) (usable_jury bq_new d om q Hu)) as (K & HK & H).
  exists K. split; [exact HK|]. intros s0 U bs HU Hb.
  destruct (regs_tuned s0 d om q) as (E0 & E1 & _).
  assert (Hk : coefs (tuned s0 d om q) = coefs (tuned bq_new d om q)) by (rewrite !coefs_tuned; reflexivity).
  pose proof (H (tuned s0 d om q) U bs (tuned_settled s0 d om q) Hk HU) as P. rewrite E0, E1 in P. apply P.
  eapply Forall_impl; [|exact Hb]. intros b [Hl Hx]. split; [|exact Hx]. intros ->. discriminate Hl.
Qed.

(* After the input has gone silent the output dies away geometrically. *)
Theorem C109_silence_decays : forall d om q, usable d om q ->
  exists K rho, 0 < K /\ 0 < rho < 1 /\
  forall s0 N n, (n < N)%nat ->
    Rabs (nth n (snd (mono_loop (tuned s0 d om q) (repeat 0 N))) 0) <= K * rho ^ n * (Rabs (q_r0l s0) + Rabs (q_r1l s0)).
Proof.
  intros d om q Hu. destruct (free_decay (coefs (tuned bq_new d om q)) (usable_jury bq_new d om q Hu)) as (K & rho & HK & Hr & H).
  exists K, rho. split; [exact HK|]. split; [exact Hr|]. intros s0 N n Hn.
  destruct (regs_tuned s0 d om q) as (E0 & E1 & _).
  assert (Hk : coefs (tuned s0 d om q) = coefs (tuned bq_new d om q)) by (rewrite !coefs_tuned; reflexivity).
  pose proof (H (tuned s0 d om q) (tuned_settled s0 d om q) Hk N n Hn) as P. rewrite E0, E1 in P. exact P.
Qed.

(* While the coefficients glide from one usable design to another, every intermediate set is inside the
   stability triangle |a2| < 1, |a1| < 1 + a2. *)
Theorem C109_glide_stays_in_triangle : forall s0 d om q d' om' q' n, usable d om q -> usable d' om' q' ->
  q_first s0 = false ->
  let k := coefs (Nat.iter n coeff_process (set_coef (design_of d' om' q') (tuned s0 d om q))) in
  Rabs (k_a2 k) < 1 /\ Rabs (k_a1 k) < 1 + k_a2 k.
Proof.
  intros s0 d om q d' om' q' n H H' Hf. cbv zeta.
  set (s1 := set_coef (design_of d' om' q') (tuned s0 d om q)).
  assert (T : jury (vl_target (q_a1 s1)) (vl_target (q_a2 s1))).
  { pose proof (usable_jury s0 d' om' q' H') as J. cbv zeta in J. rewrite coefs_tuned in J. cbv zeta in J. cbn [k_a1 k_a2] in J.
    unfold s1, set_coef. destruct (q_first (tuned s0 d om q)); cbn [vl_target q_a1 q_a2 vlag_new_value];
      unfold Rdiv in *; rewrite Rmult_1_l; exact J. }
  assert (V0 : jury (vl_v (q_a1 s1)) (vl_v (q_a2 s1))).
  { assert (Ff : q_first (tuned s0 d om q) = false) by (unfold tuned, set_coef; rewrite Hf; exact Hf).
    pose proof (usable_jury s0 d om q H) as J. cbv zeta in J. unfold s1, set_coef. rewrite Ff. exact J. }
  assert (I : forall n, jury (vl_v (q_a1 (Nat.iter n coeff_process s1))) (vl_v (q_a2 (Nat.iter n coeff_process s1))) /\
              vl_target (q_a1 (Nat.iter n coeff_process s1)) = vl_target (q_a1 s1) /\ vl_target (q_a2 (Nat.iter n coeff_process s1)) = vl_target (q_a2 s1)).
  { clear n. induction n as [|n (IH & T1 & T2)]; [cbn; repeat split; apply V0|].
    change (Nat.iter (S n) coeff_process s1) with (coeff_process (Nat.iter n coeff_process s1)).
    set (u := Nat.iter n coeff_process s1) in *. unfold coeff_process. cbn [q_a1 q_a2 vlag_process vl_v vl_target].
    rewrite T1, T2. split; [|split; reflexivity].
    unfold jury in *. unfold VLAG_LPINV, VLAG_LP. lra. }
  destruct (I n) as ((J1 & J2) & _). unfold coefs. cbn [k_a1 k_a2].
  split; apply Rabs_def1; lra.
Qed.

(* Above Nyquist the guarded designs are a straight wire, the high-pass is silence. *)
Theorem C109_above_nyquist : forall d om q xs, guarded d = true -> PI < om ->
  snd (mono_loop (tuned bq_new d om q) xs) = match d with KHp => map (fun _ => 0) xs | _ => xs end.
Proof.
  intros d om q xs G H. destruct (above_shape d om q G H) as (E0 & E1 & E2 & E3 & E4 & E5).
  assert (L : forall xs s, settled s -> k_a1 (coefs s) = 0 -> k_a2 (coefs s) = 0 -> k_b1 (coefs s) = 0 -> k_b2 (coefs s) = 0 ->
     q_r0l s = 0 -> q_r1l s = 0 -> snd (mono_loop s xs) = map (fun x => x * k_b0 (coefs s)) xs).
  { clear. induction xs as [|x xs IH]; intros s Hs A1 A2 A3 A4 R0 R1; [reflexivity|].
    cbn [mono_loop]. rewrite (step_settled s x Hs). set (s1 := set_left s _ _).
    assert (K : coefs s1 = coefs s) by reflexivity.
    specialize (IH s1 Hs A1 A2 A3 A4).
    assert (Z0 : q_r0l s1 = 0) by (unfold s1; cbn [q_r0l set_left]; rewrite A1, A3, R1; ring).
    assert (Z1 : q_r1l s1 = 0) by (unfold s1; cbn [q_r1l set_left]; rewrite A2, A4; ring).
    specialize (IH Z0 Z1). rewrite K in IH. destruct (mono_loop s1 xs) as [s2 os]. cbn [snd] in *. cbn [map]. f_equal; [|exact IH].
    rewrite R0. ring. }
  pose proof (coefs_tuned bq_new d om q) as C. cbv zeta in C. rewrite E0, E1, E2, E3, E4, E5 in C.
  assert (D : forall x, x / 1 = x) by (intros; field). rewrite !D in C.
  rewrite L; try (rewrite C; reflexivity); [|apply tuned_settled|destruct (regs_tuned bq_new d om q) as (X & _); exact X|destruct (regs_tuned bq_new d om q) as (_ & X & _); exact X].
  rewrite C. cbn [k_b0]. destruct d; try discriminate G.
  all: try (rewrite <- (map_id xs) at 2; apply map_ext; intros; ring).
  apply map_ext; intros; ring.
Qed.

(* REFUTED for the four unguarded designs above Nyquist: one unit impulse and then silence, and the output
   leaves every bound. *)
Theorem C109_unguarded_above_nyquist_blows_up_refuted : forall d om q,
  guarded d = false -> PI < om < 2 * PI -> (takes_q d = true -> 0 < q) -> c_a0 (design_of d om q) <> 0 ->
  forall B, exists N, Exists (fun y => B < Rabs y) (snd (mono_loop (tuned bq_new d om q) (1 :: repeat 0 N))).
Proof.
  intros d om q G Ho Hq Ha0 B.
  assert (S0 : sin om < 0) by (apply sin_lt_0; lra).
  assert (Sh : exists al g, al < 0 /\ g <> 0 /\ design_of d om q = mk_c6 (1 + al) (-2 * cos om) (1 - al) (g * al) 0 (- (g * al))).
  { assert (P : forall Q, 0 < Q -> sin om / (2 * Q) < 0).
    { intros Q HQ. unfold Rdiv. assert (0 < / (2 * Q)) by (apply Rinv_0_lt_compat; lra). nra. }
    destruct d; try discriminate G; cbn [takes_q] in Hq; unfold design_of, design_bp, design_lph_morph, design_pka, design_bp2a; cbv zeta.
    - exists (sin om / (2 * q)), 1. split; [apply P, Hq; reflexivity|]. split; [lra|]. f_equal; ring.
    - exists (sin om / (2 * q)), 1. split; [apply P, Hq; reflexivity|]. split; [lra|]. f_equal; ring.
    - set (Q := 1 / 10 + 10 * limit_range_R q 0 1 * limit_range_R q 0 1).
      assert (0 < Q). { unfold Q. pose proof (Rle_0_sqr (limit_range_R q 0 1)). unfold Rsqr in *. nra. }
      exists (sin om / (2 * Q)), Q. split; [apply P; assumption|]. split; [lra|]. f_equal; ring.
    - eexists _, 1. split; [apply P, reso_q|]. split; [lra|]. f_equal; ring. }
  destruct Sh as (al & g & Hal & Hg & E). rewrite E in Ha0. cbn [c_a0] in Ha0.
  set (k := coefs (tuned bq_new d om q)).
  assert (Hk : k = mk_c5 (-2 * cos om / (1 + al)) ((1 - al) / (1 + al)) (g * al / (1 + al)) (0 / (1 + al)) (- (g * al) / (1 + al))).
  { unfold k. rewrite coefs_tuned, E. reflexivity. }
  set (r := (k_b1 k - k_a1 k * k_b0 k, k_b2 k - k_a2 k * k_b0 k)).
  assert (A2 : 1 < Rabs (k_a2 k)).
  { rewrite Hk. cbn [k_a2]. unfold Rdiv. rewrite Rabs_mult, Rabs_inv.
    assert (0 < Rabs (1 + al)) by (apply Rabs_pos_lt; exact Ha0).
    apply Rmult_lt_reg_r with (Rabs (1 + al)); [assumption|]. rewrite Rmult_assoc, Rinv_l, Rmult_1_l, Rmult_1_r by lra.
    rewrite (Rabs_right (1 - al)) by lra. apply Rabs_def1; lra. }
  assert (HQ : Qf k r <> 0).
  { assert (EQ : Qf k r = - (4 * (g * al) * (g * al) * (sin om * sin om)) / ((1 + al) * (1 + al) * ((1 + al) * (1 + al)))).
    { unfold Qf, r. rewrite Hk. cbn [k_a1 k_a2 k_b0 k_b1 k_b2 fst snd].
      replace (sin om * sin om) with (1 - cos om * cos om) by (pose proof (ct_one om); lra). field. exact Ha0. }
    rewrite EQ. unfold Rdiv. apply Rmult_integral_contrapositive_currified.
    - apply Ropp_neq_0_compat. repeat apply Rmult_integral_contrapositive_currified; lra.
    - apply Rinv_neq_0_compat. repeat apply Rmult_integral_contrapositive_currified; exact Ha0. }
  destruct (free_unbounded k r A2 HQ B) as [n Hn].
  exists (S n). cbn [mono_loop]. rewrite (step_settled _ 1 (tuned_settled bq_new d om q)).
  destruct (regs_tuned bq_new d om q) as (R0 & R1 & _). fold k. rewrite R0, R1.
  set (s1 := set_left (tuned bq_new d om q) _ _).
  pose proof (free_nth k (S n) s1 (tuned_settled bq_new d om q) eq_refl n (Nat.lt_succ_diag_r n)) as F.
  replace (q_r0l s1, q_r1l s1) with r in F.
  2:{ unfold r, s1; cbn [q_r0l q_r1l set_left bq_new]. f_equal; ring. }
  pose proof (free_loop (S n) s1 (tuned_settled bq_new d om q)) as Le.
  destruct (mono_loop s1 (repeat 0 (S n))) as [s2 os]. cbn [snd] in *. apply Exists_cons_tl. apply Exists_exists.
  exists (nth n os 0). split; [apply nth_In; lia|]. rewrite F. exact Hn.
Qed.

Example C109_usable_case : usable KLp 1 (7 / 10) /\ usable KHp 4 1 /\ usable KBp2a 1 0 /\
  (guarded KBp = false /\ PI < 4 < 2 * PI /\ c_a0 (design_of KBp 4 2) <> 0).
Proof.
  assert (P4 : 3 < PI < 4).
  { split; [pose proof PI2_3_2; lra|]. destruct (PI_ineq 1) as [_ P]. cbn in P. unfold tg_alt, PI_tg in P. cbn in P. lra. }
  repeat split; try (cbn; lra); try (right; split; [reflexivity|lra]); try discriminate.
  cbn. unfold design_bp. pose proof (SIN_bound 4). lra.
Qed.

Print Assumptions C109_bounded_input_bounded_output.
Print Assumptions C109_silence_decays.
Print Assumptions C109_glide_stays_in_triangle.
Print Assumptions C109_above_nyquist.
Print Assumptions C109_unguarded_above_nyquist_blows_up_refuted.
