(** C123-C129: the quad filter chain. *)
From Coq Require Import Reals Lra Psatz.
From Verif Require Import Base Util F32 BlockModel QfModel QfProofs.
Local Open Scope R_scope.

(** one block of one voice alone; one block of a quad of four voices *)
Definition block1 {U} (cfg : fbconfig) (g : fbq R U) (s : qst R R bool U) := process_quad ops1 0 0 cfg g false s.
Definition block4 {U} (cfg : fbconfig) (g : fbq (q4 R) U) (s : qst (q4 R) R (q4 bool) U) := process_quad ops4 (Q4 0 0 0 0) 0 cfg g false s.
Definition inputs_ok {U} (c : chain R bool U) : Prop := length (c_dl c) = 64%nat /\ length (c_dr c) = 64%nat.
Definition silence : list R := repeat 0 64.

Lemma block1_loop {U} cfg (g : fbq R U) s : block1 cfg g s = loop1 cfg g 64 0 s.
Proof. reflexivity. Qed.
Lemma block4_loop {U} cfg (g : fbq R U) s : block4 cfg (lift_fbq g) s = do_loop (sample4 cfg (lift_fbq g)) 64 0 s.
Proof. destruct g as [[fa|] [fb|] [ws|]]; reflexivity. Qed.

(* ================= C123: voices in a quad do not interact ================= *)

(** For every configuration, every pair of filters and shaper that act on each lane separately, every
    state of the four voices, every input and every content of the output buffers: the block leaves
    each voice in the state it would have reached alone, and adds to each output sample exactly the
    sum of what the four voices alone would have written into silence. *)
Theorem C123_lanes_independent : forall U cfg (g : fbq R U) a b c d bl br,
  inputs_ok a -> inputs_ok b -> inputs_ok c -> inputs_ok d -> length bl = 64%nat -> length br = 64%nat ->
  exists a' b' c' d' ol orr,
    block1 cfg g (mk_qst a silence silence) = Ok a' /\ block1 cfg g (mk_qst b silence silence) = Ok b' /\
    block1 cfg g (mk_qst c silence silence) = Ok c' /\ block1 cfg g (mk_qst d silence silence) = Ok d' /\
    block4 cfg (lift_fbq g) (mk_qst (quad_chain a b c d) bl br) =
      Ok (mk_qst (quad_chain (q_c a') (q_c b') (q_c c') (q_c d')) ol orr) /\
    length ol = 64%nat /\ length orr = 64%nat /\
    forall k, (k < 64)%nat ->
      nth k ol 0 = nth k bl 0 + nth k (q_l a') 0 + nth k (q_l b') 0 + nth k (q_l c') 0 + nth k (q_l d') 0 /\
      nth k orr 0 = nth k br 0 + nth k (q_r a') 0 + nth k (q_r b') 0 + nth k (q_r c') 0 + nth k (q_r d') 0.
Proof.
  intros U cfg g a b c d bl br Ha Hb Hc Hd Hl Hr.
  assert (LS : length silence = 64%nat) by (apply repeat_length).
  assert (LE : forall x : chain R bool U, inputs_ok x -> lens 64 64 (mk_qst x silence silence)) by (intros x [X1 X2]; repeat split; assumption).
  destruct (loop_comb 64 64 cfg g bl br 64 0 _ _ _ _ Hl Hr (LE a Ha) (LE b Hb) (LE c Hc) (LE d Hd))
    as (a' & b' & c' & d' & Ea & Eb & Ec & Ed & La & Lb & Lc & Ld & E4).
  exists a', b', c', d', (zip5 bl (q_l a') (q_l b') (q_l c') (q_l d')), (zip5 br (q_r a') (q_r b') (q_r c') (q_r d')).
  rewrite !block1_loop, block4_loop. do 4 (split; [assumption|]).
  destruct La as (_ & _ & A1 & A2), Lb as (_ & _ & B1 & B2), Lc as (_ & _ & C1 & C2), Ld as (_ & _ & D1 & D2).
  split.
  { assert (Z0 : forall z, length z = 64%nat -> zip5 z silence silence silence silence = z).
    { intros z Hz. apply nth_ext with 0 0; [rewrite zip5_length; congruence|]. intros j _. rewrite zip5_nth by congruence.
      unfold silence. rewrite nth_repeat. ring. }
    transitivity (do_loop (sample4 cfg (lift_fbq g)) 64 0 (comb bl br (mk_qst a silence silence) (mk_qst b silence silence) (mk_qst c silence silence) (mk_qst d silence silence))); [|exact E4].
    f_equal. unfold comb. cbn [q_c q_l q_r]. rewrite !Z0 by assumption. reflexivity. }
  split; [rewrite zip5_length; congruence|]. split; [rewrite zip5_length; congruence|].
  intros k Hk. rewrite !zip5_nth by congruence. split; ring.
Qed.
Print Assumptions C123_lanes_independent.

(** every quad of voices has this form *)
Definition sel {X} (j : Z) (v : q4 X) : X := if (j =? 0)%Z then l0 v else if (j =? 1)%Z then l1 v else if (j =? 2)%Z then l2 v else l3 v.
Definition lane {U} (j : Z) (c : chain (q4 R) (q4 bool) (q4 U)) : chain R bool U :=
  mk_chain (sel j (c_u0 c)) (sel j (c_u1 c)) (sel j (c_u2 c)) (sel j (c_u3 c)) (sel j (c_active c))
    (sel j (c_gain c)) (sel j (c_feedback c)) (sel j (c_mix1 c)) (sel j (c_mix2 c)) (sel j (c_drive c))
    (sel j (c_dgain c)) (sel j (c_dfeedback c)) (sel j (c_dmix1 c)) (sel j (c_dmix2 c)) (sel j (c_ddrive c))
    (sel j (c_wslpf c)) (sel j (c_fbl c)) (sel j (c_fbr c)) (map (sel j) (c_dl c)) (map (sel j) (c_dr c))
    (sel j (c_outl c)) (sel j (c_outr c)) (sel j (c_doutl c)) (sel j (c_doutr c))
    (sel j (c_out2l c)) (sel j (c_out2r c)) (sel j (c_dout2l c)) (sel j (c_dout2r c)).
Theorem C123_every_quad_is_four_lanes : forall U (c : chain (q4 R) (q4 bool) (q4 U)),
  c = quad_chain (lane 0 c) (lane 1 c) (lane 2 c) (lane 3 c).
Proof.
  intros U c. assert (L : forall l : list (q4 R), quads (map (sel 0) l) (map (sel 1) l) (map (sel 2) l) (map (sel 3) l) = l).
  { induction l as [|[x y z w] l IH]; cbn in *; [reflexivity|]. f_equal. exact IH. }
  destruct c as [[] [] [] [] [] [] [] [] [] [] [] [] [] [] [] [] [] [] dl dr [] [] [] [] [] [] [] []].
  unfold quad_chain, lane. cbn. unfold sel in L. cbn in L. rewrite !L. reflexivity.
Qed.
Print Assumptions C123_every_quad_is_four_lanes.

(* ================= C124: inactive lanes are silent ================= *)

(** A voice whose lane is not active writes nothing, whatever its state, input, gains, filters and
    shaper; so in a quad an inactive lane can be replaced by any other inactive lane without changing
    the output or the other three voices. *)
Theorem C124_inactive_silent : forall U cfg (g : fbq R U) s,
  c_active (q_c s) = false -> exists s', block1 cfg g s = Ok s' /\ q_l s' = q_l s /\ q_r s' = q_r s.
Proof.
  intros U cfg g s A. destruct (loop1_ok cfg g 64 0 s) as [s' E]. exists s'. split; [exact E|]. exact (inactive_loop _ _ _ _ _ _ A E).
Qed.
Print Assumptions C124_inactive_silent.

Theorem C124_inactive_irrelevant : forall U cfg (g : fbq R U) a b c d d2 bl br,
  inputs_ok a -> inputs_ok b -> inputs_ok c -> inputs_ok d -> inputs_ok d2 -> length bl = 64%nat -> length br = 64%nat ->
  c_active d = false -> c_active d2 = false ->
  exists a' b' c' d' d2' ol orr,
    block4 cfg (lift_fbq g) (mk_qst (quad_chain a b c d) bl br) = Ok (mk_qst (quad_chain a' b' c' d') ol orr) /\
    block4 cfg (lift_fbq g) (mk_qst (quad_chain a b c d2) bl br) = Ok (mk_qst (quad_chain a' b' c' d2') ol orr).
Proof.
  intros U cfg g a b c d d2 bl br Ha Hb Hc Hd Hd2 Hl Hr A A2.
  destruct (C123_lanes_independent U cfg g a b c d bl br Ha Hb Hc Hd Hl Hr) as (a' & b' & c' & d' & ol & orr & E1 & E2 & E3 & E4 & E5 & L1 & L2 & E6).
  destruct (C123_lanes_independent U cfg g a b c d2 bl br Ha Hb Hc Hd2 Hl Hr) as (a2 & b2 & c2 & d2' & ol2 & orr2 & F1 & F2 & F3 & F4 & F5 & M1 & M2 & F6).
  assert (a2 = a') by congruence. assert (b2 = b') by congruence. assert (c2 = c') by congruence. subst a2 b2 c2.
  destruct (C124_inactive_silent U cfg g (mk_qst d silence silence) A) as (x & X1 & X2 & X3).
  destruct (C124_inactive_silent U cfg g (mk_qst d2 silence silence) A2) as (y & Y1 & Y2 & Y3).
  assert (x = d') by congruence. assert (y = d2') by congruence. subst x y. cbn [q_l q_r] in *.
  assert (ol2 = ol). { apply nth_ext with 0 0; [congruence|]. intros k Hk. rewrite M1 in Hk. destruct (E6 k Hk) as [-> _]. destruct (F6 k Hk) as [-> _]. rewrite X2, Y2. reflexivity. }
  assert (orr2 = orr). { apply nth_ext with 0 0; [congruence|]. intros k Hk. rewrite M2 in Hk. destruct (E6 k Hk) as [_ ->]. destruct (F6 k Hk) as [_ ->]. rewrite X3, Y3. reflexivity. }
  subst. do 7 eexists. split; [exact E5|exact F5].
Qed.
Print Assumptions C124_inactive_irrelevant.

(* ================= C125: the ramps of a block ================= *)

(** Over one block every ramp advances by 64 times its per-sample step, and nothing else of the
    voice's parameters changes; the drive only when a shaper is on, the first mix in serial and wide
    configurations only when filter 1 or the shaper is on, the second mix in the wide configuration
    only when filter 2 is on, the feedback not in serial 1 (in each excepted case the value is not used). *)
Theorem C125_ramps : forall U cfg (g : fbq R U) s s', block1 cfg g s = Ok s' ->
  let c := q_c s in let c' := q_c s' in
  c_gain c' = c_gain c + 64 * c_dgain c /\
  (cfg <> Serial1 -> c_feedback c' = c_feedback c + 64 * c_dfeedback c) /\
  (is_some (wsptr g) = true -> c_drive c' = c_drive c + 64 * c_ddrive c) /\
  (cfg = Dual1 \/ cfg = Dual2 \/ cfg = Ring \/ cfg = Stereo \/ is_some (fu1ptr g) = true \/ is_some (wsptr g) = true ->
     c_mix1 c' = c_mix1 c + 64 * c_dmix1 c) /\
  (cfg <> Wide \/ is_some (fu2ptr g) = true -> c_mix2 c' = c_mix2 c + 64 * c_dmix2 c) /\
  c_outr c' = c_outr c + 64 * c_doutr c /\
  (cfg <> Stereo -> cfg <> Wide -> c_outl c' = c_outl c + 64 * c_doutl c /\ c_out2l c' = c_out2l c /\ c_out2r c' = c_out2r c) /\
  (cfg = Stereo \/ cfg = Wide -> c_out2l c' = c_out2l c + 64 * c_dout2l c /\ c_out2r c' = c_out2r c + 64 * c_dout2r c) /\
  c_active c' = c_active c /\ c_dl c' = c_dl c /\ c_dr c' = c_dr c.
Proof.
  intros U cfg g s s' H c c'. rewrite block1_loop in H. apply loop_ramps in H. destruct H as [S R]. unfold same_static, ramped in *.
  fold c c' in S, R. replace (INR 64) with 64 in R by (rewrite INR_IZR_INZ; reflexivity).
  destruct S as (_ & _ & _ & _ & _ & _ & _ & _ & _ & s1 & s2 & s3). destruct R as (r1 & r2 & r3 & r4 & r5 & r6 & r7 & r8 & r9).
  rewrite r1, r2, r3, r4, r5, r6, r7, r8, r9. unfold b2r, mix1_moves, mix2_moves, two_outputs.
  split; [reflexivity|]. split. { intros N. destruct cfg; try congruence; ring. }
  split. { intros ->. ring. }
  split. { intros N. destruct cfg; try ring; destruct N as [N|[N|[N|[N|[N|N]]]]]; try discriminate N; rewrite N; rewrite ?orb_true_r; cbn [orb]; ring. }
  split. { intros N. destruct cfg; try ring. destruct N as [N|N]; [congruence|]. rewrite N. ring. }
  split; [reflexivity|]. split. { intros N1 N2. destruct cfg; try congruence; repeat split; ring. }
  split. { intros [-> | ->]; split; ring. }
  auto.
Qed.
Print Assumptions C125_ramps.

(** FINDING.  In the two-output configurations the left pan ramp is advanced twice per sample: for
    every state it moves by 128 steps instead of 64, ending as far beyond its target as it started
    before it. *)
Theorem C125_left_pan_overshoots_refuted : forall U cfg (g : fbq R U) s s', cfg = Stereo \/ cfg = Wide ->
  block1 cfg g s = Ok s' ->
  c_outl (q_c s') = c_outl (q_c s) + 128 * c_doutl (q_c s) /\
  forall target, c_doutl (q_c s) = (target - c_outl (q_c s)) * os_inv ->
    c_outl (q_c s') - target = target - c_outl (q_c s).
Proof.
  intros U cfg g s s' HC H. rewrite block1_loop in H. apply loop_ramps in H. destruct H as [_ (_ & _ & _ & _ & _ & r & _)].
  replace (INR 64) with 64 in r by (rewrite INR_IZR_INZ; reflexivity).
  assert (E : c_outl (q_c s') = c_outl (q_c s) + 128 * c_doutl (q_c s)) by (rewrite r; destruct HC as [-> | ->]; cbn [two_outputs]; ring).
  split; [exact E|]. intros t Ht. rewrite E, Ht. unfold os_inv. field.
Qed.
Print Assumptions C125_left_pan_overshoots_refuted.

(* ================= C126: dispatch ================= *)

(** The processing function chosen for a configuration never unwraps a missing filter or shaper: for
    every number format, every (also non-lane-wise) filter and shaper and every state a release-mode
    block succeeds; a debug-mode block can only fail in the two-output configurations. *)
Lemma filt_ok {V T M U : Type} (p : option (U -> V -> U * V)) i (s : qst V T M U) x : exists s' x', filt (is_some p) p i s x = Ok (s', x').
Proof. destruct p as [f|]; cbn; [destruct (f (get_unit i (q_c s)) x)|]; eauto. Qed.
Lemma shape_lpf_ok {V T M U} (OP : vops V T M) p (s : qst V T M U) x : exists s' x', shape_lpf OP (is_some p) p s x = Ok (s', x').
Proof. destruct p as [f|]; unfold shape_lpf, is_some; eauto. Qed.
Lemma shape2_ok {V T M U} (OP : vops V T M) p (s : qst V T M U) x y : exists s' x' y', shape2 OP (is_some p) p s x y = Ok (s', (x', y')).
Proof. destruct p as [f|]; unfold shape2, is_some; eauto. Qed.
Ltac okstep := match goal with
  | |- context [filt (is_some ?p) ?p ?i ?s ?x] => let E := fresh in destruct (filt_ok p i s x) as (? & ? & E); rewrite E; clear E; cbn [obind]
  | |- context [shape_lpf ?OP (is_some ?p) ?p ?s ?x] => let E := fresh in destruct (shape_lpf_ok OP p s x) as (? & ? & E); rewrite E; clear E; cbn [obind]
  | |- context [shape2 ?OP (is_some ?p) ?p ?s ?x ?y] => let E := fresh in destruct (shape2_ok OP p s x y) as (? & ? & ? & E); rewrite E; clear E; cbn [obind]
  | |- context [blend1 ?OP ?b ?s ?i ?x] => destruct (blend1 OP b s i x)
  | |- context [feed2 ?OP ?v ?s ?k] => destruct (feed2 OP v s k) as [? [? ?]]
  end.
Theorem C126_dispatch_never_unwraps_none : forall V T M U (OP : vops V T M) v0 t0 cfg (g : fbq V U) s,
  (exists s', process_quad OP v0 t0 cfg g false s = Ok s') /\
  (cfg <> Stereo -> cfg <> Wide -> exists s', process_quad OP v0 t0 cfg g true s = Ok s').
Proof.
  intros V T M U OP v0 t0 cfg g.
  assert (L : forall f : qst V T M U -> nat -> res (qst V T M U), (forall s k, exists s', f s k = Ok s') -> forall n k s, exists s', do_loop f n k s = Ok s').
  { intros f Hf. induction n as [|n IH]; intros k s; [exists s; reflexivity|]. destruct (Hf s k) as [s1 E]. destruct (IH (S k) s1) as [s' E']. exists s'. cbn [do_loop]. rewrite E. exact E'. }
  intros s. split.
  - apply L. intros s1 k. unfold do_sample, do_serial1, do_serial2, do_serial3, do_dual1, do_dual2, do_ring, do_stereo, do_wide, assert_reasonable. cbn [andb].
    destruct cfg; cbv zeta; repeat okstep; try (eexists; reflexivity).
    destruct (is_some (fu1ptr g) || is_some (wsptr g)); cbn [obind]; (destruct (is_some (fu2ptr g)) eqn:E2; cbn [obind]; rewrite <- ?E2; repeat okstep; eexists; reflexivity).
  - intros N1 N2. apply L. intros s1 k. unfold do_sample, do_serial1, do_serial2, do_serial3, do_dual1, do_dual2, do_ring.
    destruct cfg; try congruence; cbv zeta; repeat okstep; eexists; reflexivity.
Qed.
Print Assumptions C126_dispatch_never_unwraps_none.

(** the activity flags matter: an instance that expects a filter the chain does not have panics *)
Example C126_wrong_flags_panic : forall s, do_sample (U := unit) ops1 0 0 Serial1 true false false no_units false s 0 = Panic.
Proof. reflexivity. Qed.

(* ================= C127: what each configuration computes ================= *)

(** With both filters and the shaper off and no feedback, sample k of a block adds to the outputs
    exactly: gain times (x + mix2 y) in serial 1 and 2, gain times x in serial 3, gain times
    (mix1 x + mix2 y) in dual 1 and 2, gain times the product of the two cross-fades in ring, and on
    two separately panned buses gain times (mix1 x, mix2 y) in stereo and gain times (x, y) in wide -
    with gain, mixes and pans at their values k+1 steps into their ramps. *)
Theorem C127_bypass : forall U cfg (c : chain R bool U) bl br, c_feedback c = 0 -> c_dfeedback c = 0 ->
  length bl = 64%nat -> length br = 64%nat ->
  exists s', block1 cfg no_units (mk_qst c bl br) = Ok s' /\
  forall k, (k < 64)%nat ->
    let t := INR k + 1 in
    let '(a, b) := mixdown cfg (c_mix1 c + t * c_dmix1 c) (c_mix2 c + t * c_dmix2 c) (nth k (c_dl c) 0) (nth k (c_dr c) 0) in
    let gain := if c_active c then c_gain c + t * c_dgain c else 0 in
    let left_steps := if two_outputs cfg then 2 else 1 in
    nth k (q_l s') 0 = nth k bl 0 + gain * (a * (c_outl c + t * (left_steps * c_doutl c)) + b * (c_out2l c + t * c_dout2l c)) /\
    nth k (q_r s') 0 = nth k br 0 + gain * (a * (c_outr c + t * c_doutr c) + b * (c_out2r c + t * c_dout2r c)).
Proof.
  intros U cfg c bl br F0 F1 Hl Hr. destruct (loop1_ok cfg no_units 64 0 (mk_qst c bl br)) as [s' E]. exists s'. split; [exact E|].
  set (cl := fun k => let t := INR k + 1 in let '(a, b) := mixdown cfg (c_mix1 c + t * c_dmix1 c) (c_mix2 c + t * c_dmix2 c) (nth k (c_dl c) 0) (nth k (c_dr c) 0) in
    let gain := if c_active c then c_gain c + t * c_dgain c else 0 in let ls := if two_outputs cfg then 2 else 1 in
    gain * (a * (c_outl c + t * (ls * c_doutl c)) + b * (c_out2l c + t * c_dout2l c))).
  set (cr := fun k => let t := INR k + 1 in let '(a, b) := mixdown cfg (c_mix1 c + t * c_dmix1 c) (c_mix2 c + t * c_dmix2 c) (nth k (c_dl c) 0) (nth k (c_dr c) 0) in
    let gain := if c_active c then c_gain c + t * c_dgain c else 0 in
    gain * (a * (c_outr c + t * c_doutr c) + b * (c_out2r c + t * c_dout2r c))).
  pose proof (loop_out cfg no_units (fun k s => same_static c (q_c s) /\ ramped cfg no_units (INR k) c (q_c s)) (fun k xl xr => xl = cl k /\ xr = cr k)) as LO.
  destruct (fun H => LO H (mk_qst c bl br) 64%nat s') as (_ & _ & _ & J); [| |exact E|].
  - intros k s s1 [S R] H. pose proof (sample_ramps _ _ _ _ _ H) as [S1 R1]. cbn [q_c] in *.
    unfold same_static, ramped in *. cbn [is_some fu1ptr fu2ptr wsptr no_units] in *.
    destruct S as (e1 & e2 & e3 & e4 & e5 & e6 & e7 & e8 & e9 & e10 & e11 & e12). rewrite e1, e2, e3, e4, e5, e6, e7, e8, e9 in R1. rewrite e1, e2, e3, e4, e5, e6, e7, e8, e9, e10, e11, e12 in S1.
    destruct R as (r1 & r2 & r3 & r4 & r5 & r6 & r7 & r8 & r9). rewrite r1, r2, r3, r4, r5, r6, r7, r8, r9 in R1.
    rewrite S_INR. split. { split; [exact S1|]. destruct R1 as (t1 & t2 & t3 & t4 & t5 & t6 & t7 & t8 & t9). rewrite t1, t2, t3, t4, t5, t6, t7, t8, t9. repeat split; ring. }
    assert (Z1 : c_feedback (q_c s) = 0) by (rewrite r2, F0, F1; ring). assert (Z2 : c_dfeedback (q_c s) = 0) by congruence.
    pose proof (bypass_sample cfg s k s1 Z1 Z2 H) as B. cbv zeta in B. 
    destruct R1 as (t1 & _ & t3 & t4 & _ & t6 & t7 & t8 & t9).
    exists (cl k), (cr k). split; [auto|]. unfold cl, cr. cbv zeta.
    assert (M : mixdown cfg (c_mix1 (q_c s1)) (c_mix2 (q_c s1)) (nth k (c_dl (q_c s)) 0) (nth k (c_dr (q_c s)) 0) =
        mixdown cfg (c_mix1 c + (INR k + 1) * c_dmix1 c) (c_mix2 c + (INR k + 1) * c_dmix2 c) (nth k (c_dl c) 0) (nth k (c_dr c) 0)).
    { rewrite e11, e12, t3, t4. unfold mixdown, mix1_moves, mix2_moves, b2r. cbn [is_some fu1ptr fu2ptr wsptr no_units orb].
      destruct cfg; f_equal; ring. }
    rewrite M in B. destruct (mixdown cfg (c_mix1 c + (INR k + 1) * c_dmix1 c) (c_mix2 c + (INR k + 1) * c_dmix2 c) (nth k (c_dl c) 0) (nth k (c_dr c) 0)) as [a b] eqn:MX.
    destruct B as [B1 B2]. rewrite B1, B2, e10, t1, t6, t7, t8, t9. unfold and1.
    assert (NB : two_outputs cfg = false -> b = 0) by (intros T; destruct cfg; try discriminate T; cbn in MX; injection MX as _ <-; reflexivity).
    split; f_equal; f_equal; destruct (c_active c); destruct (two_outputs cfg); cbn [b2r]; rewrite ?(NB eq_refl); ring.
  - split; [|]; cbn [q_c]; unfold same_static, ramped; cbn [INR]; repeat split; ring.
  - intros k Hk. cbn [q_l q_r] in J. specialize (J k ltac:(lia) ltac:(lia)). rewrite (proj2 (Nat.ltb_lt k 64) Hk) in J.
    destruct J as (xl & xr & [-> ->] & J1 & J2). unfold cl, cr in J1, J2. cbv zeta in *.
    destruct (mixdown cfg _ _ _ _) as [a b]. split; assumption.
Qed.
Print Assumptions C127_bypass.

(* ================= C128: feedback cannot blow up ================= *)

(** If filters and shaper, where present, have outputs bounded by F, the inputs are bounded by D, the
    gain stays within G, the pans within P and the mixes in [0,1] during the block, then every output
    contribution of the block is bounded by 2 (D+F+2)^2 G P - for every feedback amount and ramp,
    however large, and whatever the feedback lines, the low-pass and the unit states contain. *)
Definition within {U} (cfg : fbconfig) (G P : R) (c : chain R bool U) : Prop :=
  forall t, 0 <= t <= 64 ->
    Rabs (c_gain c + t * c_dgain c) <= G /\ 0 <= c_mix1 c + t * c_dmix1 c <= 1 /\ 0 <= c_mix2 c + t * c_dmix2 c <= 1 /\
    Rabs (c_outl c + t * c_doutl c) <= P /\ (two_outputs cfg = true -> Rabs (c_outl c + 2 * t * c_doutl c) <= P) /\
    Rabs (c_outr c + t * c_doutr c) <= P /\ Rabs (c_out2l c + t * c_dout2l c) <= P /\ Rabs (c_out2r c + t * c_dout2r c) <= P.
Theorem C128_feedback_bounded : forall U cfg (g : fbq R U) c bl br D F G P,
  0 <= D -> 0 <= F -> saturating F g -> within cfg G P c ->
  (forall k, Rabs (nth k (c_dl c) 0) <= D) -> (forall k, Rabs (nth k (c_dr c) 0) <= D) ->
  length bl = 64%nat -> length br = 64%nat ->
  exists s', block1 cfg g (mk_qst c bl br) = Ok s' /\
  forall k, (k < 64)%nat ->
    Rabs (nth k (q_l s') 0 - nth k bl 0) <= 2 * ((D + F + 2) * (D + F + 2) * G * P) /\
    Rabs (nth k (q_r s') 0 - nth k br 0) <= 2 * ((D + F + 2) * (D + F + 2) * G * P).
Proof.
  intros U cfg g c bl br D F G P HD HF HS HW HL HR Hl Hr. destruct (loop1_ok cfg g 64 0 (mk_qst c bl br)) as [s' E]. exists s'. split; [exact E|].
  assert (HG : 0 <= G). { destruct (HW 0 ltac:(lra)) as (A & _). pose proof (Rabs_pos (c_gain c + 0 * c_dgain c)). lra. }
  assert (HP : 0 <= P). { destruct (HW 0 ltac:(lra)) as (_ & _ & _ & A & _). pose proof (Rabs_pos (c_outl c + 0 * c_doutl c)). lra. }
  pose proof (loop_out cfg g (fun k s => same_static c (q_c s) /\ ramped cfg g (INR k) c (q_c s))
    (fun k xl xr => (k < 64)%nat -> Rabs xl <= 2 * (qbound D F G * P) /\ Rabs xr <= 2 * (qbound D F G * P))) as LO.
  destruct (fun H => LO H (mk_qst c bl br) 64%nat s') as (_ & _ & _ & J); [| |exact E|].
  - intros k s s1 [S R] H. pose proof (sample_ramps _ _ _ _ _ H) as [S1 R1]. cbn [q_c] in *.
    assert (NEW : same_static c (q_c s1) /\ ramped cfg g (INR k + 1) c (q_c s1)).
    { unfold same_static, ramped in *.
      destruct S as (e1 & e2 & e3 & e4 & e5 & e6 & e7 & e8 & e9 & e10 & e11 & e12). rewrite e1, e2, e3, e4, e5, e6, e7, e8, e9 in R1. rewrite e1, e2, e3, e4, e5, e6, e7, e8, e9, e10, e11, e12 in S1.
      destruct R as (r1 & r2 & r3 & r4 & r5 & r6 & r7 & r8 & r9). rewrite r1, r2, r3, r4, r5, r6, r7, r8, r9 in R1.
      split; [exact S1|]. destruct R1 as (t1 & t2 & t3 & t4 & t5 & t6 & t7 & t8 & t9). rewrite t1, t2, t3, t4, t5, t6, t7, t8, t9. repeat split; ring. }
    rewrite S_INR. split; [exact NEW|]. clear R1 S1.
    destruct S as (_ & _ & _ & _ & _ & _ & _ & _ & _ & _ & e11 & e12).
    destruct (lt_dec k 64) as [Hk|Hk].
    + assert (T : 0 <= INR k + 1 <= 64). { pose proof (pos_INR k). assert (INR k + 1 <= 64); [|lra]. rewrite <- S_INR. replace 64 with (INR 64) by (rewrite INR_IZR_INZ; reflexivity). apply le_INR. lia. }
      destruct NEW as [_ (t1 & _ & t3 & t4 & _ & t6 & t7 & t8 & t9)].
      destruct (HW _ T) as (W1 & W2 & W3 & W4 & W5 & W6 & W7 & W8). destruct (HW 0 ltac:(lra)) as (_ & V2 & V3 & V4 & _ & _ & V7 & V8).
      destruct (bounded_sample cfg g s k s1 D F G P HD HF HG HP HS) as (xl & xr & B1 & B2 & B3 & B4); try exact H.
      * rewrite e11. exact HL.
      * rewrite e12. exact HR.
      * rewrite t1. exact W1.
      * rewrite t3. destruct (mix1_moves cfg g); cbn [b2r]; [replace (1 * c_dmix1 c) with (c_dmix1 c) by ring; exact W2|]. replace (c_mix1 c + (INR k + 1) * (0 * c_dmix1 c)) with (c_mix1 c + 0 * c_dmix1 c) by ring. exact V2.
      * rewrite t4. destruct (mix2_moves cfg g); cbn [b2r]; [replace (1 * c_dmix2 c) with (c_dmix2 c) by ring; exact W3|]. replace (c_mix2 c + (INR k + 1) * (0 * c_dmix2 c)) with (c_mix2 c + 0 * c_dmix2 c) by ring. exact V3.
      * rewrite t6. destruct (two_outputs cfg); [replace ((INR k + 1) * (2 * c_doutl c)) with (2 * (INR k + 1) * c_doutl c) by ring; apply W5; reflexivity|]. replace (1 * c_doutl c) with (c_doutl c) by ring. exact W4.
      * rewrite t7. exact W6.
      * rewrite t8. destruct (two_outputs cfg); cbn [b2r]; [replace (1 * c_dout2l c) with (c_dout2l c) by ring; exact W7|]. replace (c_out2l c + (INR k + 1) * (0 * c_dout2l c)) with (c_out2l c + 0 * c_dout2l c) by ring. exact V7.
      * rewrite t9. destruct (two_outputs cfg); cbn [b2r]; [replace (1 * c_dout2r c) with (c_dout2r c) by ring; exact W8|]. replace (c_out2r c + (INR k + 1) * (0 * c_dout2r c)) with (c_out2r c + 0 * c_dout2r c) by ring. exact V8.
      * exists xl, xr. auto.
    + assert (XX : exists xl xr, q_l s1 = setn (q_l s) k (nth k (q_l s) 0 + xl) /\ q_r s1 = setn (q_r s) k (nth k (q_r s) 0 + xr)).
      { clear - H. revert H. dstate s. dg g; destruct cfg; intros H; qcbv_in H; apply ok_inj in H; subst s1; do 2 eexists; split; reflexivity. }
      destruct XX as (xl & xr & X1 & X2). exists xl, xr. split; [intros; lia|auto].
  - split; [|]; cbn [q_c]; unfold same_static, ramped; cbn [INR]; repeat split; ring.
  - intros k Hk. cbn [q_l q_r] in J. specialize (J k ltac:(lia) ltac:(lia)). rewrite (proj2 (Nat.ltb_lt k 64) Hk) in J.
    destruct J as (xl & xr & Q & J1 & J2). destruct (Q Hk) as [Q1 Q2]. unfold qbound in *. rewrite J1, J2.
    replace (nth k bl 0 + xl - nth k bl 0) with xl by ring. replace (nth k br 0 + xr - nth k br 0) with xr by ring. auto.
Qed.
Print Assumptions C128_feedback_bounded.

(** the hypotheses are met with a hard clipper as shaper, feedback 1000 and moving gain and mixes *)
Example C128_ex : saturating (U := unit) 1 {| fu1ptr := None; fu2ptr := None; wsptr := Some (fun x d => Rmax (-1) (Rmin 1 (x * d))) |} /\
  within Serial2 1 1 (mk_chain tt tt tt tt true 0 1000 1 (1/2) 3 (1/64) 0 0 (1/128) 0 0 0 0 silence silence (1/2) 1 (1/128) 0 0 0 0 0).
Proof.
  split.
  - split; [|split]; cbn; try discriminate. intros f E. injection E as <-. intros x d. unfold Rmax, Rmin.
    apply Rabs_le. destruct (Rle_dec 1 (x * d)); destruct (Rle_dec (-1) _); lra.
  - intros t Ht. cbn. rewrite !Rabs_pos_eq by lra. repeat split; try lra; try discriminate.
Qed.

(* ================= C129: loading a voice into its lane ================= *)

(** Loading a voice into lane e of a quad (parameters, then pan) succeeds exactly for 0 <= e < 4,
    changes no other lane, activates lane e, starts every ramp at the value the voice reached last
    block and aims it at the new value, which the voice remembers. *)
Definition load {U} cfg gain drive feedback balance pan chpan width vol (p : fbp) (c : chain (q4 R) (q4 bool) (q4 U)) (e : Z)
  : res (fbp * chain (q4 R) (q4 bool) (q4 U)) :=
  obind (set_quad cfg gain drive feedback balance p c e) (fun '(p, c) => calc_pan cfg pan chpan width vol p c e).
Theorem C129_load_lane : forall U cfg gain drive feedback balance pan chpan width vol p (c : chain (q4 R) (q4 bool) (q4 U)) e,
  ((0 <= e < 4)%Z -> exists p' c', load cfg gain drive feedback balance pan chpan width vol p c e = Ok (p', c') /\
    (forall j, (0 <= j < 4)%Z -> j <> e -> lane j c' = lane j c) /\
    c_dl c' = c_dl c /\ c_dr c' = c_dr c /\ (c_u0 c', c_u1 c', c_u2 c', c_u3 c') = (c_u0 c, c_u1 c, c_u2 c, c_u3 c) /\
    p_gain p' = gain /\ p_fb p' = feedback /\ p_drive p' = drive /\ (p_mix1 p', p_mix2 p') = filter_mix cfg balance /\
    ((p_outl p', p_outr p') = fst (pan_amps cfg pan chpan width vol)) /\
    (two_outputs cfg = true -> (p_out2l p', p_out2r p') = snd (pan_amps cfg pan chpan width vol)) /\
    let a := lane e c' in
    c_active a = true /\ c_wslpf a = p_wslpf p /\ c_fbl a = p_fbl p /\ c_fbr a = p_fbr p /\
    c_gain a = p_gain p /\ c_gain a + 64 * c_dgain a = p_gain p' /\
    c_drive a = p_drive p /\ c_drive a + 64 * c_ddrive a = p_drive p' /\
    c_feedback a = p_fb p /\ c_feedback a + 64 * c_dfeedback a = p_fb p' /\
    c_mix1 a = p_mix1 p /\ c_mix1 a + 64 * c_dmix1 a = p_mix1 p' /\
    c_mix2 a = p_mix2 p /\ c_mix2 a + 64 * c_dmix2 a = p_mix2 p' /\
    c_outl a = p_outl p /\ c_outl a + 64 * c_doutl a = p_outl p' /\
    c_outr a = p_outr p /\ c_outr a + 64 * c_doutr a = p_outr p' /\
    (two_outputs cfg = true -> c_out2l a = p_out2l p /\ c_out2l a + 64 * c_dout2l a = p_out2l p' /\
       c_out2r a = p_out2r p /\ c_out2r a + 64 * c_dout2r a = p_out2r p')) /\
  (~ (0 <= e < 4)%Z -> load cfg gain drive feedback balance pan chpan width vol p c e = Panic).
Proof.
  intros U cfg gain drive feedback balance pan chpan width vol p c e. unfold load, set_quad, calc_pan.
  destruct (filter_mix cfg balance) as [m1 m2]. destruct (pan_amps cfg pan chpan width vol) as [[al ar] [a2l a2r]].
  split.
  - intros He. assert (HE : e = 0%Z \/ e = 1%Z \/ e = 2%Z \/ e = 3%Z) by lia.
    destruct c as [[] [] [] [] [] [] [] [] [] [] [] [] [] [] [] [] [] [] dl dr [] [] [] [] [] [] [] []].
    destruct HE as [-> | [-> | [-> | ->]]]; destruct (two_outputs cfg); cbn; do 2 eexists; (split; [reflexivity|]); cbn; 
     (split; [intros j Hj Nj; assert (HJ : j = 0%Z \/ j = 1%Z \/ j = 2%Z \/ j = 3%Z) by lia; destruct HJ as [-> | [-> | [-> | ->]]]; try congruence; reflexivity|]);
     unfold os_inv; repeat split; try discriminate; try field; reflexivity.
  - intros He. assert (P : forall X (v : q4 X) x, set1f v e x = Panic).
    { intros X v x. unfold set1f. rewrite !(proj2 (Z.eqb_neq _ _)) by lia. reflexivity. }
    rewrite P. reflexivity.
Qed.
Print Assumptions C129_load_lane.

(** So, block after block, a voice's gain and right pan (and in the one-output configurations its left
    pan) start exactly where the previous block left them: no clicks at block boundaries.  The
    feedback lines and the shaper low-pass survive the round trip through the voice as well. *)
Theorem C129_no_clicks : forall U cfg gn1 d1 fb1 b1 pan1 ch1 w1 v1 gn2 d2 fb2 b2 pan2 ch2 w2 v2 p (c : chain (q4 R) (q4 bool) (q4 U)) e p1 c1 g s1 c1' ps (c2 : chain (q4 R) (q4 bool) (q4 U)) e2 p2 c3,
  (0 <= e < 4)%Z -> (0 <= e2 < 4)%Z ->
  (* load the voice into lane e, process the block, read the lane back *)
  load cfg gn1 d1 fb1 b1 pan1 ch1 w1 v1 p c e = Ok (p1, c1) ->
  block1 cfg g (mk_qst (lane e c1) silence silence) = Ok s1 ->
  lane e c1' = q_c s1 -> sync_lines p1 c1' e = Ok ps ->
  (* load it into any lane of any quad for the next block, with any new parameters *)
  load cfg gn2 d2 fb2 b2 pan2 ch2 w2 v2 ps c2 e2 = Ok (p2, c3) ->
  c_gain (lane e2 c3) = c_gain (q_c s1) /\ c_outr (lane e2 c3) = c_outr (q_c s1) /\
  (two_outputs cfg = false -> c_outl (lane e2 c3) = c_outl (q_c s1)) /\
  (two_outputs cfg = true -> c_out2l (lane e2 c3) = c_out2l (q_c s1) /\ c_out2r (lane e2 c3) = c_out2r (q_c s1)) /\
  c_fbl (lane e2 c3) = c_fbl (q_c s1) /\ c_fbr (lane e2 c3) = c_fbr (q_c s1) /\ c_wslpf (lane e2 c3) = c_wslpf (q_c s1).
Proof.
  intros U cfg gn1 d1 fb1 b1 pan1 ch1 w1 v1 gn2 d2 fb2 b2 pan2 ch2 w2 v2 p c e p1 c1 g s1 c1' ps c2 e2 p2 c3 He He2 L1 B1 E1 SY L2.
  destruct (proj1 (C129_load_lane U cfg gn1 d1 fb1 b1 pan1 ch1 w1 v1 p c e) He) as (p1' & c1'' & L1' & _ & _ & _ & _ & _ & _ & _ & _ & _ & _ & A).
  rewrite L1 in L1'. apply ok_inj in L1'. injection L1' as <- <-. cbv zeta in A.
  destruct A as (_ & _ & _ & _ & a1 & a2 & _ & _ & _ & _ & _ & _ & _ & _ & a3 & a4 & a5 & a6 & a7).
  destruct (proj1 (C129_load_lane U cfg gn2 d2 fb2 b2 pan2 ch2 w2 v2 ps c2 e2) He2) as (p2' & c3' & L2' & _ & _ & _ & _ & _ & _ & _ & _ & _ & _ & B).
  rewrite L2 in L2'. apply ok_inj in L2'. injection L2' as <- <-. cbv zeta in B.
  destruct B as (_ & z1 & z2 & z3 & z4 & _ & _ & _ & _ & _ & _ & _ & _ & _ & z5 & _ & z6 & _ & z7).
  pose proof (C125_ramps U cfg g _ _ B1) as Rr. cbv zeta in Rr. cbn [q_c] in Rr. destruct Rr as (r1 & _ & _ & _ & _ & r2 & r3 & r4 & _).
  assert (SP : p_gain ps = p_gain p1 /\ p_outl ps = p_outl p1 /\ p_outr ps = p_outr p1 /\ p_out2l ps = p_out2l p1 /\ p_out2r ps = p_out2r p1 /\
     p_wslpf ps = c_wslpf (lane (U := U) e c1') /\ p_fbl ps = c_fbl (lane (U := U) e c1') /\ p_fbr ps = c_fbr (lane (U := U) e c1')).
  { unfold sync_lines, get1f in SY. assert (HE : e = 0%Z \/ e = 1%Z \/ e = 2%Z \/ e = 3%Z) by lia.
    destruct HE as [-> | [-> | [-> | ->]]]; cbn in SY; apply ok_inj in SY; subst ps; repeat split; reflexivity. }
  destruct SP as (q1 & q2 & q3 & qq4 & q5 & q6 & q7 & q8). rewrite E1 in q6, q7, q8.
  rewrite z1, z2, z3, z4, z6, q1, q3, q6, q7, q8. 
  split; [rewrite r1; lra|]. split; [rewrite r2; lra|].
  split. { intros T. destruct r3 as (r3 & _); [destruct cfg; discriminate T || congruence..|]. rewrite z5, q2, r3. lra. }
  split. { intros T. destruct (a7 T) as (b1' & b2' & b3 & b4). destruct (z7 T) as (y1 & _ & y2 & _). destruct r4 as (r4 & r5); [destruct cfg; try discriminate T; auto|].
    rewrite y1, y2, qq4, q5, r4, r5. split; lra. }
  auto.
Qed.
Print Assumptions C129_no_clicks.

(** FINDING.  In the two-output configurations the left pan does jump: the next block starts it at the
    target, while the previous block ended it as far beyond the target as it had started before. *)
Theorem C129_left_pan_clicks_refuted : forall U cfg gn1 d1 fb1 b1 pan1 ch1 w1 v1 gn2 d2 fb2 b2 pan2 ch2 w2 v2 p (c : chain (q4 R) (q4 bool) (q4 U)) e p1 c1 g s1 ps (c2 : chain (q4 R) (q4 bool) (q4 U)) e2 p2 c3,
  (0 <= e < 4)%Z -> (0 <= e2 < 4)%Z -> two_outputs cfg = true ->
  load cfg gn1 d1 fb1 b1 pan1 ch1 w1 v1 p c e = Ok (p1, c1) ->
  block1 cfg g (mk_qst (lane e c1) silence silence) = Ok s1 ->
  p_outl ps = p_outl p1 -> load cfg gn2 d2 fb2 b2 pan2 ch2 w2 v2 ps c2 e2 = Ok (p2, c3) ->
  c_outl (lane e2 c3) - c_outl (q_c s1) = p_outl p - p_outl p1.
Proof.
  intros U cfg gn1 d1 fb1 b1 pan1 ch1 w1 v1 gn2 d2 fb2 b2 pan2 ch2 w2 v2 p c e p1 c1 g s1 ps c2 e2 p2 c3 He He2 T L1 B1 SY L2.
  destruct (proj1 (C129_load_lane U cfg gn1 d1 fb1 b1 pan1 ch1 w1 v1 p c e) He) as (p1' & c1'' & L1' & _ & _ & _ & _ & _ & _ & _ & _ & _ & _ & A).
  rewrite L1 in L1'. apply ok_inj in L1'. injection L1' as <- <-. cbv zeta in A.
  destruct A as (_ & _ & _ & _ & a1 & a2 & _ & _ & _ & _ & _ & _ & _ & _ & a3 & a4 & a5 & a6 & a7).
  destruct (proj1 (C129_load_lane U cfg gn2 d2 fb2 b2 pan2 ch2 w2 v2 ps c2 e2) He2) as (p2' & c3' & L2' & _ & _ & _ & _ & _ & _ & _ & _ & _ & _ & B).
  rewrite L2 in L2'. apply ok_inj in L2'. injection L2' as <- <-. cbv zeta in B.
  destruct B as (_ & z1 & z2 & z3 & z4 & _ & _ & _ & _ & _ & _ & _ & _ & _ & z5 & _).
  destruct (C125_left_pan_overshoots_refuted U cfg g _ _ ltac:(destruct cfg; try discriminate T; auto) B1) as [r _]. cbn [q_c] in r. rewrite z5, SY, r. lra.
Qed.
Print Assumptions C129_left_pan_clicks_refuted.

(** the hypotheses are met: a wide voice moved from centre to the left clicks by a quarter of its level *)
Example C129_clicks_ex : exists cfg (p : fbp), two_outputs cfg = true /\
  p_outl p - fst (fst (pan_amps cfg (-1) 0 0 1)) <> 0.
Proof.
  exists Wide, (mk_fbp 0 0 0 0 0 0 0 0 0 0 0 0). split; [reflexivity|]. cbn. unfold limit1, megapan_left, megapan_clip, voice_amp, lit. cbn.
  rewrite (Rmin_right 1 (-1 + 0)) by lra. rewrite (Rmax_right (-1) (-1 + 0)) by lra. rewrite (Rmax_left 1 0) by lra.
  repeat (destruct (Rlt_dec _ _); try lra).
Qed.

(* ================= C130: balance and pan laws ================= *)

(** For every balance in [-1,1] both mixes lie in [0,1]; the full left / right balance selects exactly
    one path; dual and stereo mixes always sum to 1, serial, ring and wide mixes are both 1 at centre. *)
Theorem C130_balance : forall cfg b, 
  (-1 <= b <= 1 -> 0 <= fst (filter_mix cfg b) <= 1 /\ 0 <= snd (filter_mix cfg b) <= 1) /\
  filter_mix cfg (-1) = (1, 0) /\ filter_mix cfg 1 = (0, 1) /\
  (cfg = Dual1 \/ cfg = Dual2 \/ cfg = Stereo -> fst (filter_mix cfg b) + snd (filter_mix cfg b) = 1) /\
  (cfg <> Dual1 -> cfg <> Dual2 -> cfg <> Stereo -> filter_mix cfg 0 = (1, 1)) /\
  (forall b', b <= b' -> fst (filter_mix cfg b') <= fst (filter_mix cfg b) /\ snd (filter_mix cfg b) <= snd (filter_mix cfg b')).
Proof.
  intros cfg b. unfold filter_mix. 
  assert (M : forall x y, Rmin x y <= x /\ Rmin x y <= y /\ (Rmin x y = x \/ Rmin x y = y)) by (intros x y; unfold Rmin; destruct (Rle_dec x y); lra).
  split. { intros Hb. pose proof (M 1 (1 - b)). pose proof (M 1 (1 + b)). destruct cfg; cbn [fst snd]; lra. }
  split. { destruct cfg; f_equal; try lra; unfold Rmin; destruct (Rle_dec _ _); lra. }
  split. { destruct cfg; f_equal; try lra; unfold Rmin; destruct (Rle_dec _ _); lra. }
  split. { intros [-> | [-> | ->]]; cbn [fst snd]; lra. }
  split. { intros A B C. destruct cfg; try congruence; f_equal; unfold Rmin; destruct (Rle_dec _ _); lra. }
  intros b' H. pose proof (M 1 (1 - b)). pose proof (M 1 (1 + b)). pose proof (M 1 (1 - b')). pose proof (M 1 (1 + b')).
  destruct cfg; cbn [fst snd]; split; try lra; unfold Rmin; repeat destruct (Rle_dec _ _); lra.
Qed.
Print Assumptions C130_balance.

(** FINDING.  MIDI channel pan moves only the first of the two buses of a stereo or wide voice: the
    second bus's levels are the same for every channel pan. *)
Theorem C130_channel_pan_second_bus_refuted : forall cfg pan ch ch' width vol,
  snd (pan_amps cfg pan ch width vol) = snd (pan_amps cfg pan ch' width vol).
Proof. intros. destruct cfg; reflexivity. Qed.
Print Assumptions C130_channel_pan_second_bus_refuted.

(** One-output voices: the two levels are never negative, their sum is at most twice and their larger
    never above the voice level; hard left (or any channel pan beyond it) silences the right side. *)
Theorem C130_pan_levels : forall cfg pan ch width vol, two_outputs cfg = false ->
  let '(l, r) := fst (pan_amps cfg pan ch width vol) in let amp := voice_amp cfg vol in
  0 <= amp /\ 0 <= l <= 25 / 16 * amp /\ 0 <= r <= 25 / 16 * amp /\ l + r <= 2 * amp /\
  (pan + ch <= -1 -> r = 0) /\ (1 <= pan + ch -> l = 0) /\ (pan + ch = 0 -> l = amp /\ r = amp) /\ (vol <= 0 -> l = 0 /\ r = 0).
Proof.
  intros cfg pan ch width vol T.
  assert (E : fst (pan_amps cfg pan ch width vol) = (voice_amp cfg vol * megapan_left arithR (limit1 (pan + ch)), voice_amp cfg vol * megapan_right arithR (limit1 (pan + ch)))) by (destruct cfg; try discriminate T; reflexivity).
  rewrite E. cbv zeta.
  assert (A0 : 0 <= voice_amp cfg vol). { unfold voice_amp. assert (0 <= Rmax vol 0) by apply Rmax_r. assert (0 <= Rmax vol 0 * Rmax vol 0 * Rmax vol 0) by (apply Rmult_le_pos; [apply Rmult_le_pos|]; assumption). destruct cfg; lra. }
  assert (AV : vol <= 0 -> voice_amp cfg vol = 0). { intros V. unfold voice_amp. rewrite Rmax_right by lra. destruct cfg; lra. }
  set (amp := voice_amp cfg vol) in *. clearbody amp.
  assert (LB : -1 <= limit1 (pan + ch) <= 1) by (unfold limit1, Rmax, Rmin; destruct (Rle_dec 1 _); destruct (Rle_dec (-1) _); lra).
  assert (L1 : pan + ch <= -1 -> limit1 (pan + ch) = -1) by (intros; unfold limit1; rewrite Rmin_right by lra; rewrite Rmax_left; lra).
  assert (L2 : 1 <= pan + ch -> limit1 (pan + ch) = 1) by (intros; unfold limit1; rewrite Rmin_left by lra; rewrite Rmax_right; lra).
  assert (L3 : pan + ch = 0 -> limit1 (pan + ch) = 0) by (intros ->; unfold limit1; rewrite Rmin_right by lra; rewrite Rmax_right; lra).
  set (q := limit1 (pan + ch)) in *. clearbody q.
  assert (C : megapan_left arithR q = (1 - q) * (4 + q) / 4 /\ megapan_right arithR q = (1 + q) * (4 - q) / 4).
  { unfold megapan_left, megapan_right, megapan_clip, lit. cbn [ar_lt ar_lit ar_mul ar_sub ar_add arithR]. 
    destruct (Rlt_dec (2 / 1) q); [lra|]. destruct (Rlt_dec q (-2 / 1)); [lra|]. split; field. }
  destruct C as [-> ->].
  assert (P1 : 0 <= (1 - q) * (4 + q) / 4 <= 25 / 16) by (split; nra). assert (P2 : 0 <= (1 + q) * (4 - q) / 4 <= 25 / 16) by (split; nra).
  assert (P3 : (1 - q) * (4 + q) / 4 + (1 + q) * (4 - q) / 4 <= 2) by nra.
  split; [exact A0|]. split; [nra|]. split; [nra|]. split; [nra|].
  split. { intros H. rewrite (L1 H). field. } split. { intros H. rewrite (L2 H). field. }
  split. { intros H. rewrite (L3 H). split; field. } intros H. rewrite (AV H). split; ring.
Qed.
Print Assumptions C130_pan_levels.
