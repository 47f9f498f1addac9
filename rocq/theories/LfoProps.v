(* LfoProps.v - C44 the LFO's envelope, C86 its phase and waveforms, C87 its step sequencer, C88 its trigger modes. *)
From Coq Require Import Reals Lra.
From Verif Require Import Base Util F32 BlockModel MathModel ParamModel AdsrModel LfoModel.
Local Open Scope Z_scope.

Lemma bind_ok {A B} (m : res A) (k : A -> res B) b : obind m k = Ok b -> exists a, m = Ok a /\ k a = Ok b.
Proof. destruct m; cbn; try discriminate. eauto. Qed.
Ltac bnd H := let a := fresh "x" in let E := fresh "E" in apply bind_ok in H as (a & E & H).
Lemma pvalf_inv p x : pvalf p = Ok x -> p = PFloat x. Proof. destruct p; cbn; congruence. Qed.
Lemma pvali_inv p x : pvali p = Ok x -> p = PInt x. Proof. destruct p; cbn; congruence. Qed.
Lemma pvalb_inv p x : pvalb p = Ok x -> p = PBool x. Proof. destruct p; cbn; congruence. Qed.

(* ---------- the phase wrapping loops terminate ---------- *)
Lemma floor_shift x : Int_part (x + 1) = Int_part x + 1.
Proof. destruct (base_Int_part x). unfold Int_part at 1. rewrite <- (tech_up (x + 1) (Int_part x + 1 + 1)); rewrite ?plus_IZR; lra || lia. Qed.
Lemma wrap01_up p : (p < 0)%R -> wrap01 (p + 1) = wrap01 p.
Proof.
  intros H. unfold wrap01. destruct (Rlt_dec p 0); [|lra]. destruct (Rlt_dec (p + 1) 0).
  - rewrite floor_shift, plus_IZR. lra.
  - destruct (Rlt_dec 1 (p + 1)); [lra|]. destruct (base_Int_part p). assert (Int_part p = -1).
    { assert (-2 < Int_part p < 0); [|lia]. split; apply lt_IZR; lra. } rewrite H2. lra.
Qed.
Lemma wrap01_down p : (1 < p)%R -> wrap01 (p - 1) = wrap01 p.
Proof.
  intros H. unfold wrap01. destruct (Rlt_dec p 0); [lra|]. destruct (Rlt_dec 1 p); [|lra]. destruct (Rlt_dec (p - 1) 0); [lra|].
  destruct (Rlt_dec 1 (p - 1)).
  - replace (- (p - 1))%R with (- p + 1)%R by lra. rewrite floor_shift, plus_IZR. lra.
  - destruct (base_Int_part (- p)). assert (Int_part (- p) = -2).
    { assert (-3 < Int_part (- p) < -1); [|lia]. split; apply lt_IZR; lra. } rewrite H2. lra.
Qed.
Lemma wrap_loop_fuel n : forall p, (- INR n <= p <= INR n + 1)%R -> wrap_loop (S n) p = Some (wrap01 p).
Proof.
  induction n as [|n IH]; intros p H.
  - change (INR 0) with 0%R in H. cbn. unfold wrap01. destruct (Rlt_dec p 0); [lra|]. destruct (Rlt_dec 1 p); [lra|reflexivity].
  - rewrite S_INR in H. cbn [wrap_loop]. destruct (Rlt_dec p 0).
    + change (wrap_loop (S n) (p + 1) = Some (wrap01 p)). rewrite IH; [now rewrite wrap01_up|assert (0 <= INR n)%R by apply pos_INR; lra].
    + destruct (Rlt_dec 1 p).
      * change (wrap_loop (S n) (p - 1) = Some (wrap01 p)). rewrite IH; [now rewrite wrap01_down|assert (0 <= INR n)%R by apply pos_INR; lra].
      * unfold wrap01. destruct (Rlt_dec p 0); [lra|]. destruct (Rlt_dec 1 p); [lra|reflexivity].
Qed.
Lemma wrap01_range p : (0 <= wrap01 p <= 1)%R.
Proof.
  unfold wrap01. destruct (Rlt_dec p 0); [destruct (base_Int_part p); lra|]. destruct (Rlt_dec 1 p); [|lra]. destruct (base_Int_part (- p)). lra.
Qed.
Lemma wrap01_int p : exists k : Z, wrap01 p = (p + IZR k)%R.
Proof.
  unfold wrap01. destruct (Rlt_dec p 0); [exists (- Int_part p); rewrite opp_IZR; lra|].
  destruct (Rlt_dec 1 p); [exists (Int_part (- p) + 1); rewrite plus_IZR; lra|exists 0; lra].
Qed.

(* ---------- what one block does ---------- *)
Definition started (e : lenv) (s s0 : lfo) : Prop :=
  (f_init s = true /\ s0 = s) \/ (f_init s = false /\ exists sp, l_start e = PFloat sp /\ s0 = lf_phase s true (wrap01 sp)).
Lemma start_inv e s s0 : (if f_init s then Ok s else obind (pvalf (l_start e)) (fun sp => Ok (lf_phase s true (wrap01 sp)))) = Ok s0 -> started e s s0.
Proof.
  unfold started. destruct (f_init s); intros H; [injection H as <-; auto|]. bnd H. injection H as <-. right. split; [reflexivity|].
  exists x. split; [now apply pvalf_inv|reflexivity].
Qed.
Definition advanced (s0 : lfo) (rate : R) : lfo := lf_phase (lf_retrig s0 false false) (f_init s0) (f_phase s0 + rate * f_ratemult s0).
Lemma process_inv e s r s' : lfo_process e s r = Ok s' -> exists s0 sh rate s3 s4 s5 uni mag,
  started e s s0 /\ get_shape e = Ok sh /\ lfo_get_rate e = Ok rate /\
  ((f_state s0 = LStuck /\ s3 = advanced s0 rate) \/ (f_state s0 <> LStuck /\ update_envelope e (advanced s0 rate) = Ok s3)) /\
  (((1 < f_phase s3)%R /\ update_for_phase_over_one e s3 sh r = Ok s4) \/ ((f_phase s3 <= 1)%R /\ s4 = s3)) /\
  process_shape e s4 sh = Ok s5 /\ l_uni e = PBool uni /\ l_mag e = PFloat mag /\
  s' = lf_out s5 (f_envval s5 * mag * (if uni && (match sh with LsStepSequencer => false | _ => true end) then 1 / 2 + 1 / 2 * f_iout s5 else f_iout s5))%R (f_iout s5).
Proof.
  unfold lfo_process. intros H. bnd H. bnd H. bnd H. cbv zeta in H. bnd H. bnd H. bnd H. bnd H. bnd H. injection H as <-.
  exists x, x0, x1, x2, x3, x4, x5, x6. split; [now apply start_inv|]. split; [assumption|]. split; [assumption|].
  split. { change (f_state (lf_phase _ _ _)) with (f_state x) in E2. change (lf_phase _ _ _) with (advanced x x1) in E2.
    destruct (f_state x); try (right; split; [discriminate|assumption]). left. injection E2 as <-. auto. }
  split. { destruct (Rlt_dec 1 (f_phase x2)); [left; auto|right]. injection E3 as <-. split; [lra|reflexivity]. }
  split; [assumption|]. split; [now apply pvalb_inv|]. split; [now apply pvalf_inv|reflexivity].
Qed.

(* ---------- the envelope ---------- *)
Definition envof (s : lfo) : lstate * R * R * R := (f_state s, f_envval s, f_envphase s, f_relstart s).
Definition restof (s : lfo) := (f_init s, f_phase s, f_ratemult s, f_step s, f_shuffle s, (f_h0 s, f_h1 s, f_h2 s, f_h3 s), (f_feg s, f_aeg s), (f_target s, f_noised1 s, f_iout s)).
Lemma env_rest e s s' : update_envelope e s = Ok s' -> restof s' = restof s.
Proof.
  unfold update_envelope. intros H. bnd H. bnd H. injection H as <-. cbv zeta. destruct (Rlt_dec 1 _); [|reflexivity].
  unfold next_env_state, update_envelope_value. cbn. destruct (f_state s); reflexivity.
Qed.
Lemma over_env e s sh r s' : update_for_phase_over_one e s sh r = Ok s' -> envof s' = envof s.
Proof.
  unfold update_for_phase_over_one, stepseq_over_one. cbv zeta. destruct sh; intros H; repeat bnd H; injection H as <-; try reflexivity.
  all: destruct x, x0, x1; reflexivity.
Qed.
Lemma shape_frame e s sh s' : process_shape e s sh = Ok s' -> exists v, s' = lf_out s (f_output s) v.
Proof.
  unfold process_shape. destruct sh; intros H; repeat bnd H; injection H as <-; eauto.
  exists (f_iout s). destruct s; reflexivity.
Qed.
Lemma started_env e s s0 : started e s s0 -> envof s0 = envof s.
Proof. intros [[_ ->]|(_ & sp & _ & ->)]; reflexivity. Qed.
(* the envelope after a block, as a function of the envelope before it *)
Definition env_next (ev : lstate * R * R * R) (rate : R) (su : Z) : lstate * R * R * R :=
  let '(st, v, p, rel) := ev in
  let val st v p := (match st with LDelay => 0 | LAttack => p | LHold => 1 | LDecay => (1 - p) + p * IZR su | LRelease => (1 - p) + rel | _ => v end)%R in
  if Rlt_dec 1 (p + rate) then
    match st with
    | LDelay => (LAttack, 0%R, 0%R, rel) | LAttack => (LHold, 1%R, 0%R, rel) | LHold => (LDecay, 1%R, 0%R, rel)
    | LDecay => (LStuck, IZR su, 0%R, rel) | LRelease => (LStuck, 0%R, 0%R, rel) | _ => (st, v, (p + rate)%R, rel) end
  else (st, val st v (p + rate)%R, (p + rate)%R, rel).
Lemma update_env_next e s s' : update_envelope e s = Ok s' -> exists rate su,
  calculate_envrate e (f_state s) = Ok rate /\ l_sustain e = PInt su /\ envof s' = env_next (envof s) rate su.
Proof.
  unfold update_envelope. intros H. bnd H. bnd H. exists x, x0. split; [assumption|]. split; [now apply pvali_inv|]. injection H as <-.
  cbv zeta. unfold env_next, envof. cbn [f_envphase lf_env]. destruct (Rlt_dec 1 (f_envphase s + x)).
  - unfold next_env_state, update_envelope_value. cbn. destruct (f_state s); cbn; try reflexivity. do 3 f_equal. lra.
  - unfold update_envelope_value. cbn. destruct (f_state s); reflexivity.
Qed.
Lemma process_env e s r s' : lfo_process e s r = Ok s' ->
  (f_state s = LStuck /\ envof s' = envof s) \/
  (f_state s <> LStuck /\ exists rate su, calculate_envrate e (f_state s) = Ok rate /\ l_sustain e = PInt su /\ envof s' = env_next (envof s) rate su).
Proof.
  intros H. apply process_inv in H as (s0 & sh & rate & s3 & s4 & s5 & uni & mag & S0 & _ & _ & E3 & E4 & E5 & _ & _ & ->).
  apply started_env in S0. apply shape_frame in E5 as [v ->].
  assert (X : envof s4 = envof s3) by (destruct E4 as [[_ E4]|[_ ->]]; [now apply over_env in E4|reflexivity]).
  assert (ST : f_state s0 = f_state s) by (unfold envof in S0; congruence).
  change (envof (lf_out _ _ _)) with (envof s4). rewrite X. destruct E3 as [[A ->]|[A U]].
  - left. split; [congruence|exact S0].
  - right. split; [congruence|]. apply update_env_next in U as (rt & su & R1 & R2 & R3). exists rt, su.
    change (f_state (advanced s0 rate)) with (f_state s0) in R1. change (envof (advanced s0 rate)) with (envof s0) in R3. rewrite S0 in R3. rewrite ST in R1. auto.
Qed.

(* things that happen to an LFO, with the parameters in force then *)
Inductive levent := LvBlock (e : lenv) (r : R) | LvAttack (e : lenv) (r1 r2 d1 d2 d3 d4 : R) | LvRelease (e : lenv).
Definition lstep (s : lfo) (ev : levent) : res lfo :=
  match ev with
  | LvBlock e r => lfo_process e s r
  | LvAttack e r1 r2 d1 d2 d3 d4 => lfo_attack e s r1 r2 d1 d2 d3 d4
  | LvRelease e => lfo_release e s
  end.
Definition event_env (ev : levent) : lenv := match ev with LvBlock e _ => e | LvAttack e _ _ _ _ _ _ => e | LvRelease e => e end.
(* rates are not negative and the sustain level is 0 or 1 (the parameter is an integer) *)
Definition sane (e : lenv) : Prop := (forall x, (0 <= l_table e x)%R) /\ (0 <= l_ratio e)%R /\ (forall n, l_sustain e = PInt n -> n = 0 \/ n = 1).
Lemma rate_nonneg e st rate : sane e -> calculate_envrate e st = Ok rate -> (0 <= rate)%R.
Proof.
  intros (T & Q & _) H. unfold calculate_envrate in H. assert (P : forall x, (0 <= (if l_sync e st then l_table e x * l_ratio e else l_table e x))%R).
  { intros x. destruct (l_sync e st); [apply Rmult_le_pos; auto|auto]. }
  destruct st; try (injection H as <-; lra); bnd H; injection H as <-; apply P.
Qed.
Definition attack_states (st : lstate) : Prop := st = LDelay \/ st = LAttack \/ st = LHold \/ st = LDecay.
Lemma attack_env_spec e s r1 r2 d1 d2 d3 d4 s' : lfo_attack e s r1 r2 d1 d2 d3 d4 = Ok s' ->
  attack_states (f_state s') /\ f_envphase s' = 0%R /\ f_envval s' = (match f_state s' with LHold | LDecay => 1 | _ => 0 end)%R.
Proof.
  unfold lfo_attack. intros H. bnd H. cbv zeta in H. do 7 bnd H. bnd H. bnd H.
  assert (A : attack_states (f_state x7) /\ f_envphase x7 = 0%R /\ f_envval x7 = (match f_state x7 with LHold | LDecay => 1 | _ => 0 end)%R).
  { unfold attack_env in E7. bnd E7. destruct (Rlt_dec _ _); [|injection E7 as <-; unfold attack_states; cbn; auto].
    cbv zeta in E7. bnd E7. destruct (Rlt_dec _ _); [|injection E7 as <-; unfold attack_states; cbn; auto].
    bnd E7. injection E7 as <-. destruct (Rlt_dec _ _); unfold attack_states; cbn; auto. }
  assert (B : envof x8 = envof x7).
  { unfold attack_phase_step in E8. destruct x2; cbv zeta in E8.
    - destruct (_ && _); [|discriminate]. destruct (_ <? _); [discriminate|]. injection E8 as <-. reflexivity.
    - injection E8 as <-. reflexivity.
    - destruct (_ =? _); [discriminate|]. injection E8 as <-. reflexivity. }
  assert (C : envof s' = envof x8).
  { unfold attack_shape, attack_stepseq in H. destruct x1; cbv zeta in H; repeat bnd H; try (injection H as <-; reflexivity).
    destruct x1; injection H as <-; reflexivity. }
  rewrite B in C. unfold envof in C. assert (f_state s' = f_state x7 /\ f_envval s' = f_envval x7 /\ f_envphase s' = f_envphase x7) as (-> & -> & ->) by (repeat split; congruence). exact A.
Qed.

(** ** C44 *)
(* As long as it is not released, the envelope of an LFO stays within [0,1] through every history of triggers and blocks. *)
Definition held (s : lfo) : Prop := f_state s <> LRelease /\ (0 <= f_envval s <= 1)%R /\ (0 <= f_envphase s)%R.
Lemma held_step s ev s' : held s -> sane (event_env ev) -> (forall e, ev <> LvRelease e) -> lstep s ev = Ok s' -> held s'.
Proof.
  intros (HS & HV & HP) SA NR H. destruct ev as [e r|e r1 r2 d1 d2 d3 d4|e]; cbn [lstep event_env] in *; [| |now elim (NR e)].
  - apply process_env in H as [(S & E)|(NS & rate & su & R1 & R2 & E)].
    + unfold envof in E. unfold held. assert (f_state s' = f_state s /\ f_envval s' = f_envval s /\ f_envphase s' = f_envphase s) as (-> & -> & ->) by (repeat split; congruence). auto.
    + assert (P := rate_nonneg _ _ _ SA R1). destruct SA as (_ & _ & SU). apply SU in R2.
      assert (SUR : (0 <= IZR su <= 1)%R) by (destruct R2 as [->| ->]; lra).
      unfold env_next, envof in E. unfold held. destruct (Rlt_dec 1 (f_envphase s + rate)) as [G|G]; destruct (f_state s); try congruence;
        injection E as E1 E2 E3 E4; rewrite E1, E2, E3; repeat split; try discriminate; try lra; try nra.
  - apply attack_env_spec in H as (A & B & C). unfold held. rewrite B, C. destruct A as [A|[A|[A|A]]]; rewrite A; repeat split; try discriminate; lra.
Qed.
Theorem C44_held_range_partial : forall evs s', Forall (fun ev => sane (event_env ev) /\ forall e, ev <> LvRelease e) evs ->
  foldM lstep evs lfo_new = Ok s' -> (0 <= f_envval s' <= 1)%R.
Proof.
  assert (G : forall evs s s', held s -> Forall (fun ev => sane (event_env ev) /\ forall e, ev <> LvRelease e) evs -> foldM lstep evs s = Ok s' -> held s').
  { induction evs as [|ev evs IH]; intros s s' HS F H; [injection H as <-; exact HS|]. inversion F as [|? ? (F1 & F2) F3]. subst. cbn in H. bnd H.
    eapply IH; [|eassumption|eassumption]. eapply held_step; eassumption. }
  intros evs s' F H. destruct (G evs lfo_new s') as (_ & V & _); auto. unfold held; cbn. repeat split; try discriminate; lra.
Qed.

(* n blocks with the same settings *)
Fixpoint lblocks (n : nat) (e : lenv) (r : nat -> R) (s : lfo) : res lfo :=
  match n with O => Ok s | S k => obind (lblocks k e r s) (fun s1 => lfo_process e s1 (r k)) end.
(* the level n blocks into a stage that proceeds by `rate` per block; rel is the level at which the release started *)
Definition stage_level (st : lstate) (su rel x : R) : R :=
  (match st with LDelay => 0 | LAttack => x | LHold => 1 | LDecay => (1 - x) + x * su | LRelease => (1 - x) + rel | _ => 0 end)%R.
Definition after (st : lstate) : lstate := match st with LDelay => LAttack | LAttack => LHold | LHold => LDecay | _ => LStuck end.
Definition level_after (st : lstate) (su : R) : R := (match st with LDelay => 0 | LAttack => 1 | LHold => 1 | LDecay => su | _ => 0 end)%R.
(* A stage entered with rate > 0 lasts exactly while n * rate <= 1, at the documented level, and is then followed by the next
   stage at its initial level: delay 0, attack rising to 1, hold 1, decay to sustain, then stuck there. *)
Theorem C44_stages : forall e s rate su n r s', f_state s <> LOff -> f_state s <> LStuck -> f_envphase s = 0%R ->
  calculate_envrate e (f_state s) = Ok rate -> (0 < rate)%R -> l_sustain e = PInt su -> (1 <= n)%nat -> (INR (n - 1) * rate <= 1)%R ->
  lblocks n e r s = Ok s' ->
  ((INR n * rate <= 1)%R -> f_state s' = f_state s /\ f_envval s' = stage_level (f_state s) (IZR su) (f_relstart s) (INR n * rate)) /\
  ((1 < INR n * rate)%R -> f_state s' = after (f_state s) /\ f_envval s' = level_after (f_state s) (IZR su) /\ f_envphase s' = 0%R).
Proof.
  intros e s rate su n r s' NO NS P0 CR RP SU N1 NR H.
  assert (G : forall m sm, (INR m * rate <= 1)%R -> lblocks m e r s = Ok sm ->
     f_state sm = f_state s /\ f_envphase sm = (INR m * rate)%R /\ f_relstart sm = f_relstart s /\ ((1 <= m)%nat -> f_envval sm = stage_level (f_state s) (IZR su) (f_relstart s) (INR m * rate))).
  { induction m as [|m IH]; intros sm B E.
    - injection E as <-. change (INR 0) with 0%R. rewrite P0. repeat split; try lra. lia.
    - cbn [lblocks] in E. bnd E. rewrite S_INR in B. destruct (IH x) as (I1 & I2 & I3 & I4); [nra|assumption|].
      apply process_env in E as [(A & _)|(_ & rt & su' & C1 & C2 & C3)]; [congruence|]. rewrite I1 in C1. rewrite CR in C1. injection C1 as <-.
      rewrite SU in C2. injection C2 as <-. unfold env_next, envof in C3. rewrite I1, I2, I3 in C3.
      destruct (Rlt_dec 1 (INR m * rate + rate)); [lra|]. rewrite S_INR. replace ((INR m + 1) * rate)%R with (INR m * rate + rate)%R by lra.
      injection C3 as -> -> -> ->. repeat split. intros _. destruct (f_state s); try reflexivity; congruence. }
  split; intros B.
  - destruct (G n s' B H) as (G1 & _ & _ & G4). auto.
  - destruct n as [|m]; [lia|]. replace (S m - 1)%nat with m in NR by lia. cbn [lblocks] in H. bnd H. destruct (G m x NR E) as (G1 & G2 & G3 & _).
    apply process_env in H as [(A & _)|(_ & rt & su' & C1 & C2 & C3)]; [congruence|]. rewrite G1 in C1. rewrite CR in C1. injection C1 as <-.
    rewrite SU in C2. injection C2 as <-. unfold env_next, envof in C3. rewrite G1, G2, G3 in C3. rewrite S_INR in B.
    destruct (Rlt_dec 1 (INR m * rate + rate)); [|lra]. destruct (f_state s); try congruence; injection C3 as D1 D2 D3 D4; rewrite D1, D2, D3; auto.
Qed.
(* Once stuck it stays at its level until the next trigger. *)
Theorem C44_stuck : forall n e r s s', f_state s = LStuck -> lblocks n e r s = Ok s' -> f_state s' = LStuck /\ f_envval s' = f_envval s.
Proof.
  induction n as [|n IH]; intros e r s s' S H; [injection H as <-; auto|]. cbn [lblocks] in H. bnd H. destruct (IH e r s x S E) as [A B].
  apply process_env in H as [(_ & C)|(N & _)]; [|congruence]. unfold envof in C. split; congruence.
Qed.
(* Every trigger restarts the envelope; a stage whose time is at its minimum is skipped. *)
Theorem C44_trigger : forall e s r1 r2 d1 d2 d3 d4 s', lfo_attack e s r1 r2 d1 d2 d3 d4 = Ok s' ->
  f_envphase s' = 0%R /\ exists st, attack_states st /\ f_state s' = st /\ f_envval s' = (match st with LHold | LDecay => 1 | _ => 0 end)%R.
Proof. intros * H. apply attack_env_spec in H as (A & B & C). split; [exact B|]. exists (f_state s'). auto. Qed.
(* REFUTED: after release at level v (release rate r < 1 per block) the level jumps up to 1 - r + v - above v, and above 1
   whenever r < v - and after n blocks it is 1 - n r + v; at the end it jumps from at least v to 0. *)
Theorem C44_release_refuted : forall e s rate su v n r s1 s', lfo_release e s = Ok s1 -> f_envval s = v ->
  (forall x y, l_release e = PFloat x -> l_release_max e = PFloat y -> (x < y)%R) -> (forall x, calculate_envrate e LRelease = Ok x -> x = rate) ->
  (0 < rate)%R -> l_sustain e = PInt su -> (1 <= n)%nat -> (INR n * rate <= 1)%R -> lblocks n e r s1 = Ok s' ->
  f_envval s' = (1 - INR n * rate + v)%R /\ (v <= f_envval s')%R /\ ((INR n * rate < v)%R -> (1 < f_envval s')%R) /\
  (forall x s2, (1 < INR n * rate + rate)%R -> lfo_process e s' x = Ok s2 -> f_state s2 = LStuck /\ f_envval s2 = 0%R).
Proof.
  intros e s rate su v n r s1 s' H HV HM HR RP SU N1 B HB. unfold lfo_release in H. bnd H. bnd H. apply pvalf_inv in E, E0.
  specialize (HM _ _ E E0). destruct (Rlt_dec x x0); [|contradiction]. injection H as <-.
  set (s1 := lf_env s LRelease (f_envval s) 0 (f_envval s)) in *.
  assert (CR : calculate_envrate e LRelease = Ok rate).
  { destruct (calculate_envrate e LRelease) eqn:C; [now rewrite (HR _ eq_refl)|unfold calculate_envrate in C; cbn in C; rewrite E in C; discriminate|unfold calculate_envrate in C; cbn in C; rewrite E in C; discriminate]. }
  assert (IN : (INR (n - 1) * rate <= 1)%R) by (rewrite minus_INR by lia; cbn; nra).
  destruct (C44_stages e s1 rate su n r s') as [G _]; try assumption; try discriminate; [reflexivity|].
  destruct (G B) as (G1 & G2). cbn in G2. rewrite G2, HV. split; [reflexivity|]. split; [lra|]. split; [lra|].
  intros y s2 L P. destruct (C44_stages e s1 rate su (S n) (fun k => if Nat.eqb k n then y else r k) s2) as [_ G']; try assumption; try discriminate; try reflexivity; try lia.
  - replace (S n - 1)%nat with n by lia. exact B.
  - cbn [lblocks]. rewrite Nat.eqb_refl. assert (Q : forall m, (m <= n)%nat -> lblocks m e (fun k => if Nat.eqb k n then y else r k) s1 = lblocks m e r s1).
    { induction m as [|m IH]; intros M; [reflexivity|]. cbn [lblocks]. rewrite IH by lia. destruct (Nat.eqb_spec m n); [lia|reflexivity]. }
    rewrite Q, HB by lia. exact P.
  - destruct G' as (A1 & A2 & _); [rewrite S_INR; lra|]. auto.
Qed.

(** ** C86 phase and waveforms *)
Lemma over_rest e s sh r s' : update_for_phase_over_one e s sh r = Ok s' ->
  f_init s' = f_init s /\ f_phase s' = (f_phase s - 1)%R /\ f_target s' = f_target s /\ f_noised1 s' = f_noised1 s /\ (sh <> LsStepSequencer -> f_ratemult s' = f_ratemult s /\ f_step s' = f_step s /\ f_shuffle s' = f_shuffle s).
Proof.
  unfold update_for_phase_over_one, stepseq_over_one. cbv zeta. destruct sh; intros H; repeat bnd H; injection H as <-; try (cbn; repeat split; reflexivity).
  destruct x, x0, x1; cbn; repeat split; congruence.
Qed.
Lemma process_rest e s r s' : lfo_process e s r = Ok s' -> exists s0 sh rate, started e s s0 /\ get_shape e = Ok sh /\ lfo_get_rate e = Ok rate /\
  f_phase s' = (let p := f_phase s0 + rate * f_ratemult s0 in if Rlt_dec 1 p then p - 1 else p)%R /\ f_init s' = true /\ f_target s' = f_target s /\ f_noised1 s' = f_noised1 s /\
  (sh <> LsStepSequencer -> f_ratemult s' = f_ratemult s /\ f_step s' = f_step s /\ f_shuffle s' = f_shuffle s).
Proof.
  intros H. apply process_inv in H as (s0 & sh & rate & s3 & s4 & s5 & uni & mag & S0 & GS & GR & E3 & E4 & E5 & _ & _ & ->).
  exists s0, sh, rate. split; [exact S0|]. split; [exact GS|]. split; [exact GR|]. apply shape_frame in E5 as [v ->].
  assert (X : restof s3 = restof (advanced s0 rate)) by (destruct E3 as [[_ ->]|[_ U]]; [reflexivity|now apply env_rest in U]).
  unfold restof in X. cbn [advanced lf_phase lf_retrig f_init f_phase f_ratemult f_step f_shuffle f_target f_noised1] in X.
  assert (X1 : f_init s3 = f_init s0) by congruence. assert (X2 : f_phase s3 = (f_phase s0 + rate * f_ratemult s0)%R) by congruence.
  assert (X3 : f_ratemult s3 = f_ratemult s0 /\ f_step s3 = f_step s0 /\ f_shuffle s3 = f_shuffle s0 /\ f_target s3 = f_target s0 /\ f_noised1 s3 = f_noised1 s0) by (repeat split; congruence).
  clear X. assert (I0 : f_init s0 = true) by (destruct S0 as [[A ->]|(_ & sp & _ & ->)]; auto).
  assert (Y : f_ratemult s0 = f_ratemult s /\ f_step s0 = f_step s /\ f_shuffle s0 = f_shuffle s /\ f_target s0 = f_target s /\ f_noised1 s0 = f_noised1 s) by (destruct S0 as [[A ->]|(_ & sp & _ & ->)]; auto).
  cbn [lf_out f_phase f_init f_ratemult f_step f_shuffle f_target f_noised1]. cbv zeta.
  destruct X3 as (Z1 & Z2 & Z3 & Z4 & Z5), Y as (Y1 & Y2 & Y3 & Y4 & Y5).
  destruct (Rlt_dec 1 (f_phase s0 + rate * f_ratemult s0)) as [L|L]; destruct E4 as [[B E4]|[B ->]]; try lra.
  - apply over_rest in E4 as (O1 & O2 & O3 & O4 & O5). rewrite O1, O2, O3, O4, X1, X2, Z4, Z5, I0. repeat split; try congruence.
    all: destruct (O5 H) as (W1 & W2 & W3); congruence.
  - repeat split; congruence.
Qed.
(* The phase slider is reduced modulo 1: the two loops always end, for every real start value, in [0,1] and a whole number of
   turns from where they started. *)
Theorem C86_phase_wrap : forall p, exists n, wrap_loop n p = Some (wrap01 p) /\ (0 <= wrap01 p <= 1)%R /\ exists k : Z, wrap01 p = (p + IZR k)%R.
Proof.
  intros p. assert (exists n : nat, (- INR n <= p <= INR n + 1)%R) as [n N].
  { exists (Z.to_nat (up (Rabs p))). destruct (archimed (Rabs p)) as [A _]. assert (0 <= Rabs p)%R by apply Rabs_pos.
    assert (0 < up (Rabs p))%Z by (apply lt_IZR; lra). rewrite INR_IZR_INZ, Z2Nat.id by lia. assert (Q := Rle_abs p). assert (Q2 := Rle_abs (- p)). rewrite Rabs_Ropp in Q2. lra. }
  exists (S n). split; [now apply wrap_loop_fuel|]. split; [apply wrap01_range|apply wrap01_int].
Qed.
(* With an increment of at most one turn per block the phase stays in [0,1] and n blocks advance it by exactly n increments,
   up to whole turns: the LFO runs at the requested rate for ever. *)
Theorem C86_frequency : forall n e r s s' rate sh, f_init s = true -> get_shape e = Ok sh -> sh <> LsStepSequencer -> lfo_get_rate e = Ok rate ->
  (0 <= rate * f_ratemult s <= 1)%R -> (0 <= f_phase s <= 1)%R -> lblocks n e r s = Ok s' ->
  (0 <= f_phase s' <= 1)%R /\ exists k : Z, f_phase s' = (f_phase s + INR n * (rate * f_ratemult s) - IZR k)%R.
Proof.
  intros n e r s s' rate sh I0 GS NS GR D P. revert s'.
  enough (G : forall s', lblocks n e r s = Ok s' -> (f_init s' = true /\ f_ratemult s' = f_ratemult s) /\ (0 <= f_phase s' <= 1)%R /\ exists k : Z, f_phase s' = (f_phase s + INR n * (rate * f_ratemult s) - IZR k)%R)
    by (intros s' H; exact (proj2 (G s' H))).
  induction n as [|n IH]; intros s' H.
  - injection H as <-. change (INR 0) with 0%R. repeat split; auto; try lra. exists 0. lra.
  - cbn [lblocks] in H. bnd H. destruct (IH x E) as ((I1 & I2) & I3 & k & I4). apply process_rest in H as (s0 & sh' & rate' & S0 & GS' & GR' & P' & Q1 & _ & _ & Q2).
    rewrite GS in GS'. injection GS' as <-. rewrite GR in GR'. injection GR' as <-. destruct S0 as [[_ ->]|(A & _)]; [|congruence].
    destruct (Q2 NS) as (Q3 & _). split; [split; [exact Q1|congruence]|]. rewrite I2 in P'. cbv zeta in P'. rewrite S_INR. destruct (Rlt_dec 1 _) in P'.
    + split; [lra|]. exists (k + 1). rewrite plus_IZR. lra.
    + split; [lra|]. exists k. lra.
Qed.
(* REFUTED for faster rates: only one turn is subtracted per block, so the phase runs away by (increment - 1) per block. *)
Theorem C86_runaway_refuted : forall n e r s s' rate sh, f_init s = true -> get_shape e = Ok sh -> sh <> LsStepSequencer -> lfo_get_rate e = Ok rate ->
  (1 < rate * f_ratemult s)%R -> (0 <= f_phase s)%R -> lblocks n e r s = Ok s' -> f_phase s' = (f_phase s + INR n * (rate * f_ratemult s - 1))%R.
Proof.
  intros n e r s s' rate sh I0 GS NS GR D P. revert s'.
  enough (G : forall s', lblocks n e r s = Ok s' -> (f_init s' = true /\ f_ratemult s' = f_ratemult s) /\ (0 <= f_phase s')%R /\ f_phase s' = (f_phase s + INR n * (rate * f_ratemult s - 1))%R)
    by (intros s' H; exact (proj2 (proj2 (G s' H)))).
  induction n as [|n IH]; intros s' H.
  - injection H as <-. change (INR 0) with 0%R. repeat split; auto; lra.
  - cbn [lblocks] in H. bnd H. destruct (IH x E) as ((I1 & I2) & I3 & I4). apply process_rest in H as (s0 & sh' & rate' & S0 & GS' & GR' & P' & Q1 & _ & _ & Q2).
    rewrite GS in GS'. injection GS' as <-. rewrite GR in GR'. injection GR' as <-. destruct S0 as [[_ ->]|(A & _)]; [|congruence].
    destruct (Q2 NS) as (Q3 & _). split; [split; [exact Q1|congruence]|]. rewrite I2 in P'. cbv zeta in P'. rewrite S_INR. destruct (Rlt_dec 1 _) in P'; lra.
Qed.
(* The output is envelope x magnitude x waveform at the current phase; unipolar maps the waveform from [-1,1] to [0,1]. *)
Definition wave (e : lenv) (sh : lshape) (p env : R) (w : R) : Prop :=
  match sh with
  | LsSine => exists d, l_deform e = PInt d /\ w = lfo_bend3 (l_warp e (2 - 4 * p)) (IZR d)
  | LsTri => exists d, l_deform e = PInt d /\ w = lfo_bend3 (1 - 4 * Rabs (p - 1 / 2)) (IZR d)
  | LsRamp => exists d, l_deform e = PInt d /\ w = lfo_bend3 (1 - 2 * p) (IZR d)
  | LsSquare => exists d, l_deform e = PFloat d /\ ((p <= (1 + d) / 2)%R -> w = 1%R) /\ (((1 + d) / 2 < p)%R -> w = (-1)%R)
  | LsEnvelope => exists d, l_deform e = PFloat d /\ w = (1 - d + d * env)%R
  | _ => True
  end.
Theorem C86_waveform : forall e s r s', lfo_process e s r = Ok s' -> exists sh uni mag,
  get_shape e = Ok sh /\ l_uni e = PBool uni /\ l_mag e = PFloat mag /\ wave e sh (f_phase s') (f_envval s') (f_iout s') /\
  f_output s' = (f_envval s' * mag * (if uni && (match sh with LsStepSequencer => false | _ => true end) then 1 / 2 + 1 / 2 * f_iout s' else f_iout s'))%R.
Proof.
  intros e s r s' H. apply process_inv in H as (s0 & sh & rate & s3 & s4 & s5 & uni & mag & S0 & GS & GR & E3 & E4 & E5 & U & M & ->).
  exists sh, uni, mag. split; [exact GS|]. split; [exact U|]. split; [exact M|]. split; [|reflexivity].
  change (f_phase (lf_out s5 _ _)) with (f_phase s5). change (f_envval (lf_out s5 _ _)) with (f_envval s5). change (f_iout (lf_out s5 _ (f_iout s5))) with (f_iout s5).
  unfold process_shape, bend3 in E5. destruct sh; try exact I; repeat bnd E5; try (bnd E; apply pvali_inv in E0; injection E as <-); injection E5 as <-; cbn.
  - eauto.
  - eexists. split; [eassumption|]. f_equal. unfold Rabs. destruct (Rlt_dec _ _), (Rcase_abs _); lra.
  - exists x. split; [now apply pvalf_inv|]. split; intros L; destruct (Rlt_dec _ _); lra.
  - eauto.
  - exists x. split; [now apply pvalf_inv|reflexivity].
Qed.
(* The deformation keeps the waveform within [-1,1] and increasing, fixes both ends and does nothing at 0. *)
Theorem C86_deform : forall d x y, (-1 <= d <= 1)%R -> (-1 <= x)%R -> (x <= y)%R -> (y <= 1)%R ->
  (-1 <= lfo_bend3 x d)%R /\ (lfo_bend3 x d <= lfo_bend3 y d)%R /\ (lfo_bend3 y d <= 1)%R /\
  lfo_bend3 1 d = 1%R /\ lfo_bend3 (-1) d = (-1)%R /\ lfo_bend3 x 0 = x.
Proof.
  intros d x y D X XY Y. unfold lfo_bend3. cbv zeta. set (a := (1 / 2 * d)%R). assert (A : (-1 / 2 <= a <= 1 / 2)%R) by (unfold a; lra). clearbody a.
  set (b := fun z : R => (z - a * z * z + a)%R).
  assert (M : forall u v, (-1 <= u)%R -> (u <= v)%R -> (v <= 1)%R -> (b u <= b v)%R).
  { intros u v U UV V. unfold b. assert (0 <= (v - u) * (1 - a * (u + v)))%R; [|lra]. apply Rmult_le_pos; [lra|]. nra. }
  assert (B1 : b 1%R = 1%R) by (unfold b; lra). assert (B2 : b (-1)%R = (-1)%R) by (unfold b; lra).
  change (-1 <= b (b x) /\ b (b x) <= b (b y) /\ b (b y) <= 1 /\ b (b 1) = 1 /\ b (b (-1)) = -1 /\ x - 1/2*0 * x * x + 1/2*0 - 1/2*0 * (x - 1/2*0 * x * x + 1/2*0) * (x - 1/2*0 * x * x + 1/2*0) + 1/2*0 = x)%R.
  assert (X1 : (-1 <= b x)%R) by (rewrite <- B2; apply M; lra). assert (Y1 : (b y <= 1)%R) by (rewrite <- B1; apply M; lra). assert (XY1 := M x y X XY Y).
  repeat split; try (rewrite ?B1, ?B2; assumption || reflexivity).
  - rewrite <- B2. apply M; lra.
  - apply M; lra.
  - rewrite <- B1. apply M; lra.
  - lra.
Qed.
(* Hence the output never exceeds the magnitude, and is on one side of zero when unipolar. *)
Theorem C86_bounded : forall e s r s' sh mag, lfo_process e s r = Ok s' -> get_shape e = Ok sh -> l_mag e = PFloat mag ->
  (0 <= f_envval s' <= 1)%R -> (0 <= f_phase s' <= 1)%R -> (forall x, (-1 <= l_warp e x <= 1)%R) ->
  (forall d, l_deform e = PInt d -> -1 <= d <= 1) -> (forall d, l_deform e = PFloat d -> (0 <= d <= 1)%R) ->
  In sh [LsSine; LsTri; LsSquare; LsRamp; LsEnvelope] ->
  (Rabs (f_output s') <= Rabs mag)%R /\ (l_uni e = PBool true -> (0 <= mag)%R -> (0 <= f_output s')%R).
Proof.
  intros e s r s' sh mag H GS GM EV PH WB DI DF IS. destruct (C86_waveform _ _ _ _ H) as (sh' & uni & mag' & A1 & A2 & A3 & W & O).
  rewrite GS in A1. injection A1 as <-. rewrite GM in A3. injection A3 as <-.
  assert (B : (-1 <= f_iout s' <= 1)%R).
  { assert (BB : forall z d, -1 <= d <= 1 -> (-1 <= z <= 1)%R -> (-1 <= lfo_bend3 z (IZR d) <= 1)%R).
    { intros z d D Z. assert (-1 <= IZR d <= 1)%R by (split; apply IZR_le; lia). destruct (C86_deform (IZR d) z z) as (Q1 & _ & Q2 & _); lra. }
    destruct IS as [<-|[<-|[<-|[<-|[<-|[]]]]]]; cbn [wave] in W.
    - destruct W as (d & D & ->). apply BB; auto.
    - destruct W as (d & D & ->). apply BB; [auto|]. unfold Rabs. destruct (Rcase_abs _); lra.
    - destruct W as (d & D & W1 & W2). destruct (Rle_dec (f_phase s') ((1 + d) / 2)); [rewrite W1|rewrite W2]; lra.
    - destruct W as (d & D & ->). apply BB; [auto|]. lra.
    - destruct W as (d & D & ->). apply DF in D. nra. }
  rewrite O. set (w := (if _ : bool then _ else _)%R).
  assert (BW : (-1 <= w <= 1)%R) by (unfold w; destruct (_ && _); lra).
  split.
  - rewrite !Rabs_mult. assert (Rabs (f_envval s') <= 1)%R by (apply Rabs_le; lra). assert (Rabs w <= 1)%R by (apply Rabs_le; lra).
    assert (0 <= Rabs (f_envval s'))%R by apply Rabs_pos. assert (0 <= Rabs w)%R by apply Rabs_pos. assert (0 <= Rabs mag)%R by apply Rabs_pos.
    replace (Rabs mag) with (1 * Rabs mag * 1)%R at 2 by lra. apply Rmult_le_compat; try nra.
  - intros UP MP. rewrite UP in A2. injection A2 as <-. assert (0 <= w)%R.
    { unfold w. destruct IS as [<-|[<-|[<-|[<-|[<-|[]]]]]]; cbn; lra. }
    apply Rmult_le_pos; [apply Rmult_le_pos; lra|assumption].
Qed.
(* REFUTED: what other components read from an LFO is always 0, whatever it computes. *)
Theorem C86_output_ignored_refuted : forall e s r s', lfo_process e s r = Ok s' -> lfo_get_output s' = 0%R /\ lfo_get_output01 s' = 0%R.
Proof. intros. split; reflexivity. Qed.
(* REFUTED: no Deform value suits all shapes - whatever it holds, the block panics for sine/triangle/ramp or for square/envelope/step
   sequencer - and with the values a parameter has when created the first block panics for certain. *)
Definition same_but_shape (e : lenv) (n : Z) : lenv :=
  {| l_rate := l_rate e; l_shape := PInt n; l_start := l_start e; l_mag := l_mag e; l_deform := l_deform e; l_trig := l_trig e; l_uni := l_uni e;
     l_delay := l_delay e; l_hold := l_hold e; l_attack := l_attack e; l_decay := l_decay e; l_sustain := l_sustain e; l_release := l_release e;
     l_delay_min := l_delay_min e; l_attack_min := l_attack_min e; l_hold_min := l_hold_min e; l_release_max := l_release_max e;
     l_sync := l_sync e; l_rsync := l_rsync e; l_ratio := l_ratio e; l_songpos := l_songpos e; l_table := l_table e; l_warp := l_warp e;
     l_pow2 := l_pow2 e; l_rsqrt := l_rsqrt e; l_seq := l_seq e |}.
Theorem C86_deform_type_refuted : forall e s r,
  (forall n s', In n [0; 1; 3] -> lfo_process (same_but_shape e n) s r <> Ok s') \/
  (forall n s', In n [2; 6; 7] -> lfo_process (same_but_shape e n) s r <> Ok s').
Proof.
  intros e s r. destruct (l_deform e) as [d|d|d] eqn:D.
  1: right. 2: left. 3: left.
  all: intros n s' I H; apply process_inv in H as (s0 & sh & rate & s3 & s4 & s5 & uni & mag & _ & GS & _ & _ & _ & E5 & _).
  all: cbn in I; destruct I as [<-|[<-|[<-|[]]]]; cbn in GS; injection GS as <-; cbn in E5; unfold bend3 in E5; cbn in E5; rewrite D in E5; discriminate.
Qed.
Theorem C86_fresh_panics_refuted : forall e s r s', l_shape e = PFloat (1 / 2)%R -> lfo_process e s r <> Ok s'.
Proof.
  intros e s r s' F H. apply process_inv in H as (s0 & sh & rate & s3 & s4 & s5 & uni & mag & _ & GS & _). unfold get_shape in GS. rewrite F in GS. discriminate.
Qed.
(* REFUTED: the noise is never correlated from one draw to the next: the memory of the generator is 0 for ever, so each
   value is a fixed multiple of one fresh draw, whatever came before. *)
Lemma noise_uncorrelated rs d r : noise_o2mk2 rs 0 0 d r =
  (let w := 2 * (Rabs d * (4 / 5)) - (Rabs d * (4 / 5)) * (Rabs d * (4 / 5)) in rs (1 - w) * (1 - w) * (1 - w) * r)%R.
Proof. unfold noise_o2mk2. cbv zeta. destruct (Rlt_dec 0 d); ring. Qed.
Lemma memory_zero s ev s' : f_target s = 0%R -> f_noised1 s = 0%R -> lstep s ev = Ok s' -> f_target s' = 0%R /\ f_noised1 s' = 0%R.
Proof.
  intros T N H. destruct ev as [e r|e r1 r2 d1 d2 d3 d4|e]; cbn [lstep] in H.
  - apply process_rest in H as (s0 & sh & rate & _ & _ & _ & _ & _ & A & B & _). split; congruence.
  - unfold lfo_attack in H. bnd H. cbv zeta in H. do 7 bnd H. bnd H. bnd H.
    assert (A0 : f_target x = 0%R /\ f_noised1 x = 0%R) by (destruct (f_init s); [injection E as <-; auto|bnd E; injection E as <-; auto]).
    assert (A : f_target x7 = 0%R /\ f_noised1 x7 = 0%R).
    { unfold attack_env in E7. bnd E7. destruct (Rlt_dec _ _); [|injection E7 as <-; exact A0].
      cbv zeta in E7. bnd E7. destruct (Rlt_dec _ _); [|injection E7 as <-; exact A0]. bnd E7. injection E7 as <-. destruct (Rlt_dec _ _); exact A0. }
    assert (B : f_target x8 = 0%R /\ f_noised1 x8 = 0%R).
    { unfold attack_phase_step in E8. destruct x2; cbv zeta in E8.
      - destruct (_ && _); [|discriminate]. destruct (_ <? _); [discriminate|]. injection E8 as <-. exact A.
      - injection E8 as <-. exact A.
      - destruct (_ =? _); [discriminate|]. injection E8 as <-. exact A. }
    unfold attack_shape, attack_stepseq in H. destruct x1; cbv zeta in H; repeat bnd H; try (injection H as <-; cbn; auto; exact B).
    destruct x1; injection H as <-; exact B.
  - unfold lfo_release in H. bnd H. bnd H. injection H as <-. destruct (Rlt_dec _ _); auto.
Qed.
Theorem C86_noise_memoryless_refuted : forall evs s e r s' d, foldM lstep evs lfo_new = Ok s -> lfo_process e s r = Ok s' ->
  get_shape e = Ok LsSampleAndHold -> l_deform e = PFloat d ->
  f_iout s' = f_iout s \/ f_iout s' = (let w := 2 * (Rabs d * (4 / 5)) - (Rabs d * (4 / 5)) * (Rabs d * (4 / 5)) in l_rsqrt e (1 - w) * (1 - w) * (1 - w) * r)%R.
Proof.
  intros evs s e r s' d HE H GS D.
  assert (M : f_target s = 0%R /\ f_noised1 s = 0%R).
  { assert (G : forall evs s1 s2, f_target s1 = 0%R -> f_noised1 s1 = 0%R -> foldM lstep evs s1 = Ok s2 -> f_target s2 = 0%R /\ f_noised1 s2 = 0%R).
    { clear. intros evs; induction evs as [|ev l IH]; intros s1 s2 A B F; [injection F as <-; auto|]. cbn in F. bnd F. destruct (memory_zero _ _ _ A B E). eauto. }
    eapply G; [| |exact HE]; reflexivity. }
  destruct M as [M1 M2]. apply process_inv in H as (s0 & sh & rate & s3 & s4 & s5 & uni & mag & S0 & GS' & GR & E3 & E4 & E5 & _ & _ & ->).
  rewrite GS in GS'. injection GS' as <-. cbn in E5. injection E5 as <-. cbn [f_iout lf_out].
  assert (X : restof s3 = restof (advanced s0 rate)) by (destruct E3 as [[_ ->]|[_ U]]; [reflexivity|now apply env_rest in U]).
  unfold restof in X. cbn [advanced lf_phase lf_retrig f_init f_phase f_ratemult f_step f_shuffle f_target f_noised1 f_iout] in X.
  assert (Y : f_target s0 = f_target s /\ f_noised1 s0 = f_noised1 s /\ f_iout s0 = f_iout s) by (destruct S0 as [[A ->]|(_ & sp & _ & ->)]; auto).
  destruct Y as (Y1 & Y2 & Y3). assert (Z1 : f_target s3 = 0%R) by congruence. assert (Z2 : f_noised1 s3 = 0%R) by congruence.
  destruct E4 as [[_ E4]|[_ ->]]; [right|left; congruence].
  cbn in E4. rewrite D in E4. cbn in E4. injection E4 as <-. cbn. rewrite Z1, Z2. apply noise_uncorrelated.
Qed.

(** ** C87 step sequencer *)
Lemma testbit_bit m k b : bit m k = Ok b -> b = Z.testbit m k /\ k < 64.
Proof. unfold bit. destruct (Z.ltb_spec k 64); [|discriminate]. intros E; injection E as <-. auto. Qed.
(* When the phase completes a turn the sequencer moves to the next step, going back to the loop start after the loop end; the
   new step's value becomes the newest of the four remembered; a set trigger bit of the step just finished fires the
   envelopes it names (bit step: both, 16+step: filter, 32+step: amplitude). *)
Theorem C87_advance : forall e s r s', update_for_phase_over_one e s LsStepSequencer r = Ok s' -> 0 <= f_step s ->
  f_step s' = (if f_step s + 1 <=? sq_end (l_seq e) then f_step s + 1 else sq_start (l_seq e)) /\
  (f_h1 s' = f_h0 s /\ f_h2 s' = f_h1 s /\ f_h3 s' = f_h2 s) /\
  sq_step (l_seq e) (Z.land (f_step s') 15) = Ok (f_h0 s') /\
  f_feg s' = f_feg s || Z.testbit (sq_mask (l_seq e)) (f_step s) || Z.testbit (sq_mask (l_seq e)) (16 + f_step s) /\
  f_aeg s' = f_aeg s || Z.testbit (sq_mask (l_seq e)) (f_step s) || Z.testbit (sq_mask (l_seq e)) (32 + f_step s) /\
  f_shuffle s' = Z.land (f_shuffle s + 1) 1.
Proof.
  intros e s r s' H P. unfold update_for_phase_over_one, stepseq_over_one in H. cbv zeta in H. do 5 bnd H. injection H as <-.
  cbn [lf_phase f_step f_shuffle f_h0 f_h1 f_h2 f_feg f_aeg] in *.
  apply testbit_bit in E as [-> _], E0 as [-> _], E1 as [-> _].
  assert (Q : (sq_end (l_seq e) <? f_step s + 1) = negb (f_step s + 1 <=? sq_end (l_seq e))) by lia. rewrite Q in *.
  replace (if f_step s + 1 <=? sq_end (l_seq e) then f_step s + 1 else sq_start (l_seq e)) with (if negb (f_step s + 1 <=? sq_end (l_seq e)) then sq_start (l_seq e) else f_step s + 1) by (destruct (_ <=? _); reflexivity).
  cbn [lf_hist lf_step f_step f_h0 f_h1 f_h2 f_h3 f_feg f_aeg f_shuffle].
  split; [reflexivity|]. split; [auto|]. split; [exact E3|].
  destruct (Z.testbit _ (f_step s)), (Z.testbit _ (16 + f_step s)), (Z.testbit _ (32 + f_step s)); cbn; rewrite ?orb_true_r, ?orb_false_r; auto.
Qed.
(* Inside a loop start <= end the step stays inside for ever, and returns to itself after exactly end - start + 1 turns. *)
Fixpoint turns (n : nat) (e : lenv) (r : nat -> R) (s : lfo) : res lfo :=
  match n with O => Ok s | S k => obind (turns k e r s) (fun s1 => update_for_phase_over_one e s1 LsStepSequencer (r k)) end.
Theorem C87_loop : forall n e r s s', 0 <= sq_start (l_seq e) <= f_step s -> f_step s <= sq_end (l_seq e) -> turns n e r s = Ok s' ->
  let a := sq_start (l_seq e) in let b := sq_end (l_seq e) in
  f_step s' = a + (f_step s - a + Z.of_nat n) mod (b - a + 1).
Proof.
  intros n e r s s' A B H a b. revert s' H. induction n as [|n IH]; intros s' H.
  - injection H as <-. rewrite Z.add_0_r, Z.mod_small; lia.
  - cbn [turns] in H. bnd H. specialize (IH _ E). assert (P : 0 <= f_step x) by (rewrite IH; assert (0 <= (f_step s - a + Z.of_nat n) mod (b - a + 1)) by (apply Z.mod_pos_bound; unfold a, b; lia); unfold a; lia).
    destruct (C87_advance _ _ _ _ H P) as (-> & _). fold a b. rewrite IH.
    rewrite Nat2Z.inj_succ. set (m := b - a + 1) in *. assert (M : 0 < m) by (unfold m, a, b; lia).
    replace (f_step s - a + Z.succ (Z.of_nat n)) with ((f_step s - a + Z.of_nat n) + 1) by lia. set (k := f_step s - a + Z.of_nat n). clearbody k.
    assert (HM := Z.mod_pos_bound k m M). assert (HD := Z.div_mod k m ltac:(lia)). set (q := k / m) in *. set (u := k mod m) in *.
    destruct (Z.leb_spec (a + u + 1) b).
    + rewrite <- (Zdiv.Zmod_unique (k + 1) m q (u + 1)); unfold m in *; lia.
    + rewrite <- (Zdiv.Zmod_unique (k + 1) m (q + 1) 0); unfold m in *; try lia.
Qed.
(* Retrigger flags are cleared at the start of each block, so between turns no envelope is fired. *)
Theorem C87_flags_only_on_turns : forall e s r s', lfo_process e s r = Ok s' -> (f_feg s' = true \/ f_aeg s' = true) ->
  get_shape e = Ok LsStepSequencer /\ exists s0 rate, started e s s0 /\ lfo_get_rate e = Ok rate /\ (1 < f_phase s0 + rate * f_ratemult s0)%R.
Proof.
  intros e s r s' H F. apply process_inv in H as (s0 & sh & rate & s3 & s4 & s5 & uni & mag & S0 & GS & GR & E3 & E4 & E5 & _ & _ & ->).
  apply shape_frame in E5 as [v ->]. cbn [lf_out f_feg f_aeg] in F.
  assert (X : restof s3 = restof (advanced s0 rate)) by (destruct E3 as [[_ ->]|[_ U]]; [reflexivity|now apply env_rest in U]).
  unfold restof in X. cbn [advanced lf_phase lf_retrig f_init f_phase f_ratemult f_step f_shuffle f_target f_noised1 f_iout f_feg f_aeg] in X.
  assert (X1 : f_feg s3 = false /\ f_aeg s3 = false) by (split; congruence). assert (X2 : f_phase s3 = (f_phase s0 + rate * f_ratemult s0)%R) by congruence. destruct X1 as [X1 X1'].
  destruct E4 as [[L E4]|[_ ->]]; [|rewrite X1, X1' in F; destruct F; discriminate].
  assert (sh = LsStepSequencer).
  { unfold update_for_phase_over_one in E4. cbv zeta in E4. destruct sh; try reflexivity; exfalso; repeat bnd E4; injection E4 as <-; cbn in F; rewrite X1, X1' in F; destruct F; discriminate. }
  subst sh. split; [exact GS|]. exists s0, rate. rewrite X2 in L. auto.
Qed.
(* REFUTED: on every other step the rate is multiplied by 100, whatever the shuffle amount (up to 1.98): a minimum stands where a
   maximum was meant, so "at most 100 times faster" became "exactly 100 times faster". *)
Theorem C87_shuffle_refuted : forall e s r s' sp, update_for_phase_over_one e s LsStepSequencer r = Ok s' -> l_start e = PFloat sp ->
  (Z.even (f_shuffle s) = true -> (sp <= 198 / 100)%R -> f_ratemult s' = 100%R) /\
  (Z.even (f_shuffle s) = false -> f_ratemult s' = (1 / (1 + 1 / 2 * sp))%R).
Proof.
  intros e s r s' sp H SP. unfold update_for_phase_over_one, stepseq_over_one in H. cbv zeta in H. do 5 bnd H. injection H as <-.
  cbn [lf_phase l_start f_shuffle] in *. rewrite SP in E2. injection E2 as <-. cbn [lf_hist lf_step f_ratemult].
  assert (L : Z.land (f_shuffle s + 1) 1 = if Z.even (f_shuffle s) then 1 else 0).
  { change 1 with (Z.ones 1) at 2. rewrite Z.land_ones by lia. change (2 ^ 1) with 2. rewrite Zmod_odd, Z.odd_add. rewrite <- Z.negb_even. destruct (Z.even (f_shuffle s)); reflexivity. }
  rewrite L. split; intros ->; cbn [Z.eqb Pos.eqb].
  - intros B. rewrite Rmin_left by lra. lra.
  - reflexivity.
Qed.
(* REFUTED: a step position of 32 or more panics when its trigger bits are read. *)
Theorem C87_step_overflow_refuted : forall e s r, 32 <= f_step s -> update_for_phase_over_one e s LsStepSequencer r = Panic.
Proof.
  intros e s r H. unfold update_for_phase_over_one, stepseq_over_one. cbv zeta. cbn [lf_phase f_step].
  unfold bit. destruct (Z.ltb_spec (f_step s) 64); [|reflexivity]. cbn [obind]. destruct (Z.ltb_spec (16 + f_step s) 64); [|reflexivity]. cbn [obind].
  destruct (Z.ltb_spec (32 + f_step s) 64); [lia|reflexivity].
Qed.
(* The value between steps: no deformation jumps to the current step's value, and for -1 <= deform <= 1/2 the output stays within
   the two steps it moves between (and 0). *)
Theorem C87_glide : forall s d lo hi, (-1 <= d <= 1 / 2)%R -> (0 <= f_phase s <= 1)%R -> (lo <= 0 <= hi)%R -> (lo <= f_h1 s <= hi)%R -> (lo <= f_h2 s <= hi)%R ->
  (lo <= stepseq_iout s d <= hi)%R.
Proof.
  intros s d lo hi D P L H1 H2. unfold stepseq_iout. cbv zeta.
  assert (C : forall x, (0 <= rclamp x <= 1)%R) by (intros; unfold rclamp; unfold Rmin, Rmax; destruct (Rle_dec _ _); destruct (Rle_dec _ _); lra).
  destruct (Rlt_dec (1 / 2) d); [lra|]. destruct (Rlt_dec (-1 / 10000) d); [|destruct (Rlt_dec (-1 / 2) d)].
  all: match goal with |- context [rclamp ?z] => generalize (C z); set (c := rclamp z); intros CC; clearbody c end; nra.
Qed.
Theorem C87_no_glide : forall s, (0 < f_phase s <= 1)%R -> (1 / 100000 <= f_phase s)%R -> stepseq_iout s 0 = f_h1 s.
Proof.
  intros s P Q. unfold stepseq_iout. cbv zeta. destruct (Rlt_dec (1 / 2) 0); [lra|]. destruct (Rlt_dec (-1 / 10000) 0); [|lra].
  assert (C : rclamp (f_phase s / (2 * 0 + 1 / 100000)) = 1%R).
  { unfold rclamp. assert (1 <= f_phase s / (2 * 0 + 1 / 100000))%R by (replace (f_phase s / (2 * 0 + 1 / 100000))%R with (f_phase s * 100000)%R by (field; lra); lra).
    rewrite Rmax_left by lra. apply Rmin_right. lra. }
  rewrite C. lra.
Qed.

(** ** C88 trigger modes *)
Lemma attack_inv e s r1 r2 d1 d2 d3 d4 s' : lfo_attack e s r1 r2 d1 d2 d3 d4 = Ok s' -> exists s0 s1 sh m start rate s2,
  started e s s0 /\ l_start e = PFloat start /\ get_shape e = Ok sh /\ obind (pvali (l_trig e)) mode_of = Ok m /\ l_rate e = PFloat rate /\
  restof s1 = restof s0 /\ attack_phase_step e s1 sh m start rate r1 r2 = Ok s2 /\ attack_shape e s2 sh start d1 d2 d3 d4 = Ok s'.
Proof.
  unfold lfo_attack. intros H. bnd H. cbv zeta in H. do 7 bnd H. bnd H. bnd H. exists x, x7, x1, x2, x0, x6, x8.
  split; [now apply start_inv|]. split; [now apply pvalf_inv|]. split; [assumption|]. split; [assumption|]. split; [now apply pvalf_inv|].
  split; [|auto]. unfold attack_env in E7. bnd E7. destruct (Rlt_dec _ _); [|injection E7 as <-; reflexivity].
  cbv zeta in E7. bnd E7. destruct (Rlt_dec _ _); [|injection E7 as <-; reflexivity]. bnd E7. injection E7 as <-. destruct (Rlt_dec _ _); reflexivity.
Qed.
(* Key-triggered: every trigger starts at the same point of the waveform - the start phase slider - whatever happened before:
   a bipolar triangle a quarter turn later (at zero, rising), a unipolar sine three quarters of a turn later (at its lowest). *)
Definition start_phase (sh : lshape) (uni : bool) (w : R) : R :=
  (match sh with
   | LsSine => let p := if uni then w + 3 / 4 else w in if Rlt_dec 1 p then p - 1 else p
   | LsTri => if uni then w else let p := w + 1 / 4 in if Rlt_dec 1 p then p - 1 else p
   | LsNoise => 0
   | LsStepSequencer => 0
   | _ => w end)%R.
Theorem C88_key_trigger : forall e s r1 r2 d1 d2 d3 d4 s' sh start uni, lfo_attack e s r1 r2 d1 d2 d3 d4 = Ok s' -> l_trig e = PInt 1 ->
  get_shape e = Ok sh -> l_start e = PFloat start -> l_uni e = PBool uni ->
  f_phase s' = start_phase sh uni (wrap01 start) /\ (0 <= f_phase s' <= 1)%R /\ (sh <> LsStepSequencer -> f_step s' = 0) /\
  (sh = LsStepSequencer -> f_step s' = if 1 <=? sq_end (l_seq e) then 1 else sq_start (l_seq e)).
Proof.
  intros e s r1 r2 d1 d2 d3 d4 s' sh start uni H TR GS ST UN. apply attack_inv in H as (s0 & s1 & sh' & m & start' & rate & s2 & _ & A1 & A2 & A3 & _ & _ & A5 & A6).
  rewrite ST in A1. injection A1 as <-. rewrite GS in A2. injection A2 as <-. rewrite TR in A3. cbn in A3. injection A3 as <-.
  unfold attack_phase_step in A5. cbv zeta in A5. injection A5 as <-. assert (WR := wrap01_range start). assert (W0 : wrap01 0 = 0%R) by (unfold wrap01; destruct (Rlt_dec 0 0); [lra|]; destruct (Rlt_dec 1 0); lra).
  unfold attack_shape, attack_stepseq in A6. destruct sh; cbn [lf_step lf_phase f_phase f_step l_uni start_phase] in *.
  - rewrite UN in A6. cbn in A6. injection A6 as <-. cbn. split; [reflexivity|]. split; [destruct uni; destruct (Rlt_dec _ _); lra|]. split; [auto|discriminate].
  - rewrite UN in A6. cbn in A6. destruct uni; injection A6 as <-; cbn; (split; [reflexivity|]; split; [try (destruct (Rlt_dec _ _)); lra|split; [auto|discriminate]]).
  - injection A6 as <-. cbn. repeat split; auto; try lra; discriminate.
  - injection A6 as <-. cbn. repeat split; auto; try lra; discriminate.
  - bnd A6. injection A6 as <-. cbn. repeat split; auto; try lra; discriminate.
  - bnd A6. injection A6 as <-. cbn. repeat split; auto; try lra; discriminate.
  - injection A6 as <-. cbn. repeat split; auto; try lra; discriminate.
  - cbv zeta in A6. bnd A6. bnd A6. injection A6 as <-. cbn [lf_hist lf_step f_phase f_step]. rewrite W0. change (0 + 1) with 1.
    split; [reflexivity|]. split; [cbn; lra|]. split; [congruence|]. intros _. destruct (Z.leb_spec 1 (sq_end (l_seq e))), (Z.ltb_spec (sq_end (l_seq e)) 1); lia.
Qed.
(* REFUTED, random mode: the step is always 0 (a fraction below 1 is truncated before the remainder is taken), and the trigger
   panics if the loop ends at step 0. *)
Theorem C88_random_refuted : forall e s r1 r2 d1 d2 d3 d4 s' sh, l_trig e = PInt 2 -> get_shape e = Ok sh -> (0 <= r2 < 1)%R ->
  lfo_attack e s r1 r2 d1 d2 d3 d4 = Ok s' ->
  sq_end (l_seq e) <> 0 /\ (sh <> LsStepSequencer -> f_step s' = 0) /\ (In sh [LsSquare; LsRamp; LsSampleAndHold; LsEnvelope; LsStepSequencer] -> f_phase s' = r1).
Proof.
  intros e s r1 r2 d1 d2 d3 d4 s' sh TR GS R2 H. apply attack_inv in H as (s0 & s1 & sh' & m & start' & rate & s2 & _ & A1 & A2 & A3 & _ & _ & A5 & A6).
  rewrite GS in A2. injection A2 as <-. rewrite TR in A3. cbn in A3. injection A3 as <-.
  unfold attack_phase_step in A5. cbv zeta in A5. destruct (Z.eqb_spec (sq_end (l_seq e)) 0) as [|NZ]; [discriminate|].
  assert (T : truncR r2 = 0). { unfold truncR. destruct (Rle_dec 0 r2); [|lra]. destruct (base_Int_part r2). assert (-1 < Int_part r2 < 1); [|lia]. split; apply lt_IZR; lra. }
  rewrite T in A5. change (Z.max 0 0) with 0 in A5. rewrite Z.rem_0_l in A5 by lia. change (Z.land 0 15) with 0 in A5. injection A5 as <-. split; [exact NZ|].
  unfold attack_shape, attack_stepseq in A6. destruct sh; cbv zeta in A6; repeat bnd A6; try (injection A6 as <-; cbn; split; [auto; congruence|intros I; repeat destruct I as [I|I]; congruence || contradiction || reflexivity]).
  destruct x; injection A6 as <-; cbn; (split; [auto; congruence|intros I; repeat destruct I as [I|I]; congruence || contradiction || reflexivity]).
Qed.
(* REFUTED, free-running mode: the song position sets only the step, never the phase: for the plain shapes a free-running LFO
   starts wherever its phase happened to be; and it panics when the loop end is before the loop start. *)
Theorem C88_freerun_refuted : forall e s r1 r2 d1 d2 d3 d4 s' sh, l_trig e = PInt 0 -> get_shape e = Ok sh -> f_init s = true ->
  lfo_attack e s r1 r2 d1 d2 d3 d4 = Ok s' ->
  (In sh [LsSquare; LsRamp; LsSampleAndHold; LsEnvelope; LsStepSequencer] -> f_phase s' = f_phase s) /\ sq_start (l_seq e) <= sq_end (l_seq e).
Proof.
  intros e s r1 r2 d1 d2 d3 d4 s' sh TR GS I0 H. apply attack_inv in H as (s0 & s1 & sh' & m & start' & rate & s2 & S0 & A1 & A2 & A3 & _ & RR & A5 & A6).
  rewrite GS in A2. injection A2 as <-. rewrite TR in A3. cbn in A3. injection A3 as <-. destruct S0 as [[_ ->]|(C & _)]; [|congruence].
  assert (P : f_phase s1 = f_phase s) by (unfold restof in RR; congruence).
  unfold attack_phase_step in A5. cbv zeta in A5. destruct (_ && _); [|discriminate]. destruct (Z.ltb_spec (sq_end (l_seq e)) (sq_start (l_seq e))); [discriminate|]. injection A5 as <-.
  split; [|lia]. intros I. unfold attack_shape, attack_stepseq in A6.
  destruct sh; cbv zeta in A6; try (exfalso; repeat destruct I as [I|I]; congruence || contradiction); repeat bnd A6; injection A6 as <-; cbn; exact P.
Qed.

(* a concrete setting meeting the hypotheses above: a triangle of rate 1/4 per block *)
Definition le0 : lenv :=
  {| l_rate := PFloat 0%R; l_shape := PInt 1; l_start := PFloat 0%R; l_mag := PFloat 1%R; l_deform := PInt 0; l_trig := PInt 1; l_uni := PBool false;
     l_delay := PFloat 0%R; l_hold := PFloat 0%R; l_attack := PFloat 0%R; l_decay := PFloat 0%R; l_sustain := PInt 1; l_release := PFloat 0%R;
     l_delay_min := PFloat (-8)%R; l_attack_min := PFloat (-8)%R; l_hold_min := PFloat (-8)%R; l_release_max := PFloat 5%R;
     l_sync := fun _ => false; l_rsync := false; l_ratio := 1%R; l_songpos := 0%R; l_table := fun _ => (1 / 4)%R; l_warp := fun x => 0%R;
     l_pow2 := fun _ => 1%R; l_rsqrt := fun x => x; l_seq := {| sq_steps := repeat 0%R 16; sq_start := 0; sq_end := 7; sq_mask := 5 |} |}.
Lemma le0_sane : sane le0. Proof. split; [intros; cbn; lra|]. split; [cbn; lra|]. cbn. intros n E. injection E as <-. auto. Qed.
Lemma exists_bind {A B} (m : res A) (k : A -> res B) (P : B -> Prop) a : m = Ok a -> (exists b, k a = Ok b /\ P b) -> exists b, obind m k = Ok b /\ P b.
Proof. intros ->. auto. Qed.
Lemma le0_block s r : f_init s = true -> f_state s <> LOff -> exists s', lfo_process le0 s r = Ok s' /\ f_init s' = true /\ f_state s' <> LOff.
Proof.
  intros I0 NO. unfold lfo_process. rewrite I0. cbn [obind]. change (get_shape le0) with (@Ok unit _ LsTri). change (lfo_get_rate le0) with (@Ok unit _ (1 / 4)%R). cbn [obind].
  set (s2 := lf_phase _ _ _). assert (U : exists s3, (match f_state s2 with LStuck => Ok s2 | _ => update_envelope le0 s2 end) = Ok s3 /\ f_init s3 = true /\ f_state s3 <> LOff).
  { assert (V : exists s3, update_envelope le0 s2 = Ok s3 /\ f_init s3 = true /\ f_state s3 <> LOff).
    { unfold update_envelope, calculate_envrate. cbn [f_state s2 lf_phase lf_retrig]. destruct (f_state s) eqn:FS; try congruence; cbn [obind pvalf pvali stage_param l_delay l_attack l_hold l_decay l_release l_sustain le0 l_sync l_table];
        (eexists; split; [reflexivity|]); destruct (Rlt_dec _ _); cbn; rewrite ?FS; cbn; rewrite ?FS; split; try assumption; try discriminate. }
    destruct (f_state s2); try exact V. exists s2. split; [reflexivity|]. split; [exact I0|exact NO]. }
  destruct U as (s3 & U0 & U1 & U2). apply (exists_bind _ _ _ _ U0).
  assert (W : exists s4, (if Rlt_dec 1 (f_phase s3) then update_for_phase_over_one le0 s3 LsTri r else Ok s3) = Ok s4 /\ f_init s4 = true /\ f_state s4 <> LOff).
  { destruct (Rlt_dec 1 (f_phase s3)); cbn; eauto. }
  destruct W as (s4 & W0 & W1 & W2). apply (exists_bind _ _ _ _ W0). cbn. eauto.
Qed.
Example C44_instance : exists s1 s2, lfo_attack le0 lfo_new 0 0 0 0 0 0 = Ok s1 /\ f_state s1 = LDelay /\ f_envphase s1 = 0%R /\
  lblocks 3 le0 (fun _ => 0%R) s1 = Ok s2 /\ f_state s2 = LDelay /\ f_phase s2 = 1%R.
Proof.
  assert (A : exists s1, lfo_attack le0 lfo_new 0 0 0 0 0 0 = Ok s1 /\ f_state s1 = LDelay /\ f_envphase s1 = 0%R /\ f_init s1 = true /\ f_phase s1 = (1 / 4)%R /\ f_ratemult s1 = 1%R).
  { unfold lfo_attack. cbn [lfo_new f_init obind pvalf l_start le0]. change (get_shape le0) with (@Ok unit _ LsTri). cbn [obind pvali l_trig le0 mode_of pvalf l_delay l_attack l_hold l_rate Z.eqb].
    unfold attack_env. cbn [pvalf l_delay_min le0 obind]. destruct (Rlt_dec (Rabs (0 - -8)) eps32) as [L|L].
    { exfalso. unfold eps32, Rabs in L. destruct (Rcase_abs _); lra. }
    cbn. assert (W0 : wrap01 0 = 0%R) by (unfold wrap01; destruct (Rlt_dec 0 0); [lra|]; destruct (Rlt_dec 1 0); lra). rewrite W0.
    destruct (Rlt_dec 1 (0 + 1 / 4)); [lra|]. eexists. split; [reflexivity|]. cbn. repeat split; lra. }
  destruct A as (s1 & A1 & A2 & A3 & A4 & A5 & A6). exists s1.
  destruct (le0_block s1 0 A4 ltac:(congruence)) as (t1 & B1 & B2 & B3). destruct (le0_block t1 0 B2 B3) as (t2 & C1 & C2 & C3). destruct (le0_block t2 0 C2 C3) as (t3 & D1 & D2 & D3).
  exists t3. assert (L : lblocks 3 le0 (fun _ => 0%R) s1 = Ok t3) by (cbn [lblocks]; cbn [obind]; rewrite B1; cbn [obind]; rewrite C1; cbn [obind]; exact D1).
  repeat split; auto.
  - destruct (C44_stages le0 s1 (1 / 4) 1 3 (fun _ => 0%R) t3) as [G _]; try assumption; try congruence; try (rewrite A2; reflexivity); try lra; try lia; try reflexivity; try discriminate.
    { cbn; lra. } destruct G as [G1 _]; [cbn; lra|]. congruence.
  - destruct (process_rest _ _ _ _ B1) as (u0 & sh & rt & S0 & GS & GR & P1 & _ & _ & _ & Q1). destruct S0 as [[_ ->]|(X & _)]; [|congruence].
    destruct (process_rest _ _ _ _ C1) as (u1 & sh1 & rt1 & S1 & GS1 & GR1 & P2 & _ & _ & _ & Q2). destruct S1 as [[_ ->]|(X & _)]; [|congruence].
    destruct (process_rest _ _ _ _ D1) as (u2 & sh2 & rt2 & S2 & GS2 & GR2 & P3 & _ & _ & _ & Q3). destruct S2 as [[_ ->]|(X & _)]; [|congruence].
    change (get_shape le0) with (@Ok unit _ LsTri) in *. injection GS as <-. injection GS1 as <-. injection GS2 as <-.
    change (lfo_get_rate le0) with (@Ok unit _ (1 / 4)%R) in *. injection GR as <-. injection GR1 as <-. injection GR2 as <-.
    destruct Q1 as (Q1 & _); [discriminate|]. destruct Q2 as (Q2 & _); [discriminate|]. cbv zeta in *. rewrite A5, A6 in P1. destruct (Rlt_dec _ _) in P1; [lra|].
    rewrite P1, Q1, A6 in P2. destruct (Rlt_dec _ _) in P2; [lra|]. rewrite P2, Q2, Q1, A6 in P3. destruct (Rlt_dec _ _) in P3; lra.
Qed.
Example C87_instance : exists s', update_for_phase_over_one le0 (lf_step lfo_new 7 0 1) LsStepSequencer 0 = Ok s' /\ f_step s' = 0 /\ f_ratemult s' = 100%R.
Proof. eexists. split; [reflexivity|]. split; [reflexivity|]. cbn. rewrite Rmin_left by lra. lra. Qed.
Print Assumptions C44_held_range_partial.
Print Assumptions C44_stages.
Print Assumptions C44_stuck.
Print Assumptions C44_trigger.
Print Assumptions C44_release_refuted.
Print Assumptions C86_phase_wrap.
Print Assumptions C86_frequency.
Print Assumptions C86_runaway_refuted.
Print Assumptions C86_waveform.
Print Assumptions C86_deform.
Print Assumptions C86_bounded.
Print Assumptions C86_output_ignored_refuted.
Print Assumptions C86_deform_type_refuted.
Print Assumptions C86_fresh_panics_refuted.
Print Assumptions C86_noise_memoryless_refuted.
Print Assumptions C87_advance.
Print Assumptions C87_loop.
Print Assumptions C87_flags_only_on_turns.
Print Assumptions C87_shuffle_refuted.
Print Assumptions C87_step_overflow_refuted.
Print Assumptions C87_glide.
Print Assumptions C87_no_glide.
Print Assumptions C88_key_trigger.
Print Assumptions C88_random_refuted.
Print Assumptions C88_freerun_refuted.
