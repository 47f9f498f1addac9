(** Further theorems about C44, C87, C185, C187, C193, C196, C198, C199, C204, C205, C207, C209: facts that wrong programs tried against the
    earlier theorems (seeded/LOG.jsonl) showed to be missing. *)
From Coq Require Import Reals Lra Psatz Lia.
From Verif Require OscProps.
From Verif Require Import Base Util BlockModel RampProps LagModel MathModel BiquadModel BiquadProofs TuneModel ParamModel AdsrModel LfoModel DelayModel RingModel QfModel RotaryModel ChorusModel ChorusProps PhaserModel OscModel UnitModel FiltModel VoiceModel.
Local Open Scope R_scope.

(** * C44: each stage of the LFO's envelope lasts as its own parameter says *)
Definition stage_time (e : lenv) (st : lstate) (p : pdataR) : Prop := In (st, p) [(LDelay, l_delay e); (LAttack, l_attack e); (LHold, l_hold e); (LDecay, l_decay e); (LRelease, l_release e)].
Theorem C44_stage_times : forall e s st p x su, stage_time e st p -> p = PFloat x -> f_state s = st -> l_sustain e = PInt su ->
  let step := l_table e x * (if l_sync e st then l_ratio e else 1) in f_envphase s + step <= 1 ->
  exists s', update_envelope e s = Ok s' /\ f_state s' = st /\ f_envphase s' = f_envphase s + step.
Proof.
  intros e s st p x su H P S U step B. unfold update_envelope. rewrite S.
  assert (E : stage_param e st = p). { unfold stage_time in H. cbn [In] in H. destruct H as [H|[H|[H|[H|[H|[]]]]]]; assert (X := f_equal fst H); assert (Y := f_equal snd H); cbn [fst snd] in X, Y; rewrite <- X; exact Y. }
  assert (Q : obind (pvalf (stage_param e st)) (fun y => Ok (if l_sync e st then l_table e y * l_ratio e else l_table e y)) = Ok step).
  { rewrite E, P. cbn [pvalf obind]. unfold step. destruct (l_sync e st); [reflexivity|now rewrite Rmult_1_r]. }
  assert (N : st <> LOff /\ st <> LStuck). { unfold stage_time in H. cbn [In] in H. destruct H as [H|[H|[H|[H|[H|[]]]]]]; assert (X := f_equal fst H); cbn [fst] in X; rewrite <- X; split; discriminate. }
  assert (Q' : calculate_envrate e st = Ok step) by (unfold calculate_envrate; destruct N; destruct st; try exact Q; congruence).
  rewrite Q'. cbn [obind]. rewrite U. cbn [pvali obind]. cbn [lf_env f_envphase]. destruct (Rlt_dec 1 (f_envphase s + step)); [lra|]. eexists. split; [reflexivity|]. unfold update_envelope_value. cbn [lf_env f_state f_envphase]. split; reflexivity.
Qed.
Print Assumptions C44_stage_times.

(** * C87: with a smooth step sequence each cycle starts at the old step's value and ends at the new one's *)
Theorem C87_smooth_passes_through : forall s d, 1 / 2 < d -> (f_phase s = 0 -> stepseq_iout s d = f_h2 s) /\ (f_phase s = 1 -> stepseq_iout s d = f_h1 s) /\
  (forall h, f_h0 s = h -> f_h1 s = h -> f_h2 s = h -> f_h3 s = h -> stepseq_iout s d = h).
Proof.
  intros s d D. unfold stepseq_iout. cbv zeta. destruct (Rlt_dec (1 / 2) d); [|lra]. unfold cubic_interpolate. cbv zeta. repeat split.
  - intros ->. ring. - intros ->. ring. - intros h -> -> -> ->. ring.
Qed.
Print Assumptions C87_smooth_passes_through.
Theorem C87_glide_passes_through : forall s d, 0 <= d <= 49 / 100 -> (f_phase s = 0 -> stepseq_iout s d = f_h2 s) /\ (f_phase s = 1 -> stepseq_iout s d = f_h1 s).
Proof.
  intros s d D. unfold stepseq_iout. cbv zeta. destruct (Rlt_dec (1 / 2) d); [lra|]. destruct (Rlt_dec (-1 / 10000) d); [|lra]. unfold rclamp. split; intros ->.
  - replace (0 / (2 * d + 1 / 100000)) with 0 by (unfold Rdiv; ring). rewrite Rmax_left by lra. rewrite Rmin_left by lra. ring.
  - assert (1 <= 1 / (2 * d + 1 / 100000)). { apply Rcomplements.Rle_div_r; lra. } rewrite Rmax_left by lra. rewrite Rmin_right by lra. ring.
Qed.
Print Assumptions C87_glide_passes_through.

(** * C209: the rotary speaker is mono: it hears the average of the two channels *)
Theorem C209_hears_the_average : forall tab sr p s xs, ro_process tab sr p s xs = ro_process tab sr p s (map (fun x => ((fst x + snd x) / 2, (fst x + snd x) / 2)) xs).
Proof.
  intros tab sr p s xs. unfold ro_process. rewrite map_map. replace (map (fun x => ro_in ((fst x + snd x) / 2, (fst x + snd x) / 2)) xs) with (map ro_in xs); [reflexivity|].
  apply map_ext. intros x. unfold ro_in. cbn [fst snd]. field.
Qed.
Print Assumptions C209_hears_the_average.

(** * C205: each voice's delay follows its own triangle: longest when its phase is 0 or 1, shortest half a turn later *)
Definition triangle (x : R) : R := if Rle_dec x (1 / 2) then 1 - 4 * x else 4 * x - 3.
Lemma times_targets sr p : forall ls xs, length ls = length xs -> map l_target (ch_times sr p ls xs) = map (ch_target sr p) xs.
Proof.
  induction ls as [|l ls IH]; intros [|x xs] H; try discriminate; [reflexivity|]. cbn [ch_times map]. rewrite IH by (cbn in H; lia). f_equal. unfold lag_new_value. destruct (l_first l); reflexivity.
Qed.
Theorem C205_delay_targets : forall sr p s, length (c_time s) = length (c_phase s) -> let s' := ch_update sr p s in
  map l_target (c_time s') = map (fun x => centre sr p * (1 + cp_depth p * triangle x)) (c_phase s').
Proof.
  intros sr p s L. cbv zeta. unfold ch_update. cbn [c_time c_phase]. rewrite times_targets by (now rewrite map_length). apply map_ext. intros x. unfold ch_target, centre, triangle, ch_tri.
  assert (T : 2 * Rabs (2 * x - 1) - 1 = if Rle_dec x (1 / 2) then 1 - 4 * x else 4 * x - 3). { destruct (Rle_dec x (1 / 2)); [rewrite Rabs_left1 by lra|rewrite Rabs_pos_eq by lra]; lra. }
  rewrite T. ring.
Qed.
Print Assumptions C205_delay_targets.
(** * C207: each block aims both filters at the cutoffs asked for *)
Definition aimed_at (c : coef6) (b : biquad) : Prop :=
  vl_target (q_a1 b) = c_a1 c / c_a0 c /\ vl_target (q_a2 b) = c_a2 c / c_a0 c /\ vl_target (q_b0 b) = c_b0 c / c_a0 c /\ vl_target (q_b1 b) = c_b1 c / c_a0 c /\ vl_target (q_b2 b) = c_b2 c / c_a0 c.
Lemma set_coef_aims c b : aimed_at c (set_coef c b).
Proof. unfold aimed_at, set_coef. cbv zeta. destruct (q_first b); cbn; repeat split; unfold Rdiv; ring. Qed.
Theorem C207_filters_follow : forall sr p s, let s' := ch_update sr p s in aimed_at (design_lp2b (cp_lp p) (707 / 1000)) (c_lp s') /\ aimed_at (design_hp (cp_hp p) (707 / 1000)) (c_hp s').
Proof. intros sr p s. cbv zeta. unfold ch_update. cbn [c_lp c_hp]. split; apply set_coef_aims. Qed.
Print Assumptions C207_filters_follow.

(** * C193: a level is the cube of its parameter, 0 below 0 *)
Theorem C193_level_law : forall x, (0 <= x -> amp_to_linearR x = x ^ 3) /\ (x <= 0 -> amp_to_linearR x = 0).
Proof. intros x. unfold amp_to_linearR. split; intros H; [rewrite Rmax_left by lra; ring|rewrite Rmax_right by lra; ring]. Qed.
Print Assumptions C193_level_law.
(** * C196: a replaced oscillator is initialised exactly if its own slot was switched on *)
Theorem C196_own_switch : forall w0 w1 w2 solo mute s, let s' := toggle_oscs (w0, w1, w2) solo mute s in
  Forall (fun '(old, new, want, on) => os_type old <> want -> spawn_osc want <> None -> os_inited new = on)
    [(ol0 s, ol0 s', w0, mx_o0 (ol_sw s)); (ol1 s, ol1 s', w1, mx_o1 (ol_sw s)); (ol2 s, ol2 s', w2, mx_o2 (ol_sw s))].
Proof.
  intros w0 w1 w2 solo mute s. cbv zeta. unfold toggle_oscs. cbn [ol0 ol1 ol2].
  assert (X : forall on want o, os_type o <> want -> spawn_osc want <> None -> os_inited (toggle_osc1 on want o) = on).
  { intros on want o N P. unfold toggle_osc1. destruct (osctype_eqb (os_type o) want) eqn:E; [exfalso; apply N; destruct (os_type o), want; try discriminate; reflexivity|]. cbn [os_inited]. destruct (spawn_osc want); [apply andb_true_r|congruence]. }
  constructor; [apply X|]. constructor; [apply X|]. constructor; [apply X|]. constructor.
Qed.
Print Assumptions C196_own_switch.
(** * C198: taking a voice's state back from the quad leaves the increments, the targets, and the other slots' filter types alone *)
Theorem C198_sync_keeps : forall wide e t0 t1 q s u, (u < 2)%nat -> let s' := sync_units wide e t0 t1 q s in
  cm_dcoeff (fs_c s' u) = cm_dcoeff (fs_c s u) /\ cm_tcoeff (fs_c s' u) = cm_tcoeff (fs_c s u) /\ cm_first (fs_c s' u) = cm_first (fs_c s u) /\ fu_ty (fs_u s' u) = fu_ty (fs_u s u) /\ fu_sub (fs_u s' u) = fu_sub (fs_u s u).
Proof.
  intros wide e t0 t1 q s u H. cbv zeta. unfold sync_units, sync_slot.
  destruct u as [|[|u]]; [| |lia]; destruct (t0 =? 0)%Z, (t1 =? 0)%Z, wide; cbn [fs_c fs_u put Nat.eqb Nat.add cm_dcoeff cm_tcoeff cm_first fu_ty fu_sub]; repeat split.
Qed.
Print Assumptions C198_sync_keeps.

(** * C187: the feedback glides to 0.95 of the parameter in exactly the eight blocks until the next update: with |parameter| <= 1 it is never 1 *)
Definition fb_after (n : nat) (l l' : lipol) : Prop := p_v l' = p_v l + INR n * p_dv l /\ p_dv l' = p_dv l /\ p_bsinv l' = p_bsinv l.
Lemma fb_samples : forall xs s, fb_after (length xs) (ph_fb s) (ph_fb (fst (ph_samples s xs))) /\ ph_bi (fst (ph_samples s xs)) = ph_bi s.
Proof.
  induction xs as [|x xs IH]; intros s; [cbn; unfold fb_after; cbn; repeat split; lra|]. cbn [ph_samples]. destruct (ph_sample s x) as [s1 y] eqn:E.
  assert (F : ph_fb s1 = lipol_process (ph_fb s) /\ ph_bi s1 = ph_bi s). { unfold ph_sample in E. cbv zeta in E. destruct (ph_channel _ (ph_l s) _ _), (ph_channel _ (ph_r s) _ _). assert (X := f_equal fst E). cbn [fst] in X. rewrite <- X. split; reflexivity. }
  destruct F as [F G]. specialize (IH s1). destruct (ph_samples s1 xs) as [s2 ys]. cbn [fst] in *. destruct IH as [(A & B & C) D]. rewrite F in A, B, C. cbn [lipol_process p_v p_dv p_bsinv] in A, B, C. cbn [length]. split; [|now rewrite D].
  unfold fb_after. rewrite S_INR. repeat split; [rewrite A; ring|exact B|exact C].
Qed.
Lemma fb_process n2p srinv p s xs s' ys : ph_process n2p srinv p s xs = Ok (s', ys) ->
  fb_after (length xs) (if (ph_bi s =? 0)%Z then lipol_new_value (ph_fb s) (95 / 100 * pp_fb p) else ph_fb s) (ph_fb s') /\ ph_bi s' = Z.land (ph_bi s + 1) 7.
Proof.
  intros E. unfold ph_process in E.
  assert (U : forall s1, ph_update n2p srinv p s = Ok s1 -> ph_fb s1 = lipol_new_value (ph_fb s) (95 / 100 * pp_fb p) /\ ph_bi s1 = ph_bi s).
  { intros s1 H. unfold ph_update in H. cbv zeta in H. destruct (ph_tune _ _ _ _ _ _ (ph_l s)); cbn [obind] in H; [|discriminate|discriminate]. destruct (ph_tune _ _ _ _ _ _ (ph_r s)); cbn [obind] in H; [|discriminate|discriminate]. match type of H with Ok ?t = Ok _ => assert (X : s1 = t) by congruence end. rewrite X. split; reflexivity. }
  match type of E with obind ?z _ = _ => destruct z as [s1| |] eqn:V; cbn [obind] in E; [|discriminate E|discriminate E] end.
  cbv zeta in E. set (s2 := mk_ph _ _ _ _ _ _ _ _) in E. destruct (ph_samples s2 xs) as [s3 zs] eqn:P. assert (X := f_equal (fun r => match r with Ok x => fst x | _ => s end) E). cbn [fst] in X. rewrite <- X. cbn [ph_fb ph_bi].
  destruct (fb_samples xs s2) as [A B]. rewrite P in A, B. cbn [fst] in A, B. rewrite B. unfold s2 in *. cbn [ph_bi ph_fb] in *.
  destruct (ph_bi s =? 0)%Z; [destruct (U s1 V) as [Y Z]; rewrite Y in A; rewrite Z; split; [exact A|reflexivity]|]. assert (s1 = s) by congruence. subst s1. split; [exact A|reflexivity].
Qed.
Lemma fb_run n2p srinv : forall h s s' yss, ph_run n2p srinv s h = Ok (s', yss) -> p_bsinv (ph_fb s') = p_bsinv (ph_fb s).
Proof.
  induction h as [|[p xs] h IH]; intros s s' yss H; cbn [ph_run] in H; [congruence|]. destruct (ph_process n2p srinv p s xs) as [[s1 ys]| |] eqn:E; cbn [obind] in H; [|discriminate|discriminate].
  destruct (ph_run n2p srinv s1 h) as [[s2 zs]| |] eqn:F; cbn [obind] in H; [|discriminate|discriminate]. assert (s' = s2) by congruence. subst s2. rewrite (IH _ _ _ F). apply fb_process in E. destruct E as [(_ & _ & X) _]. rewrite X. destruct (ph_bi s =? 0)%Z; reflexivity.
Qed.
Lemma fb_steady n2p srinv p : forall xss b s s' yss, (1 <= b)%Z -> (b + Z.of_nat (length xss) <= 8)%Z -> ph_bi s = b -> Forall (fun xs : list (R * R) => length xs = 32%nat) xss -> ph_run n2p srinv s (map (pair p) xss) = Ok (s', yss) ->
  fb_after (32 * length xss) (ph_fb s) (ph_fb s').
Proof.
  induction xss as [|xs xss IH]; intros b s s' yss Hb Hl HB F H; cbn [map ph_run] in H; [assert (s' = s) by congruence; subst s'; unfold fb_after; cbn; repeat split; lra|].
  destruct (ph_process n2p srinv p s xs) as [[s1 ys]| |] eqn:E; cbn [obind] in H; [|discriminate|discriminate]. destruct (ph_run n2p srinv s1 (map (pair p) xss)) as [[s2 zs]| |] eqn:G; cbn [obind] in H; [|discriminate|discriminate].
  assert (s' = s2) by congruence. subst s2. apply fb_process in E. destruct E as [E EB]. cbn [length] in Hl. inversion F as [|? ? F1 F2]; subst. rewrite F1 in E. destruct (Z.eqb_spec (ph_bi s) 0); [lia|].
  destruct (Nat.eq_dec (length xss) 0) as [Z0|Z0].
  - destruct xss; [|discriminate]. cbn [map ph_run] in G. assert (s' = s1) by congruence. subst s'. exact E.
  - assert (L7 : ph_bi s1 = (ph_bi s + 1)%Z). { rewrite EB. change 7%Z with (Z.ones 3). rewrite Z.land_ones by lia. apply Z.mod_small. change (2 ^ 3)%Z with 8%Z. lia. }
    specialize (IH (ph_bi s + 1)%Z s1 s' zs ltac:(lia) ltac:(lia) L7 F2 G). destruct E as (A & B & C), IH as (A' & B' & C'). unfold fb_after. rewrite A', A, B', B, C', C. cbn [length]. repeat split. replace (32 * Datatypes.S (length xss))%nat with (32 + 32 * length xss)%nat by lia. rewrite plus_INR. ring.
Qed.
Theorem C187_feedback_follows : forall n2p srinv h p xss s yss s' zss, ph_run n2p srinv ph_init h = Ok (s, yss) -> ph_bi s = 0%Z -> length xss = 8%nat -> Forall (fun xs : list (R * R) => length xs = 32%nat) xss ->
  ph_run n2p srinv s (map (pair p) xss) = Ok (s', zss) -> p_v (ph_fb s') = 95 / 100 * pp_fb p.
Proof.
  intros n2p srinv h p xss s yss s' zss H B L F K. apply fb_run in H. cbn [ph_init ph_fb lipol_new lipol_set_blocksize p_bsinv] in H. destruct xss as [|xs xss]; [discriminate|]. cbn [map ph_run] in K.
  destruct (ph_process n2p srinv p s xs) as [[s1 ys]| |] eqn:E; cbn [obind] in K; [|discriminate|discriminate]. destruct (ph_run n2p srinv s1 (map (pair p) xss)) as [[s2 zs]| |] eqn:G; cbn [obind] in K; [|discriminate|discriminate].
  assert (s' = s2) by congruence. subst s2. apply fb_process in E. destruct E as [E EB]. rewrite B in E, EB. cbn [Z.eqb] in E. inversion F as [|? ? F1 F2]; subst. rewrite F1 in E. assert (L' : length xss = 7%nat) by (cbn in L; lia).
  destruct (fb_steady n2p srinv p xss 1 s1 s' zs ltac:(lia) ltac:(lia) EB F2 G) as (A & _ & _). destruct E as (A1 & B1 & _). rewrite A, A1, B1, L'. unfold lipol_new_value. cbv zeta. cbn [p_v p_dv]. rewrite H. rewrite !INR_IZR_INZ. change (Z.of_nat (32 * 7)) with 224%Z. change (Z.of_nat 32) with 32%Z. change (Z.of_nat 256) with 256%Z. lra.
Qed.
Print Assumptions C187_feedback_follows.
(** * C185: the LFO starts in the middle of its travel: with rate and stereo at 0 the first block sounds the same at every depth *)
Definition with_depth (p : phpar) (d : R) : phpar := mk_pp (pp_base p) (pp_fb p) (pp_q p) (pp_rate p) d (pp_stereo p) (pp_mix p).
Theorem C185_starts_in_the_middle : forall n2p srinv p d xs, pp_rate p = 0 -> pp_stereo p = 0 -> ph_process n2p srinv p ph_init xs = ph_process n2p srinv (with_depth p d) ph_init xs.
Proof.
  intros n2p srinv p d xs HR HS.
  assert (T : forall fs ps bs, ph_tune n2p srinv p 0 fs ps bs = ph_tune n2p srinv (with_depth p d) 0 fs ps bs).
  { induction fs as [|f fs IH]; intros [|a ps] [|b bs]; try reflexivity. cbn [ph_tune]. assert (W : ph_omega n2p srinv p 0 f a = ph_omega n2p srinv (with_depth p d) 0 f a). { unfold ph_omega, with_depth. cbn [pp_base pp_depth]. replace (2 * pp_base p + f + a * 0 * d) with (2 * pp_base p + f + a * 0 * pp_depth p) by ring. reflexivity. } rewrite W, IH. reflexivity. }
  assert (PH : forall q, ph_phase ph_init + 8 * 0 = q -> ph_lfo (ph_wrap q) = 0 /\ ph_lfo (ph_wrap (ph_wrap q + 1 / 2 * 0)) = 0).
  { intros q Hq. assert (Q : q = 1 / 4) by (rewrite <- Hq; cbn [ph_init ph_phase]; lra). assert (W : ph_wrap q = 1 / 4) by (rewrite Q; unfold ph_wrap; destruct (Rlt_dec 1 (1 / 4)); [lra|reflexivity]). rewrite W. replace (1 / 4 + 1 / 2 * 0) with q by lra. rewrite W. unfold ph_lfo. replace (2 - 4 * (1 / 4)) with 1 by lra. rewrite Rabs_R1. lra. }
  unfold ph_process. cbn [ph_init ph_bi Z.eqb]. fold ph_init. assert (U : ph_update n2p srinv p ph_init = ph_update n2p srinv (with_depth p d) ph_init); [|rewrite U; reflexivity].
  unfold ph_update. cbv zeta. cbn [with_depth pp_rate pp_stereo pp_fb]. rewrite HR, HS. destruct (PH _ eq_refl) as [A B]. rewrite A, B, !T. reflexivity.
Qed.
Print Assumptions C185_starts_in_the_middle.

(** * C199: retriggering starts the sine oscillator over: nothing of its phase, feedback memory and drift is left *)
Theorem C199_restarts : forall s s', so_fmd s = so_fmd s' -> so_fb s = so_fb s' -> so_out s = so_out s' -> qo_dr (so_sine s) = qo_dr (so_sine s') -> qo_di (so_sine s) = qo_di (so_sine s') -> sine_init s = sine_init s'.
Proof. intros s s' A B C D E. unfold sine_init, qo_set_phase. rewrite A, B, C, D, E. reflexivity. Qed.
Print Assumptions C199_restarts.
(** * C204: what FM does where there is a modulator *)
Fixpoint sum_to (n : nat) (f : nat -> R) : R := match n with O => 0 | Datatypes.S k => sum_to k f + f k end.
Lemma legacy_run shape w f : forall n k s, exists s' ys, srun (sine_legacy_fm_sample shape w (Some f)) k n s = Ok (s', ys) /\ so_fmd s' = Nat.iter n lag_process (so_fmd s) /\
  so_phase s' = so_phase s + INR n * w + sum_to n (fun i => f (k + i)%nat * l_v (Nat.iter i lag_process (so_fmd s))).
Proof.
  induction n as [|n IH]; intros k s; [exists s, []; cbn; repeat split; lra|]. cbn [srun sine_legacy_fm_sample read_master obind].
  match goal with |- context [srun _ _ n ?z] => destruct (IH (Datatypes.S k) z) as (s' & ys & E & F & P) end. rewrite E. cbn [obind].
  exists s', (sine_shape (sin (so_phase s)) (cos (so_phase s)) shape :: ys). split; [reflexivity|]. cbn [so_fmd] in F. split; [rewrite F, <- BiquadProofs.iter_S_r; reflexivity|].
  rewrite P. cbn [so_phase so_fmd]. rewrite S_INR. assert (X : forall m, sum_to (Datatypes.S m) (fun i => f (k + i)%nat * l_v (Nat.iter i lag_process (so_fmd s))) = f k * l_v (so_fmd s) + sum_to m (fun i => f (Datatypes.S k + i)%nat * l_v (Nat.iter i lag_process (lag_process (so_fmd s))))).
  { induction m as [|m IHm]; [cbn [sum_to Nat.iter nat_rect]; rewrite Nat.add_0_r; lra|]. cbn [sum_to] in *. rewrite IHm. rewrite <- BiquadProofs.iter_S_r. replace (k + Datatypes.S m)%nat with (Datatypes.S k + m)%nat by lia. lra. }
  rewrite X. lra.
Qed.
Theorem C204_legacy_fm : forall t inv shape fb c s f w, oc_fm c = true -> oc_master c = Some f -> omega_of t inv (oc_pitch c + oc_drift c * fst (osc_drift_block (so_d1 s, so_d2 s) (oc_rand c))) = Ok w ->
  exists s', sine_block t inv shape fb 0 c s = Ok s' /\
    so_phase s' = so_phase s + 64 * w + sum_to 64 (fun i => f i * l_v (Nat.iter i lag_process (lag_new_value (so_fmd s) (oc_depth c)))).
Proof.
  intros t inv shape fb c s f w HF HM HW. unfold sine_block. destruct (osc_drift_block (so_d1 s, so_d2 s) (oc_rand c)) as [d1 d2]. cbn [fst] in HW. rewrite HW. cbn [obind]. change (0 =? 0)%Z with true. cbv iota zeta. rewrite HF, HM.
  set (s0 := mk_so _ _ _ _ _ _ _ _). destruct (legacy_run shape w f os_block 0 s0) as (s' & ys & E & _ & P). rewrite E. cbn [obind]. eexists. split; [reflexivity|]. cbn [so_phase]. rewrite P. unfold s0. cbn [so_phase so_fmd Nat.add]. unfold os_block. rewrite (INR_IZR_INZ 64). change (Z.of_nat 64) with 64%Z. reflexivity.
Qed.
Print Assumptions C204_legacy_fm.
(** ... and the other behaviour moves the phase heard, by 32 pi depth^3 times the modulator: the first sample of a fresh oscillator *)
Lemma srun_S {A} (g : nat -> A -> res (A * R)) k n s : srun g k (Datatypes.S n) s = obind (g k s) (fun '(s1, y) => obind (srun g (Datatypes.S k) n s1) (fun '(s2, ys) => Ok (s2, y :: ys))).
Proof. reflexivity. Qed.
Opaque srun.
Theorem C204_fm_depth : forall t inv shape fb b c f w, (b <> 0)%Z -> oc_fm c = true -> oc_master c = Some f -> omega_of t inv (oc_pitch c + oc_drift c * fst (osc_drift_block (0, 0) (oc_rand c))) = Ok w ->
  forall s', sine_block t inv shape fb b c sine_new = Ok s' -> let theta := 32 * PI * oc_depth c ^ 3 * f 0%nat in hd 0 (fst (so_out s')) = sine_shape (sin theta) (cos theta) shape.
Proof.
  intros t inv shape fb b c f w HB HF HM HW s' E. cbv zeta. unfold sine_block in E. cbn [sine_new so_d1 so_d2] in E. destruct (osc_drift_block (0, 0) (oc_rand c)) as [d1 d2]. cbn [fst] in HW. rewrite HW in E. cbn [obind] in E. cbv zeta in E. destruct (Z.eqb_spec b 0); [congruence|]. rewrite HF, HM in E.
  set (s0 := mk_so _ _ _ _ _ _ _ _) in E. change os_block with (Datatypes.S 63) in E. rewrite srun_S in E. unfold sine_sample at 1 in E. cbn [read_master obind] in E. cbv zeta in E.
  match type of E with context [srun ?g ?k ?m ?x] => destruct (srun g k m x) as [[s2 ys]| |]; cbn [obind] in E; [|discriminate|discriminate] end.
  assert (X := f_equal (fun r => match r with Ok x => so_out x | _ => so_out s' end) E). cbv beta iota in X. cbn [so_out] in X. rewrite <- X. unfold outs. cbn [fst hd]. unfold s0. cbn [so_phase so_last so_fmd lag_new_value sine_new lag_new l_first l_v]. replace (0 + 0 + 32 * PI * oc_depth c * oc_depth c * oc_depth c * f 0%nat) with (32 * PI * oc_depth c ^ 3 * f 0%nat) by ring. reflexivity.
Qed.
Print Assumptions C204_fm_depth.
Example C205_targets_instance : forall p, length (c_time (ch_init p ch_new)) = length (c_phase (ch_init p ch_new)) /\ triangle 0 = 1 /\ triangle (1 / 2) = -1 /\ triangle 1 = 1.
Proof. intros p. split; [reflexivity|]. unfold triangle. destruct (Rle_dec 0 (1 / 2)); [|lra]. destruct (Rle_dec (1 / 2) (1 / 2)); [|lra]. destruct (Rle_dec 1 (1 / 2)); lra. Qed.
Example C204_fm_instance : forall t, exists w, omega_of (tuner_init t) (1 / 88200) (69 + 0 * fst (osc_drift_block (0, 0) 0)) = Ok w.
Proof. intros t. rewrite Rmult_0_l, Rplus_0_r. destruct (OscProps.C199_concert_pitch t) as (f & H & _). exists (Rmin PI (2 * PI * f / (2 * 44100))). replace (1 / 88200) with (1 / (2 * 44100)) by lra. apply OscProps.C199_frequency; [lra|exact H]. Qed.
Example C196_own_switch_instance : exists s, toggle_oscs (OtFM, OtSine, OtSine) sw_off sw_off s <> s /\ os_type (ol1 s) <> OtSine /\ spawn_osc OtSine <> None.
Proof. exists (mk_osl oslot_new oslot_new oslot_new sw_off). split; [intros X; apply (f_equal (fun z => os_type (ol0 z))) in X; discriminate|]. split; discriminate. Qed.
