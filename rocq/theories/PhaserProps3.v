(** C187 over whole histories, and C188: the phaser's stereo and mix. *)
From Coq Require Import Reals Lra Psatz Lia.
From Verif Require Import Base Util LagModel BiquadModel BiquadProofs BlockModel RampProps ParamModel TuneModel PhaserModel PhaserProps PhaserProps2.
Local Open Scope R_scope.

Lemma F2_length {A B} {P : A -> B -> Prop} {l m} : Forall2 P l m -> length l = length m.
Proof. induction 1; cbn; congruence. Qed.
(** a section that holds the design [c] *)
Definition held (c : coef6) (b : biquad) : Prop := settled b /\ q_first b = false /\ coefs b = coefs (set_coef c bq_new).
Lemma held_fixed c b : held c b -> set_coef c b = b.
Proof.
  intros ((A1 & A2 & A3 & A4 & A5) & F & C). destruct b as [[a1 a1t] [a2 a2t] [b0 b0t] [b1 b1t] [b2 b2t] r0 r1 r2 r3 f]. cbn in A1, A2, A3, A4, A5, F. subst. unfold coefs in C. cbn in C. injection C as -> -> -> -> ->. reflexivity.
Qed.
Lemma held_set c : held c (set_coef c bq_new).
Proof. split; [apply settled_new|]. split; reflexivity. Qed.
Lemma held_step c b x : held c b -> held c (fst (process_sample b x)).
Proof.
  intros (S & F & C). destruct (ps_frame b x S) as [P1 P2]. split; [exact P1|]. split; [|congruence]. unfold process_sample. rewrite step_settled by exact S. exact F.
Qed.
Lemma held_chain : forall cs bs x, Forall2 held cs bs -> Forall2 held cs (fst (chain bs x)).
Proof.
  intros cs bs x H. revert x. induction H as [|c b cs bs H0 H IH]; intros x; [constructor|]. cbn [chain]. pose proof (held_step c b x H0). destruct (process_sample b x) as [b' y]. specialize (IH y). destruct (chain bs y) as [bs' z]. now constructor.
Qed.
(** tuning with the LFO switched off *)
Section Still.
Context (n2p : R -> res R) (srinv : R) (p : phpar).
Hypothesis D0 : pp_depth p = 0.
Definition still_design (f v : R) : coef6 := design_apf (2 * PI * 440 * v * srinv) (1 + 8 / 10 * pp_q p).
Lemma tune_still : forall fs ps vs bs lfo, length ps = length fs -> length bs = length fs -> Forall2 (fun f v => n2p (12 * (2 * pp_base p + f)) = Ok v) fs vs ->
  ph_tune n2p srinv p lfo fs ps bs = Ok (map (fun '(v, b) => set_coef (still_design 0 v) b) (combine vs bs)).
Proof.
  induction fs as [|f fs IH]; intros [|a ps] vs [|b bs] lfo L1 L2 F; try discriminate; inversion F as [|f0 v fs0 vs' E F']; subst; [reflexivity|].
  cbn [ph_tune combine map]. unfold ph_omega. cbv zeta. rewrite D0, Rmult_0_r, Rplus_0_r, E. cbn [obind]. rewrite (IH ps vs' bs lfo) by (cbn in *; congruence || assumption). reflexivity.
Qed.
End Still.
Lemma held_map srinv p vs : forall bs, Forall2 held (map (still_design srinv p 0) vs) bs -> map (fun '(v, b) => set_coef (still_design srinv p 0 v) b) (combine vs bs) = bs.
Proof. induction vs as [|v vs IH]; intros bs H; inversion H as [|c b cs bs' H0 H1]; subst; [reflexivity|]. cbn [combine map]. rewrite held_fixed by exact H0. now rewrite IH. Qed.
Lemma held_first srinv p : forall vs, Forall2 held (map (still_design srinv p 0) vs) (map (fun '(v, b) => set_coef (still_design srinv p 0 v) b) (combine vs (repeat bq_new (length vs)))).
Proof. induction vs as [|v vs IH]; [constructor|]. cbn [map length repeat combine]. constructor; [apply held_set|exact IH]. Qed.
Lemma chain_run_app : forall us ws bs, chain_run bs (us ++ ws) = (fst (chain_run (fst (chain_run bs us)) ws), snd (chain_run bs us) ++ snd (chain_run (fst (chain_run bs us)) ws)).
Proof.
  induction us as [|u us IH]; intros ws bs; [cbn [app chain_run fst snd]; destruct (chain_run bs ws); reflexivity|]. cbn [app chain_run]. destruct (chain bs u) as [b1 y]. rewrite IH. destruct (chain_run b1 us) as [b2 ys]. cbn [fst snd]. destruct (chain_run b2 ws). reflexivity.
Qed.
(** what a block of samples does to the two chains *)
Lemma samples_fed : forall xs s, exists ul ur, Forall (fun u => Rabs u <= 32) ul /\ Forall (fun u => Rabs u <= 32) ur /\
  (ph_l (fst (ph_samples s xs)), map fst (snd (ph_samples s xs))) = chain_run (ph_l s) ul /\ (ph_r (fst (ph_samples s xs)), map snd (snd (ph_samples s xs))) = chain_run (ph_r s) ur.
Proof.
  induction xs as [|x xs IH]; intros s; [exists [], []; repeat split; constructor|]. cbn [ph_samples]. unfold ph_sample, ph_channel. set (v := p_v (lipol_process (ph_fb s))).
  set (u := limit_range_R (fst x + ph_dl s * v) (-32) 32). set (w := limit_range_R (snd x + ph_dr s * v) (-32) 32).
  assert (K : forall z, Rabs (limit_range_R z (-32) 32) <= 32) by (intros z; unfold limit_range_R, Rmin, Rmax; apply Rabs_le; destruct (Rle_dec _ (-32)); destruct (Rle_dec _ 32); lra).
  destruct (chain (ph_l s) u) as [l yl] eqn:C1. destruct (chain (ph_r s) w) as [r yr] eqn:C2. set (s1 := mk_ph _ _ _ _ _ _ _ _). destruct (IH s1) as (ul & ur & F1 & F2 & E1 & E2).
  destruct (ph_samples s1 xs) as [s2 ys]. cbn [fst snd map] in *. exists (u :: ul), (w :: ur). split; [constructor; [apply K|exact F1]|]. split; [constructor; [apply K|exact F2]|].
  cbn [chain_run]. rewrite C1, C2. change (ph_l s1) with l in E1. change (ph_r s1) with r in E2. rewrite <- E1, <- E2. split; reflexivity.
Qed.
(** full mix: what is played is the wet signal *)
Definition full (m : lipolps R) : Prop := ps_current m = 1 /\ ps_target m = 1 /\ ps_coef m = 1 / 4 /\ ps_coef_m1 m = 3 / 4.
Lemma full_gain m i : full m -> gain8 arithR m i = 1.
Proof.
  intros (C & T & _). unfold gain8, rampreg, ps_initblock. rewrite C, T. destruct (Z.even (i / 4)); unfold vadd, vmul, set1, starter, lit; cbn; ring.
Qed.
Lemma full_target m x : full m -> 1 <= x -> full (ps_set_target_smoothed arithR m (limit_range_R x 0 1)).
Proof.
  intros (C & T & K1 & K2) H. unfold full. cbn. rewrite T, K1, K2. assert (E : limit_range_R x 0 1 = 1) by (unfold limit_range_R; rewrite Rmax_left, Rmin_right by lra; reflexivity). rewrite E.
  repeat split; try exact K1; try exact K2; try reflexivity; field.
Qed.
Lemma full_fades m : full m -> forall xs ys i, length ys = length xs -> ph_fades m i xs ys = ys.
Proof.
  intros F. induction xs as [|x xs IH]; intros [|y ys] i L; try discriminate L; [reflexivity|]. cbn [ph_fades]. rewrite IH by (cbn in L; congruence). unfold ph_fade. cbv zeta. rewrite full_gain by exact F. destruct y as [a b]. cbn. f_equal. f_equal; ring.
Qed.
Theorem C188_full_mix : forall n2p srinv p s xs s' ys, full (ph_mix s) -> 1 <= pp_mix p -> ph_process n2p srinv p s xs = Ok (s', ys) ->
  full (ph_mix s') /\ exists s1, ys = snd (ph_samples s1 xs).
Proof.
  intros n2p srinv p s xs s' ys F M E. unfold ph_process in E.
  destruct (ph_bi s =? 0)%Z.
  - destruct (ph_update n2p srinv p s) as [s1| |] eqn:U; cbn [obind] in E; try discriminate.
    unfold ph_update in U. cbv zeta in U. destruct (ph_tune _ _ _ _ _ _ (ph_l s)) as [l| |]; cbn [obind] in U; try discriminate. destruct (ph_tune _ _ _ _ _ _ (ph_r s)) as [r| |]; cbn [obind] in U; try discriminate.
    injection U as <-. cbn [ph_l ph_r ph_fb ph_dl ph_dr ph_phase ph_bi ph_mix] in E. match type of E with (let (_, _) := ph_samples ?S _ in _) = _ => pose proof (samples_frame xs S) as FR; destruct (ph_samples S xs) as [s3 zs] eqn:Z; set (s0 := S) in * end.
    injection E as <- <-. cbn [fst snd ph_mix] in *. destruct FR as (_ & _ & _ & _ & F5 & F6). unfold s0 in F5. cbn [ph_mix] in F5. rewrite F5. split; [now apply full_target|]. exists s0. rewrite Z. cbn [snd]. apply full_fades; [now apply full_target|exact F6].
  - cbn [obind] in E. match type of E with (let (_, _) := ph_samples ?S _ in _) = _ => pose proof (samples_frame xs S) as FR; destruct (ph_samples S xs) as [s3 zs] eqn:Z; set (s0 := S) in * end.
    injection E as <- <-. cbn [fst snd ph_mix] in *. destruct FR as (_ & _ & _ & _ & F5 & F6). unfold s0 in F5. cbn [ph_mix] in F5. rewrite F5. split; [now apply full_target|]. exists s0. rewrite Z. cbn [snd]. apply full_fades; [now apply full_target|exact F6].
Qed.
Print Assumptions C188_full_mix.

(** with the LFO off and constant settings, for every history of input blocks: never a panic, and the output stays within one bound,
    whatever comes in *)
Definition ready (srinv : R) (p : phpar) (vs : list R) (s : phaser) (bs bl : list biquad) : Prop :=
  Forall2 held (map (still_design srinv p 0) vs) bl /\ length bs = 4%nat /\ map (fun '(v, b) => set_coef (still_design srinv p 0 v) b) (combine vs bs) = bl /\ (ph_bi s <> 0%Z -> bs = bl).
Lemma still_run n2p srinv p vs : pp_depth p = 0 -> 1 <= pp_mix p -> Forall2 (fun f v => n2p (12 * (2 * pp_base p + f)) = Ok v) PH_FREQ vs ->
  forall xss s bl br, ready srinv p vs s (ph_l s) bl -> ready srinv p vs s (ph_r s) br -> full (ph_mix s) ->
  exists s' yss ul ur, ph_run n2p srinv s (map (fun xs => (p, xs)) xss) = Ok (s', yss) /\ Forall (fun u => Rabs u <= 32) ul /\ Forall (fun u => Rabs u <= 32) ur /\
    map fst (concat yss) = snd (chain_run bl ul) /\ map snd (concat yss) = snd (chain_run br ur).
Proof.
  intros D M V. assert (LV : length vs = 4%nat) by (rewrite <- (F2_length V); reflexivity).
  induction xss as [|xs xss IH]; intros s bl br (H1 & L1 & T1 & Q1) (H2 & L2 & T2 & Q2) F; [exists s, [], [], []; repeat split; constructor|]. cbn [map ph_run].
  assert (U : exists s1, (forall K : phaser -> res (phaser * list (R * R)), obind (if (ph_bi s =? 0)%Z then ph_update n2p srinv p s else Ok s) K = K s1) /\ ph_l s1 = bl /\ ph_r s1 = br /\ ph_mix s1 = ph_mix s).
  { destruct (ph_bi s =? 0)%Z eqn:B; [|exists s; repeat split; [apply Q1|apply Q2]; now apply Z.eqb_neq]. unfold ph_update. cbv zeta. rewrite !(tune_still n2p srinv p D _ _ vs) by (assumption || reflexivity). cbn [obind].
    eexists. split; [reflexivity|]. cbn [ph_l ph_r ph_mix]. split; [exact T1|]. split; [exact T2|reflexivity]. }
  destruct U as (s1 & E & El & Er & Em). destruct (ph_process n2p srinv p s xs) as [[s2 ys]| |] eqn:P.
  2, 3: exfalso; unfold ph_process in P; rewrite E in P; match type of P with context[ph_samples ?a ?b] => destruct (ph_samples a b) end; discriminate.
  cbn [obind]. destruct (C188_full_mix _ _ _ _ _ _ _ F M P) as [F2 _].
  unfold ph_process in P. rewrite E in P. set (s0 := mk_ph _ _ _ _ _ _ _ _) in P. pose proof (samples_frame xs s0) as FR. destruct (samples_fed xs s0) as (ul & ur & B1 & B2 & X1 & X2).
  change (ph_l s0) with (ph_l s1) in X1. change (ph_r s0) with (ph_r s1) in X2. rewrite El in X1. rewrite Er in X2. destruct (ph_samples s0 xs) as [s3 zs]. cbn [fst snd] in *. destruct FR as (_ & _ & _ & _ & F5 & F6).
  change (ph_mix s0) with (ph_mix s1) in F5. rewrite Em in F5. rewrite full_fades in P by (try exact F6; rewrite F5; now apply full_target). injection P as <- <-.
  assert (HC : forall st us bs, Forall2 held (map (still_design srinv p 0) vs) bs -> ready srinv p vs st (fst (chain_run bs us)) (fst (chain_run bs us))).
  { clear - LV. intros st us bs H. assert (K : Forall2 held (map (still_design srinv p 0) vs) (fst (chain_run bs us))).
    - revert bs H. induction us as [|u us IH]; intros bs H; [exact H|]. cbn [chain_run]. pose proof (held_chain _ bs u H) as H'. destruct (chain bs u) as [b1 y]. specialize (IH b1 H'). destruct (chain_run b1 us). exact IH.
    - split; [exact K|]. split; [rewrite <- (F2_length K), map_length; exact LV|]. split; [now apply held_map|auto]. }
  assert (G1 : forall st, ready srinv p vs st (ph_l s3) (ph_l s3)) by (intros st; pose proof (HC st ul bl H1) as G; rewrite <- X1 in G; exact G).
  assert (G2 : forall st, ready srinv p vs st (ph_r s3) (ph_r s3)) by (intros st; pose proof (HC st ur br H2) as G; rewrite <- X2 in G; exact G).
  destruct (IH (mk_ph (ph_l s3) (ph_r s3) (ph_fb s3) (ph_dl s3) (ph_dr s3) (ph_phase s3) (ph_bi s3) (ps_set_target_smoothed arithR (ph_mix s3) (limit_range_R (pp_mix p) 0 1))) _ _ (G1 _) (G2 _) F2) as (s' & yss & ul' & ur' & R1 & R2 & R3 & R4 & R5).
  rewrite R1. cbn [obind]. exists s', (zs :: yss), (ul ++ ul'), (ur ++ ur'). split; [reflexivity|]. split; [now apply Forall_app|]. split; [now apply Forall_app|]. cbn [concat]. rewrite !map_app, !chain_run_app, <- X1, <- X2. cbn [fst snd]. now rewrite R4, R5.
Qed.
Theorem C187_constant_settings : forall n2p srinv p, pp_depth p = 0 -> 1 <= pp_mix p -> -1 <= pp_q p ->
  (forall f, In f PH_FREQ -> exists v, n2p (12 * (2 * pp_base p + f)) = Ok v /\ 0 < 2 * PI * 440 * v * srinv < PI) ->
  exists B, forall xss, exists s yss, ph_run n2p srinv ph_init (map (fun xs => (p, xs)) xss) = Ok (s, yss) /\ Forall (Forall (fun y => Rabs (fst y) <= B /\ Rabs (snd y) <= B)) yss.
Proof.
  intros n2p srinv p D M Q V.
  assert (VS : exists vs, Forall2 (fun f v => n2p (12 * (2 * pp_base p + f)) = Ok v) PH_FREQ vs /\ Forall (fun v => 0 < 2 * PI * 440 * v * srinv < PI) vs).
  { revert V. generalize PH_FREQ. induction l as [|f l IH]; intros V; [exists []; split; constructor|]. destruct (V f (or_introl eq_refl)) as (v & E & O). destruct IH as (vs & I1 & I2); [intros g Hg; apply V; now right|]. exists (v :: vs). split; constructor; assumption. }
  destruct VS as (vs & VE & VO). assert (LV : length vs = 4%nat) by (rewrite <- (F2_length VE); reflexivity).
  pose proof (held_first srinv p vs) as H0. rewrite LV in H0. set (bs0 := map _ (combine vs (repeat bq_new 4))) in H0.
  assert (T : Forall tuned bs0).
  { clear - H0 VO Q. revert H0. generalize bs0. intros bs H. revert bs H. induction vs as [|v vs IH]; intros bs H; inversion H as [|c b cs bs' H1 H2]; subst; [constructor|]. apply Forall_cons_iff in VO as [O VO]. constructor; [|now apply IH].
    destruct H1 as (S & _ & C). exists (2 * PI * 440 * v * srinv), (1 + 8 / 10 * pp_q p). split; [exact O|]. split; [lra|]. split; [exact S|exact C]. }
  apply tuned_good in T. assert (A : Forall apc (map coefs bs0)) by (apply Forall_map; eapply Forall_impl; [|exact T]; intros b [_ H]; exact H). destruct (chain_bounded _ A) as (K & K0 & CB).
  assert (S0 : Forall settled bs0) by (eapply Forall_impl; [|exact T]; intros b [S _]; exact S).
  exists (K * (regs bs0 + 32 + 1)). intros xss. 
  assert (RD : ready srinv p vs ph_init (repeat bq_new 4) bs0) by (split; [exact H0|]; split; [reflexivity|]; split; [reflexivity|]; intros X; exfalso; apply X; reflexivity).
  destruct (still_run n2p srinv p vs D M VE xss ph_init bs0 bs0 RD RD) as (s' & yss & ul & ur & R1 & R2 & R3 & R4 & R5); [unfold full; cbn; repeat split; field|].
  exists s', yss. split; [exact R1|]. pose proof (CB bs0 32 ul S0 eq_refl ltac:(lra) R2) as O1. pose proof (CB bs0 32 ur S0 eq_refl ltac:(lra) R3) as O2. rewrite <- R4 in O1. rewrite <- R5 in O2.
  rewrite Forall_map in O1, O2. clear - O1 O2. induction yss as [|ys yss IH]; [constructor|]. cbn [concat] in O1, O2. apply Forall_app in O1 as [A1 A2]. apply Forall_app in O2 as [A3 A4]. constructor; [|now apply IH].
  clear - A1 A3. induction ys as [|y ys IH]; [constructor|]. apply Forall_cons_iff in A1 as [B1 B2]. apply Forall_cons_iff in A3 as [B3 B4]. constructor; [split; assumption|now apply IH].
Qed.
Print Assumptions C187_constant_settings.

(** * C188: stereo *)
Lemma process_inv n2p srinv p s xs s' ys : ph_process n2p srinv p s xs = Ok (s', ys) -> exists s1, ((ph_bi s = 0%Z /\ ph_update n2p srinv p s = Ok s1) \/ (ph_bi s <> 0%Z /\ s1 = s)) /\
  exists s3 zs, ph_samples (mk_ph (ph_l s1) (ph_r s1) (ph_fb s1) (ph_dl s1) (ph_dr s1) (ph_phase s1) (Z.land (ph_bi s1 + 1) 7) (ph_mix s1)) xs = (s3, zs) /\
  s' = mk_ph (ph_l s3) (ph_r s3) (ph_fb s3) (ph_dl s3) (ph_dr s3) (ph_phase s3) (ph_bi s3) (ps_set_target_smoothed arithR (ph_mix s3) (limit_range_R (pp_mix p) 0 1)) /\
  ys = ph_fades (ps_set_target_smoothed arithR (ph_mix s3) (limit_range_R (pp_mix p) 0 1)) 0 xs zs.
Proof.
  unfold ph_process. intros E. destruct (ph_bi s =? 0)%Z eqn:B.
  - destruct (ph_update n2p srinv p s) as [s1| |] eqn:U; cbn [obind] in E; try discriminate. exists s1. split; [left; split; [now apply Z.eqb_eq|reflexivity]|]. destruct (ph_samples _ xs) as [s3 zs]. injection E as <- <-. exists s3, zs. auto.
  - cbn [obind] in E. exists s. split; [right; split; [now apply Z.eqb_neq|reflexivity]|]. destruct (ph_samples _ xs) as [s3 zs]. injection E as <- <-. exists s3, zs. auto.
Qed.
(** with Stereo = 0, a mono signal stays mono *)
Definition mono (s : phaser) : Prop := ph_l s = ph_r s /\ ph_dl s = ph_dr s.
Lemma wrap_id q : q <= 1 -> ph_wrap (q + 1 / 2 * 0) = q.
Proof. intros H. unfold ph_wrap. destruct (Rlt_dec _ _); lra. Qed.
Lemma samples_mono : forall xs s, mono s -> Forall (fun x => fst x = snd x) xs -> mono (fst (ph_samples s xs)) /\ Forall (fun y => fst y = snd y) (snd (ph_samples s xs)).
Proof.
  induction xs as [|x xs IH]; intros s [M1 M2] F; [split; [split; assumption|constructor]|]. apply Forall_cons_iff in F as [F0 F]. cbn [ph_samples]. unfold ph_sample. rewrite <- M1, <- M2, <- F0.
  destruct (ph_channel _ (ph_l s) _ _) as [l y]. specialize (IH (mk_ph l l (lipol_process (ph_fb s)) y y (ph_phase s) (ph_bi s) (ph_mix s)) (conj eq_refl eq_refl) F). destruct (ph_samples _ xs) as [s2 ys]. cbn [fst snd] in *. destruct IH as [I1 I2]. split; [exact I1|]. now constructor.
Qed.
Lemma fades_mono m : forall xs ys i, Forall (fun x => fst x = snd x) xs -> Forall (fun x => fst x = snd x) ys -> Forall (fun x => fst x = snd x) (ph_fades m i xs ys).
Proof.
  induction xs as [|x xs IH]; intros [|y ys] i F G; try constructor; apply Forall_cons_iff in F as [F0 F]; apply Forall_cons_iff in G as [G0 G]; [|now apply IH]. unfold ph_fade. cbn [fst snd]. now rewrite F0, G0.
Qed.
Theorem C188_mono : forall n2p srinv h s s' yss, healthy s -> mono s -> Forall (fun '(p, xs) => slow p /\ pp_stereo p = 0 /\ Forall (fun x => fst x = snd x) xs) h ->
  ph_run n2p srinv s h = Ok (s', yss) -> Forall (Forall (fun y => fst y = snd y)) yss.
Proof.
  intros n2p srinv. induction h as [|[p xs] h IH]; intros s s' yss (L1 & L2 & P & B) M F E; cbn [ph_run] in E; [injection E as <- <-; constructor|].
  apply Forall_cons_iff in F as [(SL & ST & FX) F]. destruct (ph_process n2p srinv p s xs) as [[s1 ys]| |] eqn:E1; cbn [obind] in E; try discriminate. destruct (ph_run n2p srinv s1 h) as [[s2 y2]| |] eqn:E2; cbn [obind] in E; try discriminate. injection E as <- <-.
  pose proof (process_phase _ _ _ _ _ _ _ E1) as [PP PB].
  assert (LL : length (ph_l s1) = 4%nat /\ length (ph_r s1) = 4%nat). { apply (run_chain_len n2p srinv [(p, xs)] s s1 [ys] L1 L2). cbn [ph_run]. rewrite E1. reflexivity. }
  assert (H1 : healthy s1). { destruct LL as [A1 A2]. split; [exact A1|]. split; [exact A2|]. rewrite PP, PB. destruct SL. split; [destruct (ph_bi s =? 0)%Z; [apply wrap_range|]; lra|now apply land7]. }
  cut (mono s1 /\ Forall (fun y => fst y = snd y) ys); [intros [M1 Y]; constructor; [exact Y|]; eapply IH; eauto|].
  clear IH E2 PP PB LL H1 F. apply process_inv in E1 as (z & U & s3 & zs & SS & -> & ->). destruct M as [M1 M2].
  assert (MZ : mono z).
  { destruct U as [[_ U]|[_ ->]]; [|split; assumption]. revert U. unfold ph_update. cbv zeta. rewrite ST, wrap_id by (destruct SL; apply wrap_range; lra). rewrite <- M1.
    destruct (ph_tune _ _ _ _ _ _ (ph_l s)) as [l| |]; cbn [obind]; try discriminate. intros X. injection X as <-. split; [reflexivity|exact M2]. }
  match type of SS with ph_samples ?S _ = _ => pose proof (samples_mono xs S MZ FX) as [S1 S2] end. rewrite SS in S1, S2. cbn [fst snd] in S1, S2. split; [exact S1|now apply fades_mono].
Qed.
Print Assumptions C188_mono.
(** what is heard on the right does not depend on what comes in on the left *)
Definition same_right (s t : phaser) : Prop := length (ph_l s) = length (ph_l t) /\ ph_r s = ph_r t /\ ph_fb s = ph_fb t /\ ph_dr s = ph_dr t /\ ph_phase s = ph_phase t /\ ph_bi s = ph_bi t /\ ph_mix s = ph_mix t.
Lemma samples_right : forall xs zs s t, same_right s t -> map snd xs = map snd zs -> same_right (fst (ph_samples s xs)) (fst (ph_samples t zs)) /\ map snd (snd (ph_samples s xs)) = map snd (snd (ph_samples t zs)).
Proof.
  induction xs as [|x xs IH]; intros [|z zs] s t H E; try discriminate E; [split; [exact H|reflexivity]|]. cbn [map] in E. injection E as E0 E. destruct H as (H1 & H2 & H3 & H4 & H5 & H6 & H7). cbn [ph_samples]. unfold ph_sample, ph_channel. rewrite <- H2, <- H3, <- H4, <- E0.
  pose proof (chain_length (ph_l s) (limit_range_R (fst x + ph_dl s * p_v (lipol_process (ph_fb s))) (-32) 32)) as C1. pose proof (chain_length (ph_l t) (limit_range_R (fst z + ph_dl t * p_v (lipol_process (ph_fb s))) (-32) 32)) as C2.
  destruct (chain (ph_l s) _) as [l1 y1]. destruct (chain (ph_l t) _) as [l2 y2]. destruct (chain (ph_r s) _) as [r y]. cbn [fst] in C1, C2.
  specialize (IH zs (mk_ph l1 r (lipol_process (ph_fb s)) y1 y (ph_phase s) (ph_bi s) (ph_mix s)) (mk_ph l2 r (lipol_process (ph_fb s)) y2 y (ph_phase t) (ph_bi t) (ph_mix t))).
  destruct (ph_samples _ xs) as [s3 ys]. destruct (ph_samples _ zs) as [t3 ws]. cbn [fst snd map] in *. destruct IH as [I1 I2]; [unfold same_right; cbn; repeat split; congruence|exact E|]. split; [exact I1|now rewrite I2].
Qed.
Lemma fades_right m : forall xs zs ys ws i, map snd xs = map snd zs -> map snd ys = map snd ws -> map snd (ph_fades m i xs ys) = map snd (ph_fades m i zs ws).
Proof.
  induction xs as [|x xs IH]; intros [|z zs] [|y ys] [|w ws] i E F; try discriminate E; try discriminate F; try reflexivity. cbn [map] in E, F. injection E as E0 E. injection F as F0 F. cbn [ph_fades map]. rewrite (IH zs ys ws) by assumption. unfold ph_fade. cbn [snd]. now rewrite E0, F0.
Qed.
Lemma tune_length n2p srinv p lfo : forall fs ps bs r, ph_tune n2p srinv p lfo fs ps bs = Ok r -> length r = Nat.min (length fs) (Nat.min (length ps) (length bs)).
Proof.
  induction fs as [|f fs IH]; intros [|a ps] [|b bs] r E; cbn [ph_tune] in E; try (injection E as <-; reflexivity).
  destruct (ph_omega _ _ _ _ _ _) as [o| |]; cbn [obind] in E; try discriminate. destruct (ph_tune _ _ _ _ fs ps bs) as [r'| |] eqn:T; cbn [obind] in E; try discriminate. injection E as <-. apply IH in T. cbn [length Nat.min]. now rewrite T.
Qed.
Theorem C188_right_ignores_left : forall n2p srinv h k s t s' t' ys zs, same_right s t -> map fst h = map fst k -> map (fun b => map snd (snd b)) h = map (fun b => map snd (snd b)) k ->
  ph_run n2p srinv s h = Ok (s', ys) -> ph_run n2p srinv t k = Ok (t', zs) -> map (map snd) ys = map (map snd) zs.
Proof.
  intros n2p srinv. induction h as [|[p xs] h IH]; intros [|[q ws] k] s t s' t' ys zs H E F A B; try discriminate E; cbn [ph_run] in A, B; [injection A as <- <-; injection B as <- <-; reflexivity|].
  cbn [map fst snd] in E, F. injection E as <- E. injection F as F0 F.
  destruct (ph_process n2p srinv p s xs) as [[s1 y1]| |] eqn:E1; cbn [obind] in A; try discriminate. destruct (ph_run n2p srinv s1 h) as [[s2 y2]| |] eqn:E2; cbn [obind] in A; try discriminate. injection A as <- <-.
  destruct (ph_process n2p srinv p t ws) as [[t1 z1]| |] eqn:G1; cbn [obind] in B; try discriminate. destruct (ph_run n2p srinv t1 k) as [[t2 z2]| |] eqn:G2; cbn [obind] in B; try discriminate. injection B as <- <-.
  cut (same_right s1 t1 /\ map snd y1 = map snd z1); [intros [S1 Y1]; cbn [map]; rewrite Y1, (IH k s1 t1 _ _ y2 z2 S1 E F E2 G2); reflexivity|].
  clear IH E2 G2 E F. apply process_inv in E1 as (u & UU & s3 & y3 & SS & -> & ->). apply process_inv in G1 as (v & UV & t3 & z3 & ST & -> & ->).
  assert (U : same_right u v).
  { destruct H as (H1 & H2 & H3 & H4 & H5 & H6 & H7). destruct UU as [[B1 X]|[B1 ->]], UV as [[B2 Y]|[B2 ->]]; try congruence; [|repeat split; assumption]. revert X Y.
    unfold ph_update. cbv zeta. rewrite <- H2, <- H3, <- H4, <- H5, <- H6, <- H7. destruct (ph_tune _ _ _ _ _ _ (ph_l s)) as [l1| |] eqn:T1; cbn [obind]; try discriminate. destruct (ph_tune _ _ _ _ _ _ (ph_l t)) as [l2| |] eqn:T2; cbn [obind]; try discriminate.
    destruct (ph_tune _ _ _ _ _ _ (ph_r s)) as [r| |]; cbn [obind]; try discriminate. intros X Y. injection X as <-. injection Y as <-. unfold same_right. cbn [ph_l ph_r ph_fb ph_dr ph_phase ph_bi ph_mix]. repeat split. apply tune_length in T1, T2. rewrite T1, T2, H1. reflexivity. }
  destruct U as (U1 & U2 & U3 & U4 & U5 & U6 & U7).
  match type of SS with ph_samples ?S _ = _ => match type of ST with ph_samples ?S' _ = _ => pose proof (samples_right xs ws S S') as SR end end. rewrite SS, ST in SR.
  cbn [fst snd] in SR. destruct SR as [(V1 & V2 & V3 & V4 & V5 & V6 & V7) SR]; [unfold same_right; cbn; rewrite U6; repeat split; assumption|exact F0|]. unfold same_right. cbn [ph_l ph_r ph_fb ph_dr ph_phase ph_bi ph_mix].
  rewrite V7. split; [repeat split; assumption|]. now apply fades_right.
Qed.
Print Assumptions C188_right_ignores_left.
Example C188_instance : healthy ph_init /\ mono ph_init /\ full (ph_mix ph_init) /\ same_right ph_init ph_init /\
  (exists B, forall xss, exists s yss, ph_run (fun _ => Ok 1) (1 / 48000) ph_init (map (fun xs => (mk_pp 0 1 0 (1 / 100) 0 0 1, xs)) xss) = Ok (s, yss) /\ Forall (Forall (fun y => Rabs (fst y) <= B /\ Rabs (snd y) <= B)) yss) /\
  Forall tuned [set_coef (design_apf 1 1) bq_new].
Proof.
  split; [exact init_healthy|]. split; [split; reflexivity|]. split; [unfold full; cbn; repeat split; field|]. split; [repeat split|]. split.
  - apply C187_constant_settings; cbn; try lra. intros f _. exists 1. split; [reflexivity|]. pose proof PI_RGT_0. split; nra.
  - constructor; [|constructor]. exists 1, 1. pose proof (PI2_1). pose proof PI_RGT_0. repeat split; lra.
Qed.
