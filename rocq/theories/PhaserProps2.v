(** C186-C188: the phaser's energy, boundedness and stereo behaviour. *)
From Coq Require Import Reals Lra Psatz Lia.
From Verif Require Import Base Util LagModel BiquadModel BiquadProofs BlockModel RampProps PhaserModel PhaserProps.
Local Open Scope R_scope.

(** * C186: the sections are all-pass, so the chain keeps the energy of the signal *)
Definition energy (xs : list R) : R := fold_right (fun x e => x * x + e) 0 xs.
(** a section tuned to a frequency below half the sample rate *)
Definition tuned (b : biquad) : Prop := exists om q, 0 < om < PI /\ 0 < q /\ settled b /\ coefs b = coefs (set_coef (design_apf om q) bq_new).
(** an all-pass section *)
Definition apc (k : coef5) : Prop := k_b0 k = k_a2 k /\ k_b1 k = k_a1 k /\ k_b2 k = 1 /\ -1 < k_a2 k /\ jury (k_a1 k) (k_a2 k).
Lemma tuned_apc b : tuned b -> apc (coefs b) /\ settled b.
Proof.
  intros (om & q & Ho & Hq & S & ->). split; [|exact S]. rewrite coefs_new. unfold design_apf. destruct (Rlt_dec om 0); [lra|]. destruct (Rlt_dec PI om); [lra|]. unfold apc. cbn.
  assert (S0 : 0 < sin om) by (apply sin_gt_0; lra). set (al := sin om / (2 * q)). assert (A : 0 < al) by (apply Rdiv_lt_0_compat; lra).
  assert (C : -1 < cos om < 1).
  { pose proof (sin2_cos2 om) as E. unfold Rsqr in E. split; nra. }
  assert (X : forall u v, v < u * (1 + al) -> v / (1 + al) < u).
  { intros u v H. apply (Rmult_lt_reg_r (1 + al)); [lra|]. unfold Rdiv. rewrite Rmult_assoc, Rinv_l by lra. lra. }
  assert (Y : forall u v, u * (1 + al) < v -> u < v / (1 + al)).
  { intros u v H. apply (Rmult_lt_reg_r (1 + al)); [lra|]. unfold Rdiv. rewrite Rmult_assoc, Rinv_l by lra. lra. }
  do 2 (split; [reflexivity|]). split; [field; lra|]. split; [apply Y; lra|]. unfold jury. split; [apply X; lra|].
  replace (1 + (1 - al) / (1 + al)) with (2 / (1 + al)) by (field; lra).
  unfold Rdiv. split; [replace (- (2 * / (1 + al))) with ((-2) * / (1 + al)) by ring|]; apply Rmult_lt_compat_r; try (apply Rinv_0_lt_compat; lra); lra.
Qed.
(** the energy stored in a section's registers *)
Definition stored (b : biquad) : R :=
  let a1 := k_a1 (coefs b) in let a2 := k_a2 (coefs b) in
  ((1 + a2) * (q_r0l b * q_r0l b + q_r1l b * q_r1l b) - 2 * a1 * q_r0l b * q_r1l b) / ((1 - a2) * ((1 + a2) * (1 + a2) - a1 * a1)).
Lemma stored_pos b : apc (coefs b) -> 0 <= stored b.
Proof.
  intros (_ & _ & _ & A & J1 & J2). unfold stored. cbv zeta. set (a1 := k_a1 (coefs b)) in *. set (a2 := k_a2 (coefs b)) in *. set (x := q_r0l b). set (y := q_r1l b).
  assert (D : 0 < (1 - a2) * ((1 + a2) * (1 + a2) - a1 * a1)) by (apply Rmult_lt_0_compat; nra).
  apply Rmult_le_pos; [|apply Rlt_le, Rinv_0_lt_compat, D].
  replace ((1 + a2) * (x * x + y * y) - 2 * a1 * x * y) with ((1 + a2 - a1) * ((x + y) * (x + y) / 2) + (1 + a2 + a1) * ((x - y) * (x - y) / 2)) by field.
  pose proof (Rle_0_sqr (x + y)) as Q1. pose proof (Rle_0_sqr (x - y)) as Q2. unfold Rsqr in Q1, Q2. apply Rplus_le_le_0_compat; apply Rmult_le_pos; lra.
Qed.
Lemma ps_frame b x : settled b -> settled (fst (process_sample b x)) /\ coefs (fst (process_sample b x)) = coefs b.
Proof. intros S. unfold process_sample. rewrite step_settled by exact S. split; [exact S|reflexivity]. Qed.
Lemma ps_energy b x : settled b -> apc (coefs b) ->
  snd (process_sample b x) * snd (process_sample b x) + stored (fst (process_sample b x)) = x * x + stored b.
Proof.
  intros S (B0 & B1 & B2 & A & J1 & J2). unfold process_sample. rewrite step_settled by exact S. cbn [fst snd]. unfold stored. change (coefs (set_left b _ _)) with (coefs b). cbv zeta. cbn [set_left q_r0l q_r1l].
  rewrite B0, B1, B2. set (a1 := k_a1 (coefs b)) in *. set (a2 := k_a2 (coefs b)) in *. set (r0 := q_r0l b). set (r1 := q_r1l b). field. split; nra.
Qed.
Definition good (b : biquad) : Prop := settled b /\ apc (coefs b).
Definition energy_in (bs : list biquad) : R := fold_right (fun b e => stored b + e) 0 bs.
Lemma chain_energy : forall bs x, Forall good bs -> Forall good (fst (chain bs x)) /\ snd (chain bs x) * snd (chain bs x) + energy_in (fst (chain bs x)) = x * x + energy_in bs /\ map coefs (fst (chain bs x)) = map coefs bs.
Proof.
  induction bs as [|b bs IH]; intros x F; [cbn; repeat split; constructor|]. apply Forall_cons_iff in F as [[S A] F]. cbn [chain].
  pose proof (ps_frame b x S) as [P1 P2]. pose proof (ps_energy b x S A) as P3. destruct (process_sample b x) as [b' y]. cbn [fst snd] in *.
  destruct (IH y F) as (I1 & I2 & I3). destruct (chain bs y) as [bs' z]. cbn [fst snd energy_in fold_right map] in *. split; [constructor; [split; [exact P1|rewrite P2; exact A]|exact I1]|].
  split; [fold (energy_in bs) in *; fold (energy_in bs') in *; lra|]. now rewrite P2, I3.
Qed.
Lemma energy_in_pos bs : Forall good bs -> 0 <= energy_in bs.
Proof. induction bs as [|b bs IH]; intros F; [cbn; lra|]. apply Forall_cons_iff in F as [[_ A] F]. cbn. pose proof (stored_pos b A). specialize (IH F). unfold energy_in in IH. lra. Qed.
Fixpoint chain_run (bs : list biquad) (xs : list R) : list biquad * list R :=
  match xs with [] => (bs, []) | x :: r => let (b1, y) := chain bs x in let (b2, ys) := chain_run b1 r in (b2, y :: ys) end.
Lemma chain_run_energy : forall xs bs, Forall good bs -> Forall good (fst (chain_run bs xs)) /\ energy (snd (chain_run bs xs)) + energy_in (fst (chain_run bs xs)) = energy xs + energy_in bs.
Proof.
  induction xs as [|x xs IH]; intros bs F; [split; [exact F|reflexivity]|]. cbn [chain_run]. destruct (chain_energy bs x F) as (C1 & C2 & _). destruct (chain bs x) as [b1 y]. cbn [fst snd] in *.
  destruct (IH b1 C1) as [I1 I2]. destruct (chain_run b1 xs) as [b2 ys]. cbn [fst snd energy fold_right] in *. split; [exact I1|]. unfold energy in I2. lra.
Qed.
Lemma tuned_good bs : Forall tuned bs -> Forall good bs.
Proof. intros F. eapply Forall_impl; [|exact F]. intros b T. apply tuned_apc in T as [A S]. split; assumption. Qed.
(** what comes out of the chain and what is left in it is what went in: exactly *)
Theorem C186_energy : forall bs, Forall tuned bs -> exists E : list biquad -> R,
  (forall xs, 0 <= E (fst (chain_run bs xs))) /\ (Forall (fun b => q_r0l b = 0 /\ q_r1l b = 0) bs -> E bs = 0) /\
  forall xs, energy (snd (chain_run bs xs)) + E (fst (chain_run bs xs)) = energy xs + E bs.
Proof.
  intros bs F. apply tuned_good in F. exists energy_in. split; [intros xs; apply energy_in_pos, chain_run_energy, F|]. split; [|intros xs; apply chain_run_energy, F].
  intros Z. clear F. induction bs as [|b bs IH]; [reflexivity|]. apply Forall_cons_iff in Z as [[Z1 Z2] Z]. cbn. fold (energy_in bs). rewrite (IH Z). unfold stored. cbv zeta. rewrite Z1, Z2. unfold Rdiv. ring.
Qed.
Print Assumptions C186_energy.
(** so from rest no prefix of the output ever carries more energy than the input did *)
Theorem C186_never_louder : forall bs xs, Forall tuned bs -> Forall (fun b => q_r0l b = 0 /\ q_r1l b = 0) bs -> energy (snd (chain_run bs xs)) <= energy xs.
Proof. intros bs xs F Z. destruct (C186_energy bs F) as (E & P & Z0 & X). specialize (X xs). specialize (P xs). rewrite (Z0 Z) in X. lra. Qed.
Print Assumptions C186_never_louder.

(** the feedback loop after the input has gone silent: its whole tail has bounded energy, whatever was stored in it *)
Fixpoint tail (vs : list R) (bs : list biquad) (d : R) : list R :=
  match vs with [] => [] | v :: r => let (b1, y) := ph_channel v bs d 0 in y :: tail r b1 y end.
Lemma clip_sq x : limit_range_R x (-32) 32 * limit_range_R x (-32) 32 <= x * x.
Proof. unfold limit_range_R, Rmin, Rmax. destruct (Rle_dec x (-32)); destruct (Rle_dec _ 32); nra. Qed.
Lemma tail_energy : forall vs bs d g, Forall good bs -> Forall (fun v => Rabs v <= g) vs -> (1 - g * g) * energy (tail vs bs d) <= energy_in bs + g * g * (d * d).
Proof.
  cut (forall vs bs d g, Forall good bs -> Forall (fun v => Rabs v <= g) vs -> exists y, (y = d \/ exists y', y = y') /\ energy (tail vs bs d) + g * g * (y * y) <= energy_in bs + g * g * (d * d) + g * g * energy (tail vs bs d)).
  { intros H vs bs d g F V. destruct (H vs bs d g F V) as (y & _ & X). assert (0 <= g * g * (y * y)) by (pose proof (Rle_0_sqr (g * y)) as Q; unfold Rsqr in Q; lra). lra. }
  induction vs as [|v vs IH]; intros bs d g F V; [exists d; split; [now left|]; cbn; pose proof (energy_in_pos bs F); lra|].
  apply Forall_cons_iff in V as [V0 V]. cbn [tail]. unfold ph_channel. pose proof (chain_energy bs (limit_range_R (0 + d * v) (-32) 32) F) as (C1 & C2 & _). pose proof (clip_sq (0 + d * v)) as K.
  destruct (chain bs _) as [b1 y]. cbn [fst snd] in *. destruct (IH b1 y g C1 V) as (z & _ & X). exists z. split; [right; now exists z|]. cbn [energy fold_right]. fold (energy (tail vs b1 y)).
  assert (Q : (0 + d * v) * (0 + d * v) <= g * g * (d * d)).
  { replace ((0 + d * v) * (0 + d * v)) with (v * v * (d * d)) by ring. apply Rmult_le_compat_r; [pose proof (Rle_0_sqr d) as Q; exact Q|]. now apply abs_sq_le. }
  lra.
Qed.
Theorem C186_tail : forall bs d g, Forall tuned bs -> 0 <= g < 1 -> exists B, forall vs, Forall (fun v => Rabs v <= g) vs -> energy (tail vs bs d) <= B.
Proof.
  intros bs d g F G. apply tuned_good in F. exists ((energy_in bs + g * g * (d * d)) / (1 - g * g)). intros vs V. pose proof (tail_energy vs bs d g F V) as H.
  assert (D : 0 < 1 - g * g) by nra. apply (Rmult_le_reg_l (1 - g * g)); [exact D|]. replace ((1 - g * g) * ((energy_in bs + g * g * (d * d)) / (1 - g * g))) with (energy_in bs + g * g * (d * d)) by (field; lra). exact H.
Qed.
Print Assumptions C186_tail.
(** the tail is what the effect plays on silence *)
Fixpoint fbs (fb : lipol) (n : nat) : list R := match n with O => [] | Datatypes.S n => p_v (lipol_process fb) :: fbs (lipol_process fb) n end.
Theorem C186_tail_is_the_effect : forall n s, map fst (snd (ph_samples s (repeat (0, 0) n))) = tail (fbs (ph_fb s) n) (ph_l s) (ph_dl s) /\
  map snd (snd (ph_samples s (repeat (0, 0) n))) = tail (fbs (ph_fb s) n) (ph_r s) (ph_dr s).
Proof.
  induction n as [|n IH]; intros s; [split; reflexivity|]. cbn [repeat ph_samples fbs tail]. unfold ph_sample. cbn [fst snd].
  destruct (ph_channel _ (ph_l s) _ _) as [l yl]. destruct (ph_channel _ (ph_r s) _ _) as [r yr]. set (s1 := mk_ph _ _ _ _ _ _ _ _). specialize (IH s1). destruct (ph_samples s1 _) as [s2 ys]. cbn [fst snd map] in *.
  destruct IH as [I1 I2]. unfold s1 in I1, I2. cbn [ph_fb ph_l ph_r ph_dl ph_dr] in I1, I2. now rewrite I1, I2.
Qed.
Print Assumptions C186_tail_is_the_effect.

(** * C187: bounded output for every input *)
(** a section, then the rest of the chain *)
Lemma chain_run_split : forall xs b bs, snd (chain_run (b :: bs) xs) = snd (chain_run bs (snd (mono_loop b xs))).
Proof.
  induction xs as [|x xs IH]; intros b bs; [reflexivity|]. cbn [chain_run chain mono_loop]. unfold process_sample. destruct (step_left (coeff_process b) x) as [b1 y]. specialize (IH b1).
  destruct (mono_loop b1 xs) as [b2 ys] eqn:M. cbn [snd chain_run]. destruct (chain bs y) as [bs1 z]. specialize (IH bs1). destruct (chain_run (b1 :: bs1) xs) as [c ws]. cbn [snd] in *. rewrite IH.
  destruct (chain_run bs1 ys) as [c' ws']. reflexivity.
Qed.
Definition regs (bs : list biquad) : R := fold_right (fun b e => Rabs (q_r0l b) + Rabs (q_r1l b) + e) 0 bs.
Lemma regs_pos bs : 0 <= regs bs.
Proof. induction bs as [|b bs IH]; [cbn; lra|]. cbn. fold (regs bs). pose proof (Rabs_pos (q_r0l b)). pose proof (Rabs_pos (q_r1l b)). lra. Qed.
Lemma one_section k : jury (k_a1 k) (k_a2 k) -> exists K, 0 < K /\ forall b U xs, settled b -> coefs b = k -> 0 <= U -> Forall (fun x => Rabs x <= U) xs ->
  Forall (fun y => Rabs y <= K * (Rabs (q_r0l b) + Rabs (q_r1l b) + U + 1)) (snd (mono_loop b xs)).
Proof.
  intros J. destruct (bibo_blocks k J) as (K & K0 & H). exists K. split; [exact K0|]. intros b U xs S C HU F. destruct xs as [|x xs]; [constructor|].
  specialize (H b U [x :: xs] S C HU). cbn [run_blocks] in H. unfold process_block_mono in H. destruct (mono_loop b (x :: xs)) as [s1 os]. cbn [snd]. rewrite app_nil_r in H.
  eapply Forall_impl; [|apply H; constructor; [split; [discriminate|exact F]|constructor]]. cbn beta. intros y Hy. eapply Rle_trans; [exact Hy|]. apply Rmult_le_compat_l; [lra|].
  assert (P30 : 1 <= 10 ^ 30) by (apply pow_R1_Rle; lra). apply Rplus_le_compat_l. unfold Rdiv. rewrite Rmult_1_l. apply (Rmult_le_reg_r (10 ^ 30)); [lra|]. rewrite Rinv_l by lra. lra.
Qed.
Lemma chain_bounded : forall ks, Forall apc ks -> exists K, 0 < K /\ forall bs U xs, Forall settled bs -> map coefs bs = ks -> 0 <= U -> Forall (fun x => Rabs x <= U) xs ->
  Forall (fun y => Rabs y <= K * (regs bs + U + 1)) (snd (chain_run bs xs)).
Proof.
  induction ks as [|k ks IH]; intros F.
  - exists 1. split; [lra|]. intros [|] U xs _ E HU X; [|discriminate E]. assert (Y : snd (chain_run [] xs) = xs) by (clear; induction xs as [|x xs IH]; [reflexivity|]; cbn [chain_run chain]; destruct (chain_run [] xs); cbn in *; congruence). rewrite Y.
    eapply Forall_impl; [|exact X]. cbn. intros; lra.
  - apply Forall_cons_iff in F as [A F]. destruct (IH F) as (K & K0 & H). destruct A as (_ & _ & _ & _ & J). destruct (one_section k J) as (K1 & K10 & H1).
    exists (K * (K1 + 2)). split; [apply Rmult_lt_0_compat; lra|]. intros bs U xs S E HU X. destruct bs as [|b bs]; [discriminate E|]. cbn [map] in E. injection E as E1 E2. apply Forall_cons_iff in S as [S1 S2].
    rewrite chain_run_split. specialize (H1 b U xs S1 E1 HU X). set (U1 := K1 * (Rabs (q_r0l b) + Rabs (q_r1l b) + U + 1)) in *.
    pose proof (Rabs_pos (q_r0l b)). pose proof (Rabs_pos (q_r1l b)). assert (U10 : 0 <= U1) by (apply Rmult_le_pos; lra).
    eapply Forall_impl; [|exact (H bs U1 _ S2 E2 U10 H1)]. cbn beta. intros y Hy. eapply Rle_trans; [exact Hy|]. rewrite Rmult_assoc. apply Rmult_le_compat_l; [lra|]. cbn [regs fold_right]. fold (regs bs). pose proof (regs_pos bs).
    assert (0 <= K1 * regs bs) by (apply Rmult_le_pos; lra). unfold U1. nra.
Qed.
(** one channel of the effect, with the feedback values v that the ramp takes *)
Fixpoint channel_run (bs : list biquad) (d : R) (vx : list (R * R)) : list R :=
  match vx with [] => [] | (v, x) :: r => let (b1, y) := ph_channel v bs d x in y :: channel_run b1 y r end.
Lemma channel_fed : forall vx bs d, exists us, Forall (fun u => Rabs u <= 32) us /\ channel_run bs d vx = snd (chain_run bs us).
Proof.
  induction vx as [|[v x] vx IH]; intros bs d; [exists []; split; [constructor|reflexivity]|]. cbn [channel_run]. unfold ph_channel.
  set (u := limit_range_R (x + d * v) (-32) 32). destruct (chain bs u) as [b1 y] eqn:C. destruct (IH b1 y) as (us & F & E). exists (u :: us). split.
  - constructor; [|exact F]. unfold u, limit_range_R, Rmin, Rmax. apply Rabs_le. destruct (Rle_dec _ (-32)); destruct (Rle_dec _ 32); lra.
  - cbn [chain_run]. rewrite C, E. destruct (chain_run b1 us). reflexivity.
Qed.
(** whatever the input and the feedback, the wet output stays within a bound that depends on the tuning and the stored state alone *)
Theorem C187_bounded : forall bs, Forall tuned bs -> exists B, forall d vx, Forall (fun y => Rabs y <= B) (channel_run bs d vx).
Proof.
  intros bs T. apply tuned_good in T. assert (A : Forall apc (map coefs bs)) by (apply Forall_map; eapply Forall_impl; [|exact T]; intros b [_ H]; exact H).
  destruct (chain_bounded _ A) as (K & K0 & H). exists (K * (regs bs + 32 + 1)). intros d vx. destruct (channel_fed vx bs d) as (us & F & ->). apply H; [|reflexivity|lra|exact F].
  eapply Forall_impl; [|exact T]. intros b [S _]. exact S.
Qed.
Print Assumptions C187_bounded.
Theorem C187_is_the_effect : forall xs s, map fst (snd (ph_samples s xs)) = channel_run (ph_l s) (ph_dl s) (combine (fbs (ph_fb s) (length xs)) (map fst xs)) /\
  map snd (snd (ph_samples s xs)) = channel_run (ph_r s) (ph_dr s) (combine (fbs (ph_fb s) (length xs)) (map snd xs)).
Proof.
  induction xs as [|x xs IH]; intros s; [split; reflexivity|]. cbn [length map ph_samples fbs combine channel_run]. unfold ph_sample. cbn [fst snd].
  destruct (ph_channel _ (ph_l s) _ _) as [l yl]. destruct (ph_channel _ (ph_r s) _ _) as [r yr]. set (s1 := mk_ph _ _ _ _ _ _ _ _). specialize (IH s1). destruct (ph_samples s1 _) as [s2 ys]. cbn [fst snd map] in *.
  destruct IH as [I1 I2]. unfold s1 in I1, I2. cbn [ph_fb ph_l ph_r ph_dl ph_dr] in I1, I2. now rewrite I1, I2.
Qed.
Print Assumptions C187_is_the_effect.
