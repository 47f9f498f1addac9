(** Theorems about the ring modulator (C146-C150). *)
From Coq Require Import Reals Lra Psatz Lia.
From Coquelicot Require Import Rcomplements.
From Verif Require Import Base MathModel QfModel HalfModel RingModel.
From Verif Require Import Util.
Local Open Scope R_scope.

(* ================= C146: the diode and the ring ================= *)

Section Diode.
  Variables fb lin : R.
  Let l2 := Rmax lin (fb + 2 / 100).
  Lemma l2_gap : fb + 2 / 100 <= l2. Proof. apply Rmax_r. Qed.
  (** the curve in one expression: w is v limited to fb..l2 *)
  Lemma diode_eq v : let w := Rmin (Rmax v fb) l2 in
    diode_sim fb lin v = (w - fb) * (w - fb) / (2 * (l2 - fb)) + (Rmax v l2 - l2).
  Proof.
    pose proof l2_gap as G. cbv zeta. unfold diode_sim. fold l2. destruct (Rlt_dec v fb) as [A|A].
    - rewrite (Rmax_right v fb), (Rmin_left fb l2), (Rmax_right v l2) by lra. unfold Rdiv. ring.
    - destruct (Rlt_dec v l2) as [B|B].
      + rewrite (Rmax_left v fb), (Rmin_left v l2), (Rmax_right v l2) by lra. field. lra.
      + rewrite (Rmax_left v fb), (Rmin_right v l2), (Rmax_left v l2) by lra. field. lra.
  Qed.
  Lemma diode_step v u : v <= u -> 0 <= diode_sim fb lin u - diode_sim fb lin v <= u - v.
  Proof.
    intros H. pose proof l2_gap as G. rewrite !diode_eq. cbv zeta.
    set (wv := Rmin (Rmax v fb) l2). set (wu := Rmin (Rmax u fb) l2).
    assert (W : fb <= wv <= wu /\ wu <= l2 /\ (wu - wv) + (Rmax u l2 - Rmax v l2) <= u - v /\ 0 <= Rmax u l2 - Rmax v l2).
    { unfold wv, wu, Rmin, Rmax. destruct (Rle_dec v fb), (Rle_dec u fb), (Rle_dec u l2), (Rle_dec v l2); repeat (destruct (Rle_dec _ _)); repeat split; lra. }
    assert (Q : 0 <= (wu - fb) * (wu - fb) / (2 * (l2 - fb)) - (wv - fb) * (wv - fb) / (2 * (l2 - fb)) <= wu - wv).
    { replace ((wu - fb) * (wu - fb) / (2 * (l2 - fb)) - (wv - fb) * (wv - fb) / (2 * (l2 - fb))) with ((wu - wv) * ((wu - fb + (wv - fb)) / (2 * (l2 - fb)))) by (field; lra).
      assert (F : 0 <= (wu - fb + (wv - fb)) / (2 * (l2 - fb)) <= 1).
      { split; [apply Rmult_le_pos; [lra|left; apply Rinv_0_lt_compat; lra]|]. apply Rle_div_l; lra. }
      set (q := (wu - fb + (wv - fb)) / (2 * (l2 - fb))) in *. clearbody q. split; nra. }
    lra.
  Qed.
End Diode.

(** The diode curve is 0 below the forward bias, never negative, nondecreasing, and never steeper than 1
    (so it is continuous): for every bias and linear-region setting. *)
Theorem C146_diode_curve : forall fb lin,
  (forall v, v <= fb -> diode_sim fb lin v = 0) /\
  (forall v, 0 <= diode_sim fb lin v) /\
  (forall v u, v <= u -> 0 <= diode_sim fb lin u - diode_sim fb lin v <= u - v) /\
  (forall v u, Rmax lin (fb + 2 / 100) <= v -> Rmax lin (fb + 2 / 100) <= u -> diode_sim fb lin u - diode_sim fb lin v = u - v).
Proof.
  intros fb lin. pose proof (l2_gap fb lin) as G. cbv zeta in G. assert (Z0 : forall v, v <= fb -> diode_sim fb lin v = 0).
  { intros v Hv. rewrite diode_eq. cbv zeta. rewrite (Rmax_right v fb), (Rmin_left fb), (Rmax_right v) by lra. unfold Rdiv. ring. }
  split; [exact Z0|]. split; [|split].
  - intros v. destruct (Rle_dec v fb) as [A|A]; [rewrite Z0 by exact A; lra|]. pose proof (diode_step fb lin fb v ltac:(lra)) as D. rewrite (Z0 fb) in D by lra. lra.
  - intros v u. apply diode_step.
  - intros v u Hv Hu. rewrite !diode_eq. cbv zeta. set (L := Rmax lin (fb + 2 / 100)) in *. clearbody L. rewrite (Rmax_left v fb), (Rmax_left u fb) by lra. rewrite !Rmin_right by lra. rewrite !Rmax_left by lra. ring.
Qed.
Print Assumptions C146_diode_curve.

Definition fold_ (fb lin v : R) : R := diode_sim fb lin v + diode_sim fb lin (- v).
Lemma fold_even fb lin v : fold_ fb lin (- v) = fold_ fb lin v.
Proof. unfold fold_. rewrite Ropp_involutive. ring. Qed.
Lemma fold_lip fb lin v u : Rabs (fold_ fb lin u - fold_ fb lin v) <= Rabs (u - v).
Proof.
  assert (M : forall v u, v <= u -> Rabs (fold_ fb lin u - fold_ fb lin v) <= u - v).
  { clear. intros v u H. unfold fold_. pose proof (diode_step fb lin v u H) as A. pose proof (diode_step fb lin (- u) (- v) ltac:(lra)) as B. apply Rabs_le. lra. }
  destruct (Rle_dec v u) as [H|H].
  - rewrite (Rabs_pos_eq (u - v)) by lra. apply M. exact H.
  - rewrite <- Rabs_Ropp. rewrite <- (Rabs_Ropp (u - v)). rewrite (Rabs_pos_eq (- (u - v))) by lra.
    replace (- (fold_ fb lin u - fold_ fb lin v)) with (fold_ fb lin v - fold_ fb lin u) by ring. replace (- (u - v)) with (v - u) by ring. apply M. lra.
Qed.
Lemma ring_fold fb lin vin vc : ring fb lin vin vc = fold_ fb lin (1 / 2 * vin + vc) - fold_ fb lin (vc - 1 / 2 * vin).
Proof. unfold ring, fold_. ring. Qed.

(** The ring of diodes is balanced: no output without input, none without carrier; it is odd in both; and
    it never exceeds the input's magnitude nor twice the carrier's. *)
Theorem C146_ring_balanced : forall fb lin vin vc,
  ring fb lin 0 vc = 0 /\ ring fb lin vin 0 = 0 /\
  ring fb lin (- vin) vc = - ring fb lin vin vc /\ ring fb lin vin (- vc) = - ring fb lin vin vc /\
  Rabs (ring fb lin vin vc) <= Rmin (Rabs vin) (2 * Rabs vc).
Proof.
  intros fb lin vin vc. rewrite !ring_fold. split; [|split; [|split; [|split]]].
  - replace (1 / 2 * 0 + vc) with (vc - 1 / 2 * 0) by ring. ring.
  - replace (0 - 1 / 2 * vin) with (- (1 / 2 * vin + 0)) by ring. rewrite fold_even. ring.
  - replace (1 / 2 * - vin + vc) with (vc - 1 / 2 * vin) by ring. replace (vc - 1 / 2 * - vin) with (1 / 2 * vin + vc) by ring. ring.
  - replace (1 / 2 * vin + - vc) with (- (vc - 1 / 2 * vin)) by ring. replace (- vc - 1 / 2 * vin) with (- (1 / 2 * vin + vc)) by ring. rewrite !fold_even. ring.
  - apply Rmin_glb.
    + apply Rle_trans with (1 := fold_lip fb lin _ _). right. f_equal. lra.
    + rewrite <- (fold_even fb lin (vc - _)). apply Rle_trans with (1 := fold_lip fb lin _ _). replace (1 / 2 * vin + vc - - (vc - 1 / 2 * vin)) with (2 * vc) by lra. rewrite Rabs_mult, (Rabs_pos_eq 2) by lra. lra.
Qed.
Print Assumptions C146_ring_balanced.
(** it does modulate: without bias, input 1 and carrier 1 give 1 *)
Example C146_nonvacuous : ring 0 0 1 1 = 1.
Proof.
  unfold ring, diode_sim. rewrite (Rmax_right 0 (0 + 2 / 100)) by lra.
  repeat match goal with |- context [Rlt_dec ?a ?b] => destruct (Rlt_dec a b); try lra end.
Qed.

(* ================= C147: the carrier's frequency ================= *)

Fixpoint phase_at (d : R) (n : nat) : R := match n with O => 0 | Datatypes.S k => advance (phase_at d k) d end.
(** an ideal carrier's phase after n samples is n*d modulo 1; the wrap-around sets the phase to 0 instead of
    subtracting 1, so the carrier repeats exactly every k+1 samples, k the number of whole increments in 1:
    its frequency is 1/(k+1) of the sample rate, not d, and the same for all d in (1/(k+1), 1/k]. *)
Theorem C147_carrier_frequency_quantised_refuted : forall d (k : nat), 0 < d -> INR k * d <= 1 < INR (k + 1) * d ->
  forall n, phase_at d n = INR (n mod (k + 1)) * d.
Proof.
  intros d k Hd [H1 H2]. rewrite plus_INR in H2. cbn [INR] in H2.
  induction n as [|n IH].
  - cbn [phase_at]. rewrite Nat.mod_0_l by lia. cbn [INR]. ring.
  - cbn [phase_at]. rewrite IH. unfold advance. set (r := (n mod (k + 1))%nat) in *.
    assert (Hr : (r < k + 1)%nat) by (apply Nat.mod_upper_bound; lia).
    assert (E : (Datatypes.S n mod (k + 1) = if (r =? k)%nat then 0 else Datatypes.S r)%nat).
    { pose proof (Nat.div_mod n (k + 1) ltac:(lia)) as DM. fold r in DM. destruct (Nat.eqb_spec r k).
      - symmetry. apply (Nat.mod_unique _ _ (Datatypes.S (n / (k + 1)))); lia.
      - symmetry. apply (Nat.mod_unique _ _ (n / (k + 1))); lia. }
    rewrite E. destruct (Nat.eqb_spec r k) as [->|NE].
    + destruct (Rlt_dec 1 (INR k * d + d)) as [_|C]; [cbn [INR]; ring|]. exfalso. apply C. lra.
    + assert (INR r + 1 <= INR k) by (rewrite <- S_INR; apply le_INR; lia).
      destruct (Rlt_dec 1 (INR r * d + d)) as [C|_]; [exfalso; nra|]. rewrite S_INR. ring.
Qed.
Print Assumptions C147_carrier_frequency_quantised_refuted.
(** such a k exists for every increment up to 1; above 1 the phase never leaves 0: the carrier stands still *)
Theorem C147_standing_carrier_refuted : forall d, 1 < d -> forall n, phase_at d n = 0.
Proof. intros d Hd. induction n as [|n IH]; [reflexivity|]. cbn [phase_at]. rewrite IH. unfold advance. destruct (Rlt_dec 1 (0 + d)); lra. Qed.
Print Assumptions C147_standing_carrier_refuted.
Theorem C147_phase_stays_in_range : forall p d, 0 <= p <= 1 -> 0 <= d -> 0 <= advance p d <= 1.
Proof. intros p d Hp Hd. unfold advance. destruct (Rlt_dec 1 (p + d)); lra. Qed.
Print Assumptions C147_phase_stays_in_range.
(** asked for 0.4 and 0.45 cycles per sample, it plays 1/3 for both *)
Example C147_nonvacuous : INR 2 * (4 / 10) <= 1 < INR (2 + 1) * (4 / 10) /\ INR 2 * (45 / 100) <= 1 < INR (2 + 1) * (45 / 100) /\ phase_at (4 / 10) 3 = 0.
Proof.
  assert (A : INR 2 * (4 / 10) <= 1 < INR (2 + 1) * (4 / 10)) by (cbn [INR Nat.add]; lra).
  split; [exact A|]. split; [cbn [INR Nat.add]; lra|]. rewrite (C147_carrier_frequency_quantised_refuted (4 / 10) 2 ltac:(lra) A). cbn [Nat.modulo Nat.divmod Nat.add fst snd Nat.sub INR]. ring.
Qed.

(* ================= C148: output stage ================= *)

Lemma shape_out_eq x : shape_out x = x * (3 - x * x) / 2. Proof. unfold shape_out. lra. Qed.
(** Up to full scale the output stage is monotone and stays within full scale. *)
Theorem C148_output_stage : forall x y, -1 <= x <= y -> y <= 1 -> -1 <= shape_out x <= shape_out y /\ shape_out y <= 1.
Proof.
  intros x y Hx Hy. rewrite !shape_out_eq.
  assert (A : 0 <= (x + 1) * (x + 1) * (2 - x)) by (apply Rmult_le_pos; [exact (Rle_0_sqr _)|lra]).
  assert (B : 0 <= (y - 1) * (y - 1) * (y + 2)) by (apply Rmult_le_pos; [exact (Rle_0_sqr _)|lra]).
  assert (C : 0 <= (y - x) * (3 - (x * x + x * y + y * y))) by (apply Rmult_le_pos; nra).
  repeat split; lra.
Qed.
Print Assumptions C148_output_stage.
(** Above it there is no clipping: beyond the square root of 3 the polarity flips and beyond that of 5 the
    stage amplifies. *)
Theorem C148_no_clipping_refuted : forall x,
  (3 < x * x -> shape_out x * x < 0) /\ (5 <= x * x -> Rabs x <= Rabs (shape_out x)).
Proof.
  intros x. rewrite shape_out_eq. split; intros H.
  - nra.
  - replace (x * (3 - x * x) / 2) with (- (x * ((x * x - 3) / 2))) by lra. rewrite Rabs_Ropp, Rabs_mult. rewrite (Rabs_pos_eq ((x * x - 3) / 2)) by lra.
    pose proof (Rabs_pos x). nra.
Qed.
Print Assumptions C148_no_clipping_refuted.

Definition one_voice (phase dphase : R) : list rvoice := [mk_rv phase dphase 1 1].
(** Full-scale material reaches that: with one voice, mix 1, no bias and the carrier at its peak, halving the
    input turns the output from -1 to +1. *)
Theorem C148_full_scale_flips_refuted : forall shape phase dphase, carrier shape phase = 1 ->
  snd (ring_sample shape 0 0 1 (gscale 1) (one_voice phase dphase) (1, 1)) = (-1, -1) /\
  snd (ring_sample shape 0 0 1 (gscale 1) (one_voice phase dphase) (1 / 2, 1 / 2)) = (1, 1).
Proof.
  intros shape phase dphase Hc. unfold ring_sample, one_voice. cbn [fold_left]. unfold voice_step. cbn [rv_phase rv_dphase rv_pan_l rv_pan_r]. rewrite Hc.
  assert (G : gscale 1 = 1) by (unfold gscale; rewrite sqrt_1; lra). rewrite G.
  assert (R1 : ring 0 0 1 1 = 1) by exact C146_nonvacuous.
  assert (R2 : ring 0 0 (1 / 2) 1 = 1 / 2).
  { unfold ring, diode_sim. rewrite (Rmax_right 0 (0 + 2 / 100)) by lra. repeat match goal with |- context [Rlt_dec ?a ?b] => destruct (Rlt_dec a b); try lra end. }
  rewrite R1, R2. cbn [snd]. unfold shape_out. split; apply f_equal2; field.
Qed.
Print Assumptions C148_full_scale_flips_refuted.

Lemma fold_step shape fb lin l r vs : forall acc sl sr,
  let '(vs', (a, b)) := fold_left (voice_step shape fb lin l r) vs (acc, (sl, sr)) in
  vs' = acc ++ map (fun v => mk_rv (advance (rv_phase v) (rv_dphase v)) (rv_dphase v) (rv_pan_l v) (rv_pan_r v)) vs /\
  a = sl + fold_right (fun v s => (ring fb lin l (carrier shape (rv_phase v)) + ring fb lin r (carrier shape (rv_phase v))) * rv_pan_l v + s) 0 vs /\
  b = sr + fold_right (fun v s => (ring fb lin l (carrier shape (rv_phase v)) + ring fb lin r (carrier shape (rv_phase v))) * rv_pan_r v + s) 0 vs.
Proof.
  induction vs as [|v vs IH]; intros acc sl sr.
  - cbn [fold_left map fold_right]. rewrite app_nil_r. split; [reflexivity|]. split; ring.
  - cbn [fold_left]. unfold voice_step at 2.
    match goal with |- context [fold_left _ vs (?A, (?B, ?C))] => specialize (IH A B C) end.
    destruct (fold_left _ vs _) as [vs' [a b]]. destruct IH as (E1 & E2 & E3). split; [rewrite E1; cbn [map]; rewrite <- app_assoc; reflexivity|].
    cbn [fold_right]. rewrite E2, E3. split; ring.
Qed.
(** the sum over voices that one output channel carries *)
Definition wet (pan : rvoice -> R) (shape : Z) (fb lin l r : R) (vs : list rvoice) : R :=
  fold_right (fun v s => (ring fb lin l (carrier shape (rv_phase v)) + ring fb lin r (carrier shape (rv_phase v))) * pan v + s) 0 vs.
Lemma ring_sample_eq shape fb lin mix g vs l r :
  ring_sample shape fb lin mix g vs (l, r) =
  (map (fun v => mk_rv (advance (rv_phase v) (rv_dphase v)) (rv_dphase v) (rv_pan_l v) (rv_pan_r v)) vs,
   (shape_out (g * (mix * wet rv_pan_l shape fb lin l r vs + (1 - mix) * l)), shape_out (g * (mix * wet rv_pan_r shape fb lin l r vs + (1 - mix) * r)))).
Proof.
  unfold ring_sample. pose proof (fold_step shape fb lin l r vs [] 0 0) as F. destruct (fold_left _ vs _) as [vs' [a b]]. destruct F as (E1 & E2 & E3).
  rewrite E1, E2, E3, !Rplus_0_l. reflexivity.
Qed.
(** Silence gives silence, whatever the carriers are doing. *)
Theorem C148_silence : forall shape fb lin mix g vs xs, (forall x, In x xs -> x = (0, 0)) ->
  forall y, In y (snd (ring_samples shape fb lin mix g vs xs)) -> y = (0, 0).
Proof.
  intros shape fb lin mix g vs xs. revert vs. induction xs as [|x xs IH]; intros vs H y Hy; [destruct Hy|].
  cbn [ring_samples] in Hy. rewrite (H x (or_introl eq_refl)) in Hy. rewrite ring_sample_eq in Hy.
  assert (W : forall pan, wet pan shape fb lin 0 0 vs = 0).
  { clear. intros pan. unfold wet. induction vs as [|v vs IHv]; [reflexivity|]. cbn [fold_right]. rewrite IHv. destruct (C146_ring_balanced fb lin 0 (carrier shape (rv_phase v))) as (Z0 & _). rewrite Z0. ring. }
  rewrite !W in Hy. destruct (ring_samples shape fb lin mix g _ xs) as [vs2 ys] eqn:E. cbn [snd] in Hy. destruct Hy as [<-|Hy].
  - unfold shape_out. f_equal; ring.
  - eapply IH; [intros z Hz; exact (H z (or_intror Hz))|]. rewrite E. exact Hy.
Qed.
Print Assumptions C148_silence.
(** The effect folds to mono: with one voice both outputs carry the sum of both inputs' ring products, so at
    mix 1 left and right are equal for every stereo input; exchanging the inputs changes nothing. *)
Theorem C148_stereo_lost_refuted : forall shape fb lin g phase dphase l r,
  let out := snd (ring_sample shape fb lin 1 g (one_voice phase dphase) (l, r)) in
  fst out = snd out /\ out = snd (ring_sample shape fb lin 1 g (one_voice phase dphase) (r, l)).
Proof.
  intros. unfold out. rewrite !ring_sample_eq. cbn [snd fst]. unfold one_voice, wet. cbn [fold_right rv_phase rv_pan_l rv_pan_r].
  split; [f_equal; ring|]. f_equal; f_equal; ring.
Qed.
Print Assumptions C148_stereo_lost_refuted.
(** At mix 0 the effect is not transparent: the dry signal is scaled by the unison gain and bent by the
    output stage. *)
Theorem C148_dry_is_coloured_refuted : forall shape fb lin g vs l r,
  snd (ring_sample shape fb lin 0 g vs (l, r)) = (shape_out (g * l), shape_out (g * r)).
Proof. intros. rewrite ring_sample_eq. cbn [snd]. f_equal; f_equal; ring. Qed.
Print Assumptions C148_dry_is_coloured_refuted.

(* ================= C149: unison ================= *)

Lemma uni_set_ok s u a b c d : (0 <= u < 16)%Z -> length (u_phase s) = 16%nat -> length (u_detune s) = 16%nat -> length (u_pan_l s) = 16%nat -> length (u_pan_r s) = 16%nat ->
  uni_set s u a b c d = Ok (mk_uni (upd (u_phase s) (Z.to_nat u) a) (upd (u_detune s) (Z.to_nat u) b) (upd (u_pan_l s) (Z.to_nat u) c) (upd (u_pan_r s) (Z.to_nat u) d)).
Proof. intros Hu A B C D. unfold uni_set. rewrite !zset_ok by lia. reflexivity. Qed.
Definition sized (s : unison) : Prop := length (u_phase s) = 16%nat /\ length (u_detune s) = 16%nat /\ length (u_pan_l s) = 16%nat /\ length (u_pan_r s) = 16%nat.
Lemma nth_upd_same (l : list R) i v : (i < length l)%nat -> nth i (upd l i v) 0 = v.
Proof. intros H. apply nth_error_nth. apply upd_nth_eq. exact H. Qed.
Lemma nth_upd_other (l : list R) i j v : i <> j -> nth j (upd l i v) 0 = nth j l 0.
Proof.
  intros H. destruct (nth_error l j) eqn:E.
  - rewrite (nth_error_nth l _ _ E). apply nth_error_nth. rewrite upd_nth_neq by exact H. exact E.
  - rewrite !nth_overflow; [reflexivity| |]; rewrite ?upd_length; apply nth_error_None; exact E.
Qed.
Definition spread_to (uni : Z) (s : unison) (k : nat) : Prop := forall u : nat, (u < k)%nat ->
  nth u (u_phase s) 0 = INR u / IZR uni /\ nth u (u_detune s) 0 = -1 + 2 * INR u / (IZR uni - 1) /\
  nth u (u_pan_l s) 0 = INR u / (IZR uni - 1) /\ nth u (u_pan_l s) 0 + nth u (u_pan_r s) 0 = 1.
Lemma unison_fold uni : (2 <= uni <= 16)%Z -> forall k, (k <= Z.to_nat uni)%nat -> forall s, sized s ->
  exists s', foldM (fun s u => uni_set s u (IZR u * 1 / IZR uni) (-1 + 2 / (IZR uni - 1) * IZR u) (IZR u / (IZR uni - 1)) ((IZR uni - 1 - IZR u) / (IZR uni - 1)))
          (map Z.of_nat (seq 0 k)) s = Ok s' /\ sized s' /\ spread_to uni s' k.
Proof.
  intros Hu. assert (U1 : 2 <= IZR uni) by (apply IZR_le; lia).
  induction k as [|k IH]; intros Hk s Hs.
  - exists s. split; [reflexivity|]. split; [exact Hs|]. intros u Hlt. lia.
  - destruct (IH ltac:(lia) s Hs) as (s1 & E & S1 & P1). rewrite seq_S, map_app. cbn [map Nat.add].
    assert (FA : forall A S0 (f : S0 -> A -> res S0) l1 l2 s, foldM f (l1 ++ l2) s = obind (foldM f l1 s) (fun s' => foldM f l2 s')).
    { clear. intros A S0 f. induction l1 as [|x l1 IH]; intros l2 s; [reflexivity|]. cbn [app foldM]. destruct (f s x); cbn [obind]; try reflexivity. apply IH. }
    rewrite FA, E. cbn [obind foldM]. destruct S1 as (A & B & C & D).
    rewrite uni_set_ok by (try assumption; lia). cbn [obind]. eexists. split; [reflexivity|]. split.
    + unfold sized. cbn [u_phase u_detune u_pan_l u_pan_r]. rewrite !upd_length. repeat split; assumption.
    + intros u Hlt. cbn [u_phase u_detune u_pan_l u_pan_r]. rewrite Nat2Z.id. rewrite <- INR_IZR_INZ. destruct (Nat.eq_dec u k) as [->|NE].
      * rewrite !nth_upd_same by lia. repeat split; try (field; lra).
      * rewrite !nth_upd_other by lia. apply P1. lia.
Qed.
(** Every unison setting from 2 to 16 spreads the voices evenly: start phases u/uni, detune from -1 to 1,
    left pan from 0 to 1 with left + right = 1; one voice sits in the middle at full level; no panic. *)
Theorem C149_unison : forall uni s, (1 <= uni <= 16)%Z -> sized s -> exists s',
  update_unison_settings uni s = Ok s' /\ sized s' /\
  (if (uni =? 1)%Z then nth 0 (u_phase s') 0 = 0 /\ nth 0 (u_detune s') 0 = 0 /\ nth 0 (u_pan_l s') 0 = 1 /\ nth 0 (u_pan_r s') 0 = 1
   else spread_to uni s' (Z.to_nat uni) /\ nth 0 (u_detune s') 0 = -1 /\ nth (Z.to_nat uni - 1) (u_detune s') 0 = 1).
Proof.
  intros uni s Hu Hs. unfold update_unison_settings. destruct (Z.eqb_spec uni 1) as [->|NE].
  - destruct Hs as (A & B & C & D). rewrite uni_set_ok by (try assumption; lia). eexists. split; [reflexivity|]. split.
    + unfold sized. cbn [u_phase u_detune u_pan_l u_pan_r]. rewrite !upd_length. repeat split; assumption.
    + cbn [u_phase u_detune u_pan_l u_pan_r]. change (Z.to_nat 0) with 0%nat. rewrite !nth_upd_same by lia. repeat split; reflexivity.
  - destruct (unison_fold uni ltac:(lia) (Z.to_nat uni) (le_n _) s Hs) as (s' & E & S1 & P). exists s'. split; [exact E|]. split; [exact S1|]. split; [exact P|].
    assert (U1 : 2 <= IZR uni) by (apply IZR_le; lia). split.
    + destruct (P 0%nat ltac:(lia)) as (_ & Q & _). rewrite Q. cbn [INR]. unfold Rdiv. ring.
    + destruct (P (Z.to_nat uni - 1)%nat ltac:(lia)) as (_ & Q & _). rewrite Q. rewrite minus_INR by lia. cbn [INR]. rewrite INR_IZR_INZ, Z2Nat.id by lia. field. lra.
Qed.
Print Assumptions C149_unison.
(** more voices than the arrays hold: a panic *)
Theorem C149_too_many : forall uni, (17 <= uni)%Z -> update_unison_settings uni uni_new = Panic.
Proof.
  intros uni Hu. unfold update_unison_settings. destruct (Z.eqb_spec uni 1); [lia|].
  replace (Z.to_nat uni) with (16 + Datatypes.S (Z.to_nat uni - 17))%nat by lia. rewrite seq_app, map_app.
  assert (FA : forall A S0 (f : S0 -> A -> res S0) l1 l2 s, foldM f (l1 ++ l2) s = obind (foldM f l1 s) (fun s' => foldM f l2 s')).
  { clear. intros A S0 f. induction l1 as [|x l1 IH]; intros l2 s; [reflexivity|]. cbn [app foldM]. destruct (f s x); cbn [obind]; try reflexivity. apply IH. }
  rewrite FA. set (f := fun s u => _). cbn [Nat.add seq map Z.of_nat Pos.of_succ_nat Pos.succ].
  assert (ST : forall l s, sized s -> Forall (fun u => (0 <= u < 16)%Z) l -> exists s', foldM f l s = Ok s' /\ sized s').
  { induction l as [|u l IH]; intros s Hs HF; [exists s; split; [reflexivity|exact Hs]|]. inversion HF; subst. cbn [foldM]. unfold f at 1.
    pose proof Hs as (A & B & C & D). rewrite uni_set_ok by (try assumption; lia). cbn [obind]. apply IH; [|assumption].
    unfold sized. cbn [u_phase u_detune u_pan_l u_pan_r]. rewrite !upd_length. repeat split; assumption. }
  match goal with |- obind (foldM f ?l _) _ = _ => destruct (ST l uni_new) as (s' & E & (L & _)) end.
  - repeat split; reflexivity.
  - repeat constructor; lia.
  - rewrite E. cbn [obind foldM]. unfold f at 1, uni_set. unfold zset at 1. rewrite L. cbn. reflexivity.
Qed.
Print Assumptions C149_too_many.
Theorem C149_gain_scale : forall p, let u := voices_of p in (1 <= u)%Z /\ 4 / 10 < gscale u <= 1 /\ gscale 1 = 1.
Proof.
  intros p u. assert (U : (1 <= u)%Z) by (unfold u, voices_of; lia). split; [exact U|].
  assert (UR : 1 <= IZR u) by (apply IZR_le; exact U).
  assert (S1 : 1 <= sqrt (IZR u)) by (rewrite <- sqrt_1 at 1; apply sqrt_le_1_alt; exact UR).
  split; [|unfold gscale; rewrite sqrt_1; lra]. unfold gscale.
  assert (I1 : 0 < 1 / sqrt (IZR u) <= 1). { split; [apply Rdiv_lt_0_compat; lra|]. apply Rle_div_l; lra. } lra.
Qed.
Print Assumptions C149_gain_scale.
Example C149_nonvacuous : sized uni_new. Proof. repeat split; reflexivity. Qed.

(* ================= C150: the sine oscillator's waveforms ================= *)

Lemma quadrant_cases s c : (quadrant s c = 1%Z /\ 0 < s /\ 0 < c) \/ (quadrant s c = 2%Z /\ 0 < s /\ c <= 0) \/ (quadrant s c = 3%Z /\ s <= 0 /\ c <= 0) \/ (quadrant s c = 4%Z /\ s <= 0 /\ 0 < c).
Proof. unfold quadrant. destruct (Rlt_dec 0 s), (Rlt_dec 0 c); [left|right; left|right; right; right|right; right; left]; repeat split; lra. Qed.
(** For every point of the unit disc and every shape number, the waveform stays within -1..1. *)
Theorem C150_shapes_bounded : forall s c shape, s * s + c * c <= 1 -> -1 <= sine_shape s c shape <= 1.
Proof.
  intros s c shape H. assert (B : -1 <= s <= 1 /\ -1 <= c <= 1 /\ -1 <= 2 * s * c <= 1) by (pose proof (Rle_0_sqr (s + c)) as P1; pose proof (Rle_0_sqr (s - c)) as P2; unfold Rsqr in P1, P2; repeat split; nra).
  unfold sine_shape. destruct (quadrant_cases s c) as [(Q & A1 & A2)|[(Q & A1 & A2)|[(Q & A1 & A2)|(Q & A1 & A2)]]]; rewrite Q; cbn [Z.eqb Z.leb Pos.eqb Z.compare Pos.compare Pos.compare_cont orb];
  (destruct shape as [|p|p]; [lra| |lra]; do 4 (try destruct p as [p|p|]); lra).
Qed.
Print Assumptions C150_shapes_bounded.
(** Moving half a turn (s, c to -s, -c) negates the symmetric shapes 0 and 4 wherever the point is off the axes;
    shapes 1 and 5 never leave their floor of -1 in the lower half. *)
Theorem C150_symmetry : forall s c, s <> 0 -> c <> 0 ->
  sine_shape (- s) (- c) 0 = - sine_shape s c 0 /\ sine_shape (- s) (- c) 4 = - sine_shape s c 4 /\
  sine_shape (- s) (- c) 2 = - sine_shape s c 2 /\ sine_shape (- s) (- c) 3 = - sine_shape s c 3 /\
  (s < 0 -> sine_shape s c 1 = -1 /\ sine_shape s c 5 = -1 /\ sine_shape s c 6 = 0).
Proof.
  intros s c Hs Hc. unfold sine_shape.
  destruct (quadrant_cases s c) as [(Q & A1 & A2)|[(Q & A1 & A2)|[(Q & A1 & A2)|(Q & A1 & A2)]]];
  destruct (quadrant_cases (- s) (- c)) as [(Q' & B1 & B2)|[(Q' & B1 & B2)|[(Q' & B1 & B2)|(Q' & B1 & B2)]]]; try lra; rewrite Q, Q'; cbn [Z.eqb Z.leb Pos.eqb Z.compare Pos.compare Pos.compare_cont orb]; repeat split; intros; lra.
Qed.
Print Assumptions C150_symmetry.
(** shape 4 ("1 - cos" arcs) is the sine's odd mirror: it rises 0..1 over the first quarter and back *)
Theorem C150_shape4 : forall t, (0 < t < PI / 2 -> sine_shape (sin t) (cos t) 4 = 1 - cos t) /\ (PI / 2 < t < PI -> sine_shape (sin t) (cos t) 4 = 1 + cos t) /\
  (forall shape, -1 <= sine_shape (sin t) (cos t) shape <= 1).
Proof.
  intros t. pose proof PI_RGT_0 as P. split; [|split].
  - intros H. assert (0 < sin t) by (apply sin_gt_0; lra). assert (0 < cos t) by (apply cos_gt_0; lra). unfold sine_shape, quadrant. destruct (Rlt_dec 0 (sin t)); [|lra]. destruct (Rlt_dec 0 (cos t)); [|lra]. reflexivity.
  - intros H. assert (0 < sin t) by (apply sin_gt_0; lra). assert (cos t < 0) by (apply cos_lt_0; lra). unfold sine_shape, quadrant. destruct (Rlt_dec 0 (sin t)); [|lra]. destruct (Rlt_dec 0 (cos t)); [lra|]. reflexivity.
  - intros shape. apply C150_shapes_bounded. pose proof (sin2_cos2 t) as E. unfold Rsqr in E. lra.
Qed.
Print Assumptions C150_shape4.
Example C150_nonvacuous : sine_shape (3 / 5) (4 / 5) 6 = 24 / 25 /\ (3 / 5) * (3 / 5) + (4 / 5) * (4 / 5) <= 1.
Proof. split; [|lra]. unfold sine_shape, quadrant. destruct (Rlt_dec 0 (3 / 5)); [|lra]. destruct (Rlt_dec 0 (4 / 5)); [|lra]. cbn. lra. Qed.
