(** Theorems about the design of the IIR voice filters (C268, C269, C271, C272). *)
From Coq Require Import Reals List Lra Lia.
From Flocq Require Import Core.Core.
From Coquelicot Require Import Coquelicot.
From Verif Require Import Base Util F32 BlockModel MathModel RampProps FiltProps NlfModel NlfProps IirModel IirProps.
Import ListNotations.
#[local] Open Scope R_scope.

Definition q2inv_of (sub : isub) (pole : ipole) (freq reso : R) : R :=
  match pole with ITwo => map_2pole reso (boundfreq freq) sub | IFour => map_4pole reso (boundfreq freq) sub end.
(* the poles and zeros of a design as the tuple (a1, a2, b0, b1, b2) *)
Definition ratios (f : fcs) : R * R * R * R * R := (fa1 f / fa0 f, fa2 f / fa0 f, fb0 f / fa0 f, fb1 f / fa0 f, fb2 f / fa0 f).
Definition nl_of (ty : ity) : nlty := match ty with ILow => NLowPass | IBand => NBandPass | IHigh => NHighPass end.

(** Specification: the design for the angular frequency [w] from the audio cookbook, with bandwidth number [q2inv] *)
Definition cookbook (ty : ity) (q2inv w : R) : fcs :=
  let alpha := Rmin (sin w * q2inv) (Rabs (sin w) - 1 / 10000) in
  match ty with
  | ILow => mk_fcs (1 + alpha) (-2 * cos w) (1 - alpha) ((1 - cos w) / 2) (1 - cos w) ((1 - cos w) / 2)
  | IHigh => mk_fcs (1 + alpha) (-2 * cos w) (1 - alpha) ((1 + cos w) / 2) (- (1 + cos w)) ((1 + cos w) / 2)
  | IBand => mk_fcs (1 + alpha) (-2 * cos w) (1 - alpha) (alpha / (2 * q2inv)) 0 (- (alpha / (2 * q2inv)))
  end.
Lemma root_cos w : sqrt (1 - cos w * cos w) = Rabs (sin w).
Proof. pose proof (sin2_cos2 w) as E. unfold Rsqr in E. replace (1 - cos w * cos w) with (Rsqr (sin w)) by (unfold Rsqr; lra). apply sqrt_Rsqr_abs. Qed.
Lemma root_sin w : sqrt (1 - sin w * sin w) = Rabs (cos w).
Proof. pose proof (sin2_cos2 w) as E. unfold Rsqr in E. replace (1 - sin w * sin w) with (Rsqr (cos w)) by (unfold Rsqr; lra). apply sqrt_Rsqr_abs. Qed.
Lemma fcs_eq f g : fa0 f = fa0 g -> fa1 f = fa1 g -> fa2 f = fa2 g -> fb0 f = fb0 g -> fb1 f = fb1 g -> fb2 f = fb2 g -> f = g.
Proof. destruct f, g. cbn. intros. subst. reflexivity. Qed.
(* given the pair (cosine, sine) the code's design is the cookbook's *)
Lemma design_cos_sin ty sub pole freq reso w : sub <> ISvf -> q2inv_of sub pole freq reso <> 0 ->
  iir_design ty sub pole freq reso (cos w, sin w) = Some (cookbook ty (q2inv_of sub pole freq reso) w).
Proof.
  intros Hs Hq. unfold iir_design. cbv zeta. fold (q2inv_of sub pole freq reso). set (q := q2inv_of _ _ _ _) in *. clearbody q.
  assert (A : f_alpha (sin w) (cos w) q sub = Rmin (sin w * q) (Rabs (sin w) - 1 / 10000)). { unfold f_alpha. rewrite root_cos. destruct sub; [contradiction| | |]; reflexivity. }
  rewrite A. unfold cookbook, f_lowpass, f_highpass, f_bandpass. cbv zeta. set (al := Rmin _ _). destruct ty.
  - f_equal. apply fcs_eq; cbn; try reflexivity; field.
  - destruct (Req_EM_T q 0); [contradiction|]. f_equal. apply fcs_eq; cbn; try reflexivity; field; assumption.
  - f_equal. apply fcs_eq; cbn; try reflexivity; field.
Qed.

(** The cookbook design is right: at its own frequency it has the gain 1 / (2 q2inv), when the damping is not at its upper limit. *)
Theorem C268_cookbook_centre : forall ty w q2inv, 0 < w < PI -> 0 < q2inv -> sin w * q2inv <= sin w - 1 / 10000 ->
  gain_is (ratios (cookbook ty q2inv w)) w (1 / (2 * q2inv)).
Proof.
  intros ty w q Hw Hq Hs. assert (S := sin_gt_0 w (proj1 Hw) (proj2 Hw)). 
  assert (P : 0 < 1 / (2 * q)) by (apply Rdiv_lt_0_compat; lra).
  pose proof (C254_centre (nl_of ty) w (1 / (2 * q)) P Hw) as G.
  assert (E : ratios (cookbook ty q w) = nl_design (nl_of ty) (sin w) (cos w) (1 / (2 * q))); [|rewrite E; destruct ty; exact G].
  unfold cookbook, nl_design, ratios. rewrite (Rabs_pos_eq (sin w)) by lra. rewrite Rmin_left by lra. cbv zeta.
  replace (sin w / (2 * (1 / (2 * q)))) with (sin w * q) by (field; lra). assert (0 < sin w * q) by (apply Rmult_lt_0_compat; lra).
  destruct ty; cbn [nl_of fa0 fa1 fa2 fb0 fb1 fb2]; repeat apply f_equal2; field; lra.
Qed.
Print Assumptions C268_cookbook_centre.

(** The design made from what the tuner returns for the angular frequency w, the pair (sin w, cos w), is the cookbook's design for
    pi/2 - w: sine and cosine are swapped.  A filter set to the frequency f is centred on a quarter of the (oversampled) rate minus f.
    The band-reject filter's one zero lies at pi/2 - w too, and it lets w through unless the two coincide. *)
Theorem C268_cutoff_refuted :
  (forall ty sub pole freq reso w, sub <> ISvf -> q2inv_of sub pole freq reso <> 0 ->
     iir_design ty sub pole freq reso (sin w, cos w) = Some (cookbook ty (q2inv_of sub pole freq reso) (PI / 2 - w))) /\
  (forall rough reso w t, let f := br_design rough reso (sin w, cos w) in mag2 (fb0 f) (fb1 f) (fb2 f) t = 4 * ((cos t - sin w) * (cos t - sin w))) /\
  (forall rough reso w, 0 < w < PI / 2 -> let f := br_design rough reso (sin w, cos w) in
     mag2 (fb0 f) (fb1 f) (fb2 f) (PI / 2 - w) = 0 /\ (w <> PI / 4 -> 0 < mag2 (fb0 f) (fb1 f) (fb2 f) w)).
Proof.
  assert (M : forall rough reso w t, let f := br_design rough reso (sin w, cos w) in mag2 (fb0 f) (fb1 f) (fb2 f) t = 4 * ((cos t - sin w) * (cos t - sin w))).
  { intros rough reso w t. unfold br_design, f_bandreject, mag2. cbv zeta. cbn [fb0 fb1 fb2]. rewrite cos_2a_cos, sin_2a. pose proof (sin2_cos2 t) as E. unfold Rsqr in E.
    set (s := sin t) in *. set (c := cos t) in *. set (v := sin w). assert (SS : s * s = 1 - c * c) by lra.
    transitivity ((2 * c * (c - v)) * (2 * c * (c - v)) + s * s * ((2 * (c - v)) * (2 * (c - v)))); [ring|]. rewrite SS. ring. }
  split; [|split; [exact M|]].
  - intros. rewrite <- (design_cos_sin ty sub pole freq reso (PI / 2 - w)) by assumption. rewrite cos_shift, sin_shift. reflexivity.
  - intros rough reso w Hw f. unfold f. rewrite !M. rewrite cos_shift. split; [ring|]. intros N.
    assert (D : cos w - sin w <> 0).
    { intros E. assert (C : cos w = cos (PI / 2 - w)) by (rewrite cos_shift; lra).
      destruct (Rtotal_order w (PI / 2 - w)) as [L|[L|L]]; [|apply N; lra|].
      - assert (cos (PI / 2 - w) < cos w) by (apply cos_decreasing_1; lra). lra.
      - assert (cos w < cos (PI / 2 - w)) by (apply cos_decreasing_1; lra). lra. }
    assert (0 < (cos w - sin w) * (cos w - sin w)) by exact (Rlt_0_sqr _ D). lra.
Qed.
Print Assumptions C268_cutoff_refuted.
(* a note at 1/100 of the oversampled rate, Smooth, two poles, resonance 1 *)
Example C268_ex : q2inv_of ISmooth ITwo 0 1 = 5 / 100 /\ 0 < 2 * PI / 100 < PI / 2 /\ 2 * PI / 100 <> PI / 4.
Proof.
  split; [|pose proof PI_RGT_0; lra]. unfold q2inv_of, map_2pole, boundfreq, reso_curve. rewrite limR. destruct (Rlt_dec 75 0); [lra|]. destruct (Rlt_dec 0 (-55)); [lra|].
  replace (1 - (1 - 1) * (1 - 1)) with 1 by ring. rewrite Rmax_left by lra. rewrite Rmin_left by lra. lra.
Qed.

(* ================= C269: stability ================= *)

(** Below a quarter of the oversampled rate (by a hair) every design with a positive bandwidth number is stable. *)
Theorem C269_stable_below : forall ty sub pole freq reso w f, sub <> ISvf -> 0 < w < PI / 2 -> 1 / 10000 < cos w -> 0 < q2inv_of sub pole freq reso ->
  iir_design ty sub pole freq reso (sin w, cos w) = Some f -> f_stable f.
Proof.
  intros ty sub pole freq reso w f Hs Hw Hc Hq E. rewrite (proj1 C268_cutoff_refuted) in E by (try assumption; lra). injection E as <-.
  unfold cookbook. rewrite sin_shift, cos_shift. rewrite (Rabs_pos_eq (cos w)) by lra. set (q := q2inv_of _ _ _ _) in *. clearbody q.
  assert (S := sin_gt_0 w ltac:(lra) ltac:(lra)). assert (S1 : sin w < 1). { pose proof (sin2_cos2 w) as E. unfold Rsqr in E. assert (0 < cos w * cos w) by (apply Rmult_lt_0_compat; lra). nra. }
  set (al := Rmin _ _). assert (A : 0 < al). { unfold al. apply Rmin_glb_lt; [apply Rmult_lt_0_compat; lra|lra]. } clearbody al.
  assert (G : forall b0 b1 b2, f_stable (mk_fcs (1 + al) (-2 * sin w) (1 - al) b0 b1 b2)).
  { intros. unfold f_stable. cbn [fa0 fa1 fa2]. split; [lra|]. split; apply Rabs_def1; lra. }
  destruct ty; apply G.
Qed.
Print Assumptions C269_stable_below.
(** Above a quarter of the oversampled rate (the highest cutoffs the filters allow: note 75 is 33.5 kHz, a quarter of 88.2 kHz is 22 kHz)
    every such design has a pole outside the unit circle, and its memory does not fade: without clipping the energy in the coupled form's
    two states is multiplied by a2 > 1 at every silent sample, and in the lattice it never falls. *)
Theorem C269_stability_refuted :
  (forall ty sub pole freq reso w f, sub <> ISvf -> PI / 2 < w < PI -> 0 < q2inv_of sub pole freq reso < 1 ->
     iir_design ty sub pole freq reso (sin w, cos w) = Some f -> 0 < fa0 f < fa2 f) /\
  (forall f gain s1 s2 n, f_complex f -> let s := sig_state iir_12_cfc (mk_cs (to_coupled f gain 0) cpl0 s1 s2 0 0 1) (fun _ => 0) n in
     p_1 s * p_1 s + p_2 s * p_2 s = (fa2 f / fa0 f) ^ n * (s1 * s1 + s2 * s2)) /\
  (forall f gain s1 s2 n, 0 < fa0 f < fa2 f -> Rabs (fa1 f) <= fa0 f + fa2 f -> let st := sig_state iir_12_b (mk_ls (to_lattice f gain 0) lat0 s1 s2 0 0 1) (fun _ => 0) in
     l_1 (st n) * l_1 (st n) + l_2 (st n) * l_2 (st n) <= l_1 (st (S n)) * l_1 (st (S n)) + l_2 (st (S n)) * l_2 (st (S n))).
Proof.
  split; [|split].
  - intros ty sub pole freq reso w f Hs Hw Hq E. rewrite (proj1 C268_cutoff_refuted) in E by (try assumption; lra). injection E as <-.
    unfold cookbook. rewrite sin_shift, cos_shift. set (q := q2inv_of _ _ _ _) in *. clearbody q.
    assert (C : cos w < 0) by (apply cos_lt_0; lra). rewrite (Rabs_left (cos w)) by exact C. pose proof (COS_bound w) as CB.
    set (al := Rmin _ _). assert (A : -1 < al < 0).
    { assert (cos w * q < 0) by nra. assert (-1 < cos w * q) by nra. unfold al. split; [apply Rmin_glb_lt; lra|eapply Rle_lt_trans; [apply Rmin_l|lra]]. }
    clearbody al. destruct ty; cbn [fa0 fa2]; lra.
  - intros f gain s1 s2 n H. destruct (cpl_facts f gain 0 H) as (_ & A2 & _ & _ & _ & _ & G & _). set (c := to_coupled f gain 0) in *. cbv zeta.
    induction n as [|n IH] using nat_ind; [cbn; ring|].
    assert (P : forall k, let s := sig_state iir_12_cfc (mk_cs c cpl0 s1 s2 0 0 1) (fun _ => 0) k in p_c s = c /\ p_d s = cpl0 /\ p_clip s = 1).
    { intros k. induction k as [|k K]; [repeat split|]. cbv zeta in *. cbn [sig_state]. set (s := sig_state _ _ _ k) in *. clearbody s. destruct K as (K1 & K2 & K3).
      unfold iir_12_cfc, cpl_turn. cbv zeta. cbn [fst p_c p_d p_clip]. rewrite K1, K2, cpl_add_0, G, clip_open. auto. }
    specialize (P n). cbv zeta in P. cbn [sig_state]. set (s := sig_state _ _ _ n) in *. clearbody s. destruct P as (K1 & K2 & K3).
    unfold iir_12_cfc, cpl_turn. cbv zeta. cbn [fst p_1 p_2]. rewrite K1, K2, K3, cpl_add_0. rewrite <- tech_pow_Rmult, (Rmult_assoc (fa2 f / fa0 f)), <- IH, <- A2. ring.
  - intros f gain s1 s2 n H H1 st. set (c := to_lattice f gain 0) in *.
    assert (P : forall k, l_c (st k) = c /\ l_d (st k) = lat0 /\ l_clip (st k) = 1).
    { intros k. unfold st. induction k as [|k K]; [repeat split|]. cbn [sig_state]. set (s := sig_state _ _ _ k) in *. clearbody s. destruct K as (K1 & K2 & K3).
      unfold iir_12_b, lat_pass. cbv zeta. cbn [fst l_c l_d l_clip]. rewrite K1, K2, lat_add_0. change (lcg c) with 0. rewrite clip_open. auto. }
    specialize (P n). unfold st in *. cbn [sig_state]. set (s := sig_state _ _ _ n) in *. clearbody s st. destruct P as (K1 & K2 & K3).
    unfold iir_12_b, lat_pass. cbv zeta. cbn [fst l_1 l_2]. rewrite K1, K2, K3, lat_add_0.
    assert (I : 0 < / fa0 f) by (apply Rinv_0_lt_compat; lra). assert (II : fa0 f * / fa0 f = 1) by (apply Rinv_r; lra).
    assert (B2 : 1 < k2 c). { unfold c, to_lattice. cbn [k2]. replace (fa2 f * (1 / fa0 f)) with (fa2 f * / fa0 f) by (field; lra). nra. }
    assert (B1 : k1 c * k1 c <= 1).
    { assert (E : k1 c = fa1 f / (fa0 f + fa2 f)) by (unfold c, to_lattice; cbn [k1]; field; repeat split; lra). 
      assert (Q : Rabs (k1 c) <= 1). { rewrite E. unfold Rdiv. rewrite Rabs_mult, (Rabs_pos_eq (/ _)) by (left; apply Rinv_0_lt_compat; lra). apply (proj2 (Rcomplements.Rle_div_l (Rabs (fa1 f)) 1 (fa0 f + fa2 f) ltac:(lra))). lra. }
      apply Rcomplements.Rabs_le_between in Q. nra. }
    assert (Q1 : q1 c * q1 c = 1 - k1 c * k1 c). { change (q1 c) with (sqrt (Rabs (1 - k1 c * k1 c))). rewrite Rabs_pos_eq by lra. apply sqrt_sqrt. lra. }
    set (a := l_1 s). set (b := l_2 s). clearbody a b.
    replace ((q1 c * (q2 c * 0 - k2 c * b) - k1 c * a) * 1 * ((q1 c * (q2 c * 0 - k2 c * b) - k1 c * a) * 1) + (k1 c * (q2 c * 0 - k2 c * b) + q1 c * a) * 1 * ((k1 c * (q2 c * 0 - k2 c * b) + q1 c * a) * 1))
      with ((q1 c * q1 c + k1 c * k1 c) * (k2 c * k2 c * (b * b) + a * a)) by ring. rewrite Q1.
    assert (0 <= b * b) by exact (Rle_0_sqr b). assert (1 <= k2 c * k2 c) by nra. assert (b * b <= k2 c * k2 c * (b * b)) by (rewrite <- (Rmult_1_l (b * b)) at 1; apply Rmult_le_compat_r; assumption). lra.
Qed.
Print Assumptions C269_stability_refuted.

(* ================= C271: the resonance maps ================= *)
Lemma lim_id v a b : a <= b -> a <= limit_range_f32 arithR v a b <= b.
Proof. intros H. rewrite limR. unfold Rmin, Rmax. repeat destruct (Rle_dec _ _); lra. Qed.
Lemma lim_mono v w a b : v <= w -> limit_range_f32 arithR v a b <= limit_range_f32 arithR w a b.
Proof. intros H. rewrite !limR. unfold Rmin, Rmax. repeat destruct (Rle_dec _ _); lra. Qed.
Lemma taper_range freq : 0 <= Rmax 0 (1 - Rmax 0 ((freq - 58) * (5 / 100))) <= 1.
Proof. split; [apply Rmax_l|]. apply Rmax_lub; [lra|]. assert (0 <= Rmax 0 ((freq - 58) * (5 / 100))) by apply Rmax_l. lra. Qed.

(** For every resonance from 0 to 1 and every note the bandwidth number lies in the subtype's range, it never rises with the resonance, and
    for Medium and Rough the resonance is unchanged up to note 58 and gone from note 78 on. *)
Theorem C271_resonance : forall pole freq,
  (forall reso, -1 / 100 <= q2inv_of IMedium pole freq reso <= 99 / 100 /\ -5 / 100 <= q2inv_of IRough pole freq reso <= 99895 / 100000 /\
     (match pole with ITwo => 5 / 100 | IFour => 2 / 10 end) <= q2inv_of ISmooth pole freq reso <= 25 / 10) /\
  (forall sub r r', 0 <= r <= r' -> r' <= 1 -> q2inv_of sub pole freq r' <= q2inv_of sub pole freq r) /\
  (forall r, freq <= 58 -> reso_taper r freq = r) /\ (forall r, 78 <= freq -> reso_taper r freq = 0).
Proof.
  intros pole freq. split; [|split; [|split]].
  - intros reso. unfold q2inv_of. destruct pole; cbn [map_2pole map_4pole]; set (F := boundfreq freq);
      repeat match goal with |- context [limit_range_f32 arithR ?v ?a ?b] => let q := fresh "q" in pose proof (lim_id v a b ltac:(lra)); set (q := limit_range_f32 arithR v a b) in *; clearbody q end; lra.
  - intros sub r r' H H'. unfold q2inv_of. set (F := boundfreq freq). pose proof (taper_range F) as T.
    assert (A : reso_taper r F <= reso_taper r' F) by (unfold reso_taper; apply Rmult_le_compat_r; lra).
    assert (B : 0 <= reso_taper r F /\ reso_taper r' F <= 1) by (unfold reso_taper; split; [apply Rmult_le_pos; lra|set (t := Rmax 0 _) in *; clearbody t; nra]).
    assert (C : forall x y, 0 <= x <= y -> y <= 1 -> reso_curve x <= reso_curve y) by (intros x y Hx Hy; unfold reso_curve; nra).
    assert (M : forall x y a b, x <= y -> limit_range_f32 arithR x a b <= limit_range_f32 arithR y a b) by (intros; apply lim_mono; assumption).
    pose proof (C r r' H H') as C1. pose proof (C (reso_taper r F) (reso_taper r' F) ltac:(lra) ltac:(lra)) as C2.
    destruct pole, sub; cbn [map_2pole map_4pole]; try lra;
      match goal with |- context [limit_range_f32 arithR ?v ?a ?b] => match goal with |- _ - _ * limit_range_f32 arithR ?w a b <= _ - _ * limit_range_f32 arithR ?v' a b =>
        assert (limit_range_f32 arithR v' a b <= limit_range_f32 arithR w a b) by (apply M; lra) end end; lra.
  - intros r H. unfold reso_taper. rewrite (Rmax_left 0 ((freq - 58) * (5 / 100))) by lra. rewrite Rmax_right by lra. ring.
  - intros r H. unfold reso_taper. rewrite (Rmax_right 0 ((freq - 58) * (5 / 100))) by lra. rewrite Rmax_left by lra. ring.
Qed.
Print Assumptions C271_resonance.

(* ================= C272: the band-pass design ================= *)
(** Every setting gives coefficients, except the band-pass where the bandwidth number crosses 0 on its way to self-oscillation: there it
    divides by 0.  On the Medium two-pole filter that is at resonance 0.9 for every note up to 58, whatever the tuning. *)
Theorem C272_bandpass_refuted :
  (forall ty sub pole freq reso omega clip, iir_coeff ty sub pole freq reso omega clip = None <-> ty = IBand /\ q2inv_of sub pole freq reso = 0) /\
  (forall freq omega clip, freq <= 58 -> iir_coeff IBand IMedium ITwo freq (9 / 10) omega clip = None) /\
  (forall freq omega clip, freq <= 58 -> iir_coeff IBand IMedium IFour freq (9900 / 9949) omega clip = None) /\
  (forall freq omega clip, freq <= 58 -> iir_coeff IBand IRough IFour freq (100 / 105) omega clip = None).
Proof.
  assert (G : forall ty sub pole freq reso omega clip, iir_coeff ty sub pole freq reso omega clip = None <-> ty = IBand /\ q2inv_of sub pole freq reso = 0).
  { intros ty sub pole freq reso [a b] clip. unfold iir_coeff, iir_design. cbv zeta. fold (q2inv_of sub pole freq reso). set (q := q2inv_of _ _ _ _). clearbody q. unfold f_bandpass.
    destruct ty; [split; [discriminate|intros [X _]; discriminate]| |split; [discriminate|intros [X _]; discriminate]].
    destruct (Req_EM_T q 0) as [Z|Z]; split; intros K; [split; [reflexivity|exact Z]|reflexivity|discriminate|destruct K; contradiction]. }
  assert (B : forall freq, freq <= 58 -> boundfreq freq <= 58). { intros freq H. unfold boundfreq. cbv zeta. destruct (Rlt_dec 75 freq); [lra|]. destruct (Rlt_dec freq (-55)); lra. }
  split; [exact G|]. refine (conj _ (conj _ _)); intros freq omega clip H; apply G; (split; [reflexivity|]); specialize (B freq H);
    destruct (C271_resonance ITwo (boundfreq freq)) as (_ & _ & T & _); cbn [q2inv_of map_2pole map_4pole]; unfold reso_curve; rewrite (T _ B), limR.
  - rewrite Rmax_left by lra. rewrite Rmin_left by lra. lra.
  - rewrite Rmax_left by lra. rewrite Rmin_left by lra. lra.
  - rewrite Rmax_left by lra. rewrite Rmin_left by lra. lra.
Qed.
Print Assumptions C272_bandpass_refuted.
