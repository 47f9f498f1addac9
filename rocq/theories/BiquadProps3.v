(* BiquadProps3.v - C111..C114: gains, response to a sine, and how coefficients are set. *)
From Coq Require Import Reals Lra Psatz List.
From Coquelicot Require Complex.
From Verif Require Import Base LagModel BiquadModel BiquadProofs BiquadProps BiquadProps2.
Local Open Scope R_scope.

(* ================= C111: the gains of the designs ================= *)
(* frequency in cycles per sample: 0 is DC, 1/2 is half the sample rate, om / (2 pi) is the design's own frequency *)
Definition gain (d : kind) (om q f : R) : R := plot_magnitude (tuned bq_new d om q) f.

Lemma gain_sq : forall d om q f, 0 < om < PI -> (takes_q d = true -> 0 < q) ->
  let c := design_of d om q in let co := cos (2 * PI * f) in let t := sin (2 * PI * f) in
  0 < quad (c_a0 c) (c_a1 c) (c_a2 c) co t /\
  gain d om q f = sqrt (quad (c_b0 c) (c_b1 c) (c_b2 c) co t / quad (c_a0 c) (c_a1 c) (c_a2 c) co t).
Proof.
  intros d om q f Ho Hq. cbv zeta. destruct (shape d om q Ho Hq) as (al & Ha & E0 & E1 & E2).
  assert (P : 0 < quad (c_a0 (design_of d om q)) (c_a1 (design_of d om q)) (c_a2 (design_of d om q)) (cos (2 * PI * f)) (sin (2 * PI * f))).
  { rewrite E0, E1, E2. apply quad_den_pos; [exact Ho|exact Ha|apply ct_one]. }
  split; [exact P|]. unfold gain. rewrite tuned_fresh. apply plot_design; [rewrite E0; lra|exact P].
Qed.

Lemma at_dc : forall p q r, quad p q r (cos (2 * PI * 0)) (sin (2 * PI * 0)) = (p + r + q) * (p + r + q).
Proof. intros. rewrite Rmult_0_r, cos_0, sin_0. unfold quad. ring. Qed.
Lemma at_nyq : forall p q r, quad p q r (cos (2 * PI * (1 / 2))) (sin (2 * PI * (1 / 2))) = (p + r - q) * (p + r - q).
Proof. intros. replace (2 * PI * (1 / 2)) with PI by field. rewrite cos_PI, sin_PI. unfold quad. ring. Qed.
Lemma sqrt_ratio : forall x y, 0 <= x -> 0 < y -> forall g, 0 <= g -> x = g * g * y -> sqrt (x / y) = g.
Proof. intros x y Hx Hy g Hg E. replace (x / y) with (g * g) by (rewrite E; field; lra). apply sqrt_square, Hg. Qed.
Lemma quad_nonneg : forall p q r c t, 0 <= quad p q r c t.
Proof. intros. unfold quad. pose proof (Rle_0_sqr ((p + r) * c + q)). pose proof (Rle_0_sqr ((p - r) * t)). unfold Rsqr in *. lra. Qed.

Lemma gain_val : forall d om q f g, 0 < om < PI -> (takes_q d = true -> 0 < q) -> 0 <= g ->
  (let c := design_of d om q in let co := cos (2 * PI * f) in let t := sin (2 * PI * f) in
   quad (c_b0 c) (c_b1 c) (c_b2 c) co t = g * g * quad (c_a0 c) (c_a1 c) (c_a2 c) co t) ->
  gain d om q f = g.
Proof.
  intros d om q f g Ho Hq Hg E. destruct (gain_sq d om q f Ho Hq) as [P ->]. apply sqrt_ratio; [apply quad_nonneg|exact P|exact Hg|exact E].
Qed.

Ltac below om := (destruct (Rlt_dec PI om) as [?X|_]; [exfalso; lra|]).

(* Low-pass: unity at DC, nothing at half the sample rate, and the quality factor itself at the cutoff. *)
Theorem C111_lowpass : forall om q, 0 < om < PI -> 0 < q ->
  gain KLp om q 0 = 1 /\ gain KLp om q (1 / 2) = 0 /\ gain KLp om q (om / (2 * PI)) = q.
Proof.
  intros om q Ho Hq. repeat split; apply gain_val; try (intros _; exact Hq); try exact Ho; try lra;
    cbv zeta; unfold design_of, design_lp; below om; cbv zeta; cbn [c_a0 c_a1 c_a2 c_b0 c_b1 c_b2].
  - rewrite !at_dc. field. lra.
  - rewrite !at_nyq. field. lra.
  - rewrite two_pi_f. unfold quad. assert (S0 : 0 < sin om) by (apply sin_gt_0; lra).
    match goal with |- _ = q * q * ?d => replace (q * q * d) with ((sin om * sin om) * (sin om * sin om)) by (field; lra) end.
    replace (sin om * sin om) with (1 - cos om * cos om) by (pose proof (ct_one om); lra). field.
Qed.
(* High-pass: nothing at DC, unity at half the sample rate, the quality factor at the cutoff. *)
Theorem C111_highpass : forall om q, 0 < om < PI -> 0 < q ->
  gain KHp om q 0 = 0 /\ gain KHp om q (1 / 2) = 1 /\ gain KHp om q (om / (2 * PI)) = q.
Proof.
  intros om q Ho Hq. repeat split; apply gain_val; try (intros _; exact Hq); try exact Ho; try lra;
    cbv zeta; unfold design_of, design_hp; below om; cbv zeta; cbn [c_a0 c_a1 c_a2 c_b0 c_b1 c_b2].
  - rewrite !at_dc. field. lra.
  - rewrite !at_nyq. field. lra.
  - rewrite two_pi_f. unfold quad. assert (S0 : 0 < sin om) by (apply sin_gt_0; lra).
    match goal with |- _ = q * q * ?d => replace (q * q * d) with ((sin om * sin om) * (sin om * sin om)) by (field; lra) end.
    replace (sin om * sin om) with (1 - cos om * cos om) by (pose proof (ct_one om); lra). field.
Qed.

Lemma sqrt_ratio_le : forall x y g, 0 <= x -> 0 < y -> 0 <= g -> x <= g * g * y -> sqrt (x / y) <= g.
Proof.
  intros x y g Hx Hy Hg E. rewrite <- (sqrt_square g Hg). apply sqrt_le_1_alt. apply Rmult_le_reg_r with y; [exact Hy|].
  replace (x / y * y) with x by (field; lra). exact E.
Qed.

(* Band-pass: nothing at DC and at half the sample rate, unity at the centre, never more than unity. *)
Theorem C111_bandpass : forall d om q, In d [KBp; KBp2a] -> 0 < om < PI -> (takes_q d = true -> 0 < q) ->
  gain d om q 0 = 0 /\ gain d om q (1 / 2) = 0 /\ gain d om q (om / (2 * PI)) = 1 /\ (forall f, gain d om q f <= 1).
Proof.
  intros d om q Hd Ho Hq. assert (S0 : 0 < sin om) by (apply sin_gt_0; lra).
  assert (E : exists al, design_of d om q = mk_c6 (1 + al) (-2 * cos om) (1 - al) al 0 (- al)).
  { destruct Hd as [<-|[<-|[]]]; eexists; reflexivity. }
  destruct E as [al E].
  assert (G : forall f g, 0 <= g -> quad al 0 (- al) (cos (2 * PI * f)) (sin (2 * PI * f)) =
             g * g * quad (1 + al) (-2 * cos om) (1 - al) (cos (2 * PI * f)) (sin (2 * PI * f)) -> gain d om q f = g).
  { intros f g Hg H. apply gain_val; [exact Ho|exact Hq|exact Hg|]. cbv zeta. rewrite E. exact H. }
  repeat split; [apply G; [lra|]..|].
  - rewrite !at_dc. ring.
  - rewrite !at_nyq. ring.
  - rewrite two_pi_f. unfold quad. ring.
  - intros f. destruct (gain_sq d om q f Ho Hq) as [P ->]. rewrite E in P |- *. cbn [c_a0 c_a1 c_a2 c_b0 c_b1 c_b2] in P |- *.
    apply sqrt_ratio_le; [apply quad_nonneg|exact P|lra|]. rewrite quad_den. unfold quad.
    set (c := cos (2 * PI * f)). set (t := sin (2 * PI * f)).
    pose proof (Rle_0_sqr (c - cos om)) as Q. unfold Rsqr in Q. nra.
Qed.
(* The peak design: gain 0.1 + 10 r^2 at the centre, with r the argument limited to [0, 1]; never more. *)
Theorem C111_peak : forall om qq, 0 < om < PI ->
  let g := 1 / 10 + 10 * Rmin (Rmax qq 0) 1 * Rmin (Rmax qq 0) 1 in
  gain KPka om qq 0 = 0 /\ gain KPka om qq (1 / 2) = 0 /\ gain KPka om qq (om / (2 * PI)) = g /\ (forall f, gain KPka om qq f <= g).
Proof.
  intros om qq Ho. cbv zeta. change (Rmin (Rmax qq 0) 1) with (limit_range_R qq 0 1).
  set (g := 1 / 10 + 10 * limit_range_R qq 0 1 * limit_range_R qq 0 1).
  assert (Hg : 0 < g) by (unfold g; pose proof (Rle_0_sqr (limit_range_R qq 0 1)); unfold Rsqr in *; nra).
  assert (Hq : takes_q KPka = true -> 0 < qq) by discriminate.
  set (al := sin om / (2 * g)).
  assert (E : design_of KPka om qq = mk_c6 (1 + al) (-2 * cos om) (1 - al) (g * al) 0 (- g * al)) by reflexivity.
  assert (G : forall f v, 0 <= v -> quad (g * al) 0 (- g * al) (cos (2 * PI * f)) (sin (2 * PI * f)) =
             v * v * quad (1 + al) (-2 * cos om) (1 - al) (cos (2 * PI * f)) (sin (2 * PI * f)) -> gain KPka om qq f = v).
  { intros f v Hv H. apply gain_val; [exact Ho|exact Hq|exact Hv|]. cbv zeta. rewrite E. exact H. }
  clearbody al. repeat split; [apply G; [lra|]..|].
  - rewrite !at_dc. ring.
  - rewrite !at_nyq. ring.
  - rewrite two_pi_f. unfold quad. ring.
  - intros f. destruct (gain_sq KPka om qq f Ho Hq) as [P ->]. rewrite E in P |- *. cbn [c_a0 c_a1 c_a2 c_b0 c_b1 c_b2] in P |- *.
    apply sqrt_ratio_le; [apply quad_nonneg|exact P|lra|]. rewrite quad_den. unfold quad.
    set (c := cos (2 * PI * f)). set (t := sin (2 * PI * f)).
    pose proof (Rle_0_sqr (g * (c - cos om))) as Q. unfold Rsqr in Q. nra.
Qed.
(* Notch: unity at DC and at half the sample rate, nothing at the centre, never more than unity. *)
Theorem C111_notch : forall om qq, 0 < om < PI ->
  gain KNotch om qq 0 = 1 /\ gain KNotch om qq (1 / 2) = 1 /\ gain KNotch om qq (om / (2 * PI)) = 0 /\ (forall f, gain KNotch om qq f <= 1).
Proof.
  intros om qq Ho. assert (Hq : takes_q KNotch = true -> 0 < qq) by discriminate.
  assert (E : exists al, design_of KNotch om qq = mk_c6 (1 + al) (-2 * cos om) (1 - al) 1 (-2 * cos om) 1).
  { unfold design_of, design_notch. below om. eexists; reflexivity. }
  destruct E as [al E].
  assert (G : forall f g, 0 <= g -> quad 1 (-2 * cos om) 1 (cos (2 * PI * f)) (sin (2 * PI * f)) =
             g * g * quad (1 + al) (-2 * cos om) (1 - al) (cos (2 * PI * f)) (sin (2 * PI * f)) -> gain KNotch om qq f = g).
  { intros f g Hg H. apply gain_val; [exact Ho|exact Hq|exact Hg|]. cbv zeta. rewrite E. exact H. }
  repeat split; [apply G; [lra|]..|].
  - rewrite !at_dc. ring.
  - rewrite !at_nyq. ring.
  - rewrite two_pi_f. unfold quad. ring.
  - intros f. destruct (gain_sq KNotch om qq f Ho Hq) as [P ->]. rewrite E in P |- *. cbn [c_a0 c_a1 c_a2 c_b0 c_b1 c_b2] in P |- *.
    apply sqrt_ratio_le; [apply quad_nonneg|exact P|lra|]. rewrite quad_den. unfold quad.
    set (c := cos (2 * PI * f)). set (t := sin (2 * PI * f)).
    pose proof (Rle_0_sqr (al * t)) as Q. unfold Rsqr in Q. nra.
Qed.
(* All-pass: unity at every frequency. *)
Theorem C111_allpass : forall om q f, 0 < om < PI -> 0 < q -> gain KApf om q f = 1.
Proof.
  intros om q f Ho Hq. apply gain_val; [exact Ho|intros _; exact Hq|lra|]. cbv zeta. unfold design_of, design_apf.
  destruct (Rlt_dec om 0); [lra|]. below om. cbv zeta. cbn [c_a0 c_a1 c_a2 c_b0 c_b1 c_b2]. unfold quad. ring.
Qed.
(* The second low-pass: unity at DC, and at half the sample rate the gain g1 that the design computes, which is in [0, 1]. *)
Theorem C111_lowpass2b : forall om q, 0 < om < PI -> 0 < q ->
  gain KLp2b om q 0 = 1 /\ gain KLp2b om q (1 / 2) = lp2b_g1 om q /\ 0 <= lp2b_g1 om q <= 1.
Proof.
  intros om q Ho Hq.
  assert (B : 0 <= lp2b_g1 om q <= 1).
  { unfold lp2b_g1. cbv zeta. split; [|apply Rmin_l]. apply Rmin_glb; [lra|]. apply Rmult_le_pos; [apply sqrt_pos|lra]. }
  repeat split; try apply B; apply gain_val; try (intros _; exact Hq); try exact Ho; try lra;
    cbv zeta; unfold design_of, design_lp2b; below om; cbv zeta; cbn [c_a0 c_a1 c_a2 c_b0 c_b1 c_b2].
  - rewrite !at_dc. field. lra.
  - rewrite !at_nyq. field. lra.
Qed.
(* The peaking equaliser leaves DC alone, and a gain of 0 dB is a straight wire. *)
Theorem C111_peak_eq : forall dbl pow2 sh om bw,
  (forall xs, dbl 0 = 1 -> snd (mono_loop (set_coef (design_peak_eq dbl pow2 sh om bw 0) bq_new) xs) = xs) /\
  (forall g, let c := design_peak_eq dbl pow2 sh om bw g in
     c_a0 c <> 0 -> c_a0 c + c_a1 c + c_a2 c <> 0 ->
     (c_b0 c + c_b1 c + c_b2 c) / (c_a0 c + c_a1 c + c_a2 c) = 1).
Proof.
  intros dbl pow2 sh om bw. split.
  - intros xs H0. unfold design_peak_eq. cbv zeta. rewrite H0.
    destruct (Rlt_dec (1 / 100000) (Rabs (1 - 1))) as [X|_].
    { exfalso. rewrite Rminus_diag_eq, Rabs_R0 in X by reflexivity. lra. }
    pose proof PI_RGT_0.
    pose proof (C109_above_nyquist KLp 5 1 xs eq_refl) as P.
    assert (P4 : PI < 5) by (pose proof PI_4; lra). specialize (P P4). cbv zeta in P. rewrite tuned_fresh in P.
    unfold design_of, design_lp in P. destruct (Rlt_dec PI 5); [exact P|contradiction].
  - intros g. unfold design_peak_eq. cbv zeta.
    destruct (Rlt_dec (1 / 100000) _) as [X|X]; cbn [c_a0 c_a1 c_a2 c_b0 c_b1 c_b2]; intros _ H2.
    + match goal with |- ?n / ?d = 1 => replace n with d by ring end. field. exact H2.
    + field.
Qed.

Example C111_case : gain KLp (PI / 2) 3 (1 / 4) = 3.
Proof.
  pose proof PI_RGT_0. destruct (C111_lowpass (PI / 2) 3) as (_ & _ & G); [lra|lra|].
  rewrite <- G at 2. f_equal. field. lra.
Qed.

(* ================= C112: a sine in, a sine of the plotted size out ================= *)
Definition sine_in (A f phi : R) (N : nat) : list R := map (fun n => A * cos (2 * PI * f * INR n + phi)) (seq 0 N).

Lemma polar : forall a b, exists th, (a, b) = (sqrt (a * a + b * b) * cos th, sqrt (a * a + b * b) * sin th).
Proof.
  intros a b. set (m := sqrt (a * a + b * b)).
  assert (Hs : 0 <= a * a + b * b) by (pose proof (Rle_0_sqr a); pose proof (Rle_0_sqr b); unfold Rsqr in *; lra).
  assert (Hm : m * m = a * a + b * b) by (apply sqrt_sqrt; exact Hs).
  assert (Hp : 0 <= m) by apply sqrt_pos.
  destruct (Req_dec m 0) as [E|E].
  - exists 0. rewrite E in *. assert (a * a = 0 /\ b * b = 0) as [Ea Eb] by (pose proof (Rle_0_sqr a); pose proof (Rle_0_sqr b); unfold Rsqr in *; lra).
    apply Rmult_integral in Ea. apply Rmult_integral in Eb. f_equal; lra.
  - set (x := a / m). set (y := b / m).
    assert (Ex : x * x + y * y = 1). { unfold x, y. replace (a / m * (a / m) + b / m * (b / m)) with ((a * a + b * b) / (m * m)) by (field; exact E). rewrite <- Hm. field. exact E. }
    assert (Bx : -1 <= x <= 1). { pose proof (Rle_0_sqr y). unfold Rsqr in *. split; nra. }
    assert (Sy : sqrt (1 - x²) = Rabs y). { rewrite <- sqrt_Rsqr_abs. f_equal. unfold Rsqr. lra. }
    destruct (Rle_dec 0 y) as [Hy|Hy].
    + exists (acos x). rewrite (cos_acos x Bx), (sin_acos x Bx), Sy, (Rabs_right y) by lra. unfold x, y. f_equal; field; exact E.
    + exists (- acos x). rewrite cos_neg, sin_neg, (cos_acos x Bx), (sin_acos x Bx), Sy, (Rabs_left y) by lra. unfold x, y. f_equal; field; exact E.
Qed.

Lemma jury_quad : forall a1 a2 c t, jury a1 a2 -> c * c + t * t = 1 -> quad 1 a1 a2 c t <> 0.
Proof.
  intros a1 a2 c t [J1 [J2 J3]] H E. unfold quad in E.
  pose proof (Rle_0_sqr ((1 + a2) * c + a1)) as A. pose proof (Rle_0_sqr ((1 - a2) * t)) as B. unfold Rsqr in *.
  assert (Ht : ((1 - a2) * t) * ((1 - a2) * t) = 0) by lra. assert (Hc : ((1 + a2) * c + a1) * ((1 + a2) * c + a1) = 0) by lra.
  apply Rmult_integral in Ht. apply Rmult_integral in Hc.
  assert (t = 0). { destruct Ht as [X|X]; apply Rmult_integral in X; lra. }
  subst t. assert ((c - 1) * (c + 1) = 0) by lra. apply Rmult_integral in H0. destruct H0; assert (c = 1 \/ c = -1) as [->| ->] by lra; lra.
Qed.

Lemma particular : forall k f, jury (k_a1 k) (k_a2 k) ->
  exists th, forall psi, let w := 2 * PI * f in let m := Complex.Cmod (transfer k (zfreq f)) in
    m * cos (psi + th) + k_a1 k * (m * cos (psi - w + th)) + k_a2 k * (m * cos (psi - w - w + th))
    = k_b0 k * cos psi + k_b1 k * cos (psi - w) + k_b2 k * cos (psi - w - w).
Proof.
  intros k f J. destruct (transfer k (zfreq f)) as [hr hi] eqn:EH. destruct (polar hr hi) as [th Hth].
  exists th. intros psi. cbv zeta. set (w := 2 * PI * f).
  assert (Em : Complex.Cmod (hr, hi) = sqrt (hr * hr + hi * hi)) by (unfold Complex.Cmod; f_equal; cbn; ring).
  rewrite Em. set (m := sqrt (hr * hr + hi * hi)) in *. injection Hth as E1 E2.
  rewrite zfreq_ct in EH. fold w in EH. set (c := cos w) in *. set (t := sin w) in *.
  assert (HC : c * c + t * t = 1) by apply ct_one.
  unfold transfer in EH.
  match type of EH with Complex.Cdiv ?n ?d = _ => set (NN := n) in *; set (DD := d) in * end.
  assert (Hd : DD <> Complex.RtoC 0).
  { intros E. pose proof (poly_mod 1 (k_a1 k) (k_a2 k) c t HC) as P. cbv zeta in P. fold DD in P. rewrite E, Complex.Cmod_0 in P.
    pose proof (jury_quad _ _ c t J HC) as Q. symmetry in P. apply sqrt_eq_0 in P; [contradiction|apply quad_nonneg]. }
  assert (HM : Complex.Cmult (hr, hi) DD = NN).
  { rewrite <- EH. unfold Complex.Cdiv. rewrite <- Complex.Cmult_assoc, Complex.Cinv_l, Complex.Cmult_1_r by exact Hd. reflexivity. }
  unfold DD, NN, Complex.RtoC, Complex.Cplus, Complex.Cmult in HM. cbn [fst snd] in HM. injection HM as M1 M2.
  assert (A : forall u, m * cos (u + th) = hr * cos u - hi * sin u).
  { intros u. rewrite cos_plus. rewrite E1 at 1. rewrite E2 at 1. ring. }
  rewrite !A.
  assert (C1 : cos (psi - w) = cos psi * c + sin psi * t) by apply cos_minus.
  assert (S1 : sin (psi - w) = sin psi * c - cos psi * t) by apply sin_minus.
  assert (C2 : cos (psi - w - w) = (cos psi * c + sin psi * t) * c + (sin psi * c - cos psi * t) * t) by (rewrite cos_minus, C1, S1; reflexivity).
  assert (S2 : sin (psi - w - w) = (sin psi * c - cos psi * t) * c - (cos psi * c + sin psi * t) * t) by (rewrite sin_minus, C1, S1; reflexivity).
  rewrite C1, S1, C2, S2.
  set (cp := cos psi). set (sp := sin psi).
  match goal with |- ?l = ?r =>
    assert (EL : l = cp * (hr * (1 + (k_a1 k * c - 0 * - t) + ((k_a2 k * c - 0 * - t) * c - (k_a2 k * - t + 0 * c) * - t)) -
       hi * (0 + (k_a1 k * - t + 0 * c) + ((k_a2 k * c - 0 * - t) * - t + (k_a2 k * - t + 0 * c) * c)))
      - sp * (hr * (0 + (k_a1 k * - t + 0 * c) + ((k_a2 k * c - 0 * - t) * - t + (k_a2 k * - t + 0 * c) * c)) +
       hi * (1 + (k_a1 k * c - 0 * - t) + ((k_a2 k * c - 0 * - t) * c - (k_a2 k * - t + 0 * c) * - t)))) by ring
  end.
  rewrite EL, M1, M2. ring.
Qed.

(* Fed a sine of any amplitude and phase, the output approaches, geometrically fast, a sine of the same frequency whose
   amplitude is the input's times the plotted magnitude; the phase shift depends only on the filter and the frequency. *)
Theorem C112_sine_response : forall d om q f, usable d om q ->
  exists th rho, 0 < rho < 1 /\
  forall s0 A phi, exists K, forall N n, (n < N)%nat ->
    Rabs (nth n (snd (mono_loop (tuned s0 d om q) (sine_in A f phi N))) 0
          - A * plot_magnitude (tuned s0 d om q) f * cos (2 * PI * f * INR n + phi + th)) <= K * rho ^ n.
Proof.
  intros d om q f Hu. set (k := coefs (tuned bq_new d om q)).
  pose proof (usable_jury bq_new d om q Hu) as J. cbv zeta in J. fold k in J.
  destruct (particular k f J) as [th Hth]. destruct (free_decay k J) as (K0 & rho & HK & Hr & HF).
  exists th, rho. split; [exact Hr|]. intros s0 A phi.
  set (s := tuned s0 d om q).
  assert (Hs : settled s) by apply tuned_settled.
  assert (Hk : coefs s = k) by (unfold s, k; rewrite !coefs_tuned; reflexivity).
  set (w := 2 * PI * f). set (m := plot_magnitude s f).
  assert (Hm : m = Complex.Cmod (transfer k (zfreq f))) by (unfold m, plot_magnitude; rewrite Hk; reflexivity).
  set (p := fun n : nat => A * m * cos (w * INR n + phi + th)).
  set (x := fun n : nat => A * cos (w * INR n + phi)).
  assert (Kat : forall n, coefs_at s n = k).
  { intros n. unfold coefs_at. assert (E : forall j, Nat.iter j coeff_process s = s) by (induction j as [|j IH]; [reflexivity|]; change (coeff_process (Nat.iter j coeff_process s) = s); rewrite IH; apply settled_process, Hs).
    rewrite E. exact Hk. }
  set (e0 := k_b0 k * x 0%nat + q_r0l s - p 0%nat).
  set (e1 := k_b0 k * x 1%nat + k_b1 k * x 0%nat - k_a1 k * (k_b0 k * x 0%nat + q_r0l s) + q_r1l s - p 1%nat).
  set (s' := set_left s e0 (e1 + k_a1 k * e0)).
  exists (K0 * (Rabs (q_r0l s') + Rabs (q_r1l s'))). intros N n Hn.
  assert (Hp : forall i, p (i + 2)%nat + k_a1 k * p (i + 1)%nat + k_a2 k * p i = k_b0 k * x (i + 2)%nat + k_b1 k * x (i + 1)%nat + k_b2 k * x i).
  { intros i. pose proof (Hth (w * INR (i + 2) + phi)) as P. cbv zeta in P. fold w in P. rewrite <- Hm in P.
    replace (w * INR (i + 2) + phi - w - w) with (w * INR i + phi) in P by (rewrite plus_INR; cbn [INR]; ring).
    replace (w * INR (i + 2) + phi - w) with (w * INR (i + 1) + phi) in P by (rewrite !plus_INR; cbn [INR]; ring).
    unfold p, x. apply (f_equal (Rmult A)) in P. lra. }
  set (ys := snd (mono_loop s (sine_in A f phi N))).
  assert (Lx : length (sine_in A f phi N) = N) by (unfold sine_in; rewrite map_length, seq_length; reflexivity).
  assert (Nx : forall i, (i < N)%nat -> nth i (sine_in A f phi N) 0 = x i).
  { intros i Hi. unfold sine_in. rewrite nth_indep with (d' := x 0%nat) by (rewrite map_length, seq_length; exact Hi).
    change (x 0%nat) with ((fun n0 : nat => A * cos (2 * PI * f * INR n0 + phi)) 0%nat). rewrite map_nth, seq_nth by exact Hi. reflexivity. }
  assert (Y : forall i, ((i < N)%nat -> nth i ys 0 - p i = fst (Nat.iter i (freestep k) (e0, e1 + k_a1 k * e0))) /\
                        ((S i < N)%nat -> nth (S i) ys 0 - p (S i) = fst (Nat.iter (S i) (freestep k) (e0, e1 + k_a1 k * e0)))).
  { induction i as [|i [IH1 IH2]].
    - split.
      + intros H. unfold ys. destruct N as [|N']; [lia|]. unfold sine_in. cbn [seq map]. rewrite mono_cons. cbv zeta. cbn [snd nth].
        rewrite (step_settled s _ Hs). cbn [snd]. rewrite Hk. cbn [Nat.iter fst]. unfold e0, x. cbn [INR]. fold w. cbn. ring.
      + intros H. unfold ys. destruct N as [|[|N']]; [lia|lia|]. unfold sine_in. cbn [seq map].
        pose proof (C110_first_samples s (A * cos (2 * PI * f * INR 0 + phi)) (A * cos (2 * PI * f * INR 1 + phi))
           (map (fun n0 : nat => A * cos (2 * PI * f * INR n0 + phi)) (seq 2 N'))) as [F0 F1].
        cbv beta in F0, F1. rewrite F0 in F1. rewrite F1. rewrite !Kat. unfold e0, e1, x, freestep. cbn [Nat.iter nat_rect fst snd]. fold w. ring.
    - split; [exact IH2|]. intros H. specialize (IH1 ltac:(lia)). specialize (IH2 ltac:(lia)).
      pose proof (C110_difference_equation (sine_in A f phi N) s i ltac:(rewrite Lx; lia)) as D. cbv zeta in D. fold ys in D.
      rewrite !Kat in D. rewrite !Nx in D by lia.
      replace (i + 2)%nat with (S (S i)) in D by lia. replace (i + 1)%nat with (S i) in D by lia.
      pose proof (Hp i) as P. replace (i + 2)%nat with (S (S i)) in P by lia. replace (i + 1)%nat with (S i) in P by lia.
      change (Nat.iter (S (S i)) (freestep k) ?r) with (freestep k (Nat.iter (S i) (freestep k) r)).
      change (Nat.iter (S i) (freestep k) ?r) with (freestep k (Nat.iter i (freestep k) r)) in IH2 |- *.
      set (v := Nat.iter i (freestep k) (e0, e1 + k_a1 k * e0)) in *. unfold freestep in IH2 |- *. cbn [fst snd] in *.
      rewrite <- IH2, <- IH1. unfold freestep in IH2. lra. }
  destruct (Y n) as [Yn _]. specialize (Yn Hn).
  pose proof (HF s' Hs Hk N n Hn) as P. rewrite (free_nth k N s' Hs Hk n Hn) in P.
  change (q_r0l s', q_r1l s') with (e0, e1 + k_a1 k * e0) in P. rewrite <- Yn in P. fold ys. fold w. fold m.
  unfold p in P. eapply Rle_trans; [exact P|]. right; ring.
Qed.

(* ================= C113: setting coefficients ================= *)

(* The first design on a new filter takes effect at once; a later one leaves the sounding coefficients where they are
   and they move towards it by 0.4 percent of the remaining distance per sample; instantize jumps there. No call
   touches the registers. *)
Theorem C113_first_design_is_immediate : forall c,
  coefs (set_coef c bq_new) = mk_c5 (c_a1 c / c_a0 c) (c_a2 c / c_a0 c) (c_b0 c / c_a0 c) (c_b1 c / c_a0 c) (c_b2 c / c_a0 c) /\
  (forall n, coefs_at (set_coef c bq_new) n = coefs (set_coef c bq_new)).
Proof.
  intros c. split; [apply coefs_new|]. intros n. unfold coefs_at.
  assert (E : forall j, Nat.iter j coeff_process (set_coef c bq_new) = set_coef c bq_new).
  { induction j as [|j IH]; [reflexivity|]. change (coeff_process (Nat.iter j coeff_process (set_coef c bq_new)) = set_coef c bq_new). rewrite IH. apply settled_process, settled_new. }
  rewrite E. reflexivity.
Qed.
Definition c5_list (k : coef5) : list R := [k_a1 k; k_a2 k; k_b0 k; k_b1 k; k_b2 k].
Theorem C113_later_design_glides : forall s c n i, q_first s = false -> (i < 5)%nat ->
  let goal := nth i [c_a1 c; c_a2 c; c_b0 c; c_b1 c; c_b2 c] 0 / c_a0 c in
  coefs (set_coef c s) = coefs s /\
  nth i (c5_list (coefs_at (set_coef c s) n)) 0 - goal = (1 - 4 / 1000) ^ (S n) * (nth i (c5_list (coefs s)) 0 - goal) /\
  nth i (c5_list (coefs (coeff_instantize (set_coef c s)))) 0 = goal.
Proof.
  intros s c n i Hf Hi. cbv zeta. split; [unfold set_coef; rewrite Hf; reflexivity|]. split.
  - unfold coefs_at.
    assert (V : forall l, forall m, vl_v (Nat.iter m vlag_process l) - vl_target l = (1 - 4 / 1000) ^ m * (vl_v l - vl_target l) /\ vl_target (Nat.iter m vlag_process l) = vl_target l).
    { intros l. induction m as [|m [IH1 IH2]]; [cbn; split; [ring|reflexivity]|].
      change (Nat.iter (S m) vlag_process l) with (vlag_process (Nat.iter m vlag_process l)). cbn [vlag_process vl_v vl_target pow]. rewrite IH2. split; [|reflexivity].
      unfold VLAG_LPINV, VLAG_LP. lra. }
    assert (P : forall m u, let r := Nat.iter m coeff_process u in q_a1 r = Nat.iter m vlag_process (q_a1 u) /\ q_a2 r = Nat.iter m vlag_process (q_a2 u) /\
       q_b0 r = Nat.iter m vlag_process (q_b0 u) /\ q_b1 r = Nat.iter m vlag_process (q_b1 u) /\ q_b2 r = Nat.iter m vlag_process (q_b2 u)).
    { induction m as [|m IH]; intros u; [repeat split|]. cbv zeta.
      change (Nat.iter (S m) coeff_process u) with (coeff_process (Nat.iter m coeff_process u)). cbn [coeff_process q_a1 q_a2 q_b0 q_b1 q_b2].
      destruct (IH u) as (-> & -> & -> & -> & ->). repeat split. }
    destruct (P (S n) (set_coef c s)) as (P1 & P2 & P3 & P4 & P5).
    unfold coefs at 1. rewrite P1, P2, P3, P4, P5.
    assert (G : forall l v0 tg, vl_v l = v0 -> vl_target l = tg -> vl_v (Nat.iter (S n) vlag_process l) - tg = (1 - 4 / 1000) ^ S n * (v0 - tg)).
    { intros l v0 tg <- <-. apply V. }
    destruct i as [|[|[|[|[|i]]]]]; [..|lia]; unfold c5_list; cbn [nth k_a1 k_a2 k_b0 k_b1 k_b2]; apply G;
      unfold set_coef; rewrite Hf; cbn; try reflexivity; unfold Rdiv; ring.
  - unfold coeff_instantize, set_coef; rewrite Hf.
    destruct i as [|[|[|[|[|i]]]]]; [..|lia]; unfold c5_list; cbn; unfold Rdiv; ring.
Qed.
Theorem C113_registers_untouched : forall s c,
  let regs := fun u => [q_r0l u; q_r1l u; q_r0r u; q_r1r u] in
  regs (set_coef c s) = regs s /\ regs (coeff_instantize s) = regs s /\ regs (coeff_process s) = regs s.
Proof. intros s c. cbv zeta. unfold set_coef. destruct (q_first s); repeat split. Qed.
(* the resonance control maps every number to a quality factor between 1/1.02 and 50, increasing *)
Theorem C113_resonance_range : forall r r', 100 / 102 <= calc_v1_q r <= 50 /\ (r <= r' -> calc_v1_q r <= calc_v1_q r').
Proof.
  intros r r'. unfold calc_v1_q, limit_range_R.
  assert (B : forall x, 0 <= Rmin (Rmax x 0) 1 <= 1).
  { intros x. split; [apply Rmin_glb; [apply Rmax_r|lra]|apply Rmin_r]. }
  assert (I : forall d, 0 <= d <= 1 -> 0 < 102 / 100 - d) by (intros; lra).
  set (a := Rmin (Rmax r 0) 1). set (b := Rmin (Rmax r' 0) 1).
  assert (Ha : 0 <= a <= 1) by apply B. assert (Hb : 0 <= b <= 1) by apply B.
  split.
  - split.
    + apply Rmult_le_reg_r with (102 / 100 - a); [lra|]. replace (1 / (102 / 100 - a) * (102 / 100 - a)) with 1 by (field; lra). lra.
    + apply Rmult_le_reg_r with (102 / 100 - a); [lra|]. replace (1 / (102 / 100 - a) * (102 / 100 - a)) with 1 by (field; lra). lra.
  - intros H. assert (a <= b) by (apply Rle_min_compat_r, Rle_max_compat_r, H).
    unfold Rdiv. rewrite !Rmult_1_l. apply Rinv_le_contravar; lra.
Qed.
(* cutoff: twelve semitones double the angular frequency if the tuner's pitch doubles; hertz are proportional *)
Theorem C113_omega : forall n2p srinv, (forall x, n2p (x + 12) = 2 * n2p x) ->
  (forall sc, calc_omega n2p srinv (sc + 1) = 2 * calc_omega n2p srinv sc) /\
  (forall hz, 0 < srinv -> (calc_omega_from_hertz srinv hz < PI <-> hz < / srinv / 2)).
Proof.
  intros n2p srinv H. split.
  - intros sc. unfold calc_omega. replace (12 * (sc + 1)) with (12 * sc + 12) by ring. rewrite H. ring.
  - intros hz Hs. unfold calc_omega_from_hertz. pose proof PI_RGT_0.
    assert (E : hz < / srinv / 2 <-> hz * srinv * 2 < 1).
    { split; intros X.
      - replace 1 with (/ srinv / 2 * (srinv * 2)) by (field; lra). rewrite Rmult_assoc. apply Rmult_lt_compat_r; lra.
      - apply Rmult_lt_reg_r with (srinv * 2); [lra|]. replace (/ srinv / 2 * (srinv * 2)) with 1 by (field; lra). lra. }
    rewrite E. replace (2 * PI * hz * srinv) with (PI * (hz * srinv * 2)) by ring. split; intros X.
    + apply Rmult_lt_reg_l with PI; lra.
    + rewrite <- (Rmult_1_r PI) at 2. apply Rmult_lt_compat_l; lra.
Qed.

Example C113_case : q_first (set_coef bypass bq_new) = false /\ q_first bq_new = true.
Proof. split; reflexivity. Qed.

(* ================= C114: the low-pass / high-pass morph ================= *)
(* REFUTED: the morph position has no influence, and at neither end is the filter the low-pass or the high-pass: it is
   the band-pass of the same cutoff, silent at DC and at half the sample rate. *)
Theorem C114_morph_ignored_refuted : forall om q, 0 < om < PI -> 0 < q ->
  (forall m xs, snd (mono_loop (tuned bq_new (KLph m) om q) xs) = snd (mono_loop (tuned bq_new KBp om q) xs)) /\
  (forall m, gain (KLph m) om q 0 = 0 /\ gain (KLph m) om q (1 / 2) = 0) /\
  gain KLp om q 0 = 1 /\ gain KHp om q (1 / 2) = 1.
Proof.
  intros om q Ho Hq. split; [reflexivity|].
  destruct (C111_bandpass KBp om q (or_introl eq_refl) Ho (fun _ => Hq)) as (B0 & B1 & _).
  split; [intros m; split; [exact B0|exact B1]|]. split; [apply (C111_lowpass om q Ho Hq)|apply (C111_highpass om q Ho Hq)].
Qed.

Print Assumptions C111_lowpass.
Print Assumptions C111_highpass.
Print Assumptions C111_bandpass.
Print Assumptions C111_peak.
Print Assumptions C111_notch.
Print Assumptions C111_allpass.
Print Assumptions C111_lowpass2b.
Print Assumptions C111_peak_eq.
Print Assumptions C112_sine_response.
Print Assumptions C113_first_design_is_immediate.
Print Assumptions C113_later_design_glides.
Print Assumptions C113_registers_untouched.
Print Assumptions C113_resonance_range.
Print Assumptions C113_omega.
Print Assumptions C114_morph_ignored_refuted.
