(* VocProofs.v - the band filter of the vocoder: stability and response of its stages. *)
From Coq Require Import Reals Lra Psatz Lia.
From Coquelicot Require Import Complex.
From Verif Require Import Base Util BlockModel RampProps LagModel BiquadModel BiquadProofs BiquadProps BiquadProps3 VocModel.
Local Open Scope R_scope.

Definition vanishes (u : nat -> R) : Prop := forall e, 0 < e -> exists N, forall n, (N <= n)%nat -> Rabs (u n) <= e.
Lemma pow_small r : 0 <= r < 1 -> forall e, 0 < e -> exists N, forall n, (N <= n)%nat -> r ^ n <= e.
Proof. intros H e He. destruct (pow_lt_1_zero r ltac:(rewrite Rabs_right; lra) e He) as (N & HN). exists N. intros n Hn. specialize (HN n Hn). pose proof (Rle_abs (r ^ n)). lra. Qed.
Lemma leaky_vanishes (W x : nat -> R) rho L : 0 < rho < 1 -> 0 <= L -> (forall n, 0 <= W n) -> (forall n, W (Datatypes.S n) <= rho * W n + L * (x n * x n)) -> vanishes x -> vanishes W.
Proof.
  intros Hr HL HW H Hx e He. assert (He2 : 0 < (1 - rho) * (e / 2) / (L + 1)) by (apply Rdiv_lt_0_compat; [apply Rmult_lt_0_compat; lra|lra]).
  set (d := Rmin 1 ((1 - rho) * (e / 2) / (L + 1))). assert (Hd : 0 < d) by (unfold d; apply Rmin_pos; lra).
  destruct (Hx d Hd) as (N1 & HN1). assert (K : forall n, (N1 <= n)%nat -> L * (x n * x n) <= (1 - rho) * (e / 2)).
  { intros n Hn. specialize (HN1 n Hn). assert (S1 : x n * x n <= d * d) by (apply abs_sq_le; exact HN1). assert (d <= 1) by apply Rmin_l. assert (d <= (1 - rho) * (e / 2) / (L + 1)) by apply Rmin_r.
    assert (d * d <= d * 1) by (apply Rmult_le_compat_l; lra). assert ((L + 1) * d <= (1 - rho) * (e / 2)). { replace ((1 - rho) * (e / 2)) with ((L + 1) * ((1 - rho) * (e / 2) / (L + 1))) by (field; lra). apply Rmult_le_compat_l; lra. }
    assert (L * (x n * x n) <= L * d) by (apply Rmult_le_compat_l; lra). lra. }
  assert (G : forall k, W (N1 + k)%nat - e / 2 <= rho ^ k * W N1).
  { induction k as [|k IH]; [rewrite Nat.add_0_r; cbn; lra|]. replace (N1 + Datatypes.S k)%nat with (Datatypes.S (N1 + k)) by lia. specialize (H (N1 + k)%nat). specialize (K (N1 + k)%nat ltac:(lia)).
    assert (rho * (W (N1 + k)%nat - e / 2) <= rho * (rho ^ k * W N1)) by (apply Rmult_le_compat_l; lra). cbn [pow]. lra. }
  assert (He3 : 0 < e / 2 / (W N1 + 1)) by (apply Rdiv_lt_0_compat; [lra|specialize (HW N1); lra]).
  destruct (pow_small rho ltac:(lra) _ He3) as (N2 & HN2). exists (N1 + N2)%nat. intros n Hn. specialize (G (n - N1)%nat). replace (N1 + (n - N1))%nat with n in G by lia. specialize (HN2 (n - N1)%nat ltac:(lia)).
  pose proof (HW n). pose proof (HW N1). rewrite Rabs_right by lra. assert (rho ^ (n - N1) * W N1 <= e / 2 / (W N1 + 1) * W N1) by (apply Rmult_le_compat_r; lra).
  assert (e / 2 / (W N1 + 1) * W N1 <= e / 2). { replace (e / 2) with (e / 2 / (W N1 + 1) * (W N1 + 1)) at 2 by (field; lra). apply Rmult_le_compat_l; lra. } lra.
Qed.
Lemma sq_vanishes u : vanishes (fun n => u n * u n) -> vanishes u.
Proof. intros H e He. destruct (H (e * e)) as (N & HN); [nra|]. exists N. intros n Hn. apply sq_le_abs; [lra|]. specialize (HN n Hn). pose proof (Rle_abs (u n * u n)). lra. Qed.
Lemma le_vanishes u v : vanishes v -> (forall n, Rabs (u n) <= v n) -> vanishes u.
Proof. intros H L e He. destruct (H e He) as (N & HN). exists N. intros n Hn. specialize (HN n Hn). specialize (L n). pose proof (Rle_abs (v n)). lra. Qed.
Lemma shift_vanishes u : vanishes u -> vanishes (fun n => u (Datatypes.S n)).
Proof. intros H e He. destruct (H e He) as (N & HN). exists N. intros n Hn. apply HN. lia. Qed.
Lemma unshift_vanishes u : vanishes (fun n => u (Datatypes.S n)) -> vanishes u.
Proof. intros H e He. destruct (H e He) as (N & HN). exists (Datatypes.S N). intros [|n] Hn; [lia|]. apply HN. lia. Qed.
Lemma add_vanishes u v : vanishes u -> vanishes v -> vanishes (fun n => u n + v n).
Proof.
  intros Hu Hv e He. destruct (Hu (e / 2) ltac:(lra)) as (N1 & H1). destruct (Hv (e / 2) ltac:(lra)) as (N2 & H2). exists (N1 + N2)%nat. intros n Hn. specialize (H1 n ltac:(lia)). specialize (H2 n ltac:(lia)). pose proof (Rabs_triang (u n) (v n)). lra.
Qed.
Lemma scale_vanishes u c : vanishes u -> vanishes (fun n => c * u n).
Proof.
  intros H e He. assert (Hc : 0 < Rabs c + 1) by (pose proof (Rabs_pos c); lra). destruct (H (e / (Rabs c + 1))) as (N & HN); [apply Rdiv_lt_0_compat; lra|]. exists N. intros n Hn. specialize (HN n Hn). rewrite Rabs_mult.
  assert (Rabs c * Rabs (u n) <= Rabs c * (e / (Rabs c + 1))) by (apply Rmult_le_compat_l; [apply Rabs_pos|exact HN]). assert (Rabs c * (e / (Rabs c + 1)) <= (Rabs c + 1) * (e / (Rabs c + 1))). { apply Rmult_le_compat_r; [|lra]. apply Rlt_le, Rdiv_lt_0_compat; lra. }
  replace ((Rabs c + 1) * (e / (Rabs c + 1))) with e in * by (field; lra). lra.
Qed.

(** ** one stage: a two-integrator loop with frequency coefficient f and damping q *)
Definition stage (f q : R) (x l b : nat -> R) : Prop := forall n, l (Datatypes.S n) = l n + f * b n /\ b (Datatypes.S n) = b n + f * (q * x n - l (Datatypes.S n) - q * b n).
Definition stable (f q : R) : Prop := 0 < f /\ 0 < q /\ f * f + 2 * f * q < 4.
Lemma stable_jury f q : stable f q -> jury (- (2 - f * f - f * q)) (1 - f * q).
Proof. intros (F & Q & H). assert (0 < f * q) by (apply Rmult_lt_0_compat; assumption). assert (0 < f * f) by (apply Rmult_lt_0_compat; assumption). unfold jury. repeat split; lra. Qed.
(* a measure of the loop's energy that the loop contracts *)
Lemma loop_contract f q : stable f q -> exists (V : R -> R -> R) M rho L, 1 <= M /\ 0 < rho < 1 /\ 0 <= L /\
  (forall l b, b * b <= V l b /\ V l b <= M * (b * b + (b + f * l) * (b + f * l))) /\
  (forall x l b, V (l + f * b) (b + f * (q * x - (l + f * b) - q * b)) <= rho * V l b + L * (x * x)).
Proof.
  intros H. destruct (contract _ _ (stable_jury f q H)) as (V & M & rho & L & HM & Hr & HL & HV & HC). exists (fun l b => V b (- (b + f * l))), M, rho, (2 * (f * q) * (f * q) * L).
  split; [exact HM|]. split; [exact Hr|]. split; [apply Rmult_le_pos; [|exact HL]; pose proof (Rle_0_sqr (f * q)); unfold Rsqr in *; lra|]. split.
  - intros l b. destruct (HV b (- (b + f * l))) as (A & B). pose proof (Rle_0_sqr (b + f * l)). unfold Rsqr in *. split; lra.
  - intros x l b. specialize (HC b (- (b + f * l)) (f * q * x) (- (f * q * x))).
    replace (- - (2 - f * f - f * q) * b + - (b + f * l) + f * q * x) with (b + f * (q * x - (l + f * b) - q * b)) in HC by ring.
    replace (- (1 - f * q) * b + - (f * q * x)) with (- (b + f * (q * x - (l + f * b) - q * b) + f * (l + f * b))) in HC by ring. eapply Rle_trans; [exact HC|]. apply Req_le. ring.
Qed.
Lemma stage_contract f q : stable f q -> exists (V : R -> R -> R) M rho L, 1 <= M /\ 0 < rho < 1 /\ 0 <= L /\
  (forall l b, b * b <= V l b /\ V l b <= M * (b * b + (b + f * l) * (b + f * l))) /\
  (forall x l b, stage f q x l b -> forall n, V (l (Datatypes.S n)) (b (Datatypes.S n)) <= rho * V (l n) (b n) + L * (x n * x n)).
Proof.
  intros H. destruct (loop_contract f q H) as (V & M & rho & L & HM & Hr & HL & HV & HC). exists V, M, rho, L. repeat (split; [assumption|]). intros x l b HS n. destruct (HS n) as (E1 & E2). rewrite E2, E1. apply HC.
Qed.
(* a set of loop states that inputs up to X cannot leave, with the loop's output at most K X on it *)
Lemma loop_invariant f q : stable f q -> exists K, 0 < K /\ forall X, 0 <= X -> exists I : R -> R -> Prop, I 0 0 /\ (forall l b, I l b -> Rabs b <= K * X) /\
  forall x l b, I l b -> Rabs x <= X -> I (l + f * b) (b + f * (q * x - (l + f * b) - q * b)).
Proof.
  intros H. destruct (loop_contract f q H) as (V & M & rho & L & HM & Hr & HL & HV & HC). exists (sqrt (L / (1 - rho)) + 1). pose proof (sqrt_pos (L / (1 - rho))) as SP. split; [lra|].
  intros X HX. assert (P : 0 <= L / (1 - rho)) by (apply Rcomplements.Rdiv_le_0_compat; lra). exists (fun l b => V l b <= L / (1 - rho) * (X * X)). split; [|split].
  - destruct (HV 0 0) as (_ & A). replace (M * (0 * 0 + (0 + f * 0) * (0 + f * 0))) with 0 in A by ring. assert (0 <= L / (1 - rho) * (X * X)) by (apply Rmult_le_pos; [exact P|apply Rmult_le_pos; lra]). lra.
  - intros l b G. apply sq_le_abs; [apply Rmult_le_pos; lra|]. destruct (HV l b) as (A & _).
    assert (E : sqrt (L / (1 - rho)) * sqrt (L / (1 - rho)) = L / (1 - rho)) by (apply sqrt_sqrt; exact P).
    replace ((sqrt (L / (1 - rho)) + 1) * X * ((sqrt (L / (1 - rho)) + 1) * X)) with ((sqrt (L / (1 - rho)) * sqrt (L / (1 - rho)) + (2 * sqrt (L / (1 - rho)) + 1)) * (X * X)) by ring. rewrite E.
    assert (0 <= (2 * sqrt (L / (1 - rho)) + 1) * (X * X)) by (apply Rmult_le_pos; [lra|apply Rmult_le_pos; lra]). lra.
  - intros x l b G Hx. specialize (HC x l b). assert (x * x <= X * X) by (apply abs_sq_le, Hx). assert (L * (x * x) <= L * (X * X)) by (apply Rmult_le_compat_l; assumption). assert (rho * V l b <= rho * (L / (1 - rho) * (X * X))) by (apply Rmult_le_compat_l; lra).
    assert (E : rho * (L / (1 - rho) * (X * X)) + L * (X * X) = L / (1 - rho) * (X * X)) by (field; lra). lra.
Qed.
Lemma stage_vanishes f q x l b : stable f q -> stage f q x l b -> vanishes x -> vanishes b.
Proof.
  intros H HS Hx. destruct (stage_contract f q H) as (V & M & rho & L & HM & Hr & HL & HV & HC). specialize (HC x l b HS).
  assert (HW : vanishes (fun n => V (l n) (b n))). { apply (leaky_vanishes _ x rho L); auto. intros n. destruct (HV (l n) (b n)) as (A & _). pose proof (Rle_0_sqr (b n)). unfold Rsqr in *. lra. }
  apply sq_vanishes. apply (le_vanishes _ (fun n => V (l n) (b n))); [exact HW|]. intros n. rewrite Rabs_right by (pose proof (Rle_0_sqr (b n)); unfold Rsqr in *; lra). apply HV.
Qed.
(* the magnitude of a stage's response at nu cycles per sample *)
Definition stage_gain (f q nu : R) : R := let s := 2 * sin (PI * nu) in sqrt ((f * q * s) * (f * q * s) / ((f * q * s) * (f * q * s) + (f * f - s * s) * (f * f - s * s) + f * q * (s * s) * (f * f - s * s))).
Definition kstage (f q : R) : coef5 := mk_c5 (- (2 - f * f - f * q)) (1 - f * q) (f * q) (- (f * q)) 0.
Lemma gain_is f q nu : stable f q -> Cmod (transfer (kstage f q) (zfreq nu)) = stage_gain f q nu.
Proof.
  intros H. set (k := kstage f q). set (v x := {| vl_v := x; vl_target := x |}). set (s := mk_bq (v (k_a1 k)) (v (k_a2 k)) (v (k_b0 k)) (v (k_b1 k)) (v (k_b2 k)) 0 0 0 0 false).
  assert (Ek : coefs s = k) by reflexivity. pose proof (plot_formula s nu) as P. cbv zeta in P. rewrite Ek in P. unfold plot_magnitude in P. rewrite Ek in P.
  set (c := cos (2 * PI * nu)) in *. set (t := sin (2 * PI * nu)) in *. assert (HC : c * c + t * t = 1) by apply ct_one. pose proof (jury_quad _ _ c t (stable_jury f q H) HC) as Hq. specialize (P Hq). rewrite P.
  cbn [k kstage k_a1 k_a2 k_b0 k_b1 k_b2]. rewrite <- sqrt_div_alt. 2:{ pose proof (quad_nonneg 1 (- (2 - f * f - f * q)) (1 - f * q) c t). destruct H0 as [|E]; [assumption|]. exfalso. apply Hq. now symmetry. }
  unfold stage_gain. cbv zeta. set (s2 := 2 * sin (PI * nu)). assert (Es : s2 * s2 = 2 - 2 * c). { unfold s2, c. replace (2 * PI * nu) with (2 * (PI * nu)) by ring. rewrite cos_2a_sin. ring. }
  assert (Ec : c = 1 - s2 * s2 / 2) by lra. f_equal. f_equal.
  - unfold quad. replace (((f * q + 0) * c + - (f * q)) * ((f * q + 0) * c + - (f * q)) + (f * q - 0) * t * ((f * q - 0) * t)) with ((f * q) * (f * q) * (c * c + t * t - 2 * c + 1)) by ring. rewrite HC. replace (f * q * s2 * (f * q * s2)) with (f * q * (f * q) * (s2 * s2)) by ring. rewrite Es. ring.
  - unfold quad. assert (Et : t * t = s2 * s2 - s2 * s2 * (s2 * s2) / 4). { rewrite Ec in HC. lra. }
    replace ((1 - (1 - f * q)) * t * ((1 - (1 - f * q)) * t)) with (f * q * (f * q) * (t * t)) by ring. rewrite Et, Ec. field.
Qed.
(* the steady state of a stage fed a cosine *)
Lemma stage_steady f q nu : stable f q -> exists th, forall A phi l b x, stage f q x l b -> vanishes (fun n => x n - A * cos (2 * PI * nu * INR n + phi)) ->
  vanishes (fun n => b (Datatypes.S n) - A * stage_gain f q nu * cos (2 * PI * nu * INR n + phi + th)).
Proof.
  intros H. assert (Hf : f <> 0) by (destruct H; lra). destruct (particular (kstage f q) nu (stable_jury f q H)) as (th & P). cbv zeta in P. rewrite gain_is in P by exact H. exists th. intros A phi l b x HS Hx. set (w := 2 * PI * nu) in *. set (m := stage_gain f q nu) in *.
  set (xs n := A * cos (w * INR n + phi)). set (bs n := A * m * cos (w * INR n + phi - w + th)). set (ls n := (bs n - bs (Datatypes.S n) + f * q * xs n - f * q * bs n) / f - f * bs n).
  assert (R2 : forall n, bs (Datatypes.S (Datatypes.S n)) = (2 - f * f - f * q) * bs (Datatypes.S n) - (1 - f * q) * bs n + f * q * (xs (Datatypes.S n) - xs n)).
  { intros n. unfold bs, xs. specialize (P (w * INR n + phi + w)). cbn [kstage k_a1 k_a2 k_b0 k_b1 k_b2] in P. rewrite !S_INR.
    replace (w * (INR n + 1 + 1) + phi - w + th) with (w * INR n + phi + w + th) by ring. replace (w * (INR n + 1) + phi - w + th) with (w * INR n + phi + w - w + th) by ring. replace (w * INR n + phi - w + th) with (w * INR n + phi + w - w - w + th) by ring.
    replace (w * (INR n + 1) + phi) with (w * INR n + phi + w) by ring. replace (w * INR n + phi) with (w * INR n + phi + w - w) at 5 by ring. set (c1 := cos (w * INR n + phi + w + th)) in *. set (c2 := cos (w * INR n + phi + w - w + th)) in *. set (c3 := cos (w * INR n + phi + w - w - w + th)) in *.
    set (d1 := cos (w * INR n + phi + w)) in *. set (d2 := cos (w * INR n + phi + w - w)) in *. assert (E : A * (m * c1 + - (2 - f * f - f * q) * (m * c2) + (1 - f * q) * (m * c3)) = A * (f * q * d1 + - (f * q) * d2 + 0 * cos (w * INR n + phi + w - w - w))) by (now rewrite P). lra. }
  assert (SS : stage f q xs ls bs).
  { intros n. assert (E1 : ls (Datatypes.S n) = ls n + f * bs n). { unfold ls. rewrite R2. field. exact Hf. } split; [exact E1|]. rewrite E1. unfold ls. field. exact Hf. }
  assert (SD : stage f q (fun n => x n - xs n) (fun n => l n - ls n) (fun n => b n - bs n)).
  { intros n. destruct (HS n) as (E1 & E2). destruct (SS n) as (E3 & E4). split; [rewrite E1, E3; ring|]. rewrite E2, E4, E1, E3. ring. }
  pose proof (shift_vanishes _ (stage_vanishes _ _ _ _ _ H SD Hx)) as V. cbv beta in V. intros e He. destruct (V e He) as (N & HN). exists N. intros n Hn. specialize (HN n Hn).
  replace (A * m * cos (w * INR n + phi + th)) with (bs (Datatypes.S n)); [exact HN|]. unfold bs. rewrite S_INR. do 2 f_equal. ring.
Qed.
