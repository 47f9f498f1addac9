(** Lemmas for UnitProps.v *)
From Coq Require Import Reals Lra Psatz.
From Flocq Require Import Core.Core IEEE754.BinarySingleNaN.
From Verif Require Import Base Util F32 F32Facts BlockModel SmallModel UnitModel LagModel BiquadModel BiquadProofs.
Local Open Scope R_scope.

(** *** one SVF stage: difference of two trajectories *)
Definition stage_ok (f q : R) : Prop := 0 < f /\ 0 < q /\ f * f + 2 * f * q < 4.

Lemma stage_jury : forall f q, stage_ok f q -> jury (- (2 - f * f - f * q)) (1 - f * q).
Proof. intros f q (Hf & Hq & H). unfold jury. assert (0 < f * q) by (apply Rmult_lt_0_compat; assumption). assert (0 < f * f) by (apply Rmult_lt_0_compat; assumption). repeat split; lra. Qed.

(** contraction of one stage in the coordinates (b, -f l - b) *)
Lemma stage_contract : forall f q, stage_ok f q ->
  exists (V : R -> R -> R) (M rho L : R), 1 <= M /\ 0 < rho < 1 /\ 0 <= L /\
    (forall l b, b * b <= V l b) /\
    (forall l b, 0 <= V l b <= M * (l * l + b * b)) /\
    (forall l b x, V (fst (svf_stage f q l b x)) (snd (svf_stage f q l b x)) <= rho * V l b + L * (x * x)).
Proof.
  intros f q H. pose proof (stage_jury f q H) as J. destruct H as (Hf & Hq & H).
  destruct (contract _ _ J) as (V & M & rho & L & HM & Hr & HL & HV & HC).
  exists (fun l b => V b (- f * l - b)), (M * (4 + 2 * (f * f))), rho, (L * (2 * ((f * q) * (f * q)))).
  assert (0 <= f * f) by exact (Rle_0_sqr f).
  split; [nra|]. split; [exact Hr|]. split; [apply Rmult_le_pos; [exact HL|]; pose proof (Rle_0_sqr (f * q)) as Q; unfold Rsqr in Q; lra|].
  split; [|split].
  - intros l b. destruct (HV b (- f * l - b)) as [A _]. pose proof (Rle_0_sqr (- f * l - b)) as Q; unfold Rsqr in Q. lra.
  - intros l b. destruct (HV b (- f * l - b)) as [A B]. split.
    + pose proof (Rle_0_sqr b) as Q1. pose proof (Rle_0_sqr (- f * l - b)) as Q; unfold Rsqr in Q, Q1. lra.
    + eapply Rle_trans; [exact B|]. rewrite Rmult_assoc. apply Rmult_le_compat_l; [lra|].
      assert (Q1 : 0 <= (f * l - b) * (f * l - b)) by exact (Rle_0_sqr _).
      assert (Q2 : 0 <= (f * b) * (f * b)) by exact (Rle_0_sqr _). 
      assert (Q3 : 0 <= l * l) by exact (Rle_0_sqr _). assert (Q4 : 0 <= b * b) by exact (Rle_0_sqr _).
      replace ((4 + 2 * (f * f)) * (l * l + b * b)) with (4 * (l * l) + 4 * (b * b) + 2 * (f * l * (f * l)) + 2 * (f * b * (f * b))) by ring.
      replace ((- f * l - b) * (- f * l - b)) with (2 * (f * l * (f * l)) + 2 * (b * b) - (f * l - b) * (f * l - b)) by ring. lra.
  - intros l b x. unfold svf_stage. cbn [fst snd].
    specialize (HC b (- f * l - b) (f * q * x) (- (f * q * x))).
    replace (- - (2 - f * f - f * q) * b + (- f * l - b) + f * q * x) with (f * (x * q - (f * b + l) - q * b) + b) in HC by ring.
    replace (- (1 - f * q) * b + - (f * q * x)) with (- f * (f * b + l) - (f * (x * q - (f * b + l) - q * b) + b)) in HC by ring.
    eapply Rle_trans; [exact HC|]. apply Rplus_le_compat_l. right. ring.
Qed.

Lemma stage_linear : forall f q l b l' b' x x',
  svf_stage f q (l - l') (b - b') (x - x') =
  (fst (svf_stage f q l b x) - fst (svf_stage f q l' b' x'), snd (svf_stage f q l b x) - snd (svf_stage f q l' b' x')).
Proof. intros. unfold svf_stage. cbn [fst snd]. f_equal; ring. Qed.

(** the difference filter *)
Definition svf_sub (s t : svf) : svf :=
  mk_svf (sv_l1 s - sv_l1 t) (sv_b1 s - sv_b1 t) (sv_l2 s - sv_l2 t) (sv_b2 s - sv_b2 t) (sv_f1 s) (sv_f2 s) (sv_q s).
Definition same_coef (s t : svf) : Prop := sv_f1 s = sv_f1 t /\ sv_f2 s = sv_f2 t /\ sv_q s = sv_q t.

Lemma bpf_coef : forall s x, same_coef (fst (svf_calc_bpf s x)) s.
Proof. intros s x. unfold svf_calc_bpf. destruct (svf_stage _ _ _ _ x) as [l1 b1]. destruct (svf_stage _ _ _ _ b1) as [l2 b2]. repeat split. Qed.

Lemma bpf_linear : forall s t x x', same_coef s t ->
  svf_calc_bpf (svf_sub s t) (x - x') =
  (svf_sub (fst (svf_calc_bpf s x)) (fst (svf_calc_bpf t x')), snd (svf_calc_bpf s x) - snd (svf_calc_bpf t x')).
Proof.
  intros s t x x' (E1 & E2 & E3). unfold svf_calc_bpf. cbn [svf_sub sv_f1 sv_f2 sv_q sv_l1 sv_b1 sv_l2 sv_b2]. rewrite <- E1, <- E2, <- E3.
  rewrite stage_linear. destruct (svf_stage (sv_f1 s) (sv_q s) (sv_l1 s) (sv_b1 s) x) as [l1 b1] eqn:A1.
  destruct (svf_stage (sv_f1 s) (sv_q s) (sv_l1 t) (sv_b1 t) x') as [l1' b1'] eqn:A2. cbn [fst snd].
  rewrite stage_linear. destruct (svf_stage (sv_f2 s) (sv_q s) (sv_l2 s) (sv_b2 s) b1) as [l2 b2] eqn:A3.
  destruct (svf_stage (sv_f2 s) (sv_q s) (sv_l2 t) (sv_b2 t) b1') as [l2' b2'] eqn:A4. cbn [fst snd]. reflexivity.
Qed.

Definition svf_stable (s : svf) : Prop := stage_ok (sv_f1 s) (sv_q s) /\ stage_ok (sv_f2 s) (sv_q s).
Definition norm2 (s : svf) : R := sv_l1 s * sv_l1 s + sv_b1 s * sv_b1 s + (sv_l2 s * sv_l2 s + sv_b2 s * sv_b2 s).

Lemma svf_contract : forall f1 f2 q, stage_ok f1 q -> stage_ok f2 q ->
  exists (W : svf -> R) (M rho L : R), 1 <= M /\ 0 < rho < 1 /\ 0 <= L /\
    (forall s, 0 <= W s <= M * norm2 s) /\
    (forall s, sv_b2 s * sv_b2 s <= W s) /\
    (forall s x, sv_f1 s = f1 -> sv_f2 s = f2 -> sv_q s = q ->
       W (fst (svf_calc_bpf s x)) <= rho * W s + L * (x * x)).
Proof.
  intros f1 f2 q H1 H2.
  destruct (stage_contract _ _ H1) as (V1 & M1 & r1 & L1 & HM1 & Hr1 & HL1 & HB1 & HV1 & HC1).
  destruct (stage_contract _ _ H2) as (V2 & M2 & r2 & L2 & HM2 & Hr2 & HL2 & HB2 & HV2 & HC2).
  set (c := 2 * L2 / (1 - r1) + 1).
  assert (Hc0 : 0 <= 2 * L2 / (1 - r1)) by (apply Rle_mult_inv_pos; lra).
  assert (Hc : 1 <= c) by (unfold c; lra).
  assert (Hcc : 2 * L2 <= c * (1 - r1)).
  { unfold c. rewrite Rmult_plus_distr_r. unfold Rdiv. rewrite Rmult_assoc, Rinv_l by lra. lra. }
  exists (fun s => c * V1 (sv_l1 s) (sv_b1 s) + V2 (sv_l2 s) (sv_b2 s)), (c * M1 + M2), (Rmax ((1 + r1) / 2) r2), ((c + L2) * L1).
  split; [nra|]. split; [unfold Rmax; destruct Rle_dec; lra|]. split; [apply Rmult_le_pos; lra|].
  split; [|split].
  - intros s. destruct (HV1 (sv_l1 s) (sv_b1 s)) as [A1 B1]. destruct (HV2 (sv_l2 s) (sv_b2 s)) as [A2 B2]. split; [nra|].
    unfold norm2. set (n1 := sv_l1 s * sv_l1 s + sv_b1 s * sv_b1 s) in *. set (n2 := sv_l2 s * sv_l2 s + sv_b2 s * sv_b2 s) in *.
    assert (0 <= n1) by (unfold n1; pose proof (Rle_0_sqr (sv_l1 s)); pose proof (Rle_0_sqr (sv_b1 s)); unfold Rsqr in *; lra).
    assert (0 <= n2) by (unfold n2; pose proof (Rle_0_sqr (sv_l2 s)); pose proof (Rle_0_sqr (sv_b2 s)); unfold Rsqr in *; lra).
    clearbody n1 n2 c. generalize dependent (V1 (sv_l1 s) (sv_b1 s)). generalize dependent (V2 (sv_l2 s) (sv_b2 s)). intros v2 A2 B2 v1 A1 B1. clear - H H0 A1 B1 A2 B2 HM1 HM2 Hc.
    assert (c * v1 <= c * (M1 * n1)) by (apply Rmult_le_compat_l; lra).
    assert (0 <= c * M1 * n2) by (apply Rmult_le_pos; [apply Rmult_le_pos|]; lra).
    assert (0 <= M2 * n1) by (apply Rmult_le_pos; lra). lra.
  - intros s. destruct (HV1 (sv_l1 s) (sv_b1 s)) as [A1 B1]. pose proof (HB2 (sv_l2 s) (sv_b2 s)).
    assert (0 <= c * V1 (sv_l1 s) (sv_b1 s)) by (apply Rmult_le_pos; lra). lra.
  - intros s x E1 E2 E3. unfold svf_calc_bpf. rewrite E1, E2, E3.
    pose proof (HC1 (sv_l1 s) (sv_b1 s) x) as C1.
    pose proof (HV1 (sv_l1 s) (sv_b1 s)) as P1. pose proof (HV2 (sv_l2 s) (sv_b2 s)) as P2.
    destruct (svf_stage f1 q (sv_l1 s) (sv_b1 s) x) as [l1 b1]. cbn [fst snd] in C1.
    pose proof (HC2 (sv_l2 s) (sv_b2 s) b1) as C2. pose proof (HB1 l1 b1) as HBB.
    destruct (svf_stage f2 q (sv_l2 s) (sv_b2 s) b1) as [l2 b2]. cbn [fst snd] in C2.
    cbn [fst sv_l1 sv_b1 sv_l2 sv_b2].
    set (v1 := V1 (sv_l1 s) (sv_b1 s)) in *. set (v2 := V2 (sv_l2 s) (sv_b2 s)) in *. set (v1' := V1 l1 b1) in *. set (v2' := V2 l2 b2) in *.
    clearbody v1 v2 v1' v2' c. destruct P1 as [P1 _]. destruct P2 as [P2 _].
    assert (X0 : 0 <= x * x) by exact (Rle_0_sqr x).
    assert (D : L2 * (b1 * b1) <= L2 * v1') by (apply Rmult_le_compat_l; lra).
    set (rho := Rmax ((1 + r1) / 2) r2). assert (R1 : (1 + r1) / 2 <= rho) by apply Rmax_l. assert (R2 : r2 <= rho) by apply Rmax_r. clearbody rho.
    assert (S1 : (c + L2) * v1' <= (c + L2) * (r1 * v1 + L1 * (x * x))) by (apply Rmult_le_compat_l; lra).
    assert (S2 : (c + L2) * r1 <= c * rho).
    { apply Rle_trans with (c * ((1 + r1) / 2)); [|apply Rmult_le_compat_l; lra]. clear - Hcc Hr1 HL2 Hc. nra. }
    assert (S3 : (c + L2) * r1 * v1 <= c * rho * v1) by (apply Rmult_le_compat_r; lra).
    assert (S4 : r2 * v2 <= rho * v2) by (apply Rmult_le_compat_r; lra).
    lra.
Qed.

(** state after n samples of the input stream u *)
Fixpoint svf_after (s : svf) (u : nat -> R) (n : nat) : svf :=
  match n with O => s | S n' => fst (svf_calc_bpf (svf_after s u n') (u n')) end.
Definition svf_out (s : svf) (u : nat -> R) (n : nat) : R := snd (svf_calc_bpf (svf_after s u n) (u n)).

Lemma out_b2 : forall s u n, svf_out s u n = sv_b2 (svf_after s u (S n)).
Proof. intros s u n. cbn [svf_after]. unfold svf_out, svf_calc_bpf. destruct (svf_stage _ _ _ _ (u n)) as [l1 b1]. destruct (svf_stage _ _ _ _ b1) as [l2 b2]. reflexivity. Qed.

Lemma after_coef : forall s u n, same_coef (svf_after s u n) s.
Proof.
  intros s u n. induction n as [|n IH]; [repeat split|]. cbn [svf_after].
  destruct (bpf_coef (svf_after s u n) (u n)) as (A & B & C). destruct IH as (A' & B' & C'). repeat split; congruence.
Qed.

Lemma after_sub : forall s t u v n, same_coef s t ->
  svf_after (svf_sub s t) (fun n => u n - v n) n = svf_sub (svf_after s u n) (svf_after t v n).
Proof.
  intros s t u v n E. induction n as [|n IH]; [reflexivity|]. cbn [svf_after]. rewrite IH.
  rewrite bpf_linear; [reflexivity|].
  destruct (after_coef s u n) as (A & B & C). destruct (after_coef t v n) as (A' & B' & C'). destruct E as (E1 & E2 & E3). repeat split; congruence.
Qed.

Lemma sqrt_pow : forall r n, 0 <= r -> sqrt (r ^ n) = sqrt r ^ n.
Proof. intros r n H. induction n as [|n IH]; [apply sqrt_1|]. cbn [pow]. rewrite sqrt_mult by (try apply pow_le; lra). rewrite IH. reflexivity. Qed.

Lemma sq_le_sqrt : forall x a, 0 <= a -> x * x <= a -> Rabs x <= sqrt a.
Proof. intros x a Ha H. apply sq_le_abs; [apply sqrt_pos|]. rewrite sqrt_sqrt by lra. exact H. Qed.

Lemma norm2_abs : forall s, sqrt (norm2 s) <= Rabs (sv_l1 s) + Rabs (sv_b1 s) + Rabs (sv_l2 s) + Rabs (sv_b2 s).
Proof.
  intros s. assert (P : forall x, 0 <= Rabs x /\ x * x = Rabs x * Rabs x).
  { intros x. split; [apply Rabs_pos|]. rewrite <- Rabs_mult. symmetry. apply Rabs_right, Rle_ge. exact (Rle_0_sqr x). }
  destruct (P (sv_l1 s)) as [A1 B1]. destruct (P (sv_b1 s)) as [A2 B2]. destruct (P (sv_l2 s)) as [A3 B3]. destruct (P (sv_b2 s)) as [A4 B4].
  rewrite <- (sqrt_square (Rabs (sv_l1 s) + Rabs (sv_b1 s) + Rabs (sv_l2 s) + Rabs (sv_b2 s))) by lra.
  apply sqrt_le_1_alt. unfold norm2. rewrite B1, B2, B3, B4.
  set (a := Rabs (sv_l1 s)) in *. set (b := Rabs (sv_b1 s)) in *. set (c := Rabs (sv_l2 s)) in *. set (d := Rabs (sv_b2 s)) in *. clearbody a b c d. clear - A1 A2 A3 A4. 
  assert (0 <= a * b) by (apply Rmult_le_pos; lra). assert (0 <= a * c) by (apply Rmult_le_pos; lra). assert (0 <= a * d) by (apply Rmult_le_pos; lra).
  assert (0 <= b * c) by (apply Rmult_le_pos; lra). assert (0 <= b * d) by (apply Rmult_le_pos; lra). assert (0 <= c * d) by (apply Rmult_le_pos; lra). lra.
Qed.

(** free decay *)
Lemma svf_free : forall f1 f2 q, stage_ok f1 q -> stage_ok f2 q ->
  exists K rho, 0 < K /\ 0 < rho < 1 /\ forall s, sv_f1 s = f1 -> sv_f2 s = f2 -> sv_q s = q -> forall n,
    Rabs (svf_out s (fun _ => 0) n) <= K * rho ^ n * (Rabs (sv_l1 s) + Rabs (sv_b1 s) + Rabs (sv_l2 s) + Rabs (sv_b2 s)).
Proof.
  intros f1 f2 q H1 H2. destruct (svf_contract f1 f2 q H1 H2) as (W & M & rho & L & HM & Hr & HL & HW & HB & HC).
  exists (sqrt M), (sqrt rho). assert (S0 : 0 < sqrt M) by (apply sqrt_lt_R0; lra). assert (S1 : 0 < sqrt rho) by (apply sqrt_lt_R0; lra).
  split; [exact S0|]. split. { split; [exact S1|]. rewrite <- sqrt_1. apply sqrt_lt_1_alt; lra. }
  intros s E1 E2 E3 n.
  assert (D : forall k, W (svf_after s (fun _ => 0) k) <= rho ^ k * W s).
  { induction k as [|k IH]; [cbn; lra|]. cbn [svf_after pow]. destruct (after_coef s (fun _ => 0) k) as (A & B & C).
    eapply Rle_trans; [apply HC; congruence|]. rewrite Rmult_0_l, Rmult_0_r, Rplus_0_r, Rmult_assoc. apply Rmult_le_compat_l; lra. }
  rewrite out_b2. specialize (D (S n)). destruct (HW s) as [W0 W1].
  assert (Q : sv_b2 (svf_after s (fun _ => 0) (S n)) * sv_b2 (svf_after s (fun _ => 0) (S n)) <= rho ^ n * (M * norm2 s)).
  { eapply Rle_trans; [apply HB|]. eapply Rle_trans; [exact D|].
    assert (0 <= rho ^ n) by (apply pow_le; lra).
    assert (P0 : rho ^ n * W s <= rho ^ n * (M * norm2 s)) by (apply Rmult_le_compat_l; lra).
    eapply Rle_trans; [|exact P0]. cbn [pow]. rewrite Rmult_assoc. rewrite <- (Rmult_1_l (rho ^ n * W s)) at 2.
    apply Rmult_le_compat_r; [apply Rmult_le_pos|]; lra. }
  assert (Nn : 0 <= norm2 s). { unfold norm2. pose proof (Rle_0_sqr (sv_l1 s)); pose proof (Rle_0_sqr (sv_b1 s)); pose proof (Rle_0_sqr (sv_l2 s)); pose proof (Rle_0_sqr (sv_b2 s)); unfold Rsqr in *; lra. }
  assert (Pn : 0 <= rho ^ n) by (apply pow_le; lra).
  apply sq_le_sqrt in Q; [|apply Rmult_le_pos; [lra|apply Rmult_le_pos; lra]].
  eapply Rle_trans; [exact Q|]. rewrite sqrt_mult by (try apply Rmult_le_pos; lra). rewrite sqrt_mult by lra. rewrite sqrt_pow by lra.
  replace (sqrt rho ^ n * (sqrt M * sqrt (norm2 s))) with (sqrt M * sqrt rho ^ n * sqrt (norm2 s)) by ring.
  apply Rmult_le_compat_l; [apply Rmult_le_pos; [lra|apply pow_le; lra]|apply norm2_abs].
Qed.

(** two runs with the same input forget their initial states *)
Lemma svf_forget : forall f1 f2 q, stage_ok f1 q -> stage_ok f2 q ->
  exists K rho, 0 < K /\ 0 < rho < 1 /\ forall s t u, sv_f1 s = f1 -> sv_f2 s = f2 -> sv_q s = q -> same_coef s t -> forall n,
    Rabs (svf_out s u n - svf_out t u n) <=
    K * rho ^ n * (Rabs (sv_l1 s - sv_l1 t) + Rabs (sv_b1 s - sv_b1 t) + Rabs (sv_l2 s - sv_l2 t) + Rabs (sv_b2 s - sv_b2 t)).
Proof.
  intros f1 f2 q H1 H2. destruct (svf_free f1 f2 q H1 H2) as (K & rho & HK & Hr & HF). exists K, rho. split; [exact HK|]. split; [exact Hr|].
  intros s t u E1 E2 E3 E n. specialize (HF (svf_sub s t) E1 E2 E3 n). rewrite !out_b2. rewrite out_b2 in HF.
  assert (X : svf_after (svf_sub s t) (fun _ => 0) (S n) = svf_sub (svf_after s u (S n)) (svf_after t u (S n))).
  { rewrite <- after_sub by exact E. generalize (S n). intros k. induction k as [|k IH]; [reflexivity|]. cbn [svf_after]. rewrite IH.
    replace (u k - u k) with 0 by ring. reflexivity. }
  rewrite X in HF. exact HF.
Qed.

(** bounded input, bounded output *)
Lemma svf_bibo : forall f1 f2 q, stage_ok f1 q -> stage_ok f2 q ->
  exists K, 0 < K /\ forall s u U, sv_f1 s = f1 -> sv_f2 s = f2 -> sv_q s = q -> (forall n, Rabs (u n) <= U) -> forall n,
    Rabs (svf_out s u n) <= K * (Rabs (sv_l1 s) + Rabs (sv_b1 s) + Rabs (sv_l2 s) + Rabs (sv_b2 s) + U).
Proof.
  intros f1 f2 q H1 H2. destruct (svf_contract f1 f2 q H1 H2) as (W & M & rho & L & HM & Hr & HL & HW & HB & HC).
  set (G := L / (1 - rho)). assert (G0 : 0 <= G) by (apply Rle_mult_inv_pos; lra).
  assert (G1 : rho * G + L = G). { unfold G. field. lra. }
  exists (sqrt (M + G)). split; [apply sqrt_lt_R0; lra|]. intros s u U E1 E2 E3 HU n.
  assert (U0 : 0 <= U) by (eapply Rle_trans; [apply Rabs_pos|apply (HU 0%nat)]).
  assert (D : forall k, W (svf_after s u k) <= M * norm2 s + G * (U * U)).
  { assert (GU : 0 <= G * (U * U)) by (apply Rmult_le_pos; [lra|apply Rmult_le_pos; lra]).
    induction k as [|k IH]. { cbn [svf_after]. destruct (HW s). lra. }
    cbn [svf_after]. destruct (after_coef s u k) as (A & B & C).
    eapply Rle_trans; [apply HC; congruence|]. pose proof (abs_sq_le _ _ (HU k)) as Q.
    assert (L * (u k * u k) <= L * (U * U)) by (apply Rmult_le_compat_l; lra).
    assert (rho * W (svf_after s u k) <= rho * (M * norm2 s + G * (U * U))) by (apply Rmult_le_compat_l; lra).
    assert (MN : 0 <= M * norm2 s) by (destruct (HW s); lra).
    assert (rho * (M * norm2 s) <= M * norm2 s) by (rewrite <- (Rmult_1_l (M * norm2 s)) at 2; apply Rmult_le_compat_r; lra).
    assert (XX : rho * (G * (U * U)) + L * (U * U) = G * (U * U)) by (rewrite <- Rmult_assoc, <- Rmult_plus_distr_r, G1; reflexivity). lra. }
  rewrite out_b2. specialize (D (S n)).
  set (A := Rabs (sv_l1 s) + Rabs (sv_b1 s) + Rabs (sv_l2 s) + Rabs (sv_b2 s)).
  assert (A0 : 0 <= A) by (unfold A; pose proof (Rabs_pos (sv_l1 s)); pose proof (Rabs_pos (sv_b1 s)); pose proof (Rabs_pos (sv_l2 s)); pose proof (Rabs_pos (sv_b2 s)); lra).
  assert (NA : norm2 s <= A * A).
  { pose proof (norm2_abs s) as Q. fold A in Q. assert (Nn : 0 <= norm2 s). { unfold norm2. pose proof (Rle_0_sqr (sv_l1 s)); pose proof (Rle_0_sqr (sv_b1 s)); pose proof (Rle_0_sqr (sv_l2 s)); pose proof (Rle_0_sqr (sv_b2 s)); unfold Rsqr in *; lra. }
    rewrite <- (sqrt_sqrt (norm2 s)) by exact Nn. apply Rmult_le_compat; try apply sqrt_pos; exact Q. }
  apply sq_le_abs. { apply Rmult_le_pos; [apply sqrt_pos|lra]. }
  eapply Rle_trans; [apply HB|]. eapply Rle_trans; [exact D|].
  replace (sqrt (M + G) * (A + U) * (sqrt (M + G) * (A + U))) with ((sqrt (M + G) * sqrt (M + G)) * ((A + U) * (A + U))) by ring.
  rewrite sqrt_sqrt by lra.
  assert (M * norm2 s <= M * (A * A)) by (apply Rmult_le_compat_l; lra).
  assert (0 <= A * U) by (apply Rmult_le_pos; lra). assert (0 <= A * A) by (apply Rmult_le_pos; lra). assert (0 <= U * U) by (apply Rmult_le_pos; lra).
  assert (0 <= M * (U * U)) by (apply Rmult_le_pos; lra). assert (0 <= G * (A * A)) by (apply Rmult_le_pos; lra).
  assert (0 <= (M + G) * (A * U)) by (apply Rmult_le_pos; lra). lra.
Qed.

(** *** the stage on its own steady orbits *)
(** centre frequency: theta = 2 pi omega, f = 2 sin (theta/2):
    the orbit b_n = A sin(theta (n+1) + phi) for input A sin (theta n + phi) *)
Lemma cosd : forall a b, cos (a - b) - cos (a + b) = 2 * sin a * sin b.
Proof. intros a b. rewrite cos_minus, cos_plus. ring. Qed.
Lemma sind : forall a b, sin (a + b) - sin (a - b) = 2 * cos a * sin b.
Proof. intros a b. rewrite sin_minus, sin_plus. ring. Qed.

Lemma stage_sine : forall A omega q phi,
  (* state before the sample with phase phi *)
  svf_stage (svf_calc_f omega) q (- A * cos (phi - PI * omega)) (A * sin phi) (A * sin phi) =
  (- A * cos (phi + 2 * PI * omega - PI * omega), A * sin (phi + 2 * PI * omega)).
Proof.
  intros A omega q phi. unfold svf_stage, svf_calc_f. cbn zeta.
  replace (phi + 2 * PI * omega - PI * omega) with (phi + PI * omega) by ring.
  pose proof (cosd phi (PI * omega)) as C. pose proof (sind (phi + PI * omega) (PI * omega)) as D.
  replace (phi + PI * omega + PI * omega) with (phi + 2 * PI * omega) in D by ring.
  replace (phi + PI * omega - PI * omega) with phi in D by ring.
  assert (L : 2 * sin (PI * omega) * (A * sin phi) + - A * cos (phi - PI * omega) = - A * cos (phi + PI * omega)).
  { replace (2 * sin (PI * omega) * (A * sin phi)) with (A * (2 * sin phi * sin (PI * omega))) by ring. rewrite <- C. ring. }
  f_equal; [exact L|]. rewrite L.
  replace (A * sin phi * q - - A * cos (phi + PI * omega) - q * (A * sin phi)) with (A * cos (phi + PI * omega)) by ring.
  replace (2 * sin (PI * omega) * (A * cos (phi + PI * omega))) with (A * (2 * cos (phi + PI * omega) * sin (PI * omega))) by ring.
  rewrite <- D. ring.
Qed.
