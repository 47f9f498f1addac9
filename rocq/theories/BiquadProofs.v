(* BiquadProofs.v - lemmas about BiquadModel: stability triangle, Lyapunov function, frequency response. *)
From Coq Require Import Reals Lra Psatz List.
From Coquelicot Require Complex.
From Verif Require Import Base LagModel BiquadModel.
Local Open Scope R_scope.

(* the stability triangle of a second-order recursion *)
Definition jury (a1 a2 : R) : Prop := a2 < 1 /\ - (1 + a2) < a1 < 1 + a2.

Lemma lyap : forall a1 a2, jury a1 a2 ->
  exists p11 p12 p22 M, 1 <= M /\ 0 < p11 /\
    (forall x y, p11 * (- a1 * x + y) * (- a1 * x + y) + 2 * p12 * (- a1 * x + y) * (- a2 * x) + p22 * (- a2 * x) * (- a2 * x)
               = p11 * x * x + 2 * p12 * x * y + p22 * y * y - (x * x + y * y)) /\
    (forall x y, x * x + y * y <= p11 * x * x + 2 * p12 * x * y + p22 * y * y <= M * (x * x + y * y)).
Proof.
  intros a1 a2 [H1 [H2 H3]].
  assert (Hs : 0 < 1 + a2) by lra.
  assert (Hd : 0 < (1 + a2) * (1 + a2) - a1 * a1) by nra.
  assert (Hq : 0 < (1 - a2) * ((1 + a2) * (1 + a2) - a1 * a1)) by (apply Rmult_lt_0_compat; lra).
  set (p11 := (1 + a2 * a2) * (1 + a2) / ((1 - a2) * ((1 + a2) * (1 + a2) - a1 * a1))).
  assert (Hp : 0 < p11).
  { apply Rdiv_lt_0_compat; [|exact Hq]. apply Rmult_lt_0_compat; nra. }
  set (p12 := - a1 * p11 / (1 + a2)). set (p22 := p11 + 1).
  assert (HA : forall x y, p11 * (- a1 * x + y) * (- a1 * x + y) + 2 * p12 * (- a1 * x + y) * (- a2 * x) + p22 * (- a2 * x) * (- a2 * x)
               = p11 * x * x + 2 * p12 * x * y + p22 * y * y - (x * x + y * y)).
  { intros x y. unfold p22, p12, p11. field. split; [|split]; lra. }
  assert (E12 : p12 * (1 + a2) = - a1 * p11) by (unfold p12; field; lra).
  assert (Hdet : p12 * p12 < p11 * p22).
  { assert (p12 * p12 * ((1 + a2) * (1 + a2)) = a1 * a1 * (p11 * p11))
      by (replace (p12 * p12 * ((1 + a2) * (1 + a2))) with ((p12 * (1 + a2)) * (p12 * (1 + a2))) by ring; rewrite E12; ring).
    assert (0 < p11 * p11) by nra.
    assert (a1 * a1 * (p11 * p11) <= (1 + a2) * (1 + a2) * (p11 * p11)) by (apply Rmult_le_compat_r; lra).
    assert (p12 * p12 <= p11 * p11).
    { apply Rmult_le_reg_r with ((1 + a2) * (1 + a2)); [nra|]. lra. }
    unfold p22. nra. }
  assert (Hpos : forall x y, 0 <= p11 * x * x + 2 * p12 * x * y + p22 * y * y).
  { intros x y. apply Rmult_le_reg_l with p11; [exact Hp|]. rewrite Rmult_0_r.
    replace (p11 * (p11 * x * x + 2 * p12 * x * y + p22 * y * y))
      with ((p11 * x + p12 * y) * (p11 * x + p12 * y) + (p11 * p22 - p12 * p12) * (y * y)) by ring.
    assert (0 <= (p11 * x + p12 * y) * (p11 * x + p12 * y)) by exact (Rle_0_sqr _).
    assert (0 <= y * y) by exact (Rle_0_sqr _).
    assert (0 <= (p11 * p22 - p12 * p12) * (y * y)) by (apply Rmult_le_pos; lra). lra. }
  exists p11, p12, p22, (p11 + p22). split; [unfold p22; lra|]. split; [exact Hp|]. split; [exact HA|].
  intros x y. split.
  - pose proof (Hpos (- a1 * x + y) (- a2 * x)) as P. rewrite HA in P. lra.
  - pose proof (Hpos (- p12 * 0 + y) (- x)) as _.
    assert (Q : 0 <= p22 * x * x - 2 * p12 * x * y + p11 * y * y).
    { apply Rmult_le_reg_l with p11; [exact Hp|]. rewrite Rmult_0_r.
      replace (p11 * (p22 * x * x - 2 * p12 * x * y + p11 * y * y))
        with ((p11 * y - p12 * x) * (p11 * y - p12 * x) + (p11 * p22 - p12 * p12) * (x * x)) by ring.
      assert (0 <= (p11 * y - p12 * x) * (p11 * y - p12 * x)) by exact (Rle_0_sqr _).
      assert (0 <= x * x) by exact (Rle_0_sqr _).
      assert (0 <= (p11 * p22 - p12 * p12) * (x * x)) by (apply Rmult_le_pos; lra). lra. }
    replace ((p11 + p22) * (x * x + y * y)) with
      ((p11 * x * x + 2 * p12 * x * y + p22 * y * y) + (p22 * x * x - 2 * p12 * x * y + p11 * y * y)) by ring. lra.
Qed.

Lemma contract : forall a1 a2, jury a1 a2 ->
  exists (V : R -> R -> R) (M rho L : R), 1 <= M /\ 0 < rho < 1 /\ 0 <= L /\
    (forall x y, x * x + y * y <= V x y <= M * (x * x + y * y)) /\
    (forall x y w1 w2, V (- a1 * x + y + w1) (- a2 * x + w2) <= rho * V x y + L * (w1 * w1 + w2 * w2)).
Proof.
  intros a1 a2 J. destruct (lyap a1 a2 J) as (p11 & p12 & p22 & M & HM & Hp & HA & HB).
  set (V := fun x y => p11 * x * x + 2 * p12 * x * y + p22 * y * y).
  exists V, M, (1 - 1 / (2 * M)), ((1 + 2 * M) * M).
  assert (Hi : 0 < 1 / (2 * M) <= 1 / 2).
  { split; [apply Rdiv_lt_0_compat; lra|]. apply Rmult_le_reg_r with (2 * M); [lra|].
    replace (1 / (2 * M) * (2 * M)) with 1 by (field; lra). lra. }
  split; [exact HM|]. split; [lra|]. split; [nra|]. split; [exact HB|].
  intros x y w1 w2.
  set (e := 1 / (2 * M)) in *.
  assert (Ee : e * (2 * M) = 1) by (unfold e; field; lra).
  set (u1 := - a1 * x + y). set (u2 := - a2 * x).
  assert (HV : V u1 u2 = V x y - (x * x + y * y)) by (unfold V, u1, u2; exact (HA x y)).
  assert (Y : V (u1 + w1) (u2 + w2) <= (1 + e) * V u1 u2 + (1 + 2 * M) * V w1 w2).
  { assert (P : 0 <= V (e * u1 - w1) (e * u2 - w2)).
    { destruct (HB (e * u1 - w1) (e * u2 - w2)) as [P _].
      pose proof (Rle_0_sqr (e * u1 - w1)) as s1. pose proof (Rle_0_sqr (e * u2 - w2)) as s2. unfold Rsqr in *. unfold V. lra. }
    assert (E : (1 + e) * V u1 u2 + (1 + 2 * M) * V w1 w2 - V (u1 + w1) (u2 + w2) = (2 * M) * V (e * u1 - w1) (e * u2 - w2)).
    { unfold V.
      replace (2 * M * (p11 * (e * u1 - w1) * (e * u1 - w1) + 2 * p12 * (e * u1 - w1) * (e * u2 - w2) + p22 * (e * u2 - w2) * (e * u2 - w2)))
        with ((e * (2 * M)) * e * (p11 * u1 * u1 + 2 * p12 * u1 * u2 + p22 * u2 * u2)
              - 2 * (e * (2 * M)) * (p11 * u1 * w1 + p12 * (u1 * w2 + w1 * u2) + p22 * u2 * w2)
              + 2 * M * (p11 * w1 * w1 + 2 * p12 * w1 * w2 + p22 * w2 * w2)) by ring.
      rewrite Ee. ring. }
    assert (0 <= 2 * M * V (e * u1 - w1) (e * u2 - w2)) by (apply Rmult_le_pos; lra). lra. }
  destruct (HB x y) as [B1 B2]. destruct (HB w1 w2) as [B3 B4]. fold (V x y) in B1, B2. fold (V w1 w2) in B3, B4.
  assert (K1 : (1 + e) * V u1 u2 <= (1 - e) * V x y).
  { rewrite HV.
    assert (V x y * (2 * e) <= (x * x + y * y)).
    { apply Rmult_le_reg_r with M; [lra|]. replace (V x y * (2 * e) * M) with (V x y * (e * (2 * M))) by ring. rewrite Ee. lra. }
    assert (0 <= x * x + y * y) by (pose proof (Rle_0_sqr x); pose proof (Rle_0_sqr y); unfold Rsqr in *; lra). nra. }
  assert (K2 : (1 + 2 * M) * V w1 w2 <= (1 + 2 * M) * M * (w1 * w1 + w2 * w2)).
  { rewrite Rmult_assoc. apply Rmult_le_compat_l; lra. }
  lra.
Qed.

(* ---------------- the filter's own state ---------------- *)
Definition settled (s : biquad) : Prop :=
  vl_v (q_a1 s) = vl_target (q_a1 s) /\ vl_v (q_a2 s) = vl_target (q_a2 s) /\ vl_v (q_b0 s) = vl_target (q_b0 s) /\
  vl_v (q_b1 s) = vl_target (q_b1 s) /\ vl_v (q_b2 s) = vl_target (q_b2 s).

Lemma vlag_settled : forall l, vl_v l = vl_target l -> vlag_process l = l.
Proof. intros [v t] E. cbn in E. subst. unfold vlag_process, VLAG_LPINV; cbn. f_equal. ring. Qed.
Lemma settled_process : forall s, settled s -> coeff_process s = s.
Proof.
  intros s (A & B & C & D & E). unfold coeff_process. rewrite !vlag_settled by assumption. destruct s; reflexivity.
Qed.
Lemma settled_left : forall s r0 r1, settled s -> settled (set_left s r0 r1).
Proof. intros s r0 r1 H. exact H. Qed.
Lemma settled_right : forall s r0 r1, settled s -> settled (set_right s r0 r1).
Proof. intros s r0 r1 H. exact H. Qed.
Lemma settled_new : forall c, settled (set_coef c bq_new).
Proof. intros c. repeat split. Qed.
Lemma settled_instantize : forall s, settled (coeff_instantize s).
Proof. intros s. repeat split. Qed.

Lemma coefs_new : forall c, coefs (set_coef c bq_new) =
  mk_c5 (c_a1 c / c_a0 c) (c_a2 c / c_a0 c) (c_b0 c / c_a0 c) (c_b1 c / c_a0 c) (c_b2 c / c_a0 c).
Proof. intros c. unfold coefs, set_coef; cbn. unfold Rdiv. rewrite !Rmult_1_l. reflexivity. Qed.

(* one settled step *)
Lemma step_settled : forall s x, settled s ->
  step_left (coeff_process s) x =
    (set_left s (x * k_b1 (coefs s) - k_a1 (coefs s) * (x * k_b0 (coefs s) + q_r0l s) + q_r1l s)
                (x * k_b2 (coefs s) - k_a2 (coefs s) * (x * k_b0 (coefs s) + q_r0l s)),
     x * k_b0 (coefs s) + q_r0l s).
Proof. intros s x H. rewrite (settled_process s H). reflexivity. Qed.

Lemma flush_err : forall d, Rabs (flush_denormal d - d) <= 1 / 10 ^ 30.
Proof.
  intros d. unfold flush_denormal. destruct (Rlt_dec (Rabs d) (1 / 10 ^ 30)) as [H|H].
  - rewrite Rminus_0_l, Rabs_Ropp. lra.
  - rewrite Rminus_diag_eq, Rabs_R0 by reflexivity. apply Rlt_le, Rdiv_lt_0_compat; [lra|]. apply pow_lt; lra.
Qed.

Lemma sq_le_abs : forall x T, 0 <= T -> x * x <= T * T -> Rabs x <= T.
Proof. intros x T HT H. apply Rsqr_le_abs_0 in H. rewrite (Rabs_right T) in H by lra. exact H. Qed.
Lemma abs_sq_le : forall x T, Rabs x <= T -> x * x <= T * T.
Proof.
  intros x T H. assert (0 <= Rabs x) by apply Rabs_pos.
  assert (E : x * x = Rabs x * Rabs x) by (rewrite <- Rabs_mult; symmetry; apply Rabs_right, Rle_ge, Rle_0_sqr).
  rewrite E. apply Rmult_le_compat; lra.
Qed.

(* the trajectory invariant: the registers are within e of a point with V <= T *)
Definition near (V : R -> R -> R) (T e : R) (s : biquad) : Prop :=
  exists c0 c1, V c0 c1 <= T /\ Rabs (q_r0l s - c0) <= e /\ Rabs (q_r1l s - c1) <= e.

Section Traj.
  Variables (k : coef5) (V : R -> R -> R) (rho L M T e U W : R).
  Hypothesis (Hrho : 0 < rho < 1) (HL : 0 <= L) (HM : 1 <= M) (He : 0 <= e) (HU : 0 <= U).
  Hypothesis HV : forall x y, x * x + y * y <= V x y <= M * (x * x + y * y).
  Hypothesis HC : forall x y w1 w2, V (- k_a1 k * x + y + w1) (- k_a2 k * x + w2) <= rho * V x y + L * (w1 * w1 + w2 * w2).
  Hypothesis HW : W = (Rabs (k_b1 k - k_a1 k * k_b0 k) + Rabs (k_b2 k - k_a2 k * k_b0 k)) * U + (1 + Rabs (k_a1 k) + Rabs (k_a2 k)) * e.
  Hypothesis HT : rho * T + L * (2 * (W * W)) <= T.

  Lemma traj_step : forall s x, settled s -> coefs s = k -> Rabs x <= U -> near V T e s ->
    let s' := fst (step_left (coeff_process s) x) in
    settled s' /\ coefs s' = k /\ V (q_r0l s') (q_r1l s') <= T.
  Proof.
    intros s x Hs Hk Hx (c0 & c1 & Hc & H0 & H1). rewrite (step_settled s x Hs). cbv zeta. cbn [fst].
    split; [exact Hs|]. split; [exact Hk|]. rewrite Hk. cbn [q_r0l q_r1l set_left].
    set (d0 := q_r0l s - c0) in *. set (d1 := q_r1l s - c1) in *.
    replace (x * k_b1 k - k_a1 k * (x * k_b0 k + q_r0l s) + q_r1l s)
      with (- k_a1 k * c0 + c1 + (x * (k_b1 k - k_a1 k * k_b0 k) - k_a1 k * d0 + d1)) by (unfold d0, d1; ring).
    replace (x * k_b2 k - k_a2 k * (x * k_b0 k + q_r0l s))
      with (- k_a2 k * c0 + (x * (k_b2 k - k_a2 k * k_b0 k) - k_a2 k * d0)) by (unfold d0, d1; ring).
    eapply Rle_trans; [apply HC|].
    assert (A : forall a b, Rabs a <= b -> forall c, Rabs (a * c) <= b * Rabs c).
    { intros a b Hab c. rewrite Rabs_mult. apply Rmult_le_compat_r; [apply Rabs_pos|exact Hab]. }
    pose proof (A x U Hx (k_b1 k - k_a1 k * k_b0 k)) as X1. pose proof (A x U Hx (k_b2 k - k_a2 k * k_b0 k)) as X2.
    pose proof (A d0 e H0 (k_a1 k)) as X3. pose proof (A d0 e H0 (k_a2 k)) as X4.
    assert (P1 : 0 <= U * Rabs (k_b1 k - k_a1 k * k_b0 k)) by (apply Rmult_le_pos; [lra|apply Rabs_pos]).
    assert (P2 : 0 <= U * Rabs (k_b2 k - k_a2 k * k_b0 k)) by (apply Rmult_le_pos; [lra|apply Rabs_pos]).
    assert (P3 : 0 <= e * Rabs (k_a1 k)) by (apply Rmult_le_pos; [lra|apply Rabs_pos]).
    assert (P4 : 0 <= e * Rabs (k_a2 k)) by (apply Rmult_le_pos; [lra|apply Rabs_pos]).
    assert (E1 : Rabs (x * (k_b1 k - k_a1 k * k_b0 k) - k_a1 k * d0 + d1) <= W).
    { replace (x * (k_b1 k - k_a1 k * k_b0 k) - k_a1 k * d0 + d1) with (x * (k_b1 k - k_a1 k * k_b0 k) + (- (d0 * k_a1 k) + d1)) by ring.
      eapply Rle_trans; [apply Rabs_triang|]. eapply Rle_trans; [apply Rplus_le_compat_l, Rabs_triang|]. rewrite Rabs_Ropp. lra. }
    assert (E2 : Rabs (x * (k_b2 k - k_a2 k * k_b0 k) - k_a2 k * d0) <= W).
    { replace (x * (k_b2 k - k_a2 k * k_b0 k) - k_a2 k * d0) with (x * (k_b2 k - k_a2 k * k_b0 k) + - (d0 * k_a2 k)) by ring.
      eapply Rle_trans; [apply Rabs_triang|]. rewrite Rabs_Ropp. lra. }
    apply abs_sq_le in E1. apply abs_sq_le in E2.
    assert (rho * V c0 c1 <= rho * T) by (apply Rmult_le_compat_l; lra).
    assert (L * ((x * (k_b1 k - k_a1 k * k_b0 k) - k_a1 k * d0 + d1) * (x * (k_b1 k - k_a1 k * k_b0 k) - k_a1 k * d0 + d1) +
             (x * (k_b2 k - k_a2 k * k_b0 k) - k_a2 k * d0) * (x * (k_b2 k - k_a2 k * k_b0 k) - k_a2 k * d0)) <= L * (2 * (W * W)))
      by (apply Rmult_le_compat_l; lra).
    lra.
  Qed.

  Lemma traj_out : forall s x, settled s -> coefs s = k -> Rabs x <= U -> near V T e s -> forall B, 0 <= B -> T <= B * B ->
    Rabs (snd (step_left (coeff_process s) x)) <= Rabs (k_b0 k) * U + B + e.
  Proof.
    intros s x Hs Hk Hx (c0 & c1 & Hc & H0 & H1) B HB HTB. rewrite (step_settled s x Hs). cbn [snd]. rewrite Hk.
    assert (Rabs c0 <= B).
    { apply sq_le_abs; [exact HB|]. destruct (HV c0 c1) as [P _]. pose proof (Rle_0_sqr c1). unfold Rsqr in *. lra. }
    replace (x * k_b0 k + q_r0l s) with (x * k_b0 k + (c0 + (q_r0l s - c0))) by ring.
    eapply Rle_trans; [apply Rabs_triang|]. rewrite Rabs_mult.
    assert (Rabs x * Rabs (k_b0 k) <= U * Rabs (k_b0 k)) by (apply Rmult_le_compat_r; [apply Rabs_pos|exact Hx]).
    eapply Rle_trans; [apply Rplus_le_compat_l, Rabs_triang|]. lra.
  Qed.

  Lemma near_self : forall s, V (q_r0l s) (q_r1l s) <= T -> near V T e s.
  Proof. intros s H. exists (q_r0l s), (q_r1l s). split; [exact H|]. rewrite !Rminus_diag_eq, Rabs_R0 by reflexivity. lra. Qed.

  Lemma traj_loop : forall xs s, settled s -> coefs s = k -> Forall (fun x => Rabs x <= U) xs -> near V T e s ->
    forall B, 0 <= B -> T <= B * B ->
    Forall (fun y => Rabs y <= Rabs (k_b0 k) * U + B + e) (snd (mono_loop s xs)) /\
    settled (fst (mono_loop s xs)) /\ coefs (fst (mono_loop s xs)) = k /\
    (xs <> [] -> V (q_r0l (fst (mono_loop s xs))) (q_r1l (fst (mono_loop s xs))) <= T).
  Proof.
    induction xs as [|x xs IH]; intros s Hs Hk Hx Hn B HB HTB.
    { cbn. split; [constructor|]. split; [exact Hs|]. split; [exact Hk|]. congruence. }
    pose proof (Forall_inv Hx) as Hx1. pose proof (Forall_inv_tail Hx) as Hx2. cbv beta in Hx1.
    destruct (traj_step s x Hs Hk Hx1 Hn) as (A & B1 & C). pose proof (traj_out s x Hs Hk Hx1 Hn B HB HTB) as O.
    cbn [mono_loop]. destruct (step_left (coeff_process s) x) as [s1 o]. cbn [fst snd] in *.
    destruct (IH s1 A B1 Hx2 (near_self s1 C) B HB HTB) as (I1 & I2 & I3 & I4).
    destruct xs as [|x2 xs].
    - cbn in *. split; [constructor; [exact O|constructor]|]. split; [exact A|]. split; [exact B1|]. intros _. exact C.
    - destruct (mono_loop s1 (x2 :: xs)) as [s2 os]. cbn [fst snd] in *.
      split; [constructor; [exact O|exact I1]|]. split; [exact I2|]. split; [exact I3|]. intros _. apply I4. discriminate.
  Qed.
End Traj.

(* feeding consecutive blocks to the in-place block function, output concatenated *)
Fixpoint run_blocks (s : biquad) (bs : list (list R)) : list R :=
  match bs with
  | [] => []
  | b :: r => let '(s1, out, _) := process_block_mono s b None in (out ++ run_blocks s1 r)%list
  end.

Lemma traj_blocks : forall k V rho L M T U W, 0 < rho < 1 -> 0 <= L -> 1 <= M -> 0 <= U ->
  (forall x y, x * x + y * y <= V x y <= M * (x * x + y * y)) ->
  (forall x y w1 w2, V (- k_a1 k * x + y + w1) (- k_a2 k * x + w2) <= rho * V x y + L * (w1 * w1 + w2 * w2)) ->
  W = (Rabs (k_b1 k - k_a1 k * k_b0 k) + Rabs (k_b2 k - k_a2 k * k_b0 k)) * U + (1 + Rabs (k_a1 k) + Rabs (k_a2 k)) * (1 / 10 ^ 30) ->
  rho * T + L * (2 * (W * W)) <= T ->
  forall B, 0 <= B -> T <= B * B ->
  forall bs s, settled s -> coefs s = k -> Forall (fun b => b <> [] /\ Forall (fun x => Rabs x <= U) b) bs -> near V T (1 / 10 ^ 30) s ->
  Forall (fun y => Rabs y <= Rabs (k_b0 k) * U + B + 1 / 10 ^ 30) (run_blocks s bs).
Proof.
  intros k V rho L M T U W Hr HL HM HU HV HC HW HT B HB HTB.
  assert (He : 0 <= 1 / 10 ^ 30) by (apply Rlt_le, Rdiv_lt_0_compat; [lra|apply pow_lt; lra]).
  induction bs as [|b bs IH]; intros s Hs Hk Hb Hn; [constructor|].
  inversion Hb as [|? ? [Hb0 Hb1] Hb2]; subst. cbn [run_blocks]. unfold process_block_mono.
  destruct (traj_loop (coefs s) V rho L M T (1 / 10 ^ 30) U _ Hr HL He HU HV HC eq_refl HT b s Hs eq_refl Hb1 Hn B HB HTB) as (A & C & D & E).
  destruct (mono_loop s b) as [s1 os]. cbn [fst snd] in *. apply Forall_app. split; [exact A|].
  apply IH.
  - exact C.
  - exact D.
  - exact Hb2.
  - exists (q_r0l s1), (q_r1l s1). split; [apply E, Hb0|]. split; apply flush_err.
Qed.

(* bounded input, bounded output: one constant for the coefficient set *)
Lemma bibo_blocks : forall k, jury (k_a1 k) (k_a2 k) -> exists K, 0 < K /\
  forall s U bs, settled s -> coefs s = k -> 0 <= U ->
    Forall (fun b => b <> [] /\ Forall (fun x => Rabs x <= U) b) bs ->
    Forall (fun y => Rabs y <= K * (Rabs (q_r0l s) + Rabs (q_r1l s) + U + 1 / 10 ^ 30)) (run_blocks s bs).
Proof.
  intros k J. destruct (contract _ _ J) as (V & M & rho & L & HM & Hr & HL & HV & HC).
  set (cw := 1 + Rabs (k_a1 k) + Rabs (k_a2 k) + (Rabs (k_b1 k - k_a1 k * k_b0 k) + Rabs (k_b2 k - k_a2 k * k_b0 k))).
  assert (Hcw : 1 <= cw).
  { unfold cw. pose proof (Rabs_pos (k_a1 k)). pose proof (Rabs_pos (k_a2 k)).
    pose proof (Rabs_pos (k_b1 k - k_a1 k * k_b0 k)). pose proof (Rabs_pos (k_b2 k - k_a2 k * k_b0 k)). lra. }
  set (G := 2 * L / (1 - rho) * (cw * cw)).
  assert (HG : 0 <= G).
  { unfold G. apply Rmult_le_pos; [|nra]. apply Rmult_le_pos; [lra|]. apply Rlt_le, Rinv_0_lt_compat; lra. }
  exists (Rabs (k_b0 k) + (1 + M + G) + 1). split; [pose proof (Rabs_pos (k_b0 k)); lra|].
  intros s U bs Hs Hk HU Hb. set (e := 1 / 10 ^ 30).
  assert (He : 0 <= e) by (unfold e; apply Rlt_le, Rdiv_lt_0_compat; [lra|apply pow_lt; lra]).
  set (St := Rabs (q_r0l s) + Rabs (q_r1l s)).
  assert (HS : 0 <= St) by (unfold St; pose proof (Rabs_pos (q_r0l s)); pose proof (Rabs_pos (q_r1l s)); lra).
  set (W := (Rabs (k_b1 k - k_a1 k * k_b0 k) + Rabs (k_b2 k - k_a2 k * k_b0 k)) * U + (1 + Rabs (k_a1 k) + Rabs (k_a2 k)) * e).
  assert (HW : 0 <= W <= cw * (U + e)).
  { pose proof (Rabs_pos (k_a1 k)). pose proof (Rabs_pos (k_a2 k)).
    pose proof (Rabs_pos (k_b1 k - k_a1 k * k_b0 k)). pose proof (Rabs_pos (k_b2 k - k_a2 k * k_b0 k)).
    unfold W, cw. split.
    - apply Rplus_le_le_0_compat; apply Rmult_le_pos; lra.
    - apply Rminus_le. match goal with |- ?a - ?b <= 0 => replace (a - b) with (- ((Rabs (k_b1 k - k_a1 k * k_b0 k) + Rabs (k_b2 k - k_a2 k * k_b0 k)) * e + (1 + Rabs (k_a1 k) + Rabs (k_a2 k)) * U)) by ring end.
      assert (0 <= (Rabs (k_b1 k - k_a1 k * k_b0 k) + Rabs (k_b2 k - k_a2 k * k_b0 k)) * e) by (apply Rmult_le_pos; lra).
      assert (0 <= (1 + Rabs (k_a1 k) + Rabs (k_a2 k)) * U) by (apply Rmult_le_pos; lra). lra. }
  set (T := M * (St * St) + G * ((U + e) * (U + e))).
  assert (HT : rho * T + L * (2 * (W * W)) <= T).
  { assert (W2 : W * W <= cw * cw * ((U + e) * (U + e))).
    { replace (cw * cw * ((U + e) * (U + e))) with (cw * (U + e) * (cw * (U + e))) by ring. apply Rmult_le_compat; lra. }
    assert (EG : (1 - rho) * (G * ((U + e) * (U + e))) = 2 * L * (cw * cw * ((U + e) * (U + e)))).
    { unfold G. field. lra. }
    assert (L * (2 * (W * W)) <= 2 * L * (cw * cw * ((U + e) * (U + e)))).
    { replace (L * (2 * (W * W))) with (2 * L * (W * W)) by ring. apply Rmult_le_compat_l; lra. }
    assert (0 <= (1 - rho) * (M * (St * St))) by (apply Rmult_le_pos; [lra|]; apply Rmult_le_pos; [lra|exact (Rle_0_sqr St)]).
    unfold T in *. lra. }
  assert (HB : T <= ((1 + M + G) * (St + U + e)) * ((1 + M + G) * (St + U + e))).
  { set (Z := St + U + e).
    assert (Z0 : 0 <= Z) by (unfold Z; lra).
    assert (H1 : St * St <= Z * Z) by (apply Rmult_le_compat; unfold Z; lra).
    assert (H2 : (U + e) * (U + e) <= Z * Z) by (apply Rmult_le_compat; unfold Z; lra).
    assert (H3 : M * (St * St) <= M * (Z * Z)) by (apply Rmult_le_compat_l; lra).
    assert (H4 : G * ((U + e) * (U + e)) <= G * (Z * Z)) by (apply Rmult_le_compat_l; lra).
    assert (H5 : (M + G) * (Z * Z) <= (1 + M + G) * (1 + M + G) * (Z * Z)) by (apply Rmult_le_compat_r; [exact (Rle_0_sqr Z)|nra]).
    replace ((1 + M + G) * Z * ((1 + M + G) * Z)) with ((1 + M + G) * (1 + M + G) * (Z * Z)) by ring. unfold T. lra. }
  assert (HB0 : 0 <= (1 + M + G) * (St + U + e)) by (apply Rmult_le_pos; lra).
  assert (Hn : near V T (1 / 10 ^ 30) s).
  { apply near_self; [exact He|]. destruct (HV (q_r0l s) (q_r1l s)) as [_ P].
    assert (q_r0l s * q_r0l s + q_r1l s * q_r1l s <= St * St).
    { pose proof (abs_sq_le (q_r0l s) _ (Rle_refl _)) as A1. pose proof (abs_sq_le (q_r1l s) _ (Rle_refl _)) as A2.
      assert (0 <= Rabs (q_r0l s) * Rabs (q_r1l s)) by (apply Rmult_le_pos; apply Rabs_pos). unfold St. nra. }
    assert (M * (q_r0l s * q_r0l s + q_r1l s * q_r1l s) <= M * (St * St)) by (apply Rmult_le_compat_l; lra).
    assert (0 <= G * ((U + e) * (U + e))) by (apply Rmult_le_pos; [lra|exact (Rle_0_sqr (U + e))]). unfold T. lra. }
  pose proof (traj_blocks k V rho L M T U W Hr HL HM HU HV HC eq_refl HT _ HB0 HB bs s Hs Hk Hb Hn) as R1.
  eapply Forall_impl; [|exact R1]. intros y Hy. cbv beta in Hy |- *. fold e in Hy |- *. fold St.
  eapply Rle_trans; [exact Hy|].
  assert (0 <= Rabs (k_b0 k) * (St + e)) by (apply Rmult_le_pos; [apply Rabs_pos|lra]).
  assert (0 <= St + U) by lra.
  replace ((Rabs (k_b0 k) + (1 + M + G) + 1) * (St + U + e)) with (Rabs (k_b0 k) * U + Rabs (k_b0 k) * (St + e) + (1 + M + G) * (St + U + e) + (St + U) + e) by ring.
  lra.
Qed.

(* free response: geometric decay *)
Lemma free_loop : forall n s, settled s ->
  length (snd (mono_loop s (repeat 0 n))) = n.
Proof.
  induction n as [|n IH]; intros s Hs; [reflexivity|]. cbn [repeat mono_loop]. rewrite (step_settled s 0 Hs).
  match goal with |- context [mono_loop ?s1 _] => specialize (IH s1) end.
  destruct (mono_loop _ (repeat 0 n)) as [s2 os]. cbn [snd] in *. cbn. f_equal. apply IH. exact Hs.
Qed.

Lemma free_decay : forall k, jury (k_a1 k) (k_a2 k) -> exists K rho, 0 < K /\ 0 < rho < 1 /\
  forall s, settled s -> coefs s = k ->
  forall N n, (n < N)%nat ->
    Rabs (nth n (snd (mono_loop s (repeat 0 N))) 0) <= K * rho ^ n * (Rabs (q_r0l s) + Rabs (q_r1l s)).
Proof.
  intros k J. destruct (contract _ _ J) as (V & M & rho & L & HM & Hr & HL & HV & HC).
  exists M, (sqrt rho).
  assert (Hq : sqrt rho * sqrt rho = rho) by (apply sqrt_sqrt; lra).
  assert (Hs0 : 0 < sqrt rho) by (apply sqrt_lt_R0; lra).
  assert (Hs1 : sqrt rho < 1) by (rewrite <- sqrt_1; apply sqrt_lt_1; lra).
  split; [lra|]. split; [lra|].
  assert (G : forall N s T, settled s -> coefs s = k -> 0 <= T -> V (q_r0l s) (q_r1l s) <= T * T ->
     forall n, (n < N)%nat -> Rabs (nth n (snd (mono_loop s (repeat 0 N))) 0) <= sqrt rho ^ n * T).
  { induction N as [|N IH]; intros s T Hs Hk HT HVT n Hn; [lia|].
    cbn [repeat mono_loop]. rewrite (step_settled s 0 Hs). rewrite Hk.
    set (s1 := set_left s _ _).
    assert (H1 : V (q_r0l s1) (q_r1l s1) <= (sqrt rho * T) * (sqrt rho * T)).
    { pose proof (HC (q_r0l s) (q_r1l s) 0 0) as P.
      replace (q_r0l s1) with (- k_a1 k * q_r0l s + q_r1l s + 0) by (unfold s1; cbn; ring).
      replace (q_r1l s1) with (- k_a2 k * q_r0l s + 0) by (unfold s1; cbn; ring).
      replace (sqrt rho * T * (sqrt rho * T)) with ((sqrt rho * sqrt rho) * (T * T)) by ring. rewrite Hq.
      assert (rho * V (q_r0l s) (q_r1l s) <= rho * (T * T)) by (apply Rmult_le_compat_l; lra). lra. }
    specialize (IH s1 (sqrt rho * T) Hs Hk (Rmult_le_pos _ _ (Rlt_le _ _ Hs0) HT) H1).
    destruct (mono_loop s1 (repeat 0 N)) as [s2 os]. cbn [snd] in *. destruct n as [|n].
    - cbn [nth pow]. rewrite Rmult_1_l. apply sq_le_abs; [exact HT|]. rewrite Rmult_0_l, Rplus_0_l.
      destruct (HV (q_r0l s) (q_r1l s)) as [P _]. pose proof (Rle_0_sqr (q_r1l s)). unfold Rsqr in *. lra.
    - cbn [nth]. eapply Rle_trans; [apply IH; lia|]. cbn [pow]. right; ring. }
  intros s Hs Hk N n Hn.
  set (St := Rabs (q_r0l s) + Rabs (q_r1l s)).
  assert (HS : 0 <= St) by (unfold St; pose proof (Rabs_pos (q_r0l s)); pose proof (Rabs_pos (q_r1l s)); lra).
  replace (M * sqrt rho ^ n * St) with (sqrt rho ^ n * (M * St)) by ring.
  apply G; try assumption; [apply Rmult_le_pos; lra|].
  destruct (HV (q_r0l s) (q_r1l s)) as [_ P].
  assert (q_r0l s * q_r0l s + q_r1l s * q_r1l s <= St * St).
  { pose proof (abs_sq_le (q_r0l s) _ (Rle_refl _)) as A1. pose proof (abs_sq_le (q_r1l s) _ (Rle_refl _)) as A2.
    assert (0 <= Rabs (q_r0l s) * Rabs (q_r1l s)) by (apply Rmult_le_pos; apply Rabs_pos). unfold St. nra. }
  assert (M * (q_r0l s * q_r0l s + q_r1l s * q_r1l s) <= M * (St * St)) by (apply Rmult_le_compat_l; lra).
  assert (M * (St * St) <= M * M * (St * St)) by (apply Rmult_le_compat_r; [exact (Rle_0_sqr St)|nra]).
  replace (M * St * (M * St)) with (M * M * (St * St)) by ring. lra.
Qed.

(* ---------------- free response as an iteration on the registers ---------------- *)
Definition freestep (k : coef5) (r : R * R) : R * R := (- k_a1 k * fst r + snd r, - k_a2 k * fst r).

Lemma iter_S_r : forall (A : Type) (f : A -> A) n x, Nat.iter (S n) f x = Nat.iter n f (f x).
Proof. intros A f n x. induction n as [|n IH]; [reflexivity|]. change (Nat.iter (S (S n)) f x) with (f (Nat.iter (S n) f x)). rewrite IH. reflexivity. Qed.

Lemma free_nth : forall k N s, settled s -> coefs s = k -> forall n, (n < N)%nat ->
  nth n (snd (mono_loop s (repeat 0 N))) 0 = fst (Nat.iter n (freestep k) (q_r0l s, q_r1l s)).
Proof.
  intros k. induction N as [|N IH]; intros s Hs Hk n Hn; [lia|].
  cbn [repeat mono_loop]. rewrite (step_settled s 0 Hs), Hk. set (s1 := set_left s _ _).
  specialize (IH s1 Hs Hk).
  assert (E : (q_r0l s1, q_r1l s1) = freestep k (q_r0l s, q_r1l s)).
  { unfold freestep, s1; cbn. f_equal; ring. }
  rewrite E in IH. destruct (mono_loop s1 (repeat 0 N)) as [s2 os]. cbn [snd] in *.
  destruct n as [|n]; cbn [nth].
  - cbn. ring.
  - rewrite (IH n ltac:(lia)). rewrite <- iter_S_r. reflexivity.
Qed.

Definition Qf (k : coef5) (r : R * R) : R :=
  let h := snd r - k_a1 k * fst r in fst r * (- k_a1 k * h - k_a2 k * fst r) - h * h.
Lemma Qf_step : forall k r, Qf k (freestep k r) = k_a2 k * Qf k r.
Proof. intros k [x y]. unfold Qf, freestep; cbn. ring. Qed.
Lemma Qf_iter : forall k n r, Qf k (Nat.iter n (freestep k) r) = k_a2 k ^ n * Qf k r.
Proof. intros k n r. induction n as [|n IH]; [cbn [Nat.iter pow]; rewrite Rmult_1_l; reflexivity|].
  change (Nat.iter (S n) (freestep k) r) with (freestep k (Nat.iter n (freestep k) r)). rewrite Qf_step, IH. cbn [pow]. ring. Qed.

Lemma free_unbounded : forall k r, 1 < Rabs (k_a2 k) -> Qf k r <> 0 ->
  forall B, exists n, B < Rabs (fst (Nat.iter n (freestep k) r)).
Proof.
  intros k r Ha HQ B.
  destruct (Rle_dec 0 B) as [HB|HB].
  2:{ exists 0%nat. pose proof (Rabs_pos (fst (Nat.iter 0 (freestep k) r))). lra. }
  assert (HQ' : 0 < Rabs (Qf k r)) by (apply Rabs_pos_lt; exact HQ).
  destruct (Pow_x_infinity (k_a2 k) Ha ((2 * (B * B) + 1) / Rabs (Qf k r))) as [n Hn].
  specialize (Hn n (Nat.le_refl n)).
  assert (Hbig : 2 * (B * B) + 1 <= Rabs (Qf k (Nat.iter n (freestep k) r))).
  { rewrite Qf_iter, Rabs_mult. apply Rge_le in Hn. apply (Rmult_le_compat_r (Rabs (Qf k r))) in Hn; [|lra].
    replace ((2 * (B * B) + 1) / Rabs (Qf k r) * Rabs (Qf k r)) with (2 * (B * B) + 1) in Hn by (field; lra). exact Hn. }
  set (v := Nat.iter n (freestep k) r) in *.
  destruct (Rlt_dec B (Rabs (fst v))) as [H0|H0]; [exists n; exact H0|].
  destruct (Rlt_dec B (Rabs (fst (freestep k v)))) as [H1|H1]; [exists (S n); exact H1|].
  destruct (Rlt_dec B (Rabs (fst (freestep k (freestep k v))))) as [H2|H2]; [exists (S (S n)); exact H2|].
  exfalso. apply Rnot_lt_le in H0, H1, H2.
  assert (E : Qf k v = fst v * fst (freestep k (freestep k v)) - fst (freestep k v) * fst (freestep k v)).
  { destruct v as [x y]; unfold Qf, freestep; cbn. ring. }
  rewrite E in Hbig.
  assert (Rabs (fst v * fst (freestep k (freestep k v)) - fst (freestep k v) * fst (freestep k v)) <= 2 * (B * B)).
  { unfold Rminus. eapply Rle_trans; [apply Rabs_triang|]. rewrite Rabs_Ropp, !Rabs_mult.
    assert (Rabs (fst v) * Rabs (fst (freestep k (freestep k v))) <= B * B) by (apply Rmult_le_compat; try apply Rabs_pos; assumption).
    assert (Rabs (fst (freestep k v)) * Rabs (fst (freestep k v)) <= B * B) by (apply Rmult_le_compat; try apply Rabs_pos; assumption).
    lra. }
  lra.
Qed.

(* ---------------- frequency response ---------------- *)
Definition quad (p q r c t : R) : R := ((p + r) * c + q) * ((p + r) * c + q) + ((p - r) * t) * ((p - r) * t).

Lemma poly_mod : forall p q r c t, c * c + t * t = 1 ->
  let z := (c, - t) : Complex.C in
  Complex.Cmod (Complex.Cplus (Complex.Cplus (Complex.RtoC p) (Complex.Cmult (Complex.RtoC q) z))
                   (Complex.Cmult (Complex.Cmult (Complex.RtoC r) z) z)) = sqrt (quad p q r c t).
Proof.
  intros p q r c t H z. unfold Complex.Cmod, z. f_equal. unfold Complex.RtoC, Complex.Cplus, Complex.Cmult, quad. cbn [fst snd].
  ring_simplify.
  replace (t ^ 4) with ((t * t) * (t * t)) by ring. replace (t ^ 2) with (t * t) by ring.
  replace (t * t) with (1 - c * c) by lra. ring.
Qed.

Lemma zfreq_ct : forall f, zfreq f = (cos (2 * PI * f), - sin (2 * PI * f)).
Proof.
  intros f. unfold zfreq. replace (-2 * PI * f) with (- (2 * PI * f)) by ring. rewrite cos_neg, sin_neg. reflexivity.
Qed.
Lemma ct_one : forall x, cos x * cos x + sin x * sin x = 1.
Proof. intros x. pose proof (sin2_cos2 x) as H. unfold Rsqr in H. lra. Qed.

Lemma plot_formula : forall s f, let k := coefs s in let c := cos (2 * PI * f) in let t := sin (2 * PI * f) in
  quad 1 (k_a1 k) (k_a2 k) c t <> 0 ->
  plot_magnitude s f = sqrt (quad (k_b0 k) (k_b1 k) (k_b2 k) c t) / sqrt (quad 1 (k_a1 k) (k_a2 k) c t).
Proof.
  intros s f k c t H. unfold plot_magnitude, transfer. fold k.
  assert (HC : c * c + t * t = 1) by apply ct_one.
  rewrite zfreq_ct. fold c t.
  assert (HD := poly_mod 1 (k_a1 k) (k_a2 k) c t HC). cbv zeta in HD.
  assert (HP : 0 < quad 1 (k_a1 k) (k_a2 k) c t).
  { assert (0 <= quad 1 (k_a1 k) (k_a2 k) c t).
    { unfold quad. pose proof (Rle_0_sqr ((1 + k_a2 k) * c + k_a1 k)). pose proof (Rle_0_sqr ((1 - k_a2 k) * t)). unfold Rsqr in *. lra. }
    lra. }
  rewrite Complex.Cmod_div.
  - rewrite poly_mod by exact HC. rewrite HD. reflexivity.
  - intros E. rewrite E, Complex.Cmod_0 in HD. symmetry in HD. apply sqrt_lt_R0 in HP. lra.
Qed.

(* the same on the six numbers a designer supplies: a0 cancels *)
Lemma plot_design : forall c6 f, let c := cos (2 * PI * f) in let t := sin (2 * PI * f) in
  0 < c_a0 c6 -> 0 < quad (c_a0 c6) (c_a1 c6) (c_a2 c6) c t ->
  plot_magnitude (set_coef c6 bq_new) f
  = sqrt (quad (c_b0 c6) (c_b1 c6) (c_b2 c6) c t / quad (c_a0 c6) (c_a1 c6) (c_a2 c6) c t).
Proof.
  intros c6 f c t H0 HD.
  assert (E : forall p q r, quad (p / c_a0 c6) (q / c_a0 c6) (r / c_a0 c6) c t = quad p q r c t / (c_a0 c6 * c_a0 c6)).
  { intros p q r. unfold quad. field. lra. }
  assert (HA : 0 < c_a0 c6 * c_a0 c6) by nra.
  pose proof (plot_formula (set_coef c6 bq_new) f) as P. cbv zeta in P. rewrite (coefs_new c6) in P. cbn [k_a1 k_a2 k_b0 k_b1 k_b2] in P.
  fold c t in P. replace (quad 1 (c_a1 c6 / c_a0 c6) (c_a2 c6 / c_a0 c6) c t)
    with (quad (c_a0 c6) (c_a1 c6) (c_a2 c6) c t / (c_a0 c6 * c_a0 c6)) in P.
  2:{ rewrite <- E. f_equal. field. lra. }
  rewrite E in P. rewrite P.
  - rewrite <- sqrt_div_alt; [f_equal; field; lra|]. apply Rdiv_lt_0_compat; assumption.
  - apply Rgt_not_eq, Rdiv_lt_0_compat; assumption.
Qed.

Lemma quad_den : forall al co c t, quad (1 + al) (-2 * co) (1 - al) c t = 4 * ((c - co) * (c - co) + (al * t) * (al * t)).
Proof. intros. unfold quad. ring. Qed.
Lemma quad_den_pos : forall om al c t, 0 < om < PI -> 0 < al -> c * c + t * t = 1 -> 0 < quad (1 + al) (-2 * cos om) (1 - al) c t.
Proof.
  intros om al c t Ho Ha H. rewrite quad_den.
  assert (S0 : 0 < sin om) by (apply sin_gt_0; lra). pose proof (ct_one om) as E.
  assert (P1 : 0 <= (c - cos om) * (c - cos om)) by exact (Rle_0_sqr _).
  assert (P2 : 0 <= (al * t) * (al * t)) by exact (Rle_0_sqr _).
  destruct (Req_dec (c - cos om) 0) as [Ec|Ec].
  - assert (c = cos om) by lra. assert (t * t = sin om * sin om) by nra.
    assert (0 < (al * t) * (al * t)). { replace ((al * t) * (al * t)) with (al * al * (t * t)) by ring. rewrite H1. repeat apply Rmult_lt_0_compat; assumption. }
    lra.
  - assert (0 < (c - cos om) * (c - cos om)) by (pose proof (Rsqr_pos_lt _ Ec); unfold Rsqr in *; assumption). lra.
Qed.

Lemma two_pi_f : forall om, 2 * PI * (om / (2 * PI)) = om.
Proof. intros. field. apply PI_neq0. Qed.
