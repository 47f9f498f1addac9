(* LagProps.v - C39 (smoothed values converge) and C40 (block-linear ramps). *)
From Coq Require Import Reals Lra.
From Verif Require Import Base LagModel.
Local Open Scope R_scope.

Fixpoint times {A} (n : nat) (f : A -> A) (s : A) : A := match n with O => s | S k => f (times k f s) end.

(** ** specification vocabulary *)
(* a sequence approaches t from its start without ever going past it or moving away from it, and gets arbitrarily near *)
Definition between (a b x : R) : Prop := (a <= x <= b) \/ (b <= x <= a).
Definition approaches (u : nat -> R) (t : R) : Prop :=
  (forall n, between (u n) t (u (S n))) /\ (forall eps, eps > 0 -> exists N, forall n, (n >= N)%nat -> Rabs (u n - t) < eps).

(* operations of a user on a lag *)
Inductive lag_op := SetRate (lp : R) | NewValue (x : R) | StartValue (x : R) | Instantize | Process.
Definition do_lag (s : lag) (o : lag_op) : lag :=
  match o with SetRate lp => lag_set_rate s lp | NewValue x => lag_new_value s x | StartValue x => lag_start_value s x
  | Instantize => lag_instantize s | Process => lag_process s end.
(* rates asked for are in (0,1] *)
Definition lag_op_ok (o : lag_op) : Prop := match o with SetRate lp => 0 < lp <= 1 | _ => True end.

(** ** lemmas *)
Lemma lag_times n s : let e := times n lag_process s in
  l_target e = l_target s /\ l_first e = l_first s /\ l_lp e = l_lp s /\ l_lpinv e = l_lpinv s.
Proof. induction n as [|n IH]; cbn; [auto|]. cbn in IH. tauto. Qed.
Lemma lag_closed n s : l_lpinv s = 1 - l_lp s ->
  l_v (times n lag_process s) = l_target s + (l_v s - l_target s) * (1 - l_lp s) ^ n.
Proof.
  intros H. induction n as [|n IH]; cbn [times]; [cbn; ring|].
  destruct (lag_times n s) as (A & _ & B & C). unfold lag_process at 1. cbn [l_v]. rewrite IH, A, B, C, H. cbn [pow]. ring.
Qed.
(* the general closed form: fixed point lp*t/(1-lpinv) *)
Lemma lag_closed_gen n s : l_lpinv s <> 1 -> let F := l_lp s * l_target s / (1 - l_lpinv s) in
  l_v (times n lag_process s) = F + (l_v s - F) * l_lpinv s ^ n.
Proof.
  intros H F. induction n as [|n IH]; cbn [times]; [cbn; ring|].
  destruct (lag_times n s) as (A & _ & B & C). unfold lag_process at 1. cbn [l_v]. rewrite IH, A, B, C. unfold F. cbn [pow]. field. lra.
Qed.
Lemma between_step t d k : 0 <= k <= 1 -> between (t + d) t (t + d * k).
Proof. intros H. unfold between. destruct (Rle_dec 0 d); [right|left]; nra. Qed.
Lemma pow_small k eps : 0 <= k < 1 -> eps > 0 -> exists N, forall n, (n >= N)%nat -> 0 <= k ^ n < eps.
Proof.
  intros H E. destruct (pow_lt_1_zero k) with (y := eps) as [N HN]; [rewrite Rabs_right; lra|lra|].
  exists N. intros n Hn. specialize (HN n Hn). assert (0 <= k ^ n) by (apply pow_le; lra). rewrite Rabs_right in HN by lra. lra.
Qed.
Lemma geometric_approaches t d k : 0 <= k < 1 -> approaches (fun n => t + d * k ^ n) t.
Proof.
  intros H. split.
  - intros n. cbn [pow]. replace (d * (k * k ^ n)) with ((d * k ^ n) * k) by ring. apply between_step. lra.
  - intros eps E. destruct (pow_small k (eps / (Rabs d + 1)) H) as [N HN].
    { apply Rdiv_lt_0_compat; [lra|]. pose proof (Rabs_pos d). lra. }
    exists N. intros n Hn. specialize (HN n Hn). replace (t + d * k ^ n - t) with (d * k ^ n) by ring.
    rewrite Rabs_mult, (Rabs_right (k ^ n)) by lra. pose proof (Rabs_pos d) as P. destruct HN as [H0 H1].
    assert (Rabs d * k ^ n <= (Rabs d + 1) * k ^ n) by nra.
    assert ((Rabs d + 1) * k ^ n < (Rabs d + 1) * (eps / (Rabs d + 1))) by (apply Rmult_lt_compat_l; lra).
    replace ((Rabs d + 1) * (eps / (Rabs d + 1))) with eps in H3 by (field; lra). lra.
Qed.
Lemma approaches_ext u w t : (forall n, u n = w n) -> approaches w t -> approaches u t.
Proof.
  intros E [A B]. split; [intros n; rewrite !E; apply A|]. intros eps H. destruct (B eps H) as [N HN].
  exists N. intros n Hn. rewrite E. auto.
Qed.
Definition rate_ok (s : lag) : Prop := 0 < l_lp s <= 1 /\ l_lpinv s = 1 - l_lp s.
Lemma do_lag_rate o s : lag_op_ok o -> rate_ok s -> rate_ok (do_lag s o).
Proof.
  intros H [A B]. destruct o; cbn in *; unfold rate_ok; cbn; try (split; [lra|reflexivity]); auto; try (unfold lag_new_value; destruct (l_first s); cbn; auto).
Qed.
Lemma run_lag_rate ops : forall s, Forall lag_op_ok ops -> rate_ok s -> rate_ok (fold_left do_lag ops s).
Proof. induction ops as [|o r IH]; intros s H R; cbn; [exact R|]. inversion H; subst. apply IH; [assumption|]. now apply do_lag_rate. Qed.

(** ** C39 *)
(* Every default-constructed lag, after any history of operations: set a target, process repeatedly - the value approaches it. *)
Theorem C39_lag_converges_partial : forall ops x, Forall lag_op_ok ops ->
  let s := lag_new_value (fold_left do_lag ops lag_default) x in
  l_target s = x /\ approaches (fun n => l_v (times n lag_process s)) x.
Proof.
  intros ops x H s.
  assert (R : rate_ok s).
  { apply (do_lag_rate (NewValue x)); [exact I|]. apply run_lag_rate; [exact H|]. unfold rate_ok; cbn; lra. }
  assert (T : l_target s = x) by (unfold s, lag_new_value; now destruct (l_first _)).
  split; [exact T|]. destruct R as [R1 R2].
  eapply approaches_ext; [intros n; rewrite (lag_closed n s R2), T; reflexivity|]. apply geometric_approaches. lra.
Qed.
Print Assumptions C39_lag_converges_partial.
(* exact value after n steps: what remains of the distance is (1-lp)^n of it *)
Theorem C39_lag_closed_form : forall ops x n, Forall lag_op_ok ops ->
  let s := lag_new_value (fold_left do_lag ops lag_default) x in
  l_v (times n lag_process s) = x + (l_v s - x) * (1 - l_lp s) ^ n.
Proof.
  intros ops x n H s. assert (T : l_target s = x) by (unfold s, lag_new_value; now destruct (l_first _)).
  rewrite lag_closed, T; [reflexivity|]. apply (do_lag_rate (NewValue x)); [exact I|]. apply run_lag_rate; [exact H|]. unfold rate_ok; cbn; lra.
Qed.
Print Assumptions C39_lag_closed_form.
Example C39_instance : Forall lag_op_ok [SetRate (1/2); StartValue 1; NewValue 3; Process]
  /\ l_v (fold_left do_lag [SetRate (1/2); StartValue 1; NewValue 3; Process] lag_default) = 2.
Proof. split; [repeat constructor; cbn; lra|cbn; lra]. Qed.

(* snapping: start_value and instantize leave the value on the target, and the first value ever set is taken over at once *)
Theorem C39_lag_snaps : forall s x,
  l_v (lag_start_value s x) = x /\ l_target (lag_start_value s x) = x /\ l_v (lag_instantize s) = l_target s
  /\ (l_first s = true -> l_v (lag_new_value s x) = x) /\ (l_first s = false -> l_v (lag_new_value s x) = l_v s).
Proof. intros s x. repeat split; unfold lag_new_value; intros H; rewrite H; reflexivity. Qed.
Print Assumptions C39_lag_snaps.

(* VLag, whatever was done before *)
Theorem C39_vlag_converges : forall s x, let s' := vlag_new_value s x in
  vl_v s' = vl_v s /\ approaches (fun n => vl_v (times n vlag_process s')) x.
Proof.
  intros s x s'. split; [reflexivity|].
  assert (T : forall n, vl_target (times n vlag_process s') = x) by (induction n; cbn; auto).
  eapply approaches_ext; [|apply (geometric_approaches x (vl_v s - x) VLAG_LPINV); unfold VLAG_LPINV, VLAG_LP; lra].
  induction n as [|n IH]; [cbn; ring|]. cbn [times]. unfold vlag_process at 1. cbn [vl_v]. rewrite IH, T. unfold VLAG_LPINV. cbn [pow]. ring.
Qed.
Print Assumptions C39_vlag_converges.

(* Lag::new(lp) keeps the default complement 0.996: unless lp = 0.004 or the target is 0, the value converges to
   lp/0.004 times the target, and not to the target - even when it starts on the target. *)
Theorem C39_lag_new_misses_target_refuted : forall lp x, lp <> 4 / 1000 -> x <> 0 ->
  let s := lag_new_value (lag_new lp) x in
  l_v s = x /\ l_target s = x
  /\ approaches (fun n => l_v (times n lag_process s)) (250 * lp * x)
  /\ ~ approaches (fun n => l_v (times n lag_process s)) x.
Proof.
  intros lp x H Hx s. split; [reflexivity|]. split; [reflexivity|].
  assert (E : forall n, l_v (times n lag_process s) = 250 * lp * x + (x - 250 * lp * x) * (996/1000) ^ n).
  { intros n. rewrite lag_closed_gen by (cbn; lra). cbn [l_lp l_target l_lpinv l_v s lag_new_value lag_new l_first lag_default].
    replace (1 - 4 / 1000) with (996/1000) by lra. replace (lp * x / (1 - 996/1000)) with (250 * lp * x) by field. reflexivity. }
  assert (A : approaches (fun n => l_v (times n lag_process s)) (250 * lp * x)).
  { eapply approaches_ext; [exact E|]. apply geometric_approaches. lra. }
  split; [exact A|]. intros B. destruct A as [_ A], B as [_ B].
  assert (D : Rabs (250 * lp * x - x) > 0).
  { apply Rabs_pos_lt. intros Z. apply H. apply (Rmult_eq_reg_r x); [|exact Hx]. lra. }
  destruct (A (Rabs (250 * lp * x - x) / 2)) as [N1 H1]; [lra|]. destruct (B (Rabs (250 * lp * x - x) / 2)) as [N2 H2]; [lra|].
  specialize (H1 (Nat.max N1 N2) ltac:(lia)). specialize (H2 (Nat.max N1 N2) ltac:(lia)).
  set (u := l_v _) in *. pose proof (Rabs_triang (250 * lp * x - u) (u - x)) as T.
  replace (250 * lp * x - u + (u - x)) with (250 * lp * x - x) in T by ring.
  rewrite (Rabs_minus_sym (250 * lp * x) u) in T. lra.
Qed.
Print Assumptions C39_lag_new_misses_target_refuted.
Example C39_new_instance : (1/2 : R) <> 4 / 1000 /\ l_v (lag_process (lag_new_value (lag_new (1/2)) 1)) = 1496/1000.
Proof. split; [lra|cbn; lra]. Qed.

(** ** C40 *)
Lemma lipol_times k s : let e := times k lipol_process s in
  p_v e = p_v s + INR k * p_dv s /\ p_new e = p_new s /\ p_dv e = p_dv s /\ p_bsinv e = p_bsinv s /\ p_first e = p_first s.
Proof.
  induction k as [|k IH]; [cbn; repeat split; lra|]. cbn zeta in IH. destruct IH as (A & B & C & D & E). cbn zeta. cbn [times].
  assert (P : forall t, p_v (lipol_process t) = p_v t + p_dv t /\ p_new (lipol_process t) = p_new t /\ p_dv (lipol_process t) = p_dv t
    /\ p_bsinv (lipol_process t) = p_bsinv t /\ p_first (lipol_process t) = p_first t) by (intros t; repeat split).
  destruct (P (times k lipol_process s)) as (P1 & P2 & P3 & P4 & P5).
  rewrite P1, P2, P3, P4, P5, A, B, C, D, E, S_INR. repeat split. ring.
Qed.
Inductive lipol_op := LSetBlock (n : nat) | LNewValue (x : R) | LInstantize | LProcess | LReset (n : nat).
Definition do_lipol (s : lipol) (o : lipol_op) : lipol :=
  match o with LSetBlock n => lipol_set_blocksize s n | LNewValue x => lipol_new_value s x | LInstantize => lipol_instantize s
  | LProcess => lipol_process s | LReset n => lipol_reset s n end.

(* From any state reached by any history: after set_blocksize n, new_value x, the k-th of the n samples is the linear
   interpolation between the previous target (x itself at the first use) and x; sample n is x, none overshoots. *)
Theorem C40_ramp_is_linear : forall n0 ops n x k, (n > 0)%nat -> (k <= n)%nat ->
  let s0 := lipol_set_blocksize (fold_left do_lipol ops (lipol_new n0)) n in
  let a := if p_first s0 then x else p_new s0 in
  let v := fun j => p_v (times j lipol_process (lipol_new_value s0 x)) in
  v 0%nat = a /\ v k = a + INR k / INR n * (x - a) /\ v n = x /\ between a x (v k).
Proof.
  intros n0 ops n x k Hn Hk s0 a v.
  assert (E : forall j, v j = a + INR j / INR n * (x - a)).
  { intros j. unfold v. destruct (lipol_times j (lipol_new_value s0 x)) as (V & _). cbn zeta in V. rewrite V.
    unfold lipol_new_value. cbn [p_v p_dv]. fold a. unfold s0 at 1, lipol_set_blocksize. cbn [p_bsinv]. field. apply not_0_INR. lia. }
  assert (P : 0 < INR n) by (apply lt_0_INR; lia).
  split; [rewrite E; cbn; field; lra|]. split; [apply E|]. split; [rewrite E; field; lra|].
  rewrite E. assert (0 <= INR k / INR n <= 1).
  { split; [apply Rmult_le_pos; [apply pos_INR|left; now apply Rinv_0_lt_compat]|].
    apply (Rmult_le_reg_r (INR n)); [exact P|]. unfold Rdiv. rewrite Rmult_assoc, Rinv_l, Rmult_1_r, Rmult_1_l by lra. now apply le_INR. }
  unfold between. destruct (Rle_dec 0 (x - a)); [left|right]; nra.
Qed.
Print Assumptions C40_ramp_is_linear.
(* Consecutive blocks of n samples join without a jump: each block starts on the value the last one ended on. *)
Theorem C40_blocks_join : forall s n x y, (n > 0)%nat -> p_bsinv s = 1 / INR n ->
  let e := times n lipol_process (lipol_new_value s x) in
  p_v e = x /\ p_v (lipol_new_value e y) = p_v e /\ p_bsinv e = 1 / INR n.
Proof.
  intros s n x y Hn B e. destruct (lipol_times n (lipol_new_value s x)) as (V & N & _ & Bs & F). fold e in V, N, Bs, F.
  assert (P : INR n <> 0) by (apply not_0_INR; lia).
  assert (V' : p_v e = x). { rewrite V. unfold lipol_new_value. cbn [p_v p_dv]. rewrite B. field. exact P. }
  split; [exact V'|]. split; [|rewrite Bs; exact B].
  unfold lipol_new_value at 1. rewrite F. cbn [p_v p_first lipol_new_value]. rewrite N, V'. reflexivity.
Qed.
Print Assumptions C40_blocks_join.
(* instantize ends a ramp at once: the value is the target and stays there *)
Theorem C40_instantize : forall s k, p_v (times k lipol_process (lipol_instantize s)) = p_new s.
Proof. intros s k. destruct (lipol_times k (lipol_instantize s)) as (V & _). cbn zeta in V. rewrite V. cbn. ring. Qed.
Print Assumptions C40_instantize.
Example C40_instance : let s := fold_left do_lipol [LNewValue 1] (lipol_new 4) in
  p_first s = false /\ map (fun j => p_v (times j lipol_process (lipol_new_value s 3))) [0;1;2;3;4]%nat = [1; 3/2; 2; 5/2; 3].
Proof. split; [reflexivity|]. cbn. repeat (f_equal; try lra). Qed.
