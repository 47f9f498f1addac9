(** C153-C156: the reverb network as a feedback delay network; decay; overflow in the pre-delay; room size zero. *)
From Coq Require Import Reals Lra.
From Verif Require Import Base Util BlockModel MathModel AdsrModel LfoModel FastProps ReverbModel ReverbProofs.
Local Open Scope R_scope.

(** * Specification vocabulary *)
(** An unbounded run of the network from [s0] on the input [x]: [st n] is the state after n samples, [y n] the n-th output. *)
Definition runs (chk : bool) (damp : R) (pd : Z) (s0 : reverb) (x : nat -> R * R) (st : nat -> reverb) (y : nat -> R * R) : Prop :=
  st 0%nat = s0 /\ forall n, rv_sample chk damp pd (st n) (x n) = Ok (st (S n), y n).
(** the value of the sequence f, k steps before n (0 before the start) *)
Definition past (f : nat -> R) (n k : nat) : R := if (k <=? n)%nat then f (n - k)%nat else 0.
(** y is the output of the sixteen-line feedback delay network with line delays D t + 1, loop gains g t, one-pole damping d,
    pre-delay P, pans pl/pr, tap outputs o0 at the start, o n t being the tap outputs and a n t what enters line t *)
Record fdn (D : Z -> nat) (g : Z -> R) (d : R) (P : nat) (pl pr o0 : Z -> R) (x : nat -> R * R) (o a : nat -> Z -> R) (y : nat -> R * R) : Prop := {
  fdn_tap : forall n t, tap_ok t -> o n t = d * match n with O => o0 t | S m => o m t end + (1 - d) * past (fun m => a m t) n (S (D t));
  fdn_line : forall n t, tap_ok t -> a n t = g t * (past (fun m => (fst (x m) + snd (x m)) / 2) n P - / 8 * sumR (o n) taps + o n t);
  fdn_out : forall n, y n = (sumR (fun t => pl t * o n t) taps, sumR (fun t => pr t * o n t) taps) }.
(** freshly cleared buffers (what init and every preset load leave) *)
Definition cleared (s : reverb) : Prop := (0 <= rv_pos s < 32768)%Z /\ (forall i, rv_delay s i = 0) /\ (forall i, rv_pre s i = 0).
(** delay time of tap t in whole samples *)
Definition whole_delay (s : reverb) (t : Z) : Z := (rv_time s t / 256)%Z.

(** * Helpers *)
Lemma sumR_ext {A} (f g : A -> R) l : (forall x, In x l -> f x = g x) -> sumR f l = sumR g l.
Proof. induction l; intros H; cbn; [reflexivity|]. rewrite H by (left; reflexivity). rewrite IHl; [reflexivity|]. intros; apply H; right; assumption. Qed.
Lemma sumR_le {A} (f g : A -> R) l : (forall x, In x l -> f x <= g x) -> sumR f l <= sumR g l.
Proof. induction l; intros H; cbn; [lra|]. apply Rplus_le_compat; [apply H; left; reflexivity|apply IHl; intros; apply H; right; assumption]. Qed.
Lemma sumR_scal {A} c (f : A -> R) l : sumR (fun x => c * f x) l = c * sumR f l.
Proof. induction l; cbn; [ring|]. rewrite IHl; ring. Qed.
Lemma sumR_plus {A} (f g : A -> R) l : sumR (fun x => f x + g x) l = sumR f l + sumR g l.
Proof. induction l; cbn; [ring|]. rewrite IHl; ring. Qed.
Lemma sumR_pos {A} (f : A -> R) l : (forall x, In x l -> 0 <= f x) -> 0 <= sumR f l.
Proof. induction l; intros H; cbn; [lra|]. assert (0 <= f a) by (apply H; left; reflexivity). assert (0 <= sumR f l) by (apply IHl; intros; apply H; right; assumption). lra. Qed.
Lemma sumR_member {A} (f : A -> R) l x : (forall x, In x l -> 0 <= f x) -> In x l -> f x <= sumR f l.
Proof.
  induction l; intros H [].
  - subst. cbn. assert (0 <= sumR f l) by (apply sumR_pos; intros; apply H; right; assumption). lra.
  - cbn. assert (0 <= f a) by (apply H; left; reflexivity). assert (f x <= sumR f l) by (apply IHl; [intros; apply H; right|]; assumption). lra.
Qed.
Lemma sumR_abs {A} (f : A -> R) l : Rabs (sumR f l) <= sumR (fun x => Rabs (f x)) l.
Proof. induction l; cbn; [rewrite Rabs_R0; lra|]. eapply Rle_trans; [apply Rabs_triang|]. lra. Qed.

Lemma runs_step chk damp pd s0 x st y n : runs chk damp pd s0 x st y -> exists s' y', rv_sample false damp pd (st n) (x n) = Ok (s', y') /\ step_spec damp pd (st n) (x n) s' y'.
Proof. intros _. apply rv_sample_unchecked. Qed.
Lemma runs_spec damp pd s0 x st y : runs false damp pd s0 x st y -> forall n, step_spec damp pd (st n) (x n) (st (S n)) (y n).
Proof.
  intros [_ H] n. destruct (rv_sample_unchecked damp pd (st n) (x n)) as [s' [y' [E S1]]].
  rewrite H in E. injection E as <- <-. exact S1.
Qed.
Lemma runs_cfg damp pd s0 x st y : runs false damp pd s0 x st y -> forall n, same_cfg s0 (st n).
Proof.
  intros H n. induction n; [destruct H as [-> _]; repeat split|].
  destruct (ss_cfg _ _ _ _ _ _ (runs_spec _ _ _ _ _ _ H n)) as [A [B [C E]]]. destruct IHn as [A' [B' [C' E']]].
  repeat split; congruence.
Qed.
Lemma mod_shift a b : ((a mod 32768 + b) mod 32768 = (a + b) mod 32768)%Z.
Proof. apply Zplus_mod_idemp_l. Qed.
Lemma runs_pos damp pd s0 x st y : (0 <= rv_pos s0 < 32768)%Z -> runs false damp pd s0 x st y -> forall n, rv_pos (st n) = ((rv_pos s0 + Z.of_nat n) mod 32768)%Z.
Proof.
  intros Hp H n. induction n.
  - destruct H as [-> _]. rewrite Z.add_0_r, Z.mod_small by lia. reflexivity.
  - rewrite (ss_pos _ _ _ _ _ _ (runs_spec _ _ _ _ _ _ H n)), IHn, mod_shift. f_equal. lia.
Qed.
Lemma mod_near a b : (a mod 32768 = b mod 32768 -> -32768 < a - b < 32768 -> a = b)%Z.
Proof.
  intros H L. assert (E : ((a - b) mod 32768 = 0)%Z) by (rewrite Zminus_mod, H, Z.sub_diag; reflexivity).
  apply Z.mod_divide in E; [|lia]. destruct E as [k E]. assert (k = 0)%Z by lia. subst. lia.
Qed.

(** what the ring buffers hold after n samples: the last 32768 values, zero before *)
Lemma ring_hist damp pd s0 x st y : cleared s0 -> runs false damp pd s0 x st y ->
  forall n k, (Z.of_nat k < 32768)%Z ->
   (forall t, tap_ok t -> rv_delay (st n) (cell (rv_pos s0 + Z.of_nat n - Z.of_nat k) t)
      = past (fun m => rv_delay (st (S m)) (cell (rv_pos s0 + Z.of_nat (S m)) t)) n (S k)) /\
   rv_pre (st n) ((rv_pos s0 + Z.of_nat n - Z.of_nat k) mod 32768)%Z = past (fun m => (fst (x m) + snd (x m)) / 2) n (S k).
Proof.
  intros [Hp [HD HP]] H n. induction n; intros k Hk.
  - destruct H as [-> _]. unfold past. cbn. split; [intros; apply HD|apply HP].
  - pose proof (runs_spec _ _ _ _ _ _ H n) as S1. pose proof (runs_pos _ _ _ _ _ _ Hp H (S n)) as Q.
    destruct k.
    + unfold past. cbn [Nat.leb]. replace (S n - 1)%nat with n by lia. rewrite Z.sub_0_r. split; [reflexivity|].
      rewrite (ss_pre _ _ _ _ _ _ S1), <- (ss_pos _ _ _ _ _ _ S1), Q. rewrite Z.eqb_refl. lra.
    + destruct (IHn k ltac:(lia)) as [I1 I2]. clear IHn.
      replace (rv_pos s0 + Z.of_nat (S n) - Z.of_nat (S k))%Z with (rv_pos s0 + Z.of_nat n - Z.of_nat k)%Z by lia.
      assert (NE : ((rv_pos s0 + Z.of_nat n - Z.of_nat k) mod 32768 <> rv_pos (st (S n)))%Z).
      { rewrite Q. intros E. apply mod_near in E; lia. }
      assert (PE : forall f, past f (S n) (S (S k)) = past f n (S k)) by (intros f; unfold past; cbn [Nat.leb Nat.sub]; reflexivity).
      split.
      * intros t Ht. rewrite (ss_keep _ _ _ _ _ _ S1) by assumption. rewrite PE. apply I1, Ht.
      * rewrite (ss_pre _ _ _ _ _ _ S1), <- (ss_pos _ _ _ _ _ _ S1). destruct (Z.eqb_spec ((rv_pos s0 + Z.of_nat n - Z.of_nat k) mod 32768) (rv_pos (st (S n)))); [contradiction|].
        rewrite PE. exact I2.
Qed.

Lemma dsamp_whole s t : (0 <= rv_time s t < 2 ^ 31)%Z -> dsamp s t = whole_delay s t.
Proof.
  intros H. unfold dsamp, whole_delay. rewrite Z.shiftr_div_pow2 by lia. f_equal.
  unfold as_i32, as_signed. change (32 - 1)%Z with 31%Z.
  rewrite Z.mod_small by (change (2 ^ 32)%Z with (2 * 2 ^ 31)%Z; lia).
  destruct (Z.ltb_spec (rv_time s t) (2 ^ 31)); lia.
Qed.
Lemma past_sub f n k j : (j <= n)%nat -> past f (n - j) k = past f n (j + k).
Proof. intros H. unfold past. destruct (Nat.leb_spec k (n - j)), (Nat.leb_spec (j + k) n); try lia; [f_equal; lia|reflexivity]. Qed.

(** * C153: the code is that feedback delay network *)
Theorem C153_reverb_is_feedback_delay_network : forall damp P s0 x st y, cleared s0 -> (Z.of_nat P < 32768)%Z ->
  (forall t, tap_ok t -> (0 <= rv_time s0 t)%Z /\ (whole_delay s0 t < 32768)%Z) ->
  runs false damp (Z.of_nat P) s0 x st y ->
  fdn (fun t => Z.to_nat (whole_delay s0 t)) (rv_fb s0) damp P (rv_pl s0) (rv_pr s0) (rv_out s0) x
      (fun n => rv_out (st (S n))) (fun n t => rv_delay (st (S n)) (cell (rv_pos s0 + Z.of_nat (S n)) t)) y.
Proof.
  intros damp P s0 x st y HC HP HT H. pose proof HC as [Hp _].
  pose proof (runs_spec _ _ _ _ _ _ H) as SP. pose proof (runs_cfg _ _ _ _ _ _ H) as CF. pose proof (runs_pos _ _ _ _ _ _ Hp H) as PO.
  split.
  - intros n t Ht. rewrite (ss_out _ _ _ _ _ _ (SP n)) by exact Ht. destruct (HT t Ht) as [T1 T2]. destruct (CF n) as [_ [CT _]].
    assert (W : (0 <= whole_delay s0 t)%Z) by (apply Z.div_pos; lia).
    assert (T3 : (rv_time s0 t < 2 ^ 31)%Z) by (unfold whole_delay in T2; pose proof (Z.mul_succ_div_gt (rv_time s0 t) 256 ltac:(lia)); lia).
    unfold rd. replace (dsamp (st n) t) with (whole_delay s0 t) by (rewrite dsamp_whole by (rewrite CT; lia); unfold whole_delay; rewrite CT; reflexivity).
    rewrite PO. replace (cell ((rv_pos s0 + Z.of_nat n) mod 32768 - whole_delay s0 t) t) with (cell (rv_pos s0 + Z.of_nat n - Z.of_nat (Z.to_nat (whole_delay s0 t))) t)
      by (unfold cell; rewrite Zminus_mod_idemp_l, Z2Nat.id by lia; reflexivity).
    destruct (ring_hist _ _ _ _ _ _ HC H n (Z.to_nat (whole_delay s0 t)) ltac:(lia)) as [R1 _]. rewrite R1 by exact Ht.
    replace (rv_out (st n) t) with (match n with O => rv_out s0 t | S m => rv_out (st (S m)) t end) by (destruct n; [destruct H as [-> _]|]; reflexivity).
    ring.
  - intros n t Ht. pose proof (ss_wr _ _ _ _ _ _ (SP n) t Ht) as W. destruct (CF n) as [CG _].
    replace (cell (rv_pos (st (S n))) t) with (cell (rv_pos s0 + Z.of_nat (S n)) t) in W by (rewrite PO; unfold cell; rewrite Z.mod_mod by lia; reflexivity).
    rewrite W, CG. f_equal. f_equal. f_equal. clear W.
    rewrite PO, Zminus_mod_idemp_l.
    destruct (ring_hist _ _ _ _ _ _ HC H (S n) P HP) as [_ ->]. reflexivity.
  - intros n. rewrite (surjective_pairing (y n)), (ss_l _ _ _ _ _ _ (SP n)), (ss_r _ _ _ _ _ _ (SP n)).
    destruct (CF n) as [_ [_ [-> ->]]]. f_equal; apply sumR_ext; intros; ring.
Qed.
Print Assumptions C153_reverb_is_feedback_delay_network.

(** with wrapping arithmetic no sample ever panics: every input has a run *)
Fixpoint run_states (damp : R) (pd : Z) (s0 : reverb) (x : nat -> R * R) (n : nat) : reverb :=
  match n with O => s0 | S m => match rv_sample false damp pd (run_states damp pd s0 x m) (x m) with Ok (s, _) => s | _ => s0 end end.
Theorem C153_reverb_runs_without_panic : forall damp pd s0 x, exists st y, runs false damp pd s0 x st y.
Proof.
  intros. exists (run_states damp pd s0 x).
  exists (fun n => match rv_sample false damp pd (run_states damp pd s0 x n) (x n) with Ok (_, y) => y | _ => (0, 0) end).
  split; [reflexivity|]. intros n. cbn [run_states].
  destruct (rv_sample_unchecked damp pd (run_states damp pd s0 x n) (x n)) as [s' [y' [-> _]]]. reflexivity.
Qed.
Print Assumptions C153_reverb_runs_without_panic.

(** * C154: silence decays *)
Definition silent_from (N : nat) (x : nat -> R * R) : Prop := forall n, (N <= n)%nat -> x n = (0, 0).

(** the feedback matrix I - (1/8) 11' preserves energy *)
Lemma householder (f : Z -> R) : sumR (fun t => (- / 8 * sumR f taps + f t)²) taps = sumR (fun t => (f t)²) taps.
Proof. unfold Rsqr. unfold taps. cbn [map seq sumR]. field. Qed.
Lemma past_silent P x N n : silent_from N x -> (N + P <= n)%nat -> past (fun m => (fst (x m) + snd (x m)) / 2) n P = 0.
Proof. intros H L. unfold past. destruct (Nat.leb_spec P n); [|reflexivity]. rewrite H by lia. cbn. lra. Qed.

Section Decay.
Variables (D : Z -> nat) (g : Z -> R) (d : R) (P : nat) (pl pr o0 : Z -> R) (x : nat -> R * R) (o a : nat -> Z -> R) (y : nat -> R * R).
Hypothesis F : fdn D g d P pl pr o0 x o a y.
Variables (lam : R) (u : Z -> R).
Hypothesis Hd : 0 <= d.
Hypothesis Hdl : d < lam.
Hypothesis Hl1 : lam <= 1.
Hypothesis Hd1 : d < 1.
Hypothesis Hu : forall t, tap_ok t -> 0 < u t /\ (g t)² <= u t /\ u t * (1 - d) <= lam ^ (D t) * (lam - d).

Definition oprev (n : nat) (t : Z) : R := match n with O => o0 t | S m => o m t end.
Definition bk (n : nat) (t : Z) (j : nat) : R := past (fun m => a m t) n (S j).
Definition lineE (n : nat) (t : Z) : R := sumR (fun j => lam ^ j * (bk n t j)²) (seq 0 (S (D t))).
Definition kap : R := d * (1 - d) / (lam - d).
Definition VV (n : nat) : R := sumR (fun t => (1 - d) / u t * lineE n t + kap * (oprev n t)²) taps.

Lemma kap_pos : 0 <= kap.
Proof. unfold kap. apply Rmult_le_pos; [apply Rmult_le_pos; lra|]. left. apply Rinv_0_lt_compat. lra. Qed.
Lemma kap_eq : 1 - d + kap = (1 - d) * lam / (lam - d).
Proof. unfold kap. field. lra. Qed.

Lemma seq_shift_sum (f : nat -> R) n : sumR f (seq 0 (S n)) = f 0%nat + sumR (fun j => f (S j)) (seq 0 n).
Proof. cbn [seq sumR]. f_equal. rewrite <- seq_shift. generalize (seq 0 n). intros l. induction l; cbn; [reflexivity|]. rewrite IHl. reflexivity. Qed.
Lemma seq_last_sum (f : nat -> R) n : sumR f (seq 0 (S n)) = sumR f (seq 0 n) + f n.
Proof. rewrite seq_S. cbn [Nat.add]. generalize (seq 0 n). intros l. induction l; cbn; [ring|]. rewrite IHl. ring. Qed.

Lemma lineE_step n t : lineE (S n) t = (a n t)² + lam * (lineE n t - lam ^ (D t) * (bk n t (D t))²).
Proof.
  unfold lineE at 1. rewrite seq_shift_sum. f_equal.
  - rewrite pow_O, Rmult_1_l. unfold bk, past. cbn [Nat.leb]. replace (S n - 1)%nat with n by lia. reflexivity.
  - unfold lineE. rewrite seq_last_sum. rewrite <- tech_pow_Rmult || idtac.
    replace (lam * (sumR (fun j => lam ^ j * (bk n t j)²) (seq 0 (D t)) + lam ^ D t * (bk n t (D t))² - lam ^ D t * (bk n t (D t))²))
      with (lam * sumR (fun j => lam ^ j * (bk n t j)²) (seq 0 (D t))) by ring.
    rewrite <- sumR_scal. apply sumR_ext. intros j _. cbn [pow]. unfold bk, past. cbn [Nat.leb Nat.sub]. ring.
Qed.
Lemma lineE_last n t : lam ^ (D t) * (bk n t (D t))² <= lineE n t.
Proof.
  assert (0 < lam) by lra. unfold lineE. apply (sumR_member (fun j => lam ^ j * (bk n t j)²)).
  - intros. apply Rmult_le_pos; [apply pow_le; lra|apply Rle_0_sqr].
  - apply in_seq. lia.
Qed.

Lemma tap_bound n t : tap_ok t -> (1 - d + kap) * (o n t)² <= (1 - d) / u t * (lam * (lam ^ (D t) * (bk n t (D t))²)) + lam * (kap * (oprev n t)²).
Proof.
  intros Ht. destruct (Hu t Ht) as [U1 [U2 U3]]. rewrite (fdn_tap _ _ _ _ _ _ _ _ _ _ _ F n t Ht).
  fold (oprev n t). fold (bk n t (D t)). set (p := oprev n t). set (b := bk n t (D t)).
  assert (C : (d * p + (1 - d) * b)² <= d * p² + (1 - d) * b²).
  { replace (d * p² + (1 - d) * b²) with ((d * p + (1 - d) * b)² + d * (1 - d) * (p - b)²) by (unfold Rsqr; ring).
    assert (0 <= d * (1 - d) * (p - b)²) by (apply Rmult_le_pos; [apply Rmult_le_pos; lra|apply Rle_0_sqr]). lra. }
  rewrite kap_eq. eapply Rle_trans; [apply Rmult_le_compat_l; [|exact C]|].
  { apply Rmult_le_pos; [apply Rmult_le_pos; lra|]. left. apply Rinv_0_lt_compat. lra. }
  assert (E1 : (1 - d) * lam / (lam - d) * (d * p² + (1 - d) * b²) = lam * (kap * p²) + lam * (1 - d) / (lam - d) * (1 - d) * b²) by (unfold kap; field; lra).
  rewrite E1. rewrite Rplus_comm. apply Rplus_le_compat_r.
  replace ((1 - d) / u t * (lam * (lam ^ D t * b²))) with (lam * (1 - d) / u t * (lam ^ D t) * b²) by (field; lra).
  apply Rmult_le_compat_r; [apply Rle_0_sqr|].
  replace (lam * (1 - d) / (lam - d) * (1 - d)) with (lam * (1 - d) / (u t * (lam - d)) * (u t * (1 - d))) by (field; lra).
  replace (lam * (1 - d) / u t * lam ^ D t) with (lam * (1 - d) / (u t * (lam - d)) * (lam ^ D t * (lam - d))) by (field; lra).
  apply Rmult_le_compat_l; [|exact U3].
  apply Rmult_le_pos; [apply Rmult_le_pos; lra|]. left. apply Rinv_0_lt_compat. apply Rmult_lt_0_compat; lra.
Qed.

Lemma energy_step n : past (fun m => (fst (x m) + snd (x m)) / 2) n P = 0 -> VV (S n) <= lam * VV n.
Proof.
  intros Hz. unfold VV.
  eapply Rle_trans.
  { apply sumR_le with (g := fun t => (1 - d) * (- / 8 * sumR (o n) taps + o n t)² + ((1 - d) / u t * (lam * (lineE n t - lam ^ (D t) * (bk n t (D t))²)) + kap * (o n t)²)).
    intros t Ht. apply taps_in in Ht. destruct (Hu t Ht) as [U1 [U2 U3]]. rewrite lineE_step. cbn [oprev].
    rewrite (fdn_line _ _ _ _ _ _ _ _ _ _ _ F n t Ht), Hz.
    set (q := - / 8 * sumR (o n) taps + o n t). replace (0 - / 8 * sumR (o n) taps + o n t) with q by (unfold q; ring).
    assert (A : (1 - d) / u t * (g t * q)² <= (1 - d) * q²).
    { rewrite Rsqr_mult. replace ((1 - d) * q²) with ((1 - d) / u t * (u t * q²)) by (field; lra).
      apply Rmult_le_compat_l; [apply Rmult_le_pos; [lra|left; apply Rinv_0_lt_compat; lra]|]. apply Rmult_le_compat_r; [apply Rle_0_sqr|lra]. }
    lra. }
  rewrite sumR_plus, sumR_scal, householder, <- sumR_scal, <- sumR_plus, <- sumR_scal.
  apply sumR_le. intros t Ht. apply taps_in in Ht. pose proof (tap_bound n t Ht). lra.
Qed.
Lemma energy_tap n t : tap_ok t -> (1 - d) * (o n t)² <= lam * VV n.
Proof.
  intros Ht. pose proof (tap_bound n t Ht) as B. pose proof kap_pos as K. destruct (Hu t Ht) as [U1 _].
  assert (M : (1 - d) / u t * lineE n t + kap * (oprev n t)² <= VV n).
  { unfold VV. apply (sumR_member (fun t => (1 - d) / u t * lineE n t + kap * (oprev n t)²)); [|apply taps_in, Ht].
    intros v Hv. apply taps_in in Hv. destruct (Hu v Hv) as [V1 _]. apply Rplus_le_le_0_compat; apply Rmult_le_pos; try apply Rle_0_sqr; try lra.
    - apply Rmult_le_pos; [lra|left; apply Rinv_0_lt_compat; lra].
    - eapply Rle_trans; [|apply lineE_last]. apply Rmult_le_pos; [apply pow_le; lra|apply Rle_0_sqr]. }
  assert (K2 : 0 <= kap * (o n t)²) by (apply Rmult_le_pos; [lra|apply Rle_0_sqr]).
  assert (L : (1 - d) / u t * (lam * (lam ^ D t * (bk n t (D t))²)) <= lam * ((1 - d) / u t * lineE n t)).
  { replace ((1 - d) / u t * (lam * (lam ^ D t * (bk n t (D t))²))) with (lam * ((1 - d) / u t * (lam ^ D t * (bk n t (D t))²))) by (field; lra).
    apply Rmult_le_compat_l; [lra|]. apply Rmult_le_compat_l; [apply Rmult_le_pos; [lra|left; apply Rinv_0_lt_compat; lra]|apply lineE_last]. }
  assert (lam * ((1 - d) / u t * lineE n t + kap * (oprev n t)²) <= lam * VV n) by (apply Rmult_le_compat_l; lra).
  lra.
Qed.
Lemma VV_pos n : 0 <= VV n.
Proof.
  pose proof kap_pos. apply sumR_pos. intros v Hv. apply taps_in in Hv. destruct (Hu v Hv) as [V1 _]. apply Rplus_le_le_0_compat; apply Rmult_le_pos; try apply Rle_0_sqr; try lra.
  - apply Rmult_le_pos; [lra|left; apply Rinv_0_lt_compat; lra].
  - eapply Rle_trans; [|apply lineE_last]. apply Rmult_le_pos; [apply pow_le; lra|apply Rle_0_sqr].
Qed.
Lemma energy_decay N : silent_from N x -> forall k, VV (N + P + k) <= lam ^ k * VV (N + P).
Proof.
  intros H k. induction k.
  - rewrite Nat.add_0_r. cbn. lra.
  - rewrite Nat.add_succ_r. eapply Rle_trans; [apply energy_step, (past_silent P x N); [exact H|lia]|]. cbn [pow]. rewrite Rmult_assoc. apply Rmult_le_compat_l; [lra|exact IHk].
Qed.
Lemma tap_decay N : silent_from N x -> forall k t, tap_ok t -> (1 - d) * (o (N + P + k)%nat t)² <= lam ^ S k * VV (N + P).
Proof.
  intros H k t Ht. eapply Rle_trans; [apply energy_tap, Ht|]. cbn [pow]. rewrite Rmult_assoc. apply Rmult_le_compat_l; [lra|apply energy_decay, H].
Qed.
End Decay.

Lemma sqr_le_abs a b : a² <= b -> Rabs a <= sqrt b.
Proof. intros H. rewrite <- sqrt_Rsqr_abs. apply sqrt_le_1_alt, H. Qed.
Lemma sqrt_pow r k : 0 <= r -> sqrt (r ^ k) = sqrt r ^ k.
Proof. intros H. induction k; cbn; [apply sqrt_1|]. rewrite sqrt_mult_alt by exact H. rewrite IHk. reflexivity. Qed.

Lemma pan_sum_bound (pan v : Z -> R) B : 0 <= B -> (forall t, tap_ok t -> Rabs (v t) <= B) -> Rabs (sumR (fun t => pan t * v t) taps) <= sumR (fun t => Rabs (pan t)) taps * B.
Proof.
  intros HB H. eapply Rle_trans; [apply sumR_abs|]. rewrite (Rmult_comm _ B), <- sumR_scal. apply sumR_le. intros t Ht. apply taps_in in Ht.
  rewrite Rabs_mult, Rmult_comm. apply Rmult_le_compat_r; [apply Rabs_pos|apply H, Ht].
Qed.

(** general decay bound of a network, from a rate lam that every line satisfies *)
Lemma fdn_decay D g d P pl pr o0 x o a y lam u N : fdn D g d P pl pr o0 x o a y -> 0 <= d < lam -> lam <= 1 -> d < 1 ->
  (forall t, tap_ok t -> 0 < u t /\ (g t)² <= u t /\ u t * (1 - d) <= lam ^ (D t) * (lam - d)) -> silent_from N x ->
  exists C, 0 <= C /\ forall k, Rabs (fst (y (N + P + k)%nat)) <= C * sqrt lam ^ k /\ Rabs (snd (y (N + P + k)%nat)) <= C * sqrt lam ^ k.
Proof.
  intros F [H1 H2] H3 H4 Hu Hs. set (V := VV D d o0 o a lam u (N + P)).
  set (K := sqrt (lam * V / (1 - d))).
  assert (HV : 0 <= V) by (eapply VV_pos; eassumption).
  assert (HKp : 0 <= K) by apply sqrt_pos.
  assert (B : forall k t, tap_ok t -> Rabs (o (N + P + k)%nat t) <= K * sqrt lam ^ k).
  { intros k t Ht. unfold K. rewrite <- sqrt_pow, <- sqrt_mult_alt by first [lra | apply Rmult_le_pos; [apply Rmult_le_pos; lra|left; apply Rinv_0_lt_compat; lra]].
    apply sqr_le_abs. pose proof (tap_decay D g d P pl pr o0 x o a y F lam u H1 H2 H4 Hu N Hs k t Ht) as T. fold V in T.
    apply Rmult_le_reg_l with (1 - d); [lra|]. replace ((1 - d) * (lam * V / (1 - d) * lam ^ k)) with (lam ^ S k * V) by (cbn [pow]; field; lra). exact T. }
  set (A := sumR (fun t => Rabs (pl t)) taps). set (A' := sumR (fun t => Rabs (pr t)) taps).
  assert (0 <= A) by (apply sumR_pos; intros; apply Rabs_pos). assert (0 <= A') by (apply sumR_pos; intros; apply Rabs_pos).
  exists ((A + A') * K). split; [apply Rmult_le_pos; lra|]. intros k. rewrite (fdn_out _ _ _ _ _ _ _ _ _ _ _ F). cbn [fst snd].
  assert (P0 : 0 <= sqrt lam ^ k) by (apply pow_le, sqrt_pos). assert (P1 : 0 <= K * sqrt lam ^ k) by (apply Rmult_le_pos; lra).
  split.
  - eapply Rle_trans; [apply pan_sum_bound; [exact P1|apply B]|]. rewrite Rmult_assoc. apply Rmult_le_compat_r; [exact P1|fold A; lra].
  - eapply Rle_trans; [apply pan_sum_bound; [exact P1|apply B]|]. rewrite Rmult_assoc. apply Rmult_le_compat_r; [exact P1|fold A'; lra].
Qed.

Lemma bernoulli e n : 0 <= e <= 1 -> 1 - INR n * e <= (1 - e) ^ n.
Proof.
  intros H. induction n; [cbn; lra|]. rewrite S_INR. cbn [pow].
  assert (0 <= INR n * e) by (apply Rmult_le_pos; [apply pos_INR|lra]).
  assert ((1 - e) * (1 - INR n * e) <= (1 - e) * (1 - e) ^ n) by (apply Rmult_le_compat_l; lra).
  nra.
Qed.
Lemma taps_max (f : Z -> R) b : (forall t, tap_ok t -> f t < b) -> exists m, m < b /\ forall t, tap_ok t -> f t <= m.
Proof.
  intros H. assert (G : forall l, (forall t, In t l -> f t < b) -> exists m, m < b /\ forall t, In t l -> f t <= m).
  { induction l as [|q l IH]; intros G; [exists (b - 1); split; [lra|intros t []]|].
    destruct IH as [m [M1 M2]]; [intros; apply G; right; assumption|]. exists (Rmax (f q) m). split.
    - apply Rmax_lub_lt; [apply G; left; reflexivity|exact M1].
    - intros t [<-|I]; [apply Rmax_l|]. eapply Rle_trans; [apply M2, I|apply Rmax_r]. }
  destruct (G taps) as [m [M1 M2]]; [intros t I; apply H, taps_in, I|]. exists m. split; [exact M1|]. intros t Ht. apply M2, taps_in, Ht.
Qed.

(** with every loop gain below one in size and damping below one, once the input is silent the output dies out exponentially *)
Theorem C154_reverb_tail_dies_out : forall damp P s0 x st y N, cleared s0 -> (Z.of_nat P < 32768)%Z ->
  (forall t, tap_ok t -> (0 <= rv_time s0 t)%Z /\ (whole_delay s0 t < 32768)%Z) ->
  (forall t, tap_ok t -> Rabs (rv_fb s0 t) < 1) -> 0 <= damp < 1 ->
  runs false damp (Z.of_nat P) s0 x st y -> silent_from N x ->
  exists C rho, 0 <= C /\ 0 < rho < 1 /\ forall k, Rabs (fst (y (N + P + k)%nat)) <= C * rho ^ k /\ Rabs (snd (y (N + P + k)%nat)) <= C * rho ^ k.
Proof.
  intros damp P s0 x st y N HC HP HT HG Hd H Hs.
  pose proof (C153_reverb_is_feedback_delay_network damp P s0 x st y HC HP HT H) as F.
  destruct (taps_max (fun t => Rabs (rv_fb s0 t)) 1 HG) as [G [G1 G2]].
  assert (G0 : 0 <= G). { eapply Rle_trans; [apply Rabs_pos|apply (G2 0%Z)]. unfold tap_ok; lia. }
  set (uu := (1 + G²) / 2). assert (Gq : G² < 1) by (unfold Rsqr; nra). assert (Gp : 0 <= G²) by apply Rle_0_sqr.
  set (e := (1 - uu) * (1 - damp) / 32769).
  assert (U1 : 0 < uu < 1) by (unfold uu; lra).
  assert (E1 : 0 < e). { unfold e. apply Rmult_lt_0_compat; [apply Rmult_lt_0_compat; lra|lra]. }
  assert (E2 : e < 1 - damp). { unfold e. assert ((1 - uu) * (1 - damp) <= 1 - damp) by nra. lra. }
  destruct (fdn_decay _ _ _ _ _ _ _ _ _ _ _ (1 - e) (fun _ => uu) N F) as [C [C0 CB]].
  - lra.
  - lra.
  - lra.
  - intros t Ht. split; [lra|]. split.
    + eapply Rle_trans with (G²); [|unfold uu; lra]. rewrite (Rsqr_abs (rv_fb s0 t)). apply Rsqr_incr_1; [apply G2, Ht|apply Rabs_pos|exact G0].
    + destruct (HT t Ht) as [T1 T2]. set (n := Z.to_nat (whole_delay s0 t)).
      assert (NB : INR n <= 32767).
      { unfold n. rewrite INR_IZR_INZ. apply IZR_le. lia. }
      pose proof (bernoulli e n ltac:(lra)) as B. pose proof (pos_INR n) as N0.
      apply Rle_trans with ((1 - INR n * e) * (1 - e - damp)); [|apply Rmult_le_compat_r; lra].
      assert (Q : uu * (1 - damp) = (1 - damp) - 32769 * e) by (unfold e; field). rewrite Q.
      assert (0 <= INR n * e) by (apply Rmult_le_pos; lra). assert (INR n * e <= 32767 * e) by (apply Rmult_le_compat_r; lra).
      set (w := INR n * e) in *. replace ((1 - w) * (1 - e - damp)) with ((1 - damp) - e - w + w * damp + w * e) by ring.
      assert (0 <= w * damp) by (apply Rmult_le_pos; lra). assert (0 <= w * e) by (apply Rmult_le_pos; lra). lra.
  - exact Hs.
  - exists C, (sqrt (1 - e)). split; [exact C0|]. split; [|exact CB]. split; [apply sqrt_lt_R0; assert (e < 1) by lra; lra|]. apply Rlt_le_trans with (sqrt 1); [apply sqrt_lt_1_alt; split; lra|rewrite sqrt_1; lra].
Qed.
Print Assumptions C154_reverb_tail_dies_out.

(** gains of at most one (the most the decay parameter gives): the tail stays bounded *)
Theorem C154_reverb_tail_never_grows : forall damp P s0 x st y N, cleared s0 -> (Z.of_nat P < 32768)%Z ->
  (forall t, tap_ok t -> (0 <= rv_time s0 t)%Z /\ (whole_delay s0 t < 32768)%Z) ->
  (forall t, tap_ok t -> Rabs (rv_fb s0 t) <= 1) -> 0 <= damp < 1 ->
  runs false damp (Z.of_nat P) s0 x st y -> silent_from N x ->
  exists C, forall n, (N + P <= n)%nat -> Rabs (fst (y n)) <= C /\ Rabs (snd (y n)) <= C.
Proof.
  intros damp P s0 x st y N HC HP HT HG Hd H Hs.
  pose proof (C153_reverb_is_feedback_delay_network damp P s0 x st y HC HP HT H) as F.
  destruct (fdn_decay _ _ _ _ _ _ _ _ _ _ _ 1 (fun _ => 1) N F) as [C [C0 CB]]; [lra|lra|lra| |exact Hs|].
  - intros t Ht. split; [lra|]. split; [|rewrite pow1; lra].
    replace 1 with (1²) at 1 by (unfold Rsqr; ring). rewrite (Rsqr_abs (rv_fb s0 t)). apply Rsqr_incr_1; [apply HG, Ht|apply Rabs_pos|lra].
  - exists C. intros n Hn. destruct (CB (n - (N + P))%nat) as [A B]. replace (N + P + (n - (N + P)))%nat with n in A, B by lia.
    rewrite sqrt_1, pow1, Rmult_1_r in A, B. split; assumption.
Qed.
Print Assumptions C154_reverb_tail_never_grows.

(** * C155: the pre-delay subtraction in an overflow-checking build *)
(** a sample panics exactly when the pre-delay exceeds the write position *)
Theorem C155_predelay_underflow_refuted : forall damp pd s x, (0 <= rv_pos s < 32768)%Z -> (- 2 ^ 31 <= pd < 2 ^ 31)%Z ->
  (rv_sample true damp pd s x = Panic <-> ~ (0 <= pd <= (rv_pos s + 1) mod 32768)%Z).
Proof. intros damp pd s x Hp Hd. apply (rv_sample_checked damp pd s x Hd). Qed.
Print Assumptions C155_predelay_underflow_refuted.
(** from a freshly initialised effect every pre-delay of two samples or more panics at the first sample ... *)
Theorem C155_first_sample_panics : forall sr p damp pd x, (2 <= pd < 2 ^ 31)%Z -> rv_sample true damp pd (fx_net (rv_init sr p)) x = Panic.
Proof. intros sr p damp pd x H. apply C155_predelay_underflow_refuted; cbn; [lia|lia|]. change (1 mod 32768)%Z with 1%Z. lia. Qed.
Print Assumptions C155_first_sample_panics.
(** ... and no run with any non-zero pre-delay survives 32768 samples *)
Theorem C155_no_run_survives : forall damp pd s0 x st y, (0 <= rv_pos s0 < 32768)%Z -> (1 <= pd < 2 ^ 31)%Z -> ~ runs true damp pd s0 x st y.
Proof.
  intros damp pd s0 x st y Hp Hd H.
  assert (U : runs false damp pd s0 x st y).
  { destruct H as [H0 H]. split; [exact H0|]. intros n. specialize (H n).
    destruct (rv_sample_checked damp pd (st n) (x n) ltac:(lia)) as [A B].
    destruct (Z.le_gt_cases pd ((rv_pos (st n) + 1) mod 32768)) as [L|L]; [rewrite <- B by lia; exact H|].
    destruct A as [_ A]. rewrite A in H by lia. discriminate. }
  set (n := Z.to_nat (32767 - rv_pos s0)).
  pose proof (runs_pos _ _ _ _ _ _ Hp U n) as Q. replace (rv_pos s0 + Z.of_nat n)%Z with 32767%Z in Q by (unfold n; lia). change (32767 mod 32768)%Z with 32767%Z in Q.
  destruct H as [_ H]. specialize (H n). destruct (rv_sample_checked damp pd (st n) (x n) ltac:(lia)) as [[_ A] _].
  rewrite A in H; [discriminate|]. rewrite Q. change ((32767 + 1) mod 32768)%Z with 0%Z. lia.
Qed.
Print Assumptions C155_no_run_survives.
(** the default pre-delay (2^-4 s) at 44.1 kHz is 2756 samples *)
Lemma truncR_val x k : IZR k <= x < IZR k + 1 -> (0 <= k)%Z -> truncR x = k.
Proof.
  intros [H1 H2] Hk. assert (H0 : 0 <= x) by (apply Rle_trans with (IZR k); [apply IZR_le; exact Hk|exact H1]).
  destruct (FastProps.truncR_spec x) as [S1 _]. destruct (S1 H0) as [A B].
  assert (truncR x < k + 1)%Z by (apply lt_IZR; rewrite plus_IZR; lra). assert (k < truncR x + 1)%Z by (apply lt_IZR; rewrite plus_IZR; lra). lia.
Qed.
Example C155_default_predelay : predelay_time 44100 (/ 16) 1 = 2756%Z.
Proof. unfold predelay_time, as_i32R. rewrite (truncR_val _ 2756); [reflexivity|lra|lia]. Qed.
