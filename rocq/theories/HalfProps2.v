(** Theorems about the half-rate filter, continued: gain, pass band, coefficients (C139-C141). *)
From Coq Require Import Reals Lra Psatz Lia.
From Flocq Require Import Core.Core.
From Verif Require Import Base Util QfModel HalfModel HalfProps.
Local Open Scope R_scope.

(* ================= C139: the filter never adds energy ================= *)

(** the energy of the first N samples *)
Fixpoint energy (x : nat -> R) (N : nat) : R := match N with O => 0 | Datatypes.S k => energy x k + x k * x k end.
(** all coefficients strictly inside (-1,1) *)
Definition contractive (cs : list R) : Prop := Forall (fun a => -1 < a < 1) cs.

Definition pend (a : R) (x : nat -> R) (N k : nat) : R := if (k <=? N)%nat then x (N - k)%nat - a * ap a x (N - k)%nat else 0.
Lemma ap_energy a x : forall N, (1 - a * a) * (energy x N - energy (ap a x) N) = pend a x N 1 * pend a x N 1 + pend a x N 2 * pend a x N 2.
Proof.
  assert (Y : forall N, ap a x N = a * x N + pend a x N 2).
  { intros [|[|N]]; unfold pend; cbn [Nat.leb ap]; [ring|ring|]. replace (Datatypes.S (Datatypes.S N) - 2)%nat with N by lia. ring. }
  induction N as [|N IH]; [unfold pend; cbn; ring|]. cbn [energy].
  assert (P2 : pend a x (Datatypes.S N) 2 = pend a x N 1) by (unfold pend; destruct N as [|N]; cbn [Nat.leb]; [reflexivity|]; replace (Datatypes.S (Datatypes.S N) - 2)%nat with (Datatypes.S N - 1)%nat by lia; reflexivity).
  assert (P1 : pend a x (Datatypes.S N) 1 = x N - a * ap a x N) by (unfold pend; cbn [Nat.leb]; replace (Datatypes.S N - 1)%nat with N by lia; reflexivity).
  rewrite P2, P1, (Y N).
  replace ((1 - a * a) * (energy x N + x N * x N - (energy (ap a x) N + (a * x N + pend a x N 2) * (a * x N + pend a x N 2))))
    with ((1 - a * a) * (energy x N - energy (ap a x) N) + (1 - a * a) * (x N * x N - (a * x N + pend a x N 2) * (a * x N + pend a x N 2))) by ring.
  rewrite IH. ring.
Qed.
Lemma ap_energy_le a x N : -1 < a < 1 -> energy (ap a x) N <= energy x N.
Proof.
  intros A. pose proof (ap_energy a x N) as E. pose proof (Rle_0_sqr (pend a x N 1)) as S1. pose proof (Rle_0_sqr (pend a x N 2)) as S2. unfold Rsqr in *.
  assert (0 < 1 - a * a) by nra. apply Rnot_lt_le. intros L. assert ((1 - a * a) * (energy x N - energy (ap a x) N) < 0) by nra. lra.
Qed.
Lemma cascade_energy cs : contractive cs -> forall x N, energy (cascade cs x) N <= energy x N.
Proof.
  induction 1 as [|a cs A _ IH]; intros x N; [apply Rle_refl|]. unfold cascade in *. cbn [fold_left]. eapply Rle_trans; [apply IH|]. apply ap_energy_le, A.
Qed.
Lemma energy_nonneg x N : 0 <= energy x N.
Proof. induction N; cbn [energy]; [lra|]. pose proof (Rle_0_sqr (x N)). unfold Rsqr in *. lra. Qed.
Lemma delay_energy x N : energy (delay1 x) N <= energy x N.
Proof.
  assert (K : energy (delay1 x) (Datatypes.S N) = energy x N) by (induction N as [|N IH]; [cbn; ring|]; cbn [energy delay1] in *; rewrite IH; reflexivity).
  destruct N as [|N]; [cbn; lra|]. cbn [energy] in K |- *. clear K.
  assert (K : energy (delay1 x) (Datatypes.S N) = energy x N) by (induction N as [|N IH]; [cbn; ring|]; cbn [energy delay1] in *; rewrite IH; reflexivity).
  cbn [energy] in K. pose proof (Rle_0_sqr (x N)). unfold Rsqr in *. lra.
Qed.

(** For every signal and at every moment, the output has carried no more energy than the input: the
    filter cannot blow up, ring for ever, or be louder than what is put in. *)
Theorem C139_never_adds_energy : forall a b x N, contractive a -> contractive b -> energy (lowpass a b x) N <= energy x N.
Proof.
  intros a b x N A B.
  assert (K : 2 * energy (lowpass a b x) N <= energy (cascade a x) N + energy (delay1 (cascade b x)) N).
  { induction N as [|N IH]; [cbn; lra|]. cbn [energy]. unfold lowpass at 2 3. pose proof (Rle_0_sqr (cascade a x N - delay1 (cascade b x) N)). unfold Rsqr in *. nra. }
  pose proof (cascade_energy a A x N). pose proof (cascade_energy b B x N). pose proof (delay_energy (cascade b x) N). lra.
Qed.
Print Assumptions C139_never_adds_energy.

(** Each cascade alone keeps every bit of it: what has not come out yet is stored. *)
Theorem C139_all_pass : forall a x N, -1 < a < 1 -> energy x N - energy (ap a x) N =
  (pend a x N 1 * pend a x N 1 + pend a x N 2 * pend a x N 2) / (1 - a * a).
Proof. intros a x N A. rewrite <- ap_energy. field. nra. Qed.
Print Assumptions C139_all_pass.

(* ================= C140: pass band and stop band ================= *)

Lemma geo_bound r d e : 0 <= r < 1 -> 0 <= d -> (forall k, Rabs (e (Datatypes.S k)) <= r * Rabs (e k) + d * (1 - r)) ->
  forall k : nat, Rabs (e k) <= r ^ k * Rabs (e O) + d.
Proof.
  intros [R0 R1] D H. induction k as [|k IH]; [cbn; lra|]. eapply Rle_trans; [apply H|]. cbn [pow]. nra.
Qed.
Lemma contraction_cv r e d : 0 <= r < 1 -> (forall n : nat, Rabs (e (n + 2)%nat) <= r * Rabs (e n) + Rabs (d n)) -> Un_cv d 0 -> Un_cv e 0.
Proof.
  intros Hr H D eps Heps. destruct (D (eps / 4 * (1 - r)) ltac:(nra)) as [N HN].
  destruct (pow_lt_1_zero r ltac:(rewrite Rabs_pos_eq; lra) (eps / (4 * (1 + Rabs (e N) + Rabs (e (Datatypes.S N))))) ltac:(pose proof (Rabs_pos (e N)); pose proof (Rabs_pos (e (Datatypes.S N))); apply Rdiv_lt_0_compat; lra)) as [K HK].
  exists (N + 2 * K)%nat. intros n Hn. unfold R_dist. rewrite Rminus_0_r.
  assert (PAR : exists p k, (p = N \/ p = Datatypes.S N) /\ n = (p + 2 * k)%nat /\ (K <= k)%nat).
  { destruct (Nat.Even_or_Odd (n - N)) as [[k E]|[k E]]; [exists N, k|exists (Datatypes.S N), k]; (split; [auto|]); split; lia. }
  destruct PAR as (p & k & HP & -> & Hk).
  assert (G : Rabs (e (p + 2 * k)%nat) <= r ^ k * Rabs (e (p + 2 * 0)%nat) + eps / 4).
  { apply (geo_bound r (eps / 4) (fun j => e (p + 2 * j)%nat) Hr ltac:(lra)). intros j. replace (p + 2 * Datatypes.S j)%nat with (p + 2 * j + 2)%nat by lia.
    eapply Rle_trans; [apply H|]. apply Rplus_le_compat_l. specialize (HN (p + 2 * j)%nat ltac:(lia)). unfold R_dist in HN. rewrite Rminus_0_r in HN. lra. }
  rewrite Nat.mul_0_r, Nat.add_0_r in G. eapply Rle_lt_trans; [exact G|].
  assert (B : Rabs (e p) <= Rabs (e N) + Rabs (e (Datatypes.S N))) by (pose proof (Rabs_pos (e N)); pose proof (Rabs_pos (e (Datatypes.S N))); destruct HP as [-> | ->]; lra).
  specialize (HK k Hk). rewrite Rabs_pos_eq in HK by (apply pow_le; lra).
  pose proof (Rabs_pos (e N)). pose proof (Rabs_pos (e (Datatypes.S N))). pose proof (Rabs_pos (e p)). pose proof (pow_le r k ltac:(lra)) as PK.
  set (W := 1 + Rabs (e N) + Rabs (e (Datatypes.S N))) in *. assert (0 < W) by (unfold W; lra).
  assert (r ^ k * W < eps / 4). { apply (Rmult_lt_compat_r W) in HK; [|assumption]. replace (eps / (4 * W) * W) with (eps / 4) in HK by (field; lra). exact HK. }
  assert (r ^ k * Rabs (e p) <= r ^ k * W) by (apply Rmult_le_compat_l; [assumption|unfold W; lra]). lra.
Qed.

(** becoming periodic with period two samples *)
Definition per2 (x : nat -> R) : Prop := Un_cv (fun n => x (n + 2)%nat - x n) 0.
Lemma cv_ext f g l : (forall n, f n = g n) -> Un_cv f l -> Un_cv g l.
Proof. intros E H eps He. destruct (H eps He) as [N HN]. exists N. intros n Hn. rewrite <- E. apply HN, Hn. Qed.
Lemma cv_shift f l k : Un_cv f l -> Un_cv (fun n => f (n + k)%nat) l.
Proof. intros H eps He. destruct (H eps He) as [N HN]. exists N. intros n Hn. apply HN. lia. Qed.
Lemma ap_tracks a x : -1 < a < 1 -> per2 x -> Un_cv (fun n => ap a x n - x n) 0 /\ per2 (ap a x).
Proof.
  intros A P.
  assert (T : Un_cv (fun n => ap a x n - x n) 0).
  { apply (contraction_cv (Rabs a) _ (fun n => (1 - a) * (x (n + 2)%nat - x n))).
    - split; [apply Rabs_pos|apply Rabs_def1; lra].
    - intros n. rewrite Nat.add_comm at 1. cbn [Nat.add ap]. replace (x n + a * (x (Datatypes.S (Datatypes.S n)) - ap a x n) - x (n + 2)%nat) with (- a * (ap a x n - x n) + - ((1 - a) * (x (n + 2)%nat - x n))) by (replace (n + 2)%nat with (Datatypes.S (Datatypes.S n)) by lia; ring).
      eapply Rle_trans; [apply Rabs_triang|]. rewrite Rabs_Ropp, Rabs_mult, Rabs_Ropp. lra.
    - replace 0 with ((1 - a) * 0) by ring. apply CV_mult; [|exact P]. intros eps He. exists O. intros. unfold R_dist. replace (1 - a - (1 - a)) with 0 by ring. rewrite Rabs_R0. exact He. }
  split; [exact T|]. unfold per2.
  apply (cv_ext (fun n => ((ap a x (n + 2)%nat - x (n + 2)%nat) - (ap a x n - x n)) + (x (n + 2)%nat - x n))); [intros; ring|].
  replace 0 with (0 - 0 + 0) by ring. apply CV_plus; [|exact P]. apply CV_minus; [|exact T]. apply (cv_shift (fun n => ap a x n - x n) 0 2 T).
Qed.
Lemma cascade_tracks cs : contractive cs -> forall x, per2 x -> Un_cv (fun n => cascade cs x n - x n) 0.
Proof.
  induction 1 as [|a cs A _ IH]; intros x P.
  - cbn. apply (cv_ext (fun _ => 0)); [intros; ring|]. intros eps He. exists O. intros. unfold R_dist. rewrite Rminus_0_r, Rabs_R0. exact He.
  - destruct (ap_tracks a x A P) as [T P2]. unfold cascade. cbn [fold_left]. apply (cv_ext (fun n => (cascade cs (ap a x) n - ap a x n) + (ap a x n - x n))); [intros; unfold cascade; ring|].
    replace 0 with (0 + 0) by ring. apply CV_plus; [apply IH, P2|exact T].
Qed.

(** In the long run, for every input that settles into repeating every two samples, the output is the
    mean of the last two input samples. *)
Lemma lowpass_mean a b x : contractive a -> contractive b -> per2 x -> Un_cv (fun n => lowpass a b x n - (x n + delay1 x n) / 2) 0.
Proof.
  intros A B P. pose proof (cascade_tracks a A x P) as TA. pose proof (cascade_tracks b B x P) as TB.
  assert (TD : Un_cv (fun n => delay1 (cascade b x) n - delay1 x n) 0).
  { intros eps He. destruct (TB eps He) as [N HN]. exists (Datatypes.S N). intros [|n] Hn; [lia|]. cbn [delay1]. apply HN. lia. }
  apply (cv_ext (fun n => / 2 * ((cascade a x n - x n) + (delay1 (cascade b x) n - delay1 x n)))); [intros; unfold lowpass; lra|].
  replace 0 with (/ 2 * (0 + 0)) by ring. apply CV_mult; [|apply CV_plus; assumption]. intros eps He. exists O. intros. unfold R_dist. replace (/ 2 - / 2) with 0 by ring. rewrite Rabs_R0. exact He.
Qed.
Lemma cst_cv c : Un_cv (fun _ => c) c.
Proof. intros eps He. exists O. intros. unfold R_dist. replace (c - c) with 0 by ring. rewrite Rabs_R0. exact He. Qed.

(** A constant passes unchanged ... *)
Theorem C140_passes_dc : forall a b c, contractive a -> contractive b -> Un_cv (lowpass a b (fun _ => c)) c.
Proof.
  intros a b c A B. assert (P : per2 (fun _ : nat => c)) by (apply (cv_ext (fun _ => 0)); [intros; ring|apply cst_cv]).
  pose proof (cv_shift _ _ 1 (lowpass_mean a b _ A B P)) as M. intros eps He. destruct (M eps He) as [N HN]. exists (Datatypes.S N). intros [|n] Hn; [lia|].
  specialize (HN n ltac:(lia)). unfold R_dist in *. rewrite Nat.add_1_r in HN. cbn [delay1] in HN. replace (lowpass a b (fun _ => c) (Datatypes.S n) - c) with (lowpass a b (fun _ => c) (Datatypes.S n) - (c + c) / 2 - 0) by lra. exact HN.
Qed.
Print Assumptions C140_passes_dc.
(** ... and the highest frequency, alternating samples, is removed completely. *)
Theorem C140_stops_nyquist : forall a b c, contractive a -> contractive b -> Un_cv (lowpass a b (fun n => if Nat.even n then c else - c)) 0.
Proof.
  intros a b c A B. set (x := fun n => if Nat.even n then c else - c).
  assert (P : per2 x) by (apply (cv_ext (fun _ => 0)); [intros n; unfold x; rewrite Nat.add_comm; cbn [Nat.add Nat.even]; ring|apply cst_cv]).
  pose proof (lowpass_mean a b _ A B P) as M. intros eps He. destruct (M eps He) as [N HN]. exists (Datatypes.S N). intros [|n] Hn; [lia|].
  specialize (HN (Datatypes.S n) ltac:(lia)). unfold R_dist in *. cbn [delay1] in HN.
  assert (Z : x (Datatypes.S n) + x n = 0) by (unfold x; rewrite Nat.even_succ, <- Nat.negb_even; destruct (Nat.even n); cbn; ring).
  rewrite Z in HN. replace (lowpass a b x (Datatypes.S n) - 0 / 2 - 0) with (lowpass a b x (Datatypes.S n) - 0) in HN by lra. exact HN.
Qed.
Print Assumptions C140_stops_nyquist.

(** FINDING.  Upsampling halves the level: a constant comes out at half its value, for every filter. *)
Theorem C140_upsampling_halves_refuted : forall a b c, contractive a -> contractive b -> Un_cv (lowpass a b (stuff (fun _ => c))) (c / 2).
Proof.
  intros a b c A B. set (x := stuff (fun _ => c)).
  assert (P : per2 x) by (apply (cv_ext (fun _ => 0)); [intros n; unfold x, stuff; rewrite Nat.add_comm; cbn [Nat.add Nat.even]; destruct (Nat.even n); ring|apply cst_cv]).
  pose proof (lowpass_mean a b _ A B P) as M. intros eps He. destruct (M eps He) as [N HN]. exists (Datatypes.S N). intros [|n] Hn; [lia|].
  specialize (HN (Datatypes.S n) ltac:(lia)). unfold R_dist in *. cbn [delay1] in HN.
  assert (Z : x (Datatypes.S n) + x n = c) by (unfold x, stuff; rewrite Nat.even_succ, <- Nat.negb_even; destruct (Nat.even n); cbn; ring).
  rewrite Z in HN. rewrite Rminus_0_r in HN. exact HN.
Qed.
Print Assumptions C140_upsampling_halves_refuted.

(* ================= C141: which filters exist ================= *)

(** the two coefficient lists interleave and stay inside (0,1) *)
Fixpoint interleaved (lo : R) (a b : list R) : Prop :=
  match a, b with
  | x :: a', y :: b' => lo < x /\ x < y /\ y < 1 /\ interleaved y a' b'
  | [], [] => True
  | _, _ => False
  end.
Lemma interleaved_ok a : forall lo b, 0 <= lo -> interleaved lo a b -> length a = length b /\ contractive a /\ contractive b.
Proof.
  induction a as [|x a IH]; intros lo [|y b] L H; cbn [interleaved] in H; try contradiction; [repeat split; constructor|].
  destruct H as (H1 & H2 & H3 & H4). destruct (IH y b ltac:(lra) H4) as (E & A & B). split; [cbn [length]; rewrite E; reflexivity|]. split; constructor; try assumption; lra.
Qed.

Lemma reset_store a b z : half_reset (mk_half (store_coefficients a b) z) = at_rest a b.
Proof. unfold half_reset, at_rest, store_coefficients. cbn [h_stages]. rewrite map_map. f_equal. apply map_ext. intros [x y]. reflexivity. Qed.

Lemma new_from m (steep : bool) a b : (m <= 6)%Z -> (if steep then steep_coefficients (m * 2) else softer_coefficients (m * 2)) = Ok (a, b) -> half_new m steep = Ok (at_rest a b).
Proof. intros H E. unfold half_new, load_coefficients. rewrite (proj2 (Z.ltb_ge _ _)) by lia. cbv zeta. destruct steep; rewrite E; cbn [obind]; rewrite reset_store; reflexivity. Qed.

(** A filter can be made exactly for one to six stages, steep or soft; it then has that many stages, at
    rest, and its coefficients interleave inside (0,1), so that the gain and stability theorems apply. *)
Theorem C141_new : forall m steep, (0 <= m)%Z ->
  ((1 <= m <= 6)%Z -> exists a b, half_new m steep = Ok (at_rest a b) /\ length a = Z.to_nat m /\ interleaved 0 a b) /\
  (~ (1 <= m <= 6)%Z -> half_new m steep = Panic).
Proof.
  intros m steep M. split.
  - intros H. assert (C : m = 1%Z \/ m = 2%Z \/ m = 3%Z \/ m = 4%Z \/ m = 5%Z \/ m = 6%Z) by lia.
    destruct C as [-> | [-> | [-> | [-> | [-> | ->]]]]]; destruct steep;
      (eexists _, _; split; [apply new_from; [lia|reflexivity]|]);
      (split; [reflexivity|]); cbn [interleaved]; lra.
  - intros H. unfold half_new. destruct (Z.ltb_spec 6 m) as [L|L]; [reflexivity|]. replace m with 0%Z by lia. destruct steep; reflexivity.
Qed.
Print Assumptions C141_new.

(** so every filter that can be made satisfies the hypotheses of C137-C140 *)
Example C141_ex : exists a b, half_new 6 true = Ok (at_rest a b) /\ length a = length b /\ contractive a /\ contractive b.
Proof.
  destruct (C141_new 6 true ltac:(lia)) as [H _]. destruct (H ltac:(lia)) as (a & b & E & _ & I). exists a, b. split; [exact E|]. apply (interleaved_ok a 0 b); [lra|exact I].
Qed.
Example C137_ex : lens_ok [32; 64; 256; 4]%nat /\ Forall (fun len => (len mod 8 = 0 /\ len <= 256)%nat) [128; 64]%nat.
Proof. split; repeat constructor; cbn; lia. Qed.
