(** Theorems about the IIR voice filters: dispatch, start, limiter, polarity (C273, C274). *)
From Coq Require Import Reals List Lra Lia.
From Flocq Require Import Core.Core.
From Coquelicot Require Import Coquelicot.
From Verif Require Import Base Util F32 BlockModel MathModel RampProps IirModel IirProps IirProps3.
Import ListNotations.
#[local] Open Scope R_scope.

(** Every type, subtype and pole count has its routine, except the subtype SVF, which panics: *)
Theorem C273_dispatch_refuted : forall ty pole, iir_dispatch ty ISvf pole = Panic /\
  forall sub, sub <> ISvf -> exists p, iir_dispatch ty sub pole = Ok p.
Proof. intros ty pole. split; [destruct pole; reflexivity|]. intros sub H. destruct sub, pole; try contradiction; eexists; reflexivity. Qed.
Print Assumptions C273_dispatch_refuted.
(** A voice starts with all registers 0, the clip register included: the clipping filters then forget the first sample (it appears in the
    output through the direct tap only), whatever it is. *)
Theorem C273_first_sample_refuted : forall c d x,
  (let s := fst (iir_12_cfc (mk_cs c d 0 0 0 0 0) x) in p_1 s = 0 /\ p_2 s = 0) /\ snd (iir_12_cfc (mk_cs c d 0 0 0 0 0) x) = (cd c + cd d) * x /\
  (let s := fst (iir_24_cfc (mk_cs c d 0 0 0 0 0) x) in p_1 s = 0 /\ p_2 s = 0 /\ p_3 s = 0 /\ p_4 s = 0).
Proof. intros c d x. unfold iir_12_cfc, iir_24_cfc, cpl_turn, cpl_out, cpl_add. cbn. repeat split; ring. Qed.
Print Assumptions C273_first_sample_refuted.
Theorem C273_first_sample_lattice_refuted : forall c d x,
  (let s := fst (iir_12_b (mk_ls c d 0 0 0 0 0) x) in l_1 s = 0 /\ l_2 s = 0) /\
  (let s := fst (iir_24_b (mk_ls c d 0 0 0 0 0) x) in l_1 s = 0 /\ l_2 s = 0 /\ l_3 s = 0 /\ l_4 s = 0).
Proof. intros c d x. unfold iir_12_b, iir_24_b, lat_pass, lat_add. cbn. repeat split; ring. Qed.
Print Assumptions C273_first_sample_lattice_refuted.
(** The limiting filters start with their poles at radius 0 and open over thousands of samples: before sample n the limiter's factor is
    at most 1 - 0.999^n, and exactly that as long as the output stays within 1/2 (with an exact reciprocal square root). *)
Theorem C273_limiter : forall rsq (four : bool) c d x n, limiter_ok rsq ->
  let f := if four then iir_24_cfl rsq else iir_12_cfl rsq in let st := mk_cs c d 0 0 0 0 0 in
  0 <= p_clip (sig_state f st x n) <= 1 - (999 / 1000) ^ n /\
  (rsq 1 = 1 -> (forall i, (i < n)%nat -> Rabs (sig_out f st x i) <= 1 / 2) -> p_clip (sig_state f st x n) = 1 - (999 / 1000) ^ n).
Proof.
  intros rsq four c d x n Hq f st.
  assert (U : forall s z, p_clip (fst (f s z)) = limit_reg rsq (p_clip s) (snd (f s z))).
  { intros s z. unfold f. destruct four; unfold iir_24_cfl, iir_12_cfl; cbv zeta; repeat destruct (cpl_turn _ _ _ _ _ _); reflexivity. }
  clearbody f. split.
  - induction n as [|n IH]; [cbn; lra|]. cbn [sig_state]. rewrite U. set (s := sig_state f st x n) in *. clearbody s. unfold limit_reg. rewrite smaxR.
    specialize (Hq (Rmax 1 (2 * Rabs (snd (f s (x n))))) (Rmax_l _ _)). cbn [pow]. assert (0 <= (999 / 1000) ^ n) by (apply pow_le; lra). lra.
  - intros R1. induction n as [|n IH]; intros HI; [cbn; lra|]. cbn [sig_state]. rewrite U. specialize (IH ltac:(intros i Hi; apply HI; lia)). specialize (HI n ltac:(lia)). unfold sig_out in HI. 
    set (s := sig_state f st x n) in *. clearbody s. unfold limit_reg. rewrite smaxR, Rmax_left by lra. rewrite R1, IH. cbn [pow]. lra.
Qed.
Print Assumptions C273_limiter.
(** the clip register lies in [0.1, 1] after any sample and is 1 exactly when the output or the clip gain is 0 *)
Theorem C273_clip : forall cg y, 0 <= cg -> 1 / 10 <= clip_reg cg y <= 1 /\ (clip_reg cg y = 1 <-> cg = 0 \/ y = 0) /\ (forall y', Rabs y <= Rabs y' -> clip_reg cg y' <= clip_reg cg y).
Proof.
  intros cg y H. split; [apply clip_range; exact H|]. unfold clip_reg. rewrite smaxR. split.
  - split.
    + intros E. destruct (Req_dec cg 0) as [Z|Z]; [left; exact Z|right]. destruct (Req_dec y 0) as [Y|Y]; [exact Y|exfalso]. assert (0 < y * y) by exact (Rlt_0_sqr y Y). assert (0 < cg * (y * y)) by (apply Rmult_lt_0_compat; lra).
      unfold Rmax in E. destruct (Rle_dec _ _); lra.
    + intros [-> | ->]; rewrite ?Rmult_0_l, ?Rmult_0_r, Rminus_0_r; apply Rmax_right; lra.
  - intros y' Hy. rewrite smaxR. assert (y * y <= y' * y'). { replace (y * y) with (Rabs y * Rabs y) by (rewrite <- Rabs_mult; apply Rabs_pos_eq; exact (Rle_0_sqr y)). replace (y' * y') with (Rabs y' * Rabs y') by (rewrite <- Rabs_mult; apply Rabs_pos_eq; exact (Rle_0_sqr y')). apply Rmult_le_compat; auto using Rabs_pos. }
    assert (cg * (y * y) <= cg * (y' * y')) by (apply Rmult_le_compat_l; assumption). apply Rmax_lub; [apply Rmax_l|]. eapply Rle_trans; [|apply Rmax_r]. lra.
Qed.
Print Assumptions C273_clip.

(* ================= C274: polarity and silence ================= *)
Definition ls_neg (s : latst) : latst := mk_ls (l_c s) (l_d s) (- l_1 s) (- l_2 s) (- l_3 s) (- l_4 s) (l_clip s).
Definition cs_neg (s : cplst) : cplst := mk_cs (p_c s) (p_d s) (- p_1 s) (- p_2 s) (- p_3 s) (- p_4 s) (p_clip s).
Lemma clip_neg cg y : clip_reg cg (- y) = clip_reg cg y.
Proof. unfold clip_reg. replace (- y * - y) with (y * y) by ring. reflexivity. Qed.
Lemma lat_pass_neg c c' x s1 s2 : lat_pass c c' (- x) (- s1) (- s2) = let '(f1, g1, y) := lat_pass c c' x s1 s2 in (- f1, - g1, - y).
Proof. unfold lat_pass. cbv zeta. repeat apply f_equal2; ring. Qed.
Lemma cpl_turn_neg a b k x s1 s2 : cpl_turn a b k (- x) (- s1) (- s2) = (- fst (cpl_turn a b k x s1 s2), - snd (cpl_turn a b k x s1 s2)).
Proof. unfold cpl_turn. cbn [fst snd]. apply f_equal2; ring. Qed.
Lemma cpl_out_neg c x s1 s2 : cpl_out c (- x) (- s1) (- s2) = - cpl_out c x s1 s2.
Proof. unfold cpl_out. ring. Qed.
Definition odd_filter {S} (neg : S -> S) (f : S -> R -> S * R) : Prop := forall s x, f (neg s) (- x) = (neg (fst (f s x)), - snd (f s x)).
Lemma odd_a : odd_filter ls_neg iir_12_a.
Proof. intros s x. unfold iir_12_a, ls_neg. cbn [l_c l_d l_1 l_2 l_3 l_4 l_clip]. cbv zeta. rewrite lat_pass_neg. destruct (lat_pass _ _ _ _ _) as [[f1 g1] y]. reflexivity. Qed.
Lemma odd_b : odd_filter ls_neg iir_12_b.
Proof. intros s x. unfold iir_12_b, ls_neg. cbn [l_c l_d l_1 l_2 l_3 l_4 l_clip]. cbv zeta. rewrite lat_pass_neg. destruct (lat_pass _ _ _ _ _) as [[f1 g1] y]. cbn [fst snd l_c l_d l_1 l_2 l_3 l_4 l_clip]. rewrite clip_neg, !Ropp_mult_distr_l. reflexivity. Qed.
Lemma odd_b4 : odd_filter ls_neg iir_24_b.
Proof. intros s x. unfold iir_24_b, ls_neg. cbn [l_c l_d l_1 l_2 l_3 l_4 l_clip]. cbv zeta. rewrite lat_pass_neg. destruct (lat_pass _ _ x _ _) as [[f1 g1] y]. rewrite lat_pass_neg. destruct (lat_pass _ _ y _ _) as [[f3 g3] y2]. cbn [fst snd l_c l_d l_1 l_2 l_3 l_4 l_clip]. rewrite clip_neg, !Ropp_mult_distr_l. reflexivity. Qed.
Lemma odd_cpl rsq four soft : odd_filter cs_neg (cpl_filter rsq four soft).
Proof.
  intros s x. assert (L : forall mr y, limit_reg rsq mr (- y) = limit_reg rsq mr y) by (intros; unfold limit_reg; rewrite Rabs_Ropp; reflexivity).
  destruct four, soft; unfold cpl_filter, iir_24_cfc, iir_24_cfl, iir_12_cfc, iir_12_cfl, cs_neg; cbn [p_c p_d p_1 p_2 p_3 p_4 p_clip]; cbv zeta; repeat rewrite ?cpl_turn_neg, ?cpl_out_neg;
    repeat match goal with |- context [cpl_turn ?a ?b ?k ?z ?u ?v] => let e := fresh "e" in let r1 := fresh "r" in let r2 := fresh "r" in destruct (cpl_turn a b k z u v) as [r1 r2] end;
    cbn [fst snd p_c p_d p_1 p_2 p_3 p_4 p_clip]; rewrite ?clip_neg, ?L, ?Ropp_mult_distr_l; reflexivity.
Qed.
Lemma odd_run {S} (neg : S -> S) f : odd_filter neg f -> forall s x n, sig_state f (neg s) (fun i => - x i) n = neg (sig_state f s x n) /\ sig_out f (neg s) (fun i => - x i) n = - sig_out f s x n.
Proof.
  intros H s x n. assert (P : sig_state f (neg s) (fun i => - x i) n = neg (sig_state f s x n)) by (induction n as [|n IH]; [reflexivity|cbn [sig_state]; rewrite IH, H; reflexivity]).
  split; [exact P|]. unfold sig_out. rewrite P, H. reflexivity.
Qed.
(** Turning the signal and the state upside down turns the output of every IIR filter upside down, clipping and gliding included. *)
Theorem C274_polarity : forall rsq four soft, 
  (forall s x n, sig_out (cpl_filter rsq four soft) (cs_neg s) (fun i => - x i) n = - sig_out (cpl_filter rsq four soft) s x n) /\
  (forall s x n, sig_out iir_12_a (ls_neg s) (fun i => - x i) n = - sig_out iir_12_a s x n) /\
  (forall s x n, sig_out (if four then iir_24_b else iir_12_b) (ls_neg s) (fun i => - x i) n = - sig_out (if four then iir_24_b else iir_12_b) s x n).
Proof.
  intros rsq four soft. split; [|split]; intros s x n.
  - apply (odd_run cs_neg _ (odd_cpl rsq four soft)).
  - apply (odd_run ls_neg _ odd_a).
  - destruct four; [apply (odd_run ls_neg _ odd_b4)|apply (odd_run ls_neg _ odd_b)].
Qed.
Print Assumptions C274_polarity.
(** Silence in a cleared filter gives silence, whatever the coefficients, the glide and the clip register. *)
Theorem C274_silence : forall rsq four soft, 
  (forall c d mr n, sig_out (cpl_filter rsq four soft) (mk_cs c d 0 0 0 0 mr) (fun _ => 0) n = 0) /\
  (forall c d mr n, sig_out iir_12_a (mk_ls c d 0 0 0 0 mr) (fun _ => 0) n = 0) /\
  (forall c d mr n, sig_out (if four then iir_24_b else iir_12_b) (mk_ls c d 0 0 0 0 mr) (fun _ => 0) n = 0).
Proof.
  (* an odd filter in a state that is its own mirror image *)
  assert (G : forall (S : Type) (neg : S -> S) f s, odd_filter neg f -> neg s = s -> forall n, sig_out f s (fun _ => 0) n = 0).
  { intros S0 neg f s H E n. destruct (odd_run neg f H s (fun _ => 0) n) as [_ P]. cbv beta in P. 
    assert (Q : sig_state f (neg s) (fun _ => - 0) n = sig_state f s (fun _ => 0) n) by (rewrite E; clear; induction n as [|n IH]; [reflexivity|cbn [sig_state]; rewrite IH, Ropp_0; reflexivity]).
    assert (Q' : sig_out f (neg s) (fun _ => - 0) n = sig_out f s (fun _ => 0) n) by (unfold sig_out; rewrite Q, Ropp_0; reflexivity). lra. }
  intros rsq four soft. split; [|split]; intros c d mr n.
  - apply (G _ cs_neg _ _ (odd_cpl rsq four soft)). unfold cs_neg. cbn [p_c p_d p_1 p_2 p_3 p_4 p_clip]. rewrite Ropp_0. reflexivity.
  - apply (G _ ls_neg _ _ odd_a). unfold ls_neg. cbn [l_c l_d l_1 l_2 l_3 l_4 l_clip]. rewrite Ropp_0. reflexivity.
  - destruct four; [apply (G _ ls_neg _ _ odd_b4)|apply (G _ ls_neg _ _ odd_b)]; unfold ls_neg; cbn [l_c l_d l_1 l_2 l_3 l_4 l_clip]; rewrite Ropp_0; reflexivity.
Qed.
Print Assumptions C274_silence.
