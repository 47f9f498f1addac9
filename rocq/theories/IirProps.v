(** Theorems about the IIR voice filters (C267). *)
From Coq Require Import Reals List Lra Lia.
From Flocq Require Import Core.Core.
From Coquelicot Require Import Coquelicot.
From Verif Require Import Base Util F32 BlockModel MathModel RampProps IirModel.
Import ListNotations.
#[local] Open Scope R_scope.

(** Specification: the difference equation of a biquad from rest *)
Definition biquad_eq (b0 b1 b2 a1 a2 : R) (x y : nat -> R) : Prop :=
  y 0%nat = b0 * x 0%nat /\ y 1%nat = b0 * x 1%nat + b1 * x 0%nat - a1 * y 0%nat /\
  forall n, y (n + 2)%nat = b0 * x (n + 2)%nat + b1 * x (n + 1)%nat + b2 * x n - a1 * y (n + 1)%nat - a2 * y n.
(* the equation of a design with coefficients (a0, ...) and a gain *)
Definition design_eq (f : fcs) (gain : R) : (nat -> R) -> (nat -> R) -> Prop :=
  biquad_eq (fb0 f * gain / fa0 f) (fb1 f * gain / fa0 f) (fb2 f * gain / fa0 f) (fa1 f / fa0 f) (fa2 f / fa0 f).
(* both poles inside the unit circle *)
Definition f_stable (f : fcs) : Prop := 0 < fa0 f /\ Rabs (fa2 f) < fa0 f /\ Rabs (fa1 f) < fa0 f + fa2 f.

(* direct form II, used in the proofs only *)
Definition df2 (b0 b1 b2 a1 a2 : R) (s : R * R) (x : R) : (R * R) * R :=
  let w := x - a1 * fst s - a2 * snd s in ((w, fst s), b0 * w + b1 * fst s + b2 * snd s).
Lemma df2_eq b0 b1 b2 a1 a2 x : biquad_eq b0 b1 b2 a1 a2 x (sig_out (df2 b0 b1 b2 a1 a2) (0, 0) x).
Proof.
  unfold biquad_eq, sig_out. split; [|split].
  - unfold df2. cbn [sig_state fst snd]. ring.
  - unfold df2. cbn [sig_state fst snd]. ring.
  - intros n. replace (n + 2)%nat with (S (S n)) by lia. replace (n + 1)%nat with (S n) by lia. cbn [sig_state].
    destruct (sig_state (df2 b0 b1 b2 a1 a2) (0, 0) x n) as [w1 w2]. unfold df2. cbn [fst snd]. ring.
Qed.
Lemma biquad_ext b0 b1 b2 a1 a2 x y y' : (forall n, y n = y' n) -> biquad_eq b0 b1 b2 a1 a2 x y -> biquad_eq b0 b1 b2 a1 a2 x y'.
Proof. intros E (H0 & H1 & H2). split; [|split]; intros; rewrite <- ?E; auto. Qed.
(* a relation between a filter and the direct form, kept by every sample, gives the same output *)
Lemma simulate {S T} (f : S -> R -> S * R) (g : T -> R -> T * R) (K : S -> T -> Prop) s t x :
  K s t -> (forall s t x, K s t -> K (fst (f s x)) (fst (g t x)) /\ snd (f s x) = snd (g t x)) ->
  forall n, K (sig_state f s x n) (sig_state g t x n) /\ sig_out f s x n = sig_out g t x n.
Proof.
  intros H0 H n. assert (P : K (sig_state f s x n) (sig_state g t x n)) by (induction n as [|n IH]; [exact H0|cbn [sig_state]; apply H; exact IH]).
  split; [exact P|]. apply H. exact P.
Qed.

(* ---- the lattice ---- *)
Lemma lat_facts f gain clip : f_stable f -> let c := to_lattice f gain clip in
  let a1 := fa1 f / fa0 f in let a2 := fa2 f / fa0 f in let b0 := fb0 f * gain / fa0 f in let b1 := fb1 f * gain / fa0 f in let b2 := fb2 f * gain / fa0 f in
  k2 c = a2 /\ k1 c * (1 + a2) = a1 /\ q1 c * q1 c = 1 - k1 c * k1 c /\ q2 c * q2 c = 1 - k2 c * k2 c /\ 0 < q1 c /\ 0 < q2 c /\
  v3 c = b2 /\ v2 c * q2 c = b1 - a1 * b2 /\ v1 c * (q1 c * q2 c) = b0 - k1 c * (b1 - a1 * b2) - a2 * b2 /\ lcg c = clip /\ -1 < k1 c < 1 /\ -1 < a2 < 1.
Proof.
  intros (A0 & A2 & A1) c a1 a2 b0 b1 b2. apply Rabs_def2 in A2. apply Rabs_def2 in A1.
  assert (I : 0 < / fa0 f) by (apply Rinv_0_lt_compat; exact A0). assert (II : fa0 f * / fa0 f = 1) by (apply Rinv_r; lra).
  assert (B2 : -1 < a2 < 1). { unfold a2, Rdiv. split; nra. }
  assert (B1 : - (1 + a2) < a1 < 1 + a2). { unfold a1, a2, Rdiv. split; nra. }
  assert (E2 : k2 c = a2) by (unfold c, to_lattice, a2; cbn [k2]; field; lra).
  assert (E1 : k1 c = a1 / (1 + a2)). { unfold c, to_lattice. cbv zeta. cbn [k1]. replace (fa1 f * (1 / fa0 f)) with a1 by (unfold a1; field; lra). replace (fa2 f * (1 / fa0 f)) with a2 by (unfold a2; field; lra). reflexivity. }
  assert (K1 : -1 < k1 c < 1). { rewrite E1. split; [apply Rcomplements.Rlt_div_r|apply Rcomplements.Rlt_div_l]; lra. }
  assert (K11 : 0 < 1 - k1 c * k1 c) by nra. assert (K22 : 0 < 1 - k2 c * k2 c) by (rewrite E2; nra).
  assert (F1 : q1 c = sqrt (1 - k1 c * k1 c)) by (rewrite <- (Rabs_pos_eq (1 - k1 c * k1 c)) by lra; reflexivity).
  assert (F2 : q2 c = sqrt (1 - k2 c * k2 c)) by (rewrite <- (Rabs_pos_eq (1 - k2 c * k2 c)) by lra; reflexivity).
  assert (P1 : 0 < q1 c) by (rewrite F1; apply sqrt_lt_R0; exact K11). assert (P2 : 0 < q2 c) by (rewrite F2; apply sqrt_lt_R0; exact K22).
  assert (V3 : v3 c = b2) by (unfold c, to_lattice, b2; cbn [v3]; field; lra).
  assert (V2 : v2 c = (b1 - a1 * b2) / q2 c). { unfold c, to_lattice. cbv zeta. cbn [v2 q2]. f_equal. unfold a1, b1, b2. field. lra. }
  assert (V1 : v1 c = (b0 - k1 c * v2 c * q2 c - k2 c * v3 c) / (q1 c * q2 c)).
  { unfold c, to_lattice. cbv zeta. cbn [v1 q1 q2 k1 k2 v2 v3]. f_equal. f_equal. f_equal. unfold b0. field. lra. }
  refine (conj E2 (conj _ (conj _ (conj _ (conj P1 (conj P2 (conj V3 (conj _ (conj _ (conj eq_refl (conj K1 B2))))))))))).
  - rewrite E1. field. lra.
  - rewrite F1. apply sqrt_sqrt. lra.
  - rewrite F2. apply sqrt_sqrt. lra.
  - rewrite V2. field. lra.
  - rewrite V1, V2, V3, E2. field. split; lra.
Qed.

Lemma lat_pass_df2 f gain clip x w1 w2 : f_stable f -> let c := to_lattice f gain clip in
  let r := df2 (fb0 f * gain / fa0 f) (fb1 f * gain / fa0 f) (fb2 f * gain / fa0 f) (fa1 f / fa0 f) (fa2 f / fa0 f) (w1, w2) x in
  let w := fst (fst r) in
  lat_pass c c x (q1 c * q2 c * w1) (q2 c * (k1 c * w1 + w2)) = (q1 c * q2 c * w, q2 c * (k1 c * w + w1), snd r) /\ snd (fst r) = w1.
Proof.
  intros H c r w. split; [|reflexivity]. destruct (lat_facts f gain clip H) as (E2 & E1 & Q1 & Q2 & _ & _ & V3 & V2 & V1 & _). fold c in E2, E1, Q1, Q2, V3, V2, V1.
  unfold w, r, df2, lat_pass. cbv zeta. cbn [fst snd]. clearbody c.
  set (a1 := fa1 f / fa0 f) in *. set (a2 := fa2 f / fa0 f) in *. set (b0 := fb0 f * gain / fa0 f) in *. set (b1 := fb1 f * gain / fa0 f) in *. set (b2 := fb2 f * gain / fa0 f) in *.
  clearbody a1 a2 b0 b1 b2. destruct c as [k1_ k2_ q1_ q2_ v1_ v2_ v3_ g_]. cbn [k1 k2 q1 q2 v1 v2 v3] in *. subst k2_ v3_ a1.
  assert (F1 : q1_ * (q2_ * x - a2 * (q2_ * (k1_ * w1 + w2))) - k1_ * (q1_ * q2_ * w1) = q1_ * q2_ * (x - k1_ * (1 + a2) * w1 - a2 * w2)) by ring.
  assert (G1 : k1_ * (q2_ * x - a2 * (q2_ * (k1_ * w1 + w2))) + q1_ * (q1_ * q2_ * w1) = q2_ * (k1_ * (x - k1_ * (1 + a2) * w1 - a2 * w2) + w1)).
  { replace (q1_ * (q1_ * q2_ * w1)) with (q1_ * q1_ * (q2_ * w1)) by ring. rewrite Q1. ring. }
  rewrite F1, G1. set (w0 := x - k1_ * (1 + a2) * w1 - a2 * w2).
  assert (G2 : a2 * x + q2_ * (q2_ * (k1_ * w1 + w2)) = a2 * w0 + k1_ * (1 + a2) * w1 + w2).
  { replace (q2_ * (q2_ * (k1_ * w1 + w2))) with (q2_ * q2_ * (k1_ * w1 + w2)) by ring. rewrite Q2. unfold w0. ring. }
  rewrite G2. apply f_equal2; [reflexivity|].
  replace (v2_ * (q2_ * (k1_ * w0 + w1))) with ((v2_ * q2_) * (k1_ * w0 + w1)) by ring. rewrite V2. replace (v1_ * (q1_ * q2_ * w0)) with (v1_ * (q1_ * q2_) * w0) by ring. rewrite V1. ring.
Qed.

Definition lat0 : lat := mk_lat 0 0 0 0 0 0 0 0.
Definition cpl0 : cpl := mk_cpl 0 0 0 0 0 0 0.
(* a filter at rest with fixed coefficients and the clip register open *)
Definition lat_rest (c : lat) : latst := mk_ls c lat0 0 0 0 0 1.
Definition cpl_rest (c : cpl) : cplst := mk_cs c cpl0 0 0 0 0 1.
Lemma lat_add_0 c : lat_add c lat0 = c.
Proof. destruct c. unfold lat_add, lat0. cbn. f_equal; ring. Qed.
Lemma lat_add7_0 c : lat_add7 c lat0 = c.
Proof. destruct c. unfold lat_add7, lat0. cbn. f_equal; ring. Qed.
Lemma cpl_add_0 c : cpl_add c cpl0 = c.
Proof. destruct c. unfold cpl_add, cpl0. cbn. f_equal; ring. Qed.
Lemma clip_open y : clip_reg 0 y = 1.
Proof. unfold clip_reg. rewrite smaxR. rewrite Rmult_0_l, Rminus_0_r. apply Rmax_right. lra. Qed.

(** With the clip gain at 0 the lattice of a stable design is exactly the biquad of that design, for every signal; the fourth-order filter
    is two of them in a row. *)
Theorem C267_lattice : forall f gain, f_stable f -> let c := to_lattice f gain 0 in
  forall x, design_eq f gain x (sig_out iir_12_a (lat_rest c) x) /\ design_eq f gain x (sig_out iir_12_b (lat_rest c) x) /\
    exists u, design_eq f gain x u /\ design_eq f gain u (sig_out iir_24_b (lat_rest c) x).
Proof.
  intros f gain H c x. unfold design_eq. set (g := df2 (fb0 f * gain / fa0 f) (fb1 f * gain / fa0 f) (fb2 f * gain / fa0 f) (fa1 f / fa0 f) (fa2 f / fa0 f)).
  set (hold := fun (s1 s2 : R) (t : R * R) => s1 = q1 c * q2 c * fst t /\ s2 = q2 c * (k1 c * fst t + snd t)).
  assert (G : lcg c = 0) by reflexivity.
  assert (PASS : forall s1 s2 t z, hold s1 s2 t -> exists f1 g1 y, lat_pass c c z s1 s2 = (f1, g1, y) /\ hold f1 g1 (fst (g t z)) /\ y = snd (g t z)).
  { intros s1 s2 [w1 w2] z [-> ->]. cbn [fst snd]. destruct (lat_pass_df2 f gain 0 z w1 w2 H) as [E1 E2]. fold c g in E1, E2. rewrite E1. do 3 eexists. split; [reflexivity|]. split; [|reflexivity]. split; [reflexivity|]. rewrite E2. reflexivity. }
  assert (H0 : hold 0 0 (0, 0)) by (split; cbn [fst snd]; ring).
  split; [|split].
  - apply (biquad_ext _ _ _ _ _ _ (sig_out g (0, 0) x)); [|apply df2_eq]. intros n. symmetry.
    apply (simulate iir_12_a g (fun s t => l_c s = c /\ l_d s = lat0 /\ hold (l_1 s) (l_2 s) t)); [split; [reflexivity|split; [reflexivity|exact H0]]|].
    intros s t z (C & D & K). unfold iir_12_a. cbv zeta. rewrite C, D, lat_add7_0. destruct (PASS _ _ _ z K) as (f1 & g1 & y & -> & K' & ->). cbn [fst snd l_c l_d l_1 l_2]. auto.
  - apply (biquad_ext _ _ _ _ _ _ (sig_out g (0, 0) x)); [|apply df2_eq]. intros n. symmetry.
    apply (simulate iir_12_b g (fun s t => l_c s = c /\ l_d s = lat0 /\ l_clip s = 1 /\ hold (l_1 s) (l_2 s) t)); [repeat split; apply H0|].
    intros s t z (C & D & L & K). unfold iir_12_b. cbv zeta. rewrite C, D, L, lat_add_0, G. destruct (PASS _ _ _ z K) as (f1 & g1 & y & -> & K' & ->). cbn [fst snd l_c l_d l_1 l_2 l_clip]. rewrite !Rmult_1_r, clip_open. auto.
  - exists (sig_out g (0, 0) x). split; [apply df2_eq|]. set (u := sig_out g (0, 0) x). apply (biquad_ext _ _ _ _ _ _ (sig_out g (0, 0) u)); [|apply df2_eq].
    assert (P : forall n, let s := sig_state iir_24_b (lat_rest c) x n in
      l_c s = c /\ l_d s = lat0 /\ l_clip s = 1 /\ hold (l_1 s) (l_2 s) (sig_state g (0, 0) x n) /\ hold (l_3 s) (l_4 s) (sig_state g (0, 0) u n)).
    { intros n. induction n as [|n IH]; [repeat split; apply H0|]. cbv zeta in *. cbn [sig_state]. set (s := sig_state iir_24_b _ _ _) in *. clearbody s. destruct IH as (C & D & L & K1 & K2).
      unfold iir_24_b. cbv zeta. rewrite C, D, L, lat_add_0, G. destruct (PASS _ _ _ (x n) K1) as (f1 & g1 & y1 & -> & K1' & ->). change (snd (g (sig_state g (0, 0) x n) (x n))) with (u n).
      destruct (PASS _ _ _ (u n) K2) as (f3 & g3 & y3 & -> & K2' & ->). cbn [fst snd l_c l_d l_1 l_2 l_3 l_4 l_clip]. rewrite !Rmult_1_r, clip_open. auto. }
    intros n. specialize (P n). cbv zeta in P. unfold sig_out at 2. set (s := sig_state iir_24_b _ _ _) in *. clearbody s. destruct P as (C & D & L & K1 & K2).
    unfold iir_24_b. cbv zeta. rewrite C, D, lat_add_0. destruct (PASS _ _ _ (x n) K1) as (f1 & g1 & y1 & -> & K1' & ->). change (snd (g (sig_state g (0, 0) x n) (x n))) with (u n).
    destruct (PASS _ _ _ (u n) K2) as (f3 & g3 & y3 & -> & K2' & ->). reflexivity.
Qed.
Print Assumptions C267_lattice.

(* ---- the coupled form ---- *)
(* complex poles, apart by more than the smallest imaginary part the code allows *)
Definition f_complex (f : fcs) : Prop := 0 < fa0 f /\ (16 * (1192092896 / 10000000000000000)) * (16 * (1192092896 / 10000000000000000)) <= 4 * (fa2 f / fa0 f) - fa1 f / fa0 f * (fa1 f / fa0 f).
Lemma cpl_facts f gain clip : f_complex f -> let c := to_coupled f gain clip in
  let a1 := fa1 f / fa0 f in let a2 := fa2 f / fa0 f in let b0 := fb0 f * gain / fa0 f in let b1 := fb1 f * gain / fa0 f in let b2 := fb2 f * gain / fa0 f in
  ar c = - a1 / 2 /\ ar c * ar c + ai c * ai c = a2 /\ cb1 c = 1 /\ c1 c = b1 - a1 * b0 /\ c2 c * ai c = c1 c * ar c + (b2 - a2 * b0) /\ cd c = b0 /\ ccg c = clip /\ 0 < ai c.
Proof.
  intros (A0 & D) c a1 a2 b0 b1 b2. fold a1 a2 in D. set (e := 1192092896 / 10000000000000000) in *. assert (Ee : 0 < e) by (unfold e; lra).
  assert (N1 : fa1 f * (1 / fa0 f) = a1) by (unfold a1; field; lra). assert (N2 : fa2 f * (1 / fa0 f) = a2) by (unfold a2; field; lra).
  assert (M0 : fb0 f * gain * (1 / fa0 f) = b0) by (unfold b0; field; lra). assert (M1 : fb1 f * gain * (1 / fa0 f) = b1) by (unfold b1; field; lra). assert (M2 : fb2 f * gain * (1 / fa0 f) = b2) by (unfold b2; field; lra).
  assert (AR : ar c = - a1 / 2) by (unfold c, to_coupled; cbv zeta; cbn [ar]; rewrite N1; field).
  assert (AI : ai c = 1 / 2 * sqrt (4 * a2 - a1 * a1)).
  { unfold c, to_coupled. cbv zeta. cbn [ai]. rewrite N1, N2. fold e. assert (0 <= 16 * e * (16 * e)) by nra. rewrite Rmin_right by lra. replace (- (a1 * a1 - 4 * a2)) with (4 * a2 - a1 * a1) by ring. apply Rmax_left.
    assert (Q : sqrt (16 * e * (16 * e)) <= sqrt (4 * a2 - a1 * a1)) by (apply sqrt_le_1_alt; exact D). rewrite sqrt_square in Q by lra. lra. }
  assert (P : 0 < 4 * a2 - a1 * a1). { assert (0 < 16 * e * (16 * e)) by (apply Rmult_lt_0_compat; lra). lra. }
  assert (PI : 0 < ai c) by (rewrite AI; assert (0 < sqrt (4 * a2 - a1 * a1)) by (apply sqrt_lt_R0; exact P); lra).
  assert (SQ : ai c * ai c = (4 * a2 - a1 * a1) / 4). { rewrite AI. replace (1 / 2 * sqrt (4 * a2 - a1 * a1) * (1 / 2 * sqrt (4 * a2 - a1 * a1))) with (1 / 4 * (sqrt (4 * a2 - a1 * a1) * sqrt (4 * a2 - a1 * a1))) by field. rewrite sqrt_sqrt by lra. field. }
  assert (C1 : c1 c = b1 - a1 * b0) by (unfold c, to_coupled; cbv zeta; cbn [c1]; rewrite N1, M0, M1; reflexivity).
  refine (conj AR (conj _ (conj eq_refl (conj C1 (conj _ (conj M0 (conj eq_refl PI))))))).
  - rewrite SQ, AR. field.
  - assert (E : c2 c = (c1 c * ar c + (b2 - a2 * b0)) / ai c) by (unfold c, to_coupled; cbv zeta; cbn [c1 c2 ar ai]; rewrite M2, M0, N2; reflexivity). rewrite E. field. lra.
Qed.
Theorem C267_coupled : forall f gain, f_complex f -> let c := to_coupled f gain 0 in
  forall x, design_eq f gain x (sig_out iir_12_cfc (cpl_rest c) x) /\
    exists u, design_eq f gain x u /\ design_eq f gain u (sig_out iir_24_cfc (cpl_rest c) x).
Proof.
  intros f gain H c x. unfold design_eq. destruct (cpl_facts f gain 0 H) as (AR & A2 & B1 & C1 & C2 & D0 & G & _). fold c in AR, A2, B1, C1, C2, D0, G.
  set (g := df2 (fb0 f * gain / fa0 f) (fb1 f * gain / fa0 f) (fb2 f * gain / fa0 f) (fa1 f / fa0 f) (fa2 f / fa0 f)).
  set (hold := fun (s1 s2 : R) (t : R * R) => s1 = fst t - ar c * snd t /\ s2 = ai c * snd t).
  assert (PASS : forall s1 s2 t z, hold s1 s2 t -> (exists r1 r2, cpl_turn (ar c) (ai c) (cb1 c) z s1 s2 = (r1, r2) /\ hold r1 r2 (fst (g t z))) /\ cpl_out c z s1 s2 = snd (g t z)).
  { intros s1 s2 [w1 w2] z [-> ->]. cbn [fst snd]. unfold cpl_turn, cpl_out, hold, g, df2. cbn [fst snd]. rewrite B1. split.
    - do 2 eexists. split; [reflexivity|]. split; [|ring]. rewrite <- A2. assert (E : fa1 f / fa0 f = - 2 * ar c) by lra. rewrite E. ring.
    - replace (c2 c * (ai c * w2)) with (c2 c * ai c * w2) by ring. rewrite C2, C1, D0. assert (E : fa1 f / fa0 f = - 2 * ar c) by lra. rewrite E. ring. }
  assert (H0 : hold 0 0 (0, 0)) by (split; cbn [fst snd]; ring).
  split.
  - apply (biquad_ext _ _ _ _ _ _ (sig_out g (0, 0) x)); [|apply df2_eq]. intros n. symmetry.
    apply (simulate iir_12_cfc g (fun s t => p_c s = c /\ p_d s = cpl0 /\ p_clip s = 1 /\ hold (p_1 s) (p_2 s) t)); [repeat split; apply H0|].
    intros s t z (C & D & L & K). unfold iir_12_cfc. cbv zeta. rewrite C, D, L, cpl_add_0, G. destruct (PASS _ _ _ z K) as ((r1 & r2 & -> & K') & ->). cbn [fst snd p_c p_d p_1 p_2 p_clip]. rewrite !Rmult_1_r, clip_open. auto.
  - exists (sig_out g (0, 0) x). split; [apply df2_eq|]. set (u := sig_out g (0, 0) x). apply (biquad_ext _ _ _ _ _ _ (sig_out g (0, 0) u)); [|apply df2_eq].
    assert (P : forall n, let s := sig_state iir_24_cfc (cpl_rest c) x n in
      p_c s = c /\ p_d s = cpl0 /\ p_clip s = 1 /\ hold (p_1 s) (p_2 s) (sig_state g (0, 0) x n) /\ hold (p_3 s) (p_4 s) (sig_state g (0, 0) u n)).
    { intros n. induction n as [|n IH]; [repeat split; apply H0|]. cbv zeta in *. cbn [sig_state]. set (s := sig_state iir_24_cfc _ _ _) in *. clearbody s. destruct IH as (C & D & L & K1 & K2).
      unfold iir_24_cfc. cbv zeta. rewrite C, D, L, cpl_add_0, G. destruct (PASS _ _ _ (x n) K1) as ((r1 & r2 & -> & K1') & ->). change (snd (g (sig_state g (0, 0) x n) (x n))) with (u n).
      destruct (PASS _ _ _ (u n) K2) as ((r3 & r4 & -> & K2') & ->). cbn [fst snd p_c p_d p_1 p_2 p_3 p_4 p_clip]. rewrite !Rmult_1_r, clip_open. auto. }
    intros n. specialize (P n). cbv zeta in P. unfold sig_out at 2. set (s := sig_state iir_24_cfc _ _ _) in *. clearbody s. destruct P as (C & D & L & K1 & K2).
    unfold iir_24_cfc. cbv zeta. rewrite C, D, cpl_add_0. destruct (PASS _ _ _ (x n) K1) as ((r1 & r2 & -> & K1') & ->). change (snd (g (sig_state g (0, 0) x n) (x n))) with (u n).
    destruct (PASS _ _ _ (u n) K2) as ((r3 & r4 & -> & K2') & ->). reflexivity.
Qed.
Print Assumptions C267_coupled.
(* both kinds of designs exist *)
Example C267_ex : f_stable (f_lowpass (1 / 2) (3 / 5)) /\ f_complex (f_lowpass (1 / 2) (3 / 5)).
Proof. unfold f_stable, f_complex, f_lowpass. cbn [fa0 fa1 fa2]. split; [split; [lra|]; split; apply Rabs_def1; lra|]. split; [lra|]. field_simplify; lra. Qed.
