(** Theorems about the processing of the IIR voice filters (C270, C273, C274). *)
From Coq Require Import Reals List Lra Lia.
From Flocq Require Import Core.Core.
From Coquelicot Require Import Coquelicot.
From Verif Require Import Base Util F32 BlockModel MathModel RampProps IirModel IirProps.
Import ListNotations.
#[local] Open Scope R_scope.

(* the energy stored in the two states, and the energy of the first n samples *)
Definition stored (s : latst) : R := l_1 s * l_1 s + l_2 s * l_2 s.
Fixpoint signal_energy (x : nat -> R) (n : nat) : R := match n with O => 0 | S k => signal_energy x k + x k * x k end.
(* lossless or lossy rotations *)
Definition passive (c : lat) : Prop := k1 c * k1 c + q1 c * q1 c <= 1 /\ k2 c * k2 c + q2 c * q2 c <= 1.
Lemma design_passive f gain clip : f_stable f -> passive (to_lattice f gain clip).
Proof. intros H. destruct (lat_facts f gain clip H) as (_ & _ & Q1 & Q2 & _). unfold passive. split; lra. Qed.
Lemma clip_range cg y : 0 <= cg -> 1 / 10 <= clip_reg cg y <= 1.
Proof. intros H. unfold clip_reg. rewrite smaxR. split; [apply Rmax_l|apply Rmax_lub; [lra|]]. assert (0 <= y * y) by exact (Rle_0_sqr y). assert (0 <= cg * (y * y)) by (apply Rmult_le_pos; assumption). lra. Qed.

Lemma lat_pass_energy c x s1 s2 : passive c -> let '(f1, g1, y) := lat_pass c c x s1 s2 in f1 * f1 + g1 * g1 <= s1 * s1 + s2 * s2 + x * x.
Proof.
  intros (P1 & P2). unfold lat_pass. cbv zeta. set (f2 := q2 c * x - k2 c * s2).
  assert (X1 : (q1 c * f2 - k1 c * s1) * (q1 c * f2 - k1 c * s1) + (k1 c * f2 + q1 c * s1) * (k1 c * f2 + q1 c * s1) = (k1 c * k1 c + q1 c * q1 c) * (f2 * f2 + s1 * s1)) by ring.
  assert (X2 : f2 * f2 + (k2 c * x + q2 c * s2) * (k2 c * x + q2 c * s2) = (k2 c * k2 c + q2 c * q2 c) * (x * x + s2 * s2)) by (unfold f2; ring).
  rewrite X1. assert (0 <= f2 * f2) by exact (Rle_0_sqr f2). assert (0 <= s1 * s1) by exact (Rle_0_sqr s1). assert (0 <= s2 * s2) by exact (Rle_0_sqr s2). assert (0 <= x * x) by exact (Rle_0_sqr x).
  assert (0 <= (k2 c * x + q2 c * s2) * (k2 c * x + q2 c * s2)) by exact (Rle_0_sqr _).
  assert ((k1 c * k1 c + q1 c * q1 c) * (f2 * f2 + s1 * s1) <= 1 * (f2 * f2 + s1 * s1)) by (apply Rmult_le_compat_r; lra).
  assert ((k2 c * k2 c + q2 c * q2 c) * (x * x + s2 * s2) <= 1 * (x * x + s2 * s2)) by (apply Rmult_le_compat_r; lra). lra.
Qed.
Lemma sq_conv a b u : 0 <= u <= 1 -> ((1 - u) * a + u * b) * ((1 - u) * a + u * b) <= (1 - u) * (a * a) + u * (b * b).
Proof. intros H. assert (0 <= (a - b) * (a - b)) by exact (Rle_0_sqr _). assert (0 <= u * (1 - u)) by (apply Rmult_le_pos; lra). assert (0 <= u * (1 - u) * ((a - b) * (a - b))) by (apply Rmult_le_pos; assumption). lra. Qed.
(* coefficients on the way from one passive set to another are passive *)
Definition along (c d : lat) (t : R) : lat := mk_lat (k1 c + t * k1 d) (k2 c + t * k2 d) (q1 c + t * q1 d) (q2 c + t * q2 d) (v1 c + t * v1 d) (v2 c + t * v2 d) (v3 c + t * v3 d) (lcg c).
Lemma along_passive c d N t : 0 <= t <= N -> passive c -> passive (along c d N) -> passive (along c d t).
Proof.
  intros Ht (A1 & A2) (B1 & B2). destruct (Req_dec N 0) as [Z|Z].
  - replace t with 0 by lra. unfold passive, along. cbn [k1 k2 q1 q2]. rewrite !Rmult_0_l, !Rplus_0_r. split; assumption.
  - set (u := t / N). assert (U : 0 <= u <= 1) by (unfold u; split; [apply Rcomplements.Rdiv_le_0_compat; lra|apply Rcomplements.Rle_div_l; lra]).
    assert (W : forall a b, a + t * b = (1 - u) * a + u * (a + N * b)) by (intros; unfold u; field; exact Z).
    unfold passive, along in *. cbn [k1 k2 q1 q2] in *. rewrite !W.
    pose proof (sq_conv (k1 c) (k1 c + N * k1 d) u U). pose proof (sq_conv (q1 c) (q1 c + N * q1 d) u U). pose proof (sq_conv (k2 c) (k2 c + N * k2 d) u U). pose proof (sq_conv (q2 c) (q2 c + N * q2 d) u U).
    assert (M : forall p q, p <= 1 -> q <= 1 -> (1 - u) * p + u * q <= 1) by (intros; nra).
    pose proof (M _ _ A1 B1). pose proof (M _ _ A2 B2). split; lra.
Qed.

(** The lattice never stores more energy than was put in: for every glide between two designs (of any length), every signal, and whatever
    the clip register holds between 0 and 1. *)
Theorem C270_passive : forall x N n c d, (n <= N)%nat -> passive c -> passive (along c d (INR N)) ->
  let s := sig_state iir_12_a (mk_ls c d 0 0 0 0 1) x n in stored s <= signal_energy x n.
Proof.
  intros x N n c d Hn Hc Hd.
  assert (P : forall n, (n <= N)%nat -> let s := sig_state iir_12_a (mk_ls c d 0 0 0 0 1) x n in l_c s = along c d (INR n) /\ l_d s = d /\ stored s <= signal_energy x n).
  { intros m. induction m as [|m IH]; intros Hm.
    - cbn [sig_state signal_energy INR]. split; [|split; [reflexivity|unfold stored; cbn [l_1 l_2]; lra]]. cbn [l_c]. destruct c as [z1 z2 z3 z4 z5 z6 z7 z8]. unfold along. cbn [k1 k2 q1 q2 v1 v2 v3 lcg]. f_equal; ring.
    - specialize (IH ltac:(lia)). cbv zeta in *. cbn [sig_state signal_energy]. set (s := sig_state _ _ _ m) in *. clearbody s. destruct IH as (I1 & I2 & I3).
      unfold iir_12_a. cbv zeta. rewrite I1, I2. replace (lat_add7 (along c d (INR m)) d) with (along c d (INR (S m))) by (rewrite S_INR; unfold lat_add7, along; cbn [k1 k2 q1 q2 v1 v2 v3 lcg]; f_equal; ring).
      assert (Pa : passive (along c d (INR (S m)))) by (apply (along_passive c d (INR N)); [split; [apply pos_INR|apply le_INR; lia]|assumption|assumption]).
      pose proof (lat_pass_energy _ (x m) (l_1 s) (l_2 s) Pa) as E. destruct (lat_pass _ _ _ _ _) as [[f1 g1] y]. cbn [fst l_c l_d]. split; [reflexivity|split; [reflexivity|]]. unfold stored in *. cbn [l_1 l_2]. lra. }
  apply (P n Hn).
Qed.
Print Assumptions C270_passive.
(** The lattice in use, with its clipping, stores no more than was put in while its coefficients stand still: *)
Theorem C270_clipped_passive : forall x n c clip0, passive c -> 0 <= lcg c -> 0 <= clip0 <= 1 ->
  stored (sig_state iir_12_b (mk_ls c lat0 0 0 0 0 clip0) x n) <= signal_energy x n /\
  stored (sig_state iir_24_b (mk_ls c lat0 0 0 0 0 clip0) x n) <= signal_energy x n.
Proof.
  intros x n c clip0 Hc Hg Hk.
  assert (SC : forall a b k, 0 <= k <= 1 -> a * k * (a * k) + b * k * (b * k) <= a * a + b * b).
  { intros a b k K. assert (0 <= a * a) by exact (Rle_0_sqr a). assert (0 <= b * b) by exact (Rle_0_sqr b). assert (k * k <= 1) by nra. assert (k * k * (a * a + b * b) <= 1 * (a * a + b * b)) by (apply Rmult_le_compat_r; lra). lra. }
  split.
  - assert (P : let s := sig_state iir_12_b (mk_ls c lat0 0 0 0 0 clip0) x n in l_c s = c /\ l_d s = lat0 /\ 0 <= l_clip s <= 1 /\ stored s <= signal_energy x n); [|apply P].
    induction n as [|m IH]; [cbn; unfold stored; cbn; repeat split; lra|]. cbv zeta in *. cbn [sig_state signal_energy]. set (s := sig_state _ _ _ m) in *. clearbody s. destruct IH as (I1 & I2 & I3 & I4).
    unfold iir_12_b. cbv zeta. rewrite I1, I2, lat_add_0. pose proof (lat_pass_energy _ (x m) (l_1 s) (l_2 s) Hc) as E. destruct (lat_pass _ _ _ _ _) as [[f1 g1] y]. cbn [fst l_c l_d l_clip].
    split; [reflexivity|split; [reflexivity|]]. split; [pose proof (clip_range (lcg c) y Hg); lra|]. unfold stored in *. cbn [l_1 l_2]. pose proof (SC f1 g1 (l_clip s) I3). lra.
  - assert (P : let s := sig_state iir_24_b (mk_ls c lat0 0 0 0 0 clip0) x n in l_c s = c /\ l_d s = lat0 /\ 0 <= l_clip s <= 1 /\ stored s <= signal_energy x n); [|apply P].
    induction n as [|m IH]; [cbn; unfold stored; cbn; repeat split; lra|]. cbv zeta in *. cbn [sig_state signal_energy]. set (s := sig_state _ _ _ m) in *. clearbody s. destruct IH as (I1 & I2 & I3 & I4).
    unfold iir_24_b. cbv zeta. rewrite I1, I2, lat_add_0. pose proof (lat_pass_energy _ (x m) (l_1 s) (l_2 s) Hc) as E. destruct (lat_pass _ _ (x m) _ _) as [[f1 g1] y]. destruct (lat_pass _ _ y _ _) as [[f3 g3] y2]. cbn [fst l_c l_d l_clip].
    split; [reflexivity|split; [reflexivity|]]. split; [pose proof (clip_range (lcg c) y2 Hg); lra|]. unfold stored in *. cbn [l_1 l_2]. pose proof (SC f1 g1 (l_clip s) I3). lra.
Qed.
Print Assumptions C270_clipped_passive.
(** But while they glide it creates energy: half of each rotation uses the coefficients from before the step and half those from after.
    From one passive setting (a plain delay) towards another in one step, one state of size 1 and one sample of size 1 become 1 and 1.4. *)
Theorem C270_glide_passive_refuted : exists c d s x, passive c /\ passive (lat_add c d) /\ lcg c = 0 /\ lcg d = 0 /\ l_c s = c /\ l_d s = d /\ l_clip s = 1 /\
  stored (fst (iir_12_b s x)) = 296 / 100 /\ stored s + x * x = 2.
Proof.
  exists (mk_lat 0 0 1 1 0 0 0 0), (mk_lat (3 / 5) 0 (-1 / 5) 0 0 0 0 0), (mk_ls (mk_lat 0 0 1 1 0 0 0 0) (mk_lat (3 / 5) 0 (-1 / 5) 0 0 0 0 0) 1 0 0 0 1), 1.
  unfold passive, stored, iir_12_b, lat_pass, lat_add. cbv zeta. cbn [k1 k2 q1 q2 v1 v2 v3 lcg l_c l_d l_clip l_1 l_2 fst]. repeat split; lra.
Qed.
Print Assumptions C270_glide_passive_refuted.

(* ---- coupled form ---- *)
Definition norm2 (a b : R) : R := sqrt (a * a + b * b).
Lemma norm2_tri a b c d : norm2 (a + c) (b + d) <= norm2 a b + norm2 c d.
Proof. unfold norm2. pose proof (triangle 0 0 (- c) (- d) a b) as T. unfold dist_euc, Rsqr in T. 
  replace ((0 - - c) * (0 - - c) + (0 - - d) * (0 - - d)) with (c * c + d * d) in T by ring.
  replace ((0 - a) * (0 - a) + (0 - b) * (0 - b)) with (a * a + b * b) in T by ring.
  replace ((a - - c) * (a - - c) + (b - - d) * (b - - d)) with ((a + c) * (a + c) + (b + d) * (b + d)) in T by ring.
  pose proof (triangle (- c) (- d) a b 0 0) as T2. unfold dist_euc, Rsqr in T2.
  replace ((- c - a) * (- c - a) + (- d - b) * (- d - b)) with ((a + c) * (a + c) + (b + d) * (b + d)) in T2 by ring.
  replace ((- c - 0) * (- c - 0) + (- d - 0) * (- d - 0)) with (c * c + d * d) in T2 by ring.
  replace ((0 - a) * (0 - a) + (0 - b) * (0 - b)) with (a * a + b * b) in T2 by ring. lra. Qed.
Lemma norm2_scale k a b : norm2 (k * a) (k * b) = Rabs k * norm2 a b.
Proof. unfold norm2. replace (k * a * (k * a) + k * b * (k * b)) with (Rsqr k * (a * a + b * b)) by (unfold Rsqr; ring). rewrite sqrt_mult_alt by apply Rle_0_sqr. rewrite sqrt_Rsqr_abs. reflexivity. Qed.
Lemma norm2_turn a b s t : norm2 (a * s - b * t) (b * s + a * t) = norm2 a b * norm2 s t.
Proof. unfold norm2. rewrite <- sqrt_mult_alt. f_equal. ring. assert (0 <= a * a) by exact (Rle_0_sqr a). assert (0 <= b * b) by exact (Rle_0_sqr b). lra. Qed.
Lemma norm2_pos a b : 0 <= norm2 a b. Proof. apply sqrt_pos. Qed.
Lemma norm2_x x : norm2 x 0 = Rabs x.
Proof. unfold norm2. replace (x * x + 0 * 0) with (Rsqr x) by (unfold Rsqr; ring). apply sqrt_Rsqr_abs. Qed.
Lemma le_norm a b : Rabs a <= norm2 a b /\ Rabs b <= norm2 a b.
Proof. assert (A : 0 <= a * a) by exact (Rle_0_sqr a). assert (B : 0 <= b * b) by exact (Rle_0_sqr b). unfold norm2. split; rewrite <- sqrt_Rsqr_abs; apply sqrt_le_1_alt; unfold Rsqr; lra. Qed.

(* coefficients with the poles within radius rho, the input factor 1 and the output taps within M *)
Definition tame (rho M : R) (c : cpl) : Prop :=
  norm2 (ar c) (ai c) <= rho /\ cb1 c = 1 /\ Rabs (c1 c) <= M /\ Rabs (c2 c) <= M /\ Rabs (cd c) <= M /\ 0 <= ccg c.
Definition cpl_along (c d : cpl) (t : R) : cpl := mk_cpl (ar c + t * ar d) (ai c + t * ai d) (cb1 c + t * cb1 d) (c1 c + t * c1 d) (c2 c + t * c2 d) (cd c + t * cd d) (ccg c + t * ccg d).
Lemma conv_abs a b u M : 0 <= u <= 1 -> Rabs a <= M -> Rabs b <= M -> Rabs ((1 - u) * a + u * b) <= M.
Proof. intros U A B. apply Rcomplements.Rabs_le_between in A, B. apply Rcomplements.Rabs_le_between. nra. Qed.
Lemma along_tame rho M c d N t : 0 <= t <= N -> tame rho M c -> tame rho M (cpl_along c d N) -> tame rho M (cpl_along c d t).
Proof.
  intros Ht (A1 & A2 & A3 & A4 & A5 & A6) (B1 & B2 & B3 & B4 & B5 & B6). destruct (Req_dec N 0) as [Z|Z].
  - replace t with 0 by lra. unfold tame, cpl_along. cbn [ar ai cb1 c1 c2 cd ccg]. rewrite !Rmult_0_l, !Rplus_0_r. repeat split; assumption.
  - set (u := t / N). assert (U : 0 <= u <= 1) by (unfold u; split; [apply Rcomplements.Rdiv_le_0_compat; lra|apply Rcomplements.Rle_div_l; lra]).
    assert (W : forall a b, a + t * b = (1 - u) * a + u * (a + N * b)) by (intros; unfold u; field; exact Z).
    unfold tame, cpl_along in *. cbn [ar ai cb1 c1 c2 cd ccg] in *. rewrite !W.
    split; [|split; [rewrite A2 in *; rewrite B2; ring|split; [apply conv_abs; assumption|split; [apply conv_abs; assumption|split; [apply conv_abs; assumption|nra]]]]].
    eapply Rle_trans; [apply norm2_tri|]. rewrite !norm2_scale, !Rabs_pos_eq by lra. nra.
Qed.
Definition limiter_ok (rsq : R -> R) : Prop := forall v, 1 <= v -> 0 <= rsq v <= 1.
Lemma limit_range_reg rsq mr y : limiter_ok rsq -> 0 <= mr <= 1 -> 0 <= limit_reg rsq mr y <= 1.
Proof. intros H Hm. unfold limit_reg. rewrite smaxR. specialize (H (Rmax 1 (2 * Rabs y)) (Rmax_l _ _)). lra. Qed.
Lemma turn_bound rho S X a b x s1 s2 k : 0 <= rho < 1 -> S = X / (1 - rho) -> norm2 a b <= rho -> Rabs x <= X -> 0 <= k <= 1 -> norm2 s1 s2 <= S ->
  norm2 (k * fst (cpl_turn a b 1 x s1 s2)) (k * snd (cpl_turn a b 1 x s1 s2)) <= S.
Proof.
  intros Hr ES Hab Hx Hk Hs. rewrite norm2_scale, Rabs_pos_eq by lra. unfold cpl_turn. cbn [fst snd]. rewrite Rmult_1_r.
  assert (N : norm2 (x + (a * s1 - b * s2)) (b * s1 + a * s2) <= S).
  { rewrite <- (Rplus_0_l (b * s1 + a * s2)). eapply Rle_trans; [apply norm2_tri|]. rewrite norm2_x, norm2_turn.
    assert (norm2 a b * norm2 s1 s2 <= rho * S) by (apply Rmult_le_compat; auto using norm2_pos). assert (X = S * (1 - rho)) by (rewrite ES; field; lra). lra. }
  pose proof (norm2_pos (x + (a * s1 - b * s2)) (b * s1 + a * s2)). nra.
Qed.
Lemma out_bound rho M S X c x s1 s2 : tame rho M c -> 0 <= M -> Rabs x <= X -> norm2 s1 s2 <= S -> Rabs (cpl_out c x s1 s2) <= M * (2 * S + X).
Proof.
  intros (_ & _ & C1 & C2 & D & _) HM Hx Hs. destruct (le_norm s1 s2) as [L1 L2]. unfold cpl_out.
  assert (P : forall p q, Rabs p <= M -> forall Q, Rabs q <= Q -> Rabs (p * q) <= M * Q) by (intros p q Hp Q Hq; rewrite Rabs_mult; apply Rmult_le_compat; auto using Rabs_pos).
  pose proof (P _ s1 C1 S ltac:(lra)). pose proof (P _ s2 C2 S ltac:(lra)). pose proof (P _ x D X Hx).
  eapply Rle_trans; [apply Rabs_triang|]. eapply Rle_trans; [apply Rplus_le_compat_r, Rabs_triang|]. lra.
Qed.
(* the coupled filters as one function: order and kind of limiter *)
Definition cpl_filter (rsq : R -> R) (four soft : bool) : cplst -> R -> cplst * R :=
  if soft then (if four then iir_24_cfl rsq else iir_12_cfl rsq) else (if four then iir_24_cfc else iir_12_cfc).
(** With the poles within radius rho < 1 at both ends of a glide, the four coupled-form filters are bounded for every bounded signal, with
    clipping and limiting and while gliding: the states stay within X / (1 - rho), the output within M (2 X / (1 - rho) + X) for two
    poles, and that bound applied twice for four. *)
Theorem C270_coupled_bounded : forall rsq four soft rho M X x N n c d mr, limiter_ok rsq -> 0 <= rho < 1 -> 0 <= M -> 0 <= X -> (forall i, Rabs (x i) <= X) -> (n < N)%nat -> ccg d = 0 ->
  tame rho M c -> tame rho M (cpl_along c d (INR N)) -> 0 <= mr <= 1 ->
  let st := mk_cs c d 0 0 0 0 mr in let s := sig_state (cpl_filter rsq four soft) st x n in let B1 := M * (2 * (X / (1 - rho)) + X) in
  norm2 (p_1 s) (p_2 s) <= X / (1 - rho) /\ Rabs (sig_out (cpl_filter rsq four soft) st x n) <= (if four then M * (2 * (B1 / (1 - rho)) + B1) else B1).
Proof.
  intros rsq four soft rho M X x N n c d mr Hq Hr HM HX Hx Hn Hcg Hc Hd Hmr st s B1. set (S1 := X / (1 - rho)) in *. set (S2 := B1 / (1 - rho)).
  assert (H1 : 0 <= S1) by (unfold S1; apply Rcomplements.Rdiv_le_0_compat; lra). assert (HB : 0 <= B1) by (unfold B1; apply Rmult_le_pos; lra). assert (H2 : 0 <= S2) by (unfold S2; apply Rcomplements.Rdiv_le_0_compat; lra).
  assert (GL : forall t : R, cpl_add (cpl_along c d t) d = cpl_along c d (t + 1)) by (intros t; unfold cpl_add, cpl_along; cbn [ar ai cb1 c1 c2 cd ccg]; f_equal; ring).
  assert (GL6 : forall t : R, cpl_add6 (cpl_along c d t) d = cpl_along c d (t + 1)) by (intros t; unfold cpl_add6, cpl_along; cbn [ar ai cb1 c1 c2 cd ccg]; rewrite Hcg; f_equal; ring).
  assert (TM : forall m, (m < N)%nat -> tame rho M (cpl_along c d (INR m + 1))) by (intros m Hm; apply (along_tame rho M c d (INR N)); [split; [pose proof (pos_INR m); lra|rewrite <- S_INR; apply le_INR; lia]|exact Hc|exact Hd]).
  set (K := fun (m : nat) (s : cplst) => p_c s = cpl_along c d (INR m) /\ p_d s = d /\ 0 <= p_clip s <= 1 /\ norm2 (p_1 s) (p_2 s) <= S1 /\ norm2 (p_3 s) (p_4 s) <= S2).
  assert (ST : forall m s z, (m < N)%nat -> Rabs z <= X -> K m s -> K (S m) (fst (cpl_filter rsq four soft s z)) /\ Rabs (snd (cpl_filter rsq four soft s z)) <= (if four then M * (2 * S2 + B1) else B1)).
  { intros m q z Hm Hz (K1 & K2 & K3 & K4 & K5). pose proof (TM m Hm) as T. assert (T' := T). destruct T' as (T1 & T2 & _ & _ & _ & T6).
    assert (Y : Rabs (cpl_out (cpl_along c d (INR m + 1)) z (p_1 q) (p_2 q)) <= B1) by (apply (out_bound rho); assumption).
    assert (Y2 : Rabs (cpl_out (cpl_along c d (INR m + 1)) (cpl_out (cpl_along c d (INR m + 1)) z (p_1 q) (p_2 q)) (p_3 q) (p_4 q)) <= M * (2 * S2 + B1)) by (apply (out_bound rho); assumption).
    assert (TB : forall k S0 X0 w s1 s2, S0 = X0 / (1 - rho) -> Rabs w <= X0 -> 0 <= k <= 1 -> norm2 s1 s2 <= S0 -> norm2 (k * fst (cpl_turn (ar (cpl_along c d (INR m + 1))) (ai (cpl_along c d (INR m + 1))) 1 w s1 s2)) (k * snd (cpl_turn (ar (cpl_along c d (INR m + 1))) (ai (cpl_along c d (INR m + 1))) 1 w s1 s2)) <= S0)
      by (intros; eapply turn_bound; eassumption).
    assert (T0 : forall k S0 X0 w s1 s2, S0 = X0 / (1 - rho) -> Rabs w <= X0 -> 0 <= k <= 1 -> norm2 s1 s2 <= S0 -> norm2 (fst (cpl_turn (ar (cpl_along c d (INR m + 1)) * k) (ai (cpl_along c d (INR m + 1)) * k) 1 w s1 s2)) (snd (cpl_turn (ar (cpl_along c d (INR m + 1)) * k) (ai (cpl_along c d (INR m + 1)) * k) 1 w s1 s2)) <= S0).
    { intros k S0 X0 w s1 s2 E Hw Hk Hs. match goal with |- norm2 ?a ?b <= _ => rewrite <- (Rmult_1_l a), <- (Rmult_1_l b) end. eapply turn_bound; [exact Hr|exact E| |exact Hw|lra|exact Hs].
      rewrite (Rmult_comm _ k), (Rmult_comm _ k), norm2_scale, Rabs_pos_eq by lra. pose proof (norm2_pos (ar (cpl_along c d (INR m + 1))) (ai (cpl_along c d (INR m + 1)))). nra. }
    set (cc := cpl_along c d (INR m + 1)) in *.
    assert (IN : cpl_along c d (INR (S m)) = cc) by (rewrite S_INR; reflexivity).
    destruct soft, four; unfold cpl_filter, iir_24_cfl, iir_12_cfl, iir_24_cfc, iir_12_cfc; cbv zeta; rewrite K1, K2, ?GL, ?GL6; fold cc; rewrite T2; unfold K.
    - pose proof (T0 (p_clip q) S1 X z (p_1 q) (p_2 q) eq_refl Hz K3 K4) as R1. pose proof (T0 (p_clip q) S2 B1 _ (p_3 q) (p_4 q) eq_refl Y K3 K5) as R2.
      destruct (cpl_turn _ _ 1 z _ _) as [r1 r2]. destruct (cpl_turn _ _ 1 _ _ _) as [r3 r4]. cbn [fst snd p_c p_d p_clip p_1 p_2 p_3 p_4] in *. rewrite IN. repeat (apply conj); try assumption; try reflexivity; apply limit_range_reg; assumption.
    - pose proof (T0 (p_clip q) S1 X z (p_1 q) (p_2 q) eq_refl Hz K3 K4) as R1.
      destruct (cpl_turn _ _ 1 z _ _) as [r1 r2]. cbn [fst snd p_c p_d p_clip p_1 p_2 p_3 p_4] in *. rewrite IN. repeat (apply conj); try assumption; try reflexivity; apply limit_range_reg; assumption.
    - pose proof (TB (p_clip q) S1 X z (p_1 q) (p_2 q) eq_refl Hz K3 K4) as R1. pose proof (TB (p_clip q) S2 B1 _ (p_3 q) (p_4 q) eq_refl Y K3 K5) as R2.
      destruct (cpl_turn _ _ 1 z _ _) as [r1 r2]. destruct (cpl_turn _ _ 1 _ _ _) as [r3 r4]. cbn [fst snd p_c p_d p_clip p_1 p_2 p_3 p_4] in *. rewrite IN, !(Rmult_comm _ (p_clip q)).
      pose proof (clip_range (ccg cc) (cpl_out cc (cpl_out cc z (p_1 q) (p_2 q)) (p_3 q) (p_4 q)) T6). repeat (apply conj); try assumption; try reflexivity; lra.
    - pose proof (TB (p_clip q) S1 X z (p_1 q) (p_2 q) eq_refl Hz K3 K4) as R1.
      destruct (cpl_turn _ _ 1 z _ _) as [r1 r2]. cbn [fst snd p_c p_d p_clip p_1 p_2 p_3 p_4] in *. rewrite IN, !(Rmult_comm _ (p_clip q)).
      pose proof (clip_range (ccg cc) (cpl_out cc z (p_1 q) (p_2 q)) T6). repeat (apply conj); try assumption; try reflexivity; lra. }
  assert (N0 : norm2 0 0 = 0) by (rewrite norm2_x; apply Rabs_R0).
  assert (P : forall m, (m <= N)%nat -> K m (sig_state (cpl_filter rsq four soft) st x m)).
  { intros m. induction m as [|m IH]; intros Hm.
    - unfold K, st. cbn [sig_state p_c p_d p_clip p_1 p_2 p_3 p_4 INR]. rewrite N0. refine (conj _ (conj eq_refl (conj Hmr (conj H1 H2)))). destruct c as [z1 z2 z3 z4 z5 z6 z7]. unfold cpl_along. cbn [ar ai cb1 c1 c2 cd ccg]. f_equal; ring.
    - cbn [sig_state]. apply (proj1 (ST m _ (x m) ltac:(lia) (Hx m) (IH ltac:(lia)))). }
  split; [apply (P n ltac:(lia))|]. unfold sig_out. apply (ST n _ (x n) Hn (Hx n) (P n ltac:(lia))).
Qed.
Print Assumptions C270_coupled_bounded.
Example C270_ex : tame (9 / 10) 1 (mk_cpl (9 / 10) 0 1 1 1 1 0) /\ limiter_ok (fun v => / sqrt v) /\ passive (mk_lat 0 0 1 1 0 0 0 0).
Proof.
  split; [unfold tame; cbn [ar ai cb1 c1 c2 cd ccg]; rewrite norm2_x, !Rabs_pos_eq by lra; repeat split; lra|]. split; [|unfold passive; cbn [k1 k2 q1 q2]; lra].
  intros v Hv. assert (S : 1 <= sqrt v) by (rewrite <- sqrt_1; apply sqrt_le_1_alt; exact Hv). split; [left; apply Rinv_0_lt_compat; lra|]. rewrite <- Rinv_1. apply Rinv_le_contravar; lra.
Qed.
