(** Theorems about the Runge-Kutta ladder (C261-C263). *)
From Coq Require Import Reals Lra Psatz Lia List.
From Flocq Require Import Core.Core.
From Coquelicot Require Import Coquelicot.
From Verif Require Import Base Util F32 BlockModel MathModel LadderModel RampProps ClipProps FastProps FastProps2 FiltProps.
Import ListNotations.
Local Open Scope R_scope.

(* ================= C261: the saturation and the coefficients ================= *)

Lemma rk_clip_cubic x : rk_clip x = cubic (1 / 27) 3 x.
Proof.
  unfold rk_clip, cubic, clip. rewrite sminR, smaxR. cbv zeta.
  replace (Rmin 1 (Rmax (-1) (x * (1 / 3)))) with (1 / 3 * Rmax (Rmin x 3) (- (3))); [field|].
  unfold Rmin, Rmax. repeat (destruct (Rle_dec _ _)); lra.
Qed.
(** the saturation is odd, nondecreasing, within [-2, 2], 2 from 3 on *)
Theorem C261_saturation : odd_fn rk_clip /\ nondecreasing rk_clip /\ bounded_by rk_clip 2 /\ (forall x, 3 <= x -> rk_clip x = 2) /\
  (forall x, -3 <= x <= 3 -> rk_clip x = x - x * x * x / 27).
Proof.
  destruct (sc_ext _ _ _ rk_clip_cubic (cubic_ok (1 / 27) 3 ltac:(lra) ltac:(lra) ltac:(lra))) as (A & B & C).
  split; [exact A|]. split; [exact B|]. split; [intros x; specialize (C x); lra|]. split.
  - intros x H. rewrite rk_clip_cubic. unfold cubic. rewrite clip_above by lra. lra.
  - intros x H. rewrite rk_clip_cubic. unfold cubic, clip. rewrite (Rmin_left x 3) by lra. rewrite Rmax_left by lra. field.
Qed.
Print Assumptions C261_saturation.

Lemma ladder_freq_range n2p sr : 50 / 3 <= sr -> 5 <= ladder_freq n2p sr <= sr * (3 / 10).
Proof. intros H. unfold ladder_freq. rewrite limR. split; [apply Rmin_glb; [apply Rmax_r|lra]|apply Rmin_r]. Qed.
(** For every note, resonance (any number) and sample rate: the angular frequency is 2 pi times a frequency between 5 Hz and 0.3 of the
    rate, the frequency asked for when that is inside, and the resonance is 4.5 times the knob, limited to [0, 1]. *)
Theorem C261_coefficients : forall gc n2p sr reso, 50 / 3 <= sr ->
  let c := rk_coeff gc n2p sr reso in
  2 * PI * 5 <= rk_cut c <= 2 * PI * (3 / 10 * sr) /\ 0 <= rk_res c <= 45 / 10 /\
  (5 <= n2p * (817579891564371 / 100000000000000) <= sr * (3 / 10) -> rk_cut c = 2 * PI * (n2p * (817579891564371 / 100000000000000))) /\
  (0 <= reso <= 1 -> rk_res c = 45 / 10 * reso) /\ (forall g, rk_gc (rk_coeff (Some g) n2p sr reso) = g) /\ rk_gc (rk_coeff None n2p sr reso) = 0.
Proof.
  intros gc n2p sr reso H c. unfold c, rk_coeff. cbn [rk_cut rk_res rk_gc]. pose proof (ladder_freq_range n2p sr H) as F. pose proof PI_RGT_0 as P.
  split; [set (f := ladder_freq n2p sr) in *; clearbody f; nra|]. rewrite limR.
  split; [unfold Rmin, Rmax; destruct (Rle_dec reso 0); destruct (Rle_dec _ 1); lra|].
  split; [intros G; unfold ladder_freq; rewrite limR, Rmax_left by lra; rewrite Rmin_left by lra; ring|].
  split; [intros G; rewrite Rmax_left by lra; rewrite Rmin_left by lra; ring|]. split; reflexivity.
Qed.
Print Assumptions C261_coefficients.

(** after each sample the coefficients have moved by exactly one step: the glide is the same as that of a filter without oversampling *)
Theorem C261_glide : forall sr s x, let s' := fst (rk_process sr s x) in
  rs_d s' = rs_d s /\ rk_cut (rs_c s') = rk_cut (rs_c s) + rk_cut (rs_d s) /\ rk_res (rs_c s') = rk_res (rs_c s) + rk_res (rs_d s) /\ rk_gc (rs_c s') = rk_gc (rs_c s) + rk_gc (rs_d s).
Proof. intros sr s x s'. unfold s', rk_process, rk_pass, rk_move. cbn. repeat split; field. Qed.
Print Assumptions C261_glide.

(* ================= C262: bounded ================= *)

Definition v0 (v : vec) : R := fst (fst (fst v)).
Definition v1 (v : vec) : R := snd (fst (fst v)).
Definition v2 (v : vec) : R := snd (fst v).
Definition v3 (v : vec) : R := snd v.
Definition within (B : R) (v : vec) : Prop := Rabs (v0 v) <= B /\ Rabs (v1 v) <= B /\ Rabs (v2 v) <= B /\ Rabs (v3 v) <= B.

(* one register under four derivatives of the form cut (p - clip) with |p| <= 2 *)
Lemma reg_step h cut y p1 p2 p3 p4 : 0 < h -> 0 <= cut -> h * cut <= 473 / 1000 -> Rabs y <= 6 ->
  -2 <= p1 <= 2 -> -2 <= p2 <= 2 -> -2 <= p3 <= 2 -> -2 <= p4 <= 2 ->
  let e1 := cut * (p1 - rk_clip y) in let e2 := cut * (p2 - rk_clip (y + h / 2 * e1)) in
  let e3 := cut * (p3 - rk_clip (y + h / 2 * e2)) in let e4 := cut * (p4 - rk_clip (y + h / 2 * e3)) in
  Rabs (y + h / 6 * (e1 + (2 * e2 + (2 * e3 + e4)))) <= 6.
Proof.
  intros Hh Hc Ha Hy P1 P2 P3 P4. cbv zeta. destruct C261_saturation as (Od & _ & Bd & Sat & _).
  assert (Sat' : forall x, x <= -3 -> rk_clip x = -2) by (intros x Hx; replace x with (- - x) by ring; rewrite Od, Sat by lra; ring).
  apply Rcomplements.Rabs_le_between in Hy.
  assert (A : 0 <= h * cut) by (apply Rmult_le_pos; lra).
  (* each increment h e is at most 4 h cut in size, and of the right sign beyond 3 *)
  assert (K : forall p x, -2 <= p <= 2 -> -1892 / 1000 <= h * (cut * (p - rk_clip x)) <= 1892 / 1000 /\ (3 <= x -> h * (cut * (p - rk_clip x)) <= 0) /\ (x <= -3 -> 0 <= h * (cut * (p - rk_clip x)))).
  { intros p x Hp. specialize (Bd x). rewrite <- Rmult_assoc. set (a := h * cut) in *. clearbody a. split; [nra|]. split.
    - intros Hx. rewrite Sat by exact Hx. nra.
    - intros Hx. rewrite Sat' by exact Hx. nra. }
  set (e1 := cut * (p1 - rk_clip y)). destruct (K p1 y P1) as (K1 & K1a & K1b). fold e1 in K1, K1a, K1b.
  set (y2 := y + h / 2 * e1). set (e2 := cut * (p2 - rk_clip y2)). destruct (K p2 y2 P2) as (K2 & K2a & K2b). fold e2 in K2, K2a, K2b.
  set (y3 := y + h / 2 * e2). set (e3 := cut * (p3 - rk_clip y3)). destruct (K p3 y3 P3) as (K3 & K3a & K3b). fold e3 in K3, K3a, K3b.
  set (y4 := y + h / 2 * e3). set (e4 := cut * (p4 - rk_clip y4)). destruct (K p4 y4 P4) as (K4 & K4a & K4b). fold e4 in K4, K4a, K4b.
  assert (Y2 : y2 = y + 1 / 2 * (h * e1)) by (unfold y2; field). assert (Y3 : y3 = y + 1 / 2 * (h * e2)) by (unfold y3; field). assert (Y4 : y4 = y + 1 / 2 * (h * e3)) by (unfold y4; field).
  replace (y + h / 6 * (e1 + (2 * e2 + (2 * e3 + e4)))) with (y + 1 / 6 * (h * e1 + 2 * (h * e2) + 2 * (h * e3) + h * e4)) by field.
  set (f1 := h * e1) in *. set (f2 := h * e2) in *. set (f3 := h * e3) in *. set (f4 := h * e4) in *. clearbody f1 f2 f3 f4 y2 y3 y4. clear e1 e2 e3 e4.
  apply Rcomplements.Rabs_le_between. split.
  - destruct (Rle_dec y (-3946 / 1000)) as [L|L]; [|lra]. specialize (K1b ltac:(lra)). specialize (K2b ltac:(lra)). specialize (K3b ltac:(lra)). specialize (K4b ltac:(lra)). lra.
  - destruct (Rle_dec (3946 / 1000) y) as [L|L]; [|lra]. specialize (K1a ltac:(lra)). specialize (K2a ltac:(lra)). specialize (K3a ltac:(lra)). specialize (K4a ltac:(lra)). lra.
Qed.
Lemma rk_step_bounded sr c input s : 0 < sr -> 0 <= rk_cut c <= 2 * PI * (3 / 10 * sr) -> within 6 s -> within 6 (rk_step sr c input s).
Proof.
  intros Hs Hc Hw. destruct C261_saturation as (_ & _ & Bd & _).
  set (h := 1 / sr * (1 / 4)). assert (Hh : 0 < h) by (unfold h; apply Rmult_lt_0_compat; [apply Rdiv_lt_0_compat; lra|lra]).
  assert (Ha : h * rk_cut c <= 473 / 1000).
  { apply Rle_trans with (h * (2 * PI * (3 / 10 * sr))); [apply Rmult_le_compat_l; lra|]. replace (h * (2 * PI * (3 / 10 * sr))) with (PI * (3 / 20)) by (unfold h; field; lra). pose proof PI_bounds. lra. }
  destruct s as [[[s0 s1] s2] s3]. unfold within, v0, v1, v2, v3 in *. cbn [fst snd] in Hw. destruct Hw as (W0 & W1 & W2 & W3).
  unfold rk_step. cbv zeta. fold h. replace (1 / 2 * (1 / sr) * (1 / 4)) with (h / 2) by (unfold h; field; lra). replace (1 / 6 * h) with (h / 6) by field.
  unfold rk_deriv, vaxpy, vsum, rk_sum. cbn [fst snd].
  assert (Bd' : forall x, -2 <= rk_clip x <= 2) by (intros x; specialize (Bd x); lra).
  refine (conj _ (conj _ (conj _ _))).
  - apply (reg_step h (rk_cut c) s0); auto; lra.
  - apply (reg_step h (rk_cut c) s1); auto; lra.
  - apply (reg_step h (rk_cut c) s2); auto; lra.
  - apply (reg_step h (rk_cut c) s3); auto; lra.
Qed.
Lemma last4_v3 v : last4 v = v3 v. Proof. destruct v as [[[? ?] ?] ?]. reflexivity. Qed.
Lemma ladder_out_bounded B o0 o1 o2 o3 : Rabs o0 <= B -> Rabs o1 <= B -> Rabs o2 <= B -> Rabs o3 <= B -> Rabs (ladder_out o0 o1 o2 o3) <= 246 / 100 * B.
Proof. intros H0 H1 H2 H3. unfold ladder_out. apply Rcomplements.Rabs_le_between in H0, H1, H2, H3. apply Rcomplements.Rabs_le_between. lra. Qed.

(** For every input signal (any size), resonance and gain compensation (any numbers, gliding), as long as the cutoff is in its range
    at the start and the end of the glide: every register stays within [-6, 6] and every output within [-14.76, 14.76]. *)
Theorem C262_bounded : forall sr xs s, 0 < sr -> within 6 (rs_s s) ->
  0 <= rk_cut (rs_c s) <= 2 * PI * (3 / 10 * sr) -> 0 <= rk_cut (rs_c s) + INR (length xs) * rk_cut (rs_d s) <= 2 * PI * (3 / 10 * sr) ->
  let r := ladder_run (rk_process sr) s xs in
  within 6 (rs_s (fst r)) /\ length (snd r) = length xs /\ Forall (fun y => Rabs y <= 1476 / 100) (snd r).
Proof.
  intros sr xs. induction xs as [|x t IH]; intros s Hs Hw H1 H2 r; unfold r; cbn [ladder_run]; [repeat split; try apply Hw; constructor|].
  set (T := 2 * PI * (3 / 10 * sr)) in *. assert (N : 1 <= INR (length (x :: t))) by (cbn [length]; rewrite S_INR; pose proof (pos_INR (length t)); lra).
  assert (Q : forall u, 0 <= u <= 1 -> 0 <= rk_cut (rs_c s) + u * rk_cut (rs_d s) <= T).
  { intros u Hu. set (n := INR (length (x :: t))) in *. set (c := rk_cut (rs_c s)) in *. set (d := rk_cut (rs_d s)) in *. clearbody c d n.
    assert (I : 0 < / n <= 1) by (split; [apply Rinv_0_lt_compat; lra|rewrite <- Rinv_1; apply Rinv_le_contravar; lra]).
    set (w := u * / n). assert (W : 0 <= w <= 1) by (unfold w; nra). replace (c + u * d) with ((1 - w) * c + w * (c + n * d)) by (unfold w; field; lra). nra. }
  destruct (C261_glide sr s x) as (G1 & G2 & _). destruct (rk_process sr s x) as [s' y] eqn:E. cbn [fst] in G1, G2.
  assert (P : within 6 (rs_s s') /\ Rabs y <= 1476 / 100).
  { assert (E1 : s' = fst (rk_process sr s x)) by (rewrite E; reflexivity). assert (E2 : y = snd (rk_process sr s x)) by (rewrite E; reflexivity). rewrite E1, E2. clear E E1 E2 G1 G2 IH r. unfold rk_process. cbv zeta. cbn [fst snd].
    assert (S1 : within 6 (rs_s (rk_pass sr x s))). { unfold rk_pass. cbn [rs_s]. apply rk_step_bounded; [exact Hs| |exact Hw]. unfold rk_move. cbn [rk_cut]. fold T. apply Q. lra. }
    assert (S2 : within 6 (rs_s (rk_pass sr 0 (rk_pass sr x s)))). { unfold rk_pass at 1. cbn [rs_s]. apply rk_step_bounded; [exact Hs| |exact S1]. unfold rk_pass, rk_move. cbn [rk_cut rs_c rs_d]. fold T. rewrite Rplus_assoc, <- Rmult_plus_distr_r. apply Q. lra. }
    assert (S3 : within 6 (rs_s (rk_pass sr 0 (rk_pass sr 0 (rk_pass sr x s))))). { unfold rk_pass at 1. cbn [rs_s]. apply rk_step_bounded; [exact Hs| |exact S2]. unfold rk_pass, rk_move. cbn [rk_cut rs_c rs_d]. fold T. rewrite !Rplus_assoc, <- !Rmult_plus_distr_r. apply Q. lra. }
    assert (S4 : within 6 (rs_s (rk_pass sr 0 (rk_pass sr 0 (rk_pass sr 0 (rk_pass sr x s)))))). { unfold rk_pass at 1. cbn [rs_s]. apply rk_step_bounded; [exact Hs| |exact S3]. unfold rk_pass, rk_move. cbn [rk_cut rs_c rs_d]. fold T. rewrite !Rplus_assoc, <- !Rmult_plus_distr_r. apply Q. lra. }
    split; [exact S4|]. replace (1476 / 100) with (246 / 100 * 6) by lra. apply ladder_out_bounded; rewrite last4_v3; [apply S1|apply S2|apply S3|apply S4]. }
  destruct P as [P1 P2]. destruct (IH s' Hs P1) as (I1 & I2 & I3).
  - rewrite G2. replace (rk_cut (rs_d s)) with (1 * rk_cut (rs_d s)) by ring. apply Q. lra.
  - rewrite G2, G1. cbn [length] in H2. rewrite S_INR in H2. replace (rk_cut (rs_c s) + rk_cut (rs_d s) + INR (length t) * rk_cut (rs_d s)) with (rk_cut (rs_c s) + (INR (length t) + 1) * rk_cut (rs_d s)) by ring. exact H2.
  - destruct (ladder_run (rk_process sr) s' t) as [s2 ys]. cbn [fst snd] in *. split; [exact I1|]. split; [cbn; congruence|constructor; assumption].
Qed.
Print Assumptions C262_bounded.
Definition rest (c d : rkc) : rkstate := mk_rks c d (0, 0, 0, 0).
Example C262_ex : within 6 (rs_s (rest (rk_coeff None 55 96000 1) (mk_rkc 0 0 0))) /\ 0 <= rk_cut (rk_coeff None 55 96000 1) <= 2 * PI * (3 / 10 * 96000).
Proof.
  split; [unfold within, v0, v1, v2, v3; cbn; rewrite Rabs_R0; lra|]. pose proof (C261_coefficients None 55 96000 1 ltac:(lra)) as (A & _). cbv zeta in A. pose proof PI_RGT_0. lra.
Qed.

(** silence from rest is silence, and polarity does not matter *)
Definition vneg (v : vec) : vec := (- v0 v, - v1 v, - v2 v, - v3 v).
Definition rk_neg (s : rkstate) : rkstate := mk_rks (rs_c s) (rs_d s) (vneg (rs_s s)).
Lemma deriv_neg i c v : rk_deriv (- i) c (vneg v) = vneg (rk_deriv i c v).
Proof.
  destruct C261_saturation as (Od & _). destruct v as [[[a b] d] e]. unfold vneg, v0, v1, v2, v3, rk_deriv. cbn [fst snd]. rewrite !Od.
  replace (- i - rk_res c * (- e - rk_gc c * - i)) with (- (i - rk_res c * (e - rk_gc c * i))) by ring. rewrite Od. repeat apply f_equal2; ring.
Qed.
Lemma axpy_neg v h d : vaxpy (vneg v) h (vneg d) = vneg (vaxpy v h d).
Proof. destruct v as [[[a b] c] e]. destruct d as [[[a' b'] c'] e']. unfold vneg, v0, v1, v2, v3, vaxpy. cbn [fst snd]. repeat apply f_equal2; ring. Qed.
Lemma sum_neg a b c d : vsum (vneg a) (vneg b) (vneg c) (vneg d) = vneg (vsum a b c d).
Proof. destruct a as [[[? ?] ?] ?], b as [[[? ?] ?] ?], c as [[[? ?] ?] ?], d as [[[? ?] ?] ?]. unfold vneg, v0, v1, v2, v3, vsum, rk_sum. cbn [fst snd]. repeat apply f_equal2; ring. Qed.
Lemma step_neg sr c i v : rk_step sr c (- i) (vneg v) = vneg (rk_step sr c i v).
Proof. unfold rk_step. cbv zeta. rewrite !deriv_neg, axpy_neg, deriv_neg, axpy_neg, deriv_neg, axpy_neg, deriv_neg, sum_neg, axpy_neg. reflexivity. Qed.
Lemma pass_neg sr i s : rk_pass sr (- i) (rk_neg s) = rk_neg (rk_pass sr i s).
Proof. unfold rk_pass, rk_neg. cbn [rs_c rs_d rs_s]. rewrite step_neg. reflexivity. Qed.
Lemma process_neg sr s x : rk_process sr (rk_neg s) (- x) = (rk_neg (fst (rk_process sr s x)), - snd (rk_process sr s x)).
Proof.
  unfold rk_process. cbv zeta. cbn [fst snd]. assert (Z : forall q, rk_pass sr 0 (rk_neg q) = rk_neg (rk_pass sr 0 q)) by (intros q; rewrite <- pass_neg, Ropp_0; reflexivity).
  rewrite !pass_neg, !Z. f_equal. unfold rk_neg. cbn [rs_s]. rewrite !last4_v3. unfold vneg, v3. cbn [snd]. unfold ladder_out. ring.
Qed.
Theorem C262_polarity : forall sr xs s, ladder_run (rk_process sr) (rk_neg s) (map Ropp xs) = (rk_neg (fst (ladder_run (rk_process sr) s xs)), map Ropp (snd (ladder_run (rk_process sr) s xs))).
Proof.
  intros sr xs. induction xs as [|x t IH]; intros s; [reflexivity|]. cbn [ladder_run map]. rewrite process_neg. destruct (rk_process sr s x) as [s' y]. cbn [fst snd]. rewrite IH.
  destruct (ladder_run (rk_process sr) s' t) as [s2 ys]. reflexivity.
Qed.
Print Assumptions C262_polarity.
Theorem C262_silence : forall sr c d n, 
  rs_s (fst (ladder_run (rk_process sr) (rest c d) (repeat 0 n))) = (0, 0, 0, 0) /\ snd (ladder_run (rk_process sr) (rest c d) (repeat 0 n)) = repeat 0 n.
Proof.
  intros sr c d n.
  assert (C0 : rk_clip 0 = 0). { destruct C261_saturation as (Od & _). specialize (Od 0). rewrite Ropp_0 in Od. lra. }
  assert (D : forall c, rk_deriv 0 c (0, 0, 0, 0) = (0, 0, 0, 0)).
  { intros c'. unfold rk_deriv. replace (0 - rk_res c' * (0 - rk_gc c' * 0)) with 0 by ring. rewrite C0. repeat apply f_equal2; ring. }
  assert (X : forall h, vaxpy (0, 0, 0, 0) h (0, 0, 0, 0) = (0, 0, 0, 0)) by (intros h; unfold vaxpy; repeat apply f_equal2; ring).
  assert (V : vsum (0, 0, 0, 0) (0, 0, 0, 0) (0, 0, 0, 0) (0, 0, 0, 0) = (0, 0, 0, 0)) by (unfold vsum, rk_sum; repeat apply f_equal2; ring).
  assert (S : forall c, rk_step sr c 0 (0, 0, 0, 0) = (0, 0, 0, 0)) by (intros c'; unfold rk_step; cbv zeta; rewrite D, X, D, X, D, X, D, V, X; reflexivity).
  revert c. induction n as [|n IH]; intros c; [split; reflexivity|]. cbn [repeat ladder_run].
  assert (P : exists c', rk_process sr (rest c d) 0 = (rest c' d, 0)).
  { unfold rk_process, rk_pass, rest. cbn [rs_c rs_d rs_s]. rewrite !S. eexists. f_equal. unfold ladder_out, last4. ring. }
  destruct P as [c' ->]. specialize (IH c'). destruct (ladder_run (rk_process sr) (rest c' d) (repeat 0 n)) as [s2 ys]. cbn [fst snd] in *. split; [apply IH|f_equal; apply IH].
Qed.
Print Assumptions C262_silence.

(* ================= C263: the integrator ================= *)

(** Specification: the classical fourth-order Runge-Kutta step for s' = f(s), over any vector space given by [axpy] and [sum];
    [half] is the fraction of the step at which the fourth slope is taken: 1 in the classical method *)
Definition rk4_with (last : R) (f : vec -> vec) (h : R) (s : vec) : vec :=
  let k1 := f s in let k2 := f (vaxpy s (h / 2) k1) in let k3 := f (vaxpy s (h / 2) k2) in let k4 := f (vaxpy s (last * h) k3) in
  vaxpy s (h / 6) (vsum k1 k2 k3 k4).
Definition rk4 := rk4_with 1.
(* the decay s' = - a s per unit time, in each register *)
Definition decay (v : vec) : vec := vneg v.

(** The pass is not the classical method: it takes the fourth slope half way too.  On the decay s' = -s a step of length a gives
    1 - a + 5/12 a^2 - a^3/8 + a^4/48, which is at least a^2/48 below the true value e^-a (a <= 1): the method is of first order;
    the classical method gives 1 - a + a^2/2 - a^3/6 + a^4/24, within a^5/120. *)
Theorem C263_fourth_order_refuted : 
  (forall sr c input s, sr <> 0 -> rk_step sr c input s = rk4_with (1 / 2) (rk_deriv input c) (1 / sr * (1 / 4)) s) /\
  (forall a y, rk4_with (1 / 2) decay a (y, y, y, y) = let z := (1 - a + 5 / 12 * a ^ 2 - a ^ 3 / 8 + a ^ 4 / 48) * y in (z, z, z, z)) /\
  (forall a, 0 <= a <= 1 -> a ^ 2 / 48 <= exp (- a) - (1 - a + 5 / 12 * a ^ 2 - a ^ 3 / 8 + a ^ 4 / 48)) /\
  (forall a y, rk4 decay a (y, y, y, y) = let z := (1 - a + a ^ 2 / 2 - a ^ 3 / 6 + a ^ 4 / 24) * y in (z, z, z, z)) /\
  (forall a, 0 <= a -> - (a ^ 5 / 120) <= exp (- a) - (1 - a + a ^ 2 / 2 - a ^ 3 / 6 + a ^ 4 / 24) <= 0).
Proof.
  assert (E1 : forall a, 0 <= a -> 1 - a <= exp (- a)) by (intros a _; pose proof (exp_ineq1_le (- a)); lra).
  assert (M : forall (f df : R -> R), (forall x, is_derive f x (df x)) -> f 0 = 0 -> (forall x, 0 <= x -> 0 <= df x) -> forall a, 0 <= a -> 0 <= f a).
  { intros f df D Z P a Ha. rewrite <- Z. apply (mono_of_derive f df D); [intros c Hc; apply P; lra|exact Ha]. }
  assert (E2 : forall a, 0 <= a -> 0 <= 1 - a + a ^ 2 / 2 - exp (- a)).
  { apply (M (fun a => 1 - a + a ^ 2 / 2 - exp (- a)) (fun a => -1 + a + exp (- a))); [intros x; auto_derive; [exact I|field]|rewrite Ropp_0, exp_0; field|intros x Hx; specialize (E1 x Hx); lra]. }
  assert (E3 : forall a, 0 <= a -> 0 <= exp (- a) - (1 - a + a ^ 2 / 2 - a ^ 3 / 6)).
  { apply (M (fun a => exp (- a) - (1 - a + a ^ 2 / 2 - a ^ 3 / 6)) (fun a => 1 - a + a ^ 2 / 2 - exp (- a))); [intros x; auto_derive; [exact I|field]|rewrite Ropp_0, exp_0; field|intros x Hx; specialize (E2 x Hx); lra]. }
  assert (E4 : forall a, 0 <= a -> 0 <= (1 - a + a ^ 2 / 2 - a ^ 3 / 6 + a ^ 4 / 24) - exp (- a)).
  { apply (M (fun a => (1 - a + a ^ 2 / 2 - a ^ 3 / 6 + a ^ 4 / 24) - exp (- a)) (fun a => exp (- a) - (1 - a + a ^ 2 / 2 - a ^ 3 / 6))); [intros x; auto_derive; [exact I|field]|rewrite Ropp_0, exp_0; field|intros x Hx; specialize (E3 x Hx); lra]. }
  assert (E5 : forall a, 0 <= a -> 0 <= exp (- a) - (1 - a + a ^ 2 / 2 - a ^ 3 / 6 + a ^ 4 / 24 - a ^ 5 / 120)).
  { apply (M (fun a => exp (- a) - (1 - a + a ^ 2 / 2 - a ^ 3 / 6 + a ^ 4 / 24 - a ^ 5 / 120)) (fun a => (1 - a + a ^ 2 / 2 - a ^ 3 / 6 + a ^ 4 / 24) - exp (- a))); [intros x; auto_derive; [exact I|field]|rewrite Ropp_0, exp_0; field|intros x Hx; specialize (E4 x Hx); lra]. }
  split; [|split; [|split; [|split]]].
  - intros sr c i s H. unfold rk_step, rk4_with. cbv zeta. replace (1 / 2 * (1 / sr) * (1 / 4)) with (1 / sr * (1 / 4) / 2) by (field; exact H).
    replace (1 / 2 * (1 / sr * (1 / 4))) with (1 / sr * (1 / 4) / 2) by (field; exact H). replace (1 / 6 * (1 / sr * (1 / 4))) with (1 / sr * (1 / 4) / 6) by (field; exact H). reflexivity.
  - intros a y. unfold rk4_with, decay, vneg, vaxpy, vsum, rk_sum, v0, v1, v2, v3. cbn [fst snd]. cbv zeta. repeat apply f_equal2; field.
  - intros a Ha. specialize (E3 a ltac:(lra)). assert (0 <= a ^ 2) by (apply pow_le; lra). assert (a ^ 3 <= a ^ 2) by (replace (a ^ 3) with (a ^ 2 * a) by ring; nra). assert (a ^ 4 <= a ^ 2) by (replace (a ^ 4) with (a ^ 2 * (a * a)) by ring; assert (a * a <= 1) by nra; nra). lra.
  - intros a y. unfold rk4, rk4_with, decay, vneg, vaxpy, vsum, rk_sum, v0, v1, v2, v3. cbn [fst snd]. cbv zeta. repeat apply f_equal2; field.
  - intros a Ha. specialize (E4 a Ha). specialize (E5 a Ha). lra.
Qed.
Print Assumptions C263_fourth_order_refuted.
