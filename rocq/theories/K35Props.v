(** Theorems about the K35 filter (C287-C292). *)
From Coq Require Import Reals List Lra Psatz Lia.
From Verif Require Import Base Util BlockModel MathModel FastProps2 FiltProps K35Model.
Import ListNotations.
Local Open Scope R_scope.

(** Specification: a delay-free (trapezoidal) one-pole low-pass with stored state [z], warped tuning [g], input [x] and output [y]; its next
    state is 2y - z.  The high-pass is the rest, x - y. *)
Definition onepole (g z x y : R) : Prop := y - z = g * (x - y).
Lemma onepole_unique g z x y y' : 0 < g -> onepole g z x y -> onepole g z x y' -> y = y'.
Proof. unfold onepole. intros G A B. assert (E : (1 + g) * (y - y') = 0) by lra. apply Rmult_integral in E. lra. Qed.

(** ** C287: the coefficients *)
Lemma kmod_range reso : 1 / 100 <= limit_range_f32 arithR (reso * (196 / 100)) (1 / 100) (196 / 100) <= 196 / 100.
Proof. rewrite limR. unfold Rmin, Rmax. repeat (destruct (Rle_dec _ _)); lra. Qed.
Lemma gs_range g : 0 < g -> 0 < g / (1 + g) < 1.
Proof. intros G. split; [apply Rdiv_lt_0_compat; lra|]. apply (Rmult_lt_reg_r (1 + g)); [lra|]. unfold Rdiv. rewrite Rmult_assoc, Rinv_l by lra. lra. Qed.
Lemma den_pos k s : 1 / 100 <= k <= 196 / 100 -> 0 < s < 1 -> 51 / 100 <= 1 - k * s + k * s * s.
Proof.
  intros K S0. assert (Q : 0 <= (s - 1 / 2) * (s - 1 / 2)) by (apply Rle_0_sqr). assert (H : 0 <= s * (1 - s) <= 1 / 4) by (split; [apply Rmult_le_pos; lra|lra]). replace (1 - k * s + k * s * s) with (1 - k * (s * (1 - s))) by ring.
  assert (k * (s * (1 - s)) <= 196 / 100 * (1 / 4)) by (apply Rmult_le_compat; lra). lra.
Qed.
Theorem C287_coefficients : forall g reso lp sat, 0 < g -> let c := k35_coeffs g reso lp sat in
  0 < k_g c < 1 /\ k_g c = g / (1 + g) /\ k_mod c = Rmin (Rmax (1.96 * reso) 0.01) 1.96 /\ 51 / 100 <= 1 - k_mod c * k_g c * (1 - k_g c) /\
  k_alpha c = 1 / (1 - k_mod c * k_g c * (1 - k_g c)) /\ 1 <= k_alpha c < 2 /\
  k_sat c = sat /\ k_blend c = Rmin sat 1 /\ k_blend c + k_blendinv c = 1.
Proof.
  intros g reso lp sat G. cbv zeta. set (c := k35_coeffs g reso lp sat). pose proof (gs_range g G) as S0. pose proof (kmod_range reso) as K.
  assert (Eg : k_g c = g / (1 + g)) by reflexivity. assert (Em : k_mod c = limit_range_f32 arithR (reso * (196 / 100)) (1 / 100) (196 / 100)) by reflexivity.
  assert (Ea : k_alpha c = 1 / (1 - k_mod c * k_g c + k_mod c * k_g c * k_g c)) by reflexivity.
  rewrite <- Eg in S0. rewrite <- Em in K. assert (D := den_pos _ _ K S0).
  assert (H : 0 <= k_g c * (1 - k_g c)) by (apply Rmult_le_pos; lra). assert (P : 0 <= k_mod c * (k_g c * (1 - k_g c))) by (apply Rmult_le_pos; lra).
  replace (1 - k_mod c * k_g c + k_mod c * k_g c * k_g c) with (1 - k_mod c * k_g c * (1 - k_g c)) in * by ring.
  refine (conj S0 (conj Eg (conj _ (conj D (conj Ea (conj _ (conj eq_refl (conj eq_refl _)))))))).
  - rewrite Em, limR. apply f_equal2; [apply f_equal2; lra|lra].
  - rewrite Ea. clear Ea Em. set (d := 1 - k_mod c * k_g c * (1 - k_g c)) in *. assert (d <= 1) by (unfold d; lra). clearbody d. split.
    + apply (Rmult_le_reg_r d); [lra|]. unfold Rdiv. rewrite Rmult_assoc, Rinv_l by lra. lra.
    + apply (Rmult_lt_reg_r d); [lra|]. unfold Rdiv. rewrite Rmult_assoc, Rinv_l by lra. lra.
  - unfold c, k35_coeffs. cbv zeta. cbn [k_blend k_blendinv]. ring.
Qed.
Print Assumptions C287_coefficients.
Theorem C287_tuning : forall n2p sr, 50 / 3 <= sr ->
  k35_warp n2p sr = fasttan (PI * k35_freq n2p sr / sr) /\ 5 <= k35_freq n2p sr <= 3 / 10 * sr /\
  (5 <= 8.17579891564371 * n2p <= 3 / 10 * sr -> k35_freq n2p sr = 8.17579891564371 * n2p).
Proof.
  intros n2p sr Hsr. split.
  - unfold k35_warp. cbv zeta. replace (k35_freq n2p sr * 2 * PI * (1 / sr) * (1 / 2)) with (PI * k35_freq n2p sr / sr) by (field; lra). field. lra.
  - unfold k35_freq. rewrite limR. replace (n2p * (817579891564371 / 100000000000000)) with (8.17579891564371 * n2p) by lra. set (f := 8.17579891564371 * n2p). clearbody f.
    split; [split; [apply Rmin_glb; [apply Rmax_r|lra]|eapply Rle_trans; [apply Rmin_r|lra]]|]. intros H. rewrite Rmax_left by lra. apply Rmin_left. lra.
Qed.
Print Assumptions C287_tuning.
Lemma fasttan_pos x : 0 < x <= 1 -> 0 < fasttan x.
Proof.
  intros X. unfold fasttan. cbv zeta. assert (H : 0 < x * x <= 1 * 1) by (split; [apply Rmult_lt_0_compat; lra|apply Rmult_le_compat; lra]). set (u := x * x) in *. clearbody u.
  assert (U : 0 <= u * u <= 1 * 1) by (split; [apply Rle_0_sqr|apply Rmult_le_compat; lra]).
  assert (A : u * (17325 + u * (-378 + u)) <= 1 * 17326) by (apply Rmult_le_compat; [lra| |lra|]; lra).
  assert (V : 0 <= u * u * u <= 1 * 1) by (split; [apply Rmult_le_pos; lra|apply Rmult_le_compat; lra]).
  assert (B : u * (62370 + u * (-3150 + 28 * u)) <= 62398) by (replace (u * (62370 + u * (-3150 + 28 * u))) with (62370 * u - 3150 * (u * u) + 28 * (u * u * u)) by ring; lra).
  set (n := -135135 + u * (17325 + u * (-378 + u))) in *. set (d := -135135 + u * (62370 + u * (-3150 + 28 * u))) in *.
  assert (N : n < 0) by (unfold n; lra). assert (D : d < 0) by (unfold d; lra). clearbody n d.
  replace (x * n / d) with (x * - n / - d) by (field; lra). apply Rdiv_lt_0_compat; [apply Rmult_lt_0_compat; lra|lra].
Qed.
(* so the warped tuning is always one the other theorems speak of *)
Theorem C287_usable : forall n2p sr, 50 / 3 <= sr -> 0 < k35_warp n2p sr.
Proof.
  intros n2p sr S0. destruct (C287_tuning n2p sr S0) as (E & F & _). rewrite E. apply fasttan_pos. pose proof PI_bounds as P.
  assert (Q : PI * k35_freq n2p sr / sr = PI * (k35_freq n2p sr / sr)) by (field; lra). rewrite Q. assert (D : 0 < k35_freq n2p sr / sr <= 3 / 10).
  { split; [apply Rdiv_lt_0_compat; lra|]. apply (Rmult_le_reg_r sr); [lra|]. unfold Rdiv at 1. rewrite Rmult_assoc, Rinv_l by lra. lra. }
  split; [apply Rmult_lt_0_compat; lra|]. apply Rle_trans with (PI * (3 / 10)); [apply Rmult_le_compat_l; lra|lra].
Qed.
Print Assumptions C287_usable.
Example ex_C287 : 0 < 1 /\ 50 / 3 <= 96000. Proof. lra. Qed.

(** ** The stages are delay-free one-poles *)
Lemma do_lpf_onepole g x z : 0 < g -> let r := k_do_lpf (g / (1 + g)) x z in onepole g z x (fst r) /\ snd r = 2 * fst r - z.
Proof. intros G. unfold k_do_lpf, onepole. cbv zeta. cbn [fst snd]. split; [field|ring]. lra. Qed.
Lemma do_hpf_lpf g x z : k_do_hpf g x z = (x - fst (k_do_lpf g x z), snd (k_do_lpf g x z)).
Proof. reflexivity. Qed.
Theorem C288_stage : forall g x z, 0 < g ->
  let lp := k_do_lpf (g / (1 + g)) x z in let hp := k_do_hpf (g / (1 + g)) x z in
  onepole g z x (fst lp) /\ snd lp = 2 * fst lp - z /\ fst hp = x - fst lp /\ snd hp = snd lp.
Proof. intros g x z G lp hp. destruct (do_lpf_onepole g x z G) as [A B]. refine (conj A (conj B (conj eq_refl eq_refl))). Qed.
Print Assumptions C288_stage.

(** ** C288: the feedback is closed without delay.  Low-pass: the loop's input u is the first low-pass plus the high-pass of k times the
    second low-pass of u itself. *)
Definition clean (c : kco) : Prop := forall x, k_drive c x = x.
Lemma clean0 g reso lp : clean (k35_coeffs g reso lp 0).
Proof. intros x. unfold k_drive, k35_coeffs. cbv zeta. cbn [k_blend k_blendinv]. rewrite Rmin_left by lra. ring. Qed.
Theorem C288_lowpass : forall g reso s x, 0 < g -> let c := k35_coeffs g reso true 0 in let r := k35_lp c s x in
  exists y1 u v h, onepole g (k_lpf1 s) x y1 /\ onepole g (k_xpf2 s) u v /\ onepole g (k_hpf1 s) (k_mod c * v) h /\
    u = y1 + (k_mod c * v - h) /\ snd r = v /\ k_lpf1 (fst r) = 2 * y1 - k_lpf1 s /\ k_xpf2 (fst r) = 2 * v - k_xpf2 s /\ k_hpf1 (fst r) = 2 * h - k_hpf1 s.
Proof.
  intros g reso s x G c r. pose proof (C287_coefficients g reso true 0 G) as Q. cbv zeta in Q. fold c in Q.
  destruct Q as (S0 & Eg & Km & D & Ea & _). assert (K : k_mod c <> 0). { pose proof (kmod_range reso). change (k_mod c) with (limit_range_f32 arithR (reso * (196 / 100)) (1 / 100) (196 / 100)). lra. }
  unfold r, k35_lp, k_do_hpf, k_do_lpf. cbv zeta. cbn [fst snd k_lpf1 k_hpf1 k_xpf2]. rewrite (clean0 g reso true : clean c).
  assert (El : k_lpf c = (k_mod c - k_mod c * k_g c) / (1 + g)) by reflexivity. assert (Eh : k_hpf c = -1 / (1 + g)) by reflexivity.
  clearbody c. clear Km.
  set (y1 := (x - k_lpf1 s) * k_g c + k_lpf1 s). set (u := k_alpha c * (y1 + (k_lpf c * k_xpf2 s + k_hpf c * k_hpf1 s))).
  set (v := (u - k_xpf2 s) * k_g c + k_xpf2 s). set (h := (k_mod c * v - k_hpf1 s) * k_g c + k_hpf1 s).
  exists y1, u, v, h. unfold onepole.
  refine (conj _ (conj _ (conj _ (conj _ (conj _ (conj _ (conj _ _))))))).
  - unfold y1. rewrite Eg. field. lra.
  - unfold v. rewrite Eg. field. lra.
  - unfold h. rewrite Eg. field. lra.
  - assert (U : u * (1 - k_mod c * k_g c * (1 - k_g c)) = y1 + (k_lpf c * k_xpf2 s + k_hpf c * k_hpf1 s)) by (unfold u; rewrite Ea; field; lra).
    assert (I : 1 / (1 + g) = 1 - k_g c) by (rewrite Eg; field; lra).
    assert (El' : k_lpf c = k_mod c * (1 - k_g c) * (1 - k_g c)) by (rewrite El; unfold Rdiv at 1; replace (/ (1 + g)) with (1 - k_g c) by (rewrite <- I; field; lra); ring).
    assert (Eh' : k_hpf c = - (1 - k_g c)) by (rewrite Eh, <- I; field; lra).
    rewrite El', Eh' in U. unfold h, v. clearbody u y1. lra.
  - field. exact K.
  - unfold y1. ring.
  - unfold v. ring.
  - unfold h. ring.
Qed.
Print Assumptions C288_lowpass.
(* high-pass: the loop's input u is the first high-pass plus the low-pass of the second high-pass of k u *)
Theorem C288_highpass : forall g reso s x, 0 < g -> let c := k35_coeffs g reso false 0 in let r := k35_hp c s x in
  exists y1 u v w, onepole g (k_hpf1 s) x y1 /\ onepole g (k_xpf2 s) (k_mod c * u) v /\ onepole g (k_lpf1 s) (k_mod c * u - v) w /\
    u = (x - y1) + w /\ snd r = u /\ k_hpf1 (fst r) = 2 * y1 - k_hpf1 s /\ k_xpf2 (fst r) = 2 * v - k_xpf2 s /\ k_lpf1 (fst r) = 2 * w - k_lpf1 s.
Proof.
  intros g reso s x G c r. pose proof (C287_coefficients g reso false 0 G) as Q. cbv zeta in Q. fold c in Q.
  destruct Q as (S0 & Eg & Km & D & Ea & _). assert (K : k_mod c <> 0). { pose proof (kmod_range reso). change (k_mod c) with (limit_range_f32 arithR (reso * (196 / 100)) (1 / 100) (196 / 100)). lra. }
  unfold r, k35_hp, k_do_hpf, k_do_lpf. cbv zeta. cbn [fst snd k_lpf1 k_hpf1 k_xpf2]. rewrite (clean0 g reso false : clean c).
  assert (El : k_lpf c = 1 / (1 + g)) by reflexivity. assert (Eh : k_hpf c = - k_g c / (1 + g)) by reflexivity.
  clearbody c. clear Km.
  set (y1 := (x - k_hpf1 s) * k_g c + k_hpf1 s). set (u := k_alpha c * (x - y1 + (k_hpf c * k_xpf2 s + k_lpf c * k_lpf1 s))).
  set (v := (k_mod c * u - k_xpf2 s) * k_g c + k_xpf2 s). set (w := (k_mod c * u - v - k_lpf1 s) * k_g c + k_lpf1 s).
  exists y1, u, v, w. unfold onepole.
  refine (conj _ (conj _ (conj _ (conj _ (conj _ (conj _ (conj _ _))))))).
  - unfold y1. rewrite Eg. field. lra.
  - unfold v. rewrite Eg. field. lra.
  - unfold w. rewrite Eg. field. lra.
  - assert (U : u * (1 - k_mod c * k_g c * (1 - k_g c)) = x - y1 + (k_hpf c * k_xpf2 s + k_lpf c * k_lpf1 s)) by (unfold u; rewrite Ea; field; lra).
    assert (I : 1 / (1 + g) = 1 - k_g c) by (rewrite Eg; field; lra).
    assert (Eh' : k_hpf c = - k_g c * (1 - k_g c)) by (rewrite Eh; unfold Rdiv at 1; replace (/ (1 + g)) with (1 - k_g c) by (rewrite <- I; field; lra); ring). rewrite I in El.
    rewrite El, Eh' in U. unfold w, v. clearbody u y1. lra.
  - field. exact K.
  - unfold y1. ring.
  - unfold v. ring.
  - unfold w. ring.
Qed.
Print Assumptions C288_highpass.
