(** Theorems about the K35 filter, continued (C289-C292). *)
From Coq Require Import Reals List Lra Psatz Lia.
From Coquelicot Require Rcomplements.
From Verif Require Import Base Util BlockModel MathModel FastProps2 FiltProps K35Model K35Props.
Import ListNotations.
Local Open Scope R_scope.

Definition sumsq (xs : list R) : R := fold_right (fun x a => x * x + a) 0 xs.
Lemma kmod_of g reso lp sat : k_mod (k35_coeffs g reso lp sat) = limit_range_f32 arithR (reso * (196 / 100)) (1 / 100) (196 / 100).
Proof. reflexivity. Qed.

(* the two stored values, seen as an oscillator damped by 2 - k *)
Definition osc_energy (k a b : R) : R := a * a + (b - a) * (b - a) + (2 - k) * (a * (b - a)).
Lemma osc_lower k a b : 0 < k <= 196 / 100 -> k / 2 * (a * a + (b - a) * (b - a)) <= osc_energy k a b.
Proof. intros K. unfold osc_energy. set (q := b - a). clearbody q. assert (0 <= (a + q) * (a + q)) by apply Rle_0_sqr. assert (0 <= (2 - k) * ((a + q) * (a + q))) by (apply Rmult_le_pos; lra). lra. Qed.
Lemma osc_upper k a b : 0 < k <= 196 / 100 -> osc_energy k a b <= (4 - k) / 2 * (a * a + (b - a) * (b - a)).
Proof. intros K. unfold osc_energy. set (q := b - a). clearbody q. assert (0 <= (a - q) * (a - q)) by apply Rle_0_sqr. assert (0 <= (2 - k) * ((a - q) * (a - q))) by (apply Rmult_le_pos; lra). lra. Qed.
Lemma lp_gain g k a b v h y : 0 < g -> 0 < k <= 196 / 100 ->
  v - a = g * (y + (k * v - h) - v) -> h - b = g * (k * v - h) ->
  osc_energy k (2 * v - a) (2 * h - b) <= osc_energy k a b + 2 * g * k / (2 - k) * (y * y).
Proof.
  intros G K A B. unfold osc_energy. set (c := 2 - k). assert (C : 0 < c) by (unfold c; lra). assert (Kc : k = 2 - c) by (unfold c; ring). clearbody c. subst k.
  set (q := h - v). set (q0 := b - a). assert (Q : q - q0 = g * (v - y)) by (unfold q, q0; lra). assert (A' : v - a = g * (- c * v - q + y)) by (unfold q; lra).
  replace (2 * h - b - (2 * v - a)) with (2 * q - q0) by (unfold q, q0; ring). clearbody q q0.
  assert (E : (2 * v - a) * (2 * v - a) + (2 * q - q0) * (2 * q - q0) + c * ((2 * v - a) * (2 * q - q0)) - (a * a + q0 * q0 + c * (a * q0)) =
    4 * (v * (v - a) + q * (q - q0)) + 2 * c * (v * (q - q0) + q * (v - a))) by ring.
  rewrite A', Q in E.
  assert (E2 : 2 * g * (2 - c) / c * (y * y) - (4 * (v * (g * (- c * v - q + y)) + q * (g * (v - y))) + 2 * c * (v * (g * (v - y)) + q * (g * (- c * v - q + y)))) =
    g * c * (1 + c / 2) * ((v + q) * (v + q)) + g * ((2 - c) / (2 * c)) * ((c * (v - q) - 2 * y) * (c * (v - q) - 2 * y))) by (field; lra).
  assert (P1 : 0 <= g * c * (1 + c / 2) * ((v + q) * (v + q))).
  { apply Rmult_le_pos; [|apply Rle_0_sqr]. apply Rmult_le_pos; [apply Rmult_le_pos; lra|lra]. }
  assert (P2 : 0 <= g * ((2 - c) / (2 * c)) * ((c * (v - q) - 2 * y) * (c * (v - q) - 2 * y))).
  { apply Rmult_le_pos; [|apply Rle_0_sqr]. apply Rmult_le_pos; [lra|]. apply Rmult_le_pos; [lra|]. apply Rlt_le, Rinv_0_lt_compat. lra. }
  lra.
Qed.
Lemma hp_gain g k a b w v y : 0 < g -> 0 < k <= 196 / 100 ->
  w - a = g * (k * (y + w) - v - w) -> v - b = g * (k * (y + w) - v) ->
  osc_energy k (2 * w - a) (2 * v - b) <= osc_energy k a b + 2 * g * k * k / (2 - k) * (y * y).
Proof.
  intros G K A B. unfold osc_energy. set (c := 2 - k). assert (C : 0 < c < 2) by (unfold c; lra). assert (Kc : k = 2 - c) by (unfold c; ring). clearbody c. subst k.
  set (q := v - w). set (q0 := b - a). assert (Q : q - q0 = g * w) by (unfold q, q0; lra). assert (A' : w - a = g * (- c * w - q + (2 - c) * y)) by (unfold q; lra).
  replace (2 * v - b - (2 * w - a)) with (2 * q - q0) by (unfold q, q0; ring). clearbody q q0.
  assert (E : (2 * w - a) * (2 * w - a) + (2 * q - q0) * (2 * q - q0) + c * ((2 * w - a) * (2 * q - q0)) - (a * a + q0 * q0 + c * (a * q0)) =
    4 * (w * (w - a) + q * (q - q0)) + 2 * c * (w * (q - q0) + q * (w - a))) by ring.
  rewrite A', Q in E.
  assert (E2 : 2 * g * (2 - c) * (2 - c) / c * (y * y) - (4 * (w * (g * (- c * w - q + (2 - c) * y)) + q * (g * w)) + 2 * c * (w * (g * w) + q * (g * (- c * w - q + (2 - c) * y)))) =
    2 * g * c * (1 - c * c / 4) * (q * q) + 2 * g / c * ((c * (w + c / 2 * q) - (2 - c) * y) * (c * (w + c / 2 * q) - (2 - c) * y))) by (field; lra).
  assert (P1 : 0 <= 2 * g * c * (1 - c * c / 4) * (q * q)).
  { apply Rmult_le_pos; [|apply Rle_0_sqr]. apply Rmult_le_pos; [apply Rmult_le_pos; lra|]. assert (c * c <= 2 * 2) by (apply Rmult_le_compat; lra). lra. }
  assert (P2 : 0 <= 2 * g / c * ((c * (w + c / 2 * q) - (2 - c) * y) * (c * (w + c / 2 * q) - (2 - c) * y))).
  { apply Rmult_le_pos; [|apply Rle_0_sqr]. apply Rmult_le_pos; [lra|]. apply Rlt_le, Rinv_0_lt_compat. lra. }
  lra.
Qed.
(* the input stage *)
Lemma pole_energy g z x y : 0 < g -> onepole g z x y -> (2 * y - z) * (2 * y - z) + 2 * g * (y * y) <= z * z + 2 * g * (x * x).
Proof.
  intros G H. unfold onepole in H. assert (E : (2 * y - z) * (2 * y - z) - z * z = 4 * y * (y - z)) by ring. rewrite H in E.
  assert (P : 0 <= 2 * g * ((x - y) * (x - y))) by (apply Rmult_le_pos; [lra|apply Rle_0_sqr]). lra.
Qed.
Lemma pole_energy_hp g z x y : 0 < g -> onepole g z x y -> (2 * y - z) * (2 * y - z) + 2 * g * ((x - y) * (x - y)) <= z * z + 2 * g * (x * x).
Proof.
  intros G H. unfold onepole in H. assert (E : (2 * y - z) * (2 * y - z) - z * z = 4 * y * (y - z)) by ring. rewrite H in E.
  assert (P : 0 <= 2 * g * (y * y)) by (apply Rmult_le_pos; [lra|apply Rle_0_sqr]). lra.
Qed.

Definition lp_total (k : R) (s : kreg) : R := osc_energy k (k_xpf2 s) (k_hpf1 s) + k / (2 - k) * (k_lpf1 s * k_lpf1 s).
Definition hp_total (k : R) (s : kreg) : R := osc_energy k (k_lpf1 s) (k_xpf2 s) + k * k / (2 - k) * (k_hpf1 s * k_hpf1 s).
Lemma lp_step g reso s x : 0 < g -> let c := k35_coeffs g reso true 0 in
  lp_total (k_mod c) (fst (k35_lp c s x)) <= lp_total (k_mod c) s + 2 * g * k_mod c / (2 - k_mod c) * (x * x).
Proof.
  intros G. cbv zeta. destruct (C288_lowpass g reso s x G) as (y1 & u & v & h & A & B & C & U & _ & L & X & H). set (c := k35_coeffs g reso true 0) in *.
  assert (K : 0 < k_mod c <= 196 / 100) by (unfold c; rewrite kmod_of; pose proof (kmod_range reso); lra). unfold lp_total. rewrite L, X, H.
  unfold onepole in B, C. rewrite U in B. assert (P := lp_gain g (k_mod c) (k_xpf2 s) (k_hpf1 s) v h y1 G K ltac:(lra) C).
  assert (Q := pole_energy g (k_lpf1 s) x y1 G A). set (k := k_mod c) in *. clearbody k.
  assert (M : 0 < k / (2 - k)) by (apply Rdiv_lt_0_compat; lra).
  replace (2 * g * k / (2 - k)) with (k / (2 - k) * (2 * g)) in * by (field; lra). set (m := k / (2 - k)) in *. clearbody m.
  apply (Rmult_le_compat_l m) in Q; [|lra]. lra.
Qed.
Lemma hp_step g reso s x : 0 < g -> let c := k35_coeffs g reso false 0 in
  hp_total (k_mod c) (fst (k35_hp c s x)) <= hp_total (k_mod c) s + 2 * g * k_mod c * k_mod c / (2 - k_mod c) * (x * x).
Proof.
  intros G. cbv zeta. destruct (C288_highpass g reso s x G) as (y1 & u & v & w & A & B & C & U & _ & H & X & L). set (c := k35_coeffs g reso false 0) in *.
  assert (K : 0 < k_mod c <= 196 / 100) by (unfold c; rewrite kmod_of; pose proof (kmod_range reso); lra). unfold hp_total. rewrite L, X, H.
  unfold onepole in B, C. rewrite U in B, C. assert (P := hp_gain g (k_mod c) (k_lpf1 s) (k_xpf2 s) w v (x - y1) G K ltac:(lra) B).
  assert (Q := pole_energy_hp g (k_hpf1 s) x y1 G A). set (k := k_mod c) in *. clearbody k.
  assert (M : 0 < k * k / (2 - k)) by (apply Rdiv_lt_0_compat; [apply Rmult_lt_0_compat; lra|lra]).
  replace (2 * g * k * k / (2 - k)) with (k * k / (2 - k) * (2 * g)) in * by (field; lra). set (m := k * k / (2 - k)) in *. clearbody m.
  apply (Rmult_le_compat_l m) in Q; [|lra]. lra.
Qed.
Lemma run_total (f : kreg -> R -> kreg * R) (W : kreg -> R) M : (forall s x, W (fst (f s x)) <= W s + M * (x * x)) ->
  forall xs s, W (fst (k_run f s xs)) <= W s + M * sumsq xs.
Proof.
  intros H xs. induction xs as [|x xs IH]; intros s; cbn [k_run sumsq fold_right fst]; [lra|]. specialize (H s x). destruct (f s x) as [s1 y]. cbn [fst] in H.
  specialize (IH s1). destruct (k_run f s1 xs) as [s2 ys]. cbn [fst] in *. fold (sumsq xs). lra.
Qed.

(** ** C289: the clean filter stores no more than it is given, at every resonance.  The stored values after any run are bounded by those at its
    start and the energy of the input; in silence with the input stage at rest the stored energy never grows, and what leaves the low-pass
    is taken from it. *)
Theorem C289_lowpass : forall g reso s xs, 0 < g -> let c := k35_coeffs g reso true 0 in let k := k_mod c in let s' := fst (k_run (k35_lp c) s xs) in
  k / 2 * (k_xpf2 s' * k_xpf2 s' + (k_hpf1 s' - k_xpf2 s') * (k_hpf1 s' - k_xpf2 s')) + k / (2 - k) * (k_lpf1 s' * k_lpf1 s') <=
  (4 - k) / 2 * (k_xpf2 s * k_xpf2 s + (k_hpf1 s - k_xpf2 s) * (k_hpf1 s - k_xpf2 s)) + k / (2 - k) * (k_lpf1 s * k_lpf1 s) + 2 * g * k / (2 - k) * sumsq xs.
Proof.
  intros g reso s xs G. cbv zeta. assert (P := run_total (k35_lp (k35_coeffs g reso true 0)) (lp_total (k_mod (k35_coeffs g reso true 0))) _ (fun s x => lp_step g reso s x G) xs s).
  set (c := k35_coeffs g reso true 0) in *. assert (K : 0 < k_mod c <= 196 / 100) by (unfold c; rewrite kmod_of; pose proof (kmod_range reso); lra).
  set (s' := fst (k_run (k35_lp c) s xs)) in *. clearbody s'. set (k := k_mod c) in *. clearbody k. unfold lp_total in P.
  pose proof (osc_lower k (k_xpf2 s') (k_hpf1 s') K). pose proof (osc_upper k (k_xpf2 s) (k_hpf1 s) K). lra.
Qed.
Print Assumptions C289_lowpass.
Theorem C289_highpass : forall g reso s xs, 0 < g -> let c := k35_coeffs g reso false 0 in let k := k_mod c in let s' := fst (k_run (k35_hp c) s xs) in
  k / 2 * (k_lpf1 s' * k_lpf1 s' + (k_xpf2 s' - k_lpf1 s') * (k_xpf2 s' - k_lpf1 s')) + k * k / (2 - k) * (k_hpf1 s' * k_hpf1 s') <=
  (4 - k) / 2 * (k_lpf1 s * k_lpf1 s + (k_xpf2 s - k_lpf1 s) * (k_xpf2 s - k_lpf1 s)) + k * k / (2 - k) * (k_hpf1 s * k_hpf1 s) + 2 * g * k * k / (2 - k) * sumsq xs.
Proof.
  intros g reso s xs G. cbv zeta. assert (P := run_total (k35_hp (k35_coeffs g reso false 0)) (hp_total (k_mod (k35_coeffs g reso false 0))) _ (fun s x => hp_step g reso s x G) xs s).
  set (c := k35_coeffs g reso false 0) in *. assert (K : 0 < k_mod c <= 196 / 100) by (unfold c; rewrite kmod_of; pose proof (kmod_range reso); lra).
  set (s' := fst (k_run (k35_hp c) s xs)) in *. clearbody s'. set (k := k_mod c) in *. clearbody k. unfold hp_total in P.
  pose proof (osc_lower k (k_lpf1 s') (k_xpf2 s') K). pose proof (osc_upper k (k_lpf1 s) (k_xpf2 s) K). lra.
Qed.
Print Assumptions C289_highpass.
(* ringing down *)
Definition ring_energy (s : kreg) : R := k_xpf2 s * k_xpf2 s + (k_hpf1 s - k_xpf2 s) * (k_hpf1 s - k_xpf2 s).
Theorem C289_silence : forall g reso n s, 0 < g -> k_lpf1 s = 0 -> let c := k35_coeffs g reso true 0 in let r := k_run (k35_lp c) s (repeat 0 n) in
  k_lpf1 (fst r) = 0 /\ ring_energy (fst r) + 4 * g * (2 - k_mod c) * sumsq (snd r) = ring_energy s /\ 0 < 2 - k_mod c.
Proof.
  intros g reso n s G Z c r. assert (K : 0 < k_mod c <= 196 / 100) by (unfold c; rewrite kmod_of; pose proof (kmod_range reso); lra).
  subst r. cut (k_lpf1 (fst (k_run (k35_lp c) s (repeat 0 n))) = 0 /\ ring_energy (fst (k_run (k35_lp c) s (repeat 0 n))) + 4 * g * (2 - k_mod c) * sumsq (snd (k_run (k35_lp c) s (repeat 0 n))) = ring_energy s).
  { intros [A B]. refine (conj A (conj B _)). lra. }
  revert s Z. induction n as [|n IH]; intros s Z; cbn [repeat k_run fst snd sumsq fold_right]; [split; [exact Z|ring]|].
  destruct (C288_lowpass g reso s 0 G) as (y1 & u & v & h & A & B & C & U & O & L & X & H). fold c in A, B, C, U, O, L, X, H.
  destruct (k35_lp c s 0) as [s1 y]. cbn [fst snd] in *.
  assert (Y : y1 = 0) by (apply (onepole_unique g (k_lpf1 s) 0 y1 0 G A); unfold onepole; rewrite Z; ring).
  destruct (IH s1) as [I1 I2]; [rewrite L, Y, Z; ring|]. destruct (k_run (k35_lp c) s1 (repeat 0 n)) as [s2 ys]. cbn [fst snd] in *. split; [exact I1|].
  change (sumsq (y :: ys)) with (y * y + sumsq ys). rewrite O. assert (E : ring_energy s1 + 4 * g * (2 - k_mod c) * (v * v) = ring_energy s); [|lra].
  unfold ring_energy. rewrite X, H. unfold onepole in B, C. rewrite U, Y in B. set (k := k_mod c) in *. clearbody k. clear - B C.
  set (a := k_xpf2 s) in *. set (b := k_hpf1 s) in *. clearbody a b.
  assert (E : (2 * v - a) * (2 * v - a) + (2 * h - b - (2 * v - a)) * (2 * h - b - (2 * v - a)) - (a * a + (b - a) * (b - a)) = 4 * (v * (v - a)) + 4 * ((h - v) * ((h - b) - (v - a)))) by ring.
  rewrite C, B in E. lra.
Qed.
Print Assumptions C289_silence.
Example ex_C289 : exists s, k_lpf1 s = 0 /\ 0 < ring_energy s /\ 0 < 1.
Proof. exists (mk_kreg 0 1 1). unfold ring_energy. cbn. lra. Qed.

(** ** C290: a constant is passed by the low-pass and stopped by the high-pass: in every state that repeats, and such a state exists *)
Theorem C290_lowpass : forall g reso x, 0 < g -> let c := k35_coeffs g reso true 0 in
  k35_lp c (mk_kreg x (k_mod c * x) x) x = (mk_kreg x (k_mod c * x) x, x) /\ (forall s y, k35_lp c s x = (s, y) -> y = x).
Proof.
  intros g reso x G. cbv zeta. set (c := k35_coeffs g reso true 0). split.
  - destruct (C288_lowpass g reso (mk_kreg x (k_mod c * x) x) x G) as (y1 & u & v & h & A & B & C & U & O & L & X & H). fold c in A, B, C, U, O, L, X, H. cbn [k_lpf1 k_hpf1 k_xpf2] in *.
    destruct (k35_lp c _ x) as [s1 y]. cbn [fst snd] in *. destruct s1 as [l1 h1 x1]. cbn [k_lpf1 k_hpf1 k_xpf2] in *.
    assert (Y : y1 = x) by (apply (onepole_unique g x x y1 x G A); unfold onepole; ring).
    set (k := k_mod c) in *. assert (K : 0 < k <= 196 / 100) by (unfold k, c; rewrite kmod_of; pose proof (kmod_range reso); lra). clearbody k. clear A c.
    unfold onepole in B, C. rewrite U, Y in B. set (p := v - x). set (q := h - k * x).
    assert (B' : p = g * ((k - 1) * p - q)) by (unfold p, q; lra). assert (C' : q = g * (k * p - q)) by (unfold p, q; lra).
    assert (Z : p * ((1 + g) * (1 + g) - k * g) = 0).
    { assert (q * (1 + g) = g * k * p) by lra. assert (p * (1 + g) = g * k * p - g * q) by lra.
      replace (p * ((1 + g) * (1 + g) - k * g)) with ((1 + g) * (p * (1 + g)) - k * g * p) by ring. rewrite H1. replace ((1 + g) * (g * k * p - g * q)) with ((1 + g) * g * k * p - g * (q * (1 + g))) by ring. rewrite H0. ring. }
    assert (N : 0 < (1 + g) * (1 + g) - k * g). { assert (k * g <= 196 / 100 * g) by (apply Rmult_le_compat_r; lra). assert (0 <= g * g) by apply Rle_0_sqr. lra. }
    apply Rmult_integral in Z. destruct Z as [Z|Z]; [|lra]. rewrite Z in C'. assert (Q : q * (1 + g) = 0) by lra. apply Rmult_integral in Q. destruct Q as [Q|Q]; [|lra].
    assert (V1 : v = x) by (unfold p in Z; lra). assert (V2 : h = k * x) by (unfold q in Q; lra). rewrite L, X, H, O, Y, V1, V2. apply f_equal2; [|reflexivity]. f_equal; ring.
  - intros s y E. destruct (C288_lowpass g reso s x G) as (y1 & u & v & h & A & B & C & U & O & L & X & H). fold c in A, B, C, U, O, L, X, H. rewrite E in *. cbn [fst snd] in *.
    unfold onepole in *. assert (y1 = k_lpf1 s) by lra. assert (v = k_xpf2 s) by lra. assert (h = k_hpf1 s) by lra.
    assert (P1 : x - y1 = 0) by (assert (g * (x - y1) = 0) as P by lra; apply Rmult_integral in P; lra).
    assert (P2 : u - v = 0) by (assert (g * (u - v) = 0) as P by lra; apply Rmult_integral in P; lra).
    assert (P3 : k_mod c * v - h = 0) by (assert (g * (k_mod c * v - h) = 0) as P by lra; apply Rmult_integral in P; lra). lra.
Qed.
Print Assumptions C290_lowpass.
Theorem C290_highpass : forall g reso x, 0 < g -> let c := k35_coeffs g reso false 0 in
  k35_hp c (mk_kreg 0 x 0) x = (mk_kreg 0 x 0, 0) /\ (forall s y, k35_hp c s x = (s, y) -> y = 0).
Proof.
  intros g reso x G. cbv zeta. set (c := k35_coeffs g reso false 0). split.
  - unfold k35_hp, k_do_hpf, k_do_lpf. cbv zeta. cbn [k_lpf1 k_hpf1 k_xpf2]. rewrite (clean0 g reso false : clean c).
    replace (k_alpha c * (x - ((x - x) * k_g c + x) + (k_hpf c * 0 + k_lpf c * 0))) with 0 by ring.
    apply f_equal2; [f_equal; ring|]. unfold Rdiv. ring.
  - intros s y E. destruct (C288_highpass g reso s x G) as (y1 & u & v & w & A & B & C & U & O & H & X & L). fold c in A, B, C, U, O, L, X, H. rewrite E in *. cbn [fst snd] in *.
    unfold onepole in *. assert (y1 = k_hpf1 s) by lra. assert (v = k_xpf2 s) by lra. assert (w = k_lpf1 s) by lra.
    assert (P1 : x - y1 = 0) by (assert (g * (x - y1) = 0) as P by lra; apply Rmult_integral in P; lra).
    assert (P2 : k_mod c * u - v = 0) by (assert (g * (k_mod c * u - v) = 0) as P by lra; apply Rmult_integral in P; lra).
    assert (P3 : k_mod c * u - v - w = 0) by (assert (g * (k_mod c * u - v - w) = 0) as P by lra; apply Rmult_integral in P; lra). lra.
Qed.
Print Assumptions C290_highpass.

(** ** C291: fully driven (saturation 1 or more) the output is bounded whatever comes in *)
Lemma tanh_bound x : Rabs (fasttanh_clamped x) <= 10004 / 10000.
Proof.
  destruct C183_tanh as [_ H]. specialize (H x). assert (T : -1 < tanh x < 1).
  { unfold tanh, sinh, cosh. pose proof (exp_pos x). pose proof (exp_pos (- x)). split; [|].
    - apply (Rmult_lt_reg_r ((exp x + exp (- x)) / 2)); [lra|]. unfold Rdiv at 2. rewrite Rmult_assoc, Rinv_l by lra. lra.
    - apply (Rmult_lt_reg_r ((exp x + exp (- x)) / 2)); [lra|]. unfold Rdiv at 1. rewrite Rmult_assoc, Rinv_l by lra. lra. }
  revert H. unfold Rabs. repeat (destruct (Rcase_abs _)); intros; lra.
Qed.
Lemma drive_bound g reso lp sat x : 1 <= sat -> k_drive (k35_coeffs g reso lp sat) x = fasttanh_clamped (x * sat).
Proof. intros Q. unfold k_drive, k35_coeffs. cbv zeta. cbn [k_blend k_blendinv k_sat]. rewrite Rmin_right by lra. ring. Qed.
Theorem C291_lowpass : forall g reso sat s xs, 0 < g -> 1 <= sat -> Rabs (k_xpf2 s) <= Rmax 1 g * (10004 / 10000) ->
  Forall (fun y => Rabs y <= 20008 / 10000) (snd (k_run (k35_lp (k35_coeffs g reso true sat)) s xs)).
Proof.
  intros g reso sat s xs G Q. set (c := k35_coeffs g reso true sat). set (M := 10004 / 10000). revert s. induction xs as [|x xs IH]; intros s H; cbn [k_run snd]; [constructor|].
  assert (K : k_mod c <> 0) by (unfold c; rewrite kmod_of; pose proof (kmod_range reso); lra). pose proof (gs_range g G) as S0. assert (Eg : k_g c = g / (1 + g)) by reflexivity. rewrite <- Eg in S0.
  unfold k35_lp at 1. unfold k_do_hpf, k_do_lpf. cbv zeta. rewrite (drive_bound g reso true sat _ Q : k_drive c _ = _).
  match goal with |- context [fasttanh_clamped ?a] => set (u := fasttanh_clamped a); assert (Bu : Rabs u <= M) by apply tanh_bound; clearbody u end.
  match goal with |- context [k_run ?f ?s1 xs] => specialize (IH s1); destruct (k_run f s1 xs) as [s2 ys] end. cbn [snd k_xpf2] in *.
  set (v := (u - k_xpf2 s) * k_g c + k_xpf2 s) in *. assert (V : v * (1 + g) = g * u + k_xpf2 s) by (unfold v; rewrite Eg; field; lra).
  replace (k_mod c * v / k_mod c) with v by (field; exact K). replace ((u - k_xpf2 s) * k_g c + v) with (2 * v - k_xpf2 s) in IH by (unfold v; ring). clearbody v. clear S0 Eg.
  apply Rcomplements.Rabs_le_between in Bu. apply Rcomplements.Rabs_le_between in H. unfold M in *.
  assert (VB : Rabs v <= 20008 / 10000 /\ Rabs (2 * v - k_xpf2 s) <= Rmax 1 g * (10004 / 10000)).
  { assert (U1 : - (g * (10004 / 10000)) <= g * u <= g * (10004 / 10000)).
    { split; [replace (- (g * (10004 / 10000))) with (g * - (10004 / 10000)) by ring|]; apply Rmult_le_compat_l; lra. }
    assert (V2 : (2 * v - k_xpf2 s) * (1 + g) = 2 * (g * u) + (1 - g) * k_xpf2 s) by (replace ((2 * v - k_xpf2 s) * (1 + g)) with (2 * (v * (1 + g)) - k_xpf2 s * (1 + g)) by ring; rewrite V; ring).
    destruct (Rle_dec g 1) as [L|L].
    - rewrite Rmax_left in * by lra. assert (W : - ((1 - g) * (10004 / 10000)) <= (1 - g) * k_xpf2 s <= (1 - g) * (10004 / 10000)).
      { split; [replace (- ((1 - g) * (10004 / 10000))) with ((1 - g) * - (10004 / 10000)) by ring|]; apply Rmult_le_compat_l; lra. }
      split; apply Rabs_le; split; apply (Rmult_le_reg_r (1 + g)); lra.
    - rewrite Rmax_right in * by lra. assert (W : - ((g - 1) * (g * (10004 / 10000))) <= (g - 1) * k_xpf2 s <= (g - 1) * (g * (10004 / 10000))).
      { split; [replace (- ((g - 1) * (g * (10004 / 10000)))) with ((g - 1) * - (g * (10004 / 10000))) by ring|]; apply Rmult_le_compat_l; lra. }
      split; apply Rabs_le; split; apply (Rmult_le_reg_r (1 + g)); lra. }
  constructor; [exact (proj1 VB)|apply IH, VB].
Qed.
Print Assumptions C291_lowpass.
Theorem C291_highpass : forall g reso sat s x, 0 < g -> 1 <= sat -> let c := k35_coeffs g reso false sat in k_mod c * Rabs (snd (k35_hp c s x)) <= 10004 / 10000.
Proof.
  intros g reso sat s x G Q c. assert (K : 0 < k_mod c) by (unfold c; rewrite kmod_of; pose proof (kmod_range reso); lra).
  unfold k35_hp, k_do_hpf, k_do_lpf. cbv zeta. cbn [snd]. rewrite (drive_bound g reso false sat _ Q : k_drive c _ = _).
  match goal with |- context [fasttanh_clamped ?a] => set (u := fasttanh_clamped a); assert (Bu : Rabs u <= 10004 / 10000) by apply tanh_bound; clearbody u end.
  unfold Rdiv at 1. rewrite Rabs_mult, (Rabs_right (/ k_mod c)) by (apply Rle_ge, Rlt_le, Rinv_0_lt_compat, K). replace (k_mod c * (Rabs u * / k_mod c)) with (Rabs u) by (field; lra). exact Bu.
Qed.
Print Assumptions C291_highpass.
Example ex_C291 : Rabs (k_xpf2 (mk_kreg 0 0 0)) <= Rmax 1 1 * (10004 / 10000).
Proof. cbn. rewrite Rabs_R0, Rmax_left; lra. Qed.

(** ** C292: the filter as it is in the crate cannot be run *)
Theorem C292_filter_runs_refuted : k35_process_quad = Panic. Proof. reflexivity. Qed.
Print Assumptions C292_filter_runs_refuted.
