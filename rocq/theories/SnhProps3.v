(* SnhProps3.v - C249-C253: impulse shape, drift, unison, settings and output of the sample-and-hold oscillator (SnhModel.v). *)
From Coq Require Import Reals ZArith List Lia Lra Psatz.
From Verif Require Import Base Util ParamModel LagModel SsoModel SsoProofs SsoProps SsoProps2 SsoProps3 VocModel SnhModel SnhProps.
Import ListNotations.
Local Open Scope R_scope.

(** ** C249: the impulse heard *)
(* what tap j of an impulse adds, with the loads as they are *)
Definition jv (tab : Z -> R) (junk : Z -> nat -> R) (i : Z) (lane : nat) : R := match lane with O => tab i | _ => junk i lane end.
Definition jtap (tab : Z -> R) (junk : Z -> nat -> R) (ipos : Z) (j : nat) : R :=
  jv tab junk (sso_m ipos + Z.of_nat (4 * (j / 4))) (j mod 4) + jv tab junk (sso_m ipos + Z.of_nat (4 * (j / 4)) + 12) (j mod 4) * sso_lipol ipos.
Lemma row_ok : forall tab junk i lane, (0 <= i < 6168)%Z -> snh_row tab junk i lane = Ok (jv tab junk i lane).
Proof.
  intros tab junk i lane H. unfold snh_row, sinc_at. replace ((0 <=? i) && (i <? 6168))%Z%bool with true by (symmetry; apply andb_true_intro; split; [apply Z.leb_le|apply Z.ltb_lt]; lia). reflexivity.
Qed.
Lemma jtap_ok : forall tab junk g p b pend ipos j, Buf p b pend -> (j < 12)%nat ->
  exists b', snh_tap tab junk g p (sso_delay ipos) (sso_m ipos) (sso_lipol ipos) b j = Ok b' /\ Buf p b' (fun i => pend i + if Nat.eqb i (sso_delay ipos + j) then g * jtap tab junk ipos j else 0).
Proof.
  intros tab junk g p b pend ipos j B J. unfold snh_tap. cbv zeta. pose proof (m_range ipos) as M. pose proof (delay_lt ipos) as D.
  pose proof (Nat.div_mod j 4 ltac:(lia)) as DM. rewrite row_ok by lia. cbn [obind]. rewrite row_ok by lia. cbn [obind].
  replace (p + j + sso_delay ipos)%nat with (p + (sso_delay ipos + j))%nat by lia. apply (ob_add_ok p b pend (sso_delay ipos + j)); [exact B|lia].
Qed.
Lemma jtaps_ok : forall tab junk g p ipos js b pend, Forall (fun j => (j < 12)%nat) js -> Buf p b pend ->
  exists b', foldR (fun b j => snh_tap tab junk g p (sso_delay ipos) (sso_m ipos) (sso_lipol ipos) b j) b js = Ok b' /\
  Buf p b' (fun i => pend i + sumR (map (fun j => if Nat.eqb i (sso_delay ipos + j) then g * jtap tab junk ipos j else 0) js)).
Proof.
  intros tab junk g p ipos. induction js as [|j js IH]; intros b pend F B; cbn [foldR].
  - exists b. split; [reflexivity|]. apply (Buf_ext _ _ _ _ B). intros i. cbn [map sumR]. ring.
  - inversion F as [|? ? J F']; subst. destruct (jtap_ok tab junk g p b pend ipos j B J) as (b1 & E1 & B1). rewrite E1. cbn [obind].
    destruct (IH b1 _ F' B1) as (b2 & E2 & B2). exists b2. split; [exact E2|]. apply (Buf_ext _ _ _ _ B2). intros i. cbn [map sumR]. ring.
Qed.
(* an impulse touches twelve samples, from `delay` on, and only every fourth gets the table's values; the buffer is never overrun *)
Theorem C249_impulse : forall tab junk g p b pend ipos, Buf p b pend -> exists b', snh_convolve tab junk g p ipos b = Ok b' /\
  Buf p b' (fun i => pend i + if (Nat.leb (sso_delay ipos) i && Nat.ltb i (sso_delay ipos + 12))%bool then g * jtap tab junk ipos (i - sso_delay ipos) else 0).
Proof.
  intros tab junk g p b pend ipos B. unfold snh_convolve. destruct (jtaps_ok tab junk g p ipos (seq 0 12) b pend) as (b' & E & B'); [apply Forall_forall; intros j Hj; apply in_seq in Hj; lia|exact B|].
  exists b'. split; [exact E|]. apply (Buf_ext _ _ _ _ B'). intros i. f_equal. rewrite (sum_single (fun j => g * jtap tab junk ipos j)). rewrite Nat.add_0_r. reflexivity.
Qed.
Print Assumptions C249_impulse.
(* in the other nine samples it adds whatever lay behind the copied table entry: any value at all *)
Theorem C249_shape_is_garbage_refuted : forall tab g p b pend ipos j y, Buf p b pend -> g <> 0 -> (j < 12)%nat -> (j mod 4 <> 0)%nat ->
  exists junk b', snh_convolve tab junk g p ipos b = Ok b' /\ nth (p + (sso_delay ipos + j)) b' 0 = y.
Proof.
  intros tab g p b pend ipos j y B G J M. set (i0 := (sso_m ipos + Z.of_nat (4 * (j / 4)))%Z).
  exists (fun i lane => if ((i =? i0)%Z && Nat.eqb lane (j mod 4))%bool then (y - pend (sso_delay ipos + j)%nat) / g else 0).
  destruct (C249_impulse tab (fun i lane => if ((i =? i0)%Z && Nat.eqb lane (j mod 4))%bool then (y - pend (sso_delay ipos + j)%nat) / g else 0) g p b pend ipos B) as (b' & E & (L & P & _ & N)).
  exists b'. split; [exact E|]. pose proof (delay_lt ipos) as D. rewrite N by lia. rewrite (proj2 (Nat.leb_le _ _)) by lia. replace (p + (sso_delay ipos + j) - p)%nat with (sso_delay ipos + j)%nat by lia.
  rewrite (proj2 (Nat.leb_le _ _)) by lia. rewrite (proj2 (Nat.ltb_lt _ _)) by lia. cbn [andb]. replace (sso_delay ipos + j - sso_delay ipos)%nat with j by lia.
  unfold jtap. fold i0. destruct (j mod 4)%nat as [|l] eqn:Q; [lia|]. unfold jv. rewrite Z.eqb_refl, Nat.eqb_refl. cbn [andb].
  rewrite (proj2 (Z.eqb_neq _ _)) by lia. cbn [andb]. field. exact G.
Qed.
Print Assumptions C249_shape_is_garbage_refuted.
(* the samples that do get the table's values: the first of each group of four *)
Theorem C249_first_lanes : forall tab junk ipos q, (q < 3)%nat -> jtap tab junk ipos (4 * q) = tapv tab ipos (4 * q).
Proof.
  intros tab junk ipos q Q. unfold jtap, tapv. assert (E : ((4 * q) / 4 = q /\ (4 * q) mod 4 = 0)%nat) by (rewrite Nat.mul_comm; split; [apply Nat.div_mul; lia|apply Nat.mod_mul; lia]).
  destruct E as [-> ->]. reflexivity.
Qed.
Print Assumptions C249_first_lanes.
Example C249_instance : Buf 0 (repeat 0 OBL) (fun _ => 0) /\ (5 mod 4 <> 0)%nat.
Proof. split; [exact Buf_zero|]. cbn. lia. Qed.

(** ** C250: drift *)
(* the state of the random walk is never written: after any blocks the drift is one fresh draw, scaled, and the walk is where it began *)
Theorem C250_drift_forgets_refuted : forall rs r d0 d2, fold_left (fun s r => drift_step r s) (rs ++ [r]) (d0, d2) = (drift_noise r d2, d2).
Proof.
  intros rs r d0 d2. rewrite fold_left_app. cbn [fold_left]. assert (G : snd (fold_left (fun s r => drift_step r s) rs (d0, d2)) = d2).
  { revert d0. induction rs as [|x rs IH]; intros d0; cbn [fold_left]; [reflexivity|]. unfold drift_step at 2. cbn [snd]. apply IH. }
  destruct (fold_left _ rs _) as [x y]. cbn [snd] in G. subst y. reflexivity.
Qed.
Print Assumptions C250_drift_forgets_refuted.
Theorem C250_drift_is_tiny : forall r, Rabs r <= 1 -> Rabs (drift_noise r 0) <= 1 / 316.
Proof.
  intros r H. unfold drift_noise. rewrite Rmult_0_l, Rplus_0_l, Rmult_assoc, Rabs_mult. set (q := sqrt (1 / 100000)).
  assert (Q0 : 0 < q) by (apply sqrt_lt_R0; lra). assert (QQ : q * q = 1 / 100000) by (apply sqrt_sqrt; lra).
  assert (E : 1 / 100000 * (1 / q) = q) by (rewrite <- QQ; field; lra). rewrite E, (Rabs_right q) by lra.
  assert (Q1 : q <= 1 / 316). { destruct (Rle_dec q (1 / 316)) as [L|L]; [exact L|]. exfalso. assert (1 / 316 * (1 / 316) < q * q) by (apply Rmult_le_0_lt_compat; lra). lra. }
  pose proof (Rabs_pos r). assert (Rabs r * q <= 1 * q) by (apply Rmult_le_compat_r; lra). lra.
Qed.
Print Assumptions C250_drift_is_tiny.

(** ** C251: unison *)
(* the number of voices must be an integer parameter when the oscillator is set up and a float one when a voice sounds: no value of
   the parameter gives more than one voice without a panic, and the default value none at all *)
Theorem C251_no_unison_refuted : forall count,
  snh_init_unison count = Panic \/ (exists n, snh_init_unison count = Ok n /\ (1 <= n <= 16)%Z /\
    (n = 1%Z \/ forall drift lfo bias offset voice, snh_detune n count drift lfo bias offset voice = Panic)).
Proof.
  intros [x|n]; [left; reflexivity|]. right. unfold snh_init_unison. cbn [as_int obind]. exists (Z.max 1 (Z.min 16 n)). split; [reflexivity|]. split; [lia|].
  destruct (Z.eq_dec (Z.max 1 (Z.min 16 n)) 1) as [E|E]; [left; exact E|right]. intros. unfold snh_detune. rewrite (proj2 (Z.ltb_lt _ _)) by lia. reflexivity.
Qed.
Print Assumptions C251_no_unison_refuted.
Theorem C251_single_voice : forall count drift lfo bias offset voice, snh_detune 1 count drift lfo bias offset voice = Ok (drift * lfo).
Proof. reflexivity. Qed.
Print Assumptions C251_single_voice.
(* UniCount's default is a float (param.rs:81) *)
Example C251_default : snh_init_unison (PFloat 1) = Panic /\ snh_init_unison (PInt 3) = Ok 3%Z. Proof. split; reflexivity. Qed.

(** ** C252: settings *)
Definition snh_settings (start : bool) (s : lag * lag * lag) (x : R * R * R) : lag * lag * lag :=
  let '(a, b, c) := s in let '(sy, pw, sh) := x in (snh_sync_step_lag start a sy, snh_pw_lag start b pw, snh_shape_lag start c sh).
(* from the start of a note on, whatever the parameters (Correlation inside its range -1..1): the settings of every block are those C244-C248 ask for *)
Theorem C252_settings_in_range : forall l0 x0 xs t T, (let '(a, b, c) := l0 in rate5 a /\ rate5 b /\ rate5 c) ->
  Forall (fun x => -1 <= snd x <= 1) (x0 :: xs) -> 0 < t -> 0 < T ->
  let '(a, b, c) := fold_left (snh_settings false) xs (snh_settings true l0 x0) in
  scfg_ok {| n_sync := l_v a; n_pw := l_v b; n_wf := 8 / 10 * l_v c; n_t := t; n_T := T |}.
Proof.
  intros [[a0 b0] c0] [[y0 w0] s0] xs t T (A & B & C) F t0 T0. inversion F as [|? ? F0 F']; subst. cbn [snd] in F0.
  set (inv := fun s : lag * lag * lag => let '(a, b, c) := s in rate5 a /\ rate5 b /\ rate5 c /\ 0 <= l_v a /\ 1 / 1000 <= l_v b <= 999 / 1000 /\ -1 <= l_v c <= 1).
  assert (I0 : inv (snh_settings true (a0, b0, c0) (y0, w0, s0))).
  { unfold inv, snh_settings, snh_sync_step_lag, snh_pw_lag, snh_shape_lag. cbv zeta iota. repeat match goal with |- context[l_v (lag_instantize (lag_new_value ?l ?x))] => rewrite (proj1 (lag_start_range (fun _ => True) l x I)) end.
    refine (conj _ (conj _ (conj _ (conj (Rmax_l _ _) (conj _ F0))))); try (apply lag_rate_start; assumption). apply limR3_range; lra. }
  assert (G : inv (fold_left (snh_settings false) xs (snh_settings true (a0, b0, c0) (y0, w0, s0)))).
  { revert I0. generalize (snh_settings true (a0, b0, c0) (y0, w0, s0)). clear F F0. induction F' as [|[[y w] s] xs X F' IH]; intros [[a b] c] I0; cbn [fold_left]; [exact I0|]. apply IH. cbn [snd] in X.
    destruct I0 as (R1 & R2 & R3 & R4 & R5 & R6). unfold inv, snh_settings, snh_sync_step_lag, snh_pw_lag, snh_shape_lag. cbv zeta iota.
    refine (conj _ (conj _ (conj _ (conj _ (conj _ _))))); try (apply lag_rate_step; assumption).
    - apply lag_step_nonneg; [assumption|assumption|apply Rmax_l].
    - apply lag_step_range; [assumption|assumption|apply limR3_range; lra].
    - apply lag_step_range; assumption. }
  destruct (fold_left _ _ _) as [[a b] c]. destruct G as (_ & _ & _ & R4 & R5 & R6). unfold scfg_ok. cbn [n_sync n_pw n_wf n_t n_T]. refine (conj R4 (conj R5 (conj _ (conj t0 T0)))). apply Rabs_le. lra.
Qed.
Print Assumptions C252_settings_in_range.
(* the smoothers of new.rs and init.rs have that rate *)
Example C252_instance : rate5 (lag_set_rate lag_default (5 / 100)). Proof. unfold rate5, lag_set_rate. cbn [l_lp l_lpinv]. lra. Qed.
(* both periods are positive: in absolute mode at least a tenth, else whatever the tuning's inverse pitch says *)
Theorem C252_periods : forall inv_true inv_ctr absolute pitch sync detune, (forall x, 0 < inv_ctr x) ->
  0 < snh_period inv_true inv_ctr absolute pitch sync detune /\ (absolute = true -> 1 / 10 <= snh_period inv_true inv_ctr absolute pitch sync detune) /\
  (absolute = false -> sync = 0 -> snh_period inv_true inv_ctr absolute pitch sync detune = inv_ctr detune).
Proof.
  intros it ic abs pitch sync detune H. unfold snh_period. destruct abs.
  - pose proof (Rmax_l (1 / 10) (it (detune * it pitch * 16 / 0.9443))). repeat split; try lra; intros; discriminate.
  - split; [apply H|]. split; [discriminate|]. intros _ ->. rewrite Rplus_0_r. reflexivity.
Qed.
Print Assumptions C252_periods.

(** ** C253: output *)
Theorem C253_bounded : forall oa dc xs out M, Forall (fun x => 0 <= fst x <= 999 / 1000 /\ Rabs (snd x - dc * oa) <= M) xs ->
  Forall (fun y => Rabs y <= Rmax (Rabs out) (1000 * M)) (snh_samples oa dc xs out).
Proof.
  intros oa dc. induction xs as [|[h b] xs IH]; intros out M F; cbn [snh_samples]; [constructor|]. inversion F as [|? ? [F1 F2] F']; subst. cbn [fst snd] in *. cbv zeta.
  assert (B : Rabs (snh_sample oa h dc b out) <= Rmax (Rabs out) (1000 * M)).
  { unfold snh_sample. apply Rle_trans with (1 := Rabs_triang _ _). rewrite Rabs_mult, (Rabs_right h) by lra. set (Q := Rmax (Rabs out) (1000 * M)). assert (Rabs out <= Q) by apply Rmax_l. assert (1000 * M <= Q) by apply Rmax_r.
    clearbody Q. pose proof (Rabs_pos out). assert (Rabs out * h <= Q * (999 / 1000)) by (apply Rmult_le_compat; lra). lra. }
  constructor; [exact B|]. pose proof (IH (snh_sample oa h dc b out) M F') as I. revert I. apply Forall_impl. intros y Hy. apply Rle_trans with (1 := Hy). apply Rmax_lub; [exact B|apply Rmax_r].
Qed.
Print Assumptions C253_bounded.
(* once nothing is fed in, the held level does not stay: it leaks away geometrically *)
Theorem C253_leaks : forall n h b dc oa out, b = dc * oa -> nth n (snh_samples oa dc (repeat (h, b) (Datatypes.S n)) out) 0 = h ^ Datatypes.S n * out.
Proof.
  induction n as [|n IH]; intros h b dc oa out E.
  - cbn [repeat snh_samples nth]. unfold snh_sample. rewrite E. cbn [pow]. ring.
  - change (repeat (h, b) (Datatypes.S (Datatypes.S n))) with ((h, b) :: repeat (h, b) (Datatypes.S n)). cbn [snh_samples]. cbv zeta. change (nth (Datatypes.S n) (?x :: ?l) 0) with (nth n l 0). 
    rewrite (IH h b dc oa _ E). unfold snh_sample. rewrite E. rewrite <- !tech_pow_Rmult. ring.
Qed.
Print Assumptions C253_leaks.
Theorem C253_gain_below_one : forall sr_inv pp, 0 < snh_hpf sr_inv pp <= 999 / 1000.
Proof. intros. unfold snh_hpf. split; [apply Rmin_glb_lt; [lra|apply exp_pos]|apply Rmin_l]. Qed.
Print Assumptions C253_gain_below_one.
(* played with FM, a block panics before anything sounds *)
Theorem C253_fm_panics_refuted : snh_block_entry true = Panic /\ snh_block_entry false = Ok tt.
Proof. split; reflexivity. Qed.
Print Assumptions C253_fm_panics_refuted.
