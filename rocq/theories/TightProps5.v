(** Further theorems about C234, C236, C240, C242, C243, C244, C250-C253: facts that wrong programs tried against the earlier theorems
    (seeded/LOG.jsonl) showed to be missing. *)
From Coq Require Import Reals ZArith List Lra Psatz Lia.
From Coquelicot Require Rcomplements.
From Verif Require Import Base Util ParamModel LagModel BiquadModel SsoModel SsoProofs SsoProps SsoProps2 SsoProps3 SsoProps4 VocModel SnhModel SnhProps SnhProps2 SnhProps3.
Import ListNotations.
Local Open Scope R_scope.

(** * The super oscillator *)
(** ** C234: where a note begins *)
(* with retrigger at the start of the cycle, otherwise at a random phase within its first quarter (the cycle is 2 ictr long, C235), before the first impulse, in step with the sync master *)
Theorem C234_start_phase : forall draw ictr pw pw2,
  w_osc (sso_start true draw ictr pw pw2) = 0 /\ w_osc (sso_start false draw ictr pw pw2) = draw * (2 * ictr / 4) /\
  (forall rt, w_sync (sso_start rt draw ictr pw pw2) = w_osc (sso_start rt draw ictr pw pw2) /\ w_state (sso_start rt draw ictr pw pw2) = 0%Z) /\
  (0 <= draw < 1 -> 0 < ictr -> 0 <= w_osc (sso_start false draw ictr pw pw2) < 2 * ictr / 4).
Proof.
  intros draw ictr pw pw2. unfold sso_start. cbv zeta. cbn [w_osc w_sync w_state]. split; [reflexivity|]. split; [field|]. split; [intros; split; reflexivity|].
  intros D I. assert (0 <= draw * ictr) by (apply Rmult_le_pos; lra). assert (draw * ictr < 1 * ictr) by (apply Rmult_lt_compat_r; lra). lra.
Qed.
Print Assumptions C234_start_phase.

(** ** C236: the pitch, its limits and the spread of the voices *)
(* notes above 148 sound as 148; no note below is moved *)
Theorem C236_pitch_cap : forall p, (p <= 148 -> sso_pitch p = p) /\ (148 <= p -> sso_pitch p = 148).
Proof. intros p. unfold sso_pitch. split; intros H; [apply Rmin_right|apply Rmin_left]; exact H. Qed.
Print Assumptions C236_pitch_cap.
(* sync raises the slave at most to 156 semitones, and is obeyed exactly below that *)
Theorem C236_sync_cap : forall s p, sso_sync_arg s p + p <= 156 /\ (s + p <= 156 -> sso_sync_arg s p = s) /\ (156 <= s + p -> sso_sync_arg s p + p = 156).
Proof.
  intros s p. unfold sso_sync_arg. pose proof (Rmin_r s (12 + 72 + 72 - p)). split; [lra|]. split; intros H'; [apply Rmin_left; lra|]. rewrite Rmin_right by lra. lra.
Qed.
Print Assumptions C236_sync_cap.
(* one voice is not spread; of n voices (the settings of unison: bias 2/(n-1), offset -1, C190) the first is spread below, the last above, and neighbours are equally far apart *)
Theorem C236_unison_spread : forall d lfo spread b o v,
  sso_detune d lfo 1 spread b o v = d * lfo /\
  (forall n, (2 <= n)%nat -> let bias := 2 / (INR n - 1) in
     sso_detune d lfo (Z.of_nat n) spread bias (-1) 0 = d * lfo - spread /\ sso_detune d lfo (Z.of_nat n) spread bias (-1) (n - 1) = d * lfo + spread /\
     (forall k, sso_detune d lfo (Z.of_nat n) spread bias (-1) (Datatypes.S k) - sso_detune d lfo (Z.of_nat n) spread bias (-1) k = 2 * spread / (INR n - 1)) /\
     (forall k, (k <= n - 1)%nat -> sso_detune d lfo (Z.of_nat n) spread bias (-1) (n - 1 - k) - d * lfo = - (sso_detune d lfo (Z.of_nat n) spread bias (-1) k - d * lfo))).
Proof.
  intros d lfo spread b o v. split; [unfold sso_detune; cbn; lra|]. intros n N. cbv zeta.
  assert (N1 : 1 < INR n) by (apply (lt_INR 1); lia). assert (L : (1 <? Z.of_nat n)%Z = true) by (apply Z.ltb_lt; lia). unfold sso_detune. rewrite L.
  assert (M : INR (n - 1) = INR n - 1) by (rewrite minus_INR by lia; reflexivity).
  split; [cbn [INR]; lra|]. split; [rewrite M; field; lra|]. split; [intros k; rewrite S_INR; field; lra|]. intros k K. rewrite minus_INR by lia. rewrite M. field. lra.
Qed.
Print Assumptions C236_unison_spread.
Example C236_unison_instance : sso_detune 0 0 (Z.of_nat 3) (1 / 10) (2 / (INR 3 - 1)) (-1) 1 = 0.
Proof. unfold sso_detune. cbn [INR]. change (1 <? Z.of_nat 3)%Z with true. cbv iota. lra. Qed.

(** ** C242: the integrator's leak is the same for every cycle of every note *)
(* 8.175798915 pp is the frequency of the note; where the gain is not capped the level loses the factor 0.995^4 in one period of it *)
Theorem C242_leak_per_cycle : forall sr pp, 0 < sr -> 0 < pp -> let f := 8.175798915 * pp in f <= sr -> Rpower (995 / 1000) (4 * (f / sr)) <= 9982 / 10000 ->
  Rpower (sso_hpf sr pp) (sr / f) = (995 / 1000) ^ 4.
Proof.
  intros sr pp S0 P0 f L C. assert (F0 : 0 < f) by (unfold f; apply Rmult_lt_0_compat; lra). unfold sso_hpf. fold f.
  assert (Q : Rmin 1 (f / sr) = f / sr) by (apply Rmin_right; apply (Rcomplements.Rle_div_l f 1 sr S0); lra). rewrite Q, Rmin_right by exact C.
  rewrite Rpower_mult. replace (4 * (f / sr) * (sr / f)) with (INR 4) by (cbn [INR]; field; lra). apply Rpower_pow. lra.
Qed.
Print Assumptions C242_leak_per_cycle.
(* the cap: below 20 Hz or so a sample keeps 0.9982 of the level; never more *)
Theorem C242_leak_cap : forall sr pp, sso_hpf sr pp <= 9982 / 10000 /\ (9982 / 10000 <= Rpower (995 / 1000) (4 * (8.175798915 * pp / sr)) -> 8.175798915 * pp <= sr -> 0 < sr -> sso_hpf sr pp = 9982 / 10000).
Proof.
  intros sr pp. unfold sso_hpf. split; [apply Rmin_l|]. intros H L S0. rewrite (Rmin_right 1); [apply Rmin_left; exact H|]. apply (Rcomplements.Rle_div_l _ 1 sr S0). lra.
Qed.
Print Assumptions C242_leak_cap.
Example C242_leak_instance : forall sr, 0 < sr -> Rpower (995 / 1000) (4 * (8.175798915 * (sr / 8.175798915) / sr)) <= 9982 / 10000.
Proof. intros sr S0. replace (4 * _) with (INR 4) by (cbn [INR]; field; lra). rewrite Rpower_pow by lra. lra. Qed.

(** ** C242: left and right are each other's mirror images *)
Definition mirror_out (s : sso_out) : sso_out := {| o_l := o_r s; o_2l := o_2r s; o_r := o_l s; o_2r := o_2l s; o_dc := o_dc s |}.
Theorem C242_mirror : forall k oa hpf bl br bdc s, let '(s', (l, r)) := sso_sample k true oa hpf bl br bdc s in
  sso_sample k true oa hpf br bl bdc (mirror_out s) = (mirror_out s', (r, l)).
Proof. intros. unfold sso_sample, mirror_out. cbn [o_l o_2l o_r o_2r o_dc]. reflexivity. Qed.
Print Assumptions C242_mirror.
Definition mirror_bufs (s : sso_bufs) : sso_bufs := {| b_l := b_r s; b_r := b_l s; b_dc := b_dc s; b_pos := b_pos s |}.
(* exchanging the pans and the buffers exchanges what an impulse does to them *)
Theorem C242_pan_mirror : forall tab att pl pr pinv s e s', sso_place tab true att pl pr pinv s e = Ok s' ->
  sso_place tab true att pr pl pinv (mirror_bufs s) e = Ok (mirror_bufs s').
Proof.
  intros tab att pl pr pinv s e s' H. unfold sso_place in *. cbv zeta iota in *. unfold mirror_bufs at 1. cbn [b_l b_r b_dc b_pos].
  apply obind_inv in H. destruct H as (l & L & H). apply obind_inv in H. destruct H as (r & R0 & H). apply obind_inv in H. destruct H as (d & D & H).
  cbn [mirror_bufs b_l b_r b_dc b_pos]. rewrite R0. cbn [obind]. rewrite L. cbn [obind]. rewrite D. cbn [obind]. assert (E : s' = {| b_l := l; b_r := r; b_dc := d; b_pos := b_pos s |}) by congruence. rewrite E. reflexivity.
Qed.
Print Assumptions C242_pan_mirror.
(* in mono an impulse leaves the right buffer alone and is not panned *)
Theorem C242_mono_place : forall tab att pl pr pl' pr' pinv s e s', sso_place tab false att pl pr pinv s e = Ok s' -> b_r s' = b_r s /\ sso_place tab false att pl' pr' pinv s e = Ok s'.
Proof.
  intros tab att pl pr pl' pr' pinv s e s' H. split; [|exact H]. unfold sso_place in H. cbv zeta iota in H.
  apply obind_inv in H. destruct H as (l & _ & H). cbn [obind] in H. apply obind_inv in H. destruct H as (d & _ & H). assert (E : s' = {| b_l := l; b_r := b_r s; b_dc := d; b_pos := b_pos s |}) by congruence. rewrite E. reflexivity.
Qed.
Print Assumptions C242_mono_place.

(** ** C243: which character is which *)
Theorem C243_modes : forall i, (character_of i = Ok Warm <-> i = 0%Z) /\ (character_of i = Ok Neutral <-> i = 1%Z) /\ (character_of i = Ok Bright <-> i = 2%Z) /\ (character_of i = Panic <-> ~ (0 <= i <= 2)%Z).
Proof.
  intros i. unfold character_of. destruct (Z.eqb_spec i 0) as [->|N0]; [|destruct (Z.eqb_spec i 1) as [->|N1]; [|destruct (Z.eqb_spec i 2) as [->|N2]]]; repeat split; intros; try reflexivity; try discriminate; try lia; exfalso; lia.
Qed.
Print Assumptions C243_modes.

(** ** C240: one whole voice, block after block *)
(* what sso_voices does with the impulses of one voice is the contribution C240 speaks of: the left buffer of a block holds what was
   pending plus every impulse's kernel at its place, scaled by the attenuation and the pan *)
Theorem C240_voice_lays_its_impulses : forall tab stereo att pl pr pinv es s pend, Buf (b_pos s) (b_l s) pend -> bufs_ok s ->
  exists s', foldR (sso_place tab stereo att pl pr pinv) s es = Ok s' /\ b_pos s' = b_pos s /\
  Buf (b_pos s') (b_l s') (fun i => pend i + sumR (map (fun e => contrib tab (e_g e * att * (if stereo then pl else 1), sso_ipos pinv (e_pos e)) i) es)).
Proof.
  intros tab stereo att pl pr pinv. induction es as [|e es IH]; intros s pend B K.
  - exists s. cbn [foldR map]. split; [reflexivity|]. split; [reflexivity|]. apply (Buf_ext _ _ _ _ B). intros j. unfold sumR. cbn [fold_right]. lra.
  - destruct (place_ok tab stereo att pl pr pinv s e K) as (s1 & P & K1 & Q1). cbn [foldR]. rewrite P. cbn [obind].
    assert (B1 : Buf (b_pos s1) (b_l s1) (fun i => pend i + contrib tab (e_g e * att * (if stereo then pl else 1), sso_ipos pinv (e_pos e)) i)).
    { unfold sso_place in P. cbv zeta in P. apply obind_inv in P. destruct P as (l & L & P). apply obind_inv in P. destruct P as (r & _ & P). apply obind_inv in P. destruct P as (d & _ & P).
      assert (E : s1 = {| b_l := l; b_r := r; b_dc := d; b_pos := b_pos s |}) by congruence. rewrite E. cbn [b_l b_pos].
      destruct (convolve_ok tab (if stereo then e_g e * att * pl else e_g e * att) _ _ _ (sso_ipos pinv (e_pos e)) B) as (b' & C & D). rewrite L in C. assert (l = b') by congruence. subst l.
      apply (Buf_ext _ _ _ _ D). intros j. destruct stereo; [reflexivity|]. rewrite Rmult_1_r. reflexivity. }
    destruct (IH s1 _ B1 K1) as (s' & F & Q & B'). exists s'. split; [exact F|]. split; [congruence|]. apply (Buf_ext _ _ _ _ B'). intros j. unfold sumR. cbn [map fold_right]. lra.
Qed.
Print Assumptions C240_voice_lays_its_impulses.
Example C240_voice_instance : Buf (b_pos sso_bufs_init) (b_l sso_bufs_init) (fun _ => 0) /\ bufs_ok sso_bufs_init.
Proof. split; [exact Buf_zero|]. unfold bufs_ok, sso_bufs_init, OBL. cbn [b_l b_r b_dc b_pos]. rewrite !repeat_length. repeat split; auto. Qed.

(** * The sample-and-hold oscillator *)
Theorem C244_start_phase : forall draw ctr pw, h_osc (snh_start true draw ctr pw) = 0 /\ h_osc (snh_start false draw ctr pw) = draw * (ctr / 2) /\
  (forall on, h_sync (snh_start on draw ctr pw) = h_osc (snh_start on draw ctr pw) /\ h_last (snh_start on draw ctr pw) = 0) /\ (1 / 1000 <= pw <= 999 / 1000 -> forall on, h_pw (snh_start on draw ctr pw) = pw).
Proof.
  intros. unfold snh_start. cbv zeta. cbn [h_osc h_sync h_last h_pw]. split; [reflexivity|]. split; [field|]. split; [intros; split; reflexivity|]. intros W on. unfold limR3. rewrite Rmin_right by lra. apply Rmax_right. lra.
Qed.
Print Assumptions C244_start_phase.
(* an impulse at pos is laid at pos * pinv samples, to 2^-24 of a sample *)
Theorem C249_impulse_place : forall pinv pos, 0 <= pos * pinv < 64 -> pos * pinv - 1 / 16777216 < IZR (snh_ipos pinv pos) / 16777216 <= pos * pinv.
Proof.
  intros pinv pos H. unfold snh_ipos. cbv zeta. set (x := 16777216 * (pos * pinv)). assert (X : 0 <= x < 1073741824) by (unfold x; lra). destruct (Rle_dec 0 x) as [_|N]; [|lra].
  destruct (base_Int_part x) as [I1 I2]. assert (A : (0 <= Int_part x)%Z) by (assert (-1 < IZR (Int_part x)) by lra; apply lt_IZR in H0; lia). assert (B : (Int_part x < 1073741824)%Z) by (apply lt_IZR; lra).
  rewrite Z.min_r, Z.max_r by lia. unfold x in *. lra.
Qed.
Print Assumptions C249_impulse_place.
Example C249_place_instance : 0 <= 1 * 32 < 64. Proof. lra. Qed.
(* what the drift would be with a state, and how much one draw counts *)
Theorem C250_drift_formula : forall r s, let q := sqrt (1 / 100000) in drift_noise r s * q = (1 - q * q) * s + q * q * r.
Proof.
  intros r s q. assert (Q0 : 0 < q) by (apply sqrt_lt_R0; lra). assert (QQ : q * q = 1 / 100000) by (apply sqrt_sqrt; lra). unfold drift_noise. fold q. rewrite <- QQ. field. lra.
Qed.
Print Assumptions C250_drift_formula.
Theorem C251_count : forall n, (1 <= n <= 16)%Z -> snh_init_unison (PInt n) = Ok n.
Proof. intros n H. unfold snh_init_unison. cbn [as_int obind]. rewrite Z.min_r, Z.max_r by lia. reflexivity. Qed.
Print Assumptions C251_count.
(* if the count were read alike: u is then the spread *)
Theorem C251_spread : forall u d lfo n v, (2 <= n)%nat -> (v < n)%nat -> snh_detune (Z.of_nat n) (PFloat u) d lfo (2 / (INR n - 1)) (-1) v = Ok (d * lfo + u * (2 * INR v / (INR n - 1) - 1)).
Proof.
  intros u d lfo n v N V. assert (N1 : 1 < INR n) by (apply (lt_INR 1); lia). unfold snh_detune. rewrite (proj2 (Z.ltb_lt 1 _)) by lia. cbn [as_float obind]. f_equal. field. lra.
Qed.
Print Assumptions C251_spread.
(* with relative spread, detuning and sync raise the slave alike *)
Theorem C252_relative_period : forall it ic pitch sync detune, snh_period it ic false pitch sync detune = ic (detune + sync) /\
  (0.1 <= it (detune * it pitch * 16 / 0.9443) -> snh_period it ic true pitch sync detune = it (detune * it pitch * 16 / 0.9443)).
Proof. intros. unfold snh_period. split; [reflexivity|]. intros H. apply Rmax_right. lra. Qed.
Print Assumptions C252_relative_period.
Theorem C253_leak_per_cycle : forall sr pp, 0 < sr -> 0 < pp -> let f := 8.175798915 * pp in f <= sr -> Rpower (995 / 1000) (4 * (f / sr)) <= 999 / 1000 ->
  Rpower (snh_hpf (1 / sr) pp) (sr / f) = (995 / 1000) ^ 4.
Proof.
  intros sr pp S0 P0 f L C. assert (F0 : 0 < f) by (unfold f; apply Rmult_lt_0_compat; lra). unfold snh_hpf. fold f. replace (f * (1 / sr)) with (f / sr) by (field; lra).
  assert (Q : Rmin 1 (f / sr) = f / sr) by (apply Rmin_right; apply (Rcomplements.Rle_div_l f 1 sr S0); lra). rewrite Q, Rmin_right by exact C.
  rewrite Rpower_mult. replace (4 * (f / sr) * (sr / f)) with (INR 4) by (cbn [INR]; field; lra). apply Rpower_pow. lra.
Qed.
Print Assumptions C253_leak_per_cycle.
Example C253_leak_instance : forall sr, 0 < sr -> Rpower (995 / 1000) (4 * (8.175798915 * (sr / 8.175798915) / sr)) <= 999 / 1000.
Proof. intros sr S0. replace (4 * _) with (INR 4) by (cbn [INR]; field; lra). rewrite Rpower_pow by lra. lra. Qed.
