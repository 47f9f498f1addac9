(* SsoProps4.v - C241-C243: a block of the super oscillator always completes; its output filters. *)
From Coq Require Import Reals ZArith List Lia Lra Psatz.
From Verif Require Import Base Util ParamModel LagModel SsoModel SsoProofs SsoProps SsoProps2 SsoProps3.
Import ListNotations.
Local Open Scope R_scope.

(** ** C241: totality and memory safety of a whole block *)
Definition bufs_ok (s : sso_bufs) : Prop :=
  length (b_l s) = 140%nat /\ length (b_r s) = 140%nat /\ length (b_dc s) = 140%nat /\ (b_pos s = 0 \/ b_pos s = 64)%nat.

Lemma add_len : forall b i x, length b = 140%nat -> (i < 140)%nat -> exists b', ob_add b i x = Ok b' /\ length b' = 140%nat.
Proof.
  intros b i x L H. unfold ob_add. rewrite ob_get_nth by lia. cbn [obind]. destruct (ob_set_ok b i (nth i b 0 + x) ltac:(lia)) as (b' & E & L' & _). exists b'. split; [exact E|lia].
Qed.
Lemma taps_len : forall tab g p ipos js b, (p <= 64)%nat -> Forall (fun j => (j < 12)%nat) js -> length b = 140%nat ->
  exists b', foldR (fun b j => sso_tap tab g p (sso_delay ipos) (sso_m ipos) (sso_lipol ipos) b j) b js = Ok b' /\ length b' = 140%nat.
Proof.
  intros tab g p ipos. induction js as [|j js IH]; intros b P F L; cbn [foldR]; [exists b; auto|]. inversion F as [|? ? J F']; subst.
  unfold sso_tap at 1, sinc_at. pose proof (m_range ipos) as M. pose proof (delay_lt ipos) as D.
  replace ((0 <=? sso_m ipos + Z.of_nat j) && (sso_m ipos + Z.of_nat j <? 6168))%Z%bool with true by (symmetry; apply andb_true_intro; split; [apply Z.leb_le|apply Z.ltb_lt]; lia). cbn [obind].
  replace ((0 <=? sso_m ipos + Z.of_nat j + 12) && (sso_m ipos + Z.of_nat j + 12 <? 6168))%Z%bool with true by (symmetry; apply andb_true_intro; split; [apply Z.leb_le|apply Z.ltb_lt]; lia). cbn [obind].
  destruct (add_len b (p + j + sso_delay ipos) (g * (tab (sso_m ipos + Z.of_nat j)%Z + tab (sso_m ipos + Z.of_nat j + 12)%Z * sso_lipol ipos)) L ltac:(lia)) as (b1 & E & L1). rewrite E. cbn [obind]. apply IH; assumption.
Qed.
Lemma convolve_len : forall tab g p ipos b, (p <= 64)%nat -> length b = 140%nat -> exists b', sso_convolve tab g p ipos b = Ok b' /\ length b' = 140%nat.
Proof. intros. apply taps_len; try assumption. apply Forall_forall. intros j Hj. apply in_seq in Hj. lia. Qed.
Lemma place_ok : forall tab stereo att pl pr pinv s e, bufs_ok s -> exists s', sso_place tab stereo att pl pr pinv s e = Ok s' /\ bufs_ok s' /\ b_pos s' = b_pos s.
Proof.
  intros tab stereo att pl pr pinv s e (L & R0 & D & P). unfold sso_place. cbv zeta. pose proof (delay_lt (sso_ipos pinv (e_pos e))) as DL.
  destruct (convolve_len tab (if stereo then e_g e * att * pl else e_g e * att) (b_pos s) (sso_ipos pinv (e_pos e)) (b_l s) ltac:(lia) L) as (l' & E1 & L1). rewrite E1. cbn [obind].
  match goal with |- exists s', obind ?z _ = _ /\ _ => assert (X : exists r', z = Ok r' /\ length r' = 140%nat) by (destruct stereo; [apply convolve_len; [lia|exact R0]|exists (b_r s); auto]) end.
  destruct X as (r' & E2 & L2). rewrite E2. cbn [obind].
  destruct (add_len (b_dc s) (b_pos s + 6 + sso_delay (sso_ipos pinv (e_pos e))) (e_ddc e) D ltac:(lia)) as (d' & E3 & L3). rewrite E3. cbn [obind].
  eexists. split; [reflexivity|]. split; [|reflexivity]. repeat split; assumption.
Qed.
Lemma places_ok : forall tab stereo att pl pr pinv es s, bufs_ok s -> exists s', foldR (sso_place tab stereo att pl pr pinv) s es = Ok s' /\ bufs_ok s' /\ b_pos s' = b_pos s.
Proof.
  intros tab stereo att pl pr pinv. induction es as [|e es IH]; intros s B; cbn [foldR]; [exists s; auto|].
  destruct (place_ok tab stereo att pl pr pinv s e B) as (s1 & E1 & B1 & P1). rewrite E1. cbn [obind]. destruct (IH s1 B1) as (s2 & E2 & B2 & P2). exists s2. split; [exact E2|]. split; [exact B2|congruence].
Qed.
Lemma voices_ok : forall tab stereo att pinv, 0 < pinv -> forall cs ws b, Forall (fun c => cfg_ok (ch_cfg c)) cs -> Forall voice_ok ws -> length ws = length cs -> bufs_ok b ->
  exists n ws' b', Forall voice_ok ws' /\ length ws' = length cs /\ bufs_ok b' /\ forall fuel, (n <= fuel)%nat -> sso_voices fuel tab stereo att pinv cs ws b = Ok (Some (ws', b')).
Proof.
  intros tab stereo att pinv P. assert (A0 : 0 <= 64 * (1 / pinv)). { unfold Rdiv. rewrite Rmult_1_l. apply Rmult_le_pos; [lra|]. left. apply Rinv_0_lt_compat. exact P. }
  induction cs as [|c cs IH]; intros ws b F V L B.
  - destruct ws; [|discriminate L]. exists 0%nat, [], b. split; [constructor|]. split; [reflexivity|]. split; [exact B|]. intros fuel _. reflexivity.
  - destruct ws as [|w ws]; [discriminate L|]. inversion F as [|? ? K F']; subst. inversion V as [|? ? Vw V']; subst.
    destruct (C238_block_ends_partial (ch_cfg c) (64 * (1 / pinv)) w K Vw A0) as (n & w' & es & Vw' & _ & E).
    destruct (places_ok tab stereo att (ch_panl c) (ch_panr c) pinv es b B) as (b1 & E1 & B1 & _).
    destruct (IH ws b1 F' V' ltac:(cbn [length] in L; lia) B1) as (n2 & ws' & b' & V2 & L2 & B2 & E2).
    exists (Nat.max n n2), (w' :: ws'), b'. split; [constructor; assumption|]. split; [cbn [length]; lia|]. split; [exact B2|]. intros fuel Hf. cbn [sso_voices].
    rewrite E by lia. cbn [obind]. rewrite E1. cbn [obind]. rewrite E2 by lia. reflexivity.
Qed.
Lemma samples_ok : forall k stereo oa hp b n i s, bufs_ok b -> (i + n <= 64)%nat -> exists s' ys, sso_samples k stereo oa hp b n i s = Ok (s', ys) /\ length ys = n.
Proof.
  intros k stereo oa hp b. induction n as [|n IH]; intros i s B H; cbn [sso_samples]; [exists s, []; auto|]. destruct B as (L & R0 & D & P) eqn:EB.
  rewrite !ob_get_nth by lia. cbn [obind]. destruct (sso_sample _ _ _ _ _ _ _ _) as [s1 y]. destruct (IH (Datatypes.S i) s1 B ltac:(lia)) as (s' & ys & E & LY). rewrite E. cbn [obind fst snd]. exists s', (y :: ys). split; [reflexivity|]. cbn [length]. lia.
Qed.
Lemma turn_len : forall p b, length b = 140%nat -> length (ob_turn p b) = 140%nat.
Proof.
  intros p b L. unfold ob_turn. assert (LC : length (ob_clear b p) = 140%nat) by (rewrite clear_len; exact L). set (cb := ob_clear b p) in *. clearbody cb. destruct (Nat.eqb _ _); [|exact LC].
  unfold ob_wrap. rewrite !app_length, skipn_length, firstn_length, skipn_length, repeat_length. lia.
Qed.
Theorem C241_block_completes_partial : forall tab k stereo att pinv hp cs ws b o, 0 < pinv ->
  Forall (fun c => cfg_ok (ch_cfg c)) cs -> Forall voice_ok ws -> length ws = length cs -> bufs_ok b ->
  exists n ws' b' o' ys, Forall voice_ok ws' /\ length ws' = length cs /\ bufs_ok b' /\ length ys = 64%nat /\
  forall fuel, (n <= fuel)%nat -> sso_block fuel tab k stereo att pinv hp cs ws b o = Ok (Some (ws', b', o', ys)).
Proof.
  intros tab k stereo att pinv hp cs ws b o P F V L B. destruct (voices_ok tab stereo att pinv P cs ws b F V L B) as (n & ws' & b1 & V1 & L1 & B1 & E).
  destruct (samples_ok k stereo (att * (1 / pinv)) hp b1 64 0 o B1 ltac:(lia)) as (o' & ys & E2 & LY).
  exists n, ws', (sso_turn stereo b1), o', ys. split; [exact V1|]. split; [exact L1|]. split.
  - destruct B1 as (B1 & B2 & B3 & B4). unfold bufs_ok, sso_turn. cbn [b_l b_r b_dc b_pos]. split; [apply turn_len; exact B1|]. split; [destruct stereo; [apply turn_len|]; exact B2|]. split; [apply turn_len; exact B3|].
    destruct B4 as [-> | ->]; [right|left]; reflexivity.
  - split; [exact LY|]. intros fuel Hf. unfold sso_block. rewrite E by exact Hf. cbn [obind]. rewrite E2. reflexivity.
Qed.
Print Assumptions C241_block_completes_partial.
Example C241_instance : bufs_ok sso_bufs_init.
Proof. unfold bufs_ok, sso_bufs_init. cbn [b_l b_r b_dc b_pos]. repeat split; try apply repeat_length. left. reflexivity. Qed.

(** ** C242: the leak keeps the output bounded *)
(* several samples: (oa, hpf, left cell, right cell, slope cell) *)
Definition inp : Type := (R * R * R * R * R)%type.
Definition samp (k : coeffs) (stereo : bool) (s : sso_out) (x : inp) : sso_out :=
  let '(oa, hpf, bl, br, bdc) := x in fst (sso_sample k stereo oa hpf bl br bdc s).
(* what a sample feeds the leaky integrator of the left channel: the cell minus the slope so far *)
Fixpoint drives (dc : R) (xs : list inp) : list R :=
  match xs with [] => [] | (oa, hpf, bl, br, bdc) :: r => (bl - (dc + bdc) * oa) :: drives (dc + bdc) r end.
Definition leaky (x : inp) : Prop := let '(oa, hpf, bl, br, bdc) := x in 0 <= hpf <= 9982 / 10000.
Theorem C242_output_bounded : forall k stereo xs s M, Forall leaky xs -> Forall (fun d => Rabs d <= M) (drives (o_dc s) xs) ->
  Rabs (o_l (fold_left (samp k stereo) xs s)) <= Rmax (Rabs (o_l s)) (M * (10000 / 18)).
Proof.
  intros k stereo. induction xs as [|[[[[oa hpf] bl] br] bdc] xs IH]; intros s M F D; cbn [fold_left]; [apply Rmax_l|].
  inversion F as [|? ? F0 F']; subst. cbn [drives] in D. inversion D as [|? ? D0 D']; subst. unfold leaky in F0.
  set (s1 := samp k stereo s (oa, hpf, bl, br, bdc)).
  assert (E : o_dc s1 = o_dc s + bdc /\ o_l s1 = o_l s * hpf + (bl - (o_dc s + bdc) * oa)) by (split; reflexivity). destruct E as [E1 E2].
  apply Rle_trans with (1 := IH s1 M F' ltac:(rewrite E1; exact D')). apply Rmax_lub; [|apply Rmax_r].
  rewrite E2. apply Rle_trans with (1 := Rabs_triang _ _). rewrite Rabs_mult, (Rabs_right hpf) by lra.
  set (B := Rmax (Rabs (o_l s)) (M * (10000 / 18))). assert (B1 : Rabs (o_l s) <= B) by apply Rmax_l. assert (B2 : M * (10000 / 18) <= B) by apply Rmax_r.
  pose proof (Rabs_pos (o_l s)) as AP. clearbody B. assert (Rabs (o_l s) * hpf <= B * (9982 / 10000)) by (apply Rmult_le_compat; lra). lra.
Qed.
Print Assumptions C242_output_bounded.
(* and once the drive has stopped it dies away geometrically *)
Theorem C242_output_decays : forall k stereo xs s, Forall leaky xs -> Forall (fun d => d = 0) (drives (o_dc s) xs) ->
  Rabs (o_l (fold_left (samp k stereo) xs s)) <= (9982 / 10000) ^ length xs * Rabs (o_l s).
Proof.
  intros k stereo. induction xs as [|[[[[oa hpf] bl] br] bdc] xs IH]; intros s F D; cbn [fold_left length pow]; [lra|].
  inversion F as [|? ? F0 F']; subst. cbn [drives] in D. inversion D as [|? ? D0 D']; subst. unfold leaky in F0.
  set (s1 := samp k stereo s (oa, hpf, bl, br, bdc)).
  assert (E : o_dc s1 = o_dc s + bdc /\ o_l s1 = o_l s * hpf + (bl - (o_dc s + bdc) * oa)) by (split; reflexivity). destruct E as [E1 E2].
  apply Rle_trans with (1 := IH s1 F' ltac:(rewrite E1; exact D')). rewrite E2, D0, Rplus_0_r, Rabs_mult, (Rabs_right hpf) by lra.
  assert (P : 0 <= (9982 / 10000) ^ length xs) by (apply pow_le; lra). pose proof (Rabs_pos (o_l s)).
  assert (Rabs (o_l s) * hpf <= 9982 / 10000 * Rabs (o_l s)) by nra. rewrite (Rmult_comm (9982 / 10000)), Rmult_assoc. apply Rmult_le_compat_l; assumption.
Qed.
Print Assumptions C242_output_decays.
(* both channels of a centred stereo voice are the mono signal; in mono the right output never changes *)
Theorem C242_channels : forall k oa hpf x bdc s stereo br,
  (o_l s = o_r s -> o_2l s = o_2r s -> let '(s', (yl, yr)) := sso_sample k true oa hpf x x bdc s in yl = yr /\ o_l s' = o_r s' /\ o_2l s' = o_2r s') /\
  (stereo = false -> let '(s', (yl, yr)) := sso_sample k stereo oa hpf x br bdc s in yr = o_2r s /\ o_2r s' = o_2r s /\ o_r s' = o_r s).
Proof.
  intros k oa hpf x bdc s stereo br. split.
  - intros H1 H2. unfold sso_sample. cbv zeta iota. cbn [o_l o_r o_2l o_2r]. rewrite H1, H2. auto.
  - intros ->. unfold sso_sample. cbv zeta iota. cbn [o_r o_2r]. auto.
Qed.
Print Assumptions C242_channels.

(** ** C243: the character filter *)
(* the filter as a function of its input stream x, from a state (last input, last output) *)
Fixpoint charf (k : coeffs) (px py : R) (xs : list R) : list R :=
  match xs with [] => [] | x :: r => let y := py * k_a1 k + (x * k_b0 k + px * k_b1 k) in y :: charf k x y r end.
(* what the oscillator plays is that filter applied to the integrator's output *)
Theorem C243_character_is_a_filter : forall k stereo xs s,
  map (fun n => o_2l (fold_left (samp k stereo) (firstn n xs) s)) (seq 1 (length xs)) =
  charf k (o_l s) (o_2l s) (map (fun n => o_l (fold_left (samp k stereo) (firstn n xs) s)) (seq 1 (length xs))).
Proof.
  intros k stereo. induction xs as [|x xs IH]; intros s; [reflexivity|]. cbn [length seq map charf]. rewrite <- (seq_shift (length xs) 1), !map_map.
  change (firstn 1 (x :: xs)) with ([x]). cbn [fold_left].
  assert (E : o_2l (samp k stereo s x) = o_2l s * k_a1 k + (o_l (samp k stereo s x) * k_b0 k + o_l s * k_b1 k)) by (destruct x as [[[[oa hpf] bl] br] bdc]; reflexivity).
  cbv zeta. rewrite <- E. f_equal. exact (IH (samp k stereo s x)).
Qed.
Print Assumptions C243_character_is_a_filter.
Definition ff (sr : R) : R := (1 - 2 * 5000 * (1 / sr)) * (1 - 2 * 5000 * (1 / sr)).
Lemma ff_range : forall sr, 5000 < sr -> 0 <= ff sr < 1.
Proof.
  intros sr H. unfold ff. assert (0 < 1 / sr) by (unfold Rdiv; rewrite Rmult_1_l; apply Rinv_0_lt_compat; lra). assert (1 / sr < 1 / 5000) by (unfold Rdiv; rewrite !Rmult_1_l; apply Rinv_lt_contravar; [apply Rmult_lt_0_compat|]; lra).
  assert (V : -1 < 1 - 2 * 5000 * (1 / sr) < 1) by lra. set (v := 1 - 2 * 5000 * (1 / sr)) in *. clearbody v. split; [apply Rle_0_sqr|]. assert (0 < (1 - v) * (1 + v)) by (apply Rmult_lt_0_compat; lra). lra.
Qed.
Theorem C243_neutral : forall sr xs px py, charf (sso_coeffs Neutral (1 / sr)) px py xs = xs.
Proof. intros sr. induction xs as [|x xs IH]; intros px py; cbn [charf]; [reflexivity|]. cbv zeta. cbn [sso_coeffs k_a1 k_b0 k_b1]. f_equal; [ring|]. apply IH. Qed.
Print Assumptions C243_neutral.
(* Bright undoes Warm, at every sample rate above 5 kHz *)
Theorem C243_bright_undoes_warm : forall sr xs px py pz, 5000 < sr ->
  charf (sso_coeffs Bright (1 / sr)) py pz (charf (sso_coeffs Warm (1 / sr)) px py xs) = xs.
Proof.
  intros sr xs px py pz H. pose proof (ff_range sr H) as F. revert px py pz. induction xs as [|x xs IH]; intros px py pz; cbn [charf]; [reflexivity|]. cbv zeta. cbn [charf]. cbv zeta. f_equal; [|apply IH].
  cbn [sso_coeffs k_a1 k_b0 k_b1]. fold (ff sr). field. lra.
Qed.
Print Assumptions C243_bright_undoes_warm.
(* every character passes a constant unchanged: from its fixed point the output is the input; Warm stays within the range of its input *)
Theorem C243_unity_dc : forall m sr x n, 5000 < sr -> charf (sso_coeffs m (1 / sr)) x x (repeat x n) = repeat x n.
Proof.
  intros m sr x n H. pose proof (ff_range sr H) as F. induction n as [|n IH]; cbn [repeat charf]; [reflexivity|]. cbv zeta.
  assert (E : x * k_a1 (sso_coeffs m (1 / sr)) + (x * k_b0 (sso_coeffs m (1 / sr)) + x * k_b1 (sso_coeffs m (1 / sr))) = x).
  { destruct m; cbn [sso_coeffs k_a1 k_b0 k_b1]; fold (ff sr); try ring. field. lra. }
  rewrite E. f_equal. exact IH.
Qed.
Print Assumptions C243_unity_dc.
Theorem C243_bounded : forall m sr xs px py B, 5000 < sr -> Rabs px <= B -> Rabs py <= B -> Forall (fun x => Rabs x <= B) xs ->
  Forall (fun y => Rabs y <= match m with Bright => (1 + ff sr) / (1 - ff sr) * B | _ => B end) (charf (sso_coeffs m (1 / sr)) px py xs).
Proof.
  intros m sr xs px py B H PX PY F. pose proof (ff_range sr H) as FR. destruct m.
  - revert px py PX PY. induction xs as [|x xs IH]; intros px py PX PY; cbn [charf]; [constructor|]. inversion F as [|? ? X F']; subst. cbv zeta. cbn [sso_coeffs k_a1 k_b0 k_b1] in *. fold (ff sr) in *.
    assert (Y : Rabs (py * ff sr + (x * (1 - ff sr) + px * 0)) <= B).
    { rewrite Rmult_0_r, Rplus_0_r. apply Rle_trans with (1 := Rabs_triang _ _). rewrite !Rabs_mult, (Rabs_right (ff sr)), (Rabs_right (1 - ff sr)) by lra.
      assert (Rabs py * ff sr <= B * ff sr) by (apply Rmult_le_compat_r; lra). assert (Rabs x * (1 - ff sr) <= B * (1 - ff sr)) by (apply Rmult_le_compat_r; lra). lra. }
    constructor; [exact Y|]. apply IH; assumption.
  - rewrite C243_neutral. exact F.
  - revert px py PX PY. induction xs as [|x xs IH]; intros px py PX PY; cbn [charf]; [constructor|]. inversion F as [|? ? X F']; subst. cbv zeta.
    assert (BP : 0 <= B) by (pose proof (Rabs_pos x); lra).
    assert (R0 : forall u v, Rabs u <= B -> Rabs v <= B -> forall w, Rabs (w * 0 + (u * (1 * (1 / (1 - ff sr))) + v * (- ff sr * (1 / (1 - ff sr))))) <= (1 + ff sr) / (1 - ff sr) * B).
    { intros u v U W w. replace (w * 0 + (u * (1 * (1 / (1 - ff sr))) + v * (- ff sr * (1 / (1 - ff sr))))) with ((u - ff sr * v) / (1 - ff sr)) by (field; lra).
      unfold Rdiv. rewrite Rabs_mult, (Rabs_right (/ (1 - ff sr))) by (left; apply Rinv_0_lt_compat; lra). rewrite Rmult_assoc, (Rmult_comm _ B), <- Rmult_assoc. apply Rmult_le_compat_r; [left; apply Rinv_0_lt_compat; lra|].
      unfold Rminus. apply Rle_trans with (1 := Rabs_triang _ _). rewrite Rabs_Ropp, Rabs_mult, (Rabs_right (ff sr)) by lra. assert (ff sr * Rabs v <= ff sr * B) by (apply Rmult_le_compat_l; lra). lra. }
    constructor; [exact (R0 x px X PX py)|].
    assert (G : forall l p q, Rabs p <= B -> Forall (fun x => Rabs x <= B) l -> Forall (fun y => Rabs y <= (1 + ff sr) / (1 - ff sr) * B) (charf (sso_coeffs Bright (1 / sr)) p q l)).
    { induction l as [|z l IL]; intros p q P FL; cbn [charf]; [constructor|]. inversion FL as [|? ? Z0 FL']; subst. cbv zeta. constructor; [exact (R0 z p Z0 P q)|]. apply IL; assumption. }
    apply G; assumption.
Qed.
Print Assumptions C243_bounded.
Example C243_instance : 5000 < 44100 /\ ff 44100 <> 0. Proof. split; [lra|]. unfold ff. lra. Qed.
