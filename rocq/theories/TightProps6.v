(** Further theorems about C223, C224, C227, C254, C255, C260, C261, C262, C264: facts that wrong programs tried against the earlier
    theorems (seeded/LOG.jsonl) showed to be missing. *)
From Coq Require Import Reals ZArith List Lra Psatz Lia.
From Verif Require Import Base Util F32 BlockModel LagModel MathModel RampProps ClipProps FiltProps VocModel NlfModel LadderModel.
Import ListNotations.
Local Open Scope R_scope.

(** * The nonlinear biquad filters *)
(** ** C254: the resonance knob: q rises with the cube of the knob from 0.1 to 18.1, and the knob is limited to 0..1 *)
Theorem C254_resonance : forall r, (0 <= r <= 1 -> nl_q r = 18 * (r * r * r) + 1 / 10) /\ (r <= 0 -> nl_q r = 1 / 10) /\ (1 <= r -> nl_q r = 181 / 10).
Proof.
  intros r. unfold nl_q. rewrite limR. cbv zeta. refine (conj _ (conj _ _)); intros H.
  - rewrite Rmax_left, Rmin_left by (try rewrite Rmax_left; lra). lra.
  - rewrite Rmax_right, Rmin_left by lra. lra.
  - rewrite Rmax_left, Rmin_right by (try rewrite Rmax_left; lra). lra.
Qed.
Print Assumptions C254_resonance.

(** ** C255, C260: which saturator a subtype number selects (bits 2 and 3), and that every coefficient glides *)
(* numbers 0-3 tanh, 4-7 soft clip, 8-11 Ojd, 12-15 sine; the states filter has only the first eight *)
Theorem C255_saturator_of_subtype : forall k, (0 <= k < 16)%Z ->
  nlff_sat (nl_sat_index k) = Some (if (k <? 4)%Z then STanh else if (k <? 8)%Z then SSoft else if (k <? 12)%Z then SOjd else SSine) /\
  nlsf_sat (nl_sat_index k) = (if (k <? 4)%Z then Some STanh else if (k <? 8)%Z then Some SSoft else None) /\
  (Z.of_nat (nl_stage_count k) = k mod 4 + 1)%Z.
Proof.
  intros k K. assert (D : In k (map Z.of_nat (seq 0 16))) by (apply in_map_iff; exists (Z.to_nat k); split; [lia|apply in_seq; lia]).
  cbn [seq map] in D. repeat (destruct D as [<- | D]; [repeat split; reflexivity|]). destruct D.
Qed.
Print Assumptions C255_saturator_of_subtype.
Definition moved (c d c' : nlc) : Prop :=
  cA1 c' = cA1 c + cA1 d /\ cA2 c' = cA2 c + cA2 d /\ cB0 c' = cB0 c + cB0 d /\ cB1 c' = cB1 c + cB1 d /\ cB2 c' = cB2 c + cB2 d /\ cMk c' = cMk c + cMk d.
Theorem C255_glide : forall cwp s x s' y, nlff_process cwp s x = Ok (s', y) \/ nlsf_process cwp s x = Ok (s', y) -> moved (ns_c s) (ns_d s) (ns_c s') /\ ns_d s' = ns_d s.
Proof.
  intros cwp s x s' y [H | H]; [unfold nlff_process in H; destruct (nlff_sat _)|unfold nlsf_process in H; destruct (nlsf_sat _)]; try discriminate;
  destruct (nl_stages _ _ _ _) as [zs o]; injection H as <- <-; (split; [repeat split|reflexivity]).
Qed.
Print Assumptions C255_glide.
Example C255_glide_instance : exists s' y, nlff_process 4 (mk_nls (mk_nlc 0 0 1 0 0 1) (mk_nlc 0 0 0 0 (1 / 10) 0) [(0, 0)]) 1 = Ok (s', y) /\ cB2 (ns_c s') = 1 / 10.
Proof. eexists; eexists; split; [reflexivity|]. transitivity (0 + 1 / 10); [reflexivity|ring]. Qed.

(** * The ladders *)
(** ** C261: each stage is driven by the saturated state of the one before it and damped by its own *)
Theorem C261_cascade : forall x c s0 s1 s2 s3, let g := rk_cut c in
  rk_deriv x c (s0, s1, s2, s3) =
    (g * (rk_clip (x - rk_res c * (s3 - rk_gc c * x)) - rk_clip s0), g * (rk_clip s0 - rk_clip s1), g * (rk_clip s1 - rk_clip s2), g * (rk_clip s2 - rk_clip s3)).
Proof. reflexivity. Qed.
Print Assumptions C261_cascade.
(* so the four states at rest are those whose saturated values agree with the saturated input, and only those *)
Theorem C261_equilibrium : forall x c s0 s1 s2 s3, rk_cut c <> 0 ->
  (rk_deriv x c (s0, s1, s2, s3) = (0, 0, 0, 0) <->
   rk_clip s0 = rk_clip (x - rk_res c * (s3 - rk_gc c * x)) /\ rk_clip s1 = rk_clip s0 /\ rk_clip s2 = rk_clip s1 /\ rk_clip s3 = rk_clip s2).
Proof.
  intros x c s0 s1 s2 s3 G. rewrite C261_cascade. cbv zeta.
  assert (Z : forall u v, rk_cut c * (u - v) = 0 <-> v = u).
  { intros u v. split; [intros H; apply Rmult_integral in H as [H | H]; [contradiction|lra]|intros ->; ring]. }
  split.
  - intros E. assert (E0 := f_equal (fun p => fst (fst (fst p))) E). assert (E1 := f_equal (fun p => snd (fst (fst p))) E).
    assert (E2 := f_equal (fun p => snd (fst p)) E). assert (E3 := f_equal snd E). cbn [fst snd] in E0, E1, E2, E3.
    apply (proj1 (Z _ _)) in E0, E1, E2, E3. repeat split; assumption.
  - intros (A & B & C & D). apply (proj2 (Z _ _)) in A, B, C, D. rewrite A, B, C, D. reflexivity.
Qed.
Print Assumptions C261_equilibrium.

(** ** C262, C264: the output is one and a half times a fixed weighted sum of the last stage after each of the four passes *)
Definition weighted (o0 o2 o3 : R) : R := 1.5 * (-0.0636844 * o0 + 0.57315916 * o2 + o3).
Theorem C262_output : forall sr st x,
  let s1 := rk_pass sr x st in let s2 := rk_pass sr 0 s1 in let s3 := rk_pass sr 0 s2 in let s4 := rk_pass sr 0 s3 in
  fst (rk_process sr st x) = s4 /\ snd (rk_process sr st x) = weighted (last4 (rs_s s1)) (last4 (rs_s s3)) (last4 (rs_s s4)).
Proof. intros sr st x s1 s2 s3 s4. split; [reflexivity|]. unfold rk_process. fold s1. fold s2. fold s3. fold s4. cbn [snd]. unfold ladder_out, weighted. lra. Qed.
Print Assumptions C262_output.
Theorem C264_output : forall st x,
  let s1 := hu_pass x st in let s2 := hu_pass 0 s1 in let s3 := hu_pass 0 s2 in let s4 := hu_pass 0 s3 in
  fst (hu_process st x) = s4 /\ snd (hu_process st x) = weighted (h_d5 (hs_r s1)) (h_d5 (hs_r s3)) (h_d5 (hs_r s4)).
Proof. intros st x s1 s2 s3 s4. split; [reflexivity|]. unfold hu_process. fold s1. fold s2. fold s3. fold s4. cbn [snd]. unfold ladder_out, weighted. lra. Qed.
Print Assumptions C264_output.

(* the polynomials that correct the tuning and the resonance, as functions of the normalised cutoff *)
Theorem C264_tuning : forall fc res,
  hu_tune fc = 40000 * (1 - fastexp (- PI * fc * (1.873 * fc ^ 3 + 0.4995 * fc ^ 2 - 0.649 * fc + 0.9988))) /\
  hu_resquad fc res = 4 * res * (-3.9364 * fc ^ 2 + 1.8409 * fc + 0.9968).
Proof.
  intros fc res. unfold hu_tune, hu_resquad. cbv zeta. split; [|cbn [pow]; nra].
  match goal with |- (1 - fastexp ?a) * _ = _ * (1 - fastexp ?b) => replace b with a by (cbn [pow]; lra) end. ring.
Qed.
Print Assumptions C264_tuning.

(** * The vocoder *)
(** ** C223: the output is the sum of what the bands give, and each band runs on its own *)
Definition total (l : list R) : R := fold_right Rplus 0 l.
Section V.
Context (sq : R -> R).
Theorem C223_sum_of_bands : forall rate gate n bs m l r, let each := map (fun b => vb_step sq rate gate b m l r) (firstn n bs) in
  let out := vb_steps sq rate gate n bs m l r in
  fst out = map fst each ++ skipn n bs /\ fst (snd out) = total (map (fun y => fst (snd y)) each) /\ snd (snd out) = total (map (fun y => snd (snd y)) each).
Proof.
  intros rate gate. induction n as [|n IH]; intros bs m l r; cbv zeta; [cbn; auto|]. destruct bs as [|b t]; [cbn; auto|].
  cbn [vb_steps firstn skipn map]. specialize (IH t m l r). cbv zeta in IH. destruct (vb_step sq rate gate b m l r) as [b1 y]. destruct (vb_steps sq rate gate n t m l r) as [t1 z].
  cbn [fst snd] in *. destruct IH as (I1 & I2 & I3). rewrite I1, I2, I3. cbn [map app total fold_right fst snd]. repeat split; reflexivity.
Qed.
End V.
Print Assumptions C223_sum_of_bands.

(** ** C227: the modulator is the sum of both channels of the side chain, scaled by the gain of that sample *)
Theorem C227_modulator : forall g side k, (k < length side)%nat ->
  nth k (voc_modulator g side) 0 = (fst (nth k side (0, 0)) + snd (nth k side (0, 0))) * gain8 arithR g (Z.of_nat k).
Proof.
  intros g side k K. unfold voc_modulator.
  set (f := fun p : nat * (R * R) => let '(k0, y) := p in (fst y + snd y) * gain8 arithR g (Z.of_nat k0)).
  assert (L : length (combine (seq 0 (length side)) side) = length side) by (rewrite combine_length, seq_length; apply Nat.min_id).
  rewrite (nth_indep (map f _) 0 (f (0%nat, (0, 0)))) by (rewrite map_length, L; exact K).
  rewrite map_nth, combine_nth by apply seq_length. rewrite seq_nth by exact K. reflexivity.
Qed.
Print Assumptions C227_modulator.

(** ** C224: what an old patch is given: twenty bands between the default frequencies, no expansion and no shift; the rest as it was *)
Theorem C224_old_patch_defaults : forall lo hi rev p, let q := voc_mismatch lo hi rev p in
  ((rev <= 10)%Z -> vp_nbands q = 20%Z /\ vp_lo q = PFloat lo /\ vp_hi q = PFloat hi /\ vp_expand q = PInt 0 /\ vp_center q = PInt 0 /\
     vp_gain q = vp_gain p /\ vp_gate q = vp_gate p /\ vp_rate q = vp_rate p /\ vp_unvoiced q = vp_unvoiced p /\ vp_quality q = vp_quality p /\ vp_return q = vp_return p) /\
  ((10 < rev)%Z -> q = p).
Proof.
  intros lo hi rev p. cbv zeta. unfold voc_mismatch. split; intros H.
  - rewrite (proj2 (Z.leb_le _ _) H). cbn. repeat split; reflexivity.
  - rewrite (proj2 (Z.leb_gt _ _) H). reflexivity.
Qed.
Print Assumptions C224_old_patch_defaults.
