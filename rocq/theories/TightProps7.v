(** Further theorems about C176, C178, C242: facts that wrong programs tried against the earlier theorems (seeded/LOG.jsonl) showed to be
    missing. *)
From Coq Require Import Reals ZArith List Lra Psatz Lia.
From Verif Require Import Base Util BlockModel MathModel ParamModel AdsrModel LfoModel LagModel SmallModel UnitModel SsoModel SsoProofs SsoProps4 TightProps5 AllpassModel AllpassProofs AllpassProps.
Import ListNotations.
Local Open Scope R_scope.

(** ** C242: a whole block: exchanging the buffers (and the carried output) exchanges the channels *)
Theorem C242_block_mirror : forall k oa hp n i b s s' ys, sso_samples k true oa hp b n i s = Ok (s', ys) ->
  sso_samples k true oa hp (mirror_bufs b) n i (mirror_out s) = Ok (mirror_out s', map (fun y => (snd y, fst y)) ys).
Proof.
  intros k oa hp n. induction n as [|n IH]; intros i b s s' ys H; cbn [sso_samples] in *.
  - assert (E : s' = s /\ ys = []) by (split; congruence). destruct E as [-> ->]. reflexivity.
  - apply obind_inv in H. destruct H as (xl & L & H). apply obind_inv in H. destruct H as (xr & Q & H). apply obind_inv in H. destruct H as (xd & D & H).
    unfold mirror_bufs at 1 2 3 4 5 6. cbn [b_l b_r b_dc b_pos]. rewrite Q. cbn [obind]. rewrite L. cbn [obind]. rewrite D. cbn [obind].
    pose proof (C242_mirror k oa (hp i) xl xr xd s) as M. destruct (sso_sample k true oa (hp i) xl xr xd s) as [s1 [yl yr]]. rewrite M.
    apply obind_inv in H. destruct H as ([s2 zs] & H1 & H2). rewrite (IH _ _ _ _ _ H1). cbn [obind fst snd] in *.
    assert (E : s' = s2 /\ ys = (yl, yr) :: zs) by (split; congruence). destruct E as [-> ->]. reflexivity.
Qed.
Print Assumptions C242_block_mirror.
(* a mono block leaves the right output alone *)
Theorem C242_mono_block : forall k oa hp n i b s s' ys, sso_samples k false oa hp b n i s = Ok (s', ys) ->
  o_r s' = o_r s /\ o_2r s' = o_2r s /\ Forall (fun y => snd y = o_2r s) ys.
Proof.
  intros k oa hp n. induction n as [|n IH]; intros i b s s' ys H; cbn [sso_samples] in *.
  - assert (E : s' = s /\ ys = []) by (split; congruence). destruct E as [-> ->]. auto.
  - apply obind_inv in H. destruct H as (xl & L & H). apply obind_inv in H. destruct H as (xr & Q & H). apply obind_inv in H. destruct H as (xd & D & H).
    unfold sso_sample in H. cbv zeta iota beta in H. apply obind_inv in H. destruct H as ([s2 zs] & H1 & H2). cbn [fst snd] in H2.
    apply IH in H1. cbn [o_r o_2r] in H1. destruct H1 as (A & B & C).
    match type of H2 with Ok (_, ?y :: _) = _ => assert (E : s' = s2 /\ ys = y :: zs) by (split; congruence) end. destruct E as [-> ->].
    refine (conj A (conj B _)). constructor; [reflexivity|exact C].
Qed.
Print Assumptions C242_mono_block.
Example ex_C242_block : exists s' ys, sso_samples (sso_coeffs Neutral 0) true 1 (fun _ => 1)
  {| b_l := repeat 1 140; b_r := repeat 2 140; b_dc := repeat 0 140; b_pos := 0 |} 2 0 {| o_l := 0; o_2l := 0; o_r := 0; o_2r := 0; o_dc := 0 |} = Ok (s', ys).
Proof. eexists. eexists. reflexivity. Qed.

(** ** C176, C178: the modulation and the gains of the all-pass reverb *)
(* every sample advances the LFO and the ramps by one step; the damping of the low frequencies is the exception: it stays *)
Theorem C178_step : forall pdt s x s' y, av_sample pdt s x = Ok (s', y) ->
  v_lfo s' = qo_process (v_lfo s) /\ v_decay s' = lipol_process (v_decay s) /\ v_diff s' = lipol_process (v_diff s) /\
  v_build s' = lipol_process (v_build s) /\ v_hfc s' = lipol_process (v_hfc s) /\ v_mod s' = lipol_process (v_mod s) /\ v_lfc s' = v_lfc s.
Proof.
  intros pdt s x s' y H. unfold av_sample in H. cbv zeta in H.
  apply obind_inv in H. destruct H as ([pre inp] & _ & H). apply obind_inv in H. destruct H as ([ins inp2] & _ & H).
  apply obind_inv in H. destruct H as ([[bs st] out] & _ & H).
  match type of H with Ok (?a, _) = _ => assert (E : s' = a) by congruence end. rewrite E. cbn [v_lfo v_decay v_diff v_build v_hfc v_mod v_lfc]. repeat split; reflexivity.
Qed.
Print Assumptions C178_step.
(* after the effect is set up the four blocks have output gains 3/8, 3/10, 1/4 and 1/5 on both sides *)
Theorem C176_gains : forall sr s s' , length (v_blocks s) = 4%nat -> av_update sr s = Ok s' ->
  map b_gl (v_blocks s') = [3 / 8; 3 / 10; 1 / 4; 1 / 5] /\ map b_gr (v_blocks s') = [3 / 8; 3 / 10; 1 / 4; 1 / 5].
Proof.
  intros sr s s' L H. unfold av_update, calc_size in H. destruct (Rlt_dec 0 1) as [_|N]; [|exfalso; apply N; lra]. cbn [v_blocks] in H.
  match type of H with Ok ?a = _ => assert (E : s' = a) by congruence end. rewrite E. cbn [v_blocks]. clear E H.
  destruct (v_blocks s) as [|b0 [|b1 [|b2 [|b3 [|b4 r]]]]]; try discriminate L.
  unfold gain_table, size_table. cbn [combine map size_block b_gl b_gr].
  split; (apply f_equal2; [lra|]; apply f_equal2; [lra|]; apply f_equal2; [lra|]; apply f_equal2; [lra|reflexivity]).
Qed.
Print Assumptions C176_gains.
Example ex_C176 : exists s', av_update 48000 av_new = Ok s' /\ length (v_blocks av_new) = 4%nat.
Proof. unfold av_update, calc_size. destruct (Rlt_dec 0 1) as [_|N]; [|exfalso; apply N; lra]. eexists. split; reflexivity. Qed.
