(* TightProps8.v - further statements about the wavetable oscillator, found by editing the model (seeded/LOG.jsonl). *)
From Coq Require Import Reals ZArith List Lia Lra.
From Verif Require Import Base Util ParamModel LagModel TuneModel TuneProps SsoModel SsoProofs SsoProps SsoProps2 SsoProps3 AdsrModel WtOscModel WtOscProps WtOscProps2.
Import ListNotations.
Local Open Scope R_scope.

(* the settings the parameters are turned into, whatever the parameters are *)
Theorem C295_settings : forall morph formant sat,
  0 <= wo_shape_target morph <= 1 /\ (0 <= morph <= 1 -> wo_shape_target morph = morph) /\
  0 <= wo_formant formant /\ (0 <= formant -> wo_formant formant = formant) /\ (0 <= sat <= 1 -> wo_clip_target sat = -8 * (sat * sat * sat)) /\
  (-1 <= sat <= 1 -> wo_skew_target sat = sat).
Proof.
  intros m f s. unfold wo_shape_target, wo_formant, wo_clip_target, wo_skew_target, limR3.
  repeat split.
  - apply Rmax_l.
  - apply Rmax_lub; [lra|apply Rmin_l].
  - intros H. rewrite Rmin_right, Rmax_right; lra.
  - apply Rmax_l.
  - intros H. rewrite Rmax_right; lra.
  - intros H. cbv zeta. rewrite Rmin_right, Rmax_right by lra. ring.
  - intros H. rewrite Rmin_right, Rmax_right; lra.
Qed.
Print Assumptions C295_settings.
(* a frame number is never so high that its successor would be missing *)
Theorem C294_frame_bound : forall n k id, wo_frame n k = Ok id -> (0 <= id /\ id + 1 < n)%Z /\ ((0 <= k <= n - 2)%Z -> id = k).
Proof. intros n k id H. unfold wo_frame in H. destruct (Z.ltb_spec n 2); [discriminate|]. injection H as <-. lia. Qed.
Print Assumptions C294_frame_bound.
(* the first block of a note does not glide *)
Theorem C294_start_at_rest : forall n morph t, wo_tab_start n morph = Ok t -> tb_last t = tb_id t /\ tb_lastipol t = tb_ipol t.
Proof. intros n m t H. unfold wo_tab_start in H. cbv zeta in H. apply obind_inv in H. destruct H as (id & _ & H). injection H as <-. split; reflexivity. Qed.
Print Assumptions C294_start_at_rest.
(* within a block the fraction glides from where it was, or from the near end of the new frame pair: its start when the move is up, its end
   when the move is down *)
Theorem C294_glide : forall n morph t t', (2 <= n)%Z -> 0 <= morph <= 1 -> frame_ok n t -> wo_tab_update n morph t = Ok t' ->
  tb_last t' = tb_id t /\
  (tb_id t' = tb_id t -> tb_lastipol t' = tb_ipol t) /\ ((tb_id t < tb_id t')%Z -> tb_lastipol t' = 0) /\ ((tb_id t' < tb_id t)%Z -> tb_lastipol t' = 1).
Proof.
  intros n m t t' N M [I F] U. destruct (frame_split n m N M) as (E & I' & F' & S0). unfold wo_tab_update in U. cbv zeta in U.
  replace ((n =? 1) || (n <=? tb_id t))%Z%bool with false in U by (symmetry; apply Bool.orb_false_intro; [apply Z.eqb_neq|apply Z.leb_gt]; lia).
  rewrite E in U. cbn [obind] in U. set (k := truncR (wo_shape n m)) in *. clearbody k.
  destruct (Z.ltb_spec (tb_id t) k) as [V|V]; [|destruct (Z.ltb_spec k (tb_id t)) as [V'|V']];
    try (match type of U with (if ?d then _ else _) = _ => destruct d end); injection U as <-; cbn [tb_id tb_ipol tb_last tb_lastipol]; repeat split; intros; try reflexivity; lia.
Qed.
Print Assumptions C294_glide.
Example C294_glide_ex : exists t', wo_tab_update 3 1 {| tb_id := 0; tb_ipol := 1 / 4; tb_last := 0; tb_lastipol := 0 |} = Ok t' /\ frame_ok 3 {| tb_id := 0; tb_ipol := 1 / 4; tb_last := 0; tb_lastipol := 0 |}.
Proof.
  destruct (C294_update 3 1 {| tb_id := 0; tb_ipol := 1 / 4; tb_last := 0; tb_lastipol := 0 |}) as (t' & E & _); [lia|lra|split; cbn; [lia|lra]|].
  exists t'. split; [exact E|]. split; cbn; [lia|lra].
Qed.
