(* WtOscProps3.v - C293, C297 continued: a voice of the wavetable oscillator from block to block. *)
From Coq Require Import Reals ZArith List Lia Lra.
From Verif Require Import Base Util LagModel SsoModel SsoProofs SsoProps SsoProps2 WtOscModel WtOscProps WtOscProps2.
Import ListNotations.
Local Open Scope R_scope.

(* at the start of a note a voice is silent and before its first cell; its clock is the random draw, or 0 when drawn on the display *)
Theorem C293_voice_start : forall draw, u_last (wo_voice_start true draw) = 0 /\ u_state (wo_voice_start true draw) = 0%Z /\ u_osc (wo_voice_start true draw) = 0 /\
  u_last (wo_voice_start false draw) = 0 /\ u_state (wo_voice_start false draw) = 0%Z /\ u_osc (wo_voice_start false draw) = draw.
Proof. intros. repeat split. Qed.
Print Assumptions C293_voice_start.

(* at a block's end the clock is moved back by the 64 samples of the block, in units of the table: in absolute time nothing is lost *)
Theorem C297_block_boundary : forall fuel c s s' es, wo_voice_block fuel c s = Ok (Some (s', es)) ->
  exists s1, wo_loop fuel c (64 / q_pinv c) s = Ok (Some (s1, es)) /\ 64 / q_pinv c + u_osc (snd s') = u_osc (snd s1) /\ 0 <= u_osc (snd s') /\
  fst s' = fst s1 /\ u_state (snd s') = u_state (snd s1) /\ u_last (snd s') = u_last (snd s1) /\ u_mip (snd s') = u_mip (snd s1).
Proof.
  intros fuel c s s' es H. unfold wo_voice_block in H. cbv zeta in H. apply obind_inv in H. destruct H as (q & Q & H). destruct q as [[s1 l]|]; [|discriminate].
  injection H as <- <-. replace (64 * (1 / q_pinv c)) with (64 / q_pinv c) in * by (unfold Rdiv; ring). destruct (C297_impulses _ _ _ _ _ _ Q) as (_ & A & _).
  exists s1. split; [exact Q|]. cbn [wo_advance fst snd u_osc u_state u_last u_mip]. repeat split; lra.
Qed.
Print Assumptions C297_block_boundary.
(* the voices' clocks never go back below the start of the block, so no impulse is placed before it *)
Lemma loop_pos : forall fuel c a s s' es, wo_loop fuel c a s = Ok (Some (s', es)) -> 0 <= u_osc (snd s) -> Forall (fun e => 0 <= i_pos e < a) es.
Proof.
  induction fuel as [|fuel IH]; intros c a s s' es H P; cbn [wo_loop] in H; destruct (Rlt_dec (u_osc (snd s)) a) as [D|D]; try discriminate.
  - injection H as <- <-. constructor.
  - apply obind_inv in H. destruct H as ([s1 e] & E & H). apply obind_inv in H. destruct H as (q & Q & H). cbn [fst snd] in *.
    destruct q as [[s2 l]|]; [|discriminate]. injection H as <- <-. destruct (conv_inv _ _ _ _ E) as (A & _ & _ & B). constructor; [rewrite A; lra|]. exact (IH _ _ _ _ _ Q B).
  - injection H as <- <-. constructor.
Qed.
(* any number of blocks, with any settings in each *)
Fixpoint wo_blocks (fuel : nat) (cs : list wo_cfg) (s : wo_sh * wo_voice) : res (option (wo_sh * wo_voice * list (list wo_ev))) :=
  match cs with
  | [] => Ok (Some (s, []))
  | c :: cs => obind (wo_voice_block fuel c s) (fun q => match q with
      | None => Ok None
      | Some (s1, es) => obind (wo_blocks fuel cs s1) (fun q => Ok (match q with None => None | Some (s', l) => Some (s', es :: l) end)) end)
  end.
(* the heights of the impulses of all blocks add up to the change of level; each lies in its own block; from a silent start all are
   bounded by 2 and the sums stay within -1 .. 1: the voice has no offset that grows with time *)
Theorem C297_over_blocks : forall fuel cs s s' ess, wo_blocks fuel cs s = Ok (Some (s', ess)) -> 0 <= u_osc (snd s) -> -1 <= u_last (snd s) <= 1 ->
  length ess = length cs /\ sumR (map i_g (concat ess)) = u_last (snd s') - u_last (snd s) /\ -1 <= u_last (snd s') <= 1 /\ 0 <= u_osc (snd s') /\
  Forall2 (fun c es => Forall (fun e => 0 <= i_pos e < 64 / q_pinv c /\ -2 <= i_g e <= 2) es) cs ess.
Proof.
  intros fuel. induction cs as [|c cs IH]; intros s s' ess H P L; cbn [wo_blocks] in H.
  - injection H as <- <-. cbn. repeat split; try lra. constructor.
  - apply obind_inv in H. destruct H as (q & Q & H). destruct q as [[s1 es]|]; [|discriminate]. apply obind_inv in H. destruct H as (q & Q2 & H). destruct q as [[s2 l]|]; [|discriminate].
    injection H as <- <-. destruct (C297_block_boundary _ _ _ _ _ Q) as (s0 & Q0 & _ & B & _ & _ & LL & _). destruct (C297_impulses _ _ _ _ _ _ Q0) as (S0 & _ & _ & G).
    destruct (G L) as (G1 & G2). rewrite <- LL in *. destruct (IH _ _ _ Q2 B G1) as (N & S2 & L2 & O2 & F2). cbn [length concat].
    split; [lia|]. rewrite map_app. assert (A : forall a b, sumR (a ++ b) = sumR a + sumR b). { clear. induction a; intros; cbn [app sumR]; [lra|rewrite IHa; lra]. }
    rewrite A. split; [lra|]. split; [exact L2|]. split; [exact O2|]. constructor; [|exact F2].
    pose proof (loop_pos _ _ _ _ _ _ Q0 P) as PP. clear - PP G2. induction PP; inversion G2; subst; constructor; [split; assumption|apply IHPP; assumption].
Qed.
Print Assumptions C297_over_blocks.
(* a block of one impulse: the clock goes from 0 to 25, and is left at 9 for the next block *)
Definition ex_cfg2 : wo_cfg := {| q_wave := {| wv_n := 2; wv_ts := 2 ^ 2; wv_mips := 1; wv_at := fun _ i p => (i + p)%Z |};
  q_tab := {| tb_id := 0; tb_ipol := 1 / 2; tb_last := 0; tb_lastipol := 1 / 2 |}; q_vskew := 0; q_clip := 0; q_hskew := 0; q_formant := 3; q_pinv := 4; q_t := 200; q_n2p := fun _ => 1 / 2 |}.
Lemma ex2_conv : exists s' e, wo_convolute ex_cfg2 (ex_sh, wo_voice_start true 0) = Ok (s', e) /\ u_osc (snd s') = 25 /\ i_g e = 1 / 2.
Proof.
  assert (E : wo_zero ex_cfg2 (ex_sh, wo_voice_start true 0) = ({| z_formant := 3; z_hskew := 0 |}, wo_voice_start true 0)).
  { unfold wo_zero, wo_voice_start. cbn [snd u_state Z.eqb u_osc u_last q_formant q_hskew q_wave wv_ts q_pinv ex_cfg2]. rewrite ex_mip. reflexivity. }
  assert (L : wo_newlevel ex_cfg2 0 (Z.land 0 (2 ^ 2 - 1)) (0 * (1 / 64) * 4) = Ok (1 / 2)).
  { unfold wo_newlevel. cbn [q_tab q_wave q_vskew q_clip ex_cfg2 tb_lastipol tb_ipol tb_id]. rewrite lerp_ok by lra. cbn [obind]. rewrite get_ok by (cbn; lia). cbn [obind]. rewrite get_ok by (cbn; lia). cbn [obind].
    rewrite lerp_ok by lra. cbn [obind wv_at]. change (0 + Z.land 0 (2 ^ 2 - 1))%Z with 0%Z. change (0 + 1 + Z.land 0 (2 ^ 2 - 1))%Z with 1%Z. f_equal. unfold wo_distort, limR3.
    match goal with |- Rmax _ (Rmin _ ?y) = _ => replace y with (1 / 2) by field end. rewrite Rmin_right, Rmax_right; lra. }
  unfold wo_convolute. cbv zeta. rewrite E. cbn [snd u_osc wo_voice_start u_mip u_state u_last z_formant z_hskew q_formant ex_cfg2 q_pinv q_wave wv_ts q_t q_n2p]. rewrite lerp_ok by lra. cbn [obind].
  change (Z.shiftr (2 ^ 2) 0) with 4%Z. change (4 <? 1)%Z with false. cbv iota. change (4 - 1)%Z with (2 ^ 2 - 1)%Z. fold ex_cfg2. rewrite L. cbn [obind].
  eexists _, _. split; [reflexivity|]. change (2 ^ 2 - 1 <=? 0)%Z with false. change (2 ^ 2)%Z with 4%Z. change (2 ^ 0)%Z with 1%Z. cbn [i_g snd u_osc]. split; [|lra].
  unfold wo_skew. match goal with |- Rmax 0 ?x = _ => replace x with 25 end. { rewrite Rmax_right; lra. }
  replace (0 * 4) with 0 by ring. rewrite !Rmult_0_l. lra.
Qed.
Example C297_blocks_ex : exists s' es, wo_blocks 1 [ex_cfg2] (ex_sh, wo_voice_start true 0) = Ok (Some (s', [es])) /\ length es = 1%nat /\ u_osc (snd s') = 9 /\
  0 <= u_osc (wo_voice_start true 0) /\ -1 <= u_last (wo_voice_start true 0) <= 1.
Proof.
  destruct ex2_conv as (s1 & e & E & O & G). unfold wo_blocks, wo_voice_block. cbv zeta. cbn [wo_loop].
  assert (A : 64 * (1 / q_pinv ex_cfg2) = 16) by (unfold ex_cfg2, q_pinv; lra). rewrite A. change (u_osc (snd (ex_sh, wo_voice_start true 0))) with 0.
  destruct (Rlt_dec 0 16); [|lra]. rewrite E. cbn [obind fst snd]. rewrite O. destruct (Rlt_dec 25 16); [lra|]. cbn [obind].
  eexists _, _. split; [reflexivity|]. cbn [length wo_advance snd u_osc wo_voice_start u_last]. split; [reflexivity|]. rewrite O. lra.
Qed.
