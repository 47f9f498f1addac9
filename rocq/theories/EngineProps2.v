(* EngineProps2.v - C180: what a send effect hears and where its output goes. *)
From Coq Require Import Reals Lra.
From Flocq Require Import Core.Core IEEE754.BinarySingleNaN.
From Verif Require Import Base Util F32 F32Facts BlockModel BlockProofs BlockProps RampProps MathModel ClipProps MidiModel SceneModel SynthModel SynthSpec SynthProps EngineModel EngineProps.
Local Open Scope Z_scope.

(* the send buffer of slot k (128 cells), the 256 cells of the scene outputs and the 64 master output cells do not overlap *)
Definition send_laid_out (b : buffers) (so fs k : Z) : Prop :=
  let fl := fs + 128 * (k - 4) in
  (so + 256 <= fl \/ fl + 128 <= so) /\ (bf_out b + 64 <= fl \/ fl + 128 <= bf_out b).

(* the effect in slot k is handed, left and right, what its send buffer held plus each scene's sample times that scene's send
   level; then exactly its output times the return level is added to the master output, and its own verdict on whether there
   is sound is passed on. A slot that is switched off changes nothing and reports no sound. *)
Theorem C180_send_effect : forall T X (A : arith T) (run : Z -> X -> mem T -> Z -> Z -> bool -> res (X * mem T * bool)) k flags g b so fs x m sa sb,
  (k = 4 \/ k = 5) -> send_laid_out b so fs k ->
  let fl := fs + 128 * (k - 4) in let fr := fl + 64 in
  let add := ar_add A in let mul := ar_mul A in
  (Z.testbit flags k = true -> maybe_add_send A run k flags g b so fs x m sa sb = Ok (x, m, false))
  /\ (Z.testbit flags k = false -> exists m1,
       (forall i, 0 <= i < 32 ->
          m1 (fl + i) = add (add (m (fl + i)) (mul (m (so + i)) (gain8 A (sg_a g) i))) (mul (m (so + 128 + i)) (gain8 A (sg_b g) i))
          /\ m1 (fr + i) = add (add (m (fr + i)) (mul (m (so + 64 + i)) (gain8 A (sg_a g) i))) (mul (m (so + 192 + i)) (gain8 A (sg_b g) i)))
       /\ (forall a, ~ (fl <= a < fl + 32) -> ~ (fr <= a < fr + 32) -> m1 a = m a)
       /\ (forall x2 m2 sound, run k x m1 fl fr (sa || sb) = Ok (x2, m2, sound) -> exists m3,
            maybe_add_send A run k flags g b so fs x m sa sb = Ok (x2, m3, sound)
            /\ (forall i, 0 <= i < 32 ->
                 m3 (o_l b + i) = add (m2 (o_l b + i)) (mul (m2 (fl + i)) (gain8 A (sg_ret g) i))
                 /\ m3 (o_r b + i) = add (m2 (o_r b + i)) (mul (m2 (fr + i)) (gain8 A (sg_ret g) i)))
            /\ (forall a, ~ (bf_out b <= a < bf_out b + 64) -> m3 a = m2 a))
       /\ (run k x m1 fl fr (sa || sb) = Panic -> maybe_add_send A run k flags g b so fs x m sa sb = Panic)).
Proof.
  intros T X A run k flags g b so fs x m sa sb Hk [D1 D2] fl fr add mul. fold fl in D1, D2.
  unfold maybe_add_send. rewrite off_testbit by lia. fold fl. cbv zeta. fold fr.
  split; intros HB; rewrite HB; [reflexivity|].
  assert (OL : o_l b = bf_out b) by (unfold o_l, out_l, row_ptr; lia). assert (OR : o_r b = bf_out b + 32) by (unfold o_r, out_r, row_ptr; lia).
  destruct (blocks_use_gain8 A (sg_a g) m 8 ltac:(lia) eq_refl) as (_ & _ & _ & _ & _ & _ & _ & _ & _ & G1 & _).
  destruct (G1 so (so + 64) fl fr ltac:(unfold apart, fr; lia) ltac:(unfold clear_of; lia) ltac:(unfold apart, fr; lia) ltac:(unfold clear_of, fr; lia) ltac:(unfold apart; lia)) as [_ (L1 & R1 & F1)]. clear G1.
  set (ma := ps_mac_2_blocks_to A (sg_a g) m so (so + 64) fl fr 8) in *. clearbody ma.
  destruct (blocks_use_gain8 A (sg_b g) ma 8 ltac:(lia) eq_refl) as (_ & _ & _ & _ & _ & _ & _ & _ & _ & G1 & _).
  destruct (G1 (so + 128) (so + 192) fl fr ltac:(unfold apart, fr; lia) ltac:(unfold clear_of; lia) ltac:(unfold apart, fr; lia) ltac:(unfold clear_of, fr; lia) ltac:(unfold apart; lia)) as [_ (L2 & R2 & F2)]. clear G1.
  set (mb := ps_mac_2_blocks_to A (sg_b g) ma (so + 128) (so + 192) fl fr 8) in *. clearbody mb. change (4 * 8) with 32 in *.
  exists mb. split; [|split; [|split]].
  - intros i Hi. rewrite L2, R2, L1, R1 by exact Hi. rewrite !F1 by (unfold fr; clear - Hi D1; lia). split; reflexivity.
  - intros a Ha1 Ha2. rewrite F2, F1 by assumption. reflexivity.
  - intros x2 m2 sound E. rewrite E. cbn [obind].
    destruct (blocks_use_gain8 A (sg_ret g) m2 8 ltac:(lia) eq_refl) as (_ & _ & _ & _ & _ & _ & _ & _ & _ & G1 & _).
    rewrite OL, OR in *.
    destruct (G1 fl fr (bf_out b) (bf_out b + 32) ltac:(unfold apart; lia) ltac:(unfold clear_of; lia) ltac:(unfold apart; lia) ltac:(unfold clear_of, fr; lia) ltac:(unfold apart, fr; lia)) as [_ (L3 & R3 & F3)]. clear G1.
    eexists. split; [reflexivity|]. split.
    + intros i Hi. rewrite L3, R3 by exact Hi. split; reflexivity.
    + intros a Ha. apply F3; clear - Ha; lia.
  - intros E. rewrite E. reflexivity.
Qed.
Print Assumptions C180_send_effect.

(* the hypotheses are met: both slots, with buffers one after the other *)
Example C180_layout : send_laid_out {| bf_a := 0; bf_b := 128; bf_out := 512 |} 0 256 4 /\ send_laid_out {| bf_a := 0; bf_b := 128; bf_out := 512 |} 0 256 5.
Proof. unfold send_laid_out. cbn. lia. Qed.
