(* EngineProps.v - C100..C106: the audio block. *)
From Coq Require Import Reals Lra.
From Flocq Require Import Core.Core IEEE754.BinarySingleNaN.
From Verif Require Import Base Util F32 F32Facts BlockModel BlockProofs BlockProps RampProps MathModel ClipProps MidiModel SceneModel SynthModel SynthSpec SynthProps EngineModel.
Local Open Scope Z_scope.

(** ** lemmas: clearing with anti-denormal noise *)
(* what the block holds afterwards: +1e-15 on the first two and last two of every eight samples, -1e-15 between *)
Definition tiny {T} (A : arith T) (i : Z) : T :=
  if (i mod 8 <? 2) || (5 <? i mod 8) then ar_lit A 1 1000000000000000 else ar_lit A (-1) 1000000000000000.
Lemma clear_noise {T} (A : arith T) (m : mem T) p n : 0 <= n -> n mod 2 = 0 -> p mod 4 = 0 ->
  exists m', clear_block_antidenormalnoise A m p n = Ok m' /\ writes p (4 * n) (tiny A) m m'.
Proof.
  intros Hn Hm Hp. unfold clear_block_antidenormalnoise. rewrite Hp. cbn [Z.eqb negb].
  set (f := fun (m : mem T) o => vstore m (p + o) (if Z.even (o / 4) then antidenormal A else fun j => antidenormal A (3 - j))).
  exists (unroll2c f n m). split.
  - unfold unroll2c. rewrite stepby_zseq. rewrite !fold_map. generalize (zseq (cdiv (4 * n) 8)) as l. intros l. revert m.
    induction l as [|k l IH]; intros m; cbn [fold_left]; [reflexivity|]. cbn [obind].
    replace ((p + 8 * k) mod 4) with 0 by (clear - Hp; lia). replace ((p + 8 * k + 4) mod 4) with 0 by (clear - Hp; lia). cbn [Z.eqb negb].
    assert (E : vstore (vstore m (p + 8 * k) (antidenormal A)) (p + 8 * k + 4) (fun j => antidenormal A (3 - j)) = f (f m (8 * k)) (8 * k + 4)).
    { unfold f. replace (8 * k / 4) with (2 * k) by (clear; lia). replace ((8 * k + 4) / 4) with (2 * k + 1) by (clear; lia).
      rewrite Z.even_mul. cbn [Z.even orb]. rewrite Z.even_add, Z.even_mul. cbn [Z.even orb Bool.eqb]. now rewrite Z.add_assoc. }
    rewrite E. apply IH.
  - pose proof (cdiv_exact n 2 ltac:(lia) Hm) as CE. rewrite <- CE at 1. apply writes_of_if. intros a. rewrite unroll2c_eq by exact Hn.
    apply (loop1 _ p _ (tiny A)); [clear - Hn CE; lia|]. intros m1 k Hk _. unfold f. replace (4 * k / 4) with k by (clear; lia). split; intros b Hb.
    + rewrite vstore_in by exact Hb. unfold antidenormal, tiny. destruct (Z.even k) eqn:Ev.
      * apply Z.even_spec in Ev. destruct Ev as [q Q]. subst k. replace ((b - p) mod 8) with (b - (p + 4 * (2 * q))) by (clear - Hb; lia).
        set (t := b - (p + 4 * (2 * q))). assert (0 <= t < 4) by (unfold t; clear - Hb; lia). clearbody t.
        destruct (Z.ltb_spec t 2), (Z.ltb_spec 5 t); cbn [orb]; try reflexivity; lia.
      * assert (O : Z.odd k = true) by (rewrite <- Z.negb_even, Ev; reflexivity). apply Z.odd_spec in O. destruct O as [q Q]. subst k.
        replace ((b - p) mod 8) with (4 + (b - (p + 4 * (2 * q + 1)))) by (clear - Hb; lia).
        set (t := b - (p + 4 * (2 * q + 1))). assert (0 <= t < 4) by (unfold t; clear - Hb; lia). clearbody t.
        destruct (Z.ltb_spec (3 - t) 2), (Z.ltb_spec (4 + t) 2), (Z.ltb_spec 5 (4 + t)); cbn [orb]; try reflexivity; lia.
    + now apply vstore_out.
Qed.
Lemma clear_noise_misaligned {T} (A : arith T) m p n : p mod 4 <> 0 -> clear_block_antidenormalnoise A m p n = Err (SrcPtr 0).
Proof. intros H. unfold clear_block_antidenormalnoise. destruct (Z.eqb_spec (p mod 4) 0); [contradiction|reflexivity]. Qed.

(** ** C100 a halted engine is silent; an unhalted one never completes a block *)
Theorem C100_halted_engine_is_silent : forall T (A : arith T) (m : mem T) ob pi ib ab nb so fs, ob mod 4 = 0 ->
  exists m', engine_block A true pi m ob ib ab nb so fs = Ok m'
   /\ (forall i, 0 <= i < 32 -> m' (out_l ob 32 + i) = ar_lit A 0 1 /\ m' (out_r ob 32 + i) = ar_lit A 0 1)
   /\ (forall a, ~ (ob <= a < ob + 64) -> m' a = m a).
Proof.
  intros T A m ob pi ib ab nb so fs H. unfold engine_block, do_halt, out_l, out_r, row_ptr.
  destruct (C70_clear_block T A m (ob + 32 * 0) 8 ltac:(lia) ltac:(lia)) as (m1 & E1 & W1 & F1). rewrite E1. cbn [obind].
  destruct (C70_clear_block T A m1 (ob + 32 * 1) 8 ltac:(lia) ltac:(lia)) as (m2 & E2 & W2 & F2). rewrite E2. exists m2. split; [reflexivity|]. split.
  - intros i Hi. split; [rewrite F2 by (clear - Hi; lia); apply W1; lia|apply W2; lia].
  - intros a Ha. rewrite F2 by (clear - Ha; lia). apply F1. clear - Ha; lia.
Qed.
Print Assumptions C100_halted_engine_is_silent.
(* with no input bus (the default) the block ends in an alignment error wherever the buffers lie: the right channel pointer is two
   cells after the left one, so one of the two is never 16-byte aligned *)
Theorem C100_clear_inputs_always_fails_refuted : forall T (A : arith T) (m : mem T) ab nb, clear_inputs A m ab nb = Err (SrcPtr 0).
Proof.
  intros T A m ab nb. unfold clear_inputs, in_left, in_right, row_ptr. destruct (Z.eq_dec ((ab + 2 * 0) mod 4) 0) as [E|N].
  - destruct (clear_noise A m (ab + 2 * 0) 16 ltac:(lia) eq_refl E) as (m1 & E1 & _). rewrite E1. cbn [obind].
    rewrite clear_noise_misaligned; [reflexivity|]. clear - E. lia.
  - rewrite clear_noise_misaligned by exact N. reflexivity.
Qed.
Print Assumptions C100_clear_inputs_always_fails_refuted.
Theorem C100_no_block_completes_refuted : forall T (A : arith T) pi (m m' : mem T) ob ib ab nb so fs,
  engine_block A false pi m ob ib ab nb so fs <> Ok m'.
Proof.
  intros T A pi m m' ob ib ab nb so fs. unfold engine_block. destruct pi.
  - cbn [obind]. destruct (twobytwo_clear _ _ so 64); cbn [obind]; try discriminate. destruct (twobytwo_clear _ _ fs 64); cbn [obind]; discriminate.
  - rewrite C100_clear_inputs_always_fails_refuted. discriminate.
Qed.
Print Assumptions C100_no_block_completes_refuted.
Example C100_instance : exists m', engine_block arith32 true false (fun _ => f1) 64 0 0 0 0 0 = Ok m' /\ m' 64 = flit 0 1 /\ m' 128 = f1.
Proof.
  destruct (C100_halted_engine_is_silent _ arith32 (fun _ => f1) 64 false 0 0 0 0 0 eq_refl) as (m' & E & S1 & F). exists m'. split; [exact E|]. split.
  - apply (S1 0). lia.
  - rewrite F; [reflexivity|lia].
Qed.

(** ** C101 stereo input *)
(* the two input channels share cells: a memory can hold left signal l and right signal r exactly when r is l two samples ahead *)
Theorem C101_input_channels_overlap_refuted : forall T (l r : Z -> T) b,
  (exists m : mem T, forall i, 0 <= i < 32 -> m (in_left b + i) = l i /\ m (in_right b + i) = r i) <-> (forall i, 0 <= i < 30 -> r i = l (i + 2)).
Proof.
  intros T l r b. unfold in_left, in_right, row_ptr. split.
  - intros [m H] i Hi. destruct (H i ltac:(lia)) as [_ R]. destruct (H (i + 2) ltac:(lia)) as [L _]. rewrite <- R, <- L. f_equal. lia.
  - intros H. exists (fun a => if a <? b + 32 then l (a - b) else r (a - b - 2)). intros i Hi. split.
    + destruct (Z.ltb_spec (b + 2 * 0 + i) (b + 32)); [|lia]. f_equal. lia.
    + destruct (Z.ltb_spec (b + 2 * 1 + i) (b + 32)).
      * replace (b + 2 * 1 + i - b) with (i + 2) by lia. symmetry. apply H. lia.
      * f_equal. lia.
Qed.
Print Assumptions C101_input_channels_overlap_refuted.
(* the output buffer is laid out the other way round and does keep its channels apart *)
Theorem C101_output_channels_apart : forall T (l r : Z -> T) b, exists m : mem T, forall i, 0 <= i < 32 -> m (out_l b 32 + i) = l i /\ m (out_r b 32 + i) = r i.
Proof.
  intros T l r b. exists (fun a => if a <? b + 32 then l (a - b) else r (a - b - 32)). intros i Hi. unfold out_l, out_r, row_ptr. split.
  - destruct (Z.ltb_spec (b + 32 * 0 + i) (b + 32)); [|lia]. f_equal. lia.
  - destruct (Z.ltb_spec (b + 32 * 1 + i) (b + 32)); [lia|]. f_equal. lia.
Qed.
Print Assumptions C101_output_channels_apart.
Example C101_instance : in_right 0 = 2 /\ out_r 0 32 = 32. Proof. split; reflexivity. Qed.

(** ** C102 scratch blocks *)
(* a fresh 2x2x64 scratch block holds inaudible noise in all its 256 cells, but 192 cells behind it are overwritten too *)
Theorem C102_scratch_block_partial : forall T (A : arith T) (m : mem T) b, b mod 4 = 0 ->
  exists m', twobytwo_clear A m b 64 = Ok m' /\ (forall i, 0 <= i < 448 -> m' (b + i) = tiny A i) /\ (forall a, ~ (b <= a < b + 448) -> m' a = m a).
Proof.
  intros T A m b H. unfold twobytwo_clear.
  destruct (clear_noise A m b 64 ltac:(lia) eq_refl H) as (m1 & E1 & W1 & F1). rewrite E1. cbn [obind].
  destruct (clear_noise A m1 (b + 64) 64 ltac:(lia) eq_refl ltac:(lia)) as (m2 & E2 & W2 & F2). rewrite E2. cbn [obind].
  destruct (clear_noise A m2 (b + 2 * 64) 64 ltac:(lia) eq_refl ltac:(lia)) as (m3 & E3 & W3 & F3). rewrite E3. cbn [obind].
  destruct (clear_noise A m3 (b + 3 * 64) 64 ltac:(lia) eq_refl ltac:(lia)) as (m4 & E4 & W4 & F4). rewrite E4. exists m4. split; [reflexivity|].
  assert (TP : forall i q, tiny A (i - 64 * q) = tiny A i) by (intros i q; unfold tiny; replace ((i - 64 * q) mod 8) with (i mod 8) by lia; reflexivity). split.
  - intros i Hi. destruct (Z_lt_dec i 192) as [L|L].
    + rewrite F4 by (clear - Hi L; lia). destruct (Z_lt_dec i 128) as [L2|L2].
      * rewrite F3 by (clear - Hi L2; lia). destruct (Z_lt_dec i 64) as [L3|L3].
        -- rewrite F2 by (clear - Hi L3; lia). apply W1. lia.
        -- replace (b + i) with (b + 64 + (i - 64 * 1)) by lia. rewrite W2 by (clear - L2 L3; lia). apply TP.
      * replace (b + i) with (b + 2 * 64 + (i - 64 * 2)) by lia. rewrite W3 by (clear - L L2; lia). apply TP.
    + replace (b + i) with (b + 3 * 64 + (i - 64 * 3)) by lia. rewrite W4 by (clear - Hi L; lia). apply TP.
  - intros a Ha. rewrite F4, F3, F2, F1 by (clear - Ha; lia). reflexivity.
Qed.
Print Assumptions C102_scratch_block_partial.
Theorem C102_scratch_block_overruns_refuted : forall T (A : arith T) (m : mem T) b, b mod 4 = 0 ->
  exists m', twobytwo_clear A m b 64 = Ok m' /\ forall a, b + 256 <= a < b + 448 -> m' a = ar_lit A 1 1000000000000000 \/ m' a = ar_lit A (-1) 1000000000000000.
Proof.
  intros T A m b H. destruct (C102_scratch_block_partial T A m b H) as (m' & E & W & _). exists m'. split; [exact E|]. intros a Ha.
  replace a with (b + (a - b)) by lia. rewrite W by lia. unfold tiny. destruct (_ || _); auto.
Qed.
Print Assumptions C102_scratch_block_overruns_refuted.
Theorem C102_scratch_misaligned : forall T (A : arith T) (m : mem T) b len, b mod 4 <> 0 -> twobytwo_clear A m b len = Err (SrcPtr 0).
Proof. intros T A m b len H. unfold twobytwo_clear. rewrite clear_noise_misaligned by exact H. reflexivity. Qed.
Print Assumptions C102_scratch_misaligned.
Example C102_instance : tiny arithR 0 = (1 / 1000000000000000)%R /\ tiny arithR 3 = (-1 / 1000000000000000)%R. Proof. split; reflexivity. Qed.

(** ** C103 which effects run *)
(* an effect unit that records the slots it processed, in order, beside whatever it does *)
Definition logging {T X} (run : Z -> X -> mem T -> Z -> Z -> bool -> res (X * mem T * bool))
  : Z -> X * list Z -> mem T -> Z -> Z -> bool -> res (X * list Z * mem T * bool) :=
  fun k '(x, log) m l r p => obind (run k x m l r p) (fun '(x, m, d) => Ok (x, log ++ [k], m, d)).
(* what a user switches: slots 0-3 are scene inserts, 4-5 sends, 6-7 global; bit k of the disable flags turns slot k off *)
Definition should_run (bypass : fx_bypass) (flags k : Z) : bool :=
  negb (Z.testbit flags k) &&
  match bypass with
  | AllFX => true
  | NoSendFX => negb ((k =? 4) || (k =? 5))
  | SceneFXOnly => k <? 4
  | AllFXOff => false
  end.
Definition slots8 : list Z := [0; 1; 2; 3; 4; 5; 6; 7].
Lemma off_testbit flags k : 0 <= k -> off flags k = Z.testbit flags k.
Proof.
  intros Hk. unfold off. rewrite Z.shiftl_mul_pow2, Z.mul_1_l by exact Hk. destruct (Z.testbit flags k) eqn:E.
  - destruct (Z.eqb_spec (Z.land flags (2 ^ k)) 0) as [H|H]; [|reflexivity]. exfalso. assert (Q : Z.testbit (Z.land flags (2 ^ k)) k = true).
    { rewrite Z.land_spec, E, Z.pow2_bits_true by exact Hk. reflexivity. } rewrite H, Z.bits_0 in Q. discriminate.
  - assert (H : Z.land flags (2 ^ k) = 0).
    { apply Z.bits_inj'. intros j Hj. rewrite Z.land_spec, Z.bits_0. destruct (Z.eq_dec j k) as [->|N]; [now rewrite E|]. rewrite Z.pow2_bits_false by lia. apply andb_false_r. }
    rewrite H. reflexivity.
Qed.
Section Log.
Context {T X : Type} (A : arith T) (run : Z -> X -> mem T -> Z -> Z -> bool -> res (X * mem T * bool)).
Lemma slot_log flags k x log m l r p x' log' m' p' : slot (logging run) flags k (x, log) m l r p = Ok (x', log', m', p') ->
  log' = log ++ (if off flags k then [] else [k]).
Proof.
  unfold slot. destruct (off flags k); [intros E; injection E as <- <- <- <-; now rewrite app_nil_r|].
  unfold logging. destruct (run k x m l r p) as [[[a b] c]| |]; cbn [obind]; try discriminate. intros E; injection E as <- <- <- <-. reflexivity.
Qed.
Lemma send_log k flags g b so fs x log m sa sb x' log' m' d : maybe_add_send A (logging run) k flags g b so fs (x, log) m sa sb = Ok (x', log', m', d) ->
  log' = log ++ (if off flags k then [] else [k]).
Proof.
  unfold maybe_add_send. destruct (off flags k); [intros E; injection E as <- <- <- <-; now rewrite app_nil_r|]. cbv zeta.
  unfold logging. match goal with |- context [run k x ?mm ?l ?r ?p] => destruct (run k x mm l r p) as [[[a c] e]| |] end; cbn [obind]; try discriminate.
  intros E; injection E as <- <- <- <-. reflexivity.
Qed.
End Log.
Lemma inserts_log {T X} (run : Z -> X -> mem T -> Z -> Z -> bool -> res (X * mem T * bool)) bypass flags b x log m sa sb x' log' m' sa' sb' :
  apply_inserts (logging run) bypass flags b (x, log) m sa sb = Ok (x', log', m', sa', sb') ->
  log' = log ++ match bypass with NoSendFX => [] | _ => filter (fun k => negb (off flags k)) [0; 1; 2; 3] end.
Proof.
  assert (G : forall e, obind (slot (logging run) flags 0 (x, log) m (a_l b) (a_r b) sa) e = Ok (x', log', m', sa', sb') -> exists x1 l1 m1 s1,
     slot (logging run) flags 0 (x, log) m (a_l b) (a_r b) sa = Ok (x1, l1, m1, s1) /\ e (x1, l1, m1, s1) = Ok (x', log', m', sa', sb')).
  { intros e. destruct (slot (logging run) flags 0 (x, log) m (a_l b) (a_r b) sa) as [[[[x1 l1] m1] s1]| |]; cbn [obind]; try discriminate. eauto 8. }
  intros H. unfold apply_inserts in H. destruct bypass.
  2: { injection H as <- <- <- <- <-. now rewrite app_nil_r. }
  all: apply G in H as (x1 & l1 & m1 & s1 & E1 & H); apply slot_log in E1; cbn beta iota in H;
    (destruct (slot (logging run) flags 1 (x1, l1) m1 (a_l b) (a_r b) s1) as [[[[x2 l2] m2] s2]| |] eqn:E2; cbn [obind] in H; try discriminate; apply slot_log in E2);
    (destruct (slot (logging run) flags 2 (x2, l2) m2 (b_l b) (b_r b) sb) as [[[[x3 l3] m3] s3]| |] eqn:E3; cbn [obind] in H; try discriminate; apply slot_log in E3);
    (destruct (slot (logging run) flags 3 (x3, l3) m3 (b_l b) (b_r b) s3) as [[[[x4 l4] m4] s4]| |] eqn:E4; cbn [obind] in H; try discriminate; apply slot_log in E4);
    injection H as <- <- <- <- <-; rewrite E4, E3, E2, E1, <- !app_assoc; f_equal; cbn [filter];
    destruct (off flags 0), (off flags 1), (off flags 2), (off flags 3); reflexivity.
Qed.
Lemma effects_log {T X} (A : arith T) (run : Z -> X -> mem T -> Z -> Z -> bool -> res (X * mem T * bool)) bypass flags ga gb b so fs x log m sa sb x' log' m' :
  apply_effects A (logging run) bypass flags ga gb b so fs (x, log) m sa sb = Ok (x', log', m') ->
  log' = log ++ filter (fun k => negb (off flags k)) (match bypass with AllFX => [4; 5; 6; 7] | NoSendFX => [6; 7] | _ => [] end).
Proof.
  assert (G : forall x log m gl x' log' m', obind (slot (logging run) flags 6 (x, log) m (o_l b) (o_r b) gl) (fun '(x, m, _) =>
     obind (slot (logging run) flags 7 x m (o_l b) (o_r b) gl) (fun '(x, m, _) => Ok (x, m))) = Ok (x', log', m') ->
     log' = log ++ filter (fun k => negb (off flags k)) [6; 7]).
  { clear. intros x log m gl x' log' m' H.
    destruct (slot (logging run) flags 6 (x, log) m (o_l b) (o_r b) gl) as [[[[x1 l1] m1] s1]| |] eqn:E1; cbn [obind] in H; try discriminate. apply slot_log in E1.
    destruct (slot (logging run) flags 7 (x1, l1) m1 (o_l b) (o_r b) gl) as [[[[x2 l2] m2] s2]| |] eqn:E2; cbn [obind] in H; try discriminate. apply slot_log in E2.
    injection H as <- <- <-. rewrite E2, E1, <- app_assoc. f_equal. cbn [filter]. destruct (off flags 6), (off flags 7); reflexivity. }
  intros H. unfold apply_effects in H. destruct bypass; cbn [obind] in H.
  - destruct (maybe_add_send A (logging run) 4 flags ga b so fs (x, log) m sa sb) as [[[[x1 l1] m1] s1]| |] eqn:E1; cbn [obind] in H; try discriminate. apply send_log in E1.
    destruct (maybe_add_send A (logging run) 5 flags gb b so fs (x1, l1) m1 sa sb) as [[[[x2 l2] m2] s2]| |] eqn:E2; cbn [obind] in H; try discriminate. apply send_log in E2.
    apply G in H. rewrite H, E2, E1, <- !app_assoc. f_equal. cbn [filter]. destruct (off flags 4), (off flags 5), (off flags 6), (off flags 7); reflexivity.
  - apply G in H. exact H.
  - injection H as <- <- <-. cbn [filter]. now rewrite app_nil_r.
  - injection H as <- <- <-. cbn [filter]. now rewrite app_nil_r.
Qed.
Lemma finish_log {T X} (A : arith T) (run : Z -> X -> mem T -> Z -> Z -> bool -> res (X * mem T * bool)) bypass flags ga gb amp mute b so fs x m pa pb x' log' m' :
  finish_block A (logging run) bypass flags ga gb amp mute b so fs (x, []) m pa pb = Ok (x', log', m') ->
  log' = filter (fun k => negb (Z.testbit flags k)) (match bypass with AllFX => slots8 | NoSendFX => [6; 7] | _ => [0; 1; 2; 3] end).
Proof.
  intros H. unfold finish_block in H.
  destruct (apply_inserts (logging run) bypass flags b (x, []) m pa pb) as [[[[[x1 l1] m1] sa] sb]| |] eqn:E1; cbn [obind] in H; try discriminate. apply inserts_log in E1.
  destruct (sum_scenes A m1 b) as [m2| |]; cbn [obind] in H; try discriminate.
  destruct (apply_effects A (logging run) bypass flags ga gb b so fs (x1, l1) m2 sa sb) as [[[x3 l3] m3]| |] eqn:E3; cbn [obind] in H; try discriminate. apply effects_log in E3.
  injection H as <- <- <-. rewrite E3, E1. cbn [app].
  assert (FE : forall l, (forall k, In k l -> 0 <= k) -> filter (fun k => negb (off flags k)) l = filter (fun k => negb (Z.testbit flags k)) l).
  { intros l Hl. apply filter_ext_in. intros k Hk. now rewrite off_testbit by auto. }
  assert (P1 : forall k, In k [0; 1; 2; 3] -> 0 <= k) by (intros k Hk; repeat (destruct Hk as [<-|Hk]; [lia|]); destruct Hk).
  assert (P2 : forall k, In k [4; 5; 6; 7] -> 0 <= k) by (intros k Hk; repeat (destruct Hk as [<-|Hk]; [lia|]); destruct Hk).
  assert (P3 : forall k, In k [6; 7] -> 0 <= k) by (intros k Hk; repeat (destruct Hk as [<-|Hk]; [lia|]); destruct Hk).
  destruct bypass; rewrite ?FE by assumption; cbn [app]; rewrite ?app_nil_r; try reflexivity.
  change slots8 with ([0; 1; 2; 3] ++ [4; 5; 6; 7]). now rewrite filter_app.
Qed.
(* with all effects on, or scene effects only, exactly the slots the user left on run, each once, in slot order *)
Theorem C103_effects_that_run_partial : forall T X (A : arith T) (run : Z -> X -> mem T -> Z -> Z -> bool -> res (X * mem T * bool)) bypass flags ga gb amp mute b so fs x m pa pb x' log m',
  bypass = AllFX \/ bypass = SceneFXOnly ->
  finish_block A (logging run) bypass flags ga gb amp mute b so fs (x, []) m pa pb = Ok (x', log, m') -> log = filter (should_run bypass flags) slots8.
Proof.
  intros T X A run bypass flags ga gb amp mute b so fs x m pa pb x' log m' HB H. apply finish_log in H. rewrite H. destruct HB as [-> | ->].
  - apply filter_ext. intros k. unfold should_run. now rewrite andb_true_r.
  - unfold slots8, should_run. cbn [filter Z.ltb Z.compare Pos.compare Pos.compare_cont]. rewrite !andb_false_r, !andb_true_r. reflexivity.
Qed.
Print Assumptions C103_effects_that_run_partial.
(* switching sends off silences the inserts instead of keeping them, and switching every effect off leaves the inserts on *)
Theorem C103_bypass_inserts_swapped_refuted : forall T X (A : arith T) (run : Z -> X -> mem T -> Z -> Z -> bool -> res (X * mem T * bool)) flags ga gb amp mute b so fs x m pa pb x' log m',
  (finish_block A (logging run) NoSendFX flags ga gb amp mute b so fs (x, []) m pa pb = Ok (x', log, m') -> log = filter (fun k => negb (Z.testbit flags k)) [6; 7])
  /\ (finish_block A (logging run) AllFXOff flags ga gb amp mute b so fs (x, []) m pa pb = Ok (x', log, m') -> log = filter (fun k => negb (Z.testbit flags k)) [0; 1; 2; 3])
  /\ filter (should_run NoSendFX 0) slots8 = [0; 1; 2; 3; 6; 7] /\ filter (should_run AllFXOff flags) slots8 = [].
Proof.
  intros. split; [intros H; exact (finish_log _ _ _ _ _ _ _ _ _ _ _ _ _ _ _ _ _ _ H)|].
  split; [intros H; exact (finish_log _ _ _ _ _ _ _ _ _ _ _ _ _ _ _ _ _ _ H)|]. split; [reflexivity|].
  unfold should_run, slots8. cbn [filter]. rewrite !andb_false_r. reflexivity.
Qed.
Print Assumptions C103_bypass_inserts_swapped_refuted.

(** ** C104 what comes out *)
(* the three output areas are 16-byte aligned and do not overlap *)
Definition laid_out (b : buffers) : Prop :=
  bf_a b mod 4 = 0 /\ bf_b b mod 4 = 0 /\ bf_out b mod 4 = 0
  /\ (bf_a b + 128 <= bf_out b \/ bf_out b + 64 <= bf_a b) /\ (bf_b b + 128 <= bf_out b \/ bf_out b + 64 <= bf_b b).
Theorem C104_scenes_are_summed : forall T (A : arith T) (m : mem T) b, laid_out b -> exists m', sum_scenes A m b = Ok m'
  /\ (forall i, 0 <= i < 32 -> m' (o_l b + i) = ar_add A (m (a_l b + i)) (m (b_l b + i)) /\ m' (o_r b + i) = ar_add A (m (a_r b + i)) (m (b_r b + i)))
  /\ (forall a, ~ (bf_out b <= a < bf_out b + 64) -> m' a = m a).
Proof.
  intros T A m [pa pb po] (Ha & Hb & Ho & Dab & Dbo). unfold sum_scenes, a_l, a_r, b_l, b_r, o_l, o_r, out_l, out_r, row_ptr. cbn [bf_a bf_b bf_out] in *.
  destruct (C70_copy_block T m pa (po + 32 * 0) 8 ltac:(lia) eq_refl ltac:(unfold clear_of; lia)) as [W1 F1]. set (m1 := copy_block m pa (po + 32 * 0) 8) in *. clearbody m1.
  destruct (C70_copy_block T m1 (pa + 64) (po + 32 * 1) 8 ltac:(lia) eq_refl ltac:(unfold clear_of; lia)) as [W2 F2]. set (m2 := copy_block m1 (pa + 64) (po + 32 * 1) 8) in *. clearbody m2.
  destruct (C70_accumulate_block T A m2 pb (po + 32 * 0) 8 ltac:(lia) Hb ltac:(clear - Ho; lia) ltac:(unfold clear_of; lia)) as (m3 & E3 & W3 & F3). rewrite E3. cbn [obind].
  destruct (C70_accumulate_block T A m3 (pb + 64) (po + 32 * 1) 8 ltac:(lia) ltac:(clear - Hb; lia) ltac:(clear - Ho; lia) ltac:(unfold clear_of; lia)) as (m4 & E4 & W4 & F4). rewrite E4.
  exists m4. split; [reflexivity|]. clear E3 E4 Ha Hb Ho. split.
  - intros i Hi. split.
    + rewrite F4 by (clear - Hi; lia). rewrite W3 by lia. f_equal.
      * rewrite F2 by (clear - Hi; lia). apply W1. lia.
      * rewrite F2 by (clear - Hi Dbo; lia). apply F1. clear - Hi Dbo. lia.
    + rewrite W4 by lia. f_equal.
      * rewrite F3 by (clear - Hi; lia). rewrite W2 by lia. apply F1. clear - Hi Dab. lia.
      * rewrite F3 by (clear - Hi Dbo; lia). rewrite F2 by (clear - Hi Dbo; lia). apply F1. clear - Hi Dbo. lia.
  - intros a Hq. rewrite F4, F3, F2, F1 by (clear - Hq; lia). reflexivity.
Qed.
Print Assumptions C104_scenes_are_summed.
(* with every effect disabled: sample i is the sum of the scenes' samples times both gains, clipped to +-8 *)
Theorem C104_dry_output : forall T X (A : arith T) (run : Z -> X -> mem T -> Z -> Z -> bool -> res (X * mem T * bool)) bypass flags ga gb amp mute b so fs x m pa pb,
  laid_out b -> (forall k, 0 <= k < 8 -> Z.testbit flags k = true) ->
  exists m', finish_block A run bypass flags ga gb amp mute b so fs x m pa pb = Ok (x, m')
   /\ (forall i, 0 <= i < 32 ->
        m' (o_l b + i) = hardclip8 A (ar_mul A (ar_mul A (ar_add A (m (a_l b + i)) (m (b_l b + i))) (gain8 A amp i)) (gain8 A mute i))
        /\ m' (o_r b + i) = hardclip8 A (ar_mul A (ar_mul A (ar_add A (m (a_r b + i)) (m (b_r b + i))) (gain8 A amp i)) (gain8 A mute i)))
   /\ (forall a, ~ (bf_out b <= a < bf_out b + 64) -> m' a = m a).
Proof.
  intros T X A run bypass flags ga gb amp mute b so fs x m pa pb LO FL.
  assert (O : forall k, 0 <= k < 8 -> off flags k = true) by (intros k Hk; rewrite off_testbit by lia; now apply FL).
  assert (EI : apply_inserts run bypass flags b x m pa pb = Ok (x, m, pa, pb)).
  { unfold apply_inserts, slot. rewrite !O by lia. destruct bypass; reflexivity. }
  assert (EE : forall m, apply_effects A run bypass flags ga gb b so fs x m pa pb = Ok (x, m)).
  { intros m1. unfold apply_effects, slot, maybe_add_send. rewrite !O by lia. destruct bypass; reflexivity. }
  destruct (C104_scenes_are_summed T A m b LO) as (m1 & E1 & W1 & F1).
  unfold finish_block. rewrite EI. cbn [obind]. rewrite E1. cbn [obind]. rewrite EE. cbn [obind]. cbv zeta.
  assert (AP : apart (o_l b) (o_r b) 8) by (unfold apart, o_l, o_r, out_l, out_r, row_ptr; lia).
  assert (OL : o_l b = bf_out b) by (unfold o_l, out_l, row_ptr; lia). assert (OR : o_r b = bf_out b + 32) by (unfold o_r, out_r, row_ptr; lia).
  clear LO FL O EI EE E1.
  destruct (blocks_use_gain8 A amp m1 8 ltac:(lia) eq_refl) as (_ & _ & _ & _ & _ & _ & _ & _ & G2 & _). destruct (G2 _ _ AP) as (L2 & R2 & F2). clear G2.
  set (m2 := ps_multiply_2_blocks A amp m1 (o_l b) (o_r b) 8) in *. clearbody m2.
  destruct (blocks_use_gain8 A mute m2 8 ltac:(lia) eq_refl) as (_ & _ & _ & _ & _ & _ & _ & _ & G3 & _). destruct (G3 _ _ AP) as (L3 & R3 & F3). clear G3.
  set (m3 := ps_multiply_2_blocks A mute m2 (o_l b) (o_r b) 8) in *. clearbody m3.
  destruct (proj2 (C53_hardclip_blocks T A m3 (o_l b) 8 ltac:(lia) eq_refl)) as [W4 F4]. set (m4 := hardclip_block8 A m3 (o_l b) 8) in *. clearbody m4.
  destruct (proj2 (C53_hardclip_blocks T A m4 (o_r b) 8 ltac:(lia) eq_refl)) as [W5 F5]. set (m5 := hardclip_block8 A m4 (o_r b) 8) in *. clearbody m5.
  change (4 * 8) with 32 in *. exists m5. split; [reflexivity|]. rewrite OL, OR in *. clear OL OR AP. split.
  - intros i Hi. destruct (W1 i Hi) as [P Q]. split.
    + rewrite F5 by (clear - Hi; lia). rewrite W4, L3, L2, P by exact Hi. reflexivity.
    + rewrite W5 by exact Hi. rewrite F4 by (clear - Hi; lia). rewrite R3, R2, Q by exact Hi. reflexivity.
  - intros a Ha. rewrite F5, F4 by (clear - Ha; lia). rewrite F3, F2 by (clear - Ha; lia). apply F1. exact Ha.
Qed.
Print Assumptions C104_dry_output.
(* and whatever the effects, the gains and the scenes do - NaN and infinities included - every output sample is a number in [-8,8] *)
Theorem C104_output_is_bounded : forall X (run : Z -> X -> mem f32 -> Z -> Z -> bool -> res (X * mem f32 * bool)) bypass flags ga gb amp mute b so fs x m pa pb x' m',
  finish_block arith32 run bypass flags ga gb amp mute b so fs x m pa pb = Ok (x', m') ->
  forall i, 0 <= i < 32 -> (fin (m' (o_l b + i)%Z) /\ (-8 <= val (m' (o_l b + i)%Z) <= 8)%R) /\ (fin (m' (o_r b + i)%Z) /\ (-8 <= val (m' (o_r b + i)%Z) <= 8)%R).
Proof.
  intros X run bypass flags ga gb amp mute b so fs x m pa pb x' m' H i Hi. unfold finish_block in H.
  destruct (apply_inserts run bypass flags b x m pa pb) as [[[[x1 m1] sa] sb]| |]; cbn [obind] in H; try discriminate.
  destruct (sum_scenes arith32 m1 b) as [m2| |]; cbn [obind] in H; try discriminate.
  destruct (apply_effects arith32 run bypass flags ga gb b so fs x1 m2 sa sb) as [[x3 m3]| |]; cbn [obind] in H; try discriminate. cbv zeta in H.
  set (m4 := ps_multiply_2_blocks arith32 mute (ps_multiply_2_blocks arith32 amp m3 (o_l b) (o_r b) 8) (o_l b) (o_r b) 8) in *. clearbody m4.
  destruct (proj2 (C53_hardclip_blocks _ arith32 m4 (o_l b) 8 ltac:(lia) eq_refl)) as [W5 F5]. set (m5 := hardclip_block8 arith32 m4 (o_l b) 8) in *. clearbody m5.
  destruct (proj2 (C53_hardclip_blocks _ arith32 m5 (o_r b) 8 ltac:(lia) eq_refl)) as [W6 F6]. set (m6 := hardclip_block8 arith32 m5 (o_r b) 8) in *. clearbody m6.
  change (4 * 8) with 32 in *. injection H as E1 E2. subst x' m'. destruct C53_hardclip8_range as [RG _].
  split.
  - rewrite F6 by (unfold o_l, o_r, out_l, out_r, row_ptr; clear - Hi; lia). rewrite W5 by exact Hi. apply RG.
  - rewrite W6 by exact Hi. apply RG.
Qed.
Print Assumptions C104_output_is_bounded.
(* the master fade: at 0 the dry output is silence whatever the scenes hold (exact arithmetic) *)
Theorem C104_muted_is_silent : forall X (run : Z -> X -> mem R -> Z -> Z -> bool -> res (X * mem R * bool)) bypass flags ga gb amp mute bs b so fs x m pa pb, 0 < bs ->
  laid_out b -> (forall k, 0 <= k < 8 -> Z.testbit flags k = true) ->
  let silent := ps_instantize (ps_set_target (ps_set_blocksize arithR mute bs) 0%R) in
  exists m', finish_block arithR run bypass flags ga gb amp silent b so fs x m pa pb = Ok (x, m') /\ forall i, 0 <= i < 32 -> m' (o_l b + i) = 0%R /\ m' (o_r b + i) = 0%R.
Proof.
  intros X run bypass flags ga gb amp mute bs b so fs x m pa pb Hb LO FL silent.
  destruct (C104_dry_output R X arithR run bypass flags ga gb amp silent b so fs x m pa pb LO FL) as (m' & E & W & _). exists m'. split; [exact E|]. intros i Hi.
  assert (G : gain8 arithR silent i = 0%R).
  { unfold silent. rewrite (gain8_exact _ (IZR bs) i); [|apply IZR_lt in Hb; lra|lia|exact (blocksize_inv mute bs Hb)]. unfold ramp. cbn. lra. }
  destruct (W i Hi) as [L R0]. rewrite L, R0, G. unfold hardclip8, smax, smin, lit. cbn [ar_mul ar_lit ar_lt arithR]. rewrite !Rmult_0_r.
  destruct (Rlt_dec 0 (8 / 1)) as [_|N]; [|exfalso; apply N; lra]. destruct (Rlt_dec (-8 / 1) 0) as [_|N]; [|exfalso; apply N; lra]. auto.
Qed.
Print Assumptions C104_muted_is_silent.
Example C104_instance : laid_out {| bf_a := 0; bf_b := 128; bf_out := 256 |} /\ (forall k, 0 <= k < 8 -> Z.testbit 255 k = true).
Proof.
  split; [unfold laid_out; cbn; lia|]. intros k Hk. assert (C : k = 0 \/ k = 1 \/ k = 2 \/ k = 3 \/ k = 4 \/ k = 5 \/ k = 6 \/ k = 7) by lia.
  repeat (destruct C as [-> | C]; [reflexivity|]). now rewrite C.
Qed.

(** ** C105 the level meter *)
Lemma vu_update_R v p : vu_update arithR v p = Rmax (Rmin 2 (997 / 1000 * v)) p.
Proof.
  unfold vu_update, smax, smin, lit. cbn [ar_lt ar_mul ar_lit arithR]. replace (2 / 1)%R with 2%R by lra.
  assert (E : (if (if Rlt_dec 2 (997 / 1000 * v) then true else false) then 2 else 997 / 1000 * v)%R = Rmin 2 (997 / 1000 * v)).
  { destruct (Rlt_dec 2 (997 / 1000 * v)); [now rewrite Rmin_left by lra|now rewrite Rmin_right by lra]. }
  rewrite E. set (w := Rmin 2 (997 / 1000 * v)). clearbody w. destruct (Rlt_dec p w); [now rewrite Rmax_left by lra|now rewrite Rmax_right by lra].
Qed.
(* never below the level measured in the block just played, and never above 2 unless that level is *)
Theorem C105_meter_bounds : forall v p, (p <= vu_update arithR v p <= Rmax 2 p)%R /\ (0 <= p -> 0 <= vu_update arithR v p)%R.
Proof.
  intros v p. rewrite vu_update_R. unfold Rmax, Rmin. repeat (destruct (Rle_dec _ _)); lra.
Qed.
Print Assumptions C105_meter_bounds.
(* after a peak of at most 2 the meter falls by 0.3 % per silent block *)
Theorem C105_meter_decay : forall n v, (0 <= v <= 2)%R -> vu_run arithR v (repeat 0%R n) = (v * (997 / 1000) ^ n)%R.
Proof.
  induction n as [|n IH]; intros v Hv; [cbn; lra|]. cbn [repeat]. unfold vu_run in *. cbn [fold_left]. rewrite vu_update_R.
  rewrite Rmin_right, Rmax_left by lra. rewrite IH by lra. cbn [pow]. ring.
Qed.
Print Assumptions C105_meter_decay.
(* a history's meter: at least the last block's level, at least 0, at most the loudest block or 2 *)
Theorem C105_meter_history : forall peaks v last b, (0 <= v <= b)%R -> (2 <= b)%R -> (forall p, In p peaks -> 0 <= p <= b)%R -> (0 <= last <= b)%R ->
  (last <= vu_run arithR v (peaks ++ [last]) <= b)%R.
Proof.
  intros peaks v last b Hv Hb HP HL.
  assert (I : (0 <= vu_run arithR v peaks <= b)%R).
  { revert v Hv. induction peaks as [|p r IH]; intros v Hv; [exact Hv|]. unfold vu_run in *. cbn [fold_left]. apply IH; [intros q Hq; apply HP; now right|].
    specialize (HP p (or_introl eq_refl)). rewrite vu_update_R. unfold Rmax, Rmin. repeat (destruct (Rle_dec _ _)); lra. }
  unfold vu_run in *. rewrite fold_left_app. cbn [fold_left]. rewrite vu_update_R. unfold Rmax, Rmin. repeat (destruct (Rle_dec _ _)); lra.
Qed.
Print Assumptions C105_meter_history.
Example C105_instance : vu_run arithR 1%R [0; 0]%R = (994009 / 1000000)%R.
Proof. change [0; 0]%R with (repeat 0%R 2). rewrite (C105_meter_decay 2 1%R); [cbn; lra|lra]. Qed.

(** ** C106 voices, filter quads and lanes *)
Lemma voice_slot_eq i : voice_slot i = (i / 4, i mod 4).
Proof. unfold voice_slot. rewrite Z.shiftr_div_pow2 by lia. change 3 with (Z.ones 2). rewrite Z.land_ones by lia. reflexivity. Qed.
Theorem C106_voices_have_their_own_lane : (forall i j, voice_slot i = voice_slot j -> i = j)
  /\ (forall i, 0 <= i < 64 -> 0 <= fst (voice_slot i) < 16 /\ 0 <= snd (voice_slot i) < 4).
Proof.
  split.
  - intros i j. rewrite !voice_slot_eq. intros E. injection E as E1 E2. lia.
  - intros i Hi. rewrite voice_slot_eq. cbn [fst snd]. lia.
Qed.
Print Assumptions C106_voices_have_their_own_lane.
(* n voices: the quads processed are 0..ceil(n/4)-1, each once; in each, the lanes switched off are exactly those no voice works in *)
Theorem C106_quads_cover_voices : forall n, 0 <= n ->
  map fst (quads_processed n) = map Z.of_nat (seq 0 (Z.to_nat ((n + 3) / 4)))
  /\ (forall q offs, In (q, offs) (quads_processed n) -> forall lane, In lane offs <-> (0 <= lane < 4 /\ n <= 4 * q + lane))
  /\ (forall i, 0 <= i < n -> exists offs, In (fst (voice_slot i), offs) (quads_processed n) /\ ~ In (snd (voice_slot i)) offs).
Proof.
  intros n Hn. unfold quads_processed, stepby. replace (n + 4 - 1) with (n + 3) by lia. rewrite !map_map.
  assert (SH : forall k, Z.shiftr (4 * Z.of_nat k) 2 = Z.of_nat k) by (intros k; rewrite Z.shiftr_div_pow2 by lia; change (2 ^ 2) with 4; lia).
  assert (OF : forall k lane, (k < Z.to_nat ((n + 3) / 4))%nat ->
     (In lane (map (fun j => n - 4 * Z.of_nat k + Z.of_nat j) (seq 0 (Z.to_nat (4 - (n - 4 * Z.of_nat k))))) <-> (0 <= lane < 4 /\ n <= 4 * Z.of_nat k + lane))).
  { intros k lane Hk. assert (Hk' : 4 * Z.of_nat k < n) by lia. rewrite in_map_iff. split.
    - intros (j & <- & Hj). apply in_seq in Hj. lia.
    - intros [H1 H2]. exists (Z.to_nat (lane - (n - 4 * Z.of_nat k))). split; [lia|]. apply in_seq. lia. }
  split; [|split].
  - apply map_ext. intros k. cbn [fst]. apply SH.
  - intros q offs H lane. apply in_map_iff in H as (k & E & Hk). cbn beta in E. rewrite SH in E. injection E as <- <-. apply in_seq in Hk. apply OF. lia.
  - intros i Hi. rewrite voice_slot_eq. cbn [fst snd]. set (k := Z.to_nat (i / 4)). assert (K : Z.of_nat k = i / 4) by (unfold k; lia).
    eexists. split.
    + apply in_map_iff. exists k. split; [|apply in_seq; clearbody k; lia]. cbn beta. rewrite SH, K. reflexivity.
    + rewrite <- K. rewrite OF by (clearbody k; lia). clearbody k. lia.
Qed.
Print Assumptions C106_quads_cover_voices.
Example C106_instance : quads_processed 6 = [(0, []); (1, [2; 3])]. Proof. reflexivity. Qed.

(** ** C98 the control step and the latch *)
(* every scene is shown scene A's flag first, which disarms it: an armed scene B loses its voices according to whether A plays *)
Theorem C98_scene_b_follows_scene_a_refuted : forall y s0 s1, y_scenes y = [set_release_if_latched s0 true; set_release_if_latched s1 true] ->
  (length (s_voices s0) <= 1)%nat -> (length (s_voices s1) <= 1)%nat ->
  exists y' s0' s1', control_release y = Ok y' /\ y_scenes y' = [s0'; s1']
   /\ s_voices s0' = (if fst (get_play_scenes y) then s_voices s0 else []) /\ s_voices s1' = (if fst (get_play_scenes y) then s_voices s1 else []).
Proof.
  intros y s0 s1 E L0 L1. unfold control_release. destruct (get_play_scenes y) as [pa pb]. cbn [fst]. rewrite E. cbn [foldM obind].
  assert (G : forall s, (length (s_voices s) <= 1)%nat -> exists s', obind (maybe_release (set_release_if_latched s true) pa) (fun s => maybe_release s pb) = Ok s'
    /\ s_voices s' = if pa then s_voices s else []).
  { intros s L. unfold maybe_release at 1. cbn [s_release_if_latched s_release_anyway set_release_if_latched set_latch]. rewrite orb_false_r. destruct pa; cbn [negb obind].
    - eexists. split; [reflexivity|reflexivity].
    - destruct (C25_at_most_one_voice_partial (set_release_if_latched s true) L) as [_ F]. unfold set_release_if_latched in *. rewrite F. cbn [obind].
      eexists. split; [reflexivity|reflexivity]. }
  destruct (G s0 L0) as (s0' & E0 & V0). destruct (G s1 L1) as (s1' & E1 & V1). clear G.
  destruct (maybe_release (set_release_if_latched s0 true) pa) as [t0| |] eqn:Q0; cbn [obind] in E0; try discriminate. cbn [obind]. rewrite E0. cbn [obind app].
  destruct (maybe_release (set_release_if_latched s1 true) pa) as [t1| |] eqn:Q1; cbn [obind] in E1; try discriminate. cbn [obind]. rewrite E1. cbn [obind app].
  eexists _, s0', s1'. split; [reflexivity|]. split; [reflexivity|]. auto.
Qed.
Print Assumptions C98_scene_b_follows_scene_a_refuted.
(* so it is right exactly when both scenes play or neither does *)
Theorem C98_control_step_unarmed : forall y s0 s1, y_scenes y = [s0; s1] -> s_release_if_latched s0 = false -> s_release_if_latched s1 = false ->
  control_release y = Ok (set_scenes y [s0; s1]).
Proof.
  intros y s0 s1 E H0 H1. unfold control_release. destruct (get_play_scenes y) as [pa pb]. rewrite E. cbn [foldM]. unfold maybe_release.
  rewrite H0. cbn [obind]. rewrite H0. cbn [obind app]. rewrite H1. cbn [obind]. rewrite H1. reflexivity.
Qed.
Print Assumptions C98_control_step_unarmed.

(** ** C97: the scene that is post-processed *)
(* the flag computed for the block is inverted: a scene counts as playing exactly when it has no voices *)
Theorem C97_playscene_inverted_refuted : forall s, playscene s = true <-> s_voices s = [].
Proof. intros s. unfold playscene. destruct (s_voices s); split; congruence. Qed.
Print Assumptions C97_playscene_inverted_refuted.
