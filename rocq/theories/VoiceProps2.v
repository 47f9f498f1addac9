(* VoiceProps2.v - C193-C196: the mixer of a voice, the hand-over to the quad filter, which oscillators run, and the voice's life. *)
From Coq Require Import Reals Lra Psatz.
From Verif Require Import Base Util LagModel BlockModel RampProps MathModel ParamModel AdsrModel LfoModel TuneModel SceneModel BiquadModel UnitModel QfModel
  FastProps LfoProps TuneProps VoiceModel.
Local Open Scope R_scope.

(** ** C193 mixer *)
Definition heard (en goes : bool) (x : R) : R := if en && goes then x else 0.
Definition sample {O} (out : O -> blk) (o : option O) (i : Z) : R := match o with Some x => out x i | None => 0 end.
Lemma obind_inv {E A B} (x : outcome E A) (K : A -> outcome E B) r : obind x K = Ok r -> exists a, x = Ok a /\ K a = Ok r.
Proof. destruct x; cbn; intros H; try discriminate. eauto. Qed.
Section Mix.
Context {O : Type} (step : nat -> option blk -> O -> res O) (out_l out_r : O -> blk).
Notation mixer := (mixer O).
Lemma osc_stage c n m m' : process_osc step out_l out_r c n m = Ok m' ->
  (exists o o', m_osc m n = Some o /\ step n (modulator out_l c m n) o = Ok o' /\ m_osc m' n = Some o') /\ (forall k, k <> n -> m_osc m' k = m_osc m k) /\ m_fmbuf m' = m_fmbuf m /\
  (c_wide c = false -> snd (m_t m') = snd (m_t m)) /\
  (forall i, fst (m_out m') i = fst (m_out m) i + heard (enabled c n) (c_route c n <? 2)%Z (sample out_l (m_osc m' n) i * gain8 arithR (lev c n) i)) /\
  (forall i, snd (m_out m') i = snd (m_out m) i + heard (enabled c n) (0 <? c_route c n)%Z (if c_wide c then sample out_r (m_osc m' n) i * gain8 arithR (lev c n) i else snd (m_t m) i)).
Proof.
  unfold process_osc. destruct (m_osc m n) as [o|] eqn:E; [|discriminate]. destruct (step n (modulator out_l c m n) o) as [o'| |] eqn:E1; cbn [obind]; try discriminate.
  destruct (enabled c n) eqn:En; intros H; injection H as <-; cbn [m_osc m_fmbuf m_t m_out set_osc fst snd].
  - rewrite Nat.eqb_refl. cbn [sample]. split; [exists o, o'; auto|]. split; [intros k Hk; now rewrite (proj2 (Nat.eqb_neq _ _) Hk)|]. split; [reflexivity|].
    split; [now intros ->|]. unfold heard, send. cbn [andb fst snd]. split; intros i; destruct (c_wide c); cbn [fst snd].
    + destruct (c_route c n <? 2)%Z; unfold acc, amplify; lra.
    + destruct (c_route c n <? 2)%Z; unfold acc, amplify; lra.
    + destruct (0 <? c_route c n)%Z; unfold acc, amplify; lra.
    + destruct (0 <? c_route c n)%Z; unfold acc, amplify; lra.
  - rewrite Nat.eqb_refl. split; [exists o, o'; auto|]. split; [intros k Hk; now rewrite (proj2 (Nat.eqb_neq _ _) Hk)|]. split; [reflexivity|].
    split; [reflexivity|]. unfold heard. cbn [andb]. split; intros; lra.
Qed.
Definition ring_lev (c : mixcfg) (i : nat) := match i with 0%nat => lv_r12 (c_lev c) | _ => lv_r23 (c_lev c) end.
Lemma ring_stage c n m m' : process_ring out_l out_r c n m = Ok m' ->
  m_osc m' = m_osc m /\ m_fmbuf m' = m_fmbuf m /\ (c_wide c = false -> snd (m_t m') = snd (m_t m)) /\
  (forall i, fst (m_out m') i = fst (m_out m) i + heard true (c_route c (3 + n) <? 2)%Z (sample out_l (m_osc m n) i * sample out_l (m_osc m (Datatypes.S n)) i * gain8 arithR (ring_lev c n) i)) /\
  (forall i, snd (m_out m') i = snd (m_out m) i + heard true (0 <? c_route c (3 + n))%Z
    (if c_wide c then sample out_r (m_osc m n) i * sample out_r (m_osc m (Datatypes.S n)) i * gain8 arithR (ring_lev c n) i
     else sample out_l (m_osc m n) i * sample out_l (m_osc m (Datatypes.S n)) i * gain8 arithR (ring_lev c n) i)).
Proof.
  unfold process_ring. destruct (m_osc m n) as [a|] eqn:E; [|discriminate]. destruct (m_osc m (Datatypes.S n)) as [b|] eqn:E1; [|discriminate].
  cbv zeta. intros H. injection H as <-. cbn [m_osc m_fmbuf m_t m_out]. do 2 (split; [reflexivity|]). split; [now intros ->|]. fold (ring_lev c n).
  change (3 + n)%nat with (Datatypes.S (Datatypes.S (Datatypes.S n))). unfold heard, send. cbn [andb]. split; intros i; destruct (c_wide c); cbn [fst snd].
  - destruct (c_route c _ <? 2)%Z; unfold acc, amplify, sample; fold (ring_lev c n); cbv beta iota; lra.
  - destruct (c_route c _ <? 2)%Z; unfold acc, amplify, sample; fold (ring_lev c n); cbv beta iota; lra.
  - destruct (0 <? c_route c _)%Z; unfold acc, amplify, sample; fold (ring_lev c n); cbv beta iota; lra.
  - destruct (0 <? c_route c _)%Z; unfold acc, amplify, sample; fold (ring_lev c n); cbv beta iota; lra.
Qed.
Lemma noise_stage c nl nr (m : mixer) : let m' := process_noise c nl nr m in
  m_osc m' = m_osc m /\ m_fmbuf m' = m_fmbuf m /\
  (forall i, fst (m_out m') i = fst (m_out m) i + heard true (c_route c 5 <? 2)%Z (nl i * gain8 arithR (lv_noise (c_lev c)) i)) /\
  (forall i, snd (m_out m') i = snd (m_out m) i + heard true (0 <? c_route c 5)%Z (if c_wide c then nr i * gain8 arithR (lv_noise (c_lev c)) i else snd (m_t m) i)).
Proof.
  cbv zeta. unfold process_noise. cbn [m_osc m_fmbuf m_out]. do 2 (split; [reflexivity|]). unfold heard, send. cbn [andb]. split; intros i; destruct (c_wide c); cbn [fst snd].
  - destruct (c_route c 5 <? 2)%Z; unfold acc, amplify; lra.
  - destruct (c_route c 5 <? 2)%Z; unfold acc, amplify; lra.
  - destruct (0 <? c_route c 5)%Z; unfold acc, amplify; lra.
  - destruct (0 <? c_route c 5)%Z; unfold acc, amplify; lra.
Qed.
(* what the left and the right output of the mixer should be, from the outputs the oscillators have after the block *)
Definition mix_sum (c : mixcfg) (goes : Z -> bool) (osc_part ring_part : nat -> R) (noise_part : R) : R :=
  heard (mx_o0 (c_sw c)) (goes (c_route c 0)) (osc_part 0%nat) + heard (mx_o1 (c_sw c)) (goes (c_route c 1)) (osc_part 1%nat) +
  heard (mx_o2 (c_sw c)) (goes (c_route c 2)) (osc_part 2%nat) + heard (mx_r0 (c_sw c)) (goes (c_route c 3)) (ring_part 0%nat) +
  heard (mx_r1 (c_sw c)) (goes (c_route c 4)) (ring_part 1%nat) + heard (mx_noise (c_sw c)) (goes (c_route c 5)) noise_part.
(* routes: 0 filter 1 (left), 1 both, 2 filter 2 (right) *)
Definition to_left (r : Z) : bool := (r <? 2)%Z. Definition to_right (r : Z) : bool := (0 <? r)%Z.
Definition osc_part (out : O -> blk) (c : mixcfg) (m : mixer) (i : Z) (n : nat) : R := sample out (m_osc m n) i * gain8 arithR (lev c n) i.
Definition ring_part (out : O -> blk) (c : mixcfg) (m : mixer) (i : Z) (n : nat) : R :=
  sample out (m_osc m n) i * sample out (m_osc m (Datatypes.S n)) i * gain8 arithR (ring_lev c n) i.
Definition noise_part (c : mixcfg) (nz : blk) (i : Z) : R := nz i * gain8 arithR (lv_noise (c_lev c)) i.

(* a stage that may be skipped *)
Lemma osc_stage_gated c n (g : bool) m m' : (g = false -> enabled c n = false) -> (if g then process_osc step out_l out_r c n m else Ok m) = Ok m' ->
  (forall k, k <> n -> m_osc m' k = m_osc m k) /\ m_fmbuf m' = m_fmbuf m /\ (c_wide c = false -> snd (m_t m') = snd (m_t m)) /\
  (if g then exists o o', m_osc m n = Some o /\ step n (modulator out_l c m n) o = Ok o' /\ m_osc m' n = Some o' else m_osc m' n = m_osc m n) /\
  (forall i, fst (m_out m') i = fst (m_out m) i + heard (enabled c n) (to_left (c_route c n)) (osc_part out_l c m' i n)) /\
  (forall i, snd (m_out m') i = snd (m_out m) i + heard (enabled c n) (to_right (c_route c n)) (if c_wide c then osc_part out_r c m' i n else snd (m_t m) i)).
Proof.
  intros Hg. destruct g; intros H.
  - destruct (osc_stage c n m m' H) as (X & K & B & T & L & R0). repeat (split; [eassumption|]). assumption.
  - specialize (Hg eq_refl). assert (m' = m) as -> by congruence. rewrite Hg. unfold heard. cbn [andb].
    do 4 (split; [auto|]). split; intros; lra.
Qed.
Lemma gate_impl c : (gate2 c = false -> enabled c 2 = false) /\ (gate1 c = false -> enabled c 1 = false) /\ (gate0 c = false -> enabled c 0 = false).
Proof. unfold gate2, gate1, gate0, enabled. destruct (mx_o0 (c_sw c)), (mx_o1 (c_sw c)), (mx_o2 (c_sw c)); cbn; repeat split; intros; try discriminate; reflexivity. Qed.
(* everything a completed block did *)
Definition gaten (c : mixcfg) (n : nat) : bool := match n with 0%nat => gate0 c | 1%nat => gate1 c | _ => gate2 c end.
Lemma mix_inv c nl nr m m' : mix_block step out_l out_r c nl nr m = Ok m' ->
  (forall n, (n < 3)%nat -> if gaten c n then
     exists o o' md, m_osc m n = Some o /\ step n md o = Ok o' /\ m_osc m' n = Some o' /\
       md = match n, c_fm c with
            | 0%nat, Fm1to0 | 0%nat, Fm2to1to0 => option_map out_l (m_osc m' 1%nat)
            | 0%nat, Fm12to0 => Some (fun k => sample out_l (m_osc m' 1%nat) k + sample out_l (m_osc m' 2%nat) k)
            | 1%nat, Fm2to1to0 => option_map out_l (m_osc m' 2%nat)
            | _, _ => None end
   else m_osc m' n = m_osc m n) /\
  (forall i, fst (m_out m') i = mix_sum c to_left (osc_part out_l c m' i) (ring_part out_l c m' i) (noise_part c nl i) * gain8 arithR (lv_pfg (c_lev c)) i) /\
  (forall i, snd (m_out m') i = mix_sum c to_right (fun n => if c_wide c then osc_part out_r c m' i n else 0)
     (fun n => if c_wide c then ring_part out_r c m' i n else ring_part out_l c m' i n) (if c_wide c then noise_part c nr i else 0) * gain8 arithR (lv_pfg (c_lev c)) i).
Proof.
  unfold mix_block. set (m0 := mk_mx (m_osc m) (m_fmbuf m) (zero_blk, zero_blk) (zero_blk, zero_blk)). cbv zeta.
  assert (I0 : m_osc m0 = m_osc m) by reflexivity. assert (T0 : snd (m_t m0) = zero_blk) by reflexivity. assert (OL : fst (m_out m0) = zero_blk) by reflexivity. assert (OR : snd (m_out m0) = zero_blk) by reflexivity.
  clearbody m0. destruct (gate_impl c) as (G2 & G1 & G0).
  intros H. apply obind_inv in H. destruct H as (m1 & E1 & H). apply obind_inv in H. destruct H as (m2 & E2 & H). apply obind_inv in H. destruct H as (m3 & E3 & H).
  apply obind_inv in H. destruct H as (m4 & E4 & H). apply obind_inv in H. destruct H as (m5 & E5 & H).
  set (m6 := if mx_noise (c_sw c) then process_noise c nl nr m5 else m5) in H. injection H as <-. cbn [m_osc m_out fst snd].
  destruct (osc_stage_gated c 2 _ _ _ G2 E1) as (K1 & _ & S1 & X1 & L1 & R1). destruct (osc_stage_gated c 1 _ _ _ G1 E2) as (K2 & _ & S2 & X2 & L2 & R2).
  (* the carrier *)
  assert (C3 : exists mm, m_osc mm = m_osc m2 /\ m_t mm = m_t m2 /\ m_out mm = m_out m2 /\
    (gate0 c = true -> c_fm c = Fm12to0 -> m_fmbuf mm = fun k => sample out_l (m_osc m2 1%nat) k + sample out_l (m_osc m2 2%nat) k) /\ (if gate0 c then process_osc step out_l out_r c 0 mm else Ok mm) = Ok m3).
  { destruct (gate0 c); [|exists m2; repeat split; try assumption; intros; discriminate]. unfold process_carrier in E3. destruct (m_osc m2 1%nat) as [a|]; [|discriminate]. destruct (m_osc m2 2%nat) as [b|]; [|discriminate].
    eexists. split; [|split; [|split; [|split; [|exact E3]]]]; destruct (c_fm c); try reflexivity; intros; discriminate. }
  destruct C3 as (mm & CO & CT & CU & CB & E3'). destruct (osc_stage_gated c 0 _ _ _ G0 E3') as (K3 & _ & S3 & X3 & L3 & R3). rewrite ?CO, ?CT, ?CU in *.
  assert (RS : forall n m4' m3', (if (match n with 0%nat => mx_r0 (c_sw c) | _ => mx_r1 (c_sw c) end) then process_ring out_l out_r c n m3' else Ok m3') = Ok m4' ->
    m_osc m4' = m_osc m3' /\ (c_wide c = false -> snd (m_t m4') = snd (m_t m3')) /\
    (forall i, fst (m_out m4') i = fst (m_out m3') i + heard (match n with 0%nat => mx_r0 (c_sw c) | _ => mx_r1 (c_sw c) end) (to_left (c_route c (3 + n))) (ring_part out_l c m4' i n)) /\
    (forall i, snd (m_out m4') i = snd (m_out m3') i + heard (match n with 0%nat => mx_r0 (c_sw c) | _ => mx_r1 (c_sw c) end) (to_right (c_route c (3 + n))) (if c_wide c then ring_part out_r c m4' i n else ring_part out_l c m4' i n))).
  { intros n m4' m3' E. destruct (match n with 0%nat => mx_r0 (c_sw c) | _ => mx_r1 (c_sw c) end).
    - destruct (ring_stage c n m3' m4' E) as (A & _ & B & C & D). unfold ring_part. rewrite A. auto.
    - assert (m4' = m3') as -> by congruence. unfold heard. cbn [andb]. do 2 (split; [auto|]). split; intros; lra. }
  destruct (RS 0%nat _ _ E4) as (O4 & S4 & L4 & R4). destruct (RS 1%nat _ _ E5) as (O5 & S5 & L5 & R5). clear RS.
  assert (N6 : m_osc m6 = m_osc m5 /\ (forall i, fst (m_out m6) i = fst (m_out m5) i + heard (mx_noise (c_sw c)) (to_left (c_route c 5)) (noise_part c nl i)) /\
    (forall i, snd (m_out m6) i = snd (m_out m5) i + heard (mx_noise (c_sw c)) (to_right (c_route c 5)) (if c_wide c then noise_part c nr i else snd (m_t m5) i))).
  { unfold m6. destruct (mx_noise (c_sw c)).
    - destruct (noise_stage c nl nr m5) as (A & _ & B & C). auto.
    - unfold heard. cbn [andb]. split; [auto|]. split; intros; lra. }
  destruct N6 as (O6 & L6 & R6). clearbody m6.
  assert (OO : m_osc m6 = m_osc m3) by congruence. rewrite OO.
  assert (P1 : m_osc m3 1%nat = m_osc m2 1%nat) by (apply K3; discriminate). assert (P2 : m_osc m3 2%nat = m_osc m1 2%nat) by (rewrite K3 by discriminate; apply K2; discriminate).
  assert (P22 : m_osc m2 2%nat = m_osc m1 2%nat) by (apply K2; discriminate). assert (P20 : m_osc m2 0%nat = m_osc m 0%nat) by (rewrite K2 by discriminate; rewrite K1 by discriminate; now rewrite I0).
  assert (P11 : m_osc m1 1%nat = m_osc m 1%nat) by (rewrite K1 by discriminate; now rewrite I0).
  split; [|split].
  - intros n Hn. assert (n = 0 \/ n = 1 \/ n = 2)%nat as [->|[->| ->]] by lia; cbn [gaten].
    + destruct (gate0 c) eqn:GG; [|now rewrite X3, P20]. destruct X3 as (o & o' & A & B & C). exists o, o', (modulator out_l c mm 0). rewrite <- P20. repeat split; try assumption.
      unfold modulator. rewrite CO, P1, P2, <- P22. destruct (c_fm c) eqn:FM; try reflexivity. now rewrite (CB eq_refl eq_refl).
    + destruct (gate1 c) eqn:GG; [|now rewrite P1, X2, P11]. destruct X2 as (o & o' & A & B & C). exists o, o', (modulator out_l c m1 1). rewrite P1, P2, <- P11. repeat split; try assumption.
    + destruct (gate2 c) eqn:GG; [|now rewrite P2, X1, I0]. destruct X1 as (o & o' & A & B & C). exists o, o', (modulator out_l c m0 2). rewrite P2, <- I0. repeat split; try assumption.
  - intros i. unfold amplify. f_equal. rewrite L6, L5, L4, L3, L2, L1, OL. unfold zero_blk, mix_sum, enabled.
    assert (Q : forall n, osc_part out_l c m6 i n = osc_part out_l c m3 i n) by (intros; unfold osc_part; now rewrite OO).
    assert (Q2 : forall n, ring_part out_l c m6 i n = ring_part out_l c m3 i n) by (intros; unfold ring_part; now rewrite OO).
    assert (Q5 : ring_part out_l c m5 i 1 = ring_part out_l c m3 i 1) by (unfold ring_part; rewrite O5, O4; reflexivity). assert (Q4' : ring_part out_l c m4 i 0 = ring_part out_l c m3 i 0) by (unfold ring_part; rewrite O4; reflexivity).
    assert (QA : osc_part out_l c m2 i 1 = osc_part out_l c m3 i 1) by (unfold osc_part; rewrite P1; reflexivity). assert (QB : osc_part out_l c m1 i 2 = osc_part out_l c m3 i 2) by (unfold osc_part; rewrite P2; reflexivity).
    unfold osc_part, ring_part in *. cbn [m_osc] in *. rewrite OO in *. rewrite Q5, Q4', QA, QB. cbn [Nat.add]. ring.
  - intros i. unfold amplify. f_equal. rewrite R6, R5, R4, R3, R2, R1, OR. unfold zero_blk, mix_sum, enabled.
    assert (Z0 : c_wide c = false -> snd (m_t m0) i = 0 /\ snd (m_t m1) i = 0 /\ snd (m_t m2) i = 0 /\ snd (m_t m5) i = 0).
    { intros W. rewrite (S5 W), (S4 W), (S3 W), (S2 W), (S1 W), T0. repeat split. }
    assert (Q5 : ring_part out_l c m5 i 1 = ring_part out_l c m3 i 1 /\ ring_part out_r c m5 i 1 = ring_part out_r c m3 i 1) by (unfold ring_part; rewrite O5, O4; split; reflexivity).
    assert (Q4' : ring_part out_l c m4 i 0 = ring_part out_l c m3 i 0 /\ ring_part out_r c m4 i 0 = ring_part out_r c m3 i 0) by (unfold ring_part; rewrite O4; split; reflexivity).
    assert (QA : osc_part out_r c m2 i 1 = osc_part out_r c m3 i 1) by (unfold osc_part; rewrite P1; reflexivity). assert (QB : osc_part out_r c m1 i 2 = osc_part out_r c m3 i 2) by (unfold osc_part; rewrite P2; reflexivity).
    destruct Q5 as [Q5 Q5']. destruct Q4' as [Q4' Q4'']. unfold osc_part, ring_part in *. cbn [m_osc] in *. rewrite OO in *. rewrite Q5, Q5', Q4', Q4'', QA, QB. cbn [Nat.add].
    destruct (c_wide c) eqn:W; [ring|]. destruct (Z0 eq_refl) as (-> & -> & -> & ->). ring.
Qed.
End Mix.

(* In a wide configuration the mixer is what its parameters say: left (filter 1) and right (filter 2) are the sums of every enabled source
   routed there, each at its level, times the last gain. *)
Theorem C193_wide : forall O (step : nat -> option blk -> O -> res O) out_l out_r c nl nr m m', c_wide c = true -> mix_block step out_l out_r c nl nr m = Ok m' ->
  forall i, fst (m_out m') i = mix_sum c to_left (osc_part out_l c m' i) (ring_part out_l c m' i) (noise_part c nl i) * gain8 arithR (lv_pfg (c_lev c)) i /\
    snd (m_out m') i = mix_sum c to_right (osc_part out_r c m' i) (ring_part out_r c m' i) (noise_part c nr i) * gain8 arithR (lv_pfg (c_lev c)) i.
Proof.
  intros O step out_l out_r c nl nr m m' W H i. destruct (mix_inv step out_l out_r c nl nr m m' H) as (_ & A & B). split; [apply A|]. rewrite B, W. reflexivity.
Qed.
(* Otherwise only the way to filter 1 is right ... *)
Theorem C193_narrow_partial : forall O (step : nat -> option blk -> O -> res O) out_l out_r c nl nr m m', c_wide c = false -> mix_block step out_l out_r c nl nr m = Ok m' ->
  forall i, fst (m_out m') i = mix_sum c to_left (osc_part out_l c m' i) (ring_part out_l c m' i) (noise_part c nl i) * gain8 arithR (lv_pfg (c_lev c)) i.
Proof. intros O step out_l out_r c nl nr m m' W H i. destruct (mix_inv step out_l out_r c nl nr m m' H) as (_ & A & _). apply A. Qed.
(* ... REFUTED: filter 2 should get the (mono) sources routed to it, but it gets the ring modulators only *)
Theorem C193_narrow_refuted : forall O (step : nat -> option blk -> O -> res O) out_l out_r c nl nr m m', c_wide c = false -> mix_block step out_l out_r c nl nr m = Ok m' ->
  forall i, snd (m_out m') i = (heard (mx_r0 (c_sw c)) (to_right (c_route c 3)) (ring_part out_l c m' i 0) +
    heard (mx_r1 (c_sw c)) (to_right (c_route c 4)) (ring_part out_l c m' i 1)) * gain8 arithR (lv_pfg (c_lev c)) i.
Proof.
  intros O step out_l out_r c nl nr m m' W H i. destruct (mix_inv step out_l out_r c nl nr m m' H) as (_ & _ & B). rewrite B, W. unfold mix_sum.
  replace (heard (mx_o0 (c_sw c)) (to_right (c_route c 0)) 0) with 0 by (unfold heard; now destruct (_ && _)).
  replace (heard (mx_o1 (c_sw c)) (to_right (c_route c 1)) 0) with 0 by (unfold heard; now destruct (_ && _)).
  replace (heard (mx_o2 (c_sw c)) (to_right (c_route c 2)) 0) with 0 by (unfold heard; now destruct (_ && _)).
  replace (heard (mx_noise (c_sw c)) (to_right (c_route c 5)) 0) with 0 by (unfold heard; now destruct (_ && _)). ring.
Qed.
(* In the serial configurations "both" means filter 1 only (filter 2 comes after it); nothing else is rerouted. *)
Theorem C193_routes : forall cfg r, (In cfg [Serial1; Serial2; Serial3] -> calc_route cfg 1 = 0%Z) /\ (r <> 1%Z \/ ~ In cfg [Serial1; Serial2; Serial3] -> calc_route cfg r = r).
Proof.
  intros cfg r. split; [destruct cfg; cbn; intuition discriminate|]. intros H. destruct cfg; cbn; try reflexivity;
  (destruct (r =? 1)%Z eqn:E; [|reflexivity]; destruct H as [H|H]; [lia|exfalso; apply H; cbn; tauto]).
Qed.
(* Levels: the level reached when a parameter rests is its cube (0 for negative values) for the six sources ... *)
Theorem C193_levels_partial : forall db v l i, (0 <= i)%Z ->
  let l2 := calc_levels db v (calc_levels db v l) in
  gain8 arithR (lv_o0 l2) i = amp_to_linearR (lv_o0 v) /\ gain8 arithR (lv_o1 l2) i = amp_to_linearR (lv_o1 v) /\ gain8 arithR (lv_o2 l2) i = amp_to_linearR (lv_o2 v) /\
  gain8 arithR (lv_noise l2) i = amp_to_linearR (lv_noise v) /\ gain8 arithR (lv_r12 l2) i = amp_to_linearR (lv_r12 v) /\ gain8 arithR (lv_r23 l2) i = amp_to_linearR (lv_r23 v) /\
  (* ... and REFUTED for the pre-filter gain: it follows the noise level, in decibels, whatever the parameter lv_pfg is *)
  gain8 arithR (lv_pfg l2) i = db (lv_noise v).
Proof.
  intros db v l i Hi l2.
  assert (X : forall (p : lipolps R) t, gain8 arithR (ps_set_target (ps_set_target p t) t) i = t).
  { intros p t. unfold gain8, rampreg, ps_initblock, ps_set_target. cbn [fst snd ps_target ps_current ps_bs4_inv].
    destruct (Z.even (i / 4)); unfold vadd, vmul, set1; cbn [ar_add ar_mul ar_sub arithR]; ring. }
  unfold l2, calc_levels. cbn [lv_o0 lv_o1 lv_o2 lv_noise lv_r12 lv_r23 lv_pfg]. repeat (split; [apply X|]). apply X.
Qed.
Theorem C193_pfg_refuted : forall db v v' l, lv_noise v = lv_noise v' -> lv_pfg (calc_levels db v l) = lv_pfg (calc_levels db v' l).
Proof. intros db v v' l H. unfold calc_levels. cbn [lv_pfg]. now rewrite H. Qed.
(* REFUTED: the noise has no colour: a sample depends on its own draw only, and on the colour only through the loudness, which is the same
   for opposite colours *)
Theorem C193_noise_colour_refuted : forall rsq colour draw draw' i, draw (i / 2)%Z = draw' (i / 2)%Z ->
  noise_block rsq colour draw i = noise_block rsq colour draw' i /\ noise_block rsq (- colour) draw i = noise_block rsq colour draw i /\
  noise_block rsq colour draw i = draw (i / 2)%Z * noise_block rsq colour (fun _ => 1) 0%Z.
Proof.
  intros rsq colour draw draw' i H. unfold noise_block. rewrite !noise_uncorrelated, H.
  assert (A : Rabs (limit_range_R (- colour) (-1) 1) = Rabs (limit_range_R colour (-1) 1)).
  { rewrite <- (Rabs_Ropp (limit_range_R colour (-1) 1)). f_equal. unfold limit_range_R, Rmin, Rmax. repeat destruct (Rle_dec _ _); lra. }
  rewrite A. cbv zeta. split; [reflexivity|]. split; [reflexivity|ring].
Qed.
(* one oscillator, unit outputs, left only *)
Definition sw_one : mixsw bool := {| mx_o0 := true; mx_o1 := false; mx_o2 := false; mx_noise := false; mx_r0 := false; mx_r1 := false |}.
Definition cfg_one (wide : bool) (route : Z) : mixcfg := mk_mc wide FmOff sw_one (fun _ => route) levels_new.
Example C193_nonvacuous : forall wide, exists m', mix_block (fun _ _ (o : R) => Ok o) (fun o _ => o) (fun o _ => o) (cfg_one wide 2) zero_blk zero_blk
  (mk_mx (fun _ => Some 1) zero_blk (zero_blk, zero_blk) (zero_blk, zero_blk)) = Ok m'.
Proof. intros wide. eexists. destruct wide; reflexivity. Qed.

(** ** C194 hand-over of a voice's block to its lane *)
Definition lane_of (mem : Z -> R) (k j : Z) : R := mem (4 * k + j)%Z.
Lemma store_fold e out l : forall mem a, fold_left (store_ss e out) l mem a = fold_left (fun v i => if (a =? 4 * (i + e))%Z then out i else v) l (mem a).
Proof. induction l as [|i l IH]; intros mem a; [reflexivity|]. cbn [fold_left]. rewrite IH. reflexivity. Qed.
Lemma fold_hit (f : Z -> R) (P : Z -> bool) l : forall v, (forall i, In i l -> P i = false) -> fold_left (fun v i => if P i then f i else v) l v = v.
Proof. induction l as [|x l IH]; intros v H; [reflexivity|]. cbn [fold_left]. rewrite (H x) by (now left). apply IH. intros i Hi. apply H. now right. Qed.
Lemma in_idx i n : In i (map Z.of_nat (seq 0 n)) <-> (0 <= i < Z.of_nat n)%Z.
Proof. rewrite in_map_iff. split; [intros (k & <- & H); apply in_seq in H; lia|intros H; exists (Z.to_nat i); rewrite in_seq; lia]. Qed.
Theorem C194_store : forall e out mem a, (0 <= e)%Z ->
  store_block e out mem a = if ((a mod 4 =? 0) && (e <=? a / 4) && (a / 4 <? e + 64))%Z then out (a / 4 - e)%Z else mem a.
Proof.
  intros e out mem a He. unfold store_block. rewrite store_fold.
  assert (X : forall n, fold_left (fun v i => if (a =? 4 * (i + e))%Z then out i else v) (map Z.of_nat (seq 0 n)) (mem a) =
    if ((a mod 4 =? 0) && (e <=? a / 4) && (a / 4 <? e + Z.of_nat n))%Z then out (a / 4 - e)%Z else mem a).
  { induction n as [|n IH]; [cbn [seq map fold_left]; destruct ((a mod 4 =? 0) && (e <=? a / 4) && (a / 4 <? e + Z.of_nat 0))%Z eqn:E; [lia|reflexivity]|].
    rewrite seq_S, map_app, fold_left_app, IH. cbn [map fold_left Nat.add]. destruct (a =? 4 * (Z.of_nat n + e))%Z eqn:E.
    - replace (a / 4 - e)%Z with (Z.of_nat n) by lia. destruct ((a mod 4 =? 0) && (e <=? a / 4) && (a / 4 <? e + Z.of_nat (Datatypes.S n)))%Z eqn:E2; [reflexivity|lia].
    - destruct ((a mod 4 =? 0) && (e <=? a / 4) && (a / 4 <? e + Z.of_nat n))%Z eqn:E1, ((a mod 4 =? 0) && (e <=? a / 4) && (a / 4 <? e + Z.of_nat (Datatypes.S n)))%Z eqn:E2; try reflexivity; lia. }
  rewrite (X 64%nat). reflexivity.
Qed.
(* the first voice of a quad is stored where it belongs: sample k in lane 0 of quad k, nothing else touched *)
Theorem C194_first_voice_partial : forall out mem k j, (0 <= k < 64)%Z -> (0 <= j < 4)%Z ->
  lane_of (store_block 0 out mem) k j = if (j =? 0)%Z then out k else lane_of mem k j.
Proof.
  intros out mem k j Hk Hj. unfold lane_of. rewrite C194_store by lia. replace ((4 * k + j) mod 4)%Z with j by lia. replace ((4 * k + j) / 4)%Z with k by lia.
  destruct (j =? 0)%Z; cbn [andb]; [|reflexivity]. replace (0 <=? k)%Z with true by lia. replace (k <? 0 + 64)%Z with true by lia. cbn [andb]. f_equal. lia.
Qed.
(* REFUTED for the others: lane e is never written, voice e lands e samples late in lane 0, over the voices before it, and its last e samples are
   written past the end of the array *)
Theorem C194_other_voices_refuted : forall e out mem, (1 <= e < 4)%Z ->
  (forall k j, (0 <= k < 64)%Z -> (1 <= j < 4)%Z -> lane_of (store_block e out mem) k j = lane_of mem k j) /\
  (forall k, (e <= k < 64)%Z -> lane_of (store_block e out mem) k 0 = out (k - e)%Z) /\
  (forall k, (64 <= k < 64 + e)%Z -> lane_of (store_block e out mem) k 0 = out (k - e)%Z).
Proof.
  intros e out mem He. split; [|split]; intros k; [intros j Hk Hj|intros Hk|intros Hk]; unfold lane_of; rewrite C194_store by lia.
  - replace ((4 * k + j) mod 4 =? 0)%Z with false by lia. reflexivity.
  - replace ((4 * k + 0) mod 4)%Z with 0%Z by lia. replace ((4 * k + 0) / 4)%Z with k by lia. replace (e <=? k)%Z with true by lia. replace (k <? e + 64)%Z with true by lia. reflexivity.
  - replace ((4 * k + 0) mod 4)%Z with 0%Z by lia. replace ((4 * k + 0) / 4)%Z with k by lia. replace (e <=? k)%Z with true by lia. replace (k <? e + 64)%Z with true by lia. reflexivity.
Qed.
(* four voices: of every quad only the last voice is left (the first ones in the first three samples), in the first voice's lane *)
Theorem C194_four_voices_refuted : forall o0 o1 o2 o3 mem k, (0 <= k < 64)%Z ->
  let m := store_voices [(0%Z, o0); (1%Z, o1); (2%Z, o2); (3%Z, o3)] mem in
  lane_of m k 0 = (if (k =? 0)%Z then o0 0%Z else if (k =? 1)%Z then o1 0%Z else if (k =? 2)%Z then o2 0%Z else o3 (k - 3)%Z) /\
  forall j, (1 <= j < 4)%Z -> lane_of m k j = lane_of mem k j.
Proof.
  intros o0 o1 o2 o3 mem k Hk m. unfold m, store_voices, lane_of. cbn [fold_left fst snd]. split.
  - rewrite !C194_store by lia. replace ((4 * k + 0) mod 4)%Z with 0%Z by lia. replace ((4 * k + 0) / 4)%Z with k by lia. cbn [Z.eqb andb].
    destruct (k =? 0)%Z eqn:E0; [assert (k = 0)%Z as -> by lia; reflexivity|]. destruct (k =? 1)%Z eqn:E1; [assert (k = 1)%Z as -> by lia; reflexivity|].
    destruct (k =? 2)%Z eqn:E2; [assert (k = 2)%Z as -> by lia; reflexivity|]. replace (3 <=? k)%Z with true by lia. replace (k <? 3 + 64)%Z with true by lia. reflexivity.
  - intros j Hj. rewrite !C194_store by lia. replace ((4 * k + j) mod 4 =? 0)%Z with false by lia. reflexivity.
Qed.
Example C194_nonvacuous : lane_of (store_block 1 (fun _ => 7) (fun _ => 0)) 5 1 = 0 /\ lane_of (store_block 1 (fun _ => 7) (fun _ => 0)) 5 0 = 7.
Proof.
  destruct (C194_other_voices_refuted 1 (fun _ => 7) (fun _ => 0) ltac:(lia)) as (A & B & _). split; [rewrite (A 5%Z 1%Z ltac:(lia) ltac:(lia)); reflexivity|apply B; lia].
Qed.

(** ** C195 life of a voice *)
(* ages count blocks (all, and since the release); the voice plays until the first block in which its amplitude envelope is idle, and never again *)
Fixpoint keeps (h : list (bool * bool)) : list bool := match h with [] => [] | (_, i) :: r => (if i then repeat false (Datatypes.S (length r)) else true :: keeps r) end.
Lemma life_run_gen h : forall a r k, (0 <= r <= a)%Z -> (a + Z.of_nat (length h) <= 2147483647)%Z ->
  life_run (mk_life a r k) h = Ok (mk_life (a + Z.of_nat (length h)) (r + Z.of_nat (length (filter (fun p => negb (fst p)) h))) (k && forallb (fun p => negb (snd p)) h),
    if k then keeps h else repeat false (length h)).
Proof.
  induction h as [|[g i] h IH]; intros a r k Hr Hl.
  - cbn. rewrite !Z.add_0_r, andb_true_r. destruct k; reflexivity.
  - cbn [length] in Hl. cbn [life_run]. unfold life_block. cbn [lf_age lf_agerel lf_keep]. unfold i32, i32_min, i32_max.
    replace ((-2147483648 <=? a + 1) && (a + 1 <=? 2147483647))%Z with true by lia. cbn [obind].
    destruct g; [|replace ((-2147483648 <=? r + 1) && (r + 1 <=? 2147483647))%Z with true by lia]; cbn [obind]; rewrite IH by lia;
    cbn [obind filter fst snd forallb length negb]; f_equal; (apply f_equal2; [f_equal; first [lia|destruct i, k; reflexivity]|cbn [keeps repeat]; destruct i, k; reflexivity]).
Qed.
Theorem C195_life : forall h, (Z.of_nat (length h) <= 2147483647)%Z -> exists s ks, life_run life_new h = Ok (s, ks) /\
  lf_age s = Z.of_nat (length h) /\ lf_agerel s = Z.of_nat (length (filter (fun p => negb (fst p)) h)) /\ length ks = length h /\
  forall n, (n < length h)%nat -> nth n ks false = true <-> (forall j, (j <= n)%nat -> snd (nth j h (true, false)) = false).
Proof.
  intros h Hl. unfold life_new. rewrite life_run_gen by lia. eexists. eexists. split; [reflexivity|]. cbn [lf_age lf_agerel]. do 2 (split; [lia|]).
  clear Hl. split.
  - induction h as [|[g i] h IH]; [reflexivity|]. cbn [keeps length]. destruct i; [now rewrite repeat_length|]. cbn [length]. now rewrite IH.
  - induction h as [|[g i] h IH]; intros n Hn; [cbn in Hn; lia|]. cbn [keeps]. destruct i.
    + split; [|intros H; specialize (H 0%nat ltac:(lia)); discriminate]. intros H. exfalso. assert (Q : forall q n, nth n (repeat false q) false = false) by (induction q; destruct n0; cbn; auto). rewrite Q in H. discriminate.
    + destruct n as [|n]; cbn [nth].
      * split; [|reflexivity]. intros _ j Hj. replace j with 0%nat by lia. reflexivity.
      * cbn [length] in Hn. rewrite (IH n) by lia. split; intros H j Hj; [destruct j as [|j]; [reflexivity|]; cbn [nth]; apply H; lia|]. specialize (H (Datatypes.S j)). cbn [nth] in H. apply H. lia.
Qed.
(* REFUTED as shipped: no voice can be made (default_pitch) and no block played (the tempo-sync ratio every block asks for) *)
Theorem C195_shipped_refuted : shipped_default_pitch = Panic /\ forall rate ts s, update_portamento shipped_temposyncratio rate ts s = Panic.
Proof. split; reflexivity. Qed.
Example C195_nonvacuous : life_run life_new [(true, false); (false, false); (false, true); (false, false)] = Ok (mk_life 4 3 false, [true; true; false; false]).
Proof. reflexivity. Qed.

(** ** C196 which oscillators run *)
(* the oscillators a block needs: those heard, those ring modulation multiplies, and the modulators of those *)
Definition fm_into (f : fmconfig) (from to : nat) : Prop :=
  match f with FmOff => False | Fm1to0 => from = 1%nat /\ to = 0%nat | Fm2to1to0 => (from = 1 /\ to = 0)%nat \/ (from = 2 /\ to = 1)%nat | Fm12to0 => (from = 1 \/ from = 2)%nat /\ to = 0%nat end.
Inductive needed (c : mixcfg) : nat -> Prop :=
| need_heard n : (n < 3)%nat -> enabled c n = true -> needed c n
| need_ring0 n : mx_r0 (c_sw c) = true -> (n = 0 \/ n = 1)%nat -> needed c n
| need_ring1 n : mx_r1 (c_sw c) = true -> (n = 1 \/ n = 2)%nat -> needed c n
| need_fm n k : needed c n -> fm_into (c_fm c) k n -> needed c k.
(* ring 1x2 alone, with frequency modulation by oscillator 3 into it *)
Definition stale (c : mixcfg) : bool :=
  mx_r0 (c_sw c) && negb (mx_o0 (c_sw c)) && negb (mx_o2 (c_sw c)) && negb (mx_r1 (c_sw c)) && (fm_is_12to0 (c_fm c) || (fm_is_2to1to0 (c_fm c) && negb (mx_o1 (c_sw c)))).
Ltac dsw c := destruct c as [w f [a0 a1 a2 az r0 r1] rt lv]; cbn [c_sw c_fm mx_o0 mx_o1 mx_o2 mx_noise mx_r0 mx_r1] in *.
Theorem C196_gates_partial : forall c n, (n < 3)%nat -> stale c = false -> (gaten c n = true <-> needed c n).
Proof.
  intros c n Hn St. split.
  - intros G. assert (n = 0 \/ n = 1 \/ n = 2)%nat as [->|[->| ->]] by lia; cbn [gaten] in G; unfold gate0, gate1, gate2, fm_on, fm_is_2to1to0, fm_is_12to0 in G.
    + destruct (mx_o0 (c_sw c)) eqn:A; [apply need_heard; [lia|exact A]|]. apply need_ring0; [exact G|auto].
    + destruct (mx_o1 (c_sw c)) eqn:A; [apply need_heard; [lia|exact A]|]. destruct (mx_r0 (c_sw c)) eqn:B; [apply need_ring0; auto|]. destruct (mx_r1 (c_sw c)) eqn:D; [apply need_ring1; auto|].
      cbn in G. apply andb_true_iff in G. destruct G as [G1 G2]. apply (need_fm c 0); [apply need_heard; [lia|exact G2]|]. destruct (c_fm c); try discriminate; cbn; auto.
    + destruct (mx_o2 (c_sw c)) eqn:A; [apply need_heard; [lia|exact A]|]. destruct (mx_r1 (c_sw c)) eqn:D; [apply need_ring1; auto|]. cbn in G.
      destruct (c_fm c) eqn:FM; cbn in G; rewrite ?andb_false_r, ?andb_true_r, ?orb_false_r in G; try discriminate.
      * apply (need_fm c 1); [|rewrite FM; cbn; auto]. destruct (mx_o1 (c_sw c)) eqn:B; [apply need_heard; [lia|exact B]|]. destruct (mx_o0 (c_sw c)) eqn:B0; [|discriminate].
        apply (need_fm c 0); [apply need_heard; [lia|exact B0]|rewrite FM; cbn; auto].
      * apply (need_fm c 0); [apply need_heard; [lia|exact G]|rewrite FM; cbn; auto].
  - intros N. clear Hn. induction N as [n Hn E|n E Hn|n E Hn|n k N IH F].
    + assert (n = 0 \/ n = 1 \/ n = 2)%nat as [->|[->| ->]] by lia; cbn [enabled] in E; cbn [gaten]; unfold gate0, gate1, gate2; rewrite E; rewrite ?orb_true_r; reflexivity.
    + destruct Hn as [->| ->]; cbn [gaten]; unfold gate0, gate1; rewrite E, ?orb_true_r; reflexivity.
    + destruct Hn as [->| ->]; cbn [gaten]; unfold gate1, gate2; rewrite E, ?orb_true_r; reflexivity.
    + unfold stale in St. dsw c. unfold gaten, gate0, gate1, gate2, fm_on, fm_is_2to1to0, fm_is_12to0 in *. cbn [c_sw c_fm mx_o0 mx_o1 mx_o2 mx_noise mx_r0 mx_r1] in *.
      destruct f; cbn [fm_into] in F; try contradiction.
      * destruct F as [-> ->]. destruct a0, a1, r0, r1; try reflexivity; discriminate.
      * destruct F as [[-> ->]|[-> ->]]; destruct a0, a1, a2, r0, r1; try reflexivity; discriminate.
      * destruct F as [[->| ->] ->]; destruct a0, a1, a2, r0, r1; try reflexivity; discriminate.
Qed.
(* REFUTED in the stale case: oscillator 3 is needed and does not run; its modulation is that of an old block *)
Theorem C196_stale_refuted : forall c, stale c = true -> needed c 2 /\ gaten c 2 = false.
Proof.
  intros c St. split.
  - unfold stale in St. repeat (apply andb_true_iff in St; destruct St as [St ?]). destruct (c_fm c) eqn:FM; cbn in H; rewrite ?orb_false_r in H; try discriminate.
    + apply (need_fm c 1); [apply need_ring0; auto|rewrite FM; cbn; auto].
    + apply (need_fm c 0); [apply need_ring0; auto|rewrite FM; cbn; auto].
  - unfold stale in St. dsw c. unfold gaten, gate2, fm_is_2to1to0, fm_is_12to0 in *. cbn [c_sw c_fm mx_o0 mx_o1 mx_o2 mx_noise mx_r0 mx_r1] in *. destruct f, a0, a1, a2, r0, r1; try reflexivity; discriminate.
Qed.
(* An oscillator that runs is modulated by what its modulator put out in this same block; one that does not run keeps its state. *)
Theorem C196_modulators : forall O (step : nat -> option blk -> O -> res O) out_l out_r c nl nr m m', mix_block step out_l out_r c nl nr m = Ok m' ->
  (forall n, (n < 3)%nat -> gaten c n = false -> m_osc m' n = m_osc m n) /\
  (forall n, (n < 3)%nat -> gaten c n = true -> exists o o' md, m_osc m n = Some o /\ step n md o = Ok o' /\ m_osc m' n = Some o' /\
     ((forall k, ~ fm_into (c_fm c) k n) -> md = None) /\
     (forall i k, (forall j, fm_into (c_fm c) j n <-> j = k) -> option_map (fun b => b i) md = option_map (fun x => out_l x i) (m_osc m' k)) /\
     (forall i, n = 0%nat -> c_fm c = Fm12to0 -> option_map (fun b => b i) md = Some (sample out_l (m_osc m' 1%nat) i + sample out_l (m_osc m' 2%nat) i))).
Proof.
  intros O step out_l out_r c nl nr m m' H. destruct (mix_inv step out_l out_r c nl nr m m' H) as (A & _ & _). split; intros n Hn G; specialize (A n Hn); rewrite G in A; [exact A|].
  destruct A as (o & o' & md & A1 & A2 & A3 & E). exists o, o', md. do 3 (split; [assumption|]). subst md. split; [|split].
  - intros N. assert (n = 0 \/ n = 1 \/ n = 2)%nat as [->|[->| ->]] by lia; destruct (c_fm c); cbn [fm_into] in N; try reflexivity; exfalso.
    + apply (N 1%nat). auto.
    + apply (N 1%nat). auto.
    + apply (N 1%nat). auto.
    + apply (N 2%nat). auto.
  - intros i k N. assert (n = 0 \/ n = 1 \/ n = 2)%nat as [->|[->| ->]] by lia; destruct (c_fm c); cbn [fm_into] in N; try (exfalso; pose proof (proj2 (N k) eq_refl); lia || tauto).
    + replace k with 1%nat by (apply N; auto). destruct (m_osc m' 1%nat); reflexivity.
    + replace k with 1%nat by (apply N; auto). destruct (m_osc m' 1%nat); reflexivity.
    + exfalso. assert (1%nat = k) by (apply N; auto). assert (2%nat = k) by (apply N; auto). lia.
    + replace k with 2%nat by (apply N; auto). destruct (m_osc m' 2%nat); reflexivity.
  - intros i -> F. rewrite F. reflexivity.
Qed.
(* REFUTED: oscillators the patch does not need must still exist: with oscillator 1 sounding, a block panics as soon as oscillator 2 or 3 is of a
   type that makes none *)
Theorem C196_missing_refuted : forall O (step : nat -> option blk -> O -> res O) out_l out_r c nl nr m, gate0 c = true -> (m_osc m 1%nat = None \/ m_osc m 2%nat = None) ->
  forall m', mix_block step out_l out_r c nl nr m <> Ok m'.
Proof.
  intros O step out_l out_r c nl nr m G N m' H. pose proof (mix_inv step out_l out_r c nl nr m m' H) as (A & _). unfold mix_block in H. cbv zeta in H. rewrite G in H.
  apply obind_inv in H. destruct H as (m1 & E1 & H). apply obind_inv in H. destruct H as (m2 & E2 & H). apply obind_inv in H. destruct H as (m3 & E3 & _).
  destruct (gate_impl c) as (G2 & G1 & _). destruct (osc_stage_gated step out_l out_r c 2 _ _ _ G2 E1) as (K1 & _ & _ & X1 & _). destruct (osc_stage_gated step out_l out_r c 1 _ _ _ G1 E2) as (K2 & _ & _ & X2 & _).
  unfold process_carrier in E3. destruct (m_osc m2 1%nat) as [a|] eqn:B1; [|discriminate]. destruct (m_osc m2 2%nat) as [b|] eqn:B2; [|discriminate].
  destruct N as [N|N].
  - destruct (gate1 c); [destruct X2 as (o & o' & Q & _); rewrite K1 in Q by discriminate; cbn [m_osc] in Q; congruence|]. rewrite K1 in X2 by discriminate. cbn [m_osc] in X2. congruence.
  - rewrite K2 in B2 by discriminate. destruct (gate2 c); [destruct X1 as (o & o' & Q & _); cbn [m_osc] in Q; congruence|]. cbn [m_osc] in X1. congruence.
Qed.
(* ... and two types make none: *)
Theorem C196_no_object_refuted : forall t, spawn_osc t = None <-> t = OtOff \/ t = OtAbstractBlit.
Proof. intros t. split; [destruct t; try discriminate; auto|intros [->| ->]; reflexivity]. Qed.
(* Changing a type swaps the object, and initialises it if the oscillator was enabled before *)
Theorem C196_toggle : forall enable want s, os_type s <> want -> os_type (toggle_osc1 enable want s) = want /\ os_obj (toggle_osc1 enable want s) = spawn_osc want /\
  (os_inited (toggle_osc1 enable want s) = true <-> enable = true /\ spawn_osc want <> None).
Proof.
  intros enable want s N. unfold toggle_osc1. destruct (osctype_eqb (os_type s) want) eqn:E; [exfalso; apply N; destruct (os_type s), want; try discriminate; reflexivity|].
  cbn. split; [reflexivity|]. split; [reflexivity|]. destruct enable, (spawn_osc want); cbn; intuition congruence.
Qed.
(* REFUTED: which is never so for a new voice: no oscillator of a new voice is ever initialised, whatever is switched on (and an Off oscillator
   keeps the sine object it was made with) *)
Theorem C196_new_voice_refuted : forall w0 w1 w2 solo mute, let s := toggle_oscs (w0, w1, w2) solo mute oslots_new in
  ol_sw s = maybe_toggle_solo solo mute /\
  Forall (fun p => os_inited (fst p) = false /\ os_type (fst p) = snd p /\ os_obj (fst p) = match snd p with OtOff => Some OtSine | t => spawn_osc t end) [(ol0 s, w0); (ol1 s, w1); (ol2 s, w2)].
Proof.
  intros w0 w1 w2 solo mute s. split; [reflexivity|]. unfold s, toggle_oscs, oslots_new, toggle_osc1. cbn [ol0 ol1 ol2 ol_sw oslot_new os_type sw_off mx_o0 mx_o1 mx_o2].
  repeat (constructor; [cbn [fst snd]; match goal with |- context [osctype_eqb OtOff ?w] => destruct w; repeat split end|]). constructor.
Qed.
Definition sw_ring : mixsw bool := {| mx_o0 := false; mx_o1 := false; mx_o2 := false; mx_noise := false; mx_r0 := true; mx_r1 := false |}.
Example C196_nonvacuous : stale (mk_mc true Fm12to0 sw_ring (fun _ => 0%Z) levels_new) = true /\ stale (cfg_one true 0) = false /\ gate0 (cfg_one true 0) = true.
Proof. repeat split. Qed.
Print Assumptions C193_wide. Print Assumptions C194_store. Print Assumptions C196_modulators. Print Assumptions C195_life.
