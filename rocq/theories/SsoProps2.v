(* SsoProps2.v - C235-C238: positions, heights and frequency of the super oscillator's impulses; mean level; termination; hard sync. *)
From Coq Require Import Reals ZArith List Lia Lra Psatz.
From Verif Require Import Base Util ParamModel LagModel TuneModel TuneProps SsoModel SsoProofs SsoProps.
Import ListNotations.
Local Open Scope R_scope.

(** ** C235: an undisturbed oscillator is exactly periodic *)
(* the heights of the four steps *)
Definition tg (c : sso_cfg) : R := ((1 + c_wf c) / 2 - (1 - c_pw c) * c_wf c) * (1 - c_sub c) + c_sub c * (1 - c_pw2 c).
Definition height (c : sso_cfg) (k : nat) : R :=
  match k with O => 1 - c_sub c | 1%nat => c_wf c * (1 - c_sub c) - c_sub c | 2%nat => 1 - c_sub c | _ => c_wf c * (1 - c_sub c) + c_sub c end.
(* level just before step k of a cycle, in the steady state *)
Definition lev (c : sso_cfg) (k : nat) : R :=
  let s := (1 + c_wf c) * (1 - c_sub c) in
  match k with O => tg c - (1 - c_sub c) | _ => tg c + (match k with 2%nat => height c 1 | 3%nat => height c 1 + height c 2 | _ => 0 end) - cum (c_pw c) (2 * c_pw2 c) k * s end.
Definition PosC (c : sso_cfg) (p0 : R) (k : nat) : R := Pos (c_t c) (c_pw c) (2 * c_pw2 c) p0 k.

(* the voice is about to play step k *)
Definition at_step (c : sso_cfg) (p0 y0 : R) (k : nat) (A : R) (w : sso_voice) : Prop :=
  A + w_osc w = PosC c p0 k /\ w_state w = Z.of_nat (k mod 4) /\
  ((k mod 4 <> 0)%nat -> w_pw w = c_pw c /\ w_pw2 w = 2 * c_pw2 c) /\
  w_last w = if Nat.eqb k 0 then y0 else lev c (k mod 4).

Lemma mod4_cases : forall k, exists m, k = (4 * m)%nat \/ k = (4 * m + 1)%nat \/ k = (4 * m + 2)%nat \/ k = (4 * m + 3)%nat.
Proof. intros k. exists (k / 4)%nat. pose proof (Nat.div_mod k 4 ltac:(lia)). pose proof (Nat.mod_upper_bound k 4 ltac:(lia)). lia. Qed.
Lemma divmod4 : forall m j, (j < 4)%nat -> ((4 * m + j) / 4 = m /\ (4 * m + j) mod 4 = j)%nat.
Proof. intros m j H. split; [symmetry; apply (Nat.div_unique _ _ _ j); lia|symmetry; apply (Nat.mod_unique _ _ m); lia]. Qed.
Lemma Pos0 : forall t p q p0 m, Pos t p q p0 (4 * m) = p0 + 2 * t * INR m.
Proof. intros. pose proof (divmod4 m 0 ltac:(lia)) as [D M]. rewrite Nat.add_0_r in *. unfold Pos. rewrite D, M. cbn [cum]. ring. Qed.
Lemma Pos_j : forall t p q p0 m j, (j < 4)%nat -> Pos t p q p0 (4 * m + j) = p0 + 2 * t * INR m + t * cum p q j.
Proof. intros t p q p0 m j H. destruct (divmod4 m j H) as [D M]. unfold Pos. rewrite D, M. reflexivity. Qed.
Lemma Pos_step : forall t p q p0 k, Pos t p q p0 (Datatypes.S k) = Pos t p q p0 k + t * sso_rate 1 (Z.of_nat (k mod 4)) p q.
Proof.
  intros t p q p0 k. destruct (mod4_cases k) as (m & [H|[H|[H|H]]]); subst k.
  - replace (Datatypes.S (4 * m)) with (4 * m + 1)%nat by lia. rewrite Pos0, Pos_j by lia. replace (4 * m)%nat with (4 * m + 0)%nat at 1 by lia.
    rewrite (proj2 (divmod4 m 0 ltac:(lia))). cbn [Z.of_nat cum]. rewrite rate0. ring.
  - replace (Datatypes.S (4 * m + 1)) with (4 * m + 2)%nat by lia. rewrite !Pos_j by lia. rewrite (proj2 (divmod4 m 1 ltac:(lia))). cbn [cum]. change (Z.of_nat 1) with 1%Z. rewrite rate1. ring.
  - replace (Datatypes.S (4 * m + 2)) with (4 * m + 3)%nat by lia. rewrite !Pos_j by lia. rewrite (proj2 (divmod4 m 2 ltac:(lia))). cbn [cum]. change (Z.of_nat 2) with 2%Z. rewrite rate2. ring.
  - replace (Datatypes.S (4 * m + 3)) with (4 * (m + 1))%nat by lia. rewrite Pos0, Pos_j by lia. rewrite (proj2 (divmod4 m 3 ltac:(lia))). cbn [cum]. change (Z.of_nat 3) with 3%Z. rewrite rate3, plus_INR. cbn [INR]. ring.
Qed.
Lemma next_state : forall k, Z.land (Z.of_nat (k mod 4) + 1) 3 = Z.of_nat (Datatypes.S k mod 4).
Proof.
  intros k. destruct (mod4_cases k) as (m & [H|[H|[H|H]]]); subst k.
  - replace (Datatypes.S (4 * m)) with (4 * m + 1)%nat by lia. rewrite (proj2 (divmod4 m 1 ltac:(lia))). replace (4 * m)%nat with (4 * m + 0)%nat by lia. rewrite (proj2 (divmod4 m 0 ltac:(lia))). reflexivity.
  - replace (Datatypes.S (4 * m + 1)) with (4 * m + 2)%nat by lia. rewrite (proj2 (divmod4 m 1 ltac:(lia))), (proj2 (divmod4 m 2 ltac:(lia))). reflexivity.
  - replace (Datatypes.S (4 * m + 2)) with (4 * m + 3)%nat by lia. rewrite (proj2 (divmod4 m 2 ltac:(lia))), (proj2 (divmod4 m 3 ltac:(lia))). reflexivity.
  - replace (Datatypes.S (4 * m + 3)) with (4 * (m + 1) + 0)%nat by lia. rewrite (proj2 (divmod4 m 3 ltac:(lia))), (proj2 (divmod4 (m + 1) 0 ltac:(lia))). reflexivity.
Qed.

(* one step of the undisturbed oscillator *)
Definition heightC (c : sso_cfg) (y0 : R) (k : nat) : R := if Nat.eqb k 0 then tg c - y0 else height c (k mod 4).
Lemma step_spec : forall c p0 y0 k A w w' e, cfg_ok c -> c_sync c = 0 -> voice_ok w -> at_step c p0 y0 k A w -> sso_convolute c w = Ok (w', e) ->
  at_step c p0 y0 (Datatypes.S k) A w' /\ A + e_pos e = PosC c p0 k /\ e_g e = heightC c y0 k.
Proof.
  intros c p0 y0 k A w w' e K S0 V (A1 & A2 & A3 & A4) E. pose proof (convolute_spec c w K V) as C. cbv zeta in C.
  destruct C as (w1 & e1 & g & pw & pw2 & C1 & C2 & C3 & P & Q & Z0 & Z1 & C4 & C5).
  rewrite C1 in E. injection E as -> ->.
  assert (U : sso_sync_step c w = w) by (unfold sso_sync_step, sso_synced; rewrite S0; destruct (Rlt_dec 0 0); [lra|reflexivity]).
  rewrite U in *. clear C1 U.
  assert (W : pw = c_pw c /\ pw2 = 2 * c_pw2 c).
  { destruct (Z.eq_dec (w_state w) 0) as [H|H]; [apply Z0; exact H|]. destruct (Z1 H) as [-> ->]. apply A3. rewrite A2 in H. lia. }
  destruct W as [-> ->].
  assert (ST : w_state w' = Z.of_nat (Datatypes.S k mod 4)) by (rewrite C4; cbn [w_state]; rewrite A2; apply next_state).
  assert (OS : w_osc w' = w_osc w + c_t c * sso_rate 1 (w_state w) (c_pw c) (2 * c_pw2 c)) by (rewrite C4; reflexivity).
  assert (PW : w_pw w' = c_pw c /\ w_pw2 w' = 2 * c_pw2 c) by (rewrite C4; auto). clear C4.
  assert (LG : w_last w' = lev c (Datatypes.S k mod 4) /\ g = heightC c y0 k).
  { unfold heightC. unfold sso_get_g in C5. rewrite A2, A4 in C5. clear A1 A2 A4 ST OS Z0 Z1 C3.
    destruct (mod4_cases k) as (m & [H|[H|[H|H]]]); subst k.
    - replace (4 * m)%nat with (4 * m + 0)%nat in * by lia. replace (Datatypes.S (4 * m + 0)) with (4 * m + 1)%nat by lia.
      rewrite (proj2 (divmod4 m 0 ltac:(lia))) in *. rewrite (proj2 (divmod4 m 1 ltac:(lia))). cbn [Z.of_nat Z.eqb] in C5. cbv zeta in C5.
      replace (Nat.eqb (4 * m + 0) 0) with (Nat.eqb m 0) in * by (destruct m; reflexivity).
      assert (G : g = sso_tg (c_wf c) (c_sub c) (c_pw c) (2 * c_pw2 c) - (if Nat.eqb m 0 then y0 else lev c 0)) by congruence.
      assert (L : w_last w' = sso_tg (c_wf c) (c_sub c) (c_pw c) (2 * c_pw2 c) - c_pw c * (2 * c_pw2 c) * (1 + c_wf c) * (1 - c_sub c)) by congruence.
      rewrite G, L. unfold lev, height, cum, sso_tg, tg. split; [field|]. destruct (Nat.eqb m 0); field.
    - replace (Datatypes.S (4 * m + 1)) with (4 * m + 2)%nat by lia. replace (Nat.eqb (4 * m + 1) 0) with false in * by (symmetry; apply Nat.eqb_neq; lia).
      destruct (A3 ltac:(rewrite (proj2 (divmod4 m 1 ltac:(lia))); lia)) as [B1 B2]. rewrite B1, B2 in *.
      rewrite (proj2 (divmod4 m 1 ltac:(lia))) in *. rewrite (proj2 (divmod4 m 2 ltac:(lia))). change (Z.of_nat 1) with 1%Z in C5. cbn [Z.eqb BinPos.Pos.eqb] in C5. cbv zeta in C5.
      assert (G : g = c_wf c * (1 - c_sub c) - c_sub c) by congruence.
      assert (L : w_last w' = lev c 1 + (c_wf c * (1 - c_sub c) - c_sub c) - (1 - c_pw c) * (2 - 2 * c_pw2 c) * (1 + c_wf c) * (1 - c_sub c)) by congruence.
      rewrite G, L. unfold lev, height, cum. split; ring.
    - replace (Datatypes.S (4 * m + 2)) with (4 * m + 3)%nat by lia. replace (Nat.eqb (4 * m + 2) 0) with false in * by (symmetry; apply Nat.eqb_neq; lia).
      destruct (A3 ltac:(rewrite (proj2 (divmod4 m 2 ltac:(lia))); lia)) as [B1 B2]. rewrite B1, B2 in *.
      rewrite (proj2 (divmod4 m 2 ltac:(lia))) in *. rewrite (proj2 (divmod4 m 3 ltac:(lia))). change (Z.of_nat 2) with 2%Z in C5. cbn [Z.eqb BinPos.Pos.eqb] in C5. cbv zeta in C5.
      assert (G : g = 1 - c_sub c) by congruence.
      assert (L : w_last w' = lev c 2 + (1 - c_sub c) - c_pw c * (2 - 2 * c_pw2 c) * (1 + c_wf c) * (1 - c_sub c)) by congruence.
      rewrite G, L. unfold lev, height, cum. split; ring.
    - replace (Datatypes.S (4 * m + 3)) with (4 * (m + 1) + 0)%nat by lia. replace (Nat.eqb (4 * m + 3) 0) with false in * by (symmetry; apply Nat.eqb_neq; lia).
      destruct (A3 ltac:(rewrite (proj2 (divmod4 m 3 ltac:(lia))); lia)) as [B1 B2]. rewrite B1, B2 in *.
      rewrite (proj2 (divmod4 m 3 ltac:(lia))) in *. rewrite (proj2 (divmod4 (m + 1) 0 ltac:(lia))). change (Z.of_nat 3) with 3%Z in C5. cbn [Z.eqb BinPos.Pos.eqb] in C5. cbv zeta in C5.
      assert (G : g = c_wf c * (1 - c_sub c) + c_sub c) by congruence.
      assert (L : w_last w' = lev c 3 + (c_wf c * (1 - c_sub c) + c_sub c) - (1 - c_pw c) * (2 * c_pw2 c) * (1 + c_wf c) * (1 - c_sub c)) by congruence.
      rewrite G, L. unfold lev, height, cum. split; ring. }
  destruct LG as [L G]. rewrite C3. cbn [e_pos e_g]. split; [|split; [exact A1|exact G]].
  unfold at_step. split; [|split; [exact ST|split; [intros _; exact PW|exact L]]].
  rewrite OS, A2. unfold PosC in *. rewrite Pos_step, <- A1. ring.
Qed.
Lemma loop_steps : forall c a p0 y0 A fuel w w' es, cfg_ok c -> c_sync c = 0 -> voice_ok w -> sso_loop fuel c a w = Ok (Some (w', es)) ->
  forall k, at_step c p0 y0 k A w ->
  at_step c p0 y0 (k + length es) A w' /\ map (fun e => A + e_pos e) es = map (PosC c p0) (seq k (length es)) /\ map e_g es = map (heightC c y0) (seq k (length es))
  /\ Forall (fun e => e_pos e < a) es /\ a <= w_osc w'.
Proof.
  intros c a p0 y0 A fuel w w' es K S0 V E.
  apply (loop_ind c a (fun w w' es => forall k, at_step c p0 y0 k A w ->
    at_step c p0 y0 (k + length es) A w' /\ map (fun e => A + e_pos e) es = map (PosC c p0) (seq k (length es)) /\ map e_g es = map (heightC c y0) (seq k (length es))
    /\ Forall (fun e => e_pos e < a) es /\ a <= w_osc w') K) with (4 := E); [| |exact V].
  - intros w0 V0 M k H. cbn [length seq map]. rewrite Nat.add_0_r. destruct (more_done _ _ _ M). auto.
  - intros w0 w1 e w2 es2 V0 V1 M C IH k H. destruct (step_spec c p0 y0 k A w0 w1 e K S0 V0 H C) as (H1 & H2 & H3).
    destruct (IH _ H1) as (I1 & I2 & I3 & I4 & I5). cbn [length seq map]. rewrite I2, I3, H2, H3.
    replace (k + Datatypes.S (length es2))%nat with (Datatypes.S k + length es2)%nat by lia. 
    split; [exact I1|]. split; [reflexivity|]. split; [reflexivity|]. split; [|exact I5]. constructor; [|exact I4]. pose proof (convolute_spec c w0 K V0) as CS. cbv zeta in CS. destruct CS as (w1' & e' & g & pw & pw2 & D1 & _ & D3 & _).
    rewrite D1 in C. injection C as -> ->. rewrite D3. cbn [e_pos]. apply more_pos. exact M.
Qed.
(* Whatever the lengths of the blocks (that is, however the pitch glides), the k-th impulse after the start of a cycle sits at the
   phase PosC k, has the height heightC k, and all impulses before the end of the last block have been played. *)
Theorem C235_periodic : forall fuel c bs A w A' w' es, cfg_ok c -> c_sync c = 0 -> voice_ok w -> w_state w = 0%Z -> Forall (fun a => 0 <= a) bs ->
  sso_run fuel (map (fun a => (c, a)) bs) A w = Ok (Some (A', w', es)) ->
  map e_pos es = map (PosC c (A + w_osc w)) (seq 0 (length es)) /\
  map e_g es = map (heightC c (w_last w)) (seq 0 (length es)) /\
  A' = A + sumR bs /\ Forall (fun e => e_pos e < A') es /\ A' <= PosC c (A + w_osc w) (length es).
Proof.
  intros fuel c bs A w A' w' es K S0 V ST T E.
  assert (G : forall p0 y0 bs A w A' w' es k, voice_ok w -> at_step c p0 y0 k A w -> Forall (fun a => 0 <= a) bs -> sso_run fuel (map (fun a => (c, a)) bs) A w = Ok (Some (A', w', es)) ->
    at_step c p0 y0 (k + length es) A' w' /\ map e_pos es = map (PosC c p0) (seq k (length es)) /\ map e_g es = map (heightC c y0) (seq k (length es)) /\
    A' = A + sumR bs /\ voice_ok w' /\ A <= A' /\ Forall (fun e => e_pos e < A') es).
  { clear - K S0. intros p0 y0. induction bs as [|a bs IH]; intros A w A' w' es k V H T E.
    - cbn [map sso_run] in E. assert (X : A = A' /\ w = w' /\ [] = es) by (repeat split; congruence). destruct X as (<- & <- & <-). cbn [length seq map sumR]. rewrite Nat.add_0_r, Rplus_0_r.
      split; [exact H|]. split; [reflexivity|]. split; [reflexivity|]. split; [reflexivity|]. split; [exact V|]. split; [lra|constructor].
    - cbn [map] in E. destruct (run_inv _ _ _ _ _ _ _ _ _ E) as (w1 & es1 & es2 & E1 & E2 & ->). inversion T as [|? ? T0 T']; subst.
      pose proof (block_voice_ok _ _ _ _ _ _ K V E1) as V1. destruct (block_inv _ _ _ _ _ _ E1) as (u & E3 & Hw1).
      destruct (loop_steps c a p0 y0 A fuel w u es1 K S0 V E3 k H) as (J1 & J2 & J3 & J4 & J5).
      assert (H1 : at_step c p0 y0 (k + length es1) (A + a) w1).
      { destruct J1 as (B1 & B2 & B3 & B4). rewrite Hw1. unfold at_step, sso_advance. cbn [w_osc w_state w_pw w_pw2 w_last]. split; [rewrite <- B1; ring|]. auto. }
      destruct (IH _ _ _ _ _ _ V1 H1 T' E2) as (I1 & I2 & I3 & I4 & I5 & I6 & I7).
      rewrite app_length, map_length, seq_app, !map_app, map_map. cbn [shift_ev e_pos]. rewrite Nat.add_assoc.
      split; [exact I1|]. split; [rewrite <- J2, <- I2; reflexivity|]. split; [rewrite <- J3, <- I3; rewrite map_map; reflexivity|]. split; [rewrite I4; cbn [sumR]; ring|]. split; [exact I5|].
      split; [lra|]. apply Forall_app. split; [|exact I7]. rewrite Forall_forall in *. intros e He. apply in_map_iff in He. destruct He as (e1 & <- & He). specialize (J4 _ He). cbn [shift_ev e_pos]. lra. }
  set (p0 := A + w_osc w). set (y0 := w_last w).
  assert (H0 : at_step c p0 y0 0 A w).
  { unfold at_step, PosC, Pos. change (0 mod 4)%nat with 0%nat. change (0 / 4)%nat with 0%nat. cbn [cum INR Nat.eqb Z.of_nat]. split; [unfold p0; ring|]. split; [exact ST|]. split; [intros H; exfalso; apply H; reflexivity|reflexivity]. }
  destruct (G p0 y0 bs A w A' w' es 0%nat V H0 T E) as (G1 & G2 & G3 & G4 & G5 & G6 & G7). cbn [Nat.add] in G1.
  split; [exact G2|]. split; [exact G3|]. split; [exact G4|]. split; [exact G7|].
  destruct G1 as (B1 & _). destruct G5 as (B2 & _). rewrite <- B1. lra.
Qed.
Print Assumptions C235_periodic.
(* four steps make one cycle of length 2t; with a centred sub width the two halves are equal *)
Theorem C235_cycle_length : forall c p0 k, PosC c p0 (k + 4) = PosC c p0 k + 2 * c_t c /\
  (c_pw2 c = 1 / 2 -> PosC c p0 (k + 2) = PosC c p0 k + c_t c) /\
  (cfg_ok c -> PosC c p0 k < PosC c p0 (Datatypes.S k)).
Proof.
  intros c p0 k. unfold PosC. split; [|split].
  - destruct (mod4_cases k) as (m & [H|[H|[H|H]]]); subst k.
    + replace (4 * m + 4)%nat with (4 * (m + 1))%nat by lia. rewrite !Pos0, plus_INR. cbn [INR]. ring.
    + replace (4 * m + 1 + 4)%nat with (4 * (m + 1) + 1)%nat by lia. rewrite !Pos_j, plus_INR by lia. cbn [INR]. ring.
    + replace (4 * m + 2 + 4)%nat with (4 * (m + 1) + 2)%nat by lia. rewrite !Pos_j, plus_INR by lia. cbn [INR]. ring.
    + replace (4 * m + 3 + 4)%nat with (4 * (m + 1) + 3)%nat by lia. rewrite !Pos_j, plus_INR by lia. cbn [INR]. ring.
  - intros H0. destruct (mod4_cases k) as (m & [H|[H|[H|H]]]); subst k.
    + rewrite Pos0, Pos_j by lia. cbn [cum]. rewrite H0. field.
    + replace (4 * m + 1 + 2)%nat with (4 * m + 3)%nat by lia. rewrite !Pos_j by lia. cbn [cum]. rewrite H0. field.
    + replace (4 * m + 2 + 2)%nat with (4 * (m + 1))%nat by lia. rewrite Pos0, Pos_j, plus_INR by lia. cbn [cum INR]. rewrite H0. field.
    + replace (4 * m + 3 + 2)%nat with (4 * (m + 1) + 1)%nat by lia. rewrite !Pos_j, plus_INR by lia. cbn [cum INR]. rewrite H0. field.
  - intros (K1 & K2 & K3 & K4 & K5 & K6 & K7). rewrite Pos_step. pose proof (rate_pos (Z.of_nat (k mod 4)) (c_pw c) (2 * c_pw2 c) ltac:(lra) ltac:(lra)) as RP. unfold rmin in RP.
    assert (0 < c_t c * sso_rate 1 (Z.of_nat (k mod 4)) (c_pw c) (2 * c_pw2 c)) by (apply Rmult_lt_0_compat; lra). lra.
Qed.
Print Assumptions C235_cycle_length.

(** ** C236: frequency *)
(* the standard tuning tables *)
Lemma full_inv : full (tu_inv (tuner_init tuner_new)) (fun i => 1 / exp2R ((IZR i - 256) * (1 / 12))).
Proof.
  intros i Hi. cbn [tuner_init tu_inv]. unfold std_table. rewrite map_map. rewrite zget_idxs by lia. reflexivity.
Qed.
Lemma std_inv : forall ign k, (-256 <= k < 255)%Z -> n2pinv (tuner_init tuner_new) ign (IZR k) = Ok (Rpower 2 (- (IZR k / 12))).
Proof.
  intros ign k Hk. unfold n2pinv. replace (if ign then tu_inv0 (tuner_init tuner_new) else tu_inv (tuner_init tuner_new)) with (tu_inv (tuner_init tuner_new)) by (destruct ign; reflexivity).
  rewrite (C83_lookup _ _ (IZR k) k full_inv Hk) by lra. cbv beta. f_equal. replace (IZR k - IZR k) with 0 by ring. rewrite Rmult_0_l, Rplus_0_r.
  unfold exp2R. rewrite Rpower_Ropp. unfold Rdiv. rewrite Rmult_1_l. f_equal. f_equal. rewrite plus_IZR. field.
Qed.

Lemma std_ctr : n2pinv_tuningctr (tuner_init tuner_new) 0 = Ok (1 / 1024).
Proof.
  rewrite (C83_inverse_center_refuted (tuner_init tuner_new) _ full_inv).
  - f_equal. cbn [tuner_init tuner_new tu_pitch]. field.
  - cbn [tuner_init tuner_new tu_pitch]. lra.
  - cbn. lia.
  - cbn [tuner_init tuner_new tu_pitch tu_map mapping_default km_ref]. f_equal. unfold exp2R.
    replace ((IZR (60 + 256) - 256) * (1 / 12)) with (INR 5) by (change (60 + 256)%Z with 316%Z; cbn [INR]; lra). rewrite Rpower_pow by lra. cbn [pow]. ring.
Qed.
(* Samples (at the oversampled rate sr) between the starts of two successive saw teeth of a voice without detune and sync, playing
   key k: `ideal` is the period of the note; the unclamped speed is assumed (keys up to about 148) *)
Definition ideal (sr : R) (k : Z) : R := sr / (8.175798915 * Rpower 2 (IZR k / 12)).
Definition pinv_of (sr : R) (k : Z) : R := match n2pinv (tuner_init tuner_new) false (IZR k) with Ok x => sso_pinv sr x | _ => 0 end.
Lemma pinv_ideal : forall sr k, (-256 <= k < 255)%Z -> 1 <= ideal sr k -> pinv_of sr k = ideal sr k.
Proof.
  intros sr k Hk H. unfold pinv_of. rewrite std_inv by exact Hk. unfold sso_pinv. rewrite Rpower_Ropp.
  assert (P : 0 < Rpower 2 (IZR k / 12)) by (unfold Rpower; apply exp_pos).
  replace (sr * (1 / 8.175798915) * / Rpower 2 (IZR k / 12)) with (ideal sr k) by (unfold ideal; field; lra). apply Rmax_right. exact H.
Qed.
Definition get_or (r : res R) : R := match r with Ok x => x | _ => 0 end.
Definition t_of (absolute : bool) (pitch sync detune : R) : R :=
  sso_get_t (fun x => get_or (n2pinv (tuner_init tuner_new) true x)) (fun x => get_or (n2pinv_tuningctr (tuner_init tuner_new) x)) absolute pitch sync detune.
(* REFUTED: with relative unison spread (the default) the tuner's inverse is off by pitch^2 = 1024, and so is the period: the
   oscillator sounds ten octaves above the note *)
Theorem C236_plays_its_note_refuted : forall sr k c p0 n, (-256 <= k < 255)%Z -> 1 <= ideal sr k ->
  c_t c = t_of false (IZR k) 0 0 -> (PosC c p0 (n + 4) - PosC c p0 n) * pinv_of sr k = 2 * (ideal sr k / 1024).
Proof.
  intros sr k c p0 n Hk H T. rewrite (pinv_ideal sr k Hk H). destruct (C235_cycle_length c p0 n) as (C & _). rewrite C, T. unfold t_of, sso_get_t.
  rewrite Rplus_0_r, std_ctr. cbn [get_or]. field.
Qed.
Print Assumptions C236_plays_its_note_refuted.
(* With absolute unison spread the period is right: the cycle lasts two periods of the note. *)
Theorem C236_absolute_plays_its_note : forall sr k c p0 n, (-256 <= k < 255)%Z -> 1 <= ideal sr k ->
  c_t c = t_of true (IZR k) 0 0 ->
  (PosC c p0 (n + 4) - PosC c p0 n) * pinv_of sr k = 2 * ideal sr k /\
  (c_pw2 c = 1 / 2 -> (PosC c p0 (n + 2) - PosC c p0 n) * pinv_of sr k = ideal sr k).
Proof.
  intros sr k c p0 n Hk H T. rewrite (pinv_ideal sr k Hk H). destruct (C235_cycle_length c p0 n) as (C & D & _).
  assert (T1 : c_t c = 1).
  { rewrite T. unfold t_of, sso_get_t. cbv zeta. replace (0 * get_or (n2pinv (tuner_init tuner_new) true (IZR k)) * 16 / 0.9443 + 0) with 0 by (unfold Rdiv; ring).
    change 0 with (IZR 0). rewrite std_inv by lia. cbn [get_or]. replace (- (IZR 0 / 12)) with 0 by (unfold Rdiv; ring). rewrite Rpower_O by lra. destruct (Rlt_dec 1 (1 / 10)); lra. }
  split; [rewrite C, T1; ring|]. intros Q. rewrite (D Q), T1. ring.
Qed.
Print Assumptions C236_absolute_plays_its_note.
Example C236_instance : 1 <= ideal 88200 0.
Proof. unfold ideal. replace (0 / 12) with 0 by field. rewrite Rpower_O by lra. lra. Qed.

(** ** C237: the mean level *)
(* area under one linear piece of the wave form that ends at level y after the length d with the slope -s *)
Definition piece (d s y : R) : R := d * ((y + s * d + y) / 2).
(* REFUTED: the wave form has no DC. Its mean over a cycle is off by this much, which is zero only for wf = -1 (pulse), a pulse width
   of one half, a sub width of one half or sub level 1 *)
Definition offset (c : sso_cfg) : R := - ((1 - c_sub c) * (1 + c_wf c) * (1 - 2 * c_pw c) * (1 - 2 * c_pw2 c) / 2).
Theorem C237_mean_level_refuted : forall c w0 w1 w2 w3 w4 e0 e1 e2 e3, cfg_ok c -> c_sync c = 0 -> voice_ok w0 -> w_state w0 = 0%Z ->
  sso_convolute c w0 = Ok (w1, e0) -> sso_convolute c w1 = Ok (w2, e1) -> sso_convolute c w2 = Ok (w3, e2) -> sso_convolute c w3 = Ok (w4, e3) ->
  (piece (w_osc w1 - w_osc w0) (w_dc w1) (w_last w1) + piece (w_osc w2 - w_osc w1) (w_dc w2) (w_last w2) +
   piece (w_osc w3 - w_osc w2) (w_dc w3) (w_last w3) + piece (w_osc w4 - w_osc w3) (w_dc w4) (w_last w4)) / (w_osc w4 - w_osc w0) = offset c
  /\ w_osc w4 - w_osc w0 = 2 * c_t c.
Proof.
  intros c w0 w1 w2 w3 w4 e0 e1 e2 e3 K S0 V ST E1 E2 E3 E4.
  assert (H0 : at_step c (w_osc w0) (w_last w0) 0 0 w0).
  { unfold at_step, PosC, Pos. change (0 mod 4)%nat with 0%nat. change (0 / 4)%nat with 0%nat. cbn [cum INR Nat.eqb Z.of_nat]. split; [ring|]. split; [exact ST|]. split; [intros H; exfalso; apply H; reflexivity|reflexivity]. }
  assert (OK : forall w w' e, voice_ok w -> sso_convolute c w = Ok (w', e) -> voice_ok w' /\ w_dc w' = 1 / c_t c * (1 + c_wf c) * (1 - c_sub c)).
  { intros w w' e Vw E. pose proof (convolute_spec c w K Vw) as C. cbv zeta in C. destruct C as (u & e' & g & pw & pw2 & D1 & D2 & D3 & D4 & D5 & D6 & D7 & D8 & D9). rewrite D1 in E. injection E as -> ->. split; [exact D2|]. rewrite D8. reflexivity. }
  destruct (OK _ _ _ V E1) as [V1 D1]. destruct (OK _ _ _ V1 E2) as [V2 D2]. destruct (OK _ _ _ V2 E3) as [V3 D3]. destruct (OK _ _ _ V3 E4) as [V4 D4].
  destruct (step_spec _ _ _ _ _ _ _ _ K S0 V H0 E1) as (H1 & _ & _). destruct (step_spec _ _ _ _ _ _ _ _ K S0 V1 H1 E2) as (H2 & _ & _).
  destruct (step_spec _ _ _ _ _ _ _ _ K S0 V2 H2 E3) as (H3 & _ & _). destruct (step_spec _ _ _ _ _ _ _ _ K S0 V3 H3 E4) as (H4 & _ & _).
  destruct H1 as (P1 & _ & _ & L1). destruct H2 as (P2 & _ & _ & L2). destruct H3 as (P3 & _ & _ & L3). destruct H4 as (P4 & _ & _ & L4).
  unfold PosC, Pos in P1, P2, P3, P4.
  change (1 mod 4)%nat with 1%nat in *. change (2 mod 4)%nat with 2%nat in *. change (3 mod 4)%nat with 3%nat in *. change (4 mod 4)%nat with 0%nat in *.
  change (1 / 4)%nat with 0%nat in *. change (2 / 4)%nat with 0%nat in *. change (3 / 4)%nat with 0%nat in *. change (4 / 4)%nat with 1%nat in *.
  cbn [Nat.eqb cum INR] in *. unfold lev, height, cum in *.
  assert (Q1 : w_osc w1 = w_osc w0 + c_t c * (c_pw c * (2 * c_pw2 c))) by lra.
  assert (Q2 : w_osc w2 = w_osc w0 + c_t c * (c_pw c * (2 * c_pw2 c) + (1 - c_pw c) * (2 - 2 * c_pw2 c))) by lra.
  assert (Q3 : w_osc w3 = w_osc w0 + c_t c * (c_pw c * (2 * c_pw2 c) + (1 - c_pw c) * (2 - 2 * c_pw2 c) + c_pw c * (2 - 2 * c_pw2 c))) by lra.
  assert (Q4 : w_osc w4 = w_osc w0 + 2 * c_t c) by lra.
  destruct K as (K1 & K2 & K3 & K4 & K5 & K6 & K7).
  rewrite D1, D2, D3, D4, L1, L2, L3, L4, Q1, Q2, Q3, Q4. split; [|ring]. unfold piece, offset, tg. field. lra.
Qed.
Print Assumptions C237_mean_level_refuted.
Theorem C237_no_offset_iff : forall c, offset c = 0 <-> (c_sub c = 1 \/ c_wf c = -1 \/ c_pw c = 1 / 2 \/ c_pw2 c = 1 / 2).
Proof.
  intros c. unfold offset. split.
  - intros H. assert (H' : (1 - c_sub c) * (1 + c_wf c) * (1 - 2 * c_pw c) * (1 - 2 * c_pw2 c) = 0) by lra.
    apply Rmult_integral in H'. destruct H' as [H'|H']; [|right; right; right; lra]. apply Rmult_integral in H'. destruct H' as [H'|H']; [|right; right; left; lra].
    apply Rmult_integral in H'. destruct H' as [H'|H']; [left; lra|right; left; lra].
  - intros [H|[H|[H|H]]]; rewrite H; field.
Qed.
Print Assumptions C237_no_offset_iff.
(* the levels of the classic wave forms, between the steps *)
Theorem C237_shapes : forall c,
  (c_wf c = -1 -> c_sub c = 0 -> (* pulse: two levels, 1 apart *)
     tg c = 1 - c_pw c /\ tg c + height c 1 = - c_pw c /\ height c 2 = 1 /\ height c 3 = -1 /\ height c 0 = 1) /\
  (c_wf c = 0 -> c_sub c = 0 -> (* saw: only steps 0 and 2 sound *)
     tg c = 1 / 2 /\ height c 0 = 1 /\ height c 1 = 0 /\ height c 2 = 1 /\ height c 3 = 0) /\
  (c_sub c = 1 -> (* sub oscillator: one pulse per cycle, an octave below *)
     tg c = 1 - c_pw2 c /\ tg c + height c 1 = - c_pw2 c /\ height c 0 = 0 /\ height c 1 = -1 /\ height c 2 = 0 /\ height c 3 = 1).
Proof. intros c. unfold tg, height. split; [|split]; intros H; try intros H0; rewrite ?H, ?H0; repeat split; try field; lra. Qed.
Print Assumptions C237_shapes.

(** ** C238: the impulse loop ends *)
Theorem C238_block_ends_partial : forall c a w, cfg_ok c -> voice_ok w -> 0 <= a ->
  exists n w' es, voice_ok w' /\ Forall (fun e => 0 <= e_pos e < a) es /\ forall fuel, (n <= fuel)%nat -> sso_voice_block fuel c a w = Ok (Some (w', es)).
Proof.
  intros c a w K V A0. destruct (loop_terminates c a w K V A0) as (n & u & es & E). exists n, (sso_advance c a u), es.
  destruct (loop_voice_ok _ _ _ _ _ _ K V E) as (V1 & H1 & H2). split; [apply advance_ok; assumption|]. split.
  - apply (loop_ind c a (fun _ _ es => Forall (fun e => 0 <= e_pos e < a) es) K) with (4 := E); [| |exact V]; [constructor|].
    intros w0 w1 e w2 es2 V0 V1' M C IH. constructor; [|exact IH]. pose proof (convolute_spec c w0 K V0) as CS. cbv zeta in CS. destruct CS as (w1' & e' & g & pw & pw2 & D1 & _ & D3 & _).
    rewrite D1 in C. injection C as -> ->. rewrite D3. cbn [e_pos]. split; [apply (sync_step_ok c w0 K V0)|apply more_pos; exact M].
  - intros fuel L. unfold sso_voice_block. rewrite (loop_fuel _ _ _ _ _ E fuel L). reflexivity.
Qed.
Print Assumptions C238_block_ends_partial.
(* REFUTED for absolute unison spread: periods below 0.1 are replaced by 0 (not by 0.1), and then the loop never ends *)
Theorem C238_never_ends_refuted : forall inv_true inv_ctr pitch sync detune c a w,
  c_t c = sso_get_t inv_true inv_ctr true pitch sync detune -> inv_true (detune * inv_true pitch * 16 / 0.9443 + sync) < 1 / 10 ->
  (0 <= w_state w <= 3)%Z -> 0 <= w_osc w -> w_osc w <= w_sync w -> w_osc w < a ->
  forall fuel, sso_voice_block fuel c a w = Ok None.
Proof.
  intros inv_true inv_ctr pitch sync detune c a w T L ST O1 O2 O3 fuel.
  assert (T0 : c_t c = 0) by (rewrite T; unfold sso_get_t; cbv zeta; destruct (Rlt_dec _ _); [reflexivity|contradiction]). clear T L.
  unfold sso_voice_block. enough (E : sso_loop fuel c a w = Ok None) by (rewrite E; reflexivity).
  revert w ST O1 O2 O3. induction fuel as [|fuel IH]; intros w ST O1 O2 O3; cbn [sso_loop].
  - assert (M : sso_more c a w = true). { unfold sso_more. destruct (Rlt_dec (w_osc w) a); [apply Bool.orb_true_r|contradiction]. } rewrite M. reflexivity.
  - assert (M : sso_more c a w = true). { unfold sso_more. destruct (Rlt_dec (w_osc w) a); [apply Bool.orb_true_r|contradiction]. } rewrite M.
    assert (U : sso_sync_step c w = w). { unfold sso_sync_step, sso_synced. destruct (Rlt_dec 0 (c_sync c)); [destruct (Rlt_dec (w_sync w) (w_osc w)); [lra|reflexivity]|reflexivity]. }
    unfold sso_convolute. rewrite U.
    assert (G : exists r, sso_get_g c (w_state w) (w_pw w) (w_pw2 w) (w_last w) = Ok r).
    { unfold sso_get_g. destruct (state_cases _ ST) as [H|[H|[H|H]]]; rewrite H; cbn [Z.eqb BinPos.Pos.eqb]; eexists; reflexivity. }
    destruct G as ([[[g last] pw] pw2] & G). rewrite G. cbn [obind fst snd].
    rewrite IH; [reflexivity| | | |]; cbn [w_state w_osc w_sync]; rewrite ?T0.
    + destruct (state_cases _ ST) as [H|[H|[H|H]]]; rewrite H; cbn; lia.
    + apply Rmax_l.
    + rewrite rate_scale, Rmult_0_l, Rplus_0_r. rewrite Rmax_right; lra.
    + rewrite rate_scale, Rmult_0_l, Rplus_0_r. rewrite Rmax_right; lra.
Qed.
Print Assumptions C238_never_ends_refuted.
(* reachable: standard tuning, absolute spread, sync 40 semitones or more, every note start *)
Theorem C238_sync_40_hangs_refuted : forall k a c rt draw ictr pw pw2, (40 <= k < 255)%Z -> c_t c = t_of true 60 (IZR k) 0 ->
  0 <= draw -> 0 <= ictr -> w_osc (sso_start rt draw ictr pw pw2) < a -> forall fuel, sso_voice_block fuel c a (sso_start rt draw ictr pw pw2) = Ok None.
Proof.
  intros k a c rt draw ictr pw pw2 Hk T D I O fuel. eapply C238_never_ends_refuted; [exact T| | | | |exact O].
  - cbv beta. replace (0 * _ * 16 / 0.9443 + IZR k) with (IZR k) by (unfold Rdiv; ring). rewrite std_inv by lia. cbn [get_or].
    assert (B : Rpower 2 (- (IZR k / 12)) <= Rpower 2 (- (40 / 12))). { apply Rle_Rpower; [lra|]. pose proof (IZR_le 40 k ltac:(lia)). lra. }
    apply Rle_lt_trans with (1 := B). rewrite Rpower_Ropp. replace (1 / 10) with (/ 10) by field. apply Rinv_lt_contravar; [apply Rmult_lt_0_compat; [lra|unfold Rpower; apply exp_pos]|].
    (* 10 < 2^(10/3) because 10^3 < 2^10 *)
    replace (40 / 12) with (INR 10 * / INR 3) by (cbn [INR]; field). rewrite <- Rpower_mult, Rpower_pow by lra.
    apply Rnot_le_lt. intros H. assert (X : Rpower (Rpower (2 ^ 10) (/ INR 3)) (INR 3) <= Rpower 10 (INR 3)) by (apply Rle_Rpower_l; [cbn [INR]; lra|split; [unfold Rpower; apply exp_pos|exact H]]).
    rewrite Rpower_mult in X. replace (/ INR 3 * INR 3) with 1 in X by (cbn [INR]; field). rewrite Rpower_1 in X by (apply pow_lt; lra). rewrite Rpower_pow in X by lra. cbn [pow] in X. lra.
  - cbn. lia.
  - unfold sso_start. cbv zeta. cbn [w_osc]. assert (0 <= 1 / 2 * draw * ictr) by (apply Rmult_le_pos; lra). destruct rt; lra.
  - unfold sso_start. cbv zeta. cbn [w_osc w_sync]. lra.
Qed.
Print Assumptions C238_sync_40_hangs_refuted.
Definition cfg1 : sso_cfg := {| c_sync := 0; c_pw := 1 / 2; c_pw2 := 1 / 2; c_wf := 0; c_sub := 0; c_t := 1; c_T := 2 |}.
Definition cfg_sync : sso_cfg := {| c_sync := 7; c_pw := 1 / 4; c_pw2 := 1 / 2; c_wf := 1; c_sub := 1 / 2; c_t := 2 / 3; c_T := 2 |}.
Example C238_instance : cfg_ok cfg1 /\ cfg_ok cfg_sync /\ voice_ok (sso_start true 0 1 (1 / 2) 0).
Proof.
  unfold cfg_ok, voice_ok, sso_start. cbn [c_sync c_pw c_pw2 c_wf c_sub c_t c_T cfg1 cfg_sync w_osc w_sync w_state]. repeat split; try lra; try lia; intros; try (exfalso; auto; fail).
Qed.
