(* SnhProps.v - C244-C250: the sample-and-hold oscillator (SnhModel.v). *)
From Coq Require Import Reals ZArith List Lia Lra Psatz.
From Verif Require Import Base Util ParamModel LagModel SsoModel SsoProofs SsoProps SsoProps2 SsoProps3 VocModel SnhModel.
Import ListNotations.
Local Open Scope R_scope.

(** ** Specification vocabulary *)
(* the settings a block may have *)
Definition scfg_ok (c : snh_cfg) : Prop :=
  0 <= n_sync c /\ 1 / 1000 <= n_pw c <= 999 / 1000 /\ Rabs (n_wf c) <= 8 / 10 /\ 0 < n_t c /\ 0 < n_T c.
Definition svoice_ok (v : snh_voice) : Prop :=
  0 <= h_osc v /\ 0 <= h_sync v /\ (h_state v = 0%Z \/ h_state v = 1%Z) /\ 1 / 1000 <= h_pw v <= 999 / 1000 /\ Rabs (h_last v) <= 1 / 2.
(* several blocks, each with its own settings, length and draws; the positions of the impulses are made absolute *)
Definition sshift (A : R) (e : snh_ev) : snh_ev := {| v_pos := A + v_pos e; v_g := v_g e |}.
Fixpoint snh_run (bs : list (snh_cfg * R * list R)) (A : R) (v : snh_voice) : option (R * snh_voice * list snh_ev) :=
  match bs with
  | [] => Some (A, v, [])
  | (c, a, ds) :: bs =>
      match snh_voice_block ds c a v with
      | None => None
      | Some (v1, es, _) =>
          match snh_run bs (A + a) v1 with None => None | Some (A', v', es') => Some (A', v', map (sshift A) es ++ es') end
      end
  end.
Fixpoint ascending (lo : R) (xs : list R) : Prop := match xs with [] => True | x :: r => lo <= x /\ ascending x r end.

(** ** One impulse *)
Lemma level_range : forall w r l, Rabs (snh_level w r l) <= 1 / 2.
Proof. intros. unfold snh_level. apply Rabs_le. unfold Rmin, Rmax. repeat destruct (Rle_dec _ _); lra. Qed.
(* the place of the next impulse *)
Definition nextp (v : snh_voice) : R := Rmin (h_osc v) (h_sync v).
Definition synced (v : snh_voice) : Prop := h_sync v < h_osc v.
Lemma convolute_cases : forall c r v, scfg_ok c -> svoice_ok v -> let '(v', e) := snh_convolute c r v in
  svoice_ok v' /\ v_pos e = nextp v /\ v_g e = h_last v' - h_last v /\ nextp v <= nextp v' /\
  (exists pw, 1 / 1000 <= pw <= 999 / 1000 /\ h_pw v' = pw /\
    ((synced v \/ h_state v = 0%Z) -> pw = n_pw c /\ h_state v' = 1%Z /\ h_osc v' = nextp v + n_t c * n_pw c) /\
    (~ synced v -> h_state v = 1%Z -> pw = h_pw v /\ h_state v' = 0%Z /\ h_osc v' = nextp v + n_t c * (1 - h_pw v))) /\
  (synced v -> h_sync v' = h_sync v + n_T c) /\ (~ synced v -> h_sync v' = h_sync v) /\
  h_last v' = snh_level (n_wf c * (if (if Rlt_dec (h_sync v) (h_osc v) then true else false) && (h_state v =? 1)%Z then -1 else 1)%bool) r (h_last v).
Proof.
  intros c r v (K1 & K2 & K3 & K4 & K5) (V1 & V2 & V3 & V4 & V5). unfold snh_convolute, synced, nextp.
  assert (TP : 0 < n_t c * n_pw c) by (apply Rmult_lt_0_compat; lra).
  assert (TQ : 0 < n_t c * (1 - h_pw v)) by (apply Rmult_lt_0_compat; lra).
  destruct (Rlt_dec (h_sync v) (h_osc v)) as [L|L]; cbv zeta.
  - rewrite Rmin_right by lra. change (Z.land 0 1 =? 0)%Z with true. change (0 =? 0)%Z with true. change (Z.land (0 + 1) 1) with 1%Z. cbv iota. cbn [h_osc h_sync h_state h_pw h_last v_pos v_g]. rewrite Rmax_right by lra.
    split. { refine (conj _ (conj _ (conj _ (conj _ _)))); cbn [h_osc h_sync h_state h_pw h_last]; try lra; [right; reflexivity|apply level_range]. }
    refine (conj eq_refl (conj eq_refl (conj _ (conj _ (conj _ (conj _ eq_refl)))))).
    + unfold Rmin; destruct (Rle_dec _ _); lra.
    + exists (n_pw c). split; [lra|]. split; [reflexivity|]. split; [auto|]. intros H; contradiction.
    + intros _; reflexivity.
    + intros H; contradiction.
  - rewrite Rmin_left by lra. destruct V3 as [V3|V3]; rewrite V3.
    + change (Z.land 0 1 =? 0)%Z with true. change (0 =? 0)%Z with true. change (Z.land (0 + 1) 1) with 1%Z. cbv iota. cbn [h_osc h_sync h_state h_pw h_last v_pos v_g]. rewrite Rmax_right by lra.
      split. { refine (conj _ (conj _ (conj _ (conj _ _)))); cbn [h_osc h_sync h_state h_pw h_last]; try lra; [right; reflexivity|apply level_range]. }
      refine (conj eq_refl (conj eq_refl (conj _ (conj _ (conj _ (conj _ eq_refl)))))).
      * unfold Rmin; destruct (Rle_dec _ _); lra.
      * exists (n_pw c). split; [lra|]. split; [reflexivity|]. split; [auto|]. intros _ H; discriminate.
      * intros H; contradiction.
      * intros _; reflexivity.
    + change (Z.land 1 1 =? 0)%Z with false. change (1 =? 0)%Z with false. change (Z.land (1 + 1) 1) with 0%Z. cbv iota. cbn [h_osc h_sync h_state h_pw h_last v_pos v_g]. rewrite Rmax_right by lra.
      split. { refine (conj _ (conj _ (conj _ (conj _ _)))); cbn [h_osc h_sync h_state h_pw h_last]; try lra; [left; reflexivity|apply level_range]. }
      refine (conj eq_refl (conj eq_refl (conj _ (conj _ (conj _ (conj _ eq_refl)))))).
      * unfold Rmin; destruct (Rle_dec _ _); lra.
      * exists (h_pw v). split; [lra|]. split; [reflexivity|]. split; [intros [H|H]; [contradiction|discriminate]|]. intros _ _. auto.
      * intros H; contradiction.
      * intros _; reflexivity.
Qed.
Lemma more_next : forall a v, snh_more a v = true <-> nextp v < a.
Proof.
  intros a v. unfold snh_more, nextp, Rmin. destruct (Rlt_dec (h_sync v) a); destruct (Rlt_dec (h_osc v) a); cbn [orb]; split; intros H; try reflexivity; try discriminate; destruct (Rle_dec _ _) in *; lra.
Qed.
Lemma more_no : forall a v, snh_more a v = false -> a <= h_osc v /\ a <= h_sync v.
Proof. intros a v. unfold snh_more. destruct (Rlt_dec (h_sync v) a); destruct (Rlt_dec (h_osc v) a); cbn [orb]; intros H; try discriminate; lra. Qed.
(* induction over the rounds of the loop *)
Lemma snh_ind : forall c a (P : snh_voice -> snh_voice -> list snh_ev -> Prop), scfg_ok c ->
  (forall v, svoice_ok v -> snh_more a v = false -> P v v []) ->
  (forall v r v1 e v' es, svoice_ok v -> svoice_ok v1 -> nextp v < a -> snh_convolute c r v = (v1, e) -> P v1 v' es -> P v v' (e :: es)) ->
  forall ds v v' es ds', svoice_ok v -> snh_loop ds c a v = Some (v', es, ds') -> P v v' es.
Proof.
  intros c a P K H0 H1. induction ds as [|r ds IH]; intros v v' es ds' V E; cbn [snh_loop] in E; destruct (snh_more a v) eqn:M; try discriminate E.
  - injection E as <- <- <-. apply H0; assumption.
  - destruct (snh_convolute c r v) as [v1 e] eqn:C. pose proof (convolute_cases c r v K V) as Q. rewrite C in Q. destruct Q as [Q _].
    destruct (snh_loop ds c a v1) as [[[v2 es2] d2]|] eqn:E2; [|discriminate E]. injection E as <- <- <-.
    apply (H1 v r v1 e v2 es2 V Q (proj1 (more_next _ _) M) C). apply (IH v1 v2 es2 d2 Q E2).
  - injection E as <- <- <-. apply H0; assumption.
Qed.
Lemma snh_loop_ok : forall c a ds v v' es ds', scfg_ok c -> svoice_ok v -> snh_loop ds c a v = Some (v', es, ds') -> svoice_ok v' /\ a <= h_osc v' /\ a <= h_sync v'.
Proof.
  intros c a ds v v' es ds' K V E. apply (snh_ind c a (fun _ v' _ => svoice_ok v' /\ a <= h_osc v' /\ a <= h_sync v') K) with (4 := E); [| |exact V].
  - intros v0 V0 M. split; [exact V0|]. apply more_no. exact M.
  - intros. assumption.
Qed.
Lemma snh_advance_ok : forall c a v, svoice_ok v -> a <= h_osc v -> a <= h_sync v -> svoice_ok (snh_advance c a v).
Proof. intros c a v (V1 & V2 & V3 & V4 & V5) H1 H2. unfold svoice_ok, snh_advance. cbn [h_osc h_sync h_state h_pw h_last]. repeat split; try lra; try assumption. destruct (Rlt_dec 0 (n_sync c)); lra. Qed.
Lemma snh_block_inv : forall ds c a v v' es ds', snh_voice_block ds c a v = Some (v', es, ds') -> exists v1, snh_loop ds c a v = Some (v1, es, ds') /\ v' = snh_advance c a v1.
Proof. intros ds c a v v' es ds' E. unfold snh_voice_block in E. destruct (snh_loop ds c a v) as [[[v1 es1] d1]|]; [|discriminate E]. injection E as <- <- <-. exists v1. auto. Qed.
Lemma snh_run_cons : forall c a ds bs A v A' v' es, snh_run ((c, a, ds) :: bs) A v = Some (A', v', es) ->
  exists v0 v1 es1 d1 es2, snh_loop ds c a v = Some (v0, es1, d1) /\ v1 = snh_advance c a v0 /\ snh_run bs (A + a) v1 = Some (A', v', es2) /\ es = map (sshift A) es1 ++ es2.
Proof.
  intros c a ds bs A v A' v' es E. cbn [snh_run] in E. destruct (snh_voice_block ds c a v) as [[[v1 es1] d1]|] eqn:B; [|discriminate E].
  destruct (snh_run bs (A + a) v1) as [[[A2 v2] es2]|] eqn:E2; [|discriminate E]. injection E as <- <- <-.
  destruct (snh_block_inv _ _ _ _ _ _ _ B) as (v0 & L & ->). exists v0, (snh_advance c a v0), es1, d1, es2. auto.
Qed.

(** ** C244: the level that is held *)
Lemma sum_shift : forall A es, map v_g (map (sshift A) es) = map v_g es.
Proof. intros A es. rewrite map_map. apply map_ext. reflexivity. Qed.
Lemma loop_levels : forall c a ds v v' es ds', scfg_ok c -> svoice_ok v -> snh_loop ds c a v = Some (v', es, ds') ->
  h_last v' = h_last v + sumR (map v_g es) /\ forall k, Rabs (h_last v + sumR (firstn k (map v_g es))) <= 1 / 2.
Proof.
  intros c a ds v v' es ds' K V E. apply (snh_ind c a (fun v v' es => h_last v' = h_last v + sumR (map v_g es) /\ forall k, Rabs (h_last v + sumR (firstn k (map v_g es))) <= 1 / 2) K) with (4 := E); [| |exact V].
  - intros v0 (_ & _ & _ & _ & V5) _. cbn [map sumR]. split; [ring|]. intros k. rewrite firstn_nil. cbn [sumR]. rewrite Rplus_0_r. exact V5.
  - intros v0 r v1 e v2 es2 V0 V1 _ C [P1 P2]. pose proof (convolute_cases c r v0 K V0) as Q. rewrite C in Q. destruct Q as (_ & _ & G & _).
    cbn [map sumR]. split; [rewrite P1, G; ring|]. intros [|k]; cbn [firstn sumR].
    + rewrite Rplus_0_r. apply V0.
    + replace (h_last v0 + (v_g e + sumR (firstn k (map v_g es2)))) with (h_last v1 + sumR (firstn k (map v_g es2))) by (rewrite G; ring). apply P2.
Qed.
(* impulses add up to the held level, which never leaves [-1/2, 1/2], over any number of blocks with any settings and draws *)
Theorem C244_held_level : forall bs A v A' v' es, Forall (fun b => scfg_ok (fst (fst b))) bs -> svoice_ok v -> snh_run bs A v = Some (A', v', es) ->
  svoice_ok v' /\ h_last v' = h_last v + sumR (map v_g es) /\ forall k, Rabs (h_last v + sumR (firstn k (map v_g es))) <= 1 / 2.
Proof.
  induction bs as [|[[c a] ds] bs IH]; intros A v A' v' es F V E.
  - cbn [snh_run] in E. injection E as <- <- <-. split; [exact V|]. cbn [map sumR]. split; [ring|]. intros k. rewrite firstn_nil. cbn [sumR]. rewrite Rplus_0_r. apply V.
  - inversion F as [|? ? K F']; subst. cbn [fst] in K. destruct (snh_run_cons _ _ _ _ _ _ _ _ _ E) as (v0 & v1 & es1 & d1 & es2 & L & -> & R2 & ->).
    destruct (snh_loop_ok _ _ _ _ _ _ _ K V L) as (O1 & O2 & O3). destruct (loop_levels _ _ _ _ _ _ _ K V L) as [L1 L2].
    destruct (IH _ _ _ _ _ F' (snh_advance_ok c a v0 O1 O2 O3) R2) as (I1 & I2 & I3). change (h_last (snh_advance c a v0)) with (h_last v0) in *.
    split; [exact I1|]. rewrite map_app, sum_shift, sumR_app. split; [rewrite I2, L1; ring|]. intros k. rewrite firstn_app, sumR_app.
    destruct (Nat.le_gt_cases (length (map v_g es1)) k) as [H|H].
    + rewrite (firstn_all2 (map v_g es1)) by exact H. rewrite <- Rplus_assoc, <- L1. apply I3.
    + replace (k - length (map v_g es1))%nat with 0%nat by lia. cbn [firstn sumR]. rewrite Rplus_0_r. apply L2.
Qed.
Print Assumptions C244_held_level.
(* the impulses come in order of time, each inside its block *)
Lemma loop_order : forall c a ds v v' es ds', scfg_ok c -> svoice_ok v -> snh_loop ds c a v = Some (v', es, ds') ->
  ascending (nextp v) (map v_pos es) /\ Forall (fun e => 0 <= v_pos e < a) es.
Proof.
  intros c a ds v v' es ds' K V E. apply (snh_ind c a (fun v v' es => ascending (nextp v) (map v_pos es) /\ Forall (fun e => 0 <= v_pos e < a) es) K) with (4 := E); [| |exact V].
  - intros. cbn. auto.
  - intros v0 r v1 e v2 es2 V0 V1 M C [P1 P2]. pose proof (convolute_cases c r v0 K V0) as Q. rewrite C in Q. destruct Q as (_ & G & _ & N & _). cbn [map ascending].
    split; [split; [lra|]|].
    + rewrite G. destruct es2 as [|e2 es2]; [exact I|]. cbn [map ascending] in *. destruct P1 as [P1 P3]. split; [lra|exact P3].
    + constructor; [|exact P2]. rewrite G. split; [|exact M]. destruct V0 as (? & ? & _). unfold nextp, Rmin. destruct (Rle_dec _ _); lra.
Qed.
Theorem C244_in_order : forall ds c a v v' es ds', scfg_ok c -> svoice_ok v -> snh_voice_block ds c a v = Some (v', es, ds') ->
  ascending 0 (map v_pos es) /\ Forall (fun e => 0 <= v_pos e < a) es.
Proof.
  intros ds c a v v' es ds' K V E. destruct (snh_block_inv _ _ _ _ _ _ _ E) as (v0 & L & _). destruct (loop_order _ _ _ _ _ _ _ K V L) as [P1 P2]. split; [|exact P2].
  destruct es as [|e es]; [exact I|]. cbn [map ascending] in *. split; [|apply P1]. inversion P2; subst. lra.
Qed.
Print Assumptions C244_in_order.
(* uncorrelated: the level is the draw, held to +-1/2, whatever came before; otherwise the last level enters against the sign of Correlation *)
Theorem C244_correlation : forall w r l, Rabs w < 1 ->
  (w = 0 -> snh_level w r l = Rmin (1 / 2) (Rmax (- (1 / 2)) r)) /\
  snh_level w r l = Rmin (1 / 2) (Rmax (- (1 / 2)) (r - w / (1 - Rabs w) * l)) /\
  (0 <= w -> forall l2, l <= l2 -> snh_level w r l2 <= snh_level w r l) /\ (w <= 0 -> forall l2, l <= l2 -> snh_level w r l <= snh_level w r l2).
Proof.
  intros w r l W.
  assert (E : forall l, snh_level w r l = Rmin (1 / 2) (Rmax (- (1 / 2)) (r - w / (1 - Rabs w) * l))).
  { intros x. unfold snh_level. do 2 f_equal. field. lra. }
  split; [|split; [apply E|]].
  - intros ->. unfold snh_level. do 2 f_equal. rewrite Rabs_R0. field.
  - assert (M : forall x y, x <= y -> Rmin (1 / 2) (Rmax (- (1 / 2)) x) <= Rmin (1 / 2) (Rmax (- (1 / 2)) y)) by (intros; unfold Rmin, Rmax; repeat destruct (Rle_dec _ _); lra).
    assert (I0 : 0 < / (1 - Rabs w)) by (apply Rinv_0_lt_compat; lra).
    split; intros H l2 Hl; rewrite !E; apply M; unfold Rdiv.
    + assert (0 <= w * / (1 - Rabs w)) by (apply Rmult_le_pos; lra). assert (w * / (1 - Rabs w) * l <= w * / (1 - Rabs w) * l2) by (apply Rmult_le_compat_l; assumption). lra.
    + assert (0 <= - w * / (1 - Rabs w)) by (apply Rmult_le_pos; lra). assert (- w * / (1 - Rabs w) * l <= - w * / (1 - Rabs w) * l2) by (apply Rmult_le_compat_l; assumption). lra.
Qed.
Print Assumptions C244_correlation.

(** ** C245: two levels a period, of lengths set by Width *)
Definition P2 (c : snh_cfg) (p0 : R) (k : nat) : R := p0 + n_t c * INR (k / 2) + (if Nat.eqb (k mod 2) 0 then 0 else n_t c * n_pw c).
Definition at_k (c : snh_cfg) (p0 : R) (k : nat) (A : R) (v : snh_voice) : Prop :=
  A + h_osc v = P2 c p0 k /\ h_state v = Z.of_nat (k mod 2) /\ (h_state v = 1%Z -> h_pw v = n_pw c).
Lemma mod2_cases : forall k, (exists m, k = 2 * m)%nat \/ (exists m, k = 2 * m + 1)%nat.
Proof. intros k. pose proof (Nat.div_mod k 2 ltac:(lia)) as H. pose proof (Nat.mod_upper_bound k 2 ltac:(lia)). destruct (k mod 2)%nat as [|[|?]]; [left|right|lia]; exists (k / 2)%nat; lia. Qed.
Lemma dm_even : forall m, (2 * m / 2 = m /\ 2 * m mod 2 = 0)%nat.
Proof. intros m. rewrite Nat.mul_comm. split; [apply Nat.div_mul; lia|apply Nat.mod_mul; lia]. Qed.
Lemma dm_odd : forall m, ((2 * m + 1) / 2 = m /\ (2 * m + 1) mod 2 = 1)%nat.
Proof. intros m. rewrite Nat.add_comm, Nat.mul_comm. split; [rewrite Nat.div_add by lia; reflexivity|rewrite Nat.mod_add by lia; reflexivity]. Qed.
Lemma P2_even : forall c p0 m, P2 c p0 (2 * m) = p0 + n_t c * INR m.
Proof. intros. unfold P2. destruct (dm_even m) as [-> ->]. cbn [Nat.eqb]. ring. Qed.
Lemma P2_odd : forall c p0 m, P2 c p0 (2 * m + 1) = p0 + n_t c * INR m + n_t c * n_pw c.
Proof. intros. unfold P2. destruct (dm_odd m) as [-> ->]. cbn [Nat.eqb]. ring. Qed.
Lemma step_k : forall c r p0 k A v, scfg_ok c -> svoice_ok v -> ~ synced v -> at_k c p0 k A v ->
  let '(v', e) := snh_convolute c r v in at_k c p0 (Datatypes.S k) A v' /\ A + v_pos e = P2 c p0 k /\ h_sync v' = h_sync v.
Proof.
  intros c r p0 k A v K V NS (A1 & A2 & A3). pose proof (convolute_cases c r v K V) as Q. destruct (snh_convolute c r v) as [v' e].
  destruct Q as (Q1 & Q2 & Q3 & Q4 & (pw & Q5 & Q6 & Q7 & Q8) & Q9 & Q10 & Q11). assert (N : nextp v = h_osc v) by (unfold nextp, synced in *; apply Rmin_left; lra).
  split; [|split; [rewrite Q2, N; exact A1|exact (Q10 NS)]].
  destruct (mod2_cases k) as [[m ->]|[m ->]].
  - destruct (dm_even m) as [D1 D2]. rewrite D2 in A2. change (Z.of_nat 0) with 0%Z in A2. destruct (Q7 (or_intror A2)) as (B1 & B2 & B3).
    replace (Datatypes.S (2 * m)) with (2 * m + 1)%nat by lia. unfold at_k. rewrite P2_odd, (proj2 (dm_odd m)). rewrite P2_even in A1. rewrite B3, N, B2. split; [lra|]. split; [reflexivity|]. intros _. congruence.
  - destruct (dm_odd m) as [D1 D2]. rewrite D2 in A2. change (Z.of_nat 1) with 1%Z in A2. destruct (Q8 NS A2) as (B1 & B2 & B3). specialize (A3 A2).
    replace (Datatypes.S (2 * m + 1)) with (2 * (m + 1))%nat by lia. unfold at_k. rewrite P2_even, (proj2 (dm_even (m + 1))). rewrite P2_odd in A1. rewrite B3, N, B2, A3, plus_INR. cbn [INR].
    split; [|split; [reflexivity|intros; discriminate]]. clear - A1. lra.
Qed.
Lemma loop_k : forall c a p0 A ds v v' es ds', scfg_ok c -> svoice_ok v -> snh_loop ds c a v = Some (v', es, ds') -> forall k, at_k c p0 k A v -> a <= h_sync v ->
  at_k c p0 (k + length es) A v' /\ h_sync v' = h_sync v /\ (forall i d, (i < length es)%nat -> A + v_pos (nth i es d) = P2 c p0 (k + i)).
Proof.
  intros c a p0 A ds v v' es ds' K V E.
  apply (snh_ind c a (fun v v' es => forall k, at_k c p0 k A v -> a <= h_sync v -> at_k c p0 (k + length es) A v' /\ h_sync v' = h_sync v /\ (forall i d, (i < length es)%nat -> A + v_pos (nth i es d) = P2 c p0 (k + i))) K) with (4 := E); [| |exact V].
  - intros v0 V0 M k H S0. cbn [length]. rewrite Nat.add_0_r. repeat split; try apply H. intros; lia.
  - intros v0 r v1 e v2 es2 V0 V1 M C IH k H S0.
    assert (NS : ~ synced v0) by (unfold synced, nextp, Rmin in *; destruct (Rle_dec _ _); lra).
    pose proof (step_k c r p0 k A v0 K V0 NS H) as Q. rewrite C in Q. destruct Q as (Q1 & Q2 & Q3).
    destruct (IH (Datatypes.S k) Q1 ltac:(lra)) as (I1 & I2 & I3). cbn [length]. rewrite <- Nat.add_succ_comm. split; [exact I1|]. split; [congruence|].
    intros [|i] d L; cbn [nth]. { rewrite Nat.add_0_r. exact Q2. }
    rewrite <- Nat.add_succ_comm. apply I3. lia.
Qed.
Lemma run_k : forall c p0 bs k A v A' v' es, scfg_ok c -> n_sync c = 0 -> svoice_ok v -> at_k c p0 k A v ->
  Forall (fun b => 0 <= fst b <= h_sync v) bs -> snh_run (map (fun b => (c, fst b, snd b)) bs) A v = Some (A', v', es) -> A <= P2 c p0 k ->
  (forall i d, (i < length es)%nat -> v_pos (nth i es d) = P2 c p0 (k + i) /\ P2 c p0 (k + i) < A') /\ A' <= P2 c p0 (k + length es) /\ h_sync v' = h_sync v /\ A <= A'.
Proof.
  intros c p0. induction bs as [|[a ds] bs IH]; intros k A0 v0 A' v' es0 K S0 V AT F E L; cbn [map fst snd] in E.
  - cbn [snh_run] in E. injection E as <- <- <-. cbn [length]. rewrite Nat.add_0_r. repeat split; try lra; intros; lia.
  - inversion F as [|? ? F0 F']; subst. cbn [fst] in F0. destruct (snh_run_cons _ _ _ _ _ _ _ _ _ E) as (w0 & w1 & es1 & d1 & es2 & L1 & -> & R2 & ->).
    destruct (snh_loop_ok _ _ _ _ _ _ _ K V L1) as (O1 & O2 & O3). destruct (loop_k c a p0 A0 _ _ _ _ _ K V L1 k AT ltac:(lra)) as (B1 & B2 & B3). pose proof (loop_order _ _ _ _ _ _ _ K V L1) as [_ B4].
    assert (SY : h_sync (snh_advance c a w0) = h_sync v0). { unfold snh_advance. cbn [h_sync]. rewrite S0. destruct (Rlt_dec 0 0); lra. }
    assert (AT2 : at_k c p0 (k + length es1) (A0 + a) (snh_advance c a w0)). { destruct B1 as (C1 & C2 & C3). unfold at_k, snh_advance. cbn [h_osc h_state h_pw]. split; [rewrite <- C1; ring|]. split; [exact C2|exact C3]. }
    destruct (IH (k + length es1)%nat (A0 + a) _ A' v' es2 K S0 (snh_advance_ok c a w0 O1 O2 O3) AT2 ltac:(rewrite SY; exact F') R2) as (I1 & I2 & I3 & I4).
    { destruct B1 as (C1 & _). rewrite <- C1. lra. }
    rewrite app_length, map_length, Nat.add_assoc. split; [|split; [exact I2|split; [congruence|lra]]].
    intros i d Hi. destruct (Nat.lt_ge_cases i (length es1)) as [H|H].
    + rewrite app_nth1 by (rewrite map_length; exact H). rewrite (nth_indep _ _ (sshift A0 d)) by (rewrite map_length; exact H). rewrite map_nth. unfold sshift at 1. cbn [v_pos]. rewrite (B3 i d H). split; [reflexivity|].
      rewrite <- (B3 i d H). pose proof (proj1 (Forall_forall _ _) B4 (nth i es1 d) (nth_In _ _ H)) as Q. cbv beta in Q. lra.
    + rewrite app_nth2 by (rewrite map_length; exact H). rewrite map_length. destruct (I1 (i - length es1)%nat d) as [J1 J2]; [lia|]. replace (k + i)%nat with (k + length es1 + (i - length es1))%nat by lia. auto.
Qed.
(* Sync off and the master out of the way (as it is from the second block of a note on, C246): impulse k is at P2 k, none is missed *)
Theorem C245_two_levels_a_period : forall c bs A v A' v' es, scfg_ok c -> n_sync c = 0 -> svoice_ok v -> h_state v = 0%Z ->
  Forall (fun b => 0 <= fst b <= h_sync v) bs -> snh_run (map (fun b => (c, fst b, snd b)) bs) A v = Some (A', v', es) ->
  let P := P2 c (A + h_osc v) in
  (forall i d, (i < length es)%nat -> v_pos (nth i es d) = P i /\ P i < A') /\ A' <= P (length es) /\ h_sync v' = h_sync v.
Proof.
  intros c bs A v A' v' es K S0 V ST F E. cbv zeta. set (p0 := A + h_osc v).
  destruct (run_k c p0 bs 0%nat A v A' v' es K S0 V) as (G1 & G2 & G3 & _).
  - unfold at_k. rewrite (P2_even c p0 0 : P2 c p0 0 = _). change (0 mod 2)%nat with 0%nat. cbn [INR]. unfold p0. split; [ring|]. split; [exact ST|]. rewrite ST. intros; discriminate.
  - exact F.
  - exact E.
  - rewrite (P2_even c p0 0 : P2 c p0 0 = _). unfold p0. cbn [INR]. destruct V as (? & _). lra.
  - auto.
Qed.
Print Assumptions C245_two_levels_a_period.
Theorem C245_lengths : forall c p0 m, P2 c p0 (2 * m + 1) - P2 c p0 (2 * m) = n_t c * n_pw c /\ P2 c p0 (2 * (m + 1)) - P2 c p0 (2 * m) = n_t c.
Proof. intros. rewrite P2_odd, !P2_even, plus_INR. cbn [INR]. split; ring. Qed.
Print Assumptions C245_lengths.
