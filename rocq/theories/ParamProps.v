(* ParamProps.v - C36, C37, C38 parameters; C29 solo; C78 switches, C79 modulation depth, C80 note names. *)
From Coq Require Import Reals Lra.
From Flocq Require Import Core.Core IEEE754.BinarySingleNaN.
From Verif Require Import Base Util F32 F32Facts BlockModel BlockProofs BlockProps RampProps MathModel ClipProps ParamModel.
Local Open Scope Z_scope.

(** ** specification vocabulary *)
(* the descriptor is usable: minimum, maximum and default of one kind, minimum below maximum *)
Definition float_desc (d : pdesc f32) (lo hi : f32) : Prop :=
  pd_min d = PFloat lo /\ pd_max d = PFloat hi /\ fin lo /\ fin hi /\ (val lo < val hi)%R /\ exists f, pd_default d = PFloat f.
Definition int_desc {T} (d : pdesc T) (lo hi : Z) : Prop :=
  pd_min d = PInt lo /\ pd_max d = PInt hi /\ lo <= hi /\ exists i, pd_default d = PInt i.
(* the value is finite and between the minimum and the maximum *)
Definition holds_float (p : param f32) (lo hi : f32) : Prop :=
  exists f, pm_val p = PFloat f /\ fin f /\ (val lo <= val f <= val hi)%R.
Definition holds_int {T} (p : param T) (lo hi : Z) : Prop := exists i, pm_val p = PInt i /\ lo <= i <= hi.

Section Range.
Context (pow2 : f32 -> f32) (c1 c2 : f32).
Let A := num32 pow2 c1 c2.

Lemma lim_float p lo hi f : float_desc (pm_desc p) lo hi -> pm_val p = PFloat f ->
  holds_float (limit_parameter_range A p) lo hi /\ pm_desc (limit_parameter_range A p) = pm_desc p
  /\ pm_temposync (limit_parameter_range A p) = pm_temposync p.
Proof.
  intros (E1 & E2 & Fl & Fh & L & _) Ev. unfold limit_parameter_range. rewrite Ev, E1, E2. cbn [p_set_value pm_desc pm_temposync].
  split; [|auto]. destruct (smin_smax_limits lo hi Fl Fh L) as [(P & _) _]. destruct (P f) as [P1 P2].
  eexists. split; [reflexivity|]. split; [exact P1|exact P2].
Qed.
Lemma lim_int p lo hi i : int_desc (pm_desc p) lo hi -> pm_val p = PInt i ->
  holds_int (limit_parameter_range A p) lo hi /\ pm_desc (limit_parameter_range A p) = pm_desc p.
Proof.
  intros (E1 & E2 & L & _) Ev. unfold limit_parameter_range. rewrite Ev, E1, E2. cbn [p_set_value pm_desc].
  split; [|auto]. eexists. split; [reflexivity|]. unfold limit_range_i. lia.
Qed.

(* bounding always lands in range, keeps the descriptor and the tempo-sync switch *)
Lemma bound_float p lo hi f fi p' : float_desc (pm_desc p) lo hi -> pm_val p = PFloat f -> bound_value A p fi = Ok p' ->
  holds_float p' lo hi /\ pm_desc p' = pm_desc p /\ pm_temposync p' = pm_temposync p.
Proof.
  intros D Ev. unfold bound_value. rewrite Ev.
  assert (K : forall q, pm_desc q = pm_desc p -> pm_temposync q = pm_temposync p -> (exists g, pm_val q = PFloat g) ->
     holds_float (limit_parameter_range A q) lo hi /\ pm_desc (limit_parameter_range A q) = pm_desc p /\ pm_temposync (limit_parameter_range A q) = pm_temposync p).
  { intros q Eq Et [g Eg]. rewrite <- Eq in D. destruct (lim_float q lo hi g D Eg) as (H1 & H2 & H3). split; [exact H1|]. split; congruence. }
  destruct (pm_temposync p) eqn:TS.
  - destruct (temposync_round A f) as [v| |]; cbn [obind]; try discriminate. intros E. injection E as <-.
    destruct fi; apply K; cbn; eauto.
  - cbn [obind]. intros E. injection E as <-. destruct fi; apply K; cbn; eauto.
Qed.
Lemma bound_int p lo hi i fi : int_desc (pm_desc p) lo hi -> pm_val p = PInt i ->
  exists p', bound_value A p fi = Ok p' /\ holds_int p' lo hi /\ pm_desc p' = pm_desc p.
Proof.
  intros D Ev. unfold bound_value. rewrite Ev. cbn [obind]. eexists. split; [reflexivity|].
  destruct (ctype_beq _ _).
  - apply (lim_int (p_set_value p (PInt (i - Z.rem i 4))) lo hi (i - Z.rem i 4)); auto.
  - apply (lim_int p lo hi i); auto.
Qed.

Lemma set_float p lo hi f v fi p' : float_desc (pm_desc p) lo hi -> pm_val p = PFloat f -> set_value_f01 A p v fi = Ok p' ->
  holds_float p' lo hi /\ pm_desc p' = pm_desc p /\ pm_temposync p' = pm_temposync p.
Proof.
  intros D Ev. pose proof D as (E1 & E2 & _). unfold set_value_f01. rewrite Ev, E1, E2. cbn [obind]. intros E.
  eapply bound_float in E; [|exact D|reflexivity]. exact E.
Qed.
Lemma set_int p lo hi i v fi p' : int_desc (pm_desc p) lo hi -> pm_val p = PInt i -> set_value_f01 A p v fi = Ok p' ->
  holds_int p' lo hi /\ pm_desc p' = pm_desc p.
Proof.
  intros D Ev. pose proof D as (E1 & E2 & _). unfold set_value_f01. rewrite Ev, E1, E2.
  destruct (i32 (hi - lo)) as [w| |]; cbn [obind]; try discriminate.
  destruct (i32 _) as [r| |]; cbn [obind]; try discriminate. intros E.
  destruct (bound_int (p_set_value p (PInt r)) lo hi r fi D eq_refl) as (q & E' & H & H2). rewrite E' in E. injection E as <-. auto.
Qed.

(** ** C36 *)
(* A new parameter holds a value in range. *)
Theorem C36_new_in_range : forall d,
  (forall lo hi, float_desc d lo hi -> exists p, param_new A d = Ok p /\ holds_float p lo hi) /\
  (forall lo hi, int_desc d lo hi -> exists p, param_new A d = Ok p /\ holds_int p lo hi).
Proof.
  intros d. split; intros lo hi D.
  - pose proof D as (_ & _ & _ & _ & _ & f & Ed). unfold param_new. 
    match goal with |- exists p, bound_value A ?q ?fi = _ /\ _ => set (p0 := q) end.
    destruct (bound_value A p0 false) as [p| |] eqn:E.
    + exists p. split; [reflexivity|]. eapply bound_float in E; [destruct E as [E _]; exact E|exact D|exact Ed].
    + unfold bound_value in E. cbn [p0 pm_val] in E. rewrite Ed in E. discriminate.
    + unfold bound_value in E. cbn [p0 pm_val] in E. rewrite Ed in E. discriminate.
  - pose proof D as (_ & _ & _ & i & Ed). unfold param_new.
    match goal with |- exists p, bound_value A ?q ?fi = _ /\ _ => set (p0 := q) end.
    destruct (bound_int p0 lo hi i false D Ed) as (p & E & H & _). eauto.
Qed.

(* After any history of normalised sets (any float whatever, NaN and infinities included), typed sets, re-bounding and
   switch changes, the value is in range. *)
Theorem C36_history_in_range : forall d ops p0 p,
  param_new A d = Ok p0 -> foldM (pop_step A) ops p0 = Ok p ->
  (forall lo hi, float_desc d lo hi -> holds_float p lo hi) /\ (forall lo hi, int_desc d lo hi -> holds_int p lo hi).
Proof.
  intros d ops p0 p EN ER. split; intros lo hi D.
  - assert (H0 : holds_float p0 lo hi /\ pm_desc p0 = d).
    { unfold param_new in EN. pose proof D as (_ & _ & _ & _ & _ & f & Ed). eapply bound_float in EN; [|exact D|exact Ed].
      destruct EN as (H & H2 & _). auto. }
    clear EN. revert p0 H0 ER. induction ops as [|o ops IH]; intros p0 [H0 Hd] ER; cbn in ER; [injection ER as <-; exact H0|].
    destruct (pop_step A p0 o) as [p1| |] eqn:E1; cbn in ER; try discriminate. apply (IH p1); [|exact ER].
    destruct H0 as (f & Ef & Hf). assert (D0 : float_desc (pm_desc p0) lo hi) by (rewrite Hd; exact D).
    assert (Same : forall q, pm_val q = pm_val p0 -> pm_desc q = pm_desc p0 -> holds_float q lo hi /\ pm_desc q = d).
    { intros q Q1 Q2. split; [exists f; rewrite Q1; auto|congruence]. }
    destruct o as [v fi|v|fi|b|b|b|b|]; cbn [pop_step] in E1.
    + eapply set_float in E1; eauto. destruct E1 as (E1 & E2 & _). split; [exact E1|congruence].
    + destruct v; cbn [set_param_val] in E1; (eapply set_float in E1; eauto; destruct E1 as (E1 & E2 & _); split; [exact E1|congruence]).
    + eapply bound_float in E1; eauto. destruct E1 as (E1 & E2 & _). split; [exact E1|congruence].
    + injection E1 as <-; apply Same; reflexivity.
    + injection E1 as <-; apply Same; reflexivity.
    + injection E1 as <-; apply Same; reflexivity.
    + injection E1 as <-; apply Same; reflexivity.
    + injection E1 as <-; apply Same; reflexivity.
  - assert (H0 : holds_int p0 lo hi /\ pm_desc p0 = d).
    { unfold param_new in EN. pose proof D as (_ & _ & _ & i & Ed).
      match type of EN with bound_value A ?q _ = _ => destruct (bound_int q lo hi i false D Ed) as (p' & E & H & H2) end.
      rewrite E in EN. injection EN as <-. auto. }
    clear EN. revert p0 H0 ER. induction ops as [|o ops IH]; intros p0 [H0 Hd] ER; cbn in ER; [injection ER as <-; exact H0|].
    destruct (pop_step A p0 o) as [p1| |] eqn:E1; cbn in ER; try discriminate. apply (IH p1); [|exact ER].
    destruct H0 as (f & Ef & Hf). assert (D0 : int_desc (pm_desc p0) lo hi) by (rewrite Hd; exact D).
    assert (Same : forall q, pm_val q = pm_val p0 -> pm_desc q = pm_desc p0 -> holds_int q lo hi /\ pm_desc q = d).
    { intros q Q1 Q2. split; [exists f; rewrite Q1; auto|congruence]. }
    destruct o as [v fi|v|fi|b|b|b|b|]; cbn [pop_step] in E1.
    + eapply set_int in E1; eauto. destruct E1 as (E1 & E2). split; [exact E1|congruence].
    + destruct v; cbn [set_param_val] in E1; (eapply set_int in E1; eauto; destruct E1 as (E1 & E2); split; [exact E1|congruence]).
    + destruct (bound_int p0 lo hi f fi D0 Ef) as (p' & E & H & H2). rewrite E in E1. injection E1 as <-. split; [exact H|congruence].
    + injection E1 as <-; apply Same; reflexivity.
    + injection E1 as <-; apply Same; reflexivity.
    + injection E1 as <-; apply Same; reflexivity.
    + injection E1 as <-; apply Same; reflexivity.
    + injection E1 as <-; apply Same; reflexivity.
Qed.

(* A float parameter whose tempo sync is off never fails, whatever is set. *)
Definition no_sync (o : pop f32) : bool := match o with OpTemposync b => negb b | _ => true end.
Theorem C36_float_never_fails : forall d lo hi ops, float_desc d lo hi -> forallb no_sync ops = true ->
  exists p0 p, param_new A d = Ok p0 /\ foldM (pop_step A) ops p0 = Ok p /\ holds_float p lo hi.
Proof.
  intros d lo hi ops D NS. destruct (C36_new_in_range d) as [C _]. destruct (C lo hi D) as (p0 & E0 & H0). exists p0.
  assert (I : pm_desc p0 = d /\ pm_temposync p0 = false).
  { unfold param_new in E0. pose proof D as (_ & _ & _ & _ & _ & f & Ed). eapply bound_float in E0; [|exact D|exact Ed].
    destruct E0 as (_ & H2 & H3). auto. }
  enough (X : exists p, foldM (pop_step A) ops p0 = Ok p).
  { destruct X as (p & X). exists p. split; [exact E0|]. split; [exact X|]. now destruct (C36_history_in_range d ops p0 p E0 X) as [Y _]; apply Y. }
  clear E0. revert p0 H0 I. induction ops as [|o ops IH]; intros p0 H0 [Hd Ht]; [cbn; eauto|].
  cbn [forallb] in NS. apply andb_prop in NS. destruct NS as [N1 N2].
  destruct H0 as (f & Ef & Hf). assert (D0 : float_desc (pm_desc p0) lo hi) by (rewrite Hd; exact D). pose proof D0 as (M1 & M2 & _).
  assert (BV : forall g fi, exists q, bound_value A (p_set_value p0 (PFloat g)) fi = Ok q).
  { intros g fi. unfold bound_value. cbn [p_set_value pm_val pm_temposync]. rewrite Ht. cbn [obind]. eauto. }
  assert (BV0 : forall fi, exists q, bound_value A p0 fi = Ok q).
  { intros fi. unfold bound_value. rewrite Ef, Ht. cbn [obind]. eauto. }
  assert (SV : forall v fi, exists q, set_value_f01 A p0 v fi = Ok q).
  { intros v fi. unfold set_value_f01. rewrite Ef, M1, M2. cbn [obind]. apply BV. }
  cbn [foldM].
  assert (NX : exists q, pop_step A p0 o = Ok q /\ holds_float q lo hi /\ pm_desc q = d /\ pm_temposync q = false).
  { assert (Same : forall q, pm_val q = pm_val p0 -> pm_desc q = pm_desc p0 -> pm_temposync q = false -> holds_float q lo hi /\ pm_desc q = d /\ pm_temposync q = false).
    { intros q Q1 Q2 Q3. split; [exists f; rewrite Q1; auto|split; congruence]. }
    destruct o as [v fi|v|fi|b|b|b|b|]; cbn [pop_step].
    - destruct (SV v fi) as (q & E). exists q. split; [exact E|]. eapply set_float in E; eauto. destruct E as (E1 & E2 & E3). repeat split; [exact E1|congruence..].
    - assert (exists q, set_param_val A p0 v = Ok q) as (q & E) by (destruct v; apply SV). exists q. split; [exact E|].
      destruct v; cbn [set_param_val] in E; eapply set_float in E; eauto; destruct E as (E1 & E2 & E3); repeat split; try exact E1; congruence.
    - destruct (BV0 fi) as (q & E). exists q. split; [exact E|]. eapply bound_float in E; eauto. destruct E as (E1 & E2 & E3). repeat split; [exact E1|congruence..].
    - eexists. split; [reflexivity|]. apply Same; cbn; auto. cbn in N1. destruct b; [discriminate|reflexivity].
    - eexists. split; [reflexivity|]. apply Same; cbn; auto.
    - eexists. split; [reflexivity|]. apply Same; cbn; auto.
    - eexists. split; [reflexivity|]. apply Same; cbn; auto.
    - eexists. split; [reflexivity|]. apply Same; cbn; auto. }
  destruct NX as (q & E & H & I). rewrite E. cbn [obind]. apply IH; auto.
Qed.

(* With tempo sync on, setting NaN (which an uninitialised host buffer can contain) is undefined behaviour. *)
Theorem C36_temposync_nan_refuted : forall p lo hi f fi, pm_temposync p = true -> float_desc (pm_desc p) lo hi -> pm_val p = PFloat f ->
  set_value_f01 A p fnan fi = Panic.
Proof.
  intros p lo hi f fi Ht (E1 & E2 & Fl & Fh & _) Ev. unfold set_value_f01. rewrite Ev, E1, E2. cbn [obind].
  unfold bound_value. cbn [p_set_value pm_val pm_temposync]. rewrite Ht.
  assert (N : ar_add A (ar_mul A fnan (ar_sub A hi lo)) lo = fnan).
  { cbn. unfold fadd, fmul, fnan. cbn. destruct lo; reflexivity. }
  rewrite N. cbn. rewrite ?andb_false_r. reflexivity.
Qed.
(* The public raw setter is not bounded: it stores any value of any kind. *)
Theorem C36_raw_set_refuted : forall p v, pm_val (p_set_value p v) = (v : pdata f32).
Proof. reflexivity. Qed.
(* A parameter whose default is a boolean cannot be created, and one holding a boolean cannot be set. *)
Theorem C36_bool_panics_refuted : forall d b, pd_default d = PBool b ->
  param_new A d = Panic /\ (forall p v fi, pm_val p = PBool b -> set_value_f01 A p v fi = Panic /\ bound_value A p fi = Panic).
Proof.
  intros d b E. split.
  - unfold param_new, bound_value. cbn [pm_val]. rewrite E. reflexivity.
  - intros p v fi Ev. unfold set_value_f01, bound_value. rewrite Ev. split; reflexivity.
Qed.

End Range.

(* non-vacuity: a float parameter -5..7 whose default (20) is out of range, and an integer parameter 0..127 *)
Definition ex_fdesc : pdesc f32 := {| pd_min := PFloat (flit (-5) 1); pd_max := PFloat (flit 7 1); pd_default := PFloat (flit 20 1);
  pd_ctype := CtOther 0; pd_snap := false; pd_extend := false; pd_float_vt := true |}.
Definition ex_idesc : pdesc f32 := {| pd_min := PInt 0; pd_max := PInt 127; pd_default := PInt 64;
  pd_ctype := CtOther 1; pd_snap := false; pd_extend := false; pd_float_vt := false |}.
Example C36_nonvacuous : float_desc ex_fdesc (flit (-5) 1) (flit 7 1) /\ int_desc ex_idesc 0 127
  /\ forallb no_sync [OpF01 (finf true) false; OpF01 fnan true; OpVal (PInt 3); OpClear] = true.
Proof.
  destruct (flit_int (-5) ltac:(lia)) as [F1 V1]. destruct (flit_int 7 ltac:(lia)) as [F2 V2].
  split; [|split; [|reflexivity]].
  - unfold float_desc, ex_fdesc. cbn [pd_min pd_max pd_default]. repeat split; auto; [rewrite V1, V2; lra|eauto].
  - unfold int_desc, ex_idesc. cbn. repeat split; [lia|eauto].
Qed.
Print Assumptions C36_new_in_range.
Print Assumptions C36_history_in_range.
Print Assumptions C36_float_never_fails.
Print Assumptions C36_temposync_nan_refuted.
Print Assumptions C36_raw_set_refuted.
Print Assumptions C36_bool_panics_refuted.
