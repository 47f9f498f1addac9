(* VoiceProps3.v - C197 (a filter whose type changes starts afresh) and C198 (voices sharing a quad keep to their lanes). *)
From Coq Require Import Reals Lra.
From Verif Require Import Base Util LagModel BlockModel AdsrModel BiquadModel UnitModel QfModel VoiceModel.
Local Open Scope R_scope.

(** ** C197 changing a filter's type *)
(* a filter unit at rest: silent registers, write position 0 *)
Definition fresh_unit (ty sub : Z) (f : funit) : Prop := length (fu_reg f) = 15%nat /\ Forall (fun x => x = 0) (fu_reg f) /\ fu_wp f = 0%Z /\ fu_ty f = ty /\ fu_sub f = sub.
Lemma fresh_set ty sub : fresh_unit ty sub (fu_set ty sub).
Proof. unfold fresh_unit, fu_set, n_reg. cbn [fu_reg fu_wp fu_ty fu_sub]. repeat split. repeat constructor. Qed.
Definition asked (t0 s0 t1 s1 : Z) (u : nat) : Z * Z := if Nat.eqb u 0 then (t0, s0) else (t1, s1).
Lemma toggle_at cfg t0 s0 t1 s1 s u : (u < 2)%nat ->
  let s' := toggle_filter cfg t0 s0 t1 s1 s in let a := asked t0 s0 t1 s1 u in
  if ((fst a =? fu_ty (fs_u s u)) && (snd a =? fu_sub (fs_u s u)))%Z then fs_u s' u = fs_u s u /\ fs_u s' (u + 2)%nat = fs_u s (u + 2)%nat /\ fs_c s' u = fs_c s u
  else fs_u s' u = fu_set (fst a) (snd a) /\ fs_u s' (u + 2)%nat = (if is_wide cfg then fu_set (fst a) (snd a) else fs_u s (u + 2)%nat) /\ fs_c s' u = cm_new.
Proof.
  intros Hu s' a. subst s' a. unfold toggle_filter, asked.
  assert (N : forall t sb s, fs_u (toggle_filter1 cfg 0 t sb s) 1%nat = fs_u s 1%nat /\ fs_u (toggle_filter1 cfg 0 t sb s) 3%nat = fs_u s 3%nat /\ fs_c (toggle_filter1 cfg 0 t sb s) 1%nat = fs_c s 1%nat).
  { intros t sb x. unfold toggle_filter1. destruct (_ && _); [auto|]. destruct (is_wide cfg); repeat split. }
  assert (M : forall t sb s, fs_u (toggle_filter1 cfg 1 t sb s) 0%nat = fs_u s 0%nat /\ fs_u (toggle_filter1 cfg 1 t sb s) 2%nat = fs_u s 2%nat /\ fs_c (toggle_filter1 cfg 1 t sb s) 0%nat = fs_c s 0%nat).
  { intros t sb x. unfold toggle_filter1. destruct (_ && _); [auto|]. destruct (is_wide cfg); repeat split. }
  assert (u = 0 \/ u = 1)%nat as [->| ->] by lia; cbn [Nat.eqb fst snd Nat.add].
  - destruct (M t1 s1 (toggle_filter1 cfg 0 t0 s0 s)) as (-> & -> & ->). unfold toggle_filter1. destruct (_ && _); [auto|]. destruct (is_wide cfg); repeat split.
  - destruct (N t0 s0 s) as (E1 & E3 & EC). set (x := toggle_filter1 cfg 0 t0 s0 s) in *. rewrite <- E1, <- E3, <- EC. unfold toggle_filter1. destruct (_ && _); [auto|]. destruct (is_wide cfg); repeat split.
Qed.
(* nothing is disturbed while the type and subtype stay *)
Theorem C197_unchanged : forall cfg t0 s0 t1 s1 s u, (u < 2)%nat -> asked t0 s0 t1 s1 u = (fu_ty (fs_u s u), fu_sub (fs_u s u)) ->
  let s' := toggle_filter cfg t0 s0 t1 s1 s in fs_u s' u = fs_u s u /\ fs_u s' (u + 2)%nat = fs_u s (u + 2)%nat /\ fs_c s' u = fs_c s u.
Proof.
  intros cfg t0 s0 t1 s1 s u Hu H s'. pose proof (toggle_at cfg t0 s0 t1 s1 s u Hu) as T. cbv zeta in T. rewrite H in T. cbn [fst snd] in T.
  rewrite !Z.eqb_refl in T. exact T.
Qed.
(* otherwise the unit (and, in the wide configuration, its twin) is at rest and the coefficients are made anew *)
Theorem C197_changed : forall cfg t0 s0 t1 s1 s u ty sub, (u < 2)%nat -> asked t0 s0 t1 s1 u = (ty, sub) -> (ty, sub) <> (fu_ty (fs_u s u), fu_sub (fs_u s u)) ->
  let s' := toggle_filter cfg t0 s0 t1 s1 s in fresh_unit ty sub (fs_u s' u) /\ (cfg = Wide -> fresh_unit ty sub (fs_u s' (u + 2)%nat)) /\ cm_first (fs_c s' u) = true /\ fs_c s' u = cm_new.
Proof.
  intros cfg t0 s0 t1 s1 s u ty sub Hu H N s'. pose proof (toggle_at cfg t0 s0 t1 s1 s u Hu) as T. cbv zeta in T. rewrite H in T. cbn [fst snd] in T. fold s' in T.
  destruct ((ty =? fu_ty (fs_u s u)) && (sub =? fu_sub (fs_u s u)))%Z eqn:E.
  - exfalso. apply N. apply andb_true_iff in E. destruct E as [E1 E2]. apply Z.eqb_eq in E1, E2. now subst.
  - destruct T as (-> & T2 & ->). split; [apply fresh_set|]. split; [intros ->; rewrite T2; apply fresh_set|]. split; reflexivity.
Qed.
(* either way the unit is now of the type asked for *)
Theorem C197_follows : forall cfg t0 s0 t1 s1 s u, (u < 2)%nat -> let f := fs_u (toggle_filter cfg t0 s0 t1 s1 s) u in (fu_ty f, fu_sub f) = asked t0 s0 t1 s1 u.
Proof.
  intros cfg t0 s0 t1 s1 s u Hu f. subst f. pose proof (toggle_at cfg t0 s0 t1 s1 s u Hu) as T. cbv zeta in T. destruct (asked t0 s0 t1 s1 u) as [ty sub]. cbn [fst snd] in T.
  destruct ((ty =? fu_ty (fs_u s u)) && (sub =? fu_sub (fs_u s u)))%Z eqn:E; destruct T as (-> & _); [|reflexivity].
  apply andb_true_iff in E. destruct E as [E1 E2]. apply Z.eqb_eq in E1, E2. now subst.
Qed.
(* REFUTED for the twin: in any other configuration it is left alone, and switching to the wide one afterwards does not reset it either: it then
   runs a filter of the new type on what a filter of another type left behind *)
Theorem C197_twin_refuted : forall cfg t0 s0 t1 s1 s u, (u < 2)%nat -> cfg <> Wide ->
  let s' := toggle_filter cfg t0 s0 t1 s1 s in
  fs_u s' (u + 2)%nat = fs_u s (u + 2)%nat /\ fs_u (toggle_filter Wide t0 s0 t1 s1 s') (u + 2)%nat = fs_u s (u + 2)%nat.
Proof.
  intros cfg t0 s0 t1 s1 s u Hu N s'. assert (A : fs_u s' (u + 2)%nat = fs_u s (u + 2)%nat).
  { pose proof (toggle_at cfg t0 s0 t1 s1 s u Hu) as T. cbv zeta in T. replace (is_wide cfg) with false in T by (destruct cfg; cbn; congruence). destruct (_ && _); destruct T as (_ & T & _); exact T. }
  split; [exact A|]. rewrite <- A. apply C197_unchanged; [exact Hu|]. symmetry. apply C197_follows. exact Hu.
Qed.
Definition unit_used : funit := mk_fu (repeat 1 15) 3 2 1.
Definition slots_used : fslots := mk_fs (fun _ => unit_used) (fun _ => mk_cm (repeat 1 8) zeros8 zeros8 false).
Example C197_nonvacuous : fresh_unit 5 0 (fs_u (toggle_filter Stereo 5 0 2 1 slots_used) 0%nat) /\ fs_u (toggle_filter Stereo 5 0 2 1 slots_used) 1%nat = unit_used /\
  fs_u (toggle_filter Wide 5 0 2 1 (toggle_filter Stereo 5 0 2 1 slots_used)) 2%nat = unit_used.
Proof.
  split; [apply (C197_changed Stereo 5 0 2 1 slots_used 0 5 0); [lia|reflexivity|discriminate]|]. split; [apply (C197_unchanged Stereo 5 0 2 1 slots_used 1); [lia|reflexivity]|].
  apply (C197_twin_refuted Stereo 5 0 2 1 slots_used 0); [lia|discriminate].
Qed.

(** ** C198 the lanes of a quad *)
(* what lane j of a unit holds *)
Definition lane_view (j : Z) (q : qunit) : list R * list R * list R * Z * (Z * nat) :=
  (map (getl j) (qu_coeff q), map (getl j) (qu_dcoeff q), map (getl j) (qu_reg q), getl j (qu_wp q), getl j (qu_delay q)).
Definition quad_sized (q : nat -> qunit) : Prop := forall u, (u < 4)%nat -> length (qu_coeff (q u)) = 8%nat /\ length (qu_dcoeff (q u)) = 8%nat /\ length (qu_reg (q u)) = 15%nat.
Definition slots_sized (s : fslots) : Prop :=
  (forall u, length (fu_reg (fs_u s u)) = 15%nat /\ (0 <= fu_wp (fs_u s u) < 4294967296)%Z) /\ forall u, length (cm_coeff (fs_c s u)) = 8%nat /\ length (cm_dcoeff (fs_c s u)) = 8%nat.
Lemma getset_same X e (v : q4 X) x : (0 <= e < 4)%Z -> getl e (setl e v x) = x.
Proof. intros H. assert (e = 0 \/ e = 1 \/ e = 2 \/ e = 3)%Z as [->|[->|[->| ->]]] by lia; reflexivity. Qed.
Lemma getset_other X e j (v : q4 X) x : (0 <= e < 4)%Z -> (0 <= j < 4)%Z -> j <> e -> getl j (setl e v x) = getl j v.
Proof. intros H Hj N. assert (e = 0 \/ e = 1 \/ e = 2 \/ e = 3)%Z as [->|[->|[->| ->]]] by lia; assert (j = 0 \/ j = 1 \/ j = 2 \/ j = 3)%Z as [->|[->|[->| ->]]] by lia; try reflexivity; congruence. Qed.
Lemma map2_len {A B C} (f : A -> B -> C) l : forall m, length l = length m -> length (map2 f l m) = length l.
Proof. induction l as [|a l IH]; intros [|b m] H; try discriminate; [reflexivity|]. cbn [map2 length] in *. f_equal. apply IH. lia. Qed.
Lemma map2_same e l : forall (m : list R), length l = length m -> (0 <= e < 4)%Z -> map (getl e) (map2 (setl e) l m) = m.
Proof. induction l as [|a l IH]; intros [|b m] H He; try discriminate; [reflexivity|]. cbn [map2 map]. rewrite getset_same by exact He. f_equal. apply IH; [cbn in H; lia|exact He]. Qed.
Lemma map2_other e j l : forall (m : list R), length l = length m -> (0 <= e < 4)%Z -> (0 <= j < 4)%Z -> j <> e -> map (getl j) (map2 (setl e) l m) = map (getl j) l.
Proof. induction l as [|a l IH]; intros [|b m] H He Hj N; try discriminate; [reflexivity|]. cbn [map2 map]. rewrite getset_other by assumption. f_equal. apply IH; [cbn in H; lia|assumption..]. Qed.
Lemma unit_own e c reg wp d ty sub q : (0 <= e < 4)%Z -> length (qu_coeff q) = length (cm_coeff c) -> length (qu_dcoeff q) = length (cm_dcoeff c) -> length (qu_reg q) = length reg ->
  lane_view e (load_unit e c reg wp d ty sub q) = (cm_coeff c, cm_dcoeff c, reg, (if (ty =? MOOG)%Z && (e =? 0)%Z then sub else wp), d).
Proof.
  intros He A B C. unfold lane_view, load_unit. cbn [qu_coeff qu_dcoeff qu_reg qu_wp qu_delay]. rewrite !map2_same by assumption. rewrite (getset_same _ e (qu_delay q)) by exact He. do 2 f_equal.
  destruct (ty =? MOOG)%Z; cbn [andb]; [|apply getset_same; exact He]. destruct (e =? 0)%Z eqn:E0; [assert (e = 0)%Z as -> by lia; apply getset_same; lia|].
  rewrite getset_other by lia. apply getset_same. exact He.
Qed.
Lemma unit_other e j c reg wp d ty sub q : (0 <= e < 4)%Z -> (0 <= j < 4)%Z -> j <> e -> length (qu_coeff q) = length (cm_coeff c) -> length (qu_dcoeff q) = length (cm_dcoeff c) -> length (qu_reg q) = length reg ->
  lane_view j (load_unit e c reg wp d ty sub q) =
  (map (getl j) (qu_coeff q), map (getl j) (qu_dcoeff q), map (getl j) (qu_reg q), (if (ty =? MOOG)%Z && (j =? 0)%Z then sub else getl j (qu_wp q)), getl j (qu_delay q)).
Proof.
  intros He Hj N A B C. unfold lane_view, load_unit. cbn [qu_coeff qu_dcoeff qu_reg qu_wp qu_delay]. rewrite !map2_other by assumption. rewrite (getset_other _ e j (qu_delay q)) by assumption. do 2 f_equal.
  destruct (ty =? MOOG)%Z; cbn [andb]; [|apply getset_other; assumption]. destruct (j =? 0)%Z eqn:E0; [assert (j = 0)%Z as -> by lia; apply getset_same; lia|].
  rewrite !getset_other by lia. reflexivity.
Qed.
Lemma unit_sized e c reg wp d ty sub q : length (qu_coeff q) = length (cm_coeff c) -> length (qu_dcoeff q) = length (cm_dcoeff c) -> length (qu_reg q) = length reg ->
  let q' := load_unit e c reg wp d ty sub q in length (qu_coeff q') = length (qu_coeff q) /\ length (qu_dcoeff q') = length (qu_dcoeff q) /\ length (qu_reg q') = length (qu_reg q).
Proof. intros A B C q'. subst q'. unfold load_unit. cbn [qu_coeff qu_dcoeff qu_reg]. rewrite !map2_len by assumption. auto. Qed.

(* the filter slot (0 or 1) a unit (0..3) belongs to; units 2 and 3 are in use in the wide configuration only *)
Definition slot_of (u : nat) : nat := if Nat.ltb u 2 then u else (u - 2)%nat.
Definition in_use (wide : bool) (t0 t1 : Z) (u : nat) : bool := (Nat.ltb u 2 || wide) && negb ((if Nat.eqb (slot_of u) 0 then t0 else t1) =? 0)%Z.
Lemma load_at wide v e t0 s0 t1 s1 s q u : (u < 4)%nat ->
  load_slot wide v e 1 t1 s1 s (load_slot wide v e 0 t0 s0 s q) u =
  if in_use wide t0 t1 u then let a := asked t0 s0 t1 s1 (slot_of u) in
    load_unit e (fs_c s (slot_of u)) (fu_reg (fs_u s u)) (fu_wp (fs_u s (slot_of u))) (v, u) (fst a) (snd a) (q u) else q u.
Proof.
  intros Hu. unfold load_slot, in_use, asked, put.
  assert (u = 0 \/ u = 1 \/ u = 2 \/ u = 3)%nat as [->|[->|[->| ->]]] by lia; cbn [slot_of Nat.ltb Nat.leb Nat.eqb Nat.sub orb andb fst snd Nat.add];
  destruct (t0 =? 0)%Z, (t1 =? 0)%Z, wide; reflexivity.
Qed.
(* Loading a voice: exactly its own lane is written, with its own coefficients, registers, write position and delay line ... *)
Theorem C198_own_lane : forall wide v e t0 s0 t1 s1 s q q' u, quad_sized q -> slots_sized s -> (u < 4)%nat -> load_units wide v e t0 s0 t1 s1 s q = Ok q' ->
  (in_use wide t0 t1 u = true -> let k := slot_of u in let a := asked t0 s0 t1 s1 k in
     lane_view e (q' u) = (cm_coeff (fs_c s k), cm_dcoeff (fs_c s k), fu_reg (fs_u s u), (if (fst a =? MOOG)%Z && (e =? 0)%Z then snd a else fu_wp (fs_u s k)), (v, u))) /\
  (in_use wide t0 t1 u = false -> q' u = q u).
Proof.
  intros wide v e t0 s0 t1 s1 s q q' u Q S Hu H. unfold load_units in H. destruct ((0 <=? e) && (e <? 4))%Z eqn:He; [|discriminate]. injection H as <-.
  rewrite load_at by exact Hu. split; intros ->; [|reflexivity]. cbv zeta. destruct (Q u Hu) as (Q1 & Q2 & Q3). destruct S as [S1 S2]. destruct (S1 u) as [S3 _]. destruct (S2 (slot_of u)) as [S4 S5].
  apply unit_own; [lia|congruence..].
Qed.
(* ... and the others are left alone, but for lane 0's write position, which under a Moog ladder holds the subtype for the whole quad *)
Theorem C198_other_lanes : forall wide v e t0 s0 t1 s1 s q q' u j, quad_sized q -> slots_sized s -> (u < 4)%nat -> (0 <= j < 4)%Z -> j <> e -> load_units wide v e t0 s0 t1 s1 s q = Ok q' ->
  (j <> 0%Z \/ fst (asked t0 s0 t1 s1 (slot_of u)) <> MOOG -> lane_view j (q' u) = lane_view j (q u)) /\
  map (getl j) (qu_reg (q' u)) = map (getl j) (qu_reg (q u)) /\ map (getl j) (qu_coeff (q' u)) = map (getl j) (qu_coeff (q u)) /\
  map (getl j) (qu_dcoeff (q' u)) = map (getl j) (qu_dcoeff (q u)) /\ getl j (qu_delay (q' u)) = getl j (qu_delay (q u)).
Proof.
  intros wide v e t0 s0 t1 s1 s q q' u j Q S Hu Hj N H. unfold load_units in H. destruct ((0 <=? e) && (e <? 4))%Z eqn:He; [|discriminate]. injection H as <-.
  rewrite load_at by exact Hu. destruct (in_use wide t0 t1 u); [|auto]. cbv zeta. destruct (Q u Hu) as (Q1 & Q2 & Q3). destruct S as [S1 S2]. destruct (S1 u) as [S3 _]. destruct (S2 (slot_of u)) as [S4 S5].
  pose proof (unit_other e j (fs_c s (slot_of u)) (fu_reg (fs_u s u)) (fu_wp (fs_u s (slot_of u))) (v, u) (fst (asked t0 s0 t1 s1 (slot_of u))) (snd (asked t0 s0 t1 s1 (slot_of u))) (q u)
    ltac:(lia) Hj N ltac:(congruence) ltac:(congruence) ltac:(congruence)) as X. split.
  - intros D. rewrite X. unfold lane_view. replace ((fst (asked t0 s0 t1 s1 (slot_of u)) =? MOOG)%Z && (j =? 0)%Z) with false; [reflexivity|]. symmetry. apply andb_false_iff. lia.
  - unfold lane_view in X. injection X as X1 X2 X3 X4 X5. auto.
Qed.
Lemma load_sized wide v e t0 s0 t1 s1 s q q' : quad_sized q -> slots_sized s -> load_units wide v e t0 s0 t1 s1 s q = Ok q' -> quad_sized q'.
Proof.
  intros Q S H u Hu. unfold load_units in H. destruct ((0 <=? e) && (e <? 4))%Z eqn:He; [|discriminate]. injection H as <-. rewrite load_at by exact Hu.
  destruct (Q u Hu) as (Q1 & Q2 & Q3). destruct (in_use wide t0 t1 u); [|auto]. cbv zeta. destruct S as [S1 S2]. destruct (S1 u) as [S3 _]. destruct (S2 (slot_of u)) as [S4 S5].
  edestruct (unit_sized e (fs_c s (slot_of u)) (fu_reg (fs_u s u))) as (A & B & C); [| | |rewrite A, B, C; auto]; congruence.
Qed.
(* lanes other than 0..3 do not exist *)
Theorem C198_lane_range : forall wide v e t0 s0 t1 s1 s q, (0 <= e < 4)%Z <-> load_units wide v e t0 s0 t1 s1 s q <> Panic.
Proof. intros. unfold load_units. destruct ((0 <=? e) && (e <? 4))%Z eqn:E; split; intros; try lia; try discriminate; congruence. Qed.

(* Several voices of a scene (same filter types), each loaded into its own lane *)
Fixpoint load_all (wide : bool) (t0 s0 t1 s1 : Z) (vs : list (Z * Z * fslots)) (q : nat -> qunit) : res (nat -> qunit) :=
  match vs with [] => Ok q | (v, e, s) :: r => obind (load_units wide v e t0 s0 t1 s1 s q) (load_all wide t0 s0 t1 s1 r) end.
Lemma load_all_keeps wide t0 s0 t1 s1 vs : forall q q', quad_sized q -> (forall v e s, In (v, e, s) vs -> slots_sized s) -> load_all wide t0 s0 t1 s1 vs q = Ok q' ->
  quad_sized q' /\ forall u j, (u < 4)%nat -> (0 <= j < 4)%Z -> (forall v s, ~ In (v, j, s) vs) ->
    map (getl j) (qu_reg (q' u)) = map (getl j) (qu_reg (q u)) /\ map (getl j) (qu_coeff (q' u)) = map (getl j) (qu_coeff (q u)) /\
    map (getl j) (qu_dcoeff (q' u)) = map (getl j) (qu_dcoeff (q u)) /\ getl j (qu_delay (q' u)) = getl j (qu_delay (q u)) /\
    (j <> 0%Z \/ fst (asked t0 s0 t1 s1 (slot_of u)) <> MOOG -> getl j (qu_wp (q' u)) = getl j (qu_wp (q u))).
Proof.
  induction vs as [|[[v e] s] vs IH]; intros q q' Q S H; cbn [load_all] in H.
  - injection H as <-. split; [exact Q|]. intros u j _ _ _. auto.
  - destruct (load_units wide v e t0 s0 t1 s1 s q) as [q1| |] eqn:E; cbn [obind] in H; try discriminate.
    assert (Ss : slots_sized s) by (apply (S v e); now left). pose proof (load_sized _ _ _ _ _ _ _ _ _ _ Q Ss E) as Q1.
    destruct (IH q1 q' Q1 (fun v' e' s' I => S v' e' s' (or_intror I)) H) as [Q2 K]. split; [exact Q2|]. intros u j Hu Hj N.
    destruct (K u j Hu Hj (fun v' s' I => N v' s' (or_intror I))) as (K1 & K2 & K3 & K4 & K5).
    assert (NE : j <> e) by (intros ->; apply (N v s); now left).
    destruct (C198_other_lanes _ _ _ _ _ _ _ _ _ _ u j Q Ss Hu Hj NE E) as (A0 & A1 & A2 & A3 & A4).
    rewrite K1, K2, K3, K4. do 4 (split; [assumption|]). intros D. rewrite (K5 D). specialize (A0 D). unfold lane_view in A0. congruence.
Qed.
(* what a voice has of a unit: registers, and for units 0 and 1 also the coefficients and the write position *)
Definition same_filters (moog0 : nat -> bool) (s s' : fslots) : Prop :=
  (forall u, (u < 4)%nat -> fu_reg (fs_u s' u) = fu_reg (fs_u s u)) /\
  (forall u, (u < 2)%nat -> cm_coeff (fs_c s' u) = cm_coeff (fs_c s u)) /\
  (forall u, (u < 2)%nat -> moog0 u = false -> fu_wp (fs_u s' u) = fu_wp (fs_u s u)) /\
  (forall u, (u < 4)%nat -> fu_ty (fs_u s' u) = fu_ty (fs_u s u) /\ fu_sub (fs_u s' u) = fu_sub (fs_u s u)).
Lemma sync_at wide e t0 t1 q s :
  let s' := sync_units wide e t0 t1 q s in
  (forall u, (u < 4)%nat -> fu_reg (fs_u s' u) = (if in_use wide t0 t1 u then map (getl e) (qu_reg (q u)) else fu_reg (fs_u s u)) /\
     fu_ty (fs_u s' u) = fu_ty (fs_u s u) /\ fu_sub (fs_u s' u) = fu_sub (fs_u s u)) /\
  (forall u, (u < 2)%nat -> cm_coeff (fs_c s' u) = (if in_use wide t0 t1 u then map (getl e) (qu_coeff (q u)) else cm_coeff (fs_c s u)) /\
     fu_wp (fs_u s' u) = (if in_use wide t0 t1 u then as_u32 (getl e (qu_wp (q u))) else fu_wp (fs_u s u))).
Proof.
  intros s'. subst s'. unfold sync_units, sync_slot, in_use. split; intros u Hu.
  - assert (u = 0 \/ u = 1 \/ u = 2 \/ u = 3)%nat as [->|[->|[->| ->]]] by lia; cbn [slot_of Nat.ltb Nat.leb Nat.eqb Nat.sub orb andb];
    destruct (t0 =? 0)%Z, (t1 =? 0)%Z, wide; repeat split.
  - assert (u = 0 \/ u = 1)%nat as [->| ->] by lia; cbn [slot_of Nat.ltb Nat.leb Nat.eqb Nat.sub orb andb];
    destruct (t0 =? 0)%Z, (t1 =? 0)%Z, wide; repeat split.
Qed.
(* Whatever voices are loaded together, as long as no two share a lane, each one reads its own state back (if the filter leaves it alone).
   The write position of a Moog ladder's lane 0 is not kept: it is not used by that filter. *)
Theorem C198_round_trip : forall wide t0 s0 t1 s1 vs q, quad_sized q -> NoDup (map (fun x => snd (fst x)) vs) ->
  (forall v e s, In (v, e, s) vs -> slots_sized s /\ (0 <= e < 4)%Z) ->
  exists q', load_all wide t0 s0 t1 s1 vs q = Ok q' /\
    forall v e s, In (v, e, s) vs -> same_filters (fun u => (fst (asked t0 s0 t1 s1 u) =? MOOG)%Z && (e =? 0)%Z) s (sync_units wide e t0 t1 q' s) /\
      forall u, (u < 4)%nat -> in_use wide t0 t1 u = true -> getl e (qu_delay (q' u)) = (v, u).
Proof.
  intros wide t0 s0 t1 s1 vs. induction vs as [|[[v e] s] vs IH]; intros q Q ND W.
  - exists q. split; [reflexivity|]. intros v e s [].
  - destruct (W v e s (or_introl eq_refl)) as [Ss He]. cbn [load_all].
    destruct (load_units wide v e t0 s0 t1 s1 s q) as [q1| |] eqn:E; [|unfold load_units in E; destruct (_ && _)%bool; discriminate|exfalso; apply (proj1 (C198_lane_range wide v e t0 s0 t1 s1 s q) He); exact E].
    pose proof (load_sized _ _ _ _ _ _ _ _ _ _ Q Ss E) as Q1. cbn [map fst snd] in ND. inversion ND as [|? ? N1 N2]; subst.
    destruct (IH q1 Q1 N2 (fun v' e' s' I => W v' e' s' (or_intror I))) as (q' & L & K). exists q'. cbn [obind]. split; [exact L|].
    intros v' e' s' [I|I]; [|apply K; exact I]. injection I as <- <- <-.
    destruct (load_all_keeps wide t0 s0 t1 s1 vs q1 q' Q1 (fun v' e' s' I => proj1 (W v' e' s' (or_intror I))) L) as [_ KK].
    assert (NI : forall v' s', ~ In (v', e, s') vs) by (intros v' s' I; apply N1; apply in_map_iff; exists (v', e, s'); auto).
    assert (OWN : forall u, (u < 4)%nat -> in_use wide t0 t1 u = true -> map (getl e) (qu_reg (q' u)) = fu_reg (fs_u s u) /\ map (getl e) (qu_coeff (q' u)) = cm_coeff (fs_c s (slot_of u)) /\
       getl e (qu_delay (q' u)) = (v, u) /\ ((fst (asked t0 s0 t1 s1 (slot_of u)) =? MOOG)%Z && (e =? 0)%Z = false -> getl e (qu_wp (q' u)) = fu_wp (fs_u s (slot_of u)))).
    { intros u Hu U. destruct (KK u e Hu He NI) as (K1 & K2 & _ & K4 & K5). destruct (C198_own_lane _ _ _ _ _ _ _ _ _ _ u Q Ss Hu E) as [A _]. specialize (A U). cbv zeta in A.
      unfold lane_view in A. injection A as A1 A2 A3 A4 A5. rewrite K1, K2, K4. split; [exact A3|]. split; [exact A1|]. split; [exact A5|]. intros D. rewrite K5 by (apply andb_false_iff in D; lia). rewrite A4, D. reflexivity. }
    split.
    + destruct (sync_at wide e t0 t1 q' s) as [Y1 Y2]. unfold same_filters. split; [|split; [|split]].
      * intros u Hu. rewrite (proj1 (Y1 u Hu)). destruct (in_use wide t0 t1 u) eqn:U; [|reflexivity]. apply OWN; assumption.
      * intros u Hu. rewrite (proj1 (Y2 u Hu)). destruct (in_use wide t0 t1 u) eqn:U; [|reflexivity]. destruct (OWN u ltac:(lia) U) as (_ & -> & _). unfold slot_of. replace (Nat.ltb u 2) with true by (symmetry; apply Nat.ltb_lt; lia). reflexivity.
      * intros u Hu D. rewrite (proj2 (Y2 u Hu)). destruct (in_use wide t0 t1 u) eqn:U; [|reflexivity]. assert (SL : slot_of u = u) by (unfold slot_of; replace (Nat.ltb u 2) with true by (symmetry; apply Nat.ltb_lt; lia); reflexivity).
        destruct (OWN u ltac:(lia) U) as (_ & _ & _ & Z1). rewrite SL in Z1. rewrite (Z1 D). unfold as_u32. apply Z.mod_small. apply Ss.
      * intros u Hu. apply (proj2 (Y1 u Hu)).
    + intros u Hu U. apply OWN; assumption.
Qed.
(* REFUTED without "no two share a lane": of two voices in one lane the first reads the second's state *)
Theorem C198_shared_lane_refuted : forall wide t0 s0 t1 s1 v s v2 s2 e q q' u, quad_sized q -> slots_sized s -> slots_sized s2 -> (u < 4)%nat -> in_use wide t0 t1 u = true ->
  load_all wide t0 s0 t1 s1 [(v, e, s); (v2, e, s2)] q = Ok q' -> fu_reg (fs_u (sync_units wide e t0 t1 q' s) u) = fu_reg (fs_u s2 u).
Proof.
  intros wide t0 s0 t1 s1 v s v2 s2 e q q' u Q Ss S2 Hu U H. cbn [load_all] in H. destruct (load_units wide v e t0 s0 t1 s1 s q) as [q1| |] eqn:E; cbn [obind] in H; try discriminate.
  destruct (load_units wide v2 e t0 s0 t1 s1 s2 q1) as [q2| |] eqn:E2; cbn [obind] in H; try discriminate. injection H as <-.
  destruct (sync_at wide e t0 t1 q2 s) as [Y1 _]. rewrite (proj1 (Y1 u Hu)), U. destruct (C198_own_lane _ _ _ _ _ _ _ _ _ _ u (load_sized _ _ _ _ _ _ _ _ _ _ Q Ss E) S2 Hu E2) as [A _].
  specialize (A U). cbv zeta in A. unfold lane_view in A. congruence.
Qed.
Definition quad_blank : nat -> qunit := fun _ => mk_qu (repeat (Q4 0 0 0 0) 8) (repeat (Q4 0 0 0 0) 8) (repeat (Q4 0 0 0 0) 15) (Q4 0 0 0 0)%Z (Q4 (0%Z, 0%nat) (0%Z, 0%nat) (0%Z, 0%nat) (0%Z, 0%nat)).
Definition voice_used : fslots := mk_fs (fun u => mk_fu (repeat (INR u) 15) 3 2 1) (fun _ => mk_cm (repeat 1 8) zeros8 zeros8 false).
Example C198_nonvacuous : exists q', load_all true 2 1 5 0 [(0%Z, 0%Z, slots_used); (1%Z, 1%Z, voice_used)] quad_blank = Ok q' /\
  fu_reg (fs_u (sync_units true 0 2 5 q' slots_used) 0%nat) = repeat 1 15 /\ fu_reg (fs_u (sync_units true 1 2 5 q' voice_used) 3%nat) = repeat (INR 3) 15.
Proof.
  destruct (C198_round_trip true 2 1 5 0 [(0%Z, 0%Z, slots_used); (1%Z, 1%Z, voice_used)] quad_blank) as (q' & A & B).
  - intros u _. repeat split.
  - repeat constructor; cbn; intuition discriminate.
  - intros v e s [H|[H|[]]]; injection H as <- <- <-; (split; [split; intros u; split; try reflexivity; cbn; lia|lia]).
  - exists q'. split; [exact A|]. split.
    + destruct (B 0%Z 0%Z slots_used (or_introl eq_refl)) as [[R1 _] _]. apply (R1 0%nat). lia.
    + destruct (B 1%Z 1%Z voice_used (or_intror (or_introl eq_refl))) as [[R1 _] _]. apply (R1 3%nat). lia.
Qed.
Print Assumptions C197_changed. Print Assumptions C198_round_trip.
