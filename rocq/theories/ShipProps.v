(* ShipProps.v - C168 shipped parameters stay in range, C169 integer parameters, C170 normalised access, C171 typed reads. *)
From Coq Require Import String Reals Lra.
From Flocq Require Import Core.Core IEEE754.BinarySingleNaN.
From Verif Require Import Base Util F32 F32Facts BlockModel BlockProofs BlockProps RampProps MathModel ClipProps ParamModel ParamProps ParamProps2 ShipModel.
Local Open Scope string_scope. Local Open Scope list_scope. Local Open Scope Z_scope.

(** ** specification vocabulary *)
(* a finite value between the minimum and the maximum, all three of one kind *)
Definition in_range (d : pdesc f32) (v : pdata f32) : Prop :=
  match pd_min d, pd_max d, v with
  | PFloat lo, PFloat hi, PFloat x => fin x /\ fin lo /\ fin hi /\ (val lo < val hi)%R /\ (val lo <= val x <= val hi)%R
  | PInt lo, PInt hi, PInt x => lo <= x <= hi
  | _, _, _ => False
  end.
Definition sname (s : ship) : string * string := (sh_enum s, sh_name s).
(* default of one kind, range of the other *)
Definition mixed_kinds : list (string * string) :=
  [("FM2OscillatorParam", "M1Ratio"); ("FM2OscillatorParam", "M2Ratio"); ("SampleAndHoldOscillatorParam", "Smooth"); ("SampleAndHoldOscillatorParam", "Sub");
   ("SampleAndHoldOscillatorParam", "UniCount"); ("WTOscillatorParam", "UniCount")].
(* minimum not below maximum *)
Definition empty_ranges : list (string * string) :=
  [("RingModulatorParam", "CarrierFreq"); ("RingModulatorParam", "UnisonDetune"); ("RingModulatorParam", "LowCut"); ("RingModulatorParam", "HighCut")].
Definition nil_enums : list string := ["AdsrParam"; "LfoParam"; "WaveshaperParam"; "PatchParam"; "SceneParam"; "OscillatorParam"].
Definition unison_counts : list (string * string) := [("RingModulatorParam", "UnisonVoices"); ("SSOParam", "UniCount"); ("WindowOscillatorParam", "UniCount")].
(* operations that ask for a new value *)
Definition is_set {T} (o : pop T) : bool := match o with OpF01 _ _ | OpVal _ => true | _ => false end.
Definition sync_off {T} (o : pop T) : bool := match o with OpTemposync b => negb b | _ => true end.
(* the reads that panic: enum, parameter, place in the source *)
Definition panicking_reads : list (string * string * string) := [
  ("AdsrParam", "ReleaseShape", "surge-adsr/src/adsr.rs:193");
  ("AdsrParam", "AttackShape", "surge-adsr/src/attack_shape.rs:22");
  ("AdsrParam", "Mode", "surge-adsr/src/check_analog.rs:14");
  ("AdsrParam", "DecayShape", "surge-adsr/src/decay_shape.rs:22");
  ("LfoParam", "Shape", "surge-lfo/src/attack.rs:71");
  ("LfoParam", "Trigmode", "surge-lfo/src/attack.rs:72");
  ("LfoParam", "Unipolar", "surge-lfo/src/attack_shape_sine.rs:34");
  ("LfoParam", "Unipolar", "surge-lfo/src/attack_shape_tri.rs:71");
  ("LfoParam", "Deform", "surge-lfo/src/bend.rs:124");
  ("LfoParam", "Shape", "surge-lfo/src/get.rs:16");
  ("LfoParam", "Trigmode", "surge-lfo/src/get.rs:31");
  ("LfoParam", "Unipolar", "surge-lfo/src/process.rs:51");
  ("LfoParam", "Sustain", "surge-lfo/src/update_envelope.rs:120");
  ("SceneParam", "PolyMode", "surge-scene/src/scene/get.rs:32");
  ("WaveshaperParam", "Type", "surge-scene/src/scene/get.rs:47");
  ("SceneParam", "FilterBlockConfiguration", "surge-scene/src/scene/get.rs:52");
  ("SceneParam", "KeytrackRoot", "surge-scene/src/scene/get.rs:74");
  ("SceneParam", "Octave", "surge-scene/src/scene/get.rs:132");
  ("SceneParam", "PitchBendRangeUp", "surge-scene/src/scene/get.rs:136");
  ("SceneParam", "PitchBendRangeDown", "surge-scene/src/scene/get.rs:140");
  ("SceneParam", "RouteO1", "surge-scene/src/scene/get.rs:153");
  ("SceneParam", "RouteO2", "surge-scene/src/scene/get.rs:154");
  ("SceneParam", "RouteO3", "surge-scene/src/scene/get.rs:155");
  ("SceneParam", "RouteRing12", "surge-scene/src/scene/get.rs:162");
  ("SceneParam", "RouteRing23", "surge-scene/src/scene/get.rs:163");
  ("SceneParam", "RouteNoise", "surge-scene/src/scene/get.rs:169");
  ("SceneParam", "FilterBlockConfiguration", "surge-scene/src/scene/get.rs:174");
  ("OscillatorParam", "Octave", "surge-scene/src/scene/get.rs:192");
  ("OscillatorParam", "Octave", "surge-scene/src/scene/get.rs:193");
  ("OscillatorParam", "Octave", "surge-scene/src/scene/get.rs:194");
  ("OscillatorParam", "KeyTrack", "surge-scene/src/scene/get.rs:200");
  ("SceneParam", "PolyMode", "surge-scene/src/scene/get.rs:216");
  ("SceneParam", "F2CutoffIsOffset", "surge-scene/src/scene/get.rs:253");
  ("SceneParam", "SoloO1", "surge-scene/src/scene/get.rs:258");
  ("SceneParam", "SoloO2", "surge-scene/src/scene/get.rs:259");
  ("SceneParam", "SoloO3", "surge-scene/src/scene/get.rs:260");
  ("SceneParam", "SoloNoise", "surge-scene/src/scene/get.rs:266");
  ("SceneParam", "SoloRing12", "surge-scene/src/scene/get.rs:271");
  ("SceneParam", "SoloRing23", "surge-scene/src/scene/get.rs:272");
  ("SceneParam", "MuteO1", "surge-scene/src/scene/get.rs:279");
  ("SceneParam", "MuteO2", "surge-scene/src/scene/get.rs:280");
  ("SceneParam", "MuteO3", "surge-scene/src/scene/get.rs:281");
  ("SceneParam", "MuteNoise", "surge-scene/src/scene/get.rs:287");
  ("SceneParam", "MuteRing12", "surge-scene/src/scene/get.rs:292");
  ("SceneParam", "MuteRing23", "surge-scene/src/scene/get.rs:293");
  ("SceneParam", "FmSwitch", "surge-scene/src/scene/get.rs:302");
  ("OscillatorParam", "Type", "surge-scene/src/scene/get.rs:352");
  ("SceneParam", "PolyLimit", "surge-scene/src/scene/play_voice.rs:27");
  ("SceneParam", "PolyMode", "surge-scene/src/scene/release_monophonic.rs:27");
  ("PatchParam", "SceneMode", "surge-synthesizer/src/synth/channel_controller_cc.rs:74");
  ("PatchParam", "SceneActive", "surge-synthesizer/src/synth/channel_controller_cc.rs:85");
  ("PatchParam", "SplitKey", "surge-synthesizer/src/synth/channel_controller_cc.rs:103");
  ("PatchParam", "SplitKey", "surge-synthesizer/src/synth/channel_mask.rs:6");
  ("PatchParam", "SceneActive", "surge-synthesizer/src/synth/channel_mask.rs:10");
  ("PatchParam", "FxBypass", "surge-synthesizer/src/synth/get.rs:10");
  ("PatchParam", "SceneMode", "surge-synthesizer/src/synth/get.rs:15");
  ("PatchParam", "FxDisable", "surge-synthesizer/src/synth/process.rs:81");
  ("PatchParam", "FxDisable", "surge-synthesizer/src/synth/process.rs:128");
  ("PatchParam", "FxDisable", "surge-synthesizer/src/synth/process.rs:253");
  ("PatchParam", "FxDisable", "surge-synthesizer/src/synth/process.rs:301");
  ("PatchParam", "SceneActive", "surge-synthesizer/src/synth/process_control.rs:35");
  ("SampleAndHoldOscillatorParam", "UniCount", "surgeosc-snh/src/init.rs:25");
  ("OscillatorParam", "Retrigger", "surgeosc-snh/src/set_pitch.rs:20");
  ("OscillatorParam", "Retrigger", "surgeosc-super/src/set_pitch.rs:14");
  ("WTOscillatorParam", "UniCount", "surgeosc-wavetable/src/init.rs:21");
  ("OscillatorParam", "Retrigger", "surgeosc-window/src/init.rs:70")].

(** ** lemmas over any arithmetic *)
Section Any.
Context {T : Type} (A : numops T).
Definition same_kind_of (v w : pdata T) : Prop := match v, w with PInt _, PInt _ => True | PBool _, PBool _ => True | PFloat _, PFloat _ => True | _, _ => False end.
Lemma sk_refl v : same_kind_of v v. Proof. destruct v; exact I. Qed.
Lemma sk_trans u v w : same_kind_of u v -> same_kind_of v w -> same_kind_of u w. Proof. destruct u, v, w; cbn; auto; contradiction. Qed.
Lemma limit_keeps p : same_kind_of (pm_val p) (pm_val (limit_parameter_range A p)) /\ pm_desc (limit_parameter_range A p) = pm_desc p /\ pm_temposync (limit_parameter_range A p) = pm_temposync p.
Proof. unfold limit_parameter_range. destruct (pm_val p) eqn:E, (pd_min (pm_desc p)), (pd_max (pm_desc p)); cbn; rewrite ?E; cbn; auto. Qed.
Lemma bound_keeps p fi p' : bound_value A p fi = Ok p' -> same_kind_of (pm_val p) (pm_val p') /\ pm_desc p' = pm_desc p /\ pm_temposync p' = pm_temposync p.
Proof.
  unfold bound_value. destruct (pm_val p) as [i|b|f] eqn:E.
  - cbn [obind]. destruct (ctype_beq _ _); intros Q; injection Q as <-.
    + destruct (limit_keeps (p_set_value p (PInt (i - Z.rem i 4)))) as (K1 & K2 & K3). split; [exact K1|split; [exact K2|exact K3]].
    + destruct (limit_keeps p) as (K1 & K2 & K3). rewrite E in K1. auto.
  - discriminate.
  - destruct (pm_temposync p) eqn:TS.
    + destruct (temposync_round A f) as [v| |]; try discriminate. cbn [obind]. destruct fi; intros Q; injection Q as <-;
        match goal with |- context [limit_parameter_range A ?q] => destruct (limit_keeps q) as (K1 & K2 & K3) end; (split; [exact K1|split; [exact K2|exact (eq_trans K3 TS)]]).
    + cbn [obind]. destruct fi; intros Q; injection Q as <-;
        match goal with |- context [limit_parameter_range A ?q] => destruct (limit_keeps q) as (K1 & K2 & K3) end.
      * split; [exact K1|split; [exact K2|exact (eq_trans K3 TS)]].
      * rewrite E in K1. split; [exact K1|split; [exact K2|exact (eq_trans K3 TS)]].
Qed.
Lemma set_keeps p v fi p' : set_value_f01 A p v fi = Ok p' -> same_kind_of (pm_val p) (pm_val p') /\ pm_desc p' = pm_desc p /\ pm_temposync p' = pm_temposync p.
Proof.
  unfold set_value_f01.
  assert (K : forall w, same_kind_of (pm_val p) w -> bound_value A (p_set_value p w) fi = Ok p' -> same_kind_of (pm_val p) (pm_val p') /\ pm_desc p' = pm_desc p /\ pm_temposync p' = pm_temposync p).
  { intros w Hw Q. destruct (bound_keeps _ _ _ Q) as (K1 & K2 & K3). split; [|split; [exact K2|exact K3]]. eapply sk_trans; [exact Hw|exact K1]. }
  destruct (pm_val p) as [i|b|f] eqn:E.
  - destruct (pd_min (pm_desc p)) as [lo|b|lo], (pd_max (pm_desc p)) as [hi|c|hi]; try discriminate.
    destruct (i32 (hi - lo)) as [w| |]; try discriminate. cbn [obind]. destruct (i32 _) as [r| |]; try discriminate. cbn [obind]. apply K. exact I.
  - cbn [obind]. intros Q. apply (K (PBool (ar_lt A (ar_lit A 1 2) v))); [exact I|]. exact Q.
  - destruct (pd_min (pm_desc p)) as [lo|b|lo], (pd_max (pm_desc p)) as [hi|c|hi]; try discriminate. cbn [obind]. apply K. exact I.
Qed.
Lemma step_keeps p o p' : pop_step A p o = Ok p' -> same_kind_of (pm_val p) (pm_val p') /\ pm_desc p' = pm_desc p /\ (sync_off o = true -> pm_temposync p = false -> pm_temposync p' = false).
Proof.
  assert (W : forall q, same_kind_of (pm_val p) (pm_val q) /\ pm_desc q = pm_desc p /\ pm_temposync q = pm_temposync p ->
     same_kind_of (pm_val p) (pm_val q) /\ pm_desc q = pm_desc p /\ (sync_off o = true -> pm_temposync p = false -> pm_temposync q = false)).
  { intros q (K1 & K2 & K3). split; [exact K1|]. split; [exact K2|]. intros _ H. congruence. }
  destruct o as [v fi|v|fi|b|b|b|b|]; cbn [pop_step].
  - intros Q. apply W. eapply set_keeps; exact Q.
  - intros Q. apply W. destruct v; cbn [set_param_val] in Q; eapply set_keeps; exact Q.
  - intros Q. apply W. eapply bound_keeps; exact Q.
  - intros Q. injection Q as <-. cbn. split; [apply sk_refl|]. split; [reflexivity|]. intros H _. destruct b; [discriminate|reflexivity].
  - intros Q. injection Q as <-. apply W. cbn. split; [apply sk_refl|auto].
  - intros Q. injection Q as <-. apply W. cbn. split; [apply sk_refl|auto].
  - intros Q. injection Q as <-. apply W. cbn. split; [apply sk_refl|auto].
  - intros Q. injection Q as <-. cbn. split; [apply sk_refl|auto].
Qed.
Lemma history_keeps ops : forall p p', foldM (pop_step A) ops p = Ok p' ->
  same_kind_of (pm_val p) (pm_val p') /\ pm_desc p' = pm_desc p /\ (forallb sync_off ops = true -> pm_temposync p = false -> pm_temposync p' = false).
Proof.
  induction ops as [|o ops IH]; intros p p' E; cbn [foldM] in E.
  - injection E as <-. split; [apply sk_refl|]. split; [reflexivity|auto].
  - destruct (pop_step A p o) as [p1| |] eqn:E1; try discriminate. cbn [obind] in E.
    destruct (step_keeps _ _ _ E1) as (K1 & K2 & K3). destruct (IH _ _ E) as (L1 & L2 & L3).
    split; [eapply sk_trans; eassumption|]. split; [congruence|]. intros F S. cbn [forallb] in F. apply andb_prop in F. destruct F as [F1 F2]. apply L3; auto.
Qed.
Lemma new_keeps d p : param_new A d = Ok p -> same_kind_of (pd_default d) (pm_val p) /\ pm_desc p = d /\ pm_temposync p = false.
Proof. intros E. apply bound_keeps in E. exact E. Qed.
Lemma reach_keeps d ops p0 p : param_new A d = Ok p0 -> foldM (pop_step A) ops p0 = Ok p ->
  same_kind_of (pd_default d) (pm_val p) /\ pm_desc p = d /\ (forallb sync_off ops = true -> pm_temposync p = false).
Proof.
  intros E0 E. destruct (new_keeps _ _ E0) as (K1 & K2 & K3). destruct (history_keeps _ _ _ E) as (L1 & L2 & L3).
  split; [eapply sk_trans; eassumption|]. split; [congruence|]. auto.
Qed.
(* a float default never fails to construct *)
Lemma new_float d f : pd_default d = PFloat f -> exists p, param_new A d = Ok p.
Proof. intros E. unfold param_new, bound_value. cbn [pm_val pm_temposync]. rewrite E. cbn [obind]. eexists. reflexivity. Qed.
Lemma new_int d i : pd_default d = PInt i -> exists p, param_new A d = Ok p.
Proof. intros E. unfold param_new, bound_value. cbn [pm_val pm_temposync]. rewrite E. cbn [obind]. eexists. reflexivity. Qed.
End Any.

(** ** the table, checked row by row *)
Definition smem (x : string * string) (l : list (string * string)) : bool := existsb (fun y => String.eqb (fst x) (fst y) && String.eqb (snd x) (snd y)) l.
Lemma smem_In x l : smem x l = true <-> In x l.
Proof.
  unfold smem. rewrite existsb_exists. split.
  - intros ([a b] & I & H). apply andb_prop in H. destruct H as [H1 H2]. apply String.eqb_eq in H1, H2. destruct x. cbn in *. subst. exact I.
  - intros I. exists x. split; [exact I|]. rewrite !String.eqb_refl. reflexivity.
Qed.
Definition float_row (s : ship) : bool :=
  match sh_default s, sh_min s, sh_max s with
  | (LFlt _ _ | LLib _), LFlt a b, LFlt c d => is_finite (flit a b) && is_finite (flit c d) && fltb (flit a b) (flit c d)
  | _, _, _ => false
  end.
Definition int_row (s : ship) : bool := match sh_default s, sh_min s, sh_max s with LInt _, LInt a, LInt b => a <=? b | _, _, _ => false end.
Lemma rows_ok : forallb (fun s => xorb (float_row s || int_row s) (smem (sname s) (mixed_kinds ++ empty_ranges))) ship_table = true.
Proof. vm_compute. reflexivity. Qed.
Lemma row_cases s : In s ship_table -> ~ In (sname s) (mixed_kinds ++ empty_ranges) -> float_row s = true \/ int_row s = true.
Proof.
  intros I N. pose proof (proj1 (forallb_forall _ _) rows_ok s I) as H. cbn beta in H.
  assert (M : smem (sname s) (mixed_kinds ++ empty_ranges) = false).
  { destruct (smem (sname s) (mixed_kinds ++ empty_ranges)) eqn:E; [|reflexivity]. apply smem_In in E. contradiction. }
  rewrite M in H. destruct (float_row s), (int_row s); try discriminate; auto.
Qed.

Section F32.
Context (pow2 : f32 -> f32) (c1 c2 : f32) (lib : Z -> f32).
Let A := num32 pow2 c1 c2.
Lemma float_row_desc s : float_row s = true -> exists lo hi, float_desc (ship_desc A lib s) lo hi.
Proof.
  unfold float_row. destruct (sh_default s) eqn:E0; try discriminate; destruct (sh_min s) eqn:E1; try discriminate; destruct (sh_max s) eqn:E2; try discriminate;
  intros H; apply andb_prop in H; destruct H as [H H3]; apply andb_prop in H; destruct H as [H1 H2];
  (match goal with |- context [LFlt ?a ?b] => idtac | _ => idtac end);
  match type of H3 with fltb ?x ?y = true => exists x, y; unfold float_desc, ship_desc; cbn [pd_min pd_max pd_default]; rewrite E0, E1, E2; cbn [slit_val];
    split; [reflexivity|]; split; [reflexivity|]; split; [exact H1|]; split; [exact H2|]; split; [apply fltb_spec; assumption|]; eexists; reflexivity end.
Qed.
Lemma int_row_desc s : int_row s = true -> exists lo hi, int_desc (ship_desc A lib s) lo hi.
Proof.
  unfold int_row. destruct (sh_default s) eqn:E0; try discriminate; destruct (sh_min s) eqn:E1; try discriminate; destruct (sh_max s) eqn:E2; try discriminate.
  intros H. apply Z.leb_le in H. do 2 eexists. unfold int_desc, ship_desc. cbn [pd_min pd_max pd_default]. rewrite E0, E1, E2. cbn [slit_val].
  split; [reflexivity|]. split; [reflexivity|]. split; [exact H|]. eexists; reflexivity.
Qed.

(** ** C168 *)
(* Every shipped parameter other than the ten listed is created in range, and stays there under every history of sets (with any
   float whatever), re-bounding and switch changes. *)
Theorem C168_in_range : forall s, In s ship_table -> ~ In (sname s) (mixed_kinds ++ empty_ranges) ->
  exists p0, param_new A (ship_desc A lib s) = Ok p0 /\ in_range (ship_desc A lib s) (pm_val p0)
    /\ forall ops p, foldM (pop_step A) ops p0 = Ok p -> in_range (ship_desc A lib s) (pm_val p).
Proof.
  intros s I N. destruct (row_cases s I N) as [H|H].
  - destruct (float_row_desc s H) as (lo & hi & D). destruct (C36_new_in_range pow2 c1 c2 (ship_desc A lib s)) as [C _]. destruct (C lo hi D) as (p0 & E0 & H0).
    exists p0. split; [exact E0|]. pose proof D as (M1 & M2 & Fl & Fh & L & _).
    assert (W : forall p, holds_float p lo hi -> in_range (ship_desc A lib s) (pm_val p)). { intros p (f & Ef & Ff & Hf). unfold in_range. rewrite M1, M2, Ef. auto. }
    split; [apply W; exact H0|]. intros ops p E. apply W. destruct (C36_history_in_range pow2 c1 c2 _ ops p0 p E0 E) as [Y _]. apply Y, D.
  - destruct (int_row_desc s H) as (lo & hi & D). destruct (C36_new_in_range pow2 c1 c2 (ship_desc A lib s)) as [_ C]. destruct (C lo hi D) as (p0 & E0 & H0).
    exists p0. split; [exact E0|]. pose proof D as (M1 & M2 & _).
    assert (W : forall p, holds_int p lo hi -> in_range (ship_desc A lib s) (pm_val p)). { intros p (f & Ef & Hf). unfold in_range. rewrite M1, M2, Ef. exact Hf. }
    split; [apply W; exact H0|]. intros ops p E. apply W. destruct (C36_history_in_range pow2 c1 c2 _ ops p0 p E0 E) as [_ Y]. apply Y, D.
Qed.
(* REFUTED for six parameters: the default is of another kind than the range; the parameter is created holding it and every
   later set panics. *)
Theorem C168_mixed_kinds_refuted : forall s, In s ship_table -> In (sname s) mixed_kinds ->
  exists p0, param_new A (ship_desc A lib s) = Ok p0 /\ pm_val p0 = pd_default (ship_desc A lib s)
    /\ (forall v fi, set_value_f01 A p0 v fi = Panic) /\ (forall v, set_param_val A p0 v = Panic).
Proof.
  intros s I M.
  assert (K : match sh_default s, sh_min s, sh_max s with LFlt _ _, LInt _, LInt _ => true | LInt _, LFlt _ _, LFlt _ _ => negb (ctype_beq (sh_ctype s) CtVocoderBandcount) | _, _, _ => false end = true).
  { assert (F : forallb (fun s => implb (smem (sname s) mixed_kinds) (match sh_default s, sh_min s, sh_max s with LFlt _ _, LInt _, LInt _ => true | LInt _, LFlt _ _, LFlt _ _ => negb (ctype_beq (sh_ctype s) CtVocoderBandcount) | _, _, _ => false end)) ship_table = true) by (vm_compute; reflexivity).
    pose proof (proj1 (forallb_forall _ _) F s I) as Q. cbn beta in Q. apply smem_In in M. rewrite M in Q. exact Q. }
  unfold param_new, bound_value, ship_desc. cbn [pm_val pm_temposync pd_default pm_desc pd_ctype].
  destruct (sh_default s) as [z|n d|k] eqn:E0, (sh_min s) as [z1|n1 d1|k1] eqn:E1, (sh_max s) as [z2|n2 d2|k2] eqn:E2; try discriminate; cbn [slit_val obind].
  - rewrite (proj1 (negb_true_iff _) K). eexists. split; [reflexivity|]. unfold limit_parameter_range. cbn.
    split; [reflexivity|]. split; [intros v fi; unfold set_value_f01; cbn; reflexivity|]. intros [v|v|v]; cbn; reflexivity.
  - eexists. split; [reflexivity|]. unfold limit_parameter_range. cbn.
    split; [reflexivity|]. split; [intros v fi; unfold set_value_f01; cbn; reflexivity|]. intros [v|v|v]; cbn; reflexivity.
Qed.
(* REFUTED for four ring modulator parameters: the minimum is not below the maximum; the value is 0 from the start and after
   every history, so the carrier frequency, the detune and the two cut-offs cannot be set. *)
Lemma clamp_empty x lo hi : fin lo -> fin hi -> (val hi <= val lo)%R -> limit_range_f32 A x lo hi = hi.
Proof.
  intros Fl Fh L. unfold limit_range_f32, smin, smax. cbn [A num32 nu_ar arith32 ar_lt].
  assert (H : fltb (if fltb lo x then x else lo) hi = false).
  { destruct (fltb lo x) eqn:E.
    - destruct (fltb x hi) eqn:E2; [|reflexivity]. exfalso. destruct x as [sx|sx| |sx mx ex Bx].
      + apply fltb_spec in E; [|exact Fl|reflexivity]. apply fltb_spec in E2; [|reflexivity|exact Fh]. lra.
      + change (B754_infinity sx) with (finf sx) in E, E2. rewrite fltb_inf_r in E by exact Fl. rewrite fltb_inf_l in E2 by exact Fh. destruct sx; discriminate.
      + unfold fltb, Bltb in E. cbn in E. destruct lo; discriminate.
      + apply fltb_spec in E; [|exact Fl|reflexivity]. apply fltb_spec in E2; [|reflexivity|exact Fh]. lra.
    - destruct (fltb lo hi) eqn:E2; [|reflexivity]. apply fltb_spec in E2; [|assumption..]. lra. }
  rewrite H. reflexivity.
Qed.
Lemma bound_empty p lo hi f fi p' : pd_min (pm_desc p) = PFloat lo -> pd_max (pm_desc p) = PFloat hi -> fin lo -> fin hi -> (val hi <= val lo)%R -> pm_val p = PFloat f ->
  bound_value A p fi = Ok p' -> pm_val p' = PFloat hi.
Proof.
  intros E1 E2 Fl Fh L Ev. unfold bound_value. rewrite Ev.
  assert (K : forall q g, pm_desc q = pm_desc p -> pm_val q = PFloat g -> pm_val (limit_parameter_range A q) = PFloat hi).
  { intros q g Q1 Q2. unfold limit_parameter_range. rewrite Q2, Q1, E1, E2. cbn. f_equal. apply (clamp_empty g lo hi Fl Fh L). }
  destruct (pm_temposync p).
  - destruct (temposync_round A f) as [v| |]; try discriminate. cbn [obind]. intros Q. injection Q as <-. destruct fi; (eapply K; [|cbn; reflexivity]; reflexivity).
  - cbn [obind]. intros Q. injection Q as <-. destruct fi; [eapply K; [|cbn; reflexivity]; reflexivity|]. eapply K; [reflexivity|exact Ev].
Qed.
Theorem C168_ringmod_stuck_refuted : forall s, In s ship_table -> In (sname s) empty_ranges ->
  exists p0, param_new A (ship_desc A lib s) = Ok p0 /\ pm_val p0 = PFloat (flit 0 1)
    /\ forall ops p, foldM (pop_step A) ops p0 = Ok p -> pm_val p = PFloat (flit 0 1).
Proof.
  intros s I M.
  assert (K : match sh_default s, sh_min s, sh_max s with LFlt _ _, LFlt a b, LFlt 0 1 => is_finite (flit a b) && is_finite (flit 0 1) && fleb (flit 0 1) (flit a b) | _, _, _ => false end = true).
  { assert (F : forallb (fun s => implb (smem (sname s) empty_ranges) (match sh_default s, sh_min s, sh_max s with LFlt _ _, LFlt a b, LFlt 0 1 => is_finite (flit a b) && is_finite (flit 0 1) && fleb (flit 0 1) (flit a b) | _, _, _ => false end)) ship_table = true) by (vm_compute; reflexivity).
    pose proof (proj1 (forallb_forall _ _) F s I) as Q. cbn beta in Q. apply smem_In in M. rewrite M in Q. exact Q. }
  destruct (sh_default s) as [z|n d|k] eqn:E0; try discriminate. destruct (sh_min s) as [z1|n1 d1|k1] eqn:E1; try discriminate. destruct (sh_max s) as [z2|n2 d2|k2] eqn:E2; try discriminate.
  destruct n2; try discriminate. destruct d2 as [|d2|]; try discriminate. destruct d2; try discriminate.
  apply andb_prop in K. destruct K as [K K3]. apply andb_prop in K. destruct K as [K1 K2].
  assert (L : (val (flit 0 1) <= val (flit n1 d1))%R). { apply fleb_spec; assumption. }
  assert (Dm : pd_min (ship_desc A lib s) = PFloat (flit n1 d1)) by (unfold ship_desc; cbn [pd_min]; rewrite E1; reflexivity).
  assert (DM : pd_max (ship_desc A lib s) = PFloat (flit 0 1)) by (unfold ship_desc; cbn [pd_max]; rewrite E2; reflexivity).
  assert (Dd : pd_default (ship_desc A lib s) = PFloat (flit n d)) by (unfold ship_desc; cbn [pd_default]; rewrite E0; reflexivity).
  destruct (new_float A _ _ Dd) as (p0 & N). exists p0. split; [exact N|].
  assert (V0 : pm_val p0 = PFloat (flit 0 1)). { unfold param_new in N. eapply (bound_empty _ (flit n1 d1) (flit 0 1) (flit n d)) in N; try exact N; try assumption. }
  split; [exact V0|]. destruct (new_keeps A _ _ N) as (_ & D0 & _).
  clear N. intros ops. revert p0 V0 D0. induction ops as [|o ops IH]; intros p0 V0 D0 p E; cbn [foldM] in E; [injection E as <-; exact V0|].
  destruct (pop_step A p0 o) as [p1| |] eqn:S1; try discriminate. cbn [obind] in E. apply (IH p1); [| |exact E].
  - assert (Dm0 := Dm). assert (DM0 := DM). rewrite <- D0 in Dm0, DM0.
    assert (SET : forall v fi, set_value_f01 A p0 v fi = Ok p1 -> pm_val p1 = PFloat (flit 0 1)).
    { intros v fi Q. unfold set_value_f01 in Q. rewrite V0, Dm0, DM0 in Q. cbn [obind] in Q.
      match type of Q with bound_value A (p_set_value p0 (PFloat ?g)) fi = _ => apply (bound_empty (p_set_value p0 (PFloat g)) (flit n1 d1) (flit 0 1) g fi p1) in Q; try assumption; reflexivity end. }
    destruct o as [v fi|v|fi|b|b|b|b|]; cbn [pop_step] in S1; try (injection S1 as <-; exact V0).
    + apply (SET v fi), S1.
    + destruct v; cbn [set_param_val] in S1; eapply SET; exact S1.
    + eapply (bound_empty p0 (flit n1 d1) (flit 0 1) (flit 0 1)) in S1; try assumption.
  - destruct (step_keeps A _ _ _ S1) as (_ & Q & _). congruence.
Qed.
(* what the normalised read of those four returns: 1 for the first two, NaN for the cut-offs *)
Theorem C168_ringmod_reads_refuted : forall s ops p0 p, In s ship_table -> In (sname s) empty_ranges -> param_new A (ship_desc A lib s) = Ok p0 -> foldM (pop_step A) ops p0 = Ok p ->
  exists r, get_value_f01 A p = Ok r /\ (if existsb (String.eqb (sh_name s)) ["LowCut"; "HighCut"] then is_nan r = true else feqb r (flit 1 1) = true).
Proof.
  intros s ops p0 p I M N E. destruct (C168_ringmod_stuck_refuted s I M) as (q0 & Nq & _ & H). rewrite N in Nq. injection Nq as <-. specialize (H ops p E).
  destruct (reach_keeps A _ _ _ _ N E) as (_ & D & _).
  assert (F : forallb (fun s => implb (smem (sname s) empty_ranges) (match sh_min s, sh_max s with LFlt a b, LFlt c d => negb (ctype_beq (sh_ctype s) CtNil) &&
     (let r := fdiv (fsub (flit 0 1) (flit a b)) (fsub (flit c d) (flit a b)) in if existsb (String.eqb (sh_name s)) ["LowCut"; "HighCut"] then is_nan r else feqb r (flit 1 1)) | _, _ => false end)) ship_table = true) by (vm_compute; reflexivity).
  pose proof (proj1 (forallb_forall _ _) F s I) as Q. cbn beta in Q. apply smem_In in M. rewrite M in Q. cbn [implb] in Q.
  unfold get_value_f01. rewrite D, H. cbn [ship_desc pd_ctype pd_max pd_min].
  destruct (sh_min s) as [z1|n1 d1|k1] eqn:E1; try discriminate. destruct (sh_max s) as [z2|n2 d2|k2] eqn:E2; try discriminate. cbn [slit_val].
  apply andb_prop in Q. destruct Q as [Q1 Q2]. rewrite (proj1 (negb_true_iff _) Q1). eexists. split; [reflexivity|]. cbn [A num32 nu_ar arith32 ar_sub ar_div ar_lit].
  destruct (existsb (String.eqb (sh_name s)) _); exact Q2.
Qed.

(** ** C169 *)
(* one normalised set of an integer parameter: the new value, independent of what was asked for *)
Definition istep (ct : ctype) (lo hi i : Z) : res Z :=
  obind (i32 (hi - lo)) (fun w =>
  obind (i32 (as_i32_f (fadd (fmul (fmul (fdiv (flit 1 1) (flit 99 100)) (fsub (fofZ i) (flit 5 1000))) (fofZ w)) (flit 1 2)) + lo)) (fun r =>
  Ok (limit_range_i (if ctype_beq ct CtVocoderBandcount then r - Z.rem r 4 else r) lo hi))).
Definition ibound (ct : ctype) (lo hi i : Z) : Z := limit_range_i (if ctype_beq ct CtVocoderBandcount then i - Z.rem i 4 else i) lo hi.
Lemma bound_istep p lo hi i fi : pd_min (pm_desc p) = PInt lo -> pd_max (pm_desc p) = PInt hi -> pm_val p = PInt i ->
  exists p', bound_value A p fi = Ok p' /\ pm_val p' = PInt (ibound (pd_ctype (pm_desc p)) lo hi i).
Proof.
  intros E1 E2 Ev. unfold bound_value, ibound. rewrite Ev. cbn [obind]. eexists. split; [reflexivity|].
  destruct (ctype_beq _ _); unfold limit_parameter_range; cbn [p_set_value pm_val pm_desc]; rewrite ?Ev, E1, E2; reflexivity.
Qed.
Lemma set_istep p lo hi i r v fi : pd_min (pm_desc p) = PInt lo -> pd_max (pm_desc p) = PInt hi -> pm_val p = PInt i -> istep (pd_ctype (pm_desc p)) lo hi i = Ok r ->
  exists p', set_value_f01 A p v fi = Ok p' /\ pm_val p' = PInt r.
Proof.
  intros E1 E2 Ev. unfold istep, set_value_f01. rewrite Ev, E1, E2. destruct (i32 (hi - lo)) as [w| |]; try discriminate. cbn [obind].
  change (nu_as_i32 A ?x) with (as_i32_f x). cbn [A num32 nu_ar arith32 ar_add ar_mul ar_sub ar_div ar_lit nu_ofZ].
  destruct (i32 _) as [r0| |]; try discriminate. cbn [obind]. intros Q. injection Q as <-.
  apply (bound_istep (p_set_value p (PInt r0)) lo hi r0 fi); assumption || reflexivity.
Qed.
Definition settle (s : ship) (d : Z) : Z := if smem (sname s) unison_counts then 16 else d.
Theorem C169_int_parameters_stuck_refuted : forall s d lo hi, In s ship_table -> sh_default s = LInt d -> sh_min s = LInt lo -> sh_max s = LInt hi ->
  forall ops, exists p0 p, param_new A (ship_desc A lib s) = Ok p0 /\ foldM (pop_step A) ops p0 = Ok p
    /\ pm_val p = PInt (if existsb is_set ops then (if smem (sname s) unison_counts then 16 else d) else d).
Proof.
  intros s d lo hi I E0 E1 E2 ops.
  assert (F : forallb (fun s => match sh_default s, sh_min s, sh_max s with LInt d, LInt lo, LInt hi =>
      match istep (sh_ctype s) lo hi d, istep (sh_ctype s) lo hi (settle s d) with Ok a, Ok b => (a =? settle s d) && (b =? settle s d) | _, _ => false end
      && (ibound (sh_ctype s) lo hi d =? d) && (ibound (sh_ctype s) lo hi (settle s d) =? settle s d) | _, _, _ => true end) ship_table = true) by (vm_compute; reflexivity).
  pose proof (proj1 (forallb_forall _ _) F s I) as Q. cbn beta in Q. rewrite E0, E1, E2 in Q. clear F.
  apply andb_prop in Q. destruct Q as [Q Q4]. apply andb_prop in Q. destruct Q as [Q Q3]. apply Z.eqb_eq in Q3, Q4.
  destruct (istep (sh_ctype s) lo hi d) as [a| |] eqn:S1; try discriminate. destruct (istep (sh_ctype s) lo hi (settle s d)) as [b| |] eqn:S2; try discriminate.
  apply andb_prop in Q. destruct Q as [Q1 Q2]. apply Z.eqb_eq in Q1, Q2. subst a b. fold (settle s d).
  assert (Dm : pd_min (ship_desc A lib s) = PInt lo) by (unfold ship_desc; cbn [pd_min]; rewrite E1; reflexivity).
  assert (DM : pd_max (ship_desc A lib s) = PInt hi) by (unfold ship_desc; cbn [pd_max]; rewrite E2; reflexivity).
  assert (Dd : pd_default (ship_desc A lib s) = PInt d) by (unfold ship_desc; cbn [pd_default]; rewrite E0; reflexivity).
  destruct (new_int A _ _ Dd) as (p0 & N).
  assert (V0 : pm_val p0 = PInt d).
  { pose proof N as N'. unfold param_new in N'. match type of N' with bound_value A ?q _ = _ => destruct (bound_istep q lo hi d false Dm DM Dd) as (q' & B1 & B2) end.
    rewrite B1 in N'. injection N' as <-. rewrite B2. f_equal. exact Q3. }
  destruct (new_keeps A _ _ N) as (_ & D0 & _).
  enough (G : forall ops p0 (c : bool), pm_desc p0 = ship_desc A lib s -> pm_val p0 = PInt (if c then settle s d else d) ->
     exists p, foldM (pop_step A) ops p0 = Ok p /\ pm_val p = PInt (if c || existsb is_set ops then settle s d else d)).
  { destruct (G ops p0 false D0 V0) as (p & G1 & G2). exists p0, p. split; [exact N|]. split; [exact G1|exact G2]. }
  clear ops p0 N V0 D0. induction ops as [|o ops IH]; intros p0 c D0 V0; cbn [foldM existsb].
  - exists p0. split; [reflexivity|]. rewrite orb_false_r. exact V0.
  - assert (NX : exists p1, pop_step A p0 o = Ok p1 /\ pm_val p1 = PInt (if c || is_set o then settle s d else d)).
    { assert (Dm0 := Dm). assert (DM0 := DM). rewrite <- D0 in Dm0, DM0. assert (CT : pd_ctype (pm_desc p0) = sh_ctype s) by (rewrite D0; reflexivity).
      assert (SET : forall v fi, exists p1, set_value_f01 A p0 v fi = Ok p1 /\ pm_val p1 = PInt (settle s d)).
      { intros v fi. apply (set_istep p0 lo hi (if c then settle s d else d)); try assumption. rewrite CT. destruct c; assumption. }
      destruct o as [v fi|v|fi|x|x|x|x|]; cbn [pop_step is_set]; rewrite ?orb_true_r, ?orb_false_r.
      - apply SET.
      - destruct v; apply SET.
      - destruct (bound_istep p0 lo hi _ fi Dm0 DM0 V0) as (p1 & B1 & B2). exists p1. split; [exact B1|]. rewrite B2, CT. f_equal. destruct c; assumption.
      - eexists. split; [reflexivity|exact V0].
      - eexists. split; [reflexivity|exact V0].
      - eexists. split; [reflexivity|exact V0].
      - eexists. split; [reflexivity|exact V0].
      - eexists. split; [reflexivity|exact V0]. }
    destruct NX as (p1 & S & V1). rewrite S. cbn [obind]. destruct (step_keeps A _ _ _ S) as (_ & D1 & _).
    destruct (IH p1 (c || is_set o)%bool ltac:(congruence) V1) as (p & G1 & G2). exists p. split; [exact G1|]. rewrite G2, orb_assoc. reflexivity.
Qed.

(** ** C171 *)
(* Every typed read of a parameter in the source, after every history of the public operations on a fresh parameter: it panics
   exactly when it is in the list. *)
Definition rmem (r : sread) : bool := existsb (fun y => String.eqb (rd_enum r) (fst (fst y)) && String.eqb (rd_name r) (snd (fst y)) && String.eqb (rd_at r) (snd y)) panicking_reads.
Lemma rmem_In r : rmem r = true <-> In (rd_enum r, rd_name r, rd_at r) panicking_reads.
Proof.
  unfold rmem. rewrite existsb_exists. split.
  - intros ([[a b] c] & I & H). apply andb_prop in H. destruct H as [H H3]. apply andb_prop in H. destruct H as [H1 H2]. apply String.eqb_eq in H1, H2, H3. cbn [fst snd] in *. subst. exact I.
  - intros I. eexists. split; [exact I|]. cbn [fst snd]. rewrite !String.eqb_refl. reflexivity.
Qed.
Definition slit_kind (l : slit) : rkind := match l with LInt _ => KInt | _ => KFloat end.
Definition rk_eqb (a b : rkind) : bool := match a, b with KInt, KInt | KBool, KBool | KFloat, KFloat => true | _, _ => false end.
Theorem C171_typed_reads_refuted : forall r s ops p0 p, In r read_table -> In s ship_table -> (rd_enum r, rd_name r) = sname s ->
  param_new A (ship_desc A lib s) = Ok p0 -> foldM (pop_step A) ops p0 = Ok p ->
  (do_read r p = Panic <-> In (rd_enum r, rd_name r, rd_at r) panicking_reads).
Proof.
  intros r s ops p0 p Ir Is En N E. destruct (reach_keeps A _ _ _ _ N E) as (K & D & _).
  assert (F : forallb (fun r => forallb (fun s => implb (String.eqb (rd_enum r) (sh_enum s) && String.eqb (rd_name r) (sh_name s))
     (eqb (rmem r) (negb (rk_eqb (rd_kind r) (slit_kind (match rd_what r with RdVal => sh_default s | RdMin => sh_min s | RdMax => sh_max s end)))))) ship_table) read_table = true) by (vm_compute; reflexivity).
  pose proof (proj1 (forallb_forall _ _) F r Ir) as Q. cbn beta in Q. pose proof (proj1 (forallb_forall _ _) Q s Is) as Q2. cbn beta in Q2. clear F Q.
  injection En as En1 En2. rewrite En1, En2, !String.eqb_refl in Q2. cbn [andb implb] in Q2. apply eqb_prop in Q2.
  rewrite <- rmem_In, Q2. unfold do_read.
  assert (G : forall v l, same_kind_of (slit_val A lib l) v -> kind_ok (rd_kind r) v = rk_eqb (rd_kind r) (slit_kind l)).
  { intros v l S. destruct l, v; cbn in S; try contradiction; destruct (rd_kind r); reflexivity. }
  assert (H : kind_ok (rd_kind r) (match rd_what r with RdVal => pm_val p | RdMin => pd_min (pm_desc p) | RdMax => pd_max (pm_desc p) end)
     = rk_eqb (rd_kind r) (slit_kind (match rd_what r with RdVal => sh_default s | RdMin => sh_min s | RdMax => sh_max s end))).
  { destruct (rd_what r); apply G; [exact K|rewrite D; apply sk_refl|rewrite D; apply sk_refl]. }
  rewrite H. destruct (rk_eqb _ _); cbn [negb]; split; intros X; try discriminate; reflexivity.
Qed.
End F32.
(* every read in the table names exactly one shipped parameter *)
Theorem C171_reads_are_of_shipped : forall r, In r read_table -> exists s, In s ship_table /\ (rd_enum r, rd_name r) = sname s.
Proof.
  intros r I. assert (F : forallb (fun r => existsb (fun s => String.eqb (rd_enum r) (sh_enum s) && String.eqb (rd_name r) (sh_name s)) ship_table) read_table = true) by (vm_compute; reflexivity).
  pose proof (proj1 (forallb_forall _ _) F r I) as Q. cbn beta in Q. apply existsb_exists in Q. destruct Q as (s & Is & H). exists s. split; [exact Is|].
  apply andb_prop in H. destruct H as [H1 H2]. apply String.eqb_eq in H1, H2. unfold sname. congruence.
Qed.

(** ** C168: declared defaults *)
(* Exactly one shipped parameter with a usable range has a declared default outside it (the reverb's high cut: 72, range -60..70) *)
Definition lit_le (a b : slit) : bool := match a, b with LFlt n d, LFlt m e => n * e <=? m * d | LInt x, LInt y => x <=? y | _, _ => true end.
Theorem C168_default_outside_refuted : map sname (filter (fun s => negb (smem (sname s) (mixed_kinds ++ empty_ranges)) && negb (lit_le (sh_min s) (sh_default s) && lit_le (sh_default s) (sh_max s))) ship_table)
  = [("ReverbParam", "HighCut")].
Proof. vm_compute. reflexivity. Qed.

(** ** C170 *)
Section Reals.
Context (pow2 : R -> R) (c1 c2 : R) (lib : Z -> R).
Let A := numR pow2 c1 c2.
Theorem C170_round_trip : forall s n d n1 d1 n2 d2, In s ship_table -> ~ In (sname s) empty_ranges -> sh_ctype s <> CtNil ->
  sh_default s = LFlt n d -> sh_min s = LFlt n1 d1 -> sh_max s = LFlt n2 d2 ->
  forall ops v, forallb sync_off ops = true -> (0 <= v <= 1)%R ->
  exists p0, param_new A (ship_desc A lib s) = Ok p0 /\
    forall p, foldM (pop_step A) ops p0 = Ok p -> exists p', set_value_f01 A p v false = Ok p' /\ get_value_f01 A p' = Ok v
      /\ pm_val p' = PFloat (IZR n1 / IZR d1 + v * (IZR n2 / IZR d2 - IZR n1 / IZR d1))%R.
Proof.
  intros s n d n1 d1 n2 d2 I NE NN E0 E1 E2 ops v SO Hv.
  assert (F : forallb (fun s => implb (negb (smem (sname s) empty_ranges)) (match sh_min s, sh_max s with LFlt a b, LFlt c e => (0 <? b) && (0 <? e) && (a * e <? c * b) | _, _ => true end)) ship_table = true) by (vm_compute; reflexivity).
  pose proof (proj1 (forallb_forall _ _) F s I) as Q. cbn beta in Q. rewrite E1, E2 in Q. clear F.
  assert (M : smem (sname s) empty_ranges = false). { destruct (smem (sname s) empty_ranges) eqn:X; [|reflexivity]. apply smem_In in X. contradiction. }
  rewrite M in Q. cbn [negb implb] in Q. apply andb_prop in Q. destruct Q as [Q Q3]. apply andb_prop in Q. destruct Q as [Q1 Q2].
  apply Z.ltb_lt in Q1, Q2, Q3.
  assert (L : (IZR n1 / IZR d1 < IZR n2 / IZR d2)%R).
  { apply IZR_lt in Q1, Q2, Q3. rewrite !mult_IZR in Q3. apply (Rmult_lt_reg_r (IZR d1 * IZR d2)); [apply Rmult_lt_0_compat; assumption|].
    replace (IZR n1 / IZR d1 * (IZR d1 * IZR d2))%R with (IZR n1 * IZR d2)%R by (field; lra). replace (IZR n2 / IZR d2 * (IZR d1 * IZR d2))%R with (IZR n2 * IZR d1)%R by (field; lra). exact Q3. }
  assert (Dm : pd_min (ship_desc A lib s) = PFloat (IZR n1 / IZR d1)%R) by (unfold ship_desc; cbn [pd_min]; rewrite E1; reflexivity).
  assert (DM : pd_max (ship_desc A lib s) = PFloat (IZR n2 / IZR d2)%R) by (unfold ship_desc; cbn [pd_max]; rewrite E2; reflexivity).
  assert (Dd : pd_default (ship_desc A lib s) = PFloat (IZR n / IZR d)%R) by (unfold ship_desc; cbn [pd_default]; rewrite E0; reflexivity).
  destruct (new_float A _ _ Dd) as (p0 & N). exists p0. split; [exact N|]. intros p E. destruct (reach_keeps A _ _ _ _ N E) as (K & D & T).
  apply (C37_float_round_trip pow2 c1 c2 p _ _ v); [| |rewrite D; exact NN|exact Hv].
  - unfold real_param. rewrite D. split; [exact Dm|]. split; [exact DM|]. split; [exact L|]. rewrite Dd in K. destruct (pm_val p); cbn in K; try contradiction. eexists; reflexivity.
  - apply T, SO.
Qed.
End Reals.
(* REFUTED: every parameter of the envelopes, LFOs, waveshapers, patch, scenes and oscillators' common part is declared with
   control type Nil, and reads 0 whatever was set, in any arithmetic. *)
Theorem C170_nil_reads_zero_refuted : forall T (A : numops T) lib s ops p0 p, In s ship_table -> In (sh_enum s) nil_enums ->
  param_new A (ship_desc A lib s) = Ok p0 -> foldM (pop_step A) ops p0 = Ok p -> get_value_f01 A p = Ok (ar_lit A 0 1).
Proof.
  intros T A lib s ops p0 p I M N E. destruct (reach_keeps A _ _ _ _ N E) as (_ & D & _).
  assert (F : forallb (fun s => implb (existsb (String.eqb (sh_enum s)) nil_enums) (ctype_beq (sh_ctype s) CtNil)) ship_table = true) by (vm_compute; reflexivity).
  pose proof (proj1 (forallb_forall _ _) F s I) as Q. cbn beta in Q.
  assert (X : existsb (String.eqb (sh_enum s)) nil_enums = true) by (apply existsb_exists; exists (sh_enum s); split; [exact M|apply String.eqb_refl]).
  rewrite X in Q. cbn [implb] in Q. unfold get_value_f01. rewrite D. cbn [ship_desc pd_ctype]. rewrite Q. reflexivity.
Qed.
(* the control type Nil occurs nowhere else but in two sample-and-hold parameters *)
Theorem C170_nil_where : forall s, In s ship_table -> sh_ctype s = CtNil -> In (sh_enum s) nil_enums \/ In (sname s) [("SampleAndHoldOscillatorParam", "Smooth"); ("SampleAndHoldOscillatorParam", "Sub")].
Proof.
  intros s I E. assert (F : forallb (fun s => implb (ctype_beq (sh_ctype s) CtNil) (existsb (String.eqb (sh_enum s)) nil_enums || smem (sname s) [("SampleAndHoldOscillatorParam", "Smooth"); ("SampleAndHoldOscillatorParam", "Sub")])) ship_table = true) by (vm_compute; reflexivity).
  pose proof (proj1 (forallb_forall _ _) F s I) as Q. cbn beta in Q. rewrite E in Q. cbn [ctype_beq implb] in Q. apply orb_prop in Q. destruct Q as [Q|Q].
  - left. apply existsb_exists in Q. destruct Q as (e & Ie & H). apply String.eqb_eq in H. subst e. exact Ie.
  - right. apply smem_In, Q.
Qed.
Print Assumptions C168_in_range.
Print Assumptions C168_mixed_kinds_refuted.
Print Assumptions C168_ringmod_stuck_refuted.
Print Assumptions C168_ringmod_reads_refuted.
Print Assumptions C168_default_outside_refuted.
Print Assumptions C169_int_parameters_stuck_refuted.
Print Assumptions C170_round_trip.
Print Assumptions C170_nil_reads_zero_refuted.
Print Assumptions C170_nil_where.
Print Assumptions C171_typed_reads_refuted.
Print Assumptions C171_reads_are_of_shipped.

(** ** non-vacuity *)
(* sizes: 271 parameters, 10 exceptions; 340 reads, 66 panicking *)
Example C168_nonvacuous : length ship_table = 271%nat /\ length (mixed_kinds ++ empty_ranges) = 10%nat /\ (length (filter float_row ship_table) = 246)%nat /\ (length (filter int_row ship_table) = 15)%nat.
Proof. vm_compute. auto. Qed.
Example C168_exceptions_shipped : forallb (fun x => existsb (fun s => String.eqb (fst x) (sh_enum s) && String.eqb (snd x) (sh_name s)) ship_table) (mixed_kinds ++ empty_ranges ++ unison_counts) = true.
Proof. vm_compute. reflexivity. Qed.
Example C171_nonvacuous : length read_table = 340%nat /\ length panicking_reads = 66%nat /\ length (filter rmem read_table) = 66%nat.
Proof. vm_compute. auto. Qed.
Example C169_nonvacuous : forall pow2 c1 c2 lib, exists p0 p, let A := num32 pow2 c1 c2 in let s := mk_ship "SSOParam" "UniCount" (CtOther 49) (LInt 1) (LInt 1) (LInt 16) false in
  In s ship_table /\ param_new A (ship_desc A lib s) = Ok p0 /\ foldM (pop_step A) [OpF01 (flit 0 1) true] p0 = Ok p /\ pm_val p = PInt 16.
Proof.
  intros. assert (I : In (mk_ship "SSOParam" "UniCount" (CtOther 49) (LInt 1) (LInt 1) (LInt 16) false) ship_table).
  { unfold ship_table. repeat (apply in_or_app; first [left; cbn; tauto|right]). }
  destruct (C169_int_parameters_stuck_refuted pow2 c1 c2 lib _ 1 1 16 I eq_refl eq_refl eq_refl [OpF01 (flit 0 1) true]) as (p0 & p & H1 & H2 & H3).
  exists p0, p. split; [exact I|]. split; [exact H1|]. split; [exact H2|exact H3].
Qed.
