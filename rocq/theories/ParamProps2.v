(* ParamProps2.v - C37 normalised access, C38 morphing, C29 solo, C78 switches, C79 modulation depth, C80 note names, C81 tempo-sync labels. *)
From Coq Require Import Reals Lra.
From Flocq Require Import Core.Core IEEE754.BinarySingleNaN Plus_error.
From Verif Require Import Base Util F32 F32Facts BlockModel BlockProofs BlockProps RampProps MathModel ClipProps ParamModel ParamProps.
Local Open Scope Z_scope.

(** ** specification vocabulary *)
(* a parameter of real-number kind with range lo..hi *)
Definition real_param (p : param R) (lo hi : R) : Prop :=
  pd_min (pm_desc p) = PFloat lo /\ pd_max (pm_desc p) = PFloat hi /\ (lo < hi)%R /\ exists f, pm_val p = PFloat f.
Definition real_int_param (p : param R) (lo hi : Z) : Prop :=
  pd_min (pm_desc p) = PInt lo /\ pd_max (pm_desc p) = PInt hi /\ lo < hi /\ exists i, pm_val p = PInt i /\ lo <= i <= hi.

Lemma ltR x y : ar_lt arithR x y = true <-> (x < y)%R.
Proof. cbn. destruct (Rlt_dec x y); split; intros; auto; try discriminate; contradiction. Qed.
Lemma ltR_f x y : ar_lt arithR x y = false <-> (y <= x)%R.
Proof. cbn. destruct (Rlt_dec x y); split; intros; auto; try discriminate; lra. Qed.

Section Real.
Context (pow2 : R -> R) (c1 c2 : R).
Let A := numR pow2 c1 c2.
Lemma limR x lo hi : limit_range_f32 A x lo hi = Rmin (Rmax x lo) hi.
Proof. unfold limit_range_f32. cbn [nu_ar A numR]. rewrite smaxR, sminR. reflexivity. Qed.

(** ** C37 *)
(* Without rounding, reading back a float parameter gives exactly the value set. *)
Theorem C37_float_round_trip : forall p lo hi v, real_param p lo hi -> pm_temposync p = false -> pd_ctype (pm_desc p) <> CtNil -> (0 <= v <= 1)%R ->
  exists p', set_value_f01 A p v false = Ok p' /\ get_value_f01 A p' = Ok v /\ pm_val p' = PFloat (lo + v * (hi - lo))%R.
Proof.
  intros p lo hi v (E1 & E2 & L & f & Ev) Ht Hn Hv. unfold set_value_f01. rewrite Ev, E1, E2. cbn [obind].
  unfold bound_value. cbn [p_set_value pm_val pm_temposync]. rewrite Ht. cbn [obind]. eexists. split; [reflexivity|].
  unfold limit_parameter_range. cbn [p_set_value pm_val pm_desc]. rewrite E1, E2.
  assert (X : limit_range_f32 A (ar_add A (ar_mul A v (ar_sub A hi lo)) lo) lo hi = (lo + v * (hi - lo))%R).
  { rewrite limR. cbn. rewrite Rmax_left by nra. rewrite Rmin_left by nra. ring. }
  rewrite X. cbn [p_set_value pm_val pm_desc]. split; [|reflexivity].
  unfold get_value_f01. cbn [pm_desc pm_val p_set_value]. try rewrite E1; try rewrite E2.
  destruct (ctype_beq _ _) eqn:EB; [apply internal_ctype_dec_bl in EB; contradiction|].
  cbn. f_equal. field. lra.
Qed.
(* Values outside [0,1] read back clamped. *)
Theorem C37_float_clamps : forall p lo hi v, real_param p lo hi -> pm_temposync p = false -> pd_ctype (pm_desc p) <> CtNil ->
  exists p', set_value_f01 A p v false = Ok p' /\ get_value_f01 A p' = Ok (Rmax 0 (Rmin 1 v)).
Proof.
  intros p lo hi v (E1 & E2 & L & f & Ev) Ht Hn. unfold set_value_f01. rewrite Ev, E1, E2. cbn [obind].
  unfold bound_value. cbn [p_set_value pm_val pm_temposync]. rewrite Ht. cbn [obind]. eexists. split; [reflexivity|].
  unfold limit_parameter_range. cbn [p_set_value pm_val pm_desc]. rewrite E1, E2. rewrite limR.
  unfold get_value_f01. cbn [p_set_value pm_desc pm_val]. rewrite E1, E2.
  destruct (ctype_beq _ _) eqn:EB; [apply internal_ctype_dec_bl in EB; contradiction|].
  cbn. f_equal. apply (Rmult_eq_reg_r (hi - lo)); [|lra].
  replace ((Rmin (Rmax (v * (hi - lo) + lo) lo) hi - lo) / (hi - lo) * (hi - lo))%R with (Rmin (Rmax (v * (hi - lo) + lo) lo) hi - lo)%R by (field; lra).
  unfold Rmax, Rmin. repeat destruct (Rle_dec _ _); nra.
Qed.
(* Forcing an integer gives the nearest integer (ties up) to the value the fraction stands for, clamped to the range. *)
Theorem C37_force_integer : forall p lo hi v, real_param p lo hi -> pm_temposync p = false ->
  exists p' k, set_value_f01 A p v true = Ok p' /\ pm_val p' = PFloat (Rmin (Rmax (IZR k) lo) hi)
    /\ (IZR k - 1 / 2 <= lo + v * (hi - lo) < IZR k + 1 / 2)%R.
Proof.
  intros p lo hi v (E1 & E2 & L & f & Ev) Ht. unfold set_value_f01. rewrite Ev, E1, E2. cbn [obind].
  unfold bound_value. cbn [p_set_value pm_val pm_temposync]. rewrite Ht. cbn [obind]. eexists.
  exists (Int_part (v * (hi - lo) + lo + 1 / 2)). split; [reflexivity|].
  unfold limit_parameter_range. cbn [p_set_value pm_val pm_desc]. rewrite E1, E2, limR. cbn.
  split; [reflexivity|].
  destruct (base_Int_part (v * (hi - lo) + lo + 1 / 2)) as [B1 B2]. lra.
Qed.
(* The two conversions between values and fractions undo each other, for float and integer ranges. *)
Theorem C37_normalise_inverse : forall (p : param R) v,
  (forall lo hi, pd_min (pm_desc p) = PFloat lo -> pd_max (pm_desc p) = PFloat hi -> (lo < hi)%R ->
     value2normalized A p (normalized2value A p v) = v /\ normalized2value A p (value2normalized A p v) = v
     /\ normalized2value A p 0%R = lo /\ normalized2value A p 1%R = hi) /\
  (forall lo hi, pd_min (pm_desc p) = PInt lo -> pd_max (pm_desc p) = PInt hi -> (lo < hi)%Z ->
     value2normalized A p (normalized2value A p v) = v /\ normalized2value A p (value2normalized A p v) = v
     /\ normalized2value A p 0%R = IZR lo /\ normalized2value A p 1%R = IZR hi).
Proof.
  intros p v. split; intros lo hi E1 E2 L; unfold value2normalized, normalized2value; rewrite E1, E2; cbn.
  - repeat split; field; lra.
  - apply IZR_lt in L. repeat split; field; lra.
Qed.
(* REFUTED for integer parameters: the fraction passed to set_value_f01 is ignored - two different fractions always give the
   same result - and the new value is computed from the old one. *)
Theorem C37_int_ignores_input_refuted : forall T (B : numops T) (p : param T) i v w fi, pm_val p = PInt i ->
  set_value_f01 B p v fi = set_value_f01 B p w fi.
Proof. intros T B p i v w fi E. unfold set_value_f01. rewrite E. reflexivity. Qed.
(* REFUTED: an integer parameter's fraction is read on another scale than the other conversion uses; they differ except at
   the middle of the range. *)
Theorem C37_int_scale_refuted : forall p lo hi i, real_int_param p lo hi -> pd_ctype (pm_desc p) <> CtNil -> pm_val p = PInt i ->
  i32_min <= lo -> hi <= i32_max -> hi - lo <= i32_max ->
  get_value_f01 A p = Ok (5 / 1000 + 99 / 100 * value2normalized A p (IZR i))%R
  /\ (get_value_f01 A p = Ok (value2normalized A p (IZR i)) <-> 2 * i = lo + hi).
Proof.
  intros p lo hi i (E1 & E2 & L & j & Ej & Hj) Hn Ei B1 B2 B3. rewrite Ei in Ej. injection Ej as <-.
  unfold get_value_f01. destruct (ctype_beq _ _) eqn:EB; [apply internal_ctype_dec_bl in EB; contradiction|].
  rewrite Ei, E1, E2. unfold i32, i32_min, i32_max in *.
  replace ((_ <=? i - lo) && (i - lo <=? _)) with true by lia. replace ((_ <=? hi - lo) && (hi - lo <=? _)) with true by lia. cbn [obind].
  unfold value2normalized. rewrite E1, E2. cbn [nu_ar A numR ar_add ar_sub ar_mul ar_div ar_lit arithR nu_ofZ].
  rewrite !minus_IZR. assert (Lr := IZR_lt _ _ L).
  assert (X : (5 / 1000 + 99 / 100 * (IZR i - IZR lo) / (IZR hi - IZR lo) = 5 / 1000 + 99 / 100 * ((IZR i - IZR lo) / (IZR hi - IZR lo)))%R) by (field; lra).
  rewrite X. split; [reflexivity|]. set (t := ((IZR i - IZR lo) / (IZR hi - IZR lo))%R).
  assert (Ht : (t * (IZR hi - IZR lo) = IZR i - IZR lo)%R) by (unfold t; field; lra).
  split; intros H.
  - injection H as H. assert (t = 1 / 2)%R by lra. apply eq_IZR. rewrite mult_IZR, plus_IZR. nra.
  - apply (f_equal IZR) in H. rewrite mult_IZR, plus_IZR in H. f_equal. assert (t = 1 / 2)%R; [|lra]. nra.
Qed.
(* A parameter of type Nil always reads 0, whatever it holds. *)
Theorem C37_nil_reads_zero_refuted : forall T (B : numops T) (p : param T), pd_ctype (pm_desc p) = CtNil -> get_value_f01 B p = Ok (ar_lit B 0 1).
Proof. intros T B p E. unfold get_value_f01. rewrite E. reflexivity. Qed.
(* REFUTED for boolean parameters: setting one panics. *)
Theorem C37_bool_panics_refuted : forall T (B : numops T) (p : param T) b v fi, pm_val p = PBool b -> set_value_f01 B p v fi = Panic.
Proof. intros T B p b v fi E. unfold set_value_f01. rewrite E. reflexivity. Qed.

(** ** C38 *)
Definition same_kind {T} (a b : param T) : Prop := (exists x, pm_val a = PFloat x) /\ (exists y, pm_val b = PFloat y) /\ pd_ctype (pm_desc a) = pd_ctype (pm_desc b).
Theorem C38_morph : forall (a b : param R) f1 f2 x, pm_val a = PFloat f1 -> pm_val b = PFloat f2 -> pd_ctype (pm_desc a) = pd_ctype (pm_desc b) ->
  exists r, morph A a b x = PFloat r /\ pm_val (morph_alt A a b x) = PFloat r /\ (x = 0 -> r = f1)%R /\ (x = 1 -> r = f2)%R
    /\ ((0 <= x <= 1)%R -> (Rmin f1 f2 <= r <= Rmax f1 f2)%R).
Proof.
  intros a b f1 f2 x Ea Eb Ec. unfold morph, morph_alt. rewrite Ea, Eb, Ec, (internal_ctype_dec_lb _ _ eq_refl).
  eexists. split; [reflexivity|]. split; [reflexivity|]. cbn. repeat split.
  - intros ->. field.
  - intros ->. field.
  - unfold Rmin. destruct (Rle_dec _ _); nra.
  - unfold Rmax. destruct (Rle_dec _ _); nra.
Qed.
(* Incompatible pairs: exactly one of the two ends, the second past the middle. *)
Theorem C38_fallback : forall (a b : param R) x, ~ same_kind a b ->
  morph A a b x = (if Rlt_dec (1/2) x then pm_val b else pm_val a) /\ morph_alt A a b x = (if Rlt_dec (1/2) x then b else a).
Proof.
  intros a b x N. unfold morph, morph_alt.
  assert (X : ar_lt A (ar_lit A 1 2) x = if Rlt_dec (1/2) x then true else false) by reflexivity. rewrite X. clear X.
  destruct (pm_val a) eqn:Ea, (pm_val b) eqn:Eb; destruct (Rlt_dec (1/2) x); auto;
    (destruct (ctype_beq _ _) eqn:EB; auto; apply internal_ctype_dec_bl in EB; exfalso; apply N; repeat split; eauto).
Qed.
(* the other settings of a compatible pair are those of the first *)
Theorem C38_morph_alt_keeps : forall T (B : numops T) (a b : param T) x, same_kind a b ->
  let r := morph_alt B a b x in pm_desc r = pm_desc a /\ pm_temposync r = pm_temposync a /\ pm_absolute r = pm_absolute a /\ pm_mod r = pm_mod a.
Proof.
  intros T B a b x ((f1 & Ea) & (f2 & Eb) & Ec). unfold morph_alt. rewrite Ea, Eb, Ec, (internal_ctype_dec_lb _ _ eq_refl). cbn. auto.
Qed.

(** ** C79 modulation depth *)
Theorem C79_modulation_round_trip : forall (d : pdesc R) lo hi v, pd_ctype d <> CtNil -> pd_float_vt d = true ->
  pd_min d = PFloat lo -> pd_max d = PFloat hi -> (lo < hi)%R ->
  exists m, set_modulation_f01 A d v = Ok m /\ get_modulation_f01 A d m = Ok (Rmax (-1) (Rmin 1 v)) /\ (m = v * (hi - lo))%R.
Proof.
  intros d lo hi v Hn Hf E1 E2 L. unfold set_modulation_f01, get_modulation_f01.
  destruct (ctype_beq _ _) eqn:EB; [apply internal_ctype_dec_bl in EB; contradiction|]. rewrite Hf. cbn [orb negb].
  rewrite E1, E2. eexists. split; [reflexivity|]. split; [|reflexivity]. rewrite limR. cbn. f_equal.
  replace (v * (hi - lo) / (hi - lo))%R with v by (field; lra).
  unfold Rmin, Rmax. repeat destruct (Rle_dec _ _); lra.
Qed.
Theorem C79_unsupported_is_zero : forall T (B : numops T) (d : pdesc T) v, pd_ctype d = CtNil \/ pd_float_vt d = false ->
  set_modulation_f01 B d v = Ok (ar_lit B 0 1) /\ get_modulation_f01 B d v = Ok (ar_lit B 0 1).
Proof. intros T B d v [E|E]; unfold set_modulation_f01, get_modulation_f01; rewrite E; cbn [negb]; rewrite ?orb_true_r; auto. Qed.
End Real.

(** ** C37/C38/C79, binary32 *)
Section Float.
Context (pow2 : f32 -> f32) (c1 c2 : f32).
Let A := num32 pow2 c1 c2.

Definition moderate (x : f32) : Prop := fin x /\ (Rabs (val x) <= bpow radix2 60)%R.
Lemma rnd_abs_pow (x : R) e : -140 <= e <= 127 -> (Rabs x <= bpow radix2 e)%R -> (Rabs (rnd x) <= bpow radix2 e)%R.
Proof.
  intros He H. apply Rabs_le_inv in H. apply Rabs_le. rewrite <- (rnd_id (bpow radix2 e)), <- rnd_opp.
  - split; apply rnd_le; lra.
  - apply fmt_bpow; lia.
Qed.
Lemma pow_big (x : R) e : e <= 127 -> (Rabs x <= bpow radix2 e)%R -> (Rabs x <= big)%R.
Proof. intros He H. eapply Rle_trans; [exact H|]. apply bpow_le. lia. Qed.
(* a difference of two different binary32 numbers does not round to zero *)
Lemma rnd_pos_diff x y : fin x -> fin y -> (val x < val y)%R -> (0 < rnd (val y - val x))%R.
Proof.
  intros Fx Fy L. assert (N : rnd (val y - val x) <> 0%R).
  { unfold rnd, Rminus. apply round_plus_neq_0; auto with typeclass_instances; [apply val_fmt|apply generic_format_opp; apply val_fmt|lra]. }
  assert (0 <= rnd (val y - val x))%R by (rewrite <- rnd_0; apply rnd_le; lra). lra.
Qed.
Lemma get_in_unit f lo hi : moderate lo -> moderate hi -> (val lo < val hi)%R -> fin f -> (val lo <= val f <= val hi)%R ->
  let r := fdiv (fsub f lo) (fsub hi lo) in fin r /\ (0 <= val r <= 1)%R /\ val r = rnd (rnd (val f - val lo) / rnd (val hi - val lo)).
Proof.
  intros [Fl Bl] [Fh Bh] L Ff Hf r. apply Rabs_le_inv in Bl. apply Rabs_le_inv in Bh.
  assert (P60 : (bpow radix2 61 = 2 * bpow radix2 60)%R) by (change 61%Z with (1 + 60)%Z; rewrite bpow_plus; reflexivity).
  assert (P0 := bpow_gt_0 radix2 60).
  destruct (fsub_ok f lo Ff Fl) as [Fa Va]. { apply (pow_big _ 61); [lia|]. apply Rabs_le. lra. }
  destruct (fsub_ok hi lo Fh Fl) as [Fb Vb]. { apply (pow_big _ 61); [lia|]. apply Rabs_le. lra. }
  assert (Pb := rnd_pos_diff lo hi Fl Fh L).
  assert (Na : (0 <= rnd (val f - val lo))%R) by (rewrite <- rnd_0; apply rnd_le; lra).
  assert (Lab : (rnd (val f - val lo) <= rnd (val hi - val lo))%R) by (apply rnd_le; lra).
  assert (Q : (0 <= rnd (val f - val lo) / rnd (val hi - val lo) <= 1)%R).
  { split; [apply Rmult_le_pos; [lra|left; apply Rinv_0_lt_compat; lra]|]. apply (Rmult_le_reg_r (rnd (val hi - val lo))); [lra|].
    unfold Rdiv. rewrite Rmult_assoc, Rinv_l by lra. lra. }
  destruct (fdiv_ok (fsub f lo) (fsub hi lo) Fa Fb) as [Fr Vr]; [rewrite Vb; lra|rewrite Va, Vb; apply small_big; rewrite Rabs_pos_eq; lra|].
  subst r. split; [exact Fr|]. rewrite Vr, Va, Vb. split; [|reflexivity].
  split; [rewrite <- rnd_0; apply rnd_le; lra|]. rewrite <- (rnd_id 1) by (apply (fmt_Z 1); lia). apply rnd_le; lra.
Qed.
(* With rounding: whatever is set (NaN and infinities included), the fraction read back is a number in [0,1]. *)
Theorem C37_float_reads_unit : forall p lo hi f v fi p', float_desc (pm_desc p) lo hi -> moderate lo -> moderate hi -> pm_val p = PFloat f ->
  set_value_f01 A p v fi = Ok p' -> exists r, get_value_f01 A p' = Ok r /\ fin r /\ (0 <= val r <= 1)%R.
Proof.
  intros p lo hi f v fi p' D Ml Mh Ev E. destruct (set_float pow2 c1 c2 p lo hi f v fi p' D Ev E) as ((g & Eg & Fg & Hg) & Ed & _).
  unfold get_value_f01. destruct (ctype_beq _ _).
  - destruct (flit_int 0 ltac:(lia)) as [F V]. eexists. split; [reflexivity|]. cbn [A num32 nu_ar arith32 ar_lit]. split; [exact F|rewrite V; lra].
  - rewrite Eg, Ed. destruct D as (E1 & E2 & _ & _ & L & _). rewrite E1, E2. eexists. split; [reflexivity|].
    destruct (get_in_unit g lo hi Ml Mh L Fg Hg) as (H1 & H2 & _). auto.
Qed.
(* With rounding: setting is monotone - a larger fraction never gives a smaller value - and 0 gives exactly the minimum. *)
Definition setv (lo hi v : f32) : f32 := limit_range_f32 A (ar_add A (ar_mul A v (ar_sub A hi lo)) lo) lo hi.
Lemma setv_ok lo hi v : moderate lo -> moderate hi -> (val lo < val hi)%R -> fin v -> (0 <= val v <= 1)%R ->
  fin (setv lo hi v) /\ val (setv lo hi v) = clampR (val lo) (val hi) (rnd (rnd (val v * rnd (val hi - val lo)) + val lo)).
Proof.
  intros [Fl Bl] [Fh Bh] L Fv Hv. pose proof Bl as Bl'. apply Rabs_le_inv in Bl. apply Rabs_le_inv in Bh.
  assert (P60 : (bpow radix2 61 = 2 * bpow radix2 60)%R) by (change 61%Z with (1 + 60)%Z; rewrite bpow_plus; reflexivity).
  assert (P62 : (bpow radix2 62 = 4 * bpow radix2 60)%R) by (change 62%Z with (2 + 60)%Z; rewrite bpow_plus; reflexivity).
  assert (P0 := bpow_gt_0 radix2 60).
  destruct (fsub_ok hi lo Fh Fl) as [Fb Vb]. { apply (pow_big _ 61); [lia|]. apply Rabs_le. lra. }
  assert (Bb : (Rabs (rnd (val hi - val lo)) <= bpow radix2 61)%R) by (apply rnd_abs_pow; [lia|]; apply Rabs_le; lra).
  assert (Pb := rnd_pos_diff lo hi Fl Fh L). rewrite Rabs_pos_eq in Bb by lra.
  assert (Bm : (Rabs (val v * rnd (val hi - val lo)) <= bpow radix2 61)%R) by (rewrite Rabs_pos_eq; nra).
  destruct (fmul_ok v (fsub hi lo) Fv Fb) as [Fm Vm]. { rewrite Vb. apply (pow_big _ 61); [lia|exact Bm]. }
  rewrite Vb in Vm. assert (Bm2 := rnd_abs_pow _ 61 ltac:(lia) Bm). apply Rabs_le_inv in Bm2.
  destruct (fadd_ok (fmul v (fsub hi lo)) lo Fm Fl) as [Fa Va]. { rewrite Vm. apply (pow_big _ 62); [lia|]. apply Rabs_le. lra. }
  rewrite Vm in Va. unfold setv. cbn [A num32 nu_ar arith32 ar_add ar_mul ar_sub].
  destruct (smin_smax_limits lo hi Fl Fh L) as [(P & P2 & _) _].
  unfold limit_range_f32, smax, smin. cbn [arith32 ar_lt]. rewrite <- Va. unfold clampR.
  set (x := fadd _ _) in *. 
  destruct (fltb_cases lo x Fl Fa) as [[Q QL]|[Q QL]]; rewrite Q.
  - rewrite Rmax_left by lra. destruct (fltb_cases x hi Fa Fh) as [[Q2 QL2]|[Q2 QL2]]; rewrite Q2; (split; [assumption|]); [rewrite Rmin_left by lra|rewrite Rmin_right by lra]; reflexivity.
  - rewrite Rmax_right by lra. destruct (fltb_cases lo hi Fl Fh) as [[Q2 QL2]|[Q2 QL2]]; [|lra]. rewrite Q2. split; [assumption|]. rewrite Rmin_left by lra. reflexivity.
Qed.
Lemma set_is_setv p lo hi f v : float_desc (pm_desc p) lo hi -> pm_val p = PFloat f -> pm_temposync p = false ->
  exists p', set_value_f01 A p v false = Ok p' /\ pm_val p' = PFloat (setv lo hi v).
Proof.
  intros (E1 & E2 & _) Ev Ht. unfold set_value_f01. rewrite Ev, E1, E2. cbn [obind]. unfold bound_value. cbn [p_set_value pm_val pm_temposync].
  rewrite Ht. cbn [obind]. eexists. split; [reflexivity|]. unfold limit_parameter_range. cbn [p_set_value pm_val pm_desc]. rewrite E1, E2. reflexivity.
Qed.
Theorem C37_float_monotone : forall p lo hi f v w, float_desc (pm_desc p) lo hi -> moderate lo -> moderate hi -> pm_val p = PFloat f -> pm_temposync p = false ->
  fin v -> fin w -> (0 <= val v)%R -> (val v <= val w)%R -> (val w <= 1)%R ->
  exists p1 p2 x y, set_value_f01 A p v false = Ok p1 /\ set_value_f01 A p w false = Ok p2 /\ pm_val p1 = PFloat x /\ pm_val p2 = PFloat y
    /\ fin x /\ fin y /\ (val x <= val y)%R /\ (val v = 0 -> val x = val lo)%R.
Proof.
  intros p lo hi f v w D Ml Mh Ev Ht Fv Fw H0 H1 H2. pose proof D as (_ & _ & Fl & Fh & L & _).
  destruct (set_is_setv p lo hi f v D Ev Ht) as (p1 & E1 & V1). destruct (set_is_setv p lo hi f w D Ev Ht) as (p2 & E2 & V2).
  exists p1, p2, (setv lo hi v), (setv lo hi w).
  destruct (setv_ok lo hi v Ml Mh L Fv ltac:(lra)) as [F1 X1]. destruct (setv_ok lo hi w Ml Mh L Fw ltac:(lra)) as [F2 X2].
  assert (Pb := rnd_pos_diff lo hi Fl Fh L).
  repeat (split; [assumption|]). rewrite X1, X2. split.
  - unfold clampR. apply Rle_min_compat_r. apply Rle_max_compat_r. apply rnd_le. apply Rplus_le_compat_r. apply rnd_le. apply Rmult_le_compat_r; lra.
  - intros V0. rewrite V0, Rmult_0_l, rnd_0, Rplus_0_l, rnd_val. apply clampR_id. lra.
Qed.
(* Integer parameters: the switch from 0 upward is impossible - a parameter 0..10 at 0 stays at 0, whatever is set. *)
Theorem C37_int_stuck_refuted : forall p v fi, pm_val p = PInt 0 -> pd_min (pm_desc p) = PInt 0 -> pd_max (pm_desc p) = PInt 10 -> pd_ctype (pm_desc p) = CtOther 0 ->
  exists p', set_value_f01 A p v fi = Ok p' /\ pm_val p' = PInt 0.
Proof.
  intros p v fi E E1 E2 Ec. unfold set_value_f01. rewrite E, E1, E2.
  assert (X : nu_as_i32 A (ar_add A (ar_mul A (ar_mul A (ar_div A (ar_lit A 1 1) (ar_lit A 99 100)) (ar_sub A (nu_ofZ A 0) (ar_lit A 5 1000))) (nu_ofZ A 10)) (ar_lit A 1 2)) = 0) by (vm_compute; reflexivity).
  change (i32 (10 - 0)) with (Ok 10 : res Z). cbn [obind]. rewrite X. change (i32 (0 + 0)) with (Ok 0 : res Z). cbn [obind].
  unfold bound_value. cbn [p_set_value pm_val pm_desc]. rewrite Ec. cbn [ctype_beq obind]. eexists. split; [reflexivity|].
  unfold limit_parameter_range. cbn [p_set_value pm_val pm_desc]. rewrite E1, E2. reflexivity.
Qed.
(* Morphing: the ends are exact (in value) also in binary32. *)
Theorem C38_ends_f32 : forall (a b : param f32) g1 g2 x, pm_val a = PFloat g1 -> pm_val b = PFloat g2 -> pd_ctype (pm_desc a) = pd_ctype (pm_desc b) ->
  fin g1 -> fin g2 -> (Rabs (val g1) <= big)%R -> (Rabs (val g2) <= big)%R -> fin x ->
  exists r, morph A a b x = PFloat r /\ (val x = 0%R -> fin r /\ val r = val g1) /\ (val x = 1%R -> fin r /\ val r = val g2).
Proof.
  intros a b g1 g2 x Ea Eb Ec F1 F2 B1 B2 Fx. unfold morph. rewrite Ea, Eb, Ec, (internal_ctype_dec_lb _ _ eq_refl).
  eexists. split; [reflexivity|]. cbn [A num32 nu_ar arith32 ar_add ar_mul ar_sub ar_lit].
  destruct (flit_int 1 ltac:(lia)) as [Fo Vo]. assert (R1 : rnd 1 = 1%R) by (apply (rnd_Z 1); lia).
  split; intros Vx; 
    (destruct (fsub_ok (flit 1 1) x Fo Fx) as [Fs Vs]; [rewrite Vo, Vx; apply small_big; rewrite Rabs_pos_eq; lra|]); rewrite Vo, Vx in Vs.
  - rewrite Rminus_0_r, R1 in Vs.
    destruct (fmul_ok (fsub (flit 1 1) x) g1 Fs F1) as [Fm Vm]; [rewrite Vs, Rmult_1_l; exact B1|]. rewrite Vs, Rmult_1_l, rnd_val in Vm.
    destruct (fmul_ok x g2 Fx F2) as [Fn Vn]; [rewrite Vx, Rmult_0_l; apply small_big; rewrite Rabs_R0; lra|]. rewrite Vx, Rmult_0_l, rnd_0 in Vn.
    destruct (fadd_ok _ _ Fm Fn) as [Fa Va]; [rewrite Vm, Vn, Rplus_0_r; exact B1|]. split; [exact Fa|]. rewrite Va, Vm, Vn, Rplus_0_r. apply rnd_val.
  - replace (1 - 1)%R with 0%R in Vs by ring. rewrite rnd_0 in Vs.
    destruct (fmul_ok (fsub (flit 1 1) x) g1 Fs F1) as [Fm Vm]; [rewrite Vs, Rmult_0_l; apply small_big; rewrite Rabs_R0; lra|]. rewrite Vs, Rmult_0_l, rnd_0 in Vm.
    destruct (fmul_ok x g2 Fx F2) as [Fn Vn]; [rewrite Vx, Rmult_1_l; exact B2|]. rewrite Vx, Rmult_1_l, rnd_val in Vn.
    destruct (fadd_ok _ _ Fm Fn) as [Fa Va]; [rewrite Vm, Vn, Rplus_0_l; exact B2|]. split; [exact Fa|]. rewrite Va, Vm, Vn, Rplus_0_l. apply rnd_val.
Qed.
(* REFUTED in binary32: the result can leave the interval by a rounding step: morphing 13 and 13 at 0.2 gives more than 13. *)
Theorem C38_between_f32_refuted : exists (a b : param f32) (x g r : f32), pm_val a = PFloat g /\ pm_val b = PFloat g /\ pm_desc a = pm_desc b
  /\ fltb (flit 0 1) x = true /\ fltb x (flit 1 1) = true /\ morph A a b x = PFloat r /\ fltb g r = true.
Proof.
  pose (p := {| pm_val := PFloat (flit 13 1); pm_mod := PInt 0; pm_temposync := false; pm_extend := false; pm_absolute := false; pm_snap := false; pm_desc := ex_fdesc |}).
  exists p, p, (flit 2 10), (flit 13 1).
  exists (fadd (fmul (fsub (flit 1 1) (flit 2 10)) (flit 13 1)) (fmul (flit 2 10) (flit 13 1))).
  split; [reflexivity|]. split; [reflexivity|]. split; [reflexivity|].
  split; [vm_compute; reflexivity|]. split; [vm_compute; reflexivity|]. split; [reflexivity|]. vm_compute; reflexivity.
Qed.
(* Integer parameters with bounds of ordinary size: setting never panics and stays in range (but see C37_int_ignores_input_refuted). *)
Lemma as_i32_small x b : fin x -> (Rabs (val x) <= IZR b)%R -> 0 <= b <= 2147483647 -> - b <= as_i32_f x <= b.
Proof.
  intros F H Hb. unfold as_i32_f. rewrite fcast_fin by exact F. apply Rabs_le_inv in H.
  assert (- b <= Ztrunc (val x) <= b); [|lia]. split.
  - rewrite <- (Ztrunc_IZR (- b)). apply Ztrunc_le. rewrite opp_IZR. lra.
  - rewrite <- (Ztrunc_IZR b). apply Ztrunc_le. lra.
Qed.
Theorem C36_int_never_fails : forall p lo hi v fi, int_desc (pm_desc p) lo hi -> holds_int p lo hi -> -8192 <= lo -> hi <= 8192 ->
  exists p', set_value_f01 A p v fi = Ok p' /\ holds_int p' lo hi.
Proof.
  intros p lo hi v fi D (i & Ei & Hi) Hlo Hhi. pose proof D as (E1 & E2 & L & _). unfold set_value_f01. rewrite Ei, E1, E2.
  unfold i32 at 1. unfold i32_min, i32_max. replace ((_ <=? hi - lo) && (hi - lo <=? _)) with true by lia. cbn [obind].
  set (x := ar_add A _ _).
  assert (X : fin x /\ (Rabs (val x) <= IZR 1073741824)%R).
  { subst x. cbn [A num32 nu_ar arith32 ar_add ar_mul ar_sub ar_div ar_lit nu_ofZ].
    destruct (flit_int 1 ltac:(lia)) as [Fo Vo]. destruct (flit_ok 99 100 ltac:(lia) ltac:(lia)) as [F9 V9].
    destruct (flit_ok 5 1000 ltac:(lia) ltac:(lia)) as [F5 V5]. destruct (flit_half 1 ltac:(lia)) as [Fh Vh].
    assert (N9 : (1 / 2 <= rnd (99 / 100) <= 1)%R).
    { split; [rewrite <- (rnd_id (1/2)); [apply rnd_le; lra|]|rewrite <- (rnd_id 1); [apply rnd_le; lra|apply (fmt_Z 1); lia]].
      replace (1/2)%R with (IZR 1 * bpow radix2 (-1))%R by (cbn; lra). apply fmt_pow; lia. }
    assert (N5 : (0 <= rnd (5 / 1000) <= 1)%R).
    { split; [rewrite <- rnd_0; apply rnd_le; lra|rewrite <- (rnd_id 1); [apply rnd_le; lra|apply (fmt_Z 1); lia]]. }
    destruct (fdiv_ok (flit 1 1) (flit 99 100) Fo F9) as [Fd Vd]; [rewrite V9; lra|..].
    { rewrite Vo, V9. apply small_big. rewrite Rabs_pos_eq. 2: { apply Rlt_le. unfold Rdiv. apply Rmult_lt_0_compat; [lra|apply Rinv_0_lt_compat; lra]. }
      apply (Rmult_le_reg_r (rnd (99/100))); [lra|]. unfold Rdiv at 1. rewrite Rmult_assoc, Rinv_l by lra. lra. }
    assert (Bd : (0 <= val (fdiv (flit 1 1) (flit 99 100)) <= 2)%R).
    { rewrite Vd, Vo, V9. assert (0 <= 1 / rnd (99 / 100) <= 2)%R.
      { split; [unfold Rdiv; apply Rlt_le, Rmult_lt_0_compat; [lra|apply Rinv_0_lt_compat; lra]|].
        apply (Rmult_le_reg_r (rnd (99/100))); [lra|]. unfold Rdiv at 1. rewrite Rmult_assoc, Rinv_l by lra. lra. }
      split; [rewrite <- rnd_0; apply rnd_le; lra|]. rewrite <- (rnd_id 2) by (apply (fmt_Z 2); lia). apply rnd_le; lra. }
    destruct (fofZ_ok i ltac:(lia)) as [Fi Vi]. destruct (fofZ_ok (hi - lo) ltac:(lia)) as [Fw Vw].
    assert (Bi : (-8192 <= IZR i <= 8192)%R) by (split; apply IZR_le; lia).
    assert (Bw : (0 <= IZR (hi - lo) <= 16384)%R) by (split; apply IZR_le; lia).
    destruct (fsub_ok (fofZ i) (flit 5 1000) Fi F5) as [Fs Vs].
    { rewrite Vi, V5. apply (pow_big _ 14); [lia|]. apply Rabs_le. change (bpow radix2 14) with 16384%R. lra. }
    assert (Bs : (Rabs (val (fsub (fofZ i) (flit 5 1000))) <= bpow radix2 14)%R).
    { rewrite Vs, Vi, V5. apply rnd_abs_pow; [lia|]. apply Rabs_le. change (bpow radix2 14) with 16384%R. lra. }
    change (bpow radix2 14) with 16384%R in Bs. apply Rabs_le_inv in Bs.
    assert (Bm0 : (Rabs (val (fdiv (flit 1 1) (flit 99 100)) * val (fsub (fofZ i) (flit 5 1000))) <= bpow radix2 15)%R).
    { change (bpow radix2 15) with 32768%R. apply Rabs_le. nra. }
    destruct (fmul_ok _ _ Fd Fs) as [Fm Vm]; [apply (pow_big _ 15); [lia|exact Bm0]|].
    apply rnd_abs_pow in Bm0; [|lia]. rewrite <- Vm in Bm0. change (bpow radix2 15) with 32768%R in Bm0. apply Rabs_le_inv in Bm0.
    assert (Bn0 : (Rabs (val (fmul (fdiv (flit 1 1) (flit 99 100)) (fsub (fofZ i) (flit 5 1000))) * val (fofZ (hi - lo))) <= bpow radix2 29)%R).
    { change (bpow radix2 29) with 536870912%R. rewrite Vw. apply Rabs_le. nra. }
    destruct (fmul_ok _ _ Fm Fw) as [Fn Vn]; [apply (pow_big _ 29); [lia|exact Bn0]|].
    apply rnd_abs_pow in Bn0; [|lia]. rewrite <- Vn in Bn0. change (bpow radix2 29) with 536870912%R in Bn0. apply Rabs_le_inv in Bn0.
    destruct (fadd_ok _ _ Fn Fh) as [Fa Va]; [rewrite Vh; apply (pow_big _ 30); [lia|]; change (bpow radix2 30) with 1073741824%R; apply Rabs_le; lra|].
    split; [exact Fa|]. rewrite Va, Vh.
    apply (rnd_abs_pow _ 30); [lia|]. change (bpow radix2 30) with 1073741824%R. apply Rabs_le. lra. }
  destruct X as [Fx Bx]. destruct (as_i32_small x _ Fx Bx ltac:(lia)) as [Q1 Q2]. cbn [A num32 nu_as_i32]. unfold i32, i32_min, i32_max.
  replace ((_ <=? as_i32_f x + lo) && (as_i32_f x + lo <=? _)) with true by lia. cbn [obind].
  destruct (bound_int pow2 c1 c2 (p_set_value p (PInt (as_i32_f x + lo))) lo hi _ fi D eq_refl) as (q & E & H & _). eauto.
Qed.
End Float.

(** ** C29 solo *)
(* REFUTED: setting any parameter through the scene panics - it is read both as an integer and as a boolean first. *)
Theorem C29_set_parameter_panics_refuted : forall T (B : numops T) solos (p : param T) v fi, set_parameter01 B solos p v fi = Panic.
Proof. intros T B solos p v fi. unfold set_parameter01, pvali, pvalb. destruct (pm_val p); reflexivity. Qed.
(* The solo handler itself: soloing one channel clears every solo of the scene, including the one requested - the handler gets a
   parameter that is not one of the scene's own - so afterwards no channel of the scene is soloed. *)
Theorem C29_solo_clears_all_refuted : forall T solos (p : param T), pm_val p = PBool true ->
  exists solos' p', handle_boolsolo solos p = Ok (solos', p') /\ length solos' = length solos /\ Forall (fun q => pm_val q = PBool false) solos'.
Proof.
  intros T solos p E. unfold handle_boolsolo, pvalb. rewrite E. cbn [obind]. eexists. eexists. split; [reflexivity|]. split; [apply map_length|].
  apply Forall_forall. intros q Hq. apply in_map_iff in Hq. destruct Hq as (r & <- & _). reflexivity.
Qed.
(* Un-soloing changes no other channel. *)
Theorem C29_unsolo : forall T solos (p : param T), pm_val p = PBool false -> handle_boolsolo solos p = Ok (solos, p).
Proof. intros T solos p E. unfold handle_boolsolo, pvalb. rewrite E. reflexivity. Qed.
(* What the voice plays: with any solo active exactly the soloed channels, otherwise exactly the channels not muted. *)
Definition channel_of (k : Z) {B} (s : mixsw B) : B :=
  if k =? 0 then mx_o0 s else if k =? 1 then mx_o1 s else if k =? 2 then mx_o2 s else if k =? 3 then mx_noise s else if k =? 4 then mx_r0 s else mx_r1 s.
Theorem C29_voice_path : forall solo mute k, 0 <= k < 6 ->
  ((exists j, 0 <= j < 6 /\ channel_of j solo = true) -> channel_of k (maybe_toggle_solo solo mute) = channel_of k solo) /\
  ((forall j, 0 <= j < 6 -> channel_of j solo = false) -> channel_of k (maybe_toggle_solo solo mute) = negb (channel_of k mute)).
Proof.
  intros solo mute k Hk. unfold maybe_toggle_solo. split; intros H.
  - assert (E : any_solo solo = true).
    { destruct H as (j & Hj & Ej). unfold any_solo. assert (j = 0 \/ j = 1 \/ j = 2 \/ j = 3 \/ j = 4 \/ j = 5) as C by lia.
      repeat (destruct C as [-> | C]; [cbn in Ej; rewrite Ej; rewrite ?orb_true_r; reflexivity|]). subst j. cbn in Ej. rewrite Ej. apply orb_true_r. }
    rewrite E. assert (k = 0 \/ k = 1 \/ k = 2 \/ k = 3 \/ k = 4 \/ k = 5) as C by lia.
    repeat (destruct C as [-> | C]; [reflexivity|]). subst k. reflexivity.
  - assert (E : any_solo solo = false).
    { pose proof (H 0 ltac:(lia)) as H0. pose proof (H 1 ltac:(lia)) as H1. pose proof (H 2 ltac:(lia)) as H2.
      pose proof (H 3 ltac:(lia)) as H3. pose proof (H 4 ltac:(lia)) as H4. pose proof (H 5 ltac:(lia)) as H5. cbn in *.
      unfold any_solo. rewrite H0, H1, H2, H3, H4, H5. reflexivity. }
    rewrite E. assert (k = 0 \/ k = 1 \/ k = 2 \/ k = 3 \/ k = 4 \/ k = 5) as C by lia.
    repeat (destruct C as [-> | C]; [reflexivity|]). subst k. reflexivity.
Qed.
(* Changing the solo of one channel while another stays soloed changes only that channel's path. *)
Theorem C29_toggle_local : forall s s' mute j k, 0 <= j < 6 -> 0 <= k < 6 -> k <> j ->
  (forall i, 0 <= i < 6 -> i <> j -> channel_of i s' = channel_of i s) ->
  (exists i, 0 <= i < 6 /\ i <> j /\ channel_of i s = true) ->
  channel_of k (maybe_toggle_solo s' mute) = channel_of k (maybe_toggle_solo s mute).
Proof.
  intros s s' mute j k Hj Hk Hn Hs (i & Hi & Hin & Ei).
  rewrite (proj1 (C29_voice_path s' mute k Hk)) by (exists i; split; [lia|]; rewrite Hs; auto).
  rewrite (proj1 (C29_voice_path s mute k Hk)) by (exists i; split; [lia|]; exact Ei). apply Hs; lia.
Qed.
Definition ex_mix (b0 b1 : bool) : mixsw bool := {| mx_o0 := b0; mx_o1 := b1; mx_o2 := false; mx_noise := false; mx_r0 := true; mx_r1 := false |}.
Example C29_nonvacuous : channel_of 0 (maybe_toggle_solo (ex_mix true false) (ex_mix false false)) = true
  /\ channel_of 1 (maybe_toggle_solo (ex_mix true false) (ex_mix false false)) = false
  /\ (exists p : param f32, pm_val p = PBool true).
Proof.
  split; [reflexivity|]. split; [reflexivity|].
  exists {| pm_val := PBool true; pm_mod := PInt 0; pm_temposync := false; pm_extend := false; pm_absolute := false; pm_snap := false; pm_desc := ex_fdesc |}. reflexivity.
Qed.

(** ** C78 switches *)
(* REFUTED: turning range extension or snapping on or off has no effect on what the parameter reports or displays; the constants
   of the parameter's type decide. *)
Theorem C78_switches_ignored_refuted : forall T (B : numops T) (p : param T) b f,
  p_extend_range (p_set_extend_range p b) = p_extend_range p /\ p_snap (p_set_snap p b) = p_snap p
  /\ get_extended B (p_set_extend_range p b) f = get_extended B p f.
Proof. auto. Qed.
(* The absolute switch works, and no switch changes the value or another switch. *)
Theorem C78_absolute_switch : forall T (p : param T) b,
  p_is_absolute (p_set_absolute p b) = b /\ p_is_absolute (p_clear_flags p) = false
  /\ pm_temposync (p_clear_flags p) = false /\ pm_val (p_clear_flags p) = pm_val p /\ pm_mod (p_clear_flags p) = pm_mod p
  /\ pm_val (p_set_absolute p b) = pm_val p /\ pm_temposync (p_set_absolute p b) = pm_temposync p
  /\ p_is_absolute (p_set_temposync p b) = p_is_absolute p /\ pm_temposync (p_set_temposync p b) = b.
Proof. intros; repeat split. Qed.
(* Extended display, where the type extends: the factor is positive, so the extended value keeps order and sign. *)
Theorem C78_extended_is_scaling : forall pow2 c1 c2 (p : param R), exists k, (1 <= k <= 100)%R /\
  forall f, get_extended (numR pow2 c1 c2) p f = (k * f)%R.
Proof.
  intros pow2 c1 c2 p. unfold get_extended. destruct (p_extend_range p); cbn [negb].
  2: exists 1%R; split; [lra|intros; ring].
  destruct (pd_ctype (pm_desc p)); cbn [numR nu_ar arithR ar_mul ar_lit];
    (exists 1%R; split; [lra|intros; ring]) || (exists 100%R; split; [lra|intros; field]) || (exists 12%R; split; [lra|intros; field])
    || (exists 3%R; split; [lra|intros; field]) || (exists 5%R; split; [lra|intros; field]).
Qed.

(** ** C80 note names *)
(* For every non-negative note number the name is the note's pitch class and octave: name + 12*(octave+2) is the note number. *)
Theorem C80_notename : forall i, 0 <= i -> exists n o, get_notename i = Ok (n, o) /\ 0 <= n < 12 /\ i = n + 12 * (o + 2).
Proof.
  intros i Hi. unfold get_notename. rewrite Z.rem_mod_nonneg, Z.quot_div_nonneg by lia.
  assert (E : i mod 12 <? 0 = false) by (pose proof (Z.mod_pos_bound i 12); lia). rewrite E.
  exists (i mod 12), (i / 12 - 2). split; [reflexivity|]. split; [apply Z.mod_pos_bound; lia|]. pose proof (Z.div_mod i 12). lia.
Qed.
Theorem C80_injective : forall i j r, 0 <= i -> 0 <= j -> get_notename i = Ok r -> get_notename j = Ok r -> i = j.
Proof.
  intros i j r Hi Hj Ei Ej. destruct (C80_notename i Hi) as (n & o & E & _ & V). destruct (C80_notename j Hj) as (n' & o' & E' & _ & V').
  rewrite Ei in E. rewrite Ej in E'. rewrite E in E'. injection E' as -> ->. lia.
Qed.
(* REFUTED for notes below zero (transposed keys): any that is not a multiple of 12 panics. *)
Theorem C80_negative_panics_refuted : forall i, i < 0 -> (get_notename i = Panic <-> i mod 12 <> 0).
Proof.
  intros i Hi. unfold get_notename. 
  assert (R1 : Z.rem i 12 = - ((- i) mod 12)) by (rewrite <- (Z.opp_involutive i) at 1; rewrite Z.rem_opp_l by lia; rewrite Z.rem_mod_nonneg by lia; reflexivity).
  rewrite R1. pose proof (Z.mod_pos_bound (- i) 12 ltac:(lia)) as M.
  destruct (Z.eq_dec (i mod 12) 0) as [E|E].
  - rewrite (Z_mod_zero_opp_full _ _ E). cbn. split; [discriminate|lia].
  - rewrite (Z_mod_nz_opp_full i 12 E) in *. replace (- (12 - i mod 12) <? 0) with true by (pose proof (Z.mod_pos_bound i 12); lia). tauto.
Qed.
Example C80_nonvacuous : get_notename 60 = Ok (0, 3) /\ get_notename (-1) = Panic.
Proof. split; reflexivity. Qed.

(** ** C81 tempo-sync labels *)
Definition leR (x y : R) : bool := if Rle_dec x y then true else false.
Section Sync.
Context (c1 c2 : R).
Let A := numR (fun x => Rpower 2 x) c1 c2.
Lemma truncR_frac v : (-1 < v - IZR (truncR v) < 1)%R /\ ((0 <= v)%R -> (0 <= v - IZR (truncR v))%R).
Proof.
  unfold truncR. destruct (Rle_dec 0 v) as [H|H].
  - destruct (base_Int_part v). split; [lra|intros; lra].
  - destruct (base_Int_part (- v)). rewrite opp_IZR. split; [lra|intros; lra].
Qed.
(* REFUTED: below one whole note (that is, for almost every useful setting) the label says "dotted" whatever the value: plain notes and
   triplets are labelled dotted. *)
Lemma Rpower_ge_2 y : (1 <= y)%R -> (2 <= Rpower 2 y)%R.
Proof. intros H. rewrite <- (Rpower_1 2) at 1 by lra. apply Rle_Rpower; lra. Qed.
Theorem C81_always_dotted_refuted : forall v, (-1000000 <= v < 1)%R -> tempo_sync_kind A leR v = Ok NkDotted.
Proof.
  intros v Hv. unfold tempo_sync_kind, split_float.
  assert (TB : -1000000 <= truncR v <= 1).
  { unfold truncR. destruct (Rle_dec 0 v).
    - destruct (base_Int_part v). split; [assert (-1 < Int_part v)%Z; [apply lt_IZR; lra|lia]|apply le_IZR; lra].
    - destruct (base_Int_part (- v)). split; [assert (Int_part (- v) <= 1000000)%Z; [apply le_IZR; lra|lia]|]. assert (-1 < Int_part (- v))%Z; [apply lt_IZR; lra|lia]. }
  assert (TO : nu_trunc_ok A v = true) by (cbn; unfold i32_min, i32_max; lia). rewrite TO.
  assert (TI : nu_as_i32 A v = truncR v) by (cbn; unfold i32_min, i32_max; lia).
  assert (CL : forall q, (2 <= q)%R -> classify_q A q = NkDotted).
  { intros q Hq. unfold classify_q. assert (E1 : ar_lt A q (ar_lit A 13 10) = false) by (apply ltR_f; cbn; lra).
    assert (E2 : ar_lt A q (ar_lit A 14 10) = false) by (apply ltR_f; cbn; lra). rewrite E1, E2. reflexivity. }
  assert (LE : leR (ar_lit A 1 1) v = false) by (unfold leR; cbn; destruct (Rle_dec _ _); [lra|reflexivity]).
  destruct (_ && true) eqn:Z0.
  - cbn [obind]. rewrite LE. f_equal. apply CL. cbn. apply Rpower_ge_2. destruct (Rlt_dec _ _); lra.
  - rewrite TI. cbn [obind]. rewrite LE. f_equal. apply CL. destruct (truncR_frac v) as [B _].
    cbn [A numR nu_ar arithR ar_sub ar_add ar_lit nu_ofZ nu_pow2 ar_lt]. apply Rpower_ge_2. destruct (Rlt_dec _ _); lra.
Qed.
(* From one to two whole notes the label is decided by the ratio to the whole note: plain below 1.3, triplet below 1.4, else dotted. *)
Theorem C81_above_whole : forall v, (1 <= v < 2)%R -> let q := Rpower 2 (v - 1) in
  tempo_sync_kind A leR v = Ok (if Rlt_dec q (13/10) then NkNote else if Rlt_dec q (14/10) then NkTriplet else NkDotted).
Proof.
  intros v Hv q. unfold tempo_sync_kind, split_float.
  assert (TB : 0 <= truncR v <= 2).
  { unfold truncR. destruct (Rle_dec 0 v); [|lra]. destruct (base_Int_part v). split; [assert (-1 < Int_part v)%Z; [apply lt_IZR; lra|lia]|apply le_IZR; lra]. }
  assert (TO : nu_trunc_ok A v = true) by (cbn; unfold i32_min, i32_max; lia). rewrite TO.
  assert (LE : leR (ar_lit A 1 1) v = true) by (unfold leR; cbn; destruct (Rle_dec _ _); [reflexivity|lra]).
  assert (Q : (1 <= q < 2)%R).
  { unfold q. split; [rewrite <- (Rpower_O 2) at 1 by lra; apply Rle_Rpower; lra|]. rewrite <- (Rpower_1 2) at 2 by lra. apply Rpower_lt; lra. }
  assert (G : forall x : res notekind, x = Ok (if Rlt_dec q (13/10) then NkNote else if Rlt_dec q (14/10) then NkTriplet else NkDotted) -> 
     x = Ok (if Rlt_dec q (13/10) then NkNote else if Rlt_dec q (14/10) then NkTriplet else NkDotted)) by auto.
  assert (BR : (if leR (ar_lit A 3 1) (nu_pow2 A (ar_sub A v (ar_lit A 1 1))) then Ok NkWholeNotes
     else Ok (classify_q A (if leR (ar_lit A 2 1) (nu_pow2 A (ar_sub A v (ar_lit A 1 1))) then ar_div A (nu_pow2 A (ar_sub A v (ar_lit A 1 1))) (ar_lit A 2 1) else nu_pow2 A (ar_sub A v (ar_lit A 1 1)))))
     = (Ok (if Rlt_dec q (13/10) then NkNote else if Rlt_dec q (14/10) then NkTriplet else NkDotted) : res notekind)).
  { assert (EQ : nu_pow2 A (ar_sub A v (ar_lit A 1 1)) = q) by (unfold q; cbn; f_equal; lra). rewrite EQ.
    unfold leR at 1. cbn [A numR nu_ar arithR ar_lit]. destruct (Rle_dec _ _) as [X|X]; [lra|].
    unfold leR. destruct (Rle_dec _ _) as [Y|Y]; [lra|]. f_equal. unfold classify_q. cbn [A numR nu_ar arithR ar_lit ar_lt].
    destruct (Rlt_dec q (13/10)); destruct (Rlt_dec q (14/10)); reflexivity. }
  destruct (_ && true); cbn [obind]; rewrite LE; exact BR.
Qed.
End Sync.

(** ** non-vacuity *)
Definition ex_real : param R := {| pm_val := PFloat 3%R; pm_mod := PFloat 0%R; pm_temposync := false; pm_extend := false; pm_absolute := false; pm_snap := false;
  pm_desc := {| pd_min := PFloat (-5)%R; pd_max := PFloat 7%R; pd_default := PFloat 3%R; pd_ctype := CtOther 0; pd_snap := false; pd_extend := false; pd_float_vt := true |} |}.
Definition ex_int : param R := {| pm_val := PInt 3; pm_mod := PInt 0; pm_temposync := false; pm_extend := false; pm_absolute := false; pm_snap := false;
  pm_desc := {| pd_min := PInt 0; pd_max := PInt 10; pd_default := PInt 3; pd_ctype := CtOther 0; pd_snap := false; pd_extend := false; pd_float_vt := false |} |}.
Example C37_nonvacuous : real_param ex_real (-5) 7 /\ real_int_param ex_int 0 10 /\ pd_ctype (pm_desc ex_real) <> CtNil
  /\ moderate (flit (-5) 1) /\ moderate (flit 7 1) /\ same_kind ex_real ex_real /\ ~ same_kind ex_real ex_int.
Proof.
  split; [|split; [|split; [discriminate|]]].
  - unfold real_param. cbn. repeat split; [lra|eauto].
  - split; [reflexivity|]. split; [reflexivity|]. split; [lia|]. exists 3. split; [reflexivity|lia].
  - assert (M : forall n, Z.abs n <= 16 -> moderate (flit n 1)).
    { intros n Hn. destruct (flit_int n ltac:(lia)) as [F V]. split; [exact F|]. rewrite V, <- abs_IZR. apply (Rle_trans _ 16); [apply IZR_le; lia|].
      apply (Rle_trans _ (bpow radix2 4)); [cbn; lra|]. apply bpow_le. lia. }
    split; [apply M; lia|]. split; [apply M; lia|]. split.
    + unfold same_kind. cbn. eauto.
    + intros (_ & (y & E) & _). discriminate.
Qed.
Print Assumptions C37_float_round_trip. Print Assumptions C37_float_clamps. Print Assumptions C37_force_integer. Print Assumptions C37_normalise_inverse.
Print Assumptions C37_int_ignores_input_refuted. Print Assumptions C37_int_scale_refuted. Print Assumptions C37_nil_reads_zero_refuted. Print Assumptions C37_bool_panics_refuted.
Print Assumptions C38_morph. Print Assumptions C38_fallback. Print Assumptions C38_morph_alt_keeps. Print Assumptions C79_modulation_round_trip. Print Assumptions C79_unsupported_is_zero.
Print Assumptions C37_float_reads_unit. Print Assumptions C37_float_monotone. Print Assumptions C37_int_stuck_refuted. Print Assumptions C38_ends_f32. Print Assumptions C38_between_f32_refuted.
Print Assumptions C36_int_never_fails. Print Assumptions C29_set_parameter_panics_refuted. Print Assumptions C29_solo_clears_all_refuted. Print Assumptions C29_unsolo. Print Assumptions C29_voice_path. Print Assumptions C29_toggle_local.
Print Assumptions C78_switches_ignored_refuted. Print Assumptions C78_absolute_switch. Print Assumptions C78_extended_is_scaling.
Print Assumptions C80_notename. Print Assumptions C80_injective. Print Assumptions C80_negative_panics_refuted. Print Assumptions C81_always_dotted_refuted. Print Assumptions C81_above_whole.
