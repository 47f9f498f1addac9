(* ParamProps3.v - C94 tempo-synced values; C37 set/get through the typed interface and the default value; C78 flags of a new and of a
   cleared parameter; C79 value differences and the initial modulation depth; C29 the soloed parameter itself. *)
From Coq Require Import Reals Lra.
From Verif Require Import Base Util F32 BlockModel BlockProofs MathModel ClipProps ParamModel ParamProps ParamProps2.
Local Open Scope Z_scope.

(** ** C94 *)
(* A tempo-synced value v stands for 2^v note lengths. The divisions it may take: 2^k whole notes (k an integer), times 4/3 (triplet
   of the next length) or times 3/2 (dotted). *)
Definition log2' (x : R) : R := (ln x / ln 2)%R.
Inductive division : R -> Prop :=
| D_note k : division (IZR k)
| D_triplet k : division (IZR k + log2' (4 / 3))%R
| D_dotted k : division (IZR k + log2' (3 / 2))%R.
Lemma pow_log2' x : (0 < x)%R -> Rpower 2 (log2' x) = x.
Proof. intros H. unfold Rpower, log2'. rewrite <- (exp_ln x H) at 2. f_equal. field. pose proof ln_lt_2. lra. Qed.
Lemma pow_inj_lt x y : (Rpower 2 x < Rpower 2 y)%R -> (x < y)%R.
Proof. intros H. destruct (Rlt_le_dec x y) as [L|L]; [exact L|]. exfalso. assert (Rpower 2 y <= Rpower 2 x)%R by (apply Rle_Rpower; lra). lra. Qed.
Lemma log2'_between x : (1 < x < 2)%R -> (0 < log2' x < 1)%R.
Proof.
  intros H. split; apply pow_inj_lt; rewrite pow_log2' by lra; [rewrite Rpower_O by lra; lra|rewrite Rpower_1 by lra; lra].
Qed.
Section Sync.
Let A := numR (fun x => Rpower 2 x) (log2' (3 / 2)) (log2' (4 / 3)).
Definition small (v : R) : Prop := (-1000000 <= v <= 1000000)%R.
(* the division chosen for v *)
Definition snapped (v : R) : R :=
  let k := Int_part v in let q := Rpower 2 (v - IZR k) in
  if Rlt_dec (141 / 100) q then (IZR k + log2' (3 / 2))%R else if Rlt_dec (1167 / 1000) q then (IZR k + log2' (4 / 3))%R else IZR k.
Lemma int_part_uniq x k : (IZR k <= x < IZR k + 1)%R -> Int_part x = k.
Proof. intros H. destruct (base_Int_part x) as [B1 B2]. assert (Int_part x < k + 1) by (apply lt_IZR; rewrite plus_IZR; lra). assert (k < Int_part x + 1) by (apply lt_IZR; rewrite plus_IZR; lra). lia. Qed.
Lemma split_ok v : small v -> exists a b, split_float A v = Ok (IZR a, b) /\
  (if Rlt_dec b 0 then (IZR a - 1)%R = IZR (Int_part v) /\ (b + 1)%R = (v - IZR (Int_part v))%R else a = Int_part v /\ b = (v - IZR (Int_part v))%R).
Proof.
  intros Hv. unfold small in Hv. unfold split_float.
  assert (TB : -1000001 <= truncR v <= 1000001).
  { unfold truncR. destruct (Rle_dec 0 v).
    - destruct (base_Int_part v). split; [assert (-1 < Int_part v)%Z; [apply lt_IZR; lra|lia]|apply le_IZR; lra].
    - destruct (base_Int_part (- v)). split; [assert (Int_part (- v) <= 1000001)%Z; [apply le_IZR; lra|lia]|]. assert (-1 < Int_part (- v))%Z; [apply lt_IZR; lra|lia]. }
  assert (TO : nu_trunc_ok A v = true) by (cbn; unfold i32_min, i32_max; lia). rewrite TO.
  assert (TI : nu_as_i32 A v = truncR v) by (cbn; unfold i32_min, i32_max; lia). rewrite TI.
  destruct (_ && true) eqn:Z0.
  - assert (v = 0)%R as ->. { apply andb_prop in Z0. destruct Z0 as [Z0 _]. apply andb_prop in Z0. destruct Z0 as [Z1 Z2]. apply negb_true_iff in Z1, Z2. apply ltR_f in Z1. apply ltR_f in Z2. cbn in Z1, Z2. lra. }
    exists 0, 0%R. split; [cbn; do 2 f_equal; field|]. rewrite (int_part_uniq 0 0) by lra. destruct (Rlt_dec 0 0); [lra|]. split; [reflexivity|ring].
  - exists (truncR v), (v - IZR (truncR v))%R. split; [reflexivity|]. unfold truncR. destruct (Rle_dec 0 v) as [P|P].
    + destruct (base_Int_part v). destruct (Rlt_dec _ _); [lra|]. split; reflexivity.
    + destruct (base_Int_part (- v)) as [B1 B2]. rewrite opp_IZR. destruct (Rlt_dec _ _) as [Q|Q].
      * rewrite (int_part_uniq v (- Int_part (- v) - 1)) by (rewrite minus_IZR, opp_IZR; lra). rewrite minus_IZR, opp_IZR. split; ring.
      * rewrite (int_part_uniq v (- Int_part (- v))) by (rewrite opp_IZR; lra). rewrite opp_IZR. split; reflexivity.
Qed.
Lemma sync_snapped v : small v -> temposync_round A v = Ok (snapped v).
Proof.
  intros Hv. unfold temposync_round. destruct (split_ok v Hv) as (a & b & E & H). rewrite E. cbn [obind]. clear E.
  cbn [A numR nu_ar arithR ar_lt ar_lit ar_add ar_sub nu_pow2 nu_log2_32 nu_log2_43].
  assert (G : forall x y, x = IZR (Int_part v) -> y = (v - IZR (Int_part v))%R ->
    Ok (x + (if if Rlt_dec (141 / 100) (Rpower 2 y) then true else false then log2' (3 / 2) else if if Rlt_dec (1167 / 1000) (Rpower 2 y) then true else false then log2' (4 / 3) else 0 / 1))%R = (Ok (snapped v) : res R)).
  { intros x y -> ->. unfold snapped. f_equal. clear H. destruct (Rlt_dec (141 / 100) _); [reflexivity|]. destruct (Rlt_dec (1167 / 1000) _); [reflexivity|field]. }
  replace (0 / 1)%R with 0%R in * by field. replace (1 / 1)%R with 1%R by field.
  destruct (Rlt_dec b 0); destruct H as [H1 H2].
  - apply G; assumption.
  - apply G; [rewrite H1; reflexivity|exact H2].
Qed.
(* Every tempo-synced value is one of the divisions, in the same whole step (factor of two) as what was set, *)
Theorem C94_snaps_to_a_division : forall p lo hi v, real_param p lo hi -> pm_temposync p = true -> small (lo + v * (hi - lo)) ->
  (lo <= IZR (Int_part (lo + v * (hi - lo))))%R -> (IZR (Int_part (lo + v * (hi - lo))) + 1 <= hi)%R ->
  exists p' r, set_value_f01 A p v false = Ok p' /\ pm_val p' = PFloat r /\ division r /\ (IZR (Int_part (lo + v * (hi - lo))) <= r < IZR (Int_part (lo + v * (hi - lo))) + 1)%R
    /\ r = snapped (lo + v * (hi - lo)).
Proof.
  intros p lo hi v (E1 & E2 & L & f & Ev) Ht Hs Hl Hh. unfold set_value_f01. rewrite Ev, E1, E2. cbn [obind].
  unfold bound_value. cbn [p_set_value pm_val pm_temposync]. rewrite Ht.
  set (x := (lo + v * (hi - lo))%R) in *.
  assert (X : ar_add A (ar_mul A v (ar_sub A hi lo)) lo = x) by (unfold x; cbn; ring). rewrite X.
  rewrite (sync_snapped x Hs). cbn [obind]. exists (p_set_value p (PFloat (snapped x))), (snapped x).
  pose proof (log2'_between (3/2) ltac:(lra)) as L1. pose proof (log2'_between (4/3) ltac:(lra)) as L2.
  assert (I : (IZR (Int_part x) <= snapped x < IZR (Int_part x) + 1)%R) by (unfold snapped; destruct (Rlt_dec _ _); [lra|]; destruct (Rlt_dec _ _); lra).
  split; [|split; [reflexivity|]; split; [unfold snapped; destruct (Rlt_dec _ _); [constructor|]; destruct (Rlt_dec _ _); constructor|split; [exact I|reflexivity]]].
  f_equal. unfold limit_parameter_range. cbn [p_set_value pm_val pm_desc]. rewrite E1, E2. unfold A. rewrite limR.
  rewrite Rmax_left by lra. rewrite Rmin_left by lra. reflexivity.
Qed.
(* and a value that already is a division stays as it is. *)
Lemma snapped_division r : division r -> snapped r = r.
Proof.
  pose proof (log2'_between (3/2) ltac:(lra)) as L1. pose proof (log2'_between (4/3) ltac:(lra)) as L2.
  intros D. inversion D as [k E|k E|k E]; subst; unfold snapped; rewrite (int_part_uniq _ k) by lra.
  - replace (IZR k - IZR k)%R with 0%R by ring. rewrite Rpower_O by lra. destruct (Rlt_dec _ _); [lra|]. destruct (Rlt_dec _ _); [lra|reflexivity].
  - replace (IZR k + log2' (4/3) - IZR k)%R with (log2' (4/3)) by ring. rewrite pow_log2' by lra. destruct (Rlt_dec _ _); [lra|]. destruct (Rlt_dec _ _); [reflexivity|lra].
  - replace (IZR k + log2' (3/2) - IZR k)%R with (log2' (3/2)) by ring. rewrite pow_log2' by lra. destruct (Rlt_dec _ _); [reflexivity|lra].
Qed.
Theorem C94_divisions_stay : forall p lo hi r fi, real_param p lo hi -> pm_temposync p = true -> pm_val p = PFloat r -> division r -> small r -> (lo <= r <= hi)%R -> fi = false ->
  exists p', bound_value A p fi = Ok p' /\ pm_val p' = PFloat r.
Proof.
  intros p lo hi r fi (E1 & E2 & L & _) Ht Ev D Hs Hr ->. unfold bound_value. rewrite Ev, Ht. rewrite (sync_snapped r Hs), (snapped_division r D). cbn [obind].
  eexists. split; [reflexivity|]. unfold limit_parameter_range. cbn [p_set_value pm_val pm_desc]. rewrite E1, E2. cbn [p_set_value pm_val]. unfold A. rewrite limR.
  rewrite Rmax_left by lra. rewrite Rmin_left by lra. reflexivity.
Qed.
(* Sync is monotone: a longer setting never becomes a shorter division. *)
Theorem C94_monotone : forall v w, (v <= w)%R -> small v -> small w -> exists a b, temposync_round A v = Ok a /\ temposync_round A w = Ok b /\ (a <= b)%R.
Proof.
  intros v w H Hv Hw. exists (snapped v), (snapped w). rewrite !sync_snapped by assumption. split; [reflexivity|]. split; [reflexivity|].
  pose proof (log2'_between (3/2) ltac:(lra)) as L1. pose proof (log2'_between (4/3) ltac:(lra)) as L2.
  assert (L3 : (log2' (4/3) <= log2' (3/2))%R) by (apply Rlt_le, pow_inj_lt; rewrite !pow_log2' by lra; lra).
  assert (I : forall x, (IZR (Int_part x) <= snapped x < IZR (Int_part x) + 1)%R) by (intros x; unfold snapped; destruct (Rlt_dec _ _); [lra|]; destruct (Rlt_dec _ _); lra).
  destruct (base_Int_part v) as [V1 V2]. destruct (base_Int_part w) as [W1 W2].
  destruct (Z.lt_trichotomy (Int_part v) (Int_part w)) as [C|[C|C]].
  - apply Z.le_succ_l, IZR_le in C. unfold Z.succ in C. rewrite plus_IZR in C. pose proof (I v). pose proof (I w). lra.
  - unfold snapped. rewrite C. assert (P : (Rpower 2 (v - IZR (Int_part w)) <= Rpower 2 (w - IZR (Int_part w)))%R) by (apply Rle_Rpower; lra).
    destruct (Rlt_dec (141/100) _), (Rlt_dec (141/100) _); try lra; destruct (Rlt_dec _ _); try lra; destruct (Rlt_dec _ _); lra.
  - exfalso. apply Z.le_succ_l, IZR_le in C. unfold Z.succ in C. rewrite plus_IZR in C. lra.
Qed.
(* REFUTED that the nearest division is taken: everything up to the next whole step is pulled down to the dotted value. *)
Theorem C94_nearest_refuted : forall k v, small v -> (IZR k + 9 / 10 <= v < IZR k + 1)%R -> exists r, temposync_round A v = Ok r /\ (Rabs (IZR (k + 1) - v) < Rabs (r - v))%R /\ division (IZR (k + 1)).
Proof.
  intros k v Hs Hv. exists (snapped v). rewrite (sync_snapped v Hs). split; [reflexivity|]. split; [|constructor].
  unfold snapped. rewrite (int_part_uniq v k) by lra.
  assert (Q : (log2' (3/2) < 6 / 10)%R).
  { apply pow_inj_lt. rewrite pow_log2' by lra.
    assert (F : (Rpower (Rpower 2 (6/10)) (INR 5) = 8)%R). { rewrite Rpower_mult. replace (6 / 10 * INR 5)%R with (INR 3) by (cbn; field). rewrite Rpower_pow by lra. cbn. ring. }
    destruct (Rlt_le_dec (3/2) (Rpower 2 (6/10))) as [C|C]; [exact C|]. exfalso.
    assert (P0 : (0 < Rpower 2 (6/10))%R) by apply exp_pos.
    rewrite Rpower_pow in F by exact P0.
    assert (Rpower 2 (6/10) ^ 5 <= (3/2) ^ 5)%R by (apply pow_incr; lra). lra. }
  assert (T : (141 / 100 < Rpower 2 (v - IZR k))%R).
  { apply Rlt_le_trans with (Rpower 2 (log2' (3/2))); [rewrite pow_log2' by lra; lra|apply Rle_Rpower; lra]. }
  destruct (Rlt_dec _ _); [|lra]. rewrite plus_IZR. unfold Rabs. destruct (Rcase_abs _); destruct (Rcase_abs _); lra.
Qed.
End Sync.

Section Typed.
Context (pow2 : R -> R) (c1 c2 : R).
Let A := numR pow2 c1 c2.
(** ** C37: the typed setter *)
(* A float value is a position in the range; an integer value does the same and rounds to a whole number; a boolean goes to an end. *)
Theorem C37_typed_set : forall p lo hi, real_param p lo hi -> pm_temposync p = false ->
  (forall x, exists p', set_param_val A p (PFloat x) = Ok p' /\ pm_val p' = PFloat (Rmin (Rmax (lo + x * (hi - lo)) lo) hi)) /\
  (forall x, exists p' k, set_param_val A p (PInt x) = Ok p' /\ pm_val p' = PFloat (Rmin (Rmax (IZR k) lo) hi) /\ (IZR k - 1 / 2 <= lo + IZR x * (hi - lo) < IZR k + 1 / 2)%R) /\
  (forall b, exists p', set_param_val A p (PBool b) = Ok p' /\ pm_val p' = PFloat (if b then hi else lo)).
Proof.
  intros p lo hi H Ht. pose proof H as (E1 & E2 & L & f & Ev). 
  assert (G : forall x, exists p', set_value_f01 A p x false = Ok p' /\ pm_val p' = PFloat (Rmin (Rmax (lo + x * (hi - lo)) lo) hi)).
  { intros x. unfold set_value_f01. rewrite Ev, E1, E2. cbn [obind]. unfold bound_value. cbn [p_set_value pm_val pm_temposync]. rewrite Ht. cbn [obind].
    eexists. split; [reflexivity|]. unfold limit_parameter_range. cbn [p_set_value pm_val pm_desc]. rewrite E1, E2. cbn [p_set_value pm_val]. unfold A. rewrite limR.
    cbn. do 3 f_equal. ring. }
  split; [exact G|]. split.
  - intros x. cbn [set_param_val]. destruct (C37_force_integer pow2 c1 c2 p lo hi (IZR x) H Ht) as (p' & k & Q1 & Q2 & Q3). exists p', k. auto.
  - intros b. cbn [set_param_val]. destruct (G (if b then 1 else 0)%R) as (p' & Q1 & Q2). exists p'. split.
    + rewrite <- Q1. f_equal. destruct b; cbn; field.
    + rewrite Q2. destruct b; f_equal; [replace (lo + 1 * (hi - lo))%R with hi by ring; rewrite Rmax_left by lra; apply Rmin_left; lra|
        replace (lo + 0 * (hi - lo))%R with lo by ring; rewrite Rmax_left by lra; apply Rmin_left; lra].
Qed.
(** ** C37: the default value *)
(* What the default reads as is what a new parameter reads as. *)
Theorem C37_default_reads : forall d p, param_new A d = Ok p ->
  (forall lo hi f, pd_min d = PFloat lo -> pd_max d = PFloat hi -> pd_default d = PFloat f -> (lo <= f <= hi)%R -> get_value_f01 A p = get_default_value_f01 A d) /\
  (forall lo hi f, pd_min d = PInt lo -> pd_max d = PInt hi -> pd_default d = PInt f -> lo <= f <= hi -> pd_ctype d <> CtVocoderBandcount -> get_value_f01 A p = get_default_value_f01 A d).
Proof.
  intros d p E. split.
  - intros lo hi f E1 E2 E3 H. unfold param_new, bound_value in E. cbn [pm_val pm_temposync] in E. rewrite E3 in E. cbn [obind] in E. injection E as <-.
    unfold limit_parameter_range. cbn [pm_val pm_desc]. rewrite ?E3, E1, E2. unfold A. rewrite limR. rewrite Rmax_left, Rmin_left by lra.
    unfold get_value_f01, get_default_value_f01. cbn [p_set_value pm_val pm_desc]. rewrite E1, E2, E3. reflexivity.
  - intros lo hi f E1 E2 E3 H HC. unfold param_new, bound_value in E. cbn [pm_val pm_temposync pm_desc] in E. rewrite E3 in E.
    destruct (ctype_beq (pd_ctype d) CtVocoderBandcount) eqn:B; [apply internal_ctype_dec_bl in B; contradiction|]. cbn [obind] in E. injection E as <-.
    unfold limit_parameter_range. cbn [pm_val pm_desc]. rewrite ?E3, E1, E2. unfold limit_range_i.
    replace (Z.max (Z.min f hi) lo) with f by lia || replace (Z.min (Z.max f lo) hi) with f by lia || idtac.
    unfold get_value_f01, get_default_value_f01. cbn [p_set_value pm_val pm_desc]. rewrite E1, E2, E3. reflexivity.
Qed.
(* Its numbers: the position of the default in the range; 0 for the empty control type and where the kinds disagree; 1 or 0 for a switch. *)
Theorem C37_default_value : forall d : pdesc R,
  (pd_ctype d = CtNil -> get_default_value_f01 A d = Ok 0%R) /\
  (forall lo hi f, pd_ctype d <> CtNil -> pd_min d = PFloat lo -> pd_max d = PFloat hi -> pd_default d = PFloat f -> get_default_value_f01 A d = Ok ((f - lo) / (hi - lo))%R) /\
  (forall b, pd_ctype d <> CtNil -> pd_default d = PBool b -> get_default_value_f01 A d = Ok (if b then 1 else 0)%R).
Proof.
  intros d. unfold get_default_value_f01. split; [|split].
  - intros E. rewrite E. cbn. f_equal. field.
  - intros lo hi f HC E1 E2 E3. destruct (ctype_beq _ _) eqn:B; [apply internal_ctype_dec_bl in B; contradiction|]. rewrite E1, E2, E3. reflexivity.
  - intros b HC E. destruct (ctype_beq _ _) eqn:B; [apply internal_ctype_dec_bl in B; contradiction|]. rewrite E. destruct b; cbn; f_equal; field.
Qed.
(** ** C37: switches and mismatched kinds *)
(* a normalised position of a switch is on above one half; its own position is 1 or 0, whatever is passed in *)
Theorem C37_switch_positions : forall (p : param R) v b, pm_val p = PBool b -> (exists x y, pd_min (pm_desc p) = PBool x /\ pd_max (pm_desc p) = PBool y) -> pd_ctype (pm_desc p) <> CtNil ->
  normalized2value A p v = (if Rlt_dec (1 / 2) v then 1 else 0)%R /\ value2normalized A p v = (if b then 1 else 0)%R /\ get_value_f01 A p = Ok (if b then 1 else 0)%R.
Proof.
  intros p v b E (x & y & E1 & E2) HC. unfold normalized2value, value2normalized, get_value_f01. rewrite E, E1, E2.
  destruct (ctype_beq _ _) eqn:B; [apply internal_ctype_dec_bl in B; contradiction|]. cbn. replace (1 / 1)%R with 1%R by field. replace (0 / 1)%R with 0%R by field.
  split; [destruct (Rlt_dec _ _); reflexivity|]. split; reflexivity.
Qed.
(* a parameter whose stored value and bounds are of different kinds reads as 0 and is left alone by range limiting *)
Theorem C37_mismatch : forall (p : param R) v lo hi, pd_min (pm_desc p) = PFloat lo -> pd_max (pm_desc p) = PInt hi ->
  normalized2value A p v = 0%R /\ limit_parameter_range A p = p /\ (forall f, pm_val p = PFloat f -> get_value_f01 A p = Ok 0%R /\ value2normalized A p v = 0%R).
Proof.
  intros p v lo hi E1 E2. unfold normalized2value, limit_parameter_range, get_value_f01, value2normalized. rewrite E1, E2. split; [cbn; field|]. split; [destruct (pm_val p); reflexivity|].
  intros f E. rewrite E. destruct (ctype_beq _ _); cbn; split; try f_equal; field.
Qed.

(** ** C79 *)
(* The difference of two values: numeric where both are numbers, in whole numbers where both are whole, an error for a switch. *)
Definition as_number (x : pdata R) : option R := match x with PFloat f => Some f | PInt i => Some (IZR i) | PBool _ => None end.
Theorem C79_difference : forall x y, match as_number x, as_number y with
  | Some a, Some b => (forall r, pdata_sub A x y = Ok r -> as_number r = Some (a - b)%R) /\ ((Rabs (a - b) <= 2147483647)%R -> exists r, pdata_sub A x y = Ok r)
  | _, _ => pdata_sub A x y = Panic end.
Proof.
  intros [i|b|f] [j|c|g]; cbn [as_number]; try reflexivity.
  - split.
    + intros r. unfold pdata_sub, i32. destruct (_ && _); cbn [obind]; [|discriminate]. intros E. injection E as <-. cbn [as_number]. rewrite minus_IZR. reflexivity.
    + intros H. unfold pdata_sub, i32. rewrite <- minus_IZR in H. rewrite <- abs_IZR in H. apply le_IZR in H. unfold i32_min, i32_max.
      replace ((_ <=? i - j) && _) with true by lia. eexists. reflexivity.
  - split; [intros r E; injection E as <-; reflexivity|intros _; eexists; reflexivity].
  - split; [intros r E; injection E as <-; reflexivity|intros _; eexists; reflexivity].
  - split; [intros r E; injection E as <-; reflexivity|intros _; eexists; reflexivity].
Qed.
(* A new parameter starts unmodulated, with every switch off. *)
Theorem C78_new_parameter : forall d p, param_new A d = Ok p ->
  pm_desc p = d /\ pm_temposync p = false /\ pm_extend p = false /\ pm_absolute p = false /\ pm_snap p = false
  /\ (as_number (pm_mod p) = Some 0%R) /\ (forall f, pd_default d = PFloat f -> pm_mod p = PFloat 0%R) /\ (forall i, pd_default d = PInt i -> pm_mod p = PInt 0).
Proof.
  intros d p E. unfold param_new, bound_value in E. cbn [pm_val pm_temposync pm_desc] in E.
  assert (Z0 : ar_lit A 0 1 = 0%R) by (cbn; field).
  assert (LP : forall q, let r := limit_parameter_range A q in pm_desc r = pm_desc q /\ pm_temposync r = pm_temposync q /\ pm_extend r = pm_extend q /\ pm_absolute r = pm_absolute q /\ pm_snap r = pm_snap q /\ pm_mod r = pm_mod q).
  { intros q. unfold limit_parameter_range. destruct (pm_val q), (pd_min (pm_desc q)), (pd_max (pm_desc q)); cbn; repeat split. }
  destruct (pd_default d) as [i|b|f] eqn:ED; cbn [obind] in E; [| discriminate |]; injection E as <-;
    match goal with |- context [limit_parameter_range A ?q] => destruct (LP q) as (-> & -> & -> & -> & -> & ->) end.
  - destruct (ctype_beq _ _); cbn [p_set_value pm_desc pm_temposync pm_extend pm_absolute pm_snap pm_mod default_modulation_delta as_number];
      do 6 (split; [reflexivity|]); split; intros ? HH; try discriminate HH; reflexivity.
  - cbn [p_set_value pm_desc pm_temposync pm_extend pm_absolute pm_snap pm_mod default_modulation_delta as_number]. replace (0 / 1)%R with 0%R by field.
    do 6 (split; [reflexivity|]); split; intros ? HH; try discriminate HH; reflexivity.
Qed.
End Typed.
(* Clearing the flags turns all four switches off and touches nothing else. *)
Theorem C78_clear_flags : forall T (p : param T), let q := p_clear_flags p in
  pm_temposync q = false /\ pm_extend q = false /\ pm_absolute q = false /\ pm_snap q = false /\ pm_val q = pm_val p /\ pm_mod q = pm_mod p /\ pm_desc q = pm_desc p.
Proof. intros; repeat split. Qed.
(* The parameter that was soloed keeps its own switch on; the scene's parameters keep everything but their value. *)
Theorem C29_soloed_parameter_on : forall T solos (p : param T), pm_val p = PBool true ->
  exists solos' p', handle_boolsolo solos p = Ok (solos', p') /\ pm_val p' = PBool true /\ pm_desc p' = pm_desc p /\ map pm_desc solos' = map pm_desc solos.
Proof.
  intros T solos p E. unfold handle_boolsolo, pvalb. rewrite E. cbn [obind]. eexists. eexists. split; [reflexivity|]. split; [reflexivity|]. split; [reflexivity|].
  rewrite map_map. apply map_ext. intros q. reflexivity.
Qed.
Example C94_nonvacuous : real_param {| pm_val := PFloat 0%R; pm_mod := PFloat 0%R; pm_temposync := true; pm_extend := false; pm_absolute := false; pm_snap := false;
    pm_desc := {| pd_min := PFloat (-8)%R; pd_max := PFloat 5%R; pd_default := PFloat 0%R; pd_ctype := CtOther 1; pd_snap := false; pd_extend := false; pd_float_vt := true |} |} (-8) 5
  /\ snapped (1/10) = 0%R /\ division 0.
Proof.
  split; [split; [reflexivity|]; split; [reflexivity|]; split; [lra|]; exists 0%R; reflexivity|]. split; [|apply (D_note 0)].
  unfold snapped. rewrite (int_part_uniq _ 0) by lra. rewrite Rminus_0_r.
  assert (Q : (Rpower 2 (1/10) <= 1167/1000)%R).
  { assert (F : (Rpower (Rpower 2 (1/10)) (INR 10) = 2)%R). { rewrite Rpower_mult. replace (1 / 10 * INR 10)%R with 1%R by (cbn; field). apply Rpower_1. lra. }
    destruct (Rle_lt_dec (Rpower 2 (1/10)) (1167/1000)) as [C|C]; [exact C|]. exfalso.
    assert (P0 : (0 < Rpower 2 (1/10))%R) by apply exp_pos. rewrite Rpower_pow in F by exact P0.
    assert ((1167/1000) ^ 10 <= (Rpower 2 (1 / 10)) ^ 10)%R by (apply pow_incr; lra). lra. }
  destruct (Rlt_dec _ _); [lra|]. destruct (Rlt_dec _ _); [lra|reflexivity].
Qed.
Print Assumptions C94_snaps_to_a_division. Print Assumptions C94_divisions_stay. Print Assumptions C94_monotone. Print Assumptions C94_nearest_refuted. Print Assumptions C37_typed_set. Print Assumptions C37_default_reads. Print Assumptions C79_difference. Print Assumptions C78_new_parameter.
