(* WtOscProps.v - C293 creation, C294 frames, C295 levels, C296 mipmap levels of the wavetable oscillator. *)
From Coq Require Import Reals ZArith List Lia Lra.
From Coquelicot Require Rcomplements.
From Verif Require Import Base Util ParamModel LagModel SsoModel AdsrModel WtOscModel.
Import ListNotations.
Local Open Scope R_scope.

(* ================= C293 creation ================= *)
Lemma rlt_true : forall a b {X} (x y : X), a < b -> (if Rlt_dec a b then x else y) = x.
Proof. intros a b X x y H. destruct (Rlt_dec a b); [reflexivity|contradiction]. Qed.
Lemma rlt_false : forall a b {X} (x y : X), b <= a -> (if Rlt_dec a b then x else y) = y.
Proof. intros a b X x y H. destruct (Rlt_dec a b); [lra|reflexivity]. Qed.

(* the count of a freshly made oscillator is its default, a float, and reading it as an integer panics *)
Theorem C293_creation_refuted : forall pow2 c1 c2,
  exists p, param_new (numR pow2 c1 c2) wo_count_desc = Ok p /\ pm_val p = PFloat 1 /\ wo_unison (pm_val p) = Panic.
Proof. intros. eexists. split; [reflexivity|]. split; reflexivity. Qed.
Print Assumptions C293_creation_refuted.
(* an integer count, wherever it came from, gives 1 to 16 voices *)
Theorem C293_integer_count : forall n, exists u, wo_unison (PInt n) = Ok u /\ (1 <= u <= 16)%Z /\ ((1 <= n <= 16)%Z -> u = n).
Proof. intros n. unfold wo_unison. cbn [pvali obind]. eexists. split; [reflexivity|]. split; lia. Qed.
Print Assumptions C293_integer_count.
(* a table of one frame (the default table is one) cannot be started: the last frame index underflows *)
Theorem C293_single_frame_start_refuted : forall n morph, (n < 2)%Z -> wo_tab_start n morph = Panic.
Proof. intros n morph H. unfold wo_tab_start, wo_frame. apply Z.ltb_lt in H. rewrite H. reflexivity. Qed.
Print Assumptions C293_single_frame_start_refuted.

(* ================= C294 frames ================= *)
Lemma trunc_nonneg : forall x, 0 <= x -> (0 <= truncR x)%Z /\ IZR (truncR x) <= x < IZR (truncR x) + 1.
Proof.
  intros x H. unfold truncR. destruct (Rle_dec 0 x); [|contradiction]. destruct (base_Int_part x) as [A B].
  split; [|lra]. assert (Q : -1 < IZR (Int_part x)) by lra. apply (lt_IZR (-1)) in Q. lia.
Qed.
Lemma shape_range : forall n morph, (2 <= n)%Z -> 0 <= morph <= 1 -> 0 <= wo_shape n morph < IZR (n - 1).
Proof.
  intros n m N M. unfold wo_shape. apply IZR_le in N. rewrite minus_IZR.
  assert (0 <= m * ((IZR n - 1) * (99999 / 100000))) by (apply Rmult_le_pos; lra).
  assert (m * ((IZR n - 1) * (99999 / 100000)) <= 1 * ((IZR n - 1) * (99999 / 100000))) by (apply Rmult_le_compat_r; lra).
  split; lra.
Qed.
Lemma trunc_id : forall x k, IZR k <= x < IZR k + 1 -> 0 <= x -> truncR x = k.
Proof.
  intros x k K X. destruct (trunc_nonneg x X) as (_ & A & B).
  assert (IZR (truncR x) < IZR (k + 1)) by (rewrite plus_IZR; lra). assert (IZR k < IZR (truncR x + 1)) by (rewrite plus_IZR; lra).
  apply lt_IZR in H. apply lt_IZR in H0. lia.
Qed.
(* where in the table the oscillator stands: frame and fraction *)
Definition place (t : wo_tab) : R := IZR (tb_id t) + tb_ipol t.
Definition frame_ok (n : Z) (t : wo_tab) : Prop := (0 <= tb_id t <= n - 2)%Z /\ 0 <= tb_ipol t <= 1.
Lemma frame_split : forall n morph, (2 <= n)%Z -> 0 <= morph <= 1 ->
  wo_frame n (truncR (wo_shape n morph)) = Ok (truncR (wo_shape n morph)) /\
  (0 <= truncR (wo_shape n morph) <= n - 2)%Z /\ 0 <= snd (wo_split (wo_shape n morph)) < 1 /\
  IZR (truncR (wo_shape n morph)) + snd (wo_split (wo_shape n morph)) = wo_shape n morph.
Proof.
  intros n m N M. destruct (shape_range n m N M) as [A B]. destruct (trunc_nonneg _ A) as (T0 & T1 & T2).
  assert (T3 : (truncR (wo_shape n m) < n - 1)%Z) by (apply lt_IZR; lra).
  unfold wo_frame, wo_split. cbn [snd]. replace (n <? 2)%Z with false by (symmetry; apply Z.ltb_ge; lia).
  split; [f_equal; lia|]. split; [lia|]. split; lra.
Qed.
Theorem C294_start : forall n morph, (2 <= n)%Z -> 0 <= morph <= 1 ->
  exists t, wo_tab_start n morph = Ok t /\ frame_ok n t /\ tb_ipol t < 1 /\ place t = morph * (IZR n - 1) * (99999 / 100000).
Proof.
  intros n m N M. destruct (frame_split n m N M) as (E & I & F & S0). unfold wo_tab_start. cbv zeta. rewrite E. cbn [obind].
  eexists. split; [reflexivity|]. split; [split; [exact I|cbn [tb_ipol]; lra]|]. split; [cbn [tb_ipol]; lra|]. unfold place. cbn [tb_id tb_ipol]. rewrite S0. unfold wo_shape. ring.
Qed.
Print Assumptions C294_start.
(* a later block stands where the knob says, or it stays at an end of the frame pair it was in: the start if it was there already and
   the knob is below, the end if it was there already and the knob is above *)
Theorem C294_update : forall n morph t, (2 <= n)%Z -> 0 <= morph <= 1 -> frame_ok n t ->
  exists t', wo_tab_update n morph t = Ok t' /\ frame_ok n t' /\ 0 <= tb_lastipol t' <= 1 /\
  (place t' = morph * (IZR n - 1) * (99999 / 100000) /\ tb_ipol t' < 1 \/
   (tb_id t' = tb_id t /\ tb_ipol t' = 0 /\ tb_ipol t < / 8388608 /\ morph * (IZR n - 1) * (99999 / 100000) < IZR (tb_id t)) \/
   (tb_id t' = tb_id t /\ tb_ipol t' = 1 /\ 1 - / 8388608 < tb_ipol t /\ IZR (tb_id t) + 1 <= morph * (IZR n - 1) * (99999 / 100000))).
Proof.
  intros n m t N M [I F]. destruct (frame_split n m N M) as (E & I' & F' & S0). unfold wo_tab_update. cbv zeta.
  replace ((n =? 1) || (n <=? tb_id t))%Z%bool with false by (symmetry; apply Bool.orb_false_intro; [apply Z.eqb_neq|apply Z.leb_gt]; lia).
  rewrite E. cbn [obind]. assert (P : wo_shape n m = m * (IZR n - 1) * (99999 / 100000)) by (unfold wo_shape; ring). rewrite <- P.
  assert (EP : EPS32 = / 8388608) by reflexivity. destruct (shape_range n m N M) as [A _]. destruct (trunc_nonneg _ A) as (_ & T1 & T2).
  set (k := truncR (wo_shape n m)) in *. set (ip := snd (wo_split (wo_shape n m))) in *. clearbody k ip.
  destruct (Z.ltb_spec (tb_id t) k) as [U|U].
  - assert (K : IZR (tb_id t) + 1 <= IZR k) by (rewrite <- plus_IZR; apply IZR_le; lia).
    destruct (Rlt_dec (Rabs (tb_ipol t - 1)) EPS32) as [D|D]; eexists; (split; [reflexivity|]); unfold frame_ok, place; cbn [tb_id tb_ipol tb_last tb_lastipol].
    + apply Rabs_def2 in D. refine (conj (conj I _) (conj _ _)); [lra|lra|]. right; right. repeat split; lra.
    + refine (conj (conj I' _) (conj _ _)); [lra|lra|]. left. split; lra.
  - destruct (Z.ltb_spec k (tb_id t)) as [V|V].
    + assert (K : IZR k + 1 <= IZR (tb_id t)) by (rewrite <- plus_IZR; apply IZR_le; lia).
      destruct (Rlt_dec (Rabs (tb_ipol t - 0)) EPS32) as [D|D]; eexists; (split; [reflexivity|]); unfold frame_ok, place; cbn [tb_id tb_ipol tb_last tb_lastipol].
      * apply Rabs_def2 in D. refine (conj (conj I _) (conj _ _)); [lra|lra|]. right; left. repeat split; lra.
      * refine (conj (conj I' _) (conj _ _)); [lra|lra|]. left. split; lra.
    + eexists; (split; [reflexivity|]); unfold frame_ok, place; cbn [tb_id tb_ipol tb_last tb_lastipol].
      refine (conj (conj I' _) (conj _ _)); [lra|lra|]. left. split; lra.
Qed.
Print Assumptions C294_update.
Fixpoint updates (n : Z) (ms : list R) (t : wo_tab) : res wo_tab :=
  match ms with [] => Ok t | m :: ms => obind (wo_tab_update n m t) (updates n ms) end.
(* once exactly on a frame, every movement of the knob below that frame, however long, is ignored *)
Theorem C294_follows_the_knob_refuted : forall n ms t, (2 <= n)%Z -> frame_ok n t -> tb_ipol t = 0 ->
  Forall (fun m => 0 <= m <= 1 /\ m * (IZR n - 1) * (99999 / 100000) < IZR (tb_id t)) ms ->
  exists t', updates n ms t = Ok t' /\ place t' = IZR (tb_id t).
Proof.
  intros n ms. induction ms as [|m ms IH]; intros t N Ft Z0 H.
  - exists t. split; [reflexivity|]. unfold place. lra.
  - inversion H as [|? ? [H1 H2] H3]; subst. cbn [updates].
    destruct (shape_range n m N H1) as [A _]. destruct (trunc_nonneg _ A) as (_ & T1 & T2).
    assert (P : wo_shape n m = m * (IZR n - 1) * (99999 / 100000)) by (unfold wo_shape; ring).
    destruct (frame_split n m N H1) as (E & I' & F' & S0). destruct Ft as [I F].
    assert (K : (truncR (wo_shape n m) < tb_id t)%Z) by (apply lt_IZR; lra).
    assert (U : wo_tab_update n m t = Ok {| tb_id := tb_id t; tb_ipol := 0; tb_last := tb_id t; tb_lastipol := tb_ipol t |}).
    { unfold wo_tab_update. cbv zeta.
      replace ((n =? 1) || (n <=? tb_id t))%Z%bool with false by (symmetry; apply Bool.orb_false_intro; [apply Z.eqb_neq|apply Z.leb_gt]; lia).
      rewrite E. cbn [obind]. replace (tb_id t <? truncR (wo_shape n m))%Z with false by (symmetry; apply Z.ltb_ge; lia).
      apply Z.ltb_lt in K. rewrite K. rewrite rlt_true; [reflexivity|]. rewrite Z0, Rminus_0_r, Rabs_R0. unfold EPS32. lra. }
    rewrite U. cbn [obind]. destruct (IH {| tb_id := tb_id t; tb_ipol := 0; tb_last := tb_id t; tb_lastipol := tb_ipol t |} N) as (t' & E' & P').
    + split; cbn [tb_id tb_ipol]; [exact I|lra].
    + reflexivity.
    + exact H3.
    + exists t'. split; [exact E'|exact P'].
Qed.
Print Assumptions C294_follows_the_knob_refuted.
(* such a start exists for every inner frame of every table *)
Example C294_start_on_a_frame : forall n k, (2 <= n)%Z -> (0 <= k <= n - 2)%Z -> let m := IZR k / ((IZR n - 1) * (99999 / 100000)) in
  0 <= m <= 1 -> exists t, wo_tab_start n m = Ok t /\ tb_id t = k /\ tb_ipol t = 0.
Proof.
  intros n k N K m M. assert (P : wo_shape n m = IZR k) by (unfold wo_shape, m; apply IZR_le in N; field; lra).
  assert (Q : truncR (IZR k) = k) by (apply trunc_id; [lra|apply IZR_le; lia]).
  unfold wo_tab_start. cbv zeta. rewrite P, Q. unfold wo_frame, wo_split. rewrite Q. replace (n <? 2)%Z with false by (symmetry; apply Z.ltb_ge; lia).
  cbn [obind snd]. eexists. split; [reflexivity|]. cbn [tb_id tb_ipol]. split; [lia|lra].
Qed.
(* a level between the two frames' cells, and always within -1 .. 1 *)
Lemma lim1_range : forall x, -1 <= limR3 x (-1) 1 <= 1.
Proof. intros. unfold limR3. split; [apply Rmax_l|]. apply Rmax_lub; [lra|apply Rmin_l]. Qed.
Lemma lerp_ok : forall x a b, 0 <= x < 1 -> wo_lerp x a b = Ok ((1 - x) * a + x * b).
Proof. intros x a b H. unfold wo_lerp. destruct (Rle_dec 0 x); [|lra]. destruct (Rlt_dec x 1); [reflexivity|lra]. Qed.
Lemma get_ok : forall w m i p, (0 <= m < wv_mips w)%Z -> (0 <= i < wv_n w)%Z -> (0 <= p < wv_ts w)%Z -> wo_get w m i p = Ok (IZR (wv_at w m i p)).
Proof.
  intros w m i p M I P. unfold wo_get. repeat (replace (_ <=? _)%Z with true by (symmetry; apply Z.leb_le; lia)). repeat (replace (_ <? _)%Z with true by (symmetry; apply Z.ltb_lt; lia)). reflexivity.
Qed.
Theorem C294_level : forall c mip state pos, (2 <= wv_n (q_wave c))%Z -> frame_ok (wv_n (q_wave c)) (q_tab c) -> 0 <= tb_lastipol (q_tab c) <= 1 ->
  0 <= pos < 1 -> (1 - pos) * tb_lastipol (q_tab c) + pos * tb_ipol (q_tab c) < 1 ->
  (0 <= mip < wv_mips (q_wave c))%Z -> (0 <= state < wv_ts (q_wave c))%Z ->
  exists x, x = (1 - pos) * tb_lastipol (q_tab c) + pos * tb_ipol (q_tab c) /\ 0 <= x < 1 /\
  (let y := (1 - x) * IZR (wv_at (q_wave c) mip (tb_id (q_tab c)) state) + x * IZR (wv_at (q_wave c) mip (tb_id (q_tab c) + 1) state) in
  wo_newlevel c mip state pos = Ok (wo_distort (q_vskew c) (q_clip c) y) /\ -1 <= wo_distort (q_vskew c) (q_clip c) y <= 1).
Proof.
  intros c mip st pos N [I F] L P X M S0. eexists. split; [reflexivity|]. cbv zeta.
  assert (0 <= (1 - pos) * tb_lastipol (q_tab c)) by (apply Rmult_le_pos; lra). assert (0 <= pos * tb_ipol (q_tab c)) by (apply Rmult_le_pos; lra).
  split; [lra|]. split.
  - unfold wo_newlevel. rewrite lerp_ok by lra. cbn [obind]. rewrite get_ok by (exact M || exact S0 || lia). cbn [obind]. rewrite get_ok by (exact M || exact S0 || lia). cbn [obind].
    rewrite lerp_ok by lra. reflexivity.
  - unfold wo_distort. apply lim1_range.
Qed.
Print Assumptions C294_level.
Theorem C294_single_frame_refuted : forall c t morph mip state pos, wv_n (q_wave c) = 1%Z -> wo_tab_update 1 morph t = Ok (q_tab c) ->
  wo_newlevel c mip state pos = Panic.
Proof.
  intros c t m mip st pos N U. unfold wo_tab_update in U. cbn [Z.eqb Pos.eqb orb] in U. injection U as U. unfold wo_newlevel. rewrite <- U. cbn [tb_id tb_ipol tb_lastipol].
  assert (G : wo_get (q_wave c) mip (0 + 1) st = Panic).
  { unfold wo_get. rewrite N. change (0 + 1 <? 1)%Z with false. rewrite Bool.andb_false_r. reflexivity. }
  unfold wo_lerp at 1. destruct (Rle_dec 0 pos); [|reflexivity]. destruct (Rlt_dec pos 1); [|reflexivity]. cbn [obind].
  destruct (wo_get (q_wave c) mip 0 st) as [a|e|] eqn:Ea; cbn [obind].
  - rewrite G. reflexivity.
  - exfalso. revert Ea. unfold wo_get. match goal with |- (if ?b then _ else _) = _ -> _ => destruct b end; discriminate.
  - reflexivity.
Qed.
Print Assumptions C294_single_frame_refuted.
(* an impulse at the very start of a block after a move down to another frame: the fraction is 1, which lerp refuses *)
Theorem C294_move_down_at_block_start_refuted : forall n morph t c mip state, (2 <= n)%Z -> 0 <= morph <= 1 -> frame_ok n t ->
  / 8388608 <= tb_ipol t -> morph * (IZR n - 1) * (99999 / 100000) < IZR (tb_id t) -> wo_tab_update n morph t = Ok (q_tab c) ->
  wo_newlevel c mip state 0 = Panic.
Proof.
  intros n m t c mip st N M [I F] E0 K U.
  destruct (frame_split n m N M) as (E & I' & F' & S0). destruct (shape_range n m N M) as [A _]. destruct (trunc_nonneg _ A) as (_ & T1 & T2).
  assert (P : wo_shape n m = m * (IZR n - 1) * (99999 / 100000)) by (unfold wo_shape; ring).
  assert (K' : (truncR (wo_shape n m) < tb_id t)%Z) by (apply lt_IZR; lra).
  unfold wo_tab_update in U. cbv zeta in U.
  replace ((n =? 1) || (n <=? tb_id t))%Z%bool with false in U by (symmetry; apply Bool.orb_false_intro; [apply Z.eqb_neq|apply Z.leb_gt]; lia).
  rewrite E in U. cbn [obind] in U. replace (tb_id t <? truncR (wo_shape n m))%Z with false in U by (symmetry; apply Z.ltb_ge; lia).
  apply Z.ltb_lt in K'. rewrite K' in U. rewrite rlt_false in U by (rewrite Rminus_0_r, Rabs_pos_eq by lra; unfold EPS32; lra). injection U as U.
  unfold wo_newlevel. rewrite <- U. cbn [tb_lastipol tb_ipol tb_id]. rewrite lerp_ok by lra. cbn [obind]. 
  match goal with |- obind ?r _ = _ => assert (G : forall i, wo_get (q_wave c) mip i st = Panic \/ exists v, wo_get (q_wave c) mip i st = Ok v) end.
  { intros i. unfold wo_get. match goal with |- (if ?b then _ else _) = _ \/ _ => destruct b end; [right; eexists; reflexivity|left; reflexivity]. }
  destruct (G (truncR (wo_shape n m))) as [-> | [a ->]]; cbn [obind]; [reflexivity|].
  match goal with |- obind ?r _ = _ => destruct r as [b|e|] eqn:Eb end; cbn [obind].
  - unfold wo_lerp. match goal with |- context [Rle_dec 0 ?x] => destruct (Rle_dec 0 x) end; [match goal with |- context [Rlt_dec ?x 1] => destruct (Rlt_dec x 1) end; [exfalso; lra|reflexivity]|reflexivity].
  - exfalso. destruct (G (truncR (wo_shape n m) + 1)%Z) as [G' | [v G']]; rewrite G' in Eb; discriminate.
  - reflexivity.
Qed.
Print Assumptions C294_move_down_at_block_start_refuted.

(* ================= C295 levels ================= *)
(* what the table holds is a 16-bit integer; the oscillator's level is only its sign *)
Theorem C295_only_the_sign_refuted : forall k, wo_distort 0 0 (IZR k) = IZR (Z.sgn k).
Proof.
  intros k. unfold wo_distort, limR3. replace (_ * (1 - 0) + _) with (IZR k) by lra.
  destruct (Z.lt_trichotomy k 0) as [H|[-> |H]].
  - assert (K : IZR k <= IZR (-1)) by (apply IZR_le; lia). rewrite Z.sgn_neg by exact H. rewrite Rmin_right by lra. rewrite Rmax_left by lra. reflexivity.
  - cbn [Z.sgn]. rewrite Rmin_right by lra. rewrite Rmax_right by lra. reflexivity.
  - assert (K : IZR 1 <= IZR k) by (apply IZR_le; lia). rewrite Z.sgn_pos by exact H. rewrite Rmin_left by lra. rewrite Rmax_right by lra. reflexivity.
Qed.
Print Assumptions C295_only_the_sign_refuted.
(* the settings keep their ranges, full levels stay full, and the level never leaves -1 .. 1 *)
Theorem C295_distortion : forall v sat x, 
  -1 <= wo_skew_target v <= 1 /\ -8 <= wo_clip_target sat <= 0 /\ -1 <= wo_distort v (wo_clip_target sat) x <= 1 /\
  wo_distort v (wo_clip_target sat) 1 = 1 /\ wo_distort v (wo_clip_target sat) (-1) = -1.
Proof.
  intros v sat x. split; [apply lim1_range|]. split.
  { unfold wo_clip_target. cbv zeta. assert (C : 0 <= limR3 sat 0 1 <= 1). { unfold limR3. split; [apply Rmax_l|]. apply Rmax_lub; [lra|apply Rmin_l]. }
    set (z := limR3 sat 0 1) in *. clearbody z. assert (0 <= z * z <= 1). { split; [apply Rmult_le_pos; lra|]. rewrite <- (Rmult_1_l 1). apply Rmult_le_compat; lra. }
    assert (0 <= z * z * z <= 1). { split; [apply Rmult_le_pos; lra|]. apply (Rle_trans _ (1 * z)); [apply Rmult_le_compat_r; lra|lra]. } lra. }
  split; [unfold wo_distort; apply lim1_range|]. split; unfold wo_distort, limR3.
  - replace (_ * (1 - _) + _) with 1 by ring. rewrite Rmin_left, Rmax_right; lra.
  - replace (_ * (1 - _) + _) with (-1) by ring. rewrite Rmin_right, Rmax_left; lra.
Qed.
Print Assumptions C295_distortion.
(* without skew the curve is odd; the vertical skew alone is increasing on -1 .. 1 *)
Theorem C295_odd : forall clip x, wo_distort 0 clip (- x) = - wo_distort 0 clip x.
Proof.
  intros c x. unfold wo_distort. set (p := (x - 0 * (1 / 2) * x * x + 0 * (1 / 2)) * (1 - c) + _). replace (_ * (1 - c) + _) with (- p) by (unfold p; field).
  clearbody p. unfold limR3, Rmax, Rmin. repeat destruct (Rle_dec _ _); lra.
Qed.
Theorem C295_skew_increasing : forall v x y, -1 <= v <= 1 -> -1 <= x -> x <= y -> y <= 1 -> wo_distort v 0 x <= wo_distort v 0 y.
Proof.
  intros v x y V X XY Y. unfold wo_distort. set (a := v * (1 / 2)).
  assert (H : x - a * x * x + a <= y - a * y * y + a).
  { assert (0 <= (y - x) * (1 - a * (x + y))).
    { apply Rmult_le_pos; [lra|]. assert (-1 <= a * (x + y) <= 1). { unfold a. 
        assert (-2 <= v * (x + y) <= 2); [|lra]. apply Rcomplements.Rabs_le_between. rewrite Rabs_mult. replace 2 with (1 * 2) by ring. apply Rmult_le_compat; try apply Rabs_pos; apply Rabs_le; lra. } lra. }
    lra. }
  set (p := x - a * x * x + a) in *. set (q := y - a * y * y + a) in *. clearbody p q. replace (p * (1 - 0) + 0 * p * p * p) with p by ring. replace (q * (1 - 0) + 0 * q * q * q) with q by ring.
  unfold limR3. apply Rle_max_compat_l. apply Rle_min_compat_l. exact H.
Qed.
Print Assumptions C295_skew_increasing.

(* ================= C296 mipmap levels ================= *)
Definition W (ts m : Z) : R := IZR ts / IZR (2 ^ m).
(* the level's impulses are less than 1.8 samples apart (or it is the base level), the level below it in size would be the last such *)
Theorem C296_level : forall ts pinv, (1 <= ts)%Z -> 0 < pinv -> let m := wo_mip ts pinv in
  (0 <= m <= 6)%Z /\ (m = 0%Z \/ ((2 ^ (m + 1) <= ts)%Z /\ pinv * IZR (2 ^ m) / IZR ts < 18 / 10)) /\
  (m = 6%Z \/ (ts < 2 ^ (m + 2))%Z \/ 18 / 10 <= pinv * IZR (2 ^ (m + 1)) / IZR ts).
Proof.
  intros ts pinv T P m. assert (T' : 1 <= IZR ts) by (apply IZR_le; exact T).
  assert (Q : 1 / IZR ts * pinv = pinv / IZR ts) by (field; lra). unfold m, wo_mip. cbv zeta. rewrite Q.
  assert (D : forall k, pinv * IZR k / IZR ts = pinv / IZR ts * IZR k) by (intros; field; lra).
  set (a := pinv / IZR ts) in *.
  repeat (match goal with |- context [if (if Rlt_dec ?x ?y then (?u <=? ?w)%Z else false) then _ else _] =>
    destruct (Rlt_dec x y); [destruct (Z.leb_spec u w)|] end);
  (split; [lia|]; rewrite ?D; cbn [Z.add Pos.add Pos.succ Z.pow Z.pow_pos Pos.iter Z.mul Pos.mul]; split;
   [ (left; reflexivity) || (right; split; [lia|lra])
   | (left; reflexivity) || (right; left; lia) || (right; right; lra) ]).
Qed.
Print Assumptions C296_level.
(* a table without a mipmap (the default has one level) cannot play a period of fewer than 0.9 ts samples *)
Theorem C296_one_level_refuted : forall c state pos, wv_mips (q_wave c) = 1%Z -> (4 <= wv_ts (q_wave c))%Z -> 0 < q_pinv c ->
  q_pinv c < 9 / 10 * IZR (wv_ts (q_wave c)) -> wo_newlevel c (wo_mip (wv_ts (q_wave c)) (q_pinv c)) state pos = Panic.
Proof.
  intros c st pos M T P H. assert (T' : 4 <= IZR (wv_ts (q_wave c))) by (apply IZR_le; exact T).
  destruct (C296_level (wv_ts (q_wave c)) (q_pinv c) ltac:(lia) P) as (R1 & _ & R3).
  assert (N : wo_mip (wv_ts (q_wave c)) (q_pinv c) <> 0%Z).
  { intros E. rewrite E in R3. destruct R3 as [R3|[R3|R3]]; [lia|change (2 ^ (0 + 2))%Z with 4%Z in R3; lia|]. change (IZR (2 ^ (0 + 1))) with 2 in R3.
    apply (Rmult_le_compat_r (IZR (wv_ts (q_wave c)))) in R3; [|lra]. replace (q_pinv c * 2 / IZR (wv_ts (q_wave c)) * IZR (wv_ts (q_wave c))) with (q_pinv c * 2) in R3 by (field; lra). lra. }
  set (m := wo_mip _ _) in *. clearbody m.
  assert (G : forall i p, wo_get (q_wave c) m i p = Panic).
  { intros i p. unfold wo_get. rewrite M. replace (m <? 1)%Z with false by (symmetry; apply Z.ltb_ge; lia). rewrite Bool.andb_false_r. reflexivity. }
  unfold wo_newlevel, wo_lerp. destruct (Rle_dec 0 pos); [|reflexivity]. destruct (Rlt_dec pos 1); [|reflexivity]. cbn [obind]. rewrite G. reflexivity.
Qed.
Print Assumptions C296_one_level_refuted.
Example C296_default_table : wo_mip 1024 300 = 2%Z.
Proof. unfold wo_mip. cbv zeta. rewrite 4!rlt_false by lra. rewrite rlt_true by lra. reflexivity. Qed.
