(** Theorems about the all-pass reverb: superposition, parameter smoothing, decay time. *)
From Coq Require Import Reals Lra Lia Bool List.
From Verif Require Import Base Util BlockModel MathModel ParamModel AdsrModel LfoModel LagModel SmallModel UnitModel AllpassModel AllpassProofs AllpassProps AllpassProps2.
Local Open Scope R_scope.

(** ** C177: the wet signal is a linear function of left plus right *)
Section Lin.
Variables al be : R.
Definition lc (x y : R) : R := al * x + be * y.
(** three states of which the third is the combination of the first two *)
Definition ap_lin (s1 s2 s3 : allp) : Prop :=
  a_len s1 = a_len s3 /\ a_len s2 = a_len s3 /\ a_k s1 = a_k s3 /\ a_k s2 = a_k s3 /\ forall j, a_data s3 j = lc (a_data s1 j) (a_data s2 j).
Definition ad_lin (s1 s2 s3 : adel) : Prop :=
  d_len s1 = d_len s3 /\ d_len s2 = d_len s3 /\ d_k s1 = d_k s3 /\ d_k s2 = d_k s3 /\ forall j, d_data s3 j = lc (d_data s1 j) (d_data s2 j).
Definition pd_lin (s1 s2 s3 : pdel) : Prop := p_k s1 = p_k s3 /\ p_k s2 = p_k s3 /\ forall j, p_data s3 j = lc (p_data s1 j) (p_data s2 j).
Definition blk_lin (b1 b2 b3 : ablock) : Prop :=
  ap_lin (b_a0 b1) (b_a0 b2) (b_a0 b3) /\ ap_lin (b_a1 b1) (b_a1 b2) (b_a1 b3) /\ b_hf b3 = lc (b_hf b1) (b_hf b2) /\ b_lf b3 = lc (b_lf b1) (b_lf b2) /\
  ad_lin (b_del b1) (b_del b2) (b_del b3) /\ (b_tl b1, b_tr b1, b_gl b1, b_gr b1) = (b_tl b3, b_tr b3, b_gl b3, b_gr b3) /\
  (b_tl b2, b_tr b2, b_gl b2, b_gr b2) = (b_tl b3, b_tr b3, b_gl b3, b_gr b3).
Fixpoint all3 {A} (P : A -> A -> A -> Prop) (l1 l2 l3 : list A) : Prop :=
  match l1, l2, l3 with
  | [], [], [] => True
  | a :: r1, b :: r2, c :: r3 => P a b c /\ all3 P r1 r2 r3
  | _, _, _ => False
  end.
Definition smo (s : averb) := (v_decay s, v_diff s, v_build s, v_hfc s, v_lfc s, v_mod s, v_lfo s, v_last s).
Definition av_lin (s1 s2 s3 : averb) : Prop :=
  all3 ap_lin (v_in s1) (v_in s2) (v_in s3) /\ all3 blk_lin (v_blocks s1) (v_blocks s2) (v_blocks s3) /\ pd_lin (v_pre s1) (v_pre s2) (v_pre s3) /\
  v_state s3 = lc (v_state s1) (v_state s2) /\ smo s1 = smo s3 /\ smo s2 = smo s3.

Lemma put_lin : forall f1 f2 f3 i x1 x2 x3, (forall j, f3 j = lc (f1 j) (f2 j)) -> x3 = lc x1 x2 -> forall j : Z, put f3 i x3 j = lc (put f1 i x1 j) (put f2 i x2 j).
Proof. intros. unfold put. destruct (_ =? _)%Z; auto. Qed.
Lemma ap_lin_step : forall s1 s2 s3 c x1 x2 s1' s2' y1 y2, ap_lin s1 s2 s3 -> ap_process s1 x1 c = Ok (s1', y1) -> ap_process s2 x2 c = Ok (s2', y2) ->
  exists s3', ap_process s3 (lc x1 x2) c = Ok (s3', lc y1 y2) /\ ap_lin s1' s2' s3'.
Proof.
  intros s1 s2 s3 c x1 x2 s1' s2' y1 y2 (L1 & L2 & K1 & K2 & D) H1 H2. unfold ap_process in *. cbv zeta in *. rewrite L1, K1 in H1. rewrite L2, K2 in H2.
  set (k := if (a_len s3 <=? a_k s3 + 1)%Z then 0%Z else (a_k s3 + 1)%Z) in *. destruct (_ && _); [|discriminate].
  injection H1 as <- <-. injection H2 as <- <-. eexists. split; [apply f_equal; apply f_equal2; [reflexivity|rewrite D; unfold lc; ring]|].
  repeat split; simpl; try reflexivity. intros j. apply put_lin; [exact D|]. rewrite D. unfold lc. ring.
Qed.
Lemma ad_get_lin : forall s1 s2 s3 i v1 v2, ad_lin s1 s2 s3 -> ad_get s1 i = Ok v1 -> ad_get s2 i = Ok v2 -> ad_get s3 i = Ok (lc v1 v2).
Proof.
  intros s1 s2 s3 i v1 v2 (_ & _ & _ & _ & D) H1 H2. unfold ad_get in *. destruct (_ && _); [|discriminate]. injection H1 as <-. injection H2 as <-. rewrite D. reflexivity.
Qed.
Lemma ad_lin_step : forall s1 s2 s3 t1 t2 m x1 x2 s1' s2' y1 y2 a1 a2 b1 b2, ad_lin s1 s2 s3 ->
  ad_process s1 x1 t1 t2 m = Ok (s1', (y1, a1, b1)) -> ad_process s2 x2 t1 t2 m = Ok (s2', (y2, a2, b2)) ->
  exists s3', ad_process s3 (lc x1 x2) t1 t2 m = Ok (s3', (lc y1 y2, lc a1 a2, lc b1 b2)) /\ ad_lin s1' s2' s3'.
Proof.
  intros s1 s2 s3 t1 t2 m x1 x2 s1' s2' y1 y2 a1 a2 b1 b2 L H1 H2. pose proof L as (L1 & L2 & K1 & K2 & D). unfold ad_process in *. cbv zeta in *.
  rewrite L1, K1 in H1. rewrite L2, K2 in H2.
  remember (IZR (Z.land m (AP_SUB - 1))) as c1 eqn:Hc1. remember (IZR (AP_SUB - Z.land m (AP_SUB - 1))) as c2 eqn:Hc2. remember (1 / IZR AP_SUB) as c3 eqn:Hc3. clear Hc1 Hc2 Hc3.
  ok H1. ok H2. rewrite E in E0. injection E0 as <-. rewrite E. cbn [obind]. set (k := Z.land r AP_MASK) in *.
  ok H1. ok H2. rewrite E0 in E1. injection E1 as <-. rewrite E0. cbn [obind].
  ok H1. ok H2. rewrite E1 in E2. injection E2 as <-. rewrite E1. cbn [obind].
  ok H1. ok H2. rewrite (ad_get_lin _ _ _ _ _ _ L E2 E3). cbn [obind]. clear E2 E3.
  ok H1. ok H2. rewrite (ad_get_lin _ _ _ _ _ _ L E2 E3). cbn [obind]. clear E2 E3.
  ok H1. ok H2. rewrite E2 in E3. injection E3 as <-. rewrite E2. cbn [obind].
  ok H1. ok H2. rewrite E3 in E4. injection E4 as <-. rewrite E3. cbn [obind].
  ok H1. ok H2. rewrite E4 in E5. injection E5 as <-. rewrite E4. cbn [obind].
  ok H1. ok H2. rewrite (ad_get_lin _ _ _ _ _ _ L E5 E6). cbn [obind]. clear E5 E6.
  ok H1. ok H2. rewrite (ad_get_lin _ _ _ _ _ _ L E5 E6). cbn [obind]. clear E5 E6.
  destruct (_ && _); [|discriminate]. injection H1 as <- <- <- <-. injection H2 as <- <- <- <-.
  eexists. split; [apply f_equal; apply f_equal2; [reflexivity|apply f_equal2; [apply f_equal2; [|reflexivity]|reflexivity]; unfold lc; ring]|].
  repeat split; simpl; try assumption. intros j. apply put_lin; [exact D|reflexivity].
Qed.
Lemma pd_lin_step : forall s1 s2 s3 t x1 x2 s1' s2' y1 y2, pd_lin s1 s2 s3 -> pd_process s1 x1 t = Ok (s1', y1) -> pd_process s2 x2 t = Ok (s2', y2) ->
  exists s3', pd_process s3 (lc x1 x2) t = Ok (s3', lc y1 y2) /\ pd_lin s1' s2' s3'.
Proof.
  intros s1 s2 s3 t x1 x2 s1' s2' y1 y2 (K1 & K2 & D) H1 H2. unfold pd_process in *. cbv zeta in *. rewrite K1 in H1. rewrite K2 in H2.
  ok H1. ok H2. rewrite E in E0. injection E0 as <-. rewrite E. cbn [obind]. set (k := if (r =? PD_SIZE)%Z then 0%Z else r) in *.
  ok H1. ok H2. rewrite E0 in E1. injection E1 as <-. rewrite E0. cbn [obind].
  destruct (r0 <? 0)%Z.
  - ok H1. ok H2. rewrite E1 in E2. injection E2 as <-. rewrite E1. cbn [obind]. destruct (negb _); [discriminate|]. destruct (_ && _); [|discriminate].
    injection H1 as <- <-. injection H2 as <- <-. rewrite <- D. eexists. split; [reflexivity|]. repeat split; simpl; try reflexivity.
    intros j. apply put_lin; [exact D|reflexivity].
  - cbn [obind] in *. destruct (negb _); [discriminate|]. destruct (_ && _); [|discriminate].
    injection H1 as <- <-. injection H2 as <- <-. rewrite <- D. eexists. split; [reflexivity|]. repeat split; simpl; try reflexivity.
    intros j. apply put_lin; [exact D|reflexivity].
Qed.
Lemma blk_lin_step : forall q lfo i1 i2 b1 b2 b3 x1 x2 b1' b2' y1 y2 l1 r1 l2 r2, blk_lin b1 b2 b3 ->
  do_block q lfo i1 b1 x1 = Ok (b1', y1, (l1, r1)) -> do_block q lfo i2 b2 x2 = Ok (b2', y2, (l2, r2)) ->
  exists b3', do_block q lfo (lc i1 i2) b3 (lc x1 x2) = Ok (b3', lc y1 y2, (lc l1 l2, lc r1 r2)) /\ blk_lin b1' b2' b3'.
Proof.
  intros q lfo i1 i2 b1 b2 b3 x1 x2 b1' b2' y1 y2 l1 r1 l2 r2 (A0 & A1 & Hh & Hl & Dl & T1 & T2) H1 H2. unfold do_block in *. cbv zeta in *.
  ok H1. ok H2. destruct r as [a01 u1]. destruct r0 as [a02 u2]. destruct (ap_lin_step _ _ _ _ _ _ _ _ _ _ A0 E E0) as (a03 & P0 & Q0).
  replace (lc x1 x2 + lc i1 i2) with (lc (x1 + i1) (x2 + i2)) by (unfold lc; ring). rewrite P0. cbn [obind].
  ok H1. ok H2. destruct r as [a11 w1]. destruct r0 as [a12 w2]. destruct (ap_lin_step _ _ _ _ _ _ _ _ _ _ A1 E1 E2) as (a13 & P1 & Q1). rewrite P1. cbn [obind].
  unfold op_lowpass, op_highpass in *. cbv zeta in *.
  injection T1 as T11 T12 T13 T14. injection T2 as T21 T22 T23 T24.
  ok H1. ok H2. destruct r as [d1 [[z1 tl1] tr1]]. destruct r0 as [d2 [[z2 tl2] tr2]]. rewrite T11, T12 in E3. rewrite T21, T22 in E4.
  destruct (ad_lin_step _ _ _ _ _ _ _ _ _ _ _ _ _ _ _ _ Dl E3 E4) as (d3 & Pd & Qd).
  match type of Pd with ad_process _ ?u _ _ _ = _ => match goal with |- context[ad_process _ ?w _ _ _] => replace w with u by (rewrite Hh, Hl; unfold lc; ring) end end.
  rewrite Pd. cbn [obind]. injection H1 as <- <- <- <-. injection H2 as <- <- <- <-.
  eexists. split.
  - apply f_equal. apply f_equal2; [apply f_equal2; [reflexivity|unfold lc; ring]|]. rewrite T13, T14, T23, T24. apply f_equal2; unfold lc; ring.
  - unfold blk_lin. simpl. rewrite Hh, Hl. split; [exact Q0|]. split; [exact Q1|]. split; [unfold lc; ring|]. split; [unfold lc; ring|]. split; [exact Qd|].
    split; congruence.
Qed.
Lemma blks_lin_step : forall q lfos i1 i2 b1 b2 b3 x1 x2 ol1 or1 ol2 or2 b1' b2' y1 y2 l1 r1 l2 r2, all3 blk_lin b1 b2 b3 ->
  do_blocks q lfos i1 b1 x1 ol1 or1 = Ok (b1', y1, (l1, r1)) -> do_blocks q lfos i2 b2 x2 ol2 or2 = Ok (b2', y2, (l2, r2)) ->
  exists b3', do_blocks q lfos (lc i1 i2) b3 (lc x1 x2) (lc ol1 ol2) (lc or1 or2) = Ok (b3', lc y1 y2, (lc l1 l2, lc r1 r2)) /\ all3 blk_lin b1' b2' b3'.
Proof.
  induction lfos as [|lfo lfos IH]; intros i1 i2 b1 b2 b3 x1 x2 ol1 or1 ol2 or2 b1' b2' y1 y2 l1 r1 l2 r2 L H1 H2.
  - destruct b1, b2, b3; simpl in L; try contradiction; simpl in *; injection H1 as <- <- <- <-; injection H2 as <- <- <- <-; eexists; (split; [reflexivity|]); exact L.
  - destruct b1 as [|c1 b1], b2 as [|c2 b2], b3 as [|c3 b3]; simpl in L; try contradiction.
    + simpl in *; injection H1 as <- <- <- <-; injection H2 as <- <- <- <-; eexists; (split; [reflexivity|]); exact L.
    + destruct L as [Lc Lb]. simpl in H1, H2. ok H1. ok H2. destruct r as [[e1 u1] [tl1 tr1]]. destruct r0 as [[e2 u2] [tl2 tr2]].
      destruct (blk_lin_step _ _ _ _ _ _ _ _ _ _ _ _ _ _ _ _ _ Lc E E0) as (e3 & Pe & Qe).
      ok H1. ok H2. destruct r as [[f1 g1] [h1 k1]]. destruct r0 as [[f2 g2] [h2 k2]]. injection H1 as <- <- <- <-. injection H2 as <- <- <- <-.
      destruct (IH _ _ _ _ _ _ _ _ _ _ _ _ _ _ _ _ _ _ _ Lb E1 E2) as (f3 & Pf & Qf).
      simpl do_blocks. rewrite Pe. cbn [obind].
      replace (lc ol1 ol2 + lc tl1 tl2) with (lc (ol1 + tl1) (ol2 + tl2)) by (unfold lc; ring).
      replace (lc or1 or2 + lc tr1 tr2) with (lc (or1 + tr1) (or2 + tr2)) by (unfold lc; ring).
      rewrite Pf. cbn [obind]. eexists. split; [reflexivity|]. split; assumption.
Qed.
Lemma diff_lin_step : forall c l1 l2 l3 x1 x2 l1' l2' y1 y2, all3 ap_lin l1 l2 l3 -> diffuse c l1 x1 = Ok (l1', y1) -> diffuse c l2 x2 = Ok (l2', y2) ->
  exists l3', diffuse c l3 (lc x1 x2) = Ok (l3', lc y1 y2) /\ all3 ap_lin l1' l2' l3'.
Proof.
  induction l1 as [|a1 l1 IH]; intros l2 l3 x1 x2 l1' l2' y1 y2 L H1 H2; destruct l2 as [|a2 l2], l3 as [|a3 l3]; simpl in L; try contradiction.
  - simpl in *. injection H1 as <- <-. injection H2 as <- <-. eexists. split; [reflexivity|exact I].
  - destruct L as [La Ll]. simpl in H1, H2. ok H1. ok H2. destruct r as [e1 u1]. destruct r0 as [e2 u2].
    destruct (ap_lin_step _ _ _ _ _ _ _ _ _ _ La E E0) as (e3 & Pe & Qe).
    ok H1. ok H2. destruct r as [f1 g1]. destruct r0 as [f2 g2]. injection H1 as <- <-. injection H2 as <- <-.
    destruct (IH _ _ _ _ _ _ _ _ Ll E1 E2) as (f3 & Pf & Qf). simpl. rewrite Pe. cbn [obind]. rewrite Pf. cbn [obind]. eexists. split; [reflexivity|split; assumption].
Qed.
Definition lc2 (p : (R * R) * (R * R)) : R * R := (lc (fst (fst p)) (fst (snd p)), lc (snd (fst p)) (snd (snd p))).
Lemma sample_lin_step : forall t s1 s2 s3 x s1' s2' y1 y2, av_lin s1 s2 s3 -> av_sample t s1 (fst x) = Ok (s1', y1) -> av_sample t s2 (snd x) = Ok (s2', y2) ->
  exists s3', av_sample t s3 (lc2 x) = Ok (s3', lc2 (y1, y2)) /\ av_lin s1' s2' s3'.
Proof.
  intros t s1 s2 s3 x s1' s2' y1 y2 (Li & Lb & Lp & Ls & M1 & M2) H1 H2. unfold av_sample in *. cbv zeta in *.
  assert (V1 : vals_of s1 = vals_of s3) by (unfold smo in M1; injection M1; intros; unfold vals_of; congruence).
  assert (V2 : vals_of s2 = vals_of s3) by (unfold smo in M2; injection M2; intros; unfold vals_of; congruence).
  assert (F1 : v_lfo s1 = v_lfo s3) by (unfold smo in M1; injection M1; intros; congruence).
  assert (F2 : v_lfo s2 = v_lfo s3) by (unfold smo in M2; injection M2; intros; congruence).
  rewrite V1, F1 in H1. rewrite V2, F2 in H2.
  ok H1. ok H2. destruct r as [p1 u1]. destruct r0 as [p2 u2]. destruct (pd_lin_step _ _ _ _ _ _ _ _ _ _ Lp E E0) as (p3 & Pp & Qp).
  replace ((fst (lc2 x) + snd (lc2 x)) * (1 / 2)) with (lc ((fst (fst x) + snd (fst x)) * (1 / 2)) ((fst (snd x) + snd (snd x)) * (1 / 2)))
    by (unfold lc2, lc; simpl; field). rewrite Pp. cbn [obind].
  ok H1. ok H2. destruct r as [d1 w1]. destruct r0 as [d2 w2]. destruct (diff_lin_step _ _ _ _ _ _ _ _ _ _ Li E1 E2) as (d3 & Pd & Qd). rewrite Pd. cbn [obind].
  ok H1. ok H2. destruct r as [[b1 g1] [l1 r1]]. destruct r0 as [[b2 g2] [l2 r2]].
  destruct (blks_lin_step _ _ _ _ _ _ _ _ _ _ _ _ _ _ _ _ _ _ _ _ _ Lb E3 E4) as (b3 & Pb & Qb).
  replace (lc 0 0) with 0 in Pb by (unfold lc; ring). rewrite Ls, Pb. cbn [obind]. injection H1 as <- <-. injection H2 as <- <-.
  eexists. split; [reflexivity|]. unfold av_lin. simpl. repeat (split; [first [assumption | reflexivity]|]).
  unfold smo in *. simpl. injection M1; intros. injection M2; intros. split; congruence.
Qed.
Lemma samples_lin : forall t xs s1 s2 s3 s1' s2' y1 y2, av_lin s1 s2 s3 -> av_samples t s1 (map fst xs) = Ok (s1', y1) -> av_samples t s2 (map snd xs) = Ok (s2', y2) ->
  exists s3', av_samples t s3 (map lc2 xs) = Ok (s3', map lc2 (combine y1 y2)) /\ av_lin s1' s2' s3' /\ length y1 = length xs /\ length y2 = length xs.
Proof.
  induction xs as [|x xs IH]; intros s1 s2 s3 s1' s2' y1 y2 L H1 H2; simpl in H1, H2.
  - injection H1 as <- <-. injection H2 as <- <-. exists s3. auto.
  - ok H1. ok H2. destruct r as [e1 u1]. destruct r0 as [e2 u2]. destruct (sample_lin_step _ _ _ _ _ _ _ _ _ L E E0) as (e3 & Pe & Qe).
    ok H1. ok H2. destruct r as [f1 g1]. destruct r0 as [f2 g2]. injection H1 as <- <-. injection H2 as <- <-.
    destruct (IH _ _ _ _ _ _ _ Qe E1 E2) as (f3 & Pf & Qf & L1 & L2). exists f3. simpl. rewrite Pe. cbn [obind]. rewrite Pf. cbn [obind]. auto.
Qed.
Lemma all3_map_combine : forall A B (P : A -> A -> A -> Prop) (f : A -> B -> A) (tb : list B) l1 l2 l3,
  (forall a b c t, P a b c -> P (f a t) (f b t) (f c t)) -> all3 P l1 l2 l3 ->
  all3 P (map (fun '(a, t) => f a t) (combine l1 tb)) (map (fun '(a, t) => f a t) (combine l2 tb)) (map (fun '(a, t) => f a t) (combine l3 tb)).
Proof.
  induction tb as [|t tb IH]; intros l1 l2 l3 HP H; destruct l1, l2, l3; simpl in *; try contradiction; try exact I. destruct H. split; auto.
Qed.
Lemma calc_lin : forall sr m s1 s2 s3 s1' s2', av_lin s1 s2 s3 -> calc_size sr m s1 = Ok s1' -> calc_size sr m s2 = Ok s2' ->
  exists s3', calc_size sr m s3 = Ok s3' /\ av_lin s1' s2' s3'.
Proof.
  intros sr m s1 s2 s3 s1' s2' (Li & Lb & Lp & Ls & M1 & M2) H1 H2. unfold calc_size in *. destruct (Rlt_dec 0 m); [|discriminate].
  injection H1 as <-. injection H2 as <-. eexists. split; [reflexivity|]. split; [|split; [|split; [|split; [|split]]]]; try assumption.
  - simpl. apply (all3_map_combine allp R ap_lin (fun a ms => ap_set_len a (ms_2_samples sr ms m)) in_table); [|exact Li].
    intros a b c t (A & B & C & D & E). repeat split; assumption.
  - cbn [v_blocks]. apply (all3_map_combine ablock _ blk_lin (fun b t => size_block sr m b t) size_table); [|exact Lb].
    intros a b c [[[[tl tr] l0] l1] d] ((A1 & A2 & A3 & A4 & A5) & (B1 & B2 & B3 & B4 & B5) & C & D & (E1 & E2 & E3 & E4 & E5) & F & G).
    injection F; intros. injection G; intros. unfold blk_lin. simpl. repeat (split; [first [assumption | repeat split; assumption]|]). split; congruence.
Qed.
Lemma control_lin : forall sr p s1 s2 s3 s1' s2', av_lin s1 s2 s3 -> av_control sr p s1 = Ok s1' -> av_control sr p s2 = Ok s2' ->
  exists s3', av_control sr p s3 = Ok s3' /\ av_lin s1' s2' s3'.
Proof.
  intros sr p s1 s2 s3 s1' s2' L H1 H2. unfold av_control in *. ok H1. ok H2. destruct (calc_lin _ _ _ _ _ _ _ L E E0) as (e3 & Pe & Qe). rewrite Pe. cbn [obind].
  destruct Qe as (Li & Lb & Lp & Ls & M1 & M2). unfold smo in *. injection M1; intros. injection M2; intros.
  ok H1. ok H2. replace (v_lfo r) with (v_lfo e3) in E1 by congruence. replace (v_lfo r0) with (v_lfo e3) in E2 by congruence. rewrite E1 in E2. injection E2 as <-. rewrite E1. cbn [obind].
  injection H1 as <-. injection H2 as <-. eexists. split; [reflexivity|]. split; [|split; [|split; [|split; [|split]]]]; try assumption; unfold smo; simpl; congruence.
Qed.
Lemma run_lin : forall sr l s1 s2 s3 s1' s2' y1 y2, av_lin s1 s2 s3 ->
  av_run sr (map (fun '(p, xs) => (p, map fst xs)) l) s1 = Ok (s1', y1) -> av_run sr (map (fun '(p, xs) => (p, map snd xs)) l) s2 = Ok (s2', y2) ->
  exists s3', av_run sr (map (fun '(p, xs) => (p, map lc2 xs)) l) s3 = Ok (s3', map lc2 (combine y1 y2)) /\ length y1 = length y2.
Proof.
  induction l as [|[p xs] l IH]; intros s1 s2 s3 s1' s2' y1 y2 L H1 H2; simpl in H1, H2.
  - injection H1 as <- <-. injection H2 as <- <-. eexists. split; reflexivity.
  - unfold av_process in *. ok H1. ok H2. destruct r as [e1 u1]. destruct r0 as [e2 u2]. ok E. ok E0.
    destruct (control_lin _ _ _ _ _ _ _ L E1 E2) as (c3 & Pc & Qc).
    destruct (samples_lin _ _ _ _ _ _ _ _ _ Qc E E0) as (f3 & Pf & Qf & L1 & L2).
    ok H1. ok H2. destruct r1 as [g1 w1]. destruct r2 as [g2 w2]. injection H1 as <- <-. injection H2 as <- <-.
    destruct (IH _ _ _ _ _ _ _ Qf E3 E4) as (h3 & Ph & Lh). exists h3. simpl. unfold av_process. rewrite Pc. cbn [obind]. rewrite Pf. cbn [obind]. rewrite Ph. cbn [obind].
    split; [|rewrite !app_length; lia]. apply f_equal. apply f_equal2; [reflexivity|].
    rewrite <- map_app. f_equal. clear - L1 L2. revert u2 L2 L1. generalize (length xs). intros n. revert n. induction u1 as [|a u1 IHu]; intros n u2 L2 L1; destruct u2 as [|b u2]; simpl in *; try lia; [reflexivity|].
    f_equal. apply (IHu (n - 1)%nat); lia.
Qed.
End Lin.

(** the sample-by-sample combination a*x + b*y of two stereo signals *)
Definition mix2 (a b : R) (p : (R * R) * (R * R)) : R * R :=
  (a * fst (fst p) + b * fst (snd p), a * snd (fst p) + b * snd (snd p)).
(** From the initial state, for any sequence of blocks with any parameters: the answer to a*x + b*y is a*(answer to x) + b*(answer to y). *)
Theorem C177_superposition : forall sr a b (l : list (avpar * list ((R * R) * (R * R)))) s0 s1 s2 y1 y2,
  av_update sr av_new = Ok s0 ->
  av_run sr (map (fun '(p, xs) => (p, map fst xs)) l) s0 = Ok (s1, y1) ->
  av_run sr (map (fun '(p, xs) => (p, map snd xs)) l) s0 = Ok (s2, y2) ->
  exists s3, av_run sr (map (fun '(p, xs) => (p, map (mix2 a b) xs)) l) s0 = Ok (s3, map (mix2 a b) (combine y1 y2)) /\ length y1 = length y2.
Proof.
  intros sr a b l s0 s1 s2 y1 y2 H0 H1 H2. apply (run_lin a b sr l s0 s0 s0 s1 s2 y1 y2); try assumption.
  unfold av_update, calc_size in H0. destruct (Rlt_dec 0 1); [|discriminate]. injection H0 as <-.
  assert (Z : 0 = lc a b 0 0) by (unfold lc; ring).
  unfold av_lin. simpl. unfold blk_lin, ap_lin, ad_lin, pd_lin. simpl. repeat split; intros; exact Z.
Qed.
(** Only left + right matters. *)
Theorem C177_mono_input : forall sr l l' s, map (fun '(p, xs) => (p, map (fun x : R * R => fst x + snd x) xs)) l = map (fun '(p, xs) => (p, map (fun x : R * R => fst x + snd x) xs)) l' ->
  av_run sr l s = av_run sr l' s.
Proof.
  assert (S1 : forall t xs xs' s, map (fun x : R * R => fst x + snd x) xs = map (fun x : R * R => fst x + snd x) xs' -> av_samples t s xs = av_samples t s xs').
  { induction xs as [|x xs IH]; intros [|x' xs'] s H; try discriminate; [reflexivity|]. injection H as Hx Hr. simpl.
    assert (E : av_sample t s x = av_sample t s x') by (unfold av_sample; rewrite Hx; reflexivity). rewrite E.
    destruct (av_sample t s x') as [[s1 y]|e|]; try reflexivity. simpl. rewrite (IH xs' s1 Hr). reflexivity. }
  induction l as [|[p xs] l IH]; intros [|[p' xs'] l'] s H; try discriminate; [reflexivity|]. simpl in H. injection H as Hp Hx Hr. subst p'. simpl.
  assert (E : av_process sr p s xs = av_process sr p s xs').
  { unfold av_process. destruct (av_control sr p s); try reflexivity. simpl. apply S1. exact Hx. }
  rewrite E. destruct (av_process sr p s xs') as [[s1 y]|e|]; try reflexivity. simpl. rewrite (IH l' s1 Hr). reflexivity.
Qed.
Example C177_witness : mix2 2 3 ((1, 10), (100, 1000)) = (302, 3020). Proof. unfold mix2. simpl. apply f_equal2; ring. Qed.
Print Assumptions C177_superposition.
Print Assumptions C177_mono_input.

(** ** C178: parameter changes glide over a block of 32 samples, except low-frequency damping *)
Definition smoothers_32 (s : averb) : Prop :=
  p_bsinv (v_decay s) = 1 / 32 /\ p_bsinv (v_diff s) = 1 / 32 /\ p_bsinv (v_build s) = 1 / 32 /\ p_bsinv (v_hfc s) = 1 / 32 /\ p_bsinv (v_lfc s) = 1 / 32 /\ p_bsinv (v_mod s) = 1 / 32.
(** the value n samples into the block, from the old setting to the new one *)
Definition ramp (old new : R) (n : nat) : R := old + INR n * ((new - old) / 32).
Definition lip_at (l0 l : lipol) (n : nat) : Prop :=
  p_v l = p_v l0 + INR n * p_dv l0 /\ p_new l = p_new l0 /\ p_bsinv l = p_bsinv l0 /\ p_first l = p_first l0 /\ p_dv l = p_dv l0.
Lemma lip_at_0 : forall l, lip_at l l 0. Proof. intros. unfold lip_at. simpl. repeat split; ring. Qed.
Lemma lip_at_S : forall l0 l n, lip_at (lipol_process l0) l n -> lip_at l0 l (Datatypes.S n).
Proof. intros l0 l n (A & B & C & D & E). unfold lip_at. rewrite A, B, C, D, E, S_INR. simpl. repeat split; ring. Qed.
Lemma samples_smooth : forall t xs s s' ys, av_samples t s xs = Ok (s', ys) ->
  lip_at (v_decay s) (v_decay s') (length xs) /\ lip_at (v_diff s) (v_diff s') (length xs) /\ lip_at (v_build s) (v_build s') (length xs) /\
  lip_at (v_hfc s) (v_hfc s') (length xs) /\ v_lfc s' = v_lfc s /\ lip_at (v_mod s) (v_mod s') (length xs).
Proof.
  induction xs as [|x xs IH]; intros s s' ys H; simpl in H.
  - injection H as <- <-. simpl. repeat (split; [try apply lip_at_0; reflexivity|]). apply lip_at_0.
  - ok H. destruct r as [s1 y]. ok H. destruct r as [s2 y2]. injection H as <- <-. apply IH in E0. unfold av_sample in E. cbv zeta in E. ok E. destruct r as [pre1 i1]. ok E. destruct r as [ins1 i2]. ok E. destruct r as [[bs1 st1] o1].
    injection E as <- <-. simpl in E0. destruct E0 as (A & B & C & D & F & G). simpl length. do 5 (split; [first [exact F | apply lip_at_S; assumption]|]). apply lip_at_S; assumption.
Qed.
Lemma run_smoothers : forall sr l s s' ys, smoothers_32 s -> av_run sr l s = Ok (s', ys) -> smoothers_32 s'.
Proof.
  induction l as [|[p xs] l IH]; intros s s' ys HS H; simpl in H; [injection H as <- <-; exact HS|].
  ok H. destruct r as [s1 y1]. ok H. destruct r as [s2 y2]. injection H as <- <-. apply IH in E0; [exact E0|]. clear IH E0.
  unfold av_process in E. ok E. apply samples_smooth in E. destruct E as (A & B & C & D & F & G).
  unfold av_control in E0. ok E0. ok E0. injection E0 as <-. simpl in *. unfold calc_size in E. destruct (Rlt_dec _ _); [|discriminate]. injection E as <-. simpl in *.
  destruct HS as (S1 & S2 & S3 & S4 & S5 & S6). unfold smoothers_32. rewrite F. unfold lip_at in *. simpl in *.
  destruct A as (_ & _ & A & _), B as (_ & _ & B & _), C as (_ & _ & C & _), D as (_ & _ & D & _), G as (_ & _ & G & _).
  rewrite A, B, C, D, G. repeat split; assumption.
Qed.
Lemma init_smoothers : forall sr s0, av_update sr av_new = Ok s0 -> smoothers_32 s0.
Proof.
  intros sr s0 H. unfold av_update, calc_size in H. destruct (Rlt_dec _ _); [|discriminate]. injection H as <-. assert (E : 1 / INR 32 = 1 / 32) by (replace (INR 32) with 32 by (simpl; lra); reflexivity).
  repeat split; exact E.
Qed.
(** Two blocks with parameters p0 and p1 after any history; n samples into the second one: decay, diffusion, build-up, high
    damping and modulation are on the straight line from p0's value to p1's; low damping is still p0's for every n. *)
Theorem C178_second_block_refuted : forall sr s0 l s p0 xs0 s1 y0 z p1 s2 t xs s3 ys,
  av_update sr av_new = Ok s0 -> av_run sr l s0 = Ok (s, z) ->
  av_process sr p0 s xs0 = Ok (s1, y0) -> av_control sr p1 s1 = Ok s2 -> av_samples t s2 xs = Ok (s3, ys) ->
  let q := vals_of s3 in let n := length xs in
  s_decay q = ramp (decay_factor (r_room p0) (r_decay p0)) (decay_factor (r_room p1) (r_decay p1)) n /\
  s_diff q = ramp (7 / 10 * r_diff p0) (7 / 10 * r_diff p1) n /\
  s_build q = ramp (7 / 10 * r_build p0) (7 / 10 * r_build p1) n /\
  s_hf q = ramp (8 / 10 * r_hf p0) (8 / 10 * r_hf p1) n /\
  s_mod q = ramp (r_mod p0 * sr / 1000 * 5) (r_mod p1 * sr / 1000 * 5) n /\
  s_lf q = 2 / 10 * r_lf p0.
Proof.
  intros sr s0 l s p0 xs0 s1 y0 z p1 s2 t xs s3 ys H0 Hr H1 H2 H3 q n.
  assert (HS : smoothers_32 s1).
  { apply (run_smoothers sr (l ++ [(p0, xs0)]) s0 s1 (z ++ y0)); [eapply init_smoothers; eauto|].
    clear - Hr H1. revert s0 z Hr. induction l as [|[p ys] l IH]; intros s0 z Hr; simpl in Hr.
    - injection Hr as <- <-. simpl. rewrite H1. simpl. rewrite app_nil_r. reflexivity.
    - ok Hr. destruct r as [a b]. ok Hr. destruct r as [c d]. injection Hr as <- <-. simpl. rewrite E. cbn [obind]. rewrite (IH _ _ E0). cbn [obind]. rewrite app_assoc. reflexivity. }
  unfold av_process in H1. ok H1. apply samples_smooth in H1. destruct H1 as (A & B & C & D & F & G).
  assert (N : p_new (v_decay r) = decay_factor (r_room p0) (r_decay p0) /\ p_new (v_diff r) = 7/10 * r_diff p0 /\ p_new (v_build r) = 7/10 * r_build p0 /\
    p_new (v_hfc r) = 8/10 * r_hf p0 /\ p_new (v_lfc r) = 2/10 * r_lf p0 /\ p_new (v_mod r) = r_mod p0 * sr * (1/1000) * 5 /\
    p_first (v_decay r) = false /\ p_first (v_diff r) = false /\ p_first (v_build r) = false /\ p_first (v_hfc r) = false /\ p_first (v_lfc r) = false /\ p_first (v_mod r) = false).
  { unfold av_control in E. ok E. ok E. injection E as <-. simpl. repeat split; reflexivity. }
  destruct N as (N1 & N2 & N3 & N4 & N5 & N6 & F1 & F2 & F3 & F4 & F5 & F6).
  apply samples_smooth in H3. destruct H3 as (A' & B' & C' & D' & F' & G').
  unfold av_control in H2. ok H2. ok H2. injection H2 as <-. unfold calc_size in E0. destruct (Rlt_dec _ _); [|discriminate]. injection E0 as <-.
  unfold lip_at in *. simpl in A', B', C', D', F', G'.
  destruct A as (_ & A1 & _ & A2 & _), B as (_ & B1 & _ & B2 & _), C as (_ & C1 & _ & C2 & _), D as (_ & D1 & _ & D2 & _), G as (_ & G1 & _ & G2 & _).
  rewrite F in F'. rewrite A1, A2, F1, N1 in A'. rewrite B1, B2, F2, N2 in B'. rewrite C1, C2, F3, N3 in C'. rewrite D1, D2, F4, N4 in D'. rewrite G1, G2, F6, N6 in G'.
  destruct HS as (S1 & S2 & S3 & S4 & S5 & S6). unfold q, vals_of. simpl.
  destruct A' as (A' & _), B' as (B' & _), C' as (C' & _), D' as (D' & _), G' as (G' & _). assert (FL : p_v (v_lfc s3) = 2 / 10 * r_lf p0) by (rewrite F'; unfold lipol_new_value; simpl; rewrite F5; exact N5).
  unfold n, ramp. rewrite A', B', C', D', G', FL, S1, S2, S3, S4, S6. simpl. repeat split; unfold Rdiv; ring.
Qed.
(** so the lag of the low damper is a whole block: it jumps, by the full change, at the next block boundary *)
Theorem C178_jumps : forall s p_lf, p_first s = false -> p_v (lipol_new_value s p_lf) = p_new s.
Proof. intros s x H. unfold lipol_new_value. rewrite H. reflexivity. Qed.
Example C178_witness : ramp 1 33 16 = 17. Proof. unfold ramp. simpl. lra. Qed.
Print Assumptions C178_second_block_refuted.

(** ** C179: decay time *)
(** number of times a signal passes the decay multiplier in t seconds: the four delays of a loop add up to 550.8 ms times the room scale *)
Definition passes (room t : R) : R := 4 * t / (5508 / 10000 * room_scale room).
Theorem C179_loop_time : fold_right Rplus 0 (map (fun '(_, _, _, _, d) => d) size_table) = 1000 * (5508 / 10000).
Proof. unfold size_table. simpl. lra. Qed.
Lemma av_db60_val : av_db60 = 1 / 1000.
Proof.
  unfold av_db60. replace (5 / 100 * -60) with (- (INR 3)) by (simpl; lra). rewrite Rpower_Ropp, Rpower_pow by lra. simpl. lra.
Qed.
(** After 2^DecayTime seconds the multiplications have brought the level down by 60 dB, for every room size. *)
Theorem C179_minus_60_dB : forall room decay_time, Rpower (decay_factor room decay_time) (passes room (Rpower 2 decay_time)) = 1 / 1000.
Proof.
  intros room t. unfold decay_factor, passes. rewrite Rpower_mult. rewrite av_db60_val.
  assert (H1 : 0 < room_scale room) by (unfold room_scale; apply exp_pos). assert (H2 : 0 < Rpower 2 t) by apply exp_pos.
  replace (5508 / 10000 * room_scale room / (4 * Rpower 2 t) * (4 * Rpower 2 t / (5508 / 10000 * room_scale room))) with 1 by (field; lra).
  apply Rpower_1. lra.
Qed.
(** it is always between 0 and 1, so the loop is lossy *)
Theorem C179_factor_below_1 : forall room decay_time, 0 < decay_factor room decay_time < 1.
Proof.
  intros room t. split; [unfold decay_factor; apply exp_pos|]. unfold decay_factor. rewrite av_db60_val.
  assert (H1 : 0 < room_scale room) by (unfold room_scale; apply exp_pos). assert (H2 : 0 < Rpower 2 t) by apply exp_pos.
  unfold Rpower at 1. apply (Rlt_le_trans _ (exp 0)); [|rewrite exp_0; lra]. apply exp_increasing.
  assert (0 < 5508 / 10000 * room_scale room / (4 * Rpower 2 t)) by (apply Rdiv_lt_0_compat; lra).
  assert (L : ln (1 / 1000) < 0) by (apply (Rlt_le_trans _ (ln 1)); [apply ln_increasing; lra|rewrite ln_1; lra]). pose proof (Rmult_lt_compat_l _ _ _ H L). lra.
Qed.
(** a longer decay time never shortens the tail, a bigger room never makes a single pass lose less *)
Theorem C179_monotone : forall room t t', t <= t' -> decay_factor room t <= decay_factor room t'.
Proof.
  intros room t t' H. unfold decay_factor. rewrite av_db60_val.
  assert (H1 : 0 < room_scale room) by (unfold room_scale; apply exp_pos). assert (H2 : 0 < Rpower 2 t) by apply exp_pos.
  assert (H3 : Rpower 2 t <= Rpower 2 t') by (apply Rle_Rpower; lra).
  assert (L : ln (1 / 1000) < 0) by (apply (Rlt_le_trans _ (ln 1)); [apply ln_increasing; lra|rewrite ln_1; lra]).
  assert (K : 5508 / 10000 * room_scale room / (4 * Rpower 2 t') <= 5508 / 10000 * room_scale room / (4 * Rpower 2 t)).
  { unfold Rdiv. apply Rmult_le_compat_l; [lra|]. apply Rinv_le_contravar; lra. }
  unfold Rpower at 1 3. destruct (Req_dec (5508 / 10000 * room_scale room / (4 * Rpower 2 t')) (5508 / 10000 * room_scale room / (4 * Rpower 2 t))) as [->|N]; [lra|].
  left. apply exp_increasing. assert (K' : 5508 / 10000 * room_scale room / (4 * Rpower 2 t') < 5508 / 10000 * room_scale room / (4 * Rpower 2 t)) by (destruct K; [assumption|contradiction]). nra.
Qed.
Example C179_witness : decay_factor 0 0 = Rpower (1/1000) (1377 / 10000).
Proof. unfold decay_factor, room_scale. rewrite av_db60_val. rewrite Rmult_0_r, !Rpower_O by lra. f_equal. lra. Qed.
Print Assumptions C179_loop_time.
Print Assumptions C179_minus_60_dB.
Print Assumptions C179_factor_below_1.
Print Assumptions C179_monotone.
