(* AdsrProps.v - C45 the envelope of a voice (digital mode), C84 its analog mode. *)
From Coq Require Import Reals Lra.
From Verif Require Import Base Util F32 BlockModel MathModel ParamModel RampProps LagProps AdsrModel.
Local Open Scope Z_scope.

(* n blocks in a row *)
Fixpoint blocks (n : nat) (f : adsr -> res adsr) (a : adsr) : res adsr :=
  match n with O => Ok a | S k => obind (blocks k f a) f end.

(* what happens to an envelope: a block is processed (with whatever the parameters are then), or it is triggered,
   released, quickly released, retriggered *)
Inductive aevent := EvBlock (e : aenv) | EvAttack (e : aenv) | EvRelease | EvUber | EvRetrigger (e : aenv).
Definition astep (g : adsr -> res R) (a : adsr) (ev : aevent) : res adsr :=
  match ev with
  | EvBlock e => adsr_process_block g e a
  | EvAttack e => adsr_attack e a
  | EvRelease => adsr_release g a
  | EvUber => adsr_uber_release g a
  | EvRetrigger e => adsr_retrigger e a
  end.

(* parameter values of the right kind for digital mode *)
Definition digital (e : aenv) (at_ de su re : R) (sa sd sr : Z) : Prop :=
  e_mode e = PBool false /\ e_attack e = PFloat at_ /\ e_decay e = PFloat de /\ e_sustain e = PFloat su /\ e_release e = PFloat re /\
  e_attack_shape e = PInt sa /\ e_decay_shape e = PInt sd /\ e_release_shape e = PInt sr.

(* ---------- the code as it is ---------- *)
Definition noerr {A} (m : res A) : Prop := match m with Err _ => False | _ => True end.
Lemma noerr_bind {A B} (m : res A) (k : A -> res B) : noerr m -> (forall v, noerr (k v)) -> noerr (obind m k).
Proof. destruct m as [v|x|]; cbn; auto. Qed.
Lemma noerr_f p : noerr (pvalf p). Proof. destruct p; exact I. Qed.
Lemma noerr_i p : noerr (pvali p). Proof. destruct p; exact I. Qed.
Ltac ne := repeat first [apply noerr_f | apply noerr_i | apply noerr_bind; [|intros ?] | exact I
  | match goal with |- context[if ?b then _ else _] => destruct b end].
Theorem C45_envelope_refuted :
  (forall e a, e_mode e = PBool false -> adsr_process_block get_output_todo e a = Panic) /\
  (forall a, adsr_release get_output_todo a = Panic) /\
  (forall a, adsr_uber_release get_output_todo a = Panic) /\
  (forall g e a, adsr_fresh_env e -> adsr_process_block g e a = Panic).
Proof.
  split; [|split; [|split]].
  - intros e a M. unfold adsr_process_block. rewrite M. cbn [pvalb obind]. unfold process_block_digital.
    assert (P : forall r : res adsr, noerr r -> obind r (adsr_clamp01 get_output_todo) = Panic).
    { intros [x|x|] H; cbn in *; tauto. }
    apply P. destruct (ad_state a).
    + unfold digital_attack, attack_rate. ne.
    + unfold digital_decay, decay_rate, decay_bounds. ne.
    + exact I.
    + unfold digital_release, release_rate, digital_fall. ne.
    + unfold digital_uberrelease, digital_fall. ne.
    + exact I.
    + unfold inc_idle, i32. ne.
  - reflexivity.
  - reflexivity.
  - intros g e a (_ & _ & _ & _ & _ & _ & _ & M). unfold adsr_process_block. rewrite M. reflexivity.
Qed.

(* ---------- with get_output doing what its documentation says ---------- *)
Lemma clampR x lo hi : limit_range_f32 arithR x lo hi = Rmin (Rmax x lo) hi.
Proof. unfold limit_range_f32. rewrite smaxR, sminR. reflexivity. Qed.
Lemma clamp_id x lo hi : (lo <= x <= hi)%R -> Rmin (Rmax x lo) hi = x.
Proof. intros H. rewrite Rmax_left, Rmin_left; lra. Qed.

(* the rates an envelope uses with given parameters *)
Definition rate_of (e : aenv) (x : R) (sync : bool) : R := (e_rate e x * if sync then e_ratio e else 1)%R.
(* parameter values of the right kind and in range: 0 <= sustain <= 1, a valid attack shape, rates of at most one stage per block *)
Definition sane (e : aenv) : Prop := exists at_ de su re am sa sd sr,
  digital e at_ de su re sa sd sr /\ e_attack_min e = PFloat am /\ (0 <= su <= 1)%R /\ 0 <= sa <= 2 /\
  (0 <= rate_of e at_ (e_sync_a e) <= 1)%R /\ (0 <= rate_of e de (e_sync_d e) <= 1)%R /\ (0 <= rate_of e re (e_sync_r e) <= 1)%R /\
  (0 <= e_rate e (-13 / 2) <= 1)%R /\ (forall p, 0 <= p -> 0 <= e_third e p)%R.
Definition sane_event (ev : aevent) : Prop :=
  match ev with EvBlock e | EvAttack e | EvRetrigger e => sane e | _ => True end.

Definition good (k : Z) (a : adsr) : Prop :=
  (0 <= ad_output a <= 1)%R /\ (0 <= ad_scale a <= 1)%R /\ (ad_phase a <= 1)%R /\
  (ad_state a <> ASIdle -> 0 <= ad_phase a)%R /\ 0 <= ad_idle a <= k /\ ad_state a <> ASSustain /\ ad_state a <> ASIdleWait1.

Lemma pow01 p n : (0 <= p <= 1)%R -> (0 <= p ^ n <= 1)%R.
Proof. intros H. induction n; cbn; [lra|]. split; [apply Rmult_le_pos; lra|]. rewrite <- (Rmult_1_r 1). apply Rmult_le_compat; lra. Qed.

(* one digital block *)
Lemma digital_block e at_ de su re sa sd sr a : digital e at_ de su re sa sd sr ->
  adsr_process_block get_output_doc e a =
  obind (match ad_state a with
         | ASAttack => digital_attack e a | ASDecay => digital_decay e a | ASRelease => digital_release e a
         | ASUberRelease => digital_uberrelease e a | ASIdle => inc_idle a | _ => Ok a end)
    (fun b => Ok (set_output b (Rmin (Rmax (ad_output b) 0) 1))).
Proof.
  intros (M & _). unfold adsr_process_block, process_block_digital. rewrite M. cbn [pvalb obind].
  destruct (match ad_state a with ASAttack => _ | _ => _ end); cbn; auto. unfold adsr_clamp01, get_output_doc. cbn. rewrite clampR. reflexivity.
Qed.

Definition attack_curve (shape : Z) (p : R) : R := if shape =? 0 then sqrt p else if shape =? 1 then p else (p * p)%R.
Lemma attack_curve01 sh p : (0 <= p <= 1)%R -> (0 <= attack_curve sh p <= 1)%R.
Proof.
  intros H. unfold attack_curve. destruct (sh =? 0); [|destruct (sh =? 1); [lra|nra]].
  split; [apply sqrt_pos|]. rewrite <- sqrt_1. apply sqrt_le_1; lra.
Qed.
Lemma block_attack e at_ de su re sa sd sr a : digital e at_ de su re sa sd sr -> 0 <= sa <= 2 -> ad_state a = ASAttack ->
  let p := (ad_phase a + rate_of e at_ (e_sync_a e))%R in
  (0 <= p)%R ->
  adsr_process_block get_output_doc e a =
  Ok (if Rle_dec 1 p then set_output (set_sustain (set_state (set_phase a 1) ASDecay) su) 1
      else set_output (set_phase a p) (attack_curve sa p)).
Proof.
  intros D Hs St p Hp. rewrite (digital_block _ _ _ _ _ _ _ _ _ D), St.
  destruct D as (_ & A & _ & S_ & _ & SA & _). unfold digital_attack, attack_rate. rewrite A, S_, SA. cbn [pvalf pvali obind].
  change (e_rate e at_ * tsyncratio e (e_sync_a e))%R with (rate_of e at_ (e_sync_a e)). fold p.
  assert (C : sa = 0 \/ sa = 1 \/ sa = 2) by lia.
  destruct (Rle_dec 1 p); cbn [obind].
  - destruct C as [ -> | [ -> | -> ]]; cbn; rewrite ?sqrt_1, ?Rmult_1_r; rewrite clamp_id by lra; reflexivity.
  - assert (Q := attack_curve01 sa p ltac:(lra)).
    destruct C as [ -> | [ -> | -> ]]; cbn; rewrite clamp_id by exact Q; reflexivity.
Qed.
Lemma block_decay e at_ de su re sa sd sr a : digital e at_ de su re sa sd sr -> ad_state a = ASDecay -> (0 <= su <= 1)%R ->
  exists lo hi, decay_bounds e a (rate_of e de (e_sync_d e)) = Ok (lo, hi) /\
  adsr_process_block get_output_doc e a =
   let p := Rmin (Rmax su lo) hi in Ok (set_output (set_phase a p) (Rmin (Rmax p 0) 1)).
Proof.
  intros D St Hs. rewrite (digital_block _ _ _ _ _ _ _ _ _ D), St.
  destruct D as (_ & _ & De & S_ & _ & _ & SD & _). unfold digital_decay, decay_rate. rewrite De, S_. cbn [pvalf pvali obind].
  change (e_rate e de * tsyncratio e (e_sync_d e))%R with (rate_of e de (e_sync_d e)).
  assert (X : exists lo hi, decay_bounds e a (rate_of e de (e_sync_d e)) = Ok (lo, hi)).
  { unfold decay_bounds. rewrite SD, S_. cbn [pvalf pvali obind]. destruct (sd =? 1); [eauto|]. destruct (sd =? 2); eauto. }
  destruct X as (lo & hi & X). exists lo, hi. split; [exact X|]. rewrite X. cbn [obind fst snd]. rewrite clampR. reflexivity.
Qed.
Lemma block_fall e at_ de su re sa sd sr a rate : digital e at_ de su re sa sd sr ->
  (ad_state a = ASRelease /\ rate = rate_of e re (e_sync_r e) \/ ad_state a = ASUberRelease /\ rate = e_rate e (-13 / 2)) ->
  (0 <= ad_scale a <= 1)%R -> let p := (ad_phase a - rate)%R in (p <= 1)%R ->
  adsr_process_block get_output_doc e a =
  Ok (if Rlt_dec p 0 then set_output (set_state (set_phase a p) ASIdle) 0
      else set_output (set_phase a p) (p ^ S (Z.to_nat sr) * ad_scale a)).
Proof.
  intros D St Hsc p Hp. rewrite (digital_block _ _ _ _ _ _ _ _ _ D).
  assert (E : (match ad_state a with
         | ASAttack => digital_attack e a | ASDecay => digital_decay e a | ASRelease => digital_release e a
         | ASUberRelease => digital_uberrelease e a | ASIdle => inc_idle a | _ => Ok a end) = digital_fall e rate a).
  { destruct D as (_ & _ & _ & _ & Re & _). destruct St as [(-> & ->)|(-> & ->)].
    - unfold digital_release, release_rate. rewrite Re. reflexivity.
    - reflexivity. }
  etransitivity; [apply (f_equal (fun m => obind m _)); exact E|]. destruct D as (_ & _ & _ & _ & _ & _ & _ & SR). unfold digital_fall. rewrite SR. cbn [pvali obind]. fold p.
  destruct (Rlt_dec p 0); cbn.
  - rewrite Rmult_0_l, clamp_id by lra. reflexivity.
  - assert (Q := pow01 p (Z.to_nat sr) ltac:(lra)).
    rewrite clamp_id; [reflexivity|]. assert (0 <= p * p ^ Z.to_nat sr <= 1)%R by nra. nra.
Qed.
Lemma block_idle e at_ de su re sa sd sr a : digital e at_ de su re sa sd sr -> ad_state a = ASIdle -> (0 <= ad_output a <= 1)%R ->
  0 <= ad_idle a < i32_max -> adsr_process_block get_output_doc e a = Ok (set_idle a (ad_idle a + 1)).
Proof.
  intros D St Ho Hi. rewrite (digital_block _ _ _ _ _ _ _ _ _ D), St. unfold inc_idle, i32, i32_min, i32_max in *.
  rewrite (proj2 (Z.leb_le _ _)) by lia. rewrite (proj2 (Z.leb_le _ _)) by lia. cbn. rewrite clamp_id by exact Ho. destruct a; reflexivity.
Qed.

Lemma decay_bounds_good e at_ de su re sa sd sr a lo hi : digital e at_ de su re sa sd sr -> (0 <= su <= 1)%R -> (0 <= ad_phase a <= 1)%R ->
  (forall p, 0 <= p -> 0 <= e_third e p)%R -> (0 <= rate_of e de (e_sync_d e) <= 1)%R ->
  decay_bounds e a (rate_of e de (e_sync_d e)) = Ok (lo, hi) -> (lo <= 1)%R /\ (0 <= hi)%R /\ (0 <= Rmin (Rmax su lo) hi <= 1)%R.
Proof.
  intros (_ & _ & De & S_ & _ & _ & SD & _) Hs Hp Ht Hr. unfold decay_bounds. rewrite SD, S_. cbn [pvalf pvali obind].
  set (r := rate_of e de (e_sync_d e)) in *. set (p := ad_phase a) in *.
  assert (X : forall lo hi, (lo <= 1 -> 0 <= hi -> lo <= 1 /\ 0 <= hi /\ 0 <= Rmin (Rmax su lo) hi <= 1)%R).
  { intros l h H1 H2. repeat split; auto.
    - apply Rmin_glb; auto. eapply Rle_trans; [|apply Rmax_l]. lra.
    - eapply Rle_trans; [apply Rmin_l|]. apply Rmax_lub; lra. }
  pose proof (sqrt_pos p) as Q1. pose proof (sqrt_sqrt p ltac:(lra)) as Q2.
  assert (Q3 : (sqrt p <= 1)%R) by (rewrite <- sqrt_1; apply sqrt_le_1; lra).
  destruct (sd =? 1).
  - intros E. injection E as E1 E2. subst. apply X.
    + destruct (Rlt_dec su (1 / 1000)); [destruct (Rlt_dec p (1 / 10000)); [lra|]|]; nra.
    + nra.
  - destruct (sd =? 2); intros E; injection E as E1 E2; subst.
    + pose proof (Ht p ltac:(lra)) as T. set (c := e_third e p) in *. clearbody c r. apply X.
      * assert (0 <= r * (3 * c * c - 3 * c * r + r * r))%R; [|lra]. apply Rmult_le_pos; [lra|].
        pose proof (Rle_0_sqr (r - 3 / 2 * c)) as Sq. unfold Rsqr in Sq. pose proof (Rle_0_sqr c) as Sc. unfold Rsqr in Sc. lra.
      * assert (0 <= 3 * c * c * r)%R by (repeat apply Rmult_le_pos; lra). assert (0 <= 3 * c * r * r)%R by (repeat apply Rmult_le_pos; lra).
        assert (0 <= r * r * r)%R by (repeat apply Rmult_le_pos; lra). lra.
    + apply X; lra.
Qed.

(* stages as the documentation describes them, for one processed block *)
Definition follows (s s' : astate) : Prop :=
  match s with
  | ASAttack => s' = ASAttack \/ s' = ASDecay
  | ASDecay => s' = ASDecay
  | ASRelease => s' = ASRelease \/ s' = ASIdle
  | ASUberRelease => s' = ASUberRelease \/ s' = ASIdle
  | ASIdle => s' = ASIdle
  | _ => False
  end.
Lemma good_step k a ev : good k a -> k < i32_max -> sane_event ev ->
  exists a', astep get_output_doc a ev = Ok a' /\ good (k + 1) a' /\
    (forall e, ev = EvBlock e -> follows (ad_state a) (ad_state a')).
Proof.
  intros (Ho & Hsc & Hp1 & Hp0 & Hi & N1 & N2) Hk Hev.
  assert (At : forall e, sane e -> exists a', adsr_attack e a = Ok a' /\ good (k + 1) a').
  { intros e (at_ & de & su & re & am & sa & sd & sr & D & AM & _). destruct D as (_ & A & _). unfold adsr_attack. rewrite A, AM. cbn [pvalf obind].
    destruct (Rlt_dec _ _); eexists; (split; [reflexivity|]); unfold good; cbn; repeat split; try lra; try lia; discriminate. }
  destruct ev as [e|e| | |e]; cbn [sane_event astep] in *.
  - destruct Hev as (at_ & de & su & re & am & sa & sd & sr & D & AM & Hs & Hsa & R1 & R2 & R3 & R4 & Ht).
    destruct (ad_state a) eqn:St; try congruence.
    + rewrite (block_attack _ _ _ _ _ _ _ _ _ D Hsa St) by (specialize (Hp0 ltac:(discriminate)); lra).
      specialize (Hp0 ltac:(discriminate)). set (p := (ad_phase a + _)%R). assert (0 <= p)%R by (unfold p; lra).
      eexists. split; [reflexivity|]. destruct (Rle_dec 1 p); unfold good; cbn; split; try (intros ? _; tauto).
      * repeat split; try lra; try lia; discriminate.
      * pose proof (attack_curve01 sa p ltac:(lra)). rewrite St. repeat split; try lra; try lia; discriminate.
    + destruct (block_decay _ _ _ _ _ _ _ _ _ D St Hs) as (lo & hi & E1 & E2). rewrite E2. cbv zeta.
      specialize (Hp0 ltac:(discriminate)).
      destruct (decay_bounds_good _ _ _ _ _ _ _ _ _ _ _ D Hs (conj Hp0 Hp1) Ht R2 E1) as (_ & _ & B).
      eexists. split; [reflexivity|]. unfold good; cbn. rewrite St, clamp_id by exact B. split; [|cbn; auto].
      repeat split; try lra; try lia; discriminate.
    + specialize (Hp0 ltac:(discriminate)).
      rewrite (block_fall _ _ _ _ _ _ _ _ _ _ D (or_introl (conj St eq_refl)) Hsc) by lra.
      set (p := (ad_phase a - _)%R). assert (p <= 1)%R by (unfold p; lra).
      eexists. split; [reflexivity|]. destruct (Rlt_dec p 0); unfold good; cbn; split; try (intros ? _; tauto).
      * repeat split; try lra; try lia; try discriminate. congruence.
      * rewrite St. pose proof (pow01 p (Z.to_nat sr) ltac:(lra)).
        assert (0 <= p * p ^ Z.to_nat sr <= 1)%R by nra. repeat split; try nra; try lia; try discriminate.
    + specialize (Hp0 ltac:(discriminate)).
      rewrite (block_fall _ _ _ _ _ _ _ _ _ _ D (or_intror (conj St eq_refl)) Hsc) by lra.
      set (p := (ad_phase a - _)%R). assert (p <= 1)%R by (unfold p; lra).
      eexists. split; [reflexivity|]. destruct (Rlt_dec p 0); unfold good; cbn; split; try (intros ? _; tauto).
      * repeat split; try lra; try lia; try discriminate. congruence.
      * rewrite St. pose proof (pow01 p (Z.to_nat sr) ltac:(lra)).
        assert (0 <= p * p ^ Z.to_nat sr <= 1)%R by nra. repeat split; try nra; try lia; try discriminate.
    + rewrite (block_idle _ _ _ _ _ _ _ _ _ D St Ho) by lia. eexists. split; [reflexivity|].
      unfold good; cbn. rewrite St. split; [|cbn; auto]. repeat split; try lra; try lia; try discriminate. congruence.
  - destruct (At e Hev) as (a' & E & G). exists a'. repeat split; auto; try apply G. discriminate.
  - eexists. split; [reflexivity|]. unfold good; cbn. split; [repeat split; try lra; try lia; discriminate|discriminate].
  - eexists. split; [reflexivity|]. unfold good; cbn. split; [repeat split; try lra; try lia; discriminate|discriminate].
  - unfold adsr_retrigger. destruct (_ <? _).
    + destruct (At e Hev) as (a' & E & G). exists a'. repeat split; auto; try apply G. discriminate.
    + exists a. split; [reflexivity|]. split; [|discriminate]. unfold good. repeat split; try lra; try lia; auto; try apply Hp0; auto.
Qed.

(* every history: it runs, the output stays in [0,1], the phase stays in [0,1] until the envelope is idle *)
Theorem C45_range_partial : forall evs, Z.of_nat (length evs) <= i32_max -> Forall sane_event evs ->
  exists a, foldM (astep get_output_doc) evs adsr_new = Ok a /\ (0 <= ad_output a <= 1)%R /\ (ad_phase a <= 1)%R /\
    (ad_state a <> ASIdle -> 0 <= ad_phase a)%R.
Proof.
  assert (X : forall evs k a, good k a -> k + Z.of_nat (length evs) <= i32_max -> Forall sane_event evs ->
     exists a', foldM (astep get_output_doc) evs a = Ok a' /\ good (k + Z.of_nat (length evs)) a').
  { induction evs as [|ev evs IH]; intros k a G H F.
    - exists a. rewrite Z.add_0_r. auto.
    - inversion F as [|? ? F1 F2]; subst. cbn [length] in H.
      destruct (good_step k a ev G ltac:(lia) F1) as (a1 & E & G1 & _). cbn [foldM]. rewrite E. cbn [obind].
      destruct (IH (k + 1) a1 G1 ltac:(lia) F2) as (a' & E' & G'). exists a'. split; auto.
      replace (k + Z.of_nat (length (ev :: evs))) with (k + 1 + Z.of_nat (length evs)) by (cbn [length]; lia). auto. }
  intros evs H F. destruct (X evs 0 adsr_new) as (a & E & G); auto.
  - unfold good. cbn. repeat split; try lra; try lia; discriminate.
  - exists a. split; auto. destruct G as (G1 & _ & G2 & G3 & _). auto.
Qed.
(* and every block follows the documented order of stages *)
Theorem C45_stage_order_partial : forall evs e a a', Z.of_nat (length evs) < i32_max -> Forall sane_event evs -> sane e ->
  foldM (astep get_output_doc) evs adsr_new = Ok a -> adsr_process_block get_output_doc e a = Ok a' ->
  follows (ad_state a) (ad_state a').
Proof.
  assert (X : forall evs k a, good k a -> k + Z.of_nat (length evs) <= i32_max -> Forall sane_event evs ->
     forall a', foldM (astep get_output_doc) evs a = Ok a' -> good (k + Z.of_nat (length evs)) a').
  { induction evs as [|ev evs IH]; intros k a G H F a' E.
    - cbn in E. injection E as <-. rewrite Z.add_0_r. auto.
    - inversion F as [|? ? F1 F2]; subst. cbn [length] in H.
      destruct (good_step k a ev G ltac:(lia) F1) as (a1 & E1 & G1 & _). cbn [foldM] in E. rewrite E1 in E. cbn [obind] in E.
      replace (k + Z.of_nat (length (ev :: evs))) with (k + 1 + Z.of_nat (length evs)) by (cbn [length]; lia).
      apply (IH (k + 1) a1 G1 ltac:(lia) F2 a' E). }
  intros evs e a a' H F Se E E'.
  assert (G0 : good 0 adsr_new) by (unfold good; cbn; repeat split; try lra; try lia; discriminate).
  pose proof (X evs 0 adsr_new G0 ltac:(lia) F a E) as G. rewrite Z.add_0_l in G.
  destruct (good_step _ a (EvBlock e) G ltac:(lia) Se) as (a2 & E2 & _ & Fo). cbn [astep] in E2. rewrite E' in E2. injection E2 as <-.
  apply (Fo e eq_refl).
Qed.

(* moving from x towards y by at most d, stopping exactly on y *)
Definition glide (x y d : R) : R := if Rle_dec x y then Rmin y (x + d) else Rmax y (x - d).
Ltac rm := unfold Rmin, Rmax in *; repeat match goal with
  | |- context[Rle_dec ?a ?b] => destruct (Rle_dec a b)
  | H : context[Rle_dec ?a ?b] |- _ => destruct (Rle_dec a b) end.
Lemma glide_glide x y d r : (0 <= d)%R -> (0 <= r)%R -> glide (glide x y d) y r = glide x y (d + r).
Proof.
  intros Hd Hr. unfold glide. destruct (Rle_dec x y).
  - assert (Rmin y (x + d) <= y)%R by apply Rmin_l. destruct (Rle_dec (Rmin y (x + d)) y); [|lra]. rm; lra.
  - assert (y <= Rmax y (x - d))%R by apply Rmax_l. destruct (Rle_dec (Rmax y (x - d)) y); rm; lra.
Qed.
Lemma glide_0 x y : glide x y 0 = x.
Proof. unfold glide. destruct (Rle_dec x y); rm; lra. Qed.
Lemma glide_pos x y d : (0 <= x)%R -> (0 <= y)%R -> (0 <= d)%R -> (0 <= glide x y d)%R.
Proof. intros. unfold glide. destruct (Rle_dec x y); rm; lra. Qed.
Lemma glide_end x y d : (Rabs (x - y) <= d)%R -> glide x y d = y.
Proof. intros H. unfold glide. assert (-d <= x - y <= d)%R by (split; [|]; apply Rabs_def2 in H || (revert H; unfold Rabs; destruct (Rcase_abs _); intros; lra)). destruct (Rle_dec x y); rm; lra. Qed.

Lemma first_cross r : (0 < r)%R -> exists n, (INR n * r < 1 <= INR (S n) * r)%R.
Proof.
  intros Hr.
  assert (X : forall m, (1 <= INR m * r)%R -> exists n, (INR n * r < 1 <= INR (S n) * r)%R).
  { induction m; intros H; [cbn in H; lra|]. destruct (Rlt_le_dec (INR m * r) 1); [exists m; auto|auto]. }
  apply (X (Z.to_nat (up (/ r)))). pose proof (archimed (/ r)) as (A & _). pose proof (Rinv_0_lt_compat r Hr).
  rewrite INR_IZR_INZ, Z2Nat.id by (apply le_IZR; lra).
  apply Rmult_le_reg_r with (/ r)%R; auto. rewrite Rmult_assoc, Rinv_r by lra. lra.
Qed.

(* attack: the phase rises by the rate each block; the first block on which it would reach 1 ends the attack at output 1 *)
Theorem C45_attack_partial : forall e at_ de su re am sa sd sr a0,
  digital e at_ de su re sa sd sr -> e_attack_min e = PFloat am -> 0 <= sa <= 2 ->
  let r := rate_of e at_ (e_sync_a e) in
  (0 < r)%R -> (1 / 100 <= at_ - am)%R ->
  exists a, adsr_attack e a0 = Ok a /\
  (forall n, (INR n * r < 1)%R -> exists a', blocks n (adsr_process_block get_output_doc e) a = Ok a' /\
     ad_state a' = ASAttack /\ ad_output a' = if (0 <? n)%nat then attack_curve sa (INR n * r) else 0%R) /\
  (exists n a', (INR n * r < 1 <= INR (S n) * r)%R /\ blocks (S n) (adsr_process_block get_output_doc e) a = Ok a' /\
     ad_state a' = ASDecay /\ ad_output a' = 1%R).
Proof.
  intros e at_ de su re am sa sd sr a0 D AM Hsa r Hr Hm.
  assert (A : e_attack e = PFloat at_) by apply D.
  unfold adsr_attack. rewrite A, AM. cbn [pvalf obind]. destruct (Rlt_dec _ _) as [|Hnl]; [lra|].
  eexists. split; [reflexivity|]. set (a := set_state _ _).
  assert (X : forall n, (INR n * r < 1)%R -> exists a', blocks n (adsr_process_block get_output_doc e) a = Ok a' /\
     ad_state a' = ASAttack /\ ad_phase a' = (INR n * r)%R /\ ad_output a' = if (0 <? n)%nat then attack_curve sa (INR n * r) else 0%R).
  { intros k. induction k as [|k IHn]; intros H.
    - exists a. cbn. repeat split; auto. lra.
    - pose proof (pos_INR k). rewrite S_INR in *. destruct IHn as (a1 & E & S1 & P1 & _); [nra|]. cbn [blocks]. rewrite E. cbn [obind].
      rewrite (block_attack _ _ _ _ _ _ _ _ _ D Hsa S1); fold r; rewrite P1; [|nra].
      destruct (Rle_dec 1 _); [exfalso; nra|]. eexists. split; [reflexivity|]. cbn. rewrite S1. repeat split; auto.
      + lra. + f_equal. lra. }
  split.
  - intros n H. destruct (X n H) as (a' & H1 & H2 & _ & H3). eauto.
  - destruct (first_cross r Hr) as (n & Hn). destruct (X n (proj1 Hn)) as (a1 & E & S1 & P1 & _).
    exists n. eexists. split; [exact Hn|]. cbn [blocks]. rewrite E. cbn [obind].
    rewrite (block_attack _ _ _ _ _ _ _ _ _ D Hsa S1); fold r; rewrite P1; [|pose proof (pos_INR n); nra].
    rewrite S_INR in Hn. destruct (Rle_dec 1 _); [|exfalso; nra]. split; [reflexivity|]. cbn. auto.
Qed.

(* decay: the level (its square root, its cube root, for the curved shapes) moves linearly to sustain's and stops exactly there *)
Definition decay_curve (shape : Z) (x : R) : R := if shape =? 1 then (x * x)%R else if shape =? 2 then (x * x * x)%R else x.
Lemma cube_mono x y : (x <= y)%R -> (x * x * x <= y * y * y)%R.
Proof.
  intros H. assert (0 <= (y - x) * (x * x + x * y + y * y))%R; [|lra]. apply Rmult_le_pos; [lra|].
  pose proof (Rle_0_sqr (x + y / 2)) as A. pose proof (Rle_0_sqr y) as B. unfold Rsqr in *. lra.
Qed.
Theorem C45_decay_partial : forall e at_ de su re sa sd sr a x y n,
  digital e at_ de su re sa sd sr -> (0 <= su <= 1)%R ->
  let r := rate_of e de (e_sync_d e) in (0 <= r)%R ->
  ad_state a = ASDecay -> (0 <= ad_phase a <= 1)%R ->
  (0 <= x)%R -> (0 <= y)%R -> ad_phase a = decay_curve sd x -> su = decay_curve sd y ->
  (forall p, 0 <= p -> 0 <= e_third e p /\ e_third e p * e_third e p * e_third e p = p)%R -> (* an exact cube root *)
  (sd = 1 -> (1 / 1000 <= su /\ r <= y)%R) ->
  exists a', blocks n (adsr_process_block get_output_doc e) a = Ok a' /\ ad_state a' = ASDecay /\
    ad_phase a' = decay_curve sd (glide x y (INR n * r)) /\ ((0 < n)%nat -> ad_output a' = ad_phase a') /\
    (Rabs (x - y) <= INR n * r -> ad_phase a' = su)%R.
Proof.
  intros e at_ de su re sa sd sr a x y n D Hsu r Hr St Hp Hx Hy Ex Ey Ht Hq.
  assert (Mono : forall u v, (0 <= u -> u <= v -> decay_curve sd u <= decay_curve sd v)%R).
  { intros u v H1 H2. unfold decay_curve. destruct (sd =? 1); [nra|]. destruct (sd =? 2); [apply cube_mono; auto|auto]. }
  assert (Inj : forall u v, (0 <= u -> 0 <= v -> decay_curve sd u = decay_curve sd v -> u = v)%R).
  { intros u v H1 H2. unfold decay_curve. destruct (sd =? 1); [intros; nra|]. destruct (sd =? 2); [|auto]. intros E.
    destruct (Rtotal_order u v) as [L|[L|L]]; auto; exfalso.
    - assert (0 < (v - u) * (u * u + u * v + v * v))%R; [|lra]. apply Rmult_lt_0_compat; nra.
    - assert (0 < (u - v) * (u * u + u * v + v * v))%R; [|lra]. apply Rmult_lt_0_compat; nra. }
  assert (Step : forall a1 x1, ad_state a1 = ASDecay -> (0 <= x1)%R -> ad_phase a1 = decay_curve sd x1 -> (decay_curve sd x1 <= 1)%R ->
     exists a2, adsr_process_block get_output_doc e a1 = Ok a2 /\ ad_state a2 = ASDecay /\ ad_phase a2 = decay_curve sd (glide x1 y r) /\
       ad_output a2 = ad_phase a2 /\ (ad_phase a2 <= 1)%R).
  { intros a1 x1 S1 H1 E1 L1. destruct (block_decay _ _ _ _ _ _ _ _ _ D S1 Hsu) as (lo & hi & B & E2). rewrite E2. cbv zeta.
    assert (V : (Rmin (Rmax su lo) hi = decay_curve sd (glide x1 y r))%R).
    { revert B. fold r. unfold decay_bounds. destruct D as (_ & _ & De & S_ & _ & _ & SD & _). rewrite SD, S_. cbn [pvalf pvali obind]. rewrite E1.
      destruct (Z.eqb_spec sd 1) as [->|N1].
      - destruct (Hq eq_refl) as (Q1 & Q2). unfold decay_curve in *. cbn in *.
        rewrite sqrt_square by auto. destruct (Rlt_dec su _); [lra|]. intros E. injection E as <- <-.
        unfold glide. destruct (Rle_dec x1 y); rm; nra.
      - destruct (Z.eqb_spec sd 2) as [->|N2]; intros E; injection E as <- <-; unfold decay_curve in *; cbn in *.
        + destruct (Ht (x1 * x1 * x1)%R) as (T1 & T2); [repeat apply Rmult_le_pos; auto|].
          assert (T3 : e_third e (x1 * x1 * x1)%R = x1) by (apply Inj; auto). rewrite T3.
          replace (x1 * x1 * x1 - 3 * x1 * x1 * r + 3 * x1 * r * r - r * r * r)%R with ((x1 - r) * (x1 - r) * (x1 - r))%R by ring.
          replace (x1 * x1 * x1 + 3 * x1 * x1 * r + 3 * x1 * r * r + r * r * r)%R with ((x1 + r) * (x1 + r) * (x1 + r))%R by ring.
          rewrite Ey. unfold glide. destruct (Rle_dec x1 y) as [C|C].
          * rewrite Rmax_left by (apply cube_mono; lra). destruct (Rle_dec y (x1 + r)).
            -- rewrite !Rmin_left; auto using cube_mono.
            -- rewrite !Rmin_right; try lra; try (apply cube_mono; lra); auto.
          * destruct (Rle_dec (x1 - r) y).
            -- rewrite (Rmax_left y) by auto. rewrite Rmax_left by (apply cube_mono; lra). rewrite Rmin_left; auto. apply cube_mono; lra.
            -- rewrite (Rmax_right y) by lra. rewrite Rmax_right by (apply cube_mono; lra). rewrite Rmin_left; auto. apply cube_mono; lra.
        + unfold decay_curve in *. rewrite (proj2 (Z.eqb_neq sd 1) N1), (proj2 (Z.eqb_neq sd 2) N2) in *. subst su.
          unfold glide. destruct (Rle_dec x1 y); rm; lra. }
    rewrite V. eexists. split; [reflexivity|]. cbn. split; [auto|]. split; [reflexivity|].
    assert (G0 := glide_pos x1 y r H1 Hy Hr).
    assert (P0 : (0 <= decay_curve sd (glide x1 y r))%R).
    { unfold decay_curve. destruct (sd =? 1); [nra|]. destruct (sd =? 2); [repeat apply Rmult_le_pos; auto|auto]. }
    assert (P1 : (decay_curve sd (glide x1 y r) <= 1)%R).
    { destruct (Rle_dec x1 y) as [C|C].
      - apply Rle_trans with (decay_curve sd y); [|rewrite <- Ey; lra]. apply Mono; auto. unfold glide. destruct (Rle_dec x1 y); rm; lra.
      - apply Rle_trans with (decay_curve sd x1); auto. apply Mono; auto. unfold glide. destruct (Rle_dec x1 y); rm; lra. }
    rewrite clamp_id by lra. split; [reflexivity|auto]. }
  assert (X : exists a', blocks n (adsr_process_block get_output_doc e) a = Ok a' /\ ad_state a' = ASDecay /\
    ad_phase a' = decay_curve sd (glide x y (INR n * r)) /\ ((0 < n)%nat -> ad_output a' = ad_phase a') /\ (ad_phase a' <= 1)%R).
  { induction n as [|n IH].
    - exists a. cbn. rewrite Rmult_0_l, glide_0. repeat split; auto; try lia; lra.
    - destruct IH as (a1 & E & S1 & P1 & _ & L1). cbn [blocks]. rewrite E. cbn [obind].
      pose proof (pos_INR n) as Pn.
      destruct (Step a1 (glide x y (INR n * r))) as (a2 & E2 & S2 & P2 & O2 & L2); auto.
      + apply glide_pos; auto. nra.
      + rewrite <- P1. auto.
      + exists a2. split; [exact E2|]. split; [auto|]. split; [|auto]. rewrite P2, glide_glide by nra. f_equal. f_equal. rewrite S_INR. ring. }
  destruct X as (a' & E & S1 & P1 & O1 & _). exists a'. repeat split; auto.
  intros H. rewrite P1, glide_end by auto. auto.
Qed.

(* with the quadratic shape the level swings for ever between two values when it comes within one step of 0 *)
Theorem C45_quadratic_decay_refuted : forall e at_ de su re sa sr a x n,
  digital e at_ de su re sa 1 sr -> (0 <= su <= 1)%R ->
  let r := rate_of e de (e_sync_d e) in
  (1 / 100 <= x)%R -> (x <= r - 1 / 100)%R -> (r <= 1)%R -> (su <= x * x)%R -> (su <= (r - x) * (r - x))%R ->
  ad_state a = ASDecay -> ad_phase a = (x * x)%R ->
  exists a', blocks n (adsr_process_block get_output_doc e) a = Ok a' /\ ad_state a' = ASDecay /\
    ad_phase a' = (if Nat.even n then x * x else (r - x) * (r - x))%R /\ ((0 < n)%nat -> ad_output a' = ad_phase a').
Proof.
  intros e at_ de su re sa sr a x n D Hs r Hx1 Hx2 Hr Q1 Q2 St Ph.
  assert (Step : forall a1 z, ad_state a1 = ASDecay -> ad_phase a1 = (z * z)%R -> (1 / 100 <= z)%R -> (z <= r - 1 / 100)%R -> (su <= (r - z) * (r - z))%R ->
     exists a2, adsr_process_block get_output_doc e a1 = Ok a2 /\ ad_state a2 = ASDecay /\ ad_phase a2 = ((r - z) * (r - z))%R /\ ad_output a2 = ad_phase a2).
  { intros a1 z S1 E1 H1 H2 H3. destruct (block_decay _ _ _ _ _ _ _ _ _ D S1 Hs) as (lo & hi & B & E2). rewrite E2. cbv zeta.
    revert B. fold r. unfold decay_bounds. destruct D as (_ & _ & De & S_ & _ & _ & SD & _). rewrite SD, S_. cbn [pvalf pvali obind Z.eqb Pos.eqb]. rewrite E1.
    rewrite sqrt_square by lra. intros E. injection E as <- <-.
    replace (if Rlt_dec su (1 / 1000) then _ else _) with ((r - z) * (r - z))%R
      by (destruct (Rlt_dec su _); [destruct (Rlt_dec (z * z) _); [exfalso; nra|]|]; ring).
    replace (Rmin _ _) with ((r - z) * (r - z))%R by (rm; nra).
    eexists. split; [reflexivity|]. cbn. rewrite clamp_id by nra. auto. }
  induction n as [|n IH].
  - exists a. cbn. repeat split; auto. lia.
  - destruct IH as (a1 & E & S1 & P1 & _). cbn [blocks]. rewrite E. cbn [obind]. rewrite Nat.even_succ, <- Nat.negb_even. destruct (Nat.even n); cbn [negb] in *.
    + destruct (Step a1 x) as (a2 & H1 & H2 & H3 & H4); auto. exists a2. auto.
    + destruct (Step a1 (r - x)%R) as (a2 & H1 & H2 & H3 & H4); auto; try lra; try (replace (r - (r - x))%R with x by ring; auto; fail).
      exists a2. repeat split; auto. rewrite H3. ring.
Qed.

(* release: the level falls along the chosen curve, the envelope goes idle on the first block past the end, stays silent,
   and reports idle from the following block on *)
Theorem C45_release_partial : forall e at_ de su re sa sd sr a0 (quick : bool),
  digital e at_ de su re sa sd sr -> (0 <= ad_output a0 <= 1)%R -> 0 <= ad_idle a0 ->
  let r := if quick then e_rate e (-13 / 2) else rate_of e re (e_sync_r e) in (0 < r)%R ->
  exists a, (if quick then adsr_uber_release get_output_doc a0 else adsr_release get_output_doc a0) = Ok a /\
  (forall n, (INR n * r <= 1)%R -> exists a', blocks n (adsr_process_block get_output_doc e) a = Ok a' /\
     ad_state a' = (if quick then ASUberRelease else ASRelease) /\
     ((0 < n)%nat -> ad_output a' = (ad_output a0 * (1 - INR n * r) ^ S (Z.to_nat sr))%R)) /\
  (exists n, (INR n * r <= 1 < INR (S n) * r)%R /\
     forall k, ad_idle a0 + Z.of_nat k <= i32_max -> exists a',
       blocks (k + S n) (adsr_process_block get_output_doc e) a = Ok a' /\ ad_state a' = ASIdle /\ ad_output a' = 0%R /\
       ad_idle a' = ad_idle a0 + Z.of_nat k /\ ((0 < k)%nat -> adsr_is_idle a' = true)).
Proof.
  intros e at_ de su re sa sd sr a0 quick D Ho Hi r Hr.
  set (st := if quick then ASUberRelease else ASRelease).
  exists (set_state (set_phase (set_scale a0 (ad_output a0)) 1) st). split; [destruct quick; reflexivity|].
  set (a := set_state _ _).
  assert (R1 : forall b, ad_state b = st -> ad_state b = ASRelease /\ r = rate_of e re (e_sync_r e) \/ ad_state b = ASUberRelease /\ r = e_rate e (-13 / 2)).
  { intros b. unfold st, r. destruct quick; intros ->; auto. }
  assert (X : forall n, (INR n * r <= 1)%R -> exists a', blocks n (adsr_process_block get_output_doc e) a = Ok a' /\ ad_state a' = st /\
     ad_phase a' = (1 - INR n * r)%R /\ ad_scale a' = ad_output a0 /\ ad_idle a' = ad_idle a0 /\
     ((0 < n)%nat -> ad_output a' = (ad_output a0 * (1 - INR n * r) ^ S (Z.to_nat sr))%R)).
  { induction n as [|n IH]; intros H.
    - exists a. cbn. repeat split; auto; [lra|lia].
    - pose proof (pos_INR n). rewrite S_INR in *. destruct IH as (a1 & E & S1 & P1 & C1 & I1 & _); [nra|]. cbn [blocks]. rewrite E. cbn [obind].
      rewrite (block_fall _ _ _ _ _ _ _ _ _ r D (R1 _ S1)); rewrite ?C1, ?P1; auto; [|nra].
      destruct (Rlt_dec _ 0); [exfalso; nra|]. eexists. split; [reflexivity|]. cbn.
      replace (1 - INR n * r - r)%R with (1 - (INR n + 1) * r)%R by ring. repeat split; auto. intros _. ring. }
  split; [intros n H; destruct (X n H) as (a' & ? & ? & ? & ? & ? & ?); eauto|].
  assert (Y : exists n, (INR n * r <= 1 < INR (S n) * r)%R).
  { assert (Z : forall m, (1 < INR m * r)%R -> exists n, (INR n * r <= 1 < INR (S n) * r)%R).
    { induction m; intros H; [cbn in H; lra|]. destruct (Rle_lt_dec (INR m * r) 1); [exists m; auto|auto]. }
    destruct (first_cross r Hr) as (n & Hn). apply (Z (S (S n))). rewrite !S_INR in *. nra. }
  destruct Y as (n & Hn). exists n. split; [exact Hn|]. destruct (X n (proj1 Hn)) as (a1 & E & S1 & P1 & C1 & I1 & _).
  induction k as [|k IH]; intros Hk.
  - cbn [plus blocks]. rewrite E. cbn [obind].
    rewrite (block_fall _ _ _ _ _ _ _ _ _ r D (R1 _ S1)); rewrite ?C1, ?P1; auto; [|pose proof (pos_INR n); nra].
    rewrite S_INR in Hn. destruct (Rlt_dec _ 0); [|exfalso; nra]. eexists. split; [reflexivity|]. cbn. repeat split; auto; lia.
  - destruct IH as (a2 & E2 & S2 & O2 & I2 & _); [lia|]. cbn [plus blocks]. rewrite E2. cbn [obind].
    rewrite (block_idle _ _ _ _ _ _ _ _ _ D S2); [|rewrite O2; lra|lia].
    eexists. split; [reflexivity|]. cbn. repeat split; auto; [lia|]. intros _. unfold adsr_is_idle. cbn. rewrite S2. cbn. apply Z.ltb_lt. lia.
Qed.
Print Assumptions C45_envelope_refuted.
Print Assumptions C45_range_partial.
Print Assumptions C45_stage_order_partial.
Print Assumptions C45_attack_partial.
Print Assumptions C45_decay_partial.
Print Assumptions C45_quadratic_decay_refuted.
Print Assumptions C45_release_partial.

(* ================= C84: analog mode ================= *)
(* parameter values of the right kind; powf of a non-positive exponent is in (0,1] *)
Definition analog (e : aenv) (at_ de su re : R) : Prop :=
  e_mode e = PBool true /\ e_attack e = PFloat at_ /\ e_decay e = PFloat de /\ e_sustain e = PFloat su /\ e_release e = PFloat re /\
  (0 <= su <= 1)%R /\ (forall x, x <= 0 -> 0 < e_pow2 e x <= 1)%R.
Definition analog_event (ev : aevent) : Prop :=
  match ev with
  | EvBlock e => exists at_ de su re, analog e at_ de su re
  | EvAttack e | EvRetrigger e => exists at_ de su re am, analog e at_ de su re /\ e_attack_min e = PFloat am
  | _ => True end.
Lemma coef01 e at_ de su re x sync : analog e at_ de su re -> (0 < coef e x sync <= 1)%R.
Proof. intros H. unfold coef. apply H. apply Rmin_l. Qed.
Definition held (a : adsr) : bool := astate_eqb (ad_state a) ASAttack || astate_eqb (ad_state a) ASDecay.

(* one analog block, by cases *)
Lemma analog_hold e at_ de su re a : analog e at_ de su re -> held a = true -> (0 <= ad_v a <= V_CC)%R ->
  let dis := (if Rlt_dec 1 (ad_vd a) then true else false) || ad_dis a in
  let v' := (if dis then ad_v a + (su * su - ad_v a) * coef e de (e_sync_d e) else ad_v a + (V_CC - ad_v a) * coef e at_ (e_sync_a e))%R in
  adsr_process_block get_output_doc e a = Ok (set_output (set_cap a v' (ad_v a) dis) v').
Proof.
  intros (M & A & De & S_ & Re & Hs & Hp) Hh Hv dis v'. unfold adsr_process_block. rewrite M. cbn [pvalb obind]. unfold process_block_analog.
  rewrite A, De, S_, Re. cbn [pvalf obind]. fold (held a). rewrite Hh. cbn [negb andb]. rewrite andb_true_r. fold dis.
  assert (V : v' = (ad_v a + Rmax 0 ((if dis then 0 else V_CC) - ad_v a) * coef e at_ (e_sync_a e) +
     (if dis && true then (if dis then su * su else V_CC) - ad_v a else Rmin 0 ((if dis then su * su else V_CC) - ad_v a)) * coef e de (e_sync_d e) +
     Rmin 0 (V_CC - ad_v a) * (if astate_eqb (ad_state a) ASUberRelease then 6 else coef e re (e_sync_r e)))%R).
  { unfold v'. destruct dis; cbn [andb].
    - rewrite (Rmax_left 0) by lra. rewrite (Rmin_left 0) by lra. lra.
    - rewrite (Rmax_right 0) by lra. rewrite (Rmin_left 0) by lra. lra. }
  rewrite <- V. reflexivity.
Qed.
Lemma analog_free e at_ de su re a : analog e at_ de su re -> held a = false -> (ad_v a <= V_CC)%R -> 0 <= ad_idle a < i32_max ->
  let cr := (if astate_eqb (ad_state a) ASUberRelease then 6 else coef e re (e_sync_r e))%R in
  let v' := (if Rle_dec 0 (ad_v a) then ad_v a * (1 - cr) else ad_v a * (1 - coef e at_ (e_sync_a e)))%R in
  adsr_process_block get_output_doc e a =
  Ok (if Rlt_dec v' (1 / 1000000) then set_idle (set_output (set_state (set_cap a v' (ad_v a) false) ASIdle) 0) (ad_idle a + 1)
      else set_output (set_cap a v' (ad_v a) false) v').
Proof.
  intros (M & A & De & S_ & Re & Hs & Hp) Hh Hv Hi cr v'. unfold adsr_process_block. rewrite M. cbn [pvalb obind]. unfold process_block_analog.
  rewrite A, De, S_, Re. cbn [pvalf obind]. fold (held a). rewrite Hh. cbn [negb andb]. rewrite andb_false_r. fold cr. cbn [andb negb].
  assert (V : v' = (ad_v a + Rmax 0 (0 - ad_v a) * coef e at_ (e_sync_a e) + Rmin 0 (V_CC - ad_v a) * coef e de (e_sync_d e) +
     Rmin 0 (0 - ad_v a) * cr)%R).
  { unfold v'. rewrite (Rmin_left 0 (V_CC - ad_v a)) by lra. destruct (Rle_dec 0 (ad_v a)).
    - rewrite (Rmax_left 0) by lra. rewrite Rmin_right by lra. lra.
    - rewrite (Rmax_right 0) by lra. rewrite Rmin_left by lra. lra. }
  rewrite <- V. destruct (Rlt_dec v' _); [|reflexivity].
  unfold inc_idle, i32, i32_min, i32_max in *. cbn [ad_idle set_output set_state set_cap]. rewrite (proj2 (Z.leb_le _ _)) by lia. rewrite (proj2 (Z.leb_le _ _)) by lia. reflexivity.
Qed.

(* the supply voltage bounds the output over every history, and the output is never negative *)
Definition agood (k : Z) (a : adsr) : Prop :=
  (0 <= ad_output a <= V_CC)%R /\ (ad_v a <= V_CC)%R /\ (held a = true -> 0 <= ad_v a)%R /\ 0 <= ad_idle a <= k.
Lemma agood_step k a ev : agood k a -> k < i32_max -> analog_event ev -> exists a', astep get_output_doc a ev = Ok a' /\ agood (k + 1) a'.
Proof.
  intros (Ho & Hv & Hh & Hi) Hk Hev.
  assert (At : forall e, (exists at_ de su re am, analog e at_ de su re /\ e_attack_min e = PFloat am) -> exists a', adsr_attack e a = Ok a' /\ agood (k + 1) a').
  { intros e (at_ & de & su & re & am & D & AM). destruct D as (_ & A & _). unfold adsr_attack. rewrite A, AM. cbn [pvalf obind].
    destruct (Rlt_dec _ _); eexists; (split; [reflexivity|]); unfold agood, V_CC; cbn; repeat split; try lra; try lia. }
  destruct ev as [e|e| | |e]; cbn [analog_event astep] in *.
  - destruct Hev as (at_ & de & su & re & D). destruct (held a) eqn:H.
    + specialize (Hh eq_refl). rewrite (analog_hold _ _ _ _ _ _ D H (conj Hh Hv)). eexists. split; [reflexivity|].
      pose proof (coef01 _ _ _ _ _ at_ (e_sync_a e) D) as Ca. pose proof (coef01 _ _ _ _ _ de (e_sync_d e) D) as Cd.
      destruct D as (_ & _ & _ & _ & _ & Hs & _). set (ca := coef e at_ _) in *. set (cd := coef e de _) in *.
      match goal with |- context[set_cap _ ?v _ _] => set (v' := v) end. assert (0 <= v' <= V_CC)%R.
      { unfold v'. assert (0 <= su * su <= 1)%R by nra. unfold V_CC in *. destruct (_ || _); nra. }
      unfold agood. cbn. repeat split; try lra; try lia.
    + rewrite (analog_free _ _ _ _ _ _ D H Hv) by lia. eexists. split; [reflexivity|].
      pose proof (coef01 _ _ _ _ _ at_ (e_sync_a e) D) as Ca. pose proof (coef01 _ _ _ _ _ re (e_sync_r e) D) as Cr.
      set (ca := coef e at_ _) in *. set (cr0 := coef e re _) in *. set (cr := (if astate_eqb _ _ then 6 else cr0)%R).
      assert (Hcr : (0 < cr)%R) by (unfold cr; destruct (astate_eqb _ _); lra).
      set (v' := (if Rle_dec 0 (ad_v a) then _ else _ : R)). assert (V : (v' <= V_CC)%R) by (unfold v', V_CC in *; destruct (Rle_dec 0 _); nra).
      destruct (Rlt_dec v' _); unfold agood; unfold V_CC in *; cbn; repeat split; try lra; try lia; try discriminate.
      all: unfold held in *; cbn in *; rewrite H; discriminate.
  - destruct (At e Hev) as (a' & E & G). eauto.
  - eexists. split; [reflexivity|]. unfold agood; cbn. repeat split; try lra; try lia; try discriminate.
  - eexists. split; [reflexivity|]. unfold agood; cbn. repeat split; try lra; try lia; try discriminate.
  - unfold adsr_retrigger. destruct (_ <? _); [destruct (At e Hev) as (a' & E & G); eauto|]. exists a. split; [reflexivity|].
    unfold agood. repeat split; auto; try lra; lia.
Qed.
Theorem C84_range_partial : forall evs, Z.of_nat (length evs) <= i32_max -> Forall analog_event evs ->
  exists a, foldM (astep get_output_doc) evs adsr_new = Ok a /\ (0 <= ad_output a <= 3 / 2)%R.
Proof.
  assert (X : forall evs k a, agood k a -> k + Z.of_nat (length evs) <= i32_max -> Forall analog_event evs ->
     exists a', foldM (astep get_output_doc) evs a = Ok a' /\ agood (k + Z.of_nat (length evs)) a').
  { induction evs as [|ev evs IH]; intros k a G H F.
    - exists a. rewrite Z.add_0_r. auto.
    - inversion F as [|? ? F1 F2]; subst. cbn [length] in H.
      destruct (agood_step k a ev G ltac:(lia) F1) as (a1 & E & G1). cbn [foldM]. rewrite E. cbn [obind].
      destruct (IH (k + 1) a1 G1 ltac:(lia) F2) as (a' & E' & G'). exists a'. split; auto.
      replace (k + Z.of_nat (length (ev :: evs))) with (k + 1 + Z.of_nat (length evs)) by (cbn [length]; lia). auto. }
  intros evs H F. destruct (X evs 0 adsr_new) as (a & E & G); auto.
  - unfold agood, V_CC. cbn. repeat split; try lra; lia.
  - exists a. split; auto. apply G.
Qed.

(* holding a note: the capacitor charges towards 1.5; after it has passed 1 it charges for one more block and then discharges towards
   the square of sustain. n blocks after the trigger: *)
Lemma charge_n e at_ de su re a n : analog e at_ de su re -> held a = true -> ad_v a = 0%R -> ad_vd a = 0%R -> ad_dis a = false ->
  let c := coef e at_ (e_sync_a e) in let V := fun k => (V_CC * (1 - (1 - c) ^ k))%R in
  (forall k, (S k < n)%nat -> (V k <= 1)%R) ->
  exists a', blocks n (adsr_process_block get_output_doc e) a = Ok a' /\ held a' = true /\ ad_v a' = V n /\ ad_vd a' = V (Nat.pred n) /\
    ad_dis a' = false /\ ((0 < n)%nat -> ad_output a' = V n) /\ ad_state a' = ad_state a.
Proof.
  intros D H V0 Vd0 D0 c V. pose proof (coef01 _ _ _ _ _ at_ (e_sync_a e) D) as C. fold c in C.
  induction n as [|n IH]; intros Hn.
  - exists a. cbn. unfold V. cbn. rewrite V0, Vd0. repeat split; auto; try ring. lia.
  - destruct IH as (a1 & E & H1 & V1 & Vd1 & D1 & _ & S1); [intros; apply Hn; lia|]. cbn [blocks]. rewrite E. cbn [obind].
    pose proof (pow01 (1 - c) n ltac:(lra)) as Pn.
    assert (0 <= V n <= V_CC)%R by (unfold V, V_CC in *; nra).
    rewrite (analog_hold _ _ _ _ _ _ D H1) by (rewrite V1; auto). rewrite D1, Vd1.
    assert (NL : (V (Nat.pred n) <= 1)%R).
    { destruct n; [unfold V, V_CC; cbn; lra|]. cbn. apply Hn. lia. }
    destruct (Rlt_dec 1 _); [lra|]. cbn [orb]. eexists. split; [reflexivity|]. cbn. fold c. rewrite V1.
    assert (Q : (V n + (V_CC - V n) * c = V (S n))%R) by (unfold V; cbn; ring).
    rewrite Q. repeat split; auto.
Qed.
Lemma discharge_n e at_ de su re a n : analog e at_ de su re -> held a = true -> (0 <= ad_v a <= V_CC)%R -> (1 < ad_vd a)%R \/ ad_dis a = true ->
  let c := coef e de (e_sync_d e) in
  exists a', blocks n (adsr_process_block get_output_doc e) a = Ok a' /\ held a' = true /\
    ad_v a' = (su * su + (ad_v a - su * su) * (1 - c) ^ n)%R /\ ((1 < ad_vd a')%R \/ ad_dis a' = true) /\ ((0 < n)%nat -> ad_output a' = ad_v a').
Proof.
  intros D H Hv Hd c. pose proof (coef01 _ _ _ _ _ de (e_sync_d e) D) as C. fold c in C.
  induction n as [|n IH].
  - exists a. cbn. repeat split; auto; [ring|lia].
  - destruct IH as (a1 & E & H1 & V1 & Hd1 & _). cbn [blocks]. rewrite E. cbn [obind].
    assert (Hs : (0 <= su <= 1)%R) by apply D. pose proof (pow01 (1 - c) n ltac:(lra)) as Pn.
    assert (B : (0 <= ad_v a1 <= V_CC)%R).
    { rewrite V1. unfold V_CC in *. assert (0 <= su * su <= 1)%R by nra. nra. }
    rewrite (analog_hold _ _ _ _ _ _ D H1 B).
    replace (_ || ad_dis a1) with true by (destruct Hd1 as [Hd1|Hd1]; [destruct (Rlt_dec 1 (ad_vd a1)); [reflexivity|lra]|rewrite Hd1, orb_true_r; reflexivity]).
    eexists. split; [reflexivity|]. cbn. fold c. repeat split; auto. rewrite V1. ring.
Qed.
Theorem C84_hold_partial : forall e at_ de su re am a0,
  analog e at_ de su re -> e_attack_min e = PFloat am ->
  let ca := coef e at_ (e_sync_a e) in let cd := coef e de (e_sync_d e) in
  exists a N, adsr_attack e a0 = Ok a /\ (0 < N)%nat /\
    (forall n, (0 < n <= S N)%nat -> exists a', blocks n (adsr_process_block get_output_doc e) a = Ok a' /\
        ad_output a' = (3 / 2 * (1 - (1 - ca) ^ n))%R /\ (ad_output a' <= 1 <-> (n < N)%nat)%R) /\
    (forall n, exists a', blocks (n + S N) (adsr_process_block get_output_doc e) a = Ok a' /\
        ad_output a' = (su * su + (3 / 2 * (1 - (1 - ca) ^ S N) - su * su) * (1 - cd) ^ n)%R).
Proof.
  intros e at_ de su re am a0 D AM ca cd.
  assert (A : e_attack e = PFloat at_) by apply D. unfold adsr_attack. rewrite A, AM. cbn [pvalf obind].
  set (a := if Rlt_dec _ _ then _ else _). exists a.
  assert (Ha : held a = true /\ ad_v a = 0%R /\ ad_vd a = 0%R /\ ad_dis a = false) by (unfold a; destruct (Rlt_dec _ _); cbn; auto).
  destruct Ha as (Hh & V0 & Vd0 & D0).
  pose proof (coef01 _ _ _ _ _ at_ (e_sync_a e) D) as Ca. fold ca in Ca. pose proof (coef01 _ _ _ _ _ de (e_sync_d e) D) as Cd. fold cd in Cd.
  set (V := fun k => (V_CC * (1 - (1 - ca) ^ k))%R).
  assert (Mono : forall j k, (j <= k)%nat -> (V j <= V k)%R).
  { intros j k Hjk. induction Hjk; [lra|]. eapply Rle_trans; [exact IHHjk|]. unfold V, V_CC. cbn. pose proof (pow01 (1 - ca) m ltac:(lra)). nra. }
  assert (HN : exists N, (0 < N)%nat /\ (1 < V N)%R /\ forall k, (k < N)%nat -> (V k <= 1)%R).
  { assert (X : forall m, (1 < V m)%R -> exists N, (0 < N)%nat /\ (1 < V N)%R /\ forall k, (k < N)%nat -> (V k <= 1)%R).
    { induction m; intros H; [unfold V in H; cbn in H; lra|]. destruct (Rlt_le_dec 1 (V m)) as [L|L]; [auto|].
      exists (S m). split; [lia|]. split; [auto|]. intros k Hk. eapply Rle_trans; [apply (Mono k m); lia|auto]. }
    destruct (pow_lt_1_zero (1 - ca) ltac:(rewrite Rabs_pos_eq; lra) (1 / 3) ltac:(lra)) as (m & Hm). apply (X m).
    specialize (Hm m ltac:(lia)). pose proof (pow01 (1 - ca) m ltac:(lra)). rewrite Rabs_pos_eq in Hm by lra. unfold V, V_CC. lra. }
  destruct HN as (N & N0 & N1 & N2). exists N. split; [reflexivity|]. split; [auto|]. split.
  - intros n Hn. destruct (charge_n _ _ _ _ _ a n D Hh V0 Vd0 D0) as (a' & E & _ & _ & _ & _ & O & _).
    { intros k Hk. apply N2. lia. }
    exists a'. rewrite O by lia. fold ca. split; [exact E|]. split; [reflexivity|]. fold (V n). split.
    + intros L. destruct (Nat.lt_ge_cases n N); auto. pose proof (Mono N n ltac:(lia)). unfold V in *. lra.
    + intros L. apply N2 in L. unfold V in L. exact L.
  - intros n. destruct (charge_n _ _ _ _ _ a (S N) D Hh V0 Vd0 D0) as (a1 & E1 & H1 & V1 & Vd1 & D1 & O1 & _).
    { intros k Hk. apply N2. lia. }
    fold ca in V1, Vd1, O1. cbn [Nat.pred] in Vd1. fold (V N) in Vd1. fold (V (S N)) in V1, O1.
    pose proof (pow01 (1 - ca) (S N) ltac:(lra)) as PN.
    destruct (discharge_n _ _ _ _ _ a1 n D H1) as (a2 & E2 & H2 & V2 & _ & O2).
    { rewrite V1. unfold V, V_CC. split; nra. }
    { left. lra. }
    exists a2. split.
    + assert (Bl : forall f m k x y, blocks k f x = Ok y -> blocks (m + k) f x = blocks m f y).
      { intros f m k x y Hk. induction m; cbn; [auto|]. rewrite IHm. reflexivity. }
      rewrite (Bl _ n (S N) a a1 E1). exact E2.
    + fold cd in V2. destruct n as [|n].
      * cbn in E2. injection E2 as <-. rewrite O1 by lia. unfold V, V_CC. cbn. ring.
      * rewrite O2 by lia. rewrite V2, V1. unfold V, V_CC. reflexivity.
Qed.
(* so the output of every held note goes above 1 at some block, whatever the settings *)
Theorem C84_exceeds_one_refuted : forall e at_ de su re am a0 a,
  analog e at_ de su re -> e_attack_min e = PFloat am -> adsr_attack e a0 = Ok a ->
  exists n a', blocks n (adsr_process_block get_output_doc e) a = Ok a' /\ (1 < ad_output a')%R.
Proof.
  intros e at_ de su re am a0 a D AM E. destruct (C84_hold_partial e at_ de su re am a0 D AM) as (a1 & N & E1 & N0 & X & _).
  rewrite E in E1. injection E1 as <-. destruct (X N ltac:(lia)) as (a' & B & _ & L). exists N, a'. split; auto.
  destruct (Rle_lt_dec (ad_output a') 1) as [C|C]; auto. apply L in C. lia.
Qed.

(* releasing: the charge falls geometrically; the first block on which it is below 1e-6 makes the envelope idle and silent for good *)
Theorem C84_release_partial : forall e at_ de su re a0 (quick : bool),
  analog e at_ de su re -> (0 <= ad_v a0 <= 3 / 2)%R -> 0 <= ad_idle a0 ->
  let cr := coef e re (e_sync_r e) in
  exists a N, (if quick then adsr_uber_release get_output_doc a0 else adsr_release get_output_doc a0) = Ok a /\
  (quick = true -> N = O) /\
  (forall n, (0 < n <= N)%nat -> exists a', blocks n (adsr_process_block get_output_doc e) a = Ok a' /\
     ad_state a' = ASRelease /\ ad_output a' = (ad_v a0 * (1 - cr) ^ n)%R /\ (1 / 1000000 <= ad_output a')%R) /\
  (forall k, ad_idle a0 + Z.of_nat k < i32_max -> exists a', blocks (k + S N) (adsr_process_block get_output_doc e) a = Ok a' /\
     ad_state a' = ASIdle /\ ad_output a' = 0%R /\ adsr_is_idle a' = true).
Proof.
  intros e at_ de su re a0 quick D Hv Hi cr. pose proof (coef01 _ _ _ _ _ re (e_sync_r e) D) as C. fold cr in C.
  pose proof (coef01 _ _ _ _ _ at_ (e_sync_a e) D) as Ca.
  set (st := if quick then ASUberRelease else ASRelease).
  set (a := set_state (set_phase (set_scale a0 (ad_output a0)) 1) st).
  assert (Ea : (if quick then adsr_uber_release get_output_doc a0 else adsr_release get_output_doc a0) = Ok a) by (unfold a, st; destruct quick; reflexivity).
  assert (Bl : forall f m k x y, blocks k f x = Ok y -> blocks (m + k) f x = blocks m f y).
  { intros f m k x y Hk. induction m; cbn; [auto|]. rewrite IHm. reflexivity. }
  (* once idle with a low charge, always idle *)
  assert (Idle : forall a1 k, ad_state a1 = ASIdle -> ad_output a1 = 0%R -> (ad_v a1 < 1 / 1000000)%R -> 0 < ad_idle a1 -> ad_idle a1 + Z.of_nat k <= i32_max ->
     exists a', blocks k (adsr_process_block get_output_doc e) a1 = Ok a' /\ ad_state a' = ASIdle /\ ad_output a' = 0%R /\ (ad_v a' < 1 / 1000000)%R /\ ad_idle a' = ad_idle a1 + Z.of_nat k).
  { intros a1 k S1 O1 V1 I1. induction k as [|k IH]; intros Hk.
    - exists a1. cbn. repeat split; auto. lia.
    - destruct IH as (a2 & E2 & S2 & O2 & V2 & I2); [lia|]. cbn [blocks]. rewrite E2. cbn [obind].
      rewrite (analog_free _ _ _ _ _ _ D) by (unfold held, V_CC; rewrite ?S2; try reflexivity; try lra; lia).
      rewrite S2. cbn [astate_eqb astate_rank Z.eqb Pos.eqb]. fold cr.
      set (v' := (if Rle_dec 0 (ad_v a2) then _ else _ : R)). assert (v' < 1 / 1000000)%R by (unfold v'; destruct (Rle_dec 0 _); nra).
      destruct (Rlt_dec v' _); [|lra]. eexists. split; [reflexivity|]. cbn. repeat split; auto. lia. }
  assert (Hh : held a = false) by (unfold a, st; destruct quick; reflexivity).
  destruct quick.
  - exists a, O. split; [auto|]. split; [auto|]. split; [intros n Hn; lia|]. intros k Hk.
    assert (E1 : exists a1, blocks 1 (adsr_process_block get_output_doc e) a = Ok a1 /\ ad_state a1 = ASIdle /\ ad_output a1 = 0%R /\ (ad_v a1 < 1 / 1000000)%R /\ ad_idle a1 = ad_idle a0 + 1).
    { cbn [blocks obind]. rewrite (analog_free _ _ _ _ _ _ D Hh) by (unfold a, V_CC; cbn; try lra; lia).
      cbn [ad_state a st set_state astate_eqb astate_rank Z.eqb Pos.eqb ad_v set_phase set_scale ad_idle]. 
      set (v' := (if Rle_dec 0 (ad_v a0) then _ else _ : R)). assert (v' < 1 / 1000000)%R by (unfold v'; destruct (Rle_dec 0 _); lra).
      destruct (Rlt_dec v' _); [|lra]. eexists. split; [reflexivity|]. cbn. auto. }
    destruct E1 as (a1 & E1 & S1 & O1 & V1 & I1). destruct (Idle a1 k S1 O1 V1) as (a2 & E2 & S2 & O2 & V2 & I2); [lia|lia|].
    exists a2. rewrite (Bl _ k 1%nat a a1 E1). repeat split; auto. unfold adsr_is_idle. rewrite S2. cbn. apply Z.ltb_lt. lia.
  - set (F := fun n => (ad_v a0 * (1 - cr) ^ n)%R).
    assert (Mono : forall j k, (j <= k)%nat -> (F k <= F j)%R).
    { intros j k Hjk. induction Hjk; [lra|]. eapply Rle_trans; [|exact IHHjk]. unfold F. cbn. pose proof (pow01 (1 - cr) m ltac:(lra)).
      assert (0 <= ad_v a0 * (1 - cr) ^ m)%R by (apply Rmult_le_pos; lra). nra. }
    assert (HN : exists N, (F (S N) < 1 / 1000000)%R /\ forall k, (0 < k <= N)%nat -> (1 / 1000000 <= F k)%R).
    { assert (X : forall m, (F (S m) < 1 / 1000000)%R -> exists N, (F (S N) < 1 / 1000000)%R /\ forall k, (0 < k <= N)%nat -> (1 / 1000000 <= F k)%R).
      { induction m; intros H.
        - exists O. split; auto. intros k Hk. lia.
        - destruct (Rlt_le_dec (F (S m)) (1 / 1000000)); [auto|]. exists (S m). split; auto. intros k Hk. pose proof (Mono k (S m) ltac:(lia)). lra. }
      destruct (pow_lt_1_zero (1 - cr) ltac:(rewrite Rabs_pos_eq; lra) (1 / 2000000) ltac:(lra)) as (m & Hm). apply (X m).
      specialize (Hm (S m) ltac:(lia)). pose proof (pow01 (1 - cr) (S m) ltac:(lra)). rewrite Rabs_pos_eq in Hm by lra. unfold F. nra. }
    destruct HN as (N & N1 & N2). exists a, N. split; [auto|]. split; [discriminate|].
    assert (Fp : forall n, (0 <= F n <= 3 / 2)%R).
    { intros n. unfold F. pose proof (pow01 (1 - cr) n ltac:(lra)). nra. }
    assert (Run : forall n, (n <= N)%nat -> exists a', blocks n (adsr_process_block get_output_doc e) a = Ok a' /\ ad_state a' = ASRelease /\ ad_v a' = F n /\ ad_idle a' = ad_idle a0 /\ ((0 < n)%nat -> ad_output a' = F n)).
    { induction n as [|n IH]; intros Hn.
      - exists a. unfold F. cbn. repeat split; auto; [ring|lia].
      - destruct IH as (a1 & E1 & S1 & V1 & I1 & _); [lia|]. cbn [blocks]. rewrite E1. cbn [obind].
        destruct (Z.eq_dec (ad_idle a0) i32_max) as [Hm|Hm].
        + (* the count is not touched while sounding *)
          assert (D' := D). destruct D' as (M & A & De & S_ & Re & _). unfold adsr_process_block. rewrite M. cbn [pvalb obind]. unfold process_block_analog.
          rewrite A, De, S_, Re, S1, V1. cbn [pvalf obind astate_eqb astate_rank Z.eqb Pos.eqb orb andb negb]. rewrite andb_false_r. cbn [andb negb]. fold cr.
          pose proof (Fp n) as Fn. rewrite (Rmax_left 0) by lra. rewrite (Rmin_left 0 (V_CC - F n)) by (unfold V_CC; lra). rewrite (Rmin_right 0) by lra.
          replace (F n + 0 * coef e at_ (e_sync_a e) + 0 * coef e de (e_sync_d e) + (0 - F n) * cr)%R with (F (S n)) by (unfold F; cbn; ring).
          pose proof (N2 (S n) ltac:(lia)). destruct (Rlt_dec _ _); [lra|]. eexists. split; [reflexivity|]. cbn. auto.
        + assert (Fn := Fp n).
          destruct (Z_lt_ge_dec (ad_idle a0) i32_max) as [Hlt|Hge].
          * rewrite (analog_free _ _ _ _ _ _ D) by (unfold held, V_CC; rewrite ?S1, ?V1; try reflexivity; try lra; lia).
            rewrite S1, V1. cbn [astate_eqb astate_rank Z.eqb Pos.eqb]. fold cr. destruct (Rle_dec 0 (F n)); [|lra].
            replace (F n * (1 - cr))%R with (F (S n)) by (unfold F; cbn; ring). pose proof (N2 (S n) ltac:(lia)). destruct (Rlt_dec _ _); [lra|].
            eexists. split; [reflexivity|]. cbn. auto.
          * assert (D' := D). destruct D' as (M & A & De & S_ & Re & _). unfold adsr_process_block. rewrite M. cbn [pvalb obind]. unfold process_block_analog.
            rewrite A, De, S_, Re, S1, V1. cbn [pvalf obind astate_eqb astate_rank Z.eqb Pos.eqb orb andb negb]. rewrite andb_false_r. cbn [andb negb]. fold cr.
            rewrite (Rmax_left 0) by lra. rewrite (Rmin_left 0 (V_CC - F n)) by (unfold V_CC; lra). rewrite (Rmin_right 0) by lra.
            replace (F n + 0 * coef e at_ (e_sync_a e) + 0 * coef e de (e_sync_d e) + (0 - F n) * cr)%R with (F (S n)) by (unfold F; cbn; ring).
            pose proof (N2 (S n) ltac:(lia)). destruct (Rlt_dec _ _); [lra|]. eexists. split; [reflexivity|]. cbn. auto. }
    split.
    + intros n Hn. destruct (Run n ltac:(lia)) as (a' & E & S1 & V1 & _ & O1). exists a'. rewrite O1 by lia. repeat split; auto.
    + intros k Hk. destruct (Run N ltac:(lia)) as (a1 & E1 & S1 & V1 & I1 & _).
      assert (E2 : exists a2, blocks (S N) (adsr_process_block get_output_doc e) a = Ok a2 /\ ad_state a2 = ASIdle /\ ad_output a2 = 0%R /\ (ad_v a2 < 1 / 1000000)%R /\ ad_idle a2 = ad_idle a0 + 1).
      { cbn [blocks]. rewrite E1. cbn [obind]. assert (Fn := Fp N).
        rewrite (analog_free _ _ _ _ _ _ D) by (unfold held, V_CC; rewrite ?S1, ?V1; try reflexivity; try lra; lia).
        rewrite S1, V1. cbn [astate_eqb astate_rank Z.eqb Pos.eqb]. fold cr. destruct (Rle_dec 0 (F N)); [|lra].
        replace (F N * (1 - cr))%R with (F (S N)) by (unfold F; cbn; ring). destruct (Rlt_dec _ _); [|lra].
        eexists. split; [reflexivity|]. cbn. rewrite I1. auto. }
      destruct E2 as (a2 & E2 & S2 & O2 & V2 & I2). destruct (Idle a2 k S2 O2 V2) as (a3 & E3 & S3 & O3 & V3 & I3); [lia|lia|].
      exists a3. rewrite (Bl _ k (S N) a a2 E2). repeat split; auto. unfold adsr_is_idle. rewrite S3. cbn. apply Z.ltb_lt. lia.
Qed.
Print Assumptions C84_range_partial.
Print Assumptions C84_hold_partial.
Print Assumptions C84_exceeds_one_refuted.
Print Assumptions C84_release_partial.

(* concrete settings meeting the hypotheses *)
Definition ex_env (mode : bool) (rate su : R) (sa sd sr : Z) : aenv :=
  {| e_attack := PFloat 1%R; e_decay := PFloat 1%R; e_sustain := PFloat su; e_release := PFloat 1%R;
     e_attack_shape := PInt sa; e_decay_shape := PInt sd; e_release_shape := PInt sr; e_mode := PBool mode; e_attack_min := PFloat (-8)%R;
     e_sync_a := false; e_sync_d := true; e_sync_r := false; e_ratio := 1; e_rate := fun _ => rate; e_sr := 44100;
     e_pow2 := fun x => Rpower 2 x; e_log2 := fun x => (ln x / ln 2)%R; e_third := fun x => if Rle_dec x 0 then 0%R else Rpower x (1 / 3) |}.
Example C45_instance : sane (ex_env false (3 / 5) (1 / 4) 2 1 3) /\
  foldM (astep get_output_doc) [EvAttack (ex_env false (3 / 5) (1 / 4) 2 1 3); EvRelease] adsr_new <> Panic /\
  digital (ex_env false (3 / 5) 0 0 1 0) 1 1 0 1 0 1 0 /\
  exists a, adsr_process_block get_output_doc (ex_env false (3 / 5) 0 0 1 0) (set_phase (set_state adsr_new ASDecay) 1) = Ok a /\
    ad_state a = ASDecay /\ ad_phase a = (2 / 5 * (2 / 5))%R. (* from the end of the attack straight into the two-block swing *)
Proof.
  split; [|split; [|split]].
  - exists 1%R, 1%R, (1 / 4)%R, 1%R, (-8)%R, 2, 1, 3. unfold digital, rate_of. cbn. repeat split; auto; try lra; try lia.
    intros p Hp. destruct (Rle_dec p 0); [lra|]. unfold Rpower. left. apply exp_pos.
  - cbn. destruct (Rlt_dec _ _); discriminate.
  - repeat split.
  - assert (D : digital (ex_env false (3 / 5) 0 0 1 0) 1 1 0 1 0 1 0) by repeat split.
    destruct (block_decay _ _ _ _ _ _ _ _ (set_phase (set_state adsr_new ASDecay) 1) D eq_refl ltac:(lra)) as (lo & hi & B & E).
    rewrite E. cbv zeta. eexists. split; [reflexivity|]. split; [reflexivity|]. cbn.
    unfold decay_bounds, rate_of in B. cbn in B. destruct (Rlt_dec 1 _); [lra|]. destruct (Rlt_dec 0 _); [|lra]. rewrite sqrt_1 in B. injection B as <- <-.
    rm; lra.
Qed.
Example C84_instance : analog (ex_env true 0 (1 / 2) 0 0 0) 1 1 (1 / 2) 1.
Proof.
  repeat split; try lra; cbn.
  - intros. unfold Rpower. apply exp_pos.
  - assert (O : Rpower 2 0 = 1%R) by (apply Rpower_O; lra). destruct (Req_dec x 0) as [->|N]; [lra|]. rewrite <- O. left. apply Rpower_lt; lra.
Qed.
