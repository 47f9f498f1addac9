(** Theorems about the diode ladder filter as it is (C284-C286). *)
From Coq Require Import Reals List Lra Psatz Lia.
From Coquelicot Require Rcomplements.
From Verif Require Import Base Util BlockModel MathModel FastProps2 FiltProps DiodeModel DiodeProps.
Import ListNotations.
Local Open Scope R_scope.

(** ** C284: with the coefficients the code makes the loop is not closed: whatever the tuning and resonance, at a state in which only the
    first stage is charged the equation fails for every input *)
Theorem C284_loop_refuted : forall g reso z x, 0 < g -> 0 < reso -> z <> 0 ->
  ~ loop_closed (di_coeffs g reso) x (di_step Rinv (di_coeffs g reso) (mk_dst z 0 0 0 0 0 0) x).
Proof.
  intros g reso z x G Hr Hz. destruct (C283_gains g reso G) as ((I1 & I2 & I3 & I4) & EA & EG & H4 & H3 & H2 & H1 & EK). destruct (di_gains g reso G) as (_ & _ & _ & _ & HA).
  assert (K : 0 < d_k (di_coeffs g reso)). { rewrite EK. apply Rmult_lt_0_compat; [lra|]. apply Rmin_glb_lt; [apply Rlt_le_trans with reso; [exact Hr|apply Rmax_l]|lra]. }
  cbv zeta in *. rewrite <- EA in I1, I2, I3, I4. assert (AG : d_g (di_coeffs g reso) = d_alpha (di_coeffs g reso)) by reflexivity.
  unfold loop_closed. set (c := di_coeffs g reso) in *. clearbody c. destruct c as [al ga gg g4 g3 g2 g1 k]. cbn [d_alpha d_gamma d_g d_g4 d_g3 d_g2 d_g1 d_k] in *. subst gg. clear EA EK.
  unfold di_step. cbv zeta. cbn [d_alpha d_gamma d_g d_g4 d_g3 d_g2 d_g1 d_k z1 z2 z3 z4 fb1 fb2 fb3].
  assert (AG2 : 0 < al * g2 < al * 1) by (split; [apply Rmult_lt_0_compat; lra|apply Rmult_lt_compat_l; lra]).
  set (b1 := / (al + 1 - al * g2)). assert (B1 : b1 * (al + 1 - al * g2) = 1) by (unfold b1; field; lra).
  assert (B1p : 0 < b1) by (apply Rinv_0_lt_compat; lra). assert (B1l : b1 < 1) by (unfold b1; rewrite <- Rinv_1; apply Rinv_lt_contravar; lra). clearbody b1.
  set (b2 := / (al + 1 - al * (1 / 2) * g3)). set (b3 := / (al + 1 - al * (1 / 2) * g4)). set (b4 := / (al + 1)). clearbody b2 b3 b4.
  assert (KG : 0 < k * ga + 1).
  { assert (0 <= ga) by (rewrite EG; repeat apply Rmult_le_pos; lra). assert (0 <= k * ga) by (apply Rmult_le_pos; lra). lra. }
  unfold di_lpf, di_fb. cbv zeta. cbn [fst snd].
  match goal with |- context [(?a - k * ?b) / (k * ga + 1)] => set (sigma := b); set (u := (a - k * sigma) / (k * ga + 1)) end.
  assert (U : u * (k * ga + 1) = (3 / 10 * k + 1) * x - k * sigma) by (unfold u; field; lra). clearbody u.
  assert (Sg : sigma = g4 * g3 * g2 * (b1 * z)) by (unfold sigma; ring). clearbody sigma.
  intros L.
  match type of L with u = _ - k * ?y => assert (Y : y = g4 * g3 * g2 * (g1 * u + z * (1 - al) + al * g2 * (b1 * z))) end.
  { match goal with |- ?l = _ => transitivity (al / 2 * (al / 2 * (1 + g3 * g4)) * (al / 2 * (1 + g2 * g3)) * (al * (1 + g1 * g2) * u + z * (1 - al) + al * g2 * (b1 * z))) end; [field|].
    rewrite <- I1, <- I2, <- I3, <- I4. ring. }
  rewrite Y in L. clear Y. assert (F : k * (g4 * g3 * g2) * (al * (1 - b1) * z) = 0).
  { assert (Q : b1 * z * (al + 1 - al * g2) = z) by (replace (b1 * z * (al + 1 - al * g2)) with (b1 * (al + 1 - al * g2) * z) by ring; rewrite B1; ring).
    assert (W : z * (1 - al) + al * g2 * (b1 * z) = b1 * z - al * (1 - b1) * z) by lra.
    replace (g1 * u + z * (1 - al) + al * g2 * (b1 * z)) with (g1 * u + (z * (1 - al) + al * g2 * (b1 * z))) in L by ring. rewrite W in L. rewrite EG in U. rewrite Sg in U. lra. }
  assert (P : k * (g4 * g3 * g2) * (al * (1 - b1)) <> 0) by (apply Rgt_not_eq; repeat apply Rmult_lt_0_compat; lra).
  apply Hz. apply (Rmult_eq_reg_l (k * (g4 * g3 * g2) * (al * (1 - b1)))); [|exact P]. rewrite Rmult_0_r. rewrite <- F. ring.
Qed.
Print Assumptions C284_loop_refuted.

(** ** C285: the filter is linear, whatever the reciprocal instruction returns *)
Definition comb (a b x y : R) : R := a * x + b * y.
Definition comb_state (a b : R) (s t : dst) : dst :=
  mk_dst (comb a b (z1 s) (z1 t)) (comb a b (z2 s) (z2 t)) (comb a b (z3 s) (z3 t)) (comb a b (z4 s) (z4 t)) (comb a b (fb3 s) (fb3 t)) (comb a b (fb2 s) (fb2 t)) (comb a b (fb1 s) (fb1 t)).
Lemma step_linear rcp c a b s t x y : let o := di_step rcp c s x in let p := di_step rcp c t y in
  di_step rcp c (comb_state a b s t) (comb a b x y) = (comb_state a b (fst o) (fst p), (comb a b (fst (snd o)) (fst (snd p)), comb a b (snd (snd o)) (snd (snd p)))).
Proof.
  cbv zeta. destruct s as [s1 s2 s3 s4 f3 f2 f1], t as [t1 t2 t3 t4 h3 h2 h1]. unfold di_step, comb_state. cbv zeta. cbn [z1 z2 z3 z4 fb3 fb2 fb1].
  set (b1 := rcp (d_g c + 1 - d_g c * d_g2 c)). set (b2 := rcp (d_g c + 1 - d_g c * (1 / 2) * d_g3 c)). set (b3 := rcp (d_g c + 1 - d_g c * (1 / 2) * d_g4 c)). set (b4 := rcp (d_g c + 1)). clearbody b1 b2 b3 b4.
  set (di := / (d_k c * d_gamma c + 1)). unfold Rdiv at 1 2 3 4 5. unfold di_lpf, di_fb, comb. cbv zeta. cbn [fst snd z1 z2 z3 z4 fb3 fb2 fb1].
  apply f_equal2; [|apply f_equal2]; [f_equal|..]; unfold Rdiv; ring.
Qed.
(* two runs with the same coefficients and glide combine to the run of the combination *)
Theorem C285_superposition : forall rcp a b d xs ys c s t, length xs = length ys ->
  let o := di_run rcp (mk_dis c d s) xs in let p := di_run rcp (mk_dis c d t) ys in
  di_run rcp (mk_dis c d (comb_state a b s t)) (map (fun '(x, y) => comb a b x y) (combine xs ys)) =
    (mk_dis (dis_c (fst o)) d (comb_state a b (dis_s (fst o)) (dis_s (fst p))), map (fun '(x, y) => comb a b x y) (combine (snd o) (snd p))).
Proof.
  intros rcp a b d. cbv zeta. induction xs as [|x xs IH]; intros ys c s t L; destruct ys as [|y ys]; try discriminate; [reflexivity|].
  cbn [combine map di_run]. unfold di_process. cbn [dis_c dis_d dis_s]. rewrite step_linear.
  destruct (di_step rcp (di_move c d) s x) as [s' [u o]]. destruct (di_step rcp (di_move c d) t y) as [t' [w p]]. cbn [fst snd].
  rewrite IH by (cbn [length] in L; congruence). destruct (di_run rcp (mk_dis (di_move c d) d s') xs) as [o1 o2]. destruct (di_run rcp (mk_dis (di_move c d) d t') ys) as [p1 p2]. reflexivity.
Qed.
Print Assumptions C285_superposition.
Definition empty_dst : dst := mk_dst 0 0 0 0 0 0 0.
Theorem C285_silence : forall rcp d n c, snd (di_run rcp (mk_dis c d empty_dst) (repeat 0 n)) = repeat 0 n.
Proof.
  intros rcp d. induction n as [|n IH]; intros c; [reflexivity|]. cbn [repeat di_run]. unfold di_process. cbn [dis_c dis_d dis_s].
  assert (S := step_linear rcp (di_move c d) 0 0 empty_dst empty_dst 0 0). cbv zeta in S. unfold comb_state, comb in S. rewrite !Rmult_0_l, Rplus_0_l in S. fold empty_dst in S. rewrite S.
  specialize (IH (di_move c d)). destruct (di_run rcp _ (repeat 0 n)) as [s2 ys]. cbn [snd] in *. rewrite IH. reflexivity.
Qed.
Print Assumptions C285_silence.

(** ** C286: fully open and without resonance the filter is unstable *)
(* the tuning coefficient at the angle 15/16, that is at 0.2984 of the oversampled rate, below the limit of 0.3 *)
Definition g_open : R := 224067672615 / 164505016256.
Lemma g_open_tan : fasttan (15 / 16) = g_open.
Proof. unfold fasttan, g_open. cbv zeta. field. Qed.
Definition c_open : dic := mk_dic (224067672615 / 388572688871) (2520674759841283214168441362041287469266150625 / 124256746326471158437535080949331494000710043873) (224067672615 / 388572688871) (224067672615 / 777145377742) (174133156074154963935330 / 553748616234653048080339) (124077163653475513195377253270216485 / 391325566531148783638868085646426588) (87683408927380846852249362603795293364615487620 / 124256746326471158437535080949331494000710043873) 0.
Lemma c_open_eq : di_coeffs g_open 0 = c_open.
Proof.
  unfold di_coeffs, c_open. cbv zeta. rewrite limR. replace (Rmin (Rmax (0 * 16) 0) 16) with 0 by (rewrite Rmult_0_l, Rmax_left, Rmin_left; lra).
  assert (E4 : 1 / 2 * g_open / (1 + g_open) = (224067672615 / 777145377742)) by (unfold g_open; field). rewrite E4.
  assert (E3 : 1 / 2 * g_open / (1 + g_open - 1 / 2 * g_open * (224067672615 / 777145377742)) = (174133156074154963935330 / 553748616234653048080339)) by (unfold g_open; field). rewrite E3.
  assert (E2 : 1 / 2 * g_open / (1 + g_open - 1 / 2 * g_open * (174133156074154963935330 / 553748616234653048080339)) = (124077163653475513195377253270216485 / 391325566531148783638868085646426588)) by (unfold g_open; field). rewrite E2.
  assert (E1 : g_open / (1 + g_open - g_open * (124077163653475513195377253270216485 / 391325566531148783638868085646426588)) = (87683408927380846852249362603795293364615487620 / 124256746326471158437535080949331494000710043873)) by (unfold g_open; field). rewrite E1.
  assert (EA : g_open / (1 + g_open) = (224067672615 / 388572688871)) by (unfold g_open; field). rewrite EA. f_equal. lra.
Qed.
Lemma beta1_open : / ((224067672615 / 388572688871) + 1 - (224067672615 / 388572688871) * (124077163653475513195377253270216485 / 391325566531148783638868085646426588)) = (152058427610975887035115983866500299491866102148 / 211940155253852005289784443553126787365325531493).
Proof. field. Qed.
Lemma beta2_open : / ((224067672615 / 388572688871) + 1 - (224067672615 / 388572688871) * (1 / 2) * (174133156074154963935330 / 553748616234653048080339)) = (215171588768894618380353370059207269 / 319739946919049905014811296093429779).
Proof. field. Qed.
Lemma beta3_open : / ((224067672615 / 388572688871) + 1 - (224067672615 / 388572688871) * (1 / 2) * (224067672615 / 777145377742)) = (603954938145755869018564 / 902014928382962975950999).
Proof. field. Qed.
Lemma beta4_open : / ((224067672615 / 388572688871) + 1) = (388572688871 / 612640361486).
Proof. field. Qed.
(* a measure of the state that grows by a hundredth at every sample *)
Definition charge (s : dst) : R := 493 * z1 s + 1000 * z2 s + 735 * z3 s + 384 * z4 s + 190 * fb3 s + 224 * fb2 s.
Definition charged (s : dst) : Prop := 0 <= z1 s /\ 0 <= z2 s /\ 0 <= z3 s /\ 0 <= z4 s <= 7 * z3 s /\ 0 <= fb3 s /\ 0 <= fb2 s.
Lemma open_step s x : charged s -> 0 <= x -> let o := di_step Rinv c_open s x in
  charged (fst o) /\ 101 / 100 * charge s + x <= charge (fst o) /\ charge s / 100000 <= snd (snd o).
Proof.
  intros (P1 & P2 & P3 & P4 & P5 & P6) X. cbv zeta. unfold di_step, c_open. cbv zeta. cbn [d_alpha d_gamma d_g d_g4 d_g3 d_g2 d_g1 d_k].
  rewrite beta1_open, beta2_open, beta3_open, beta4_open.
  match goal with |- context [(?a - 0 * ?b) / (0 * ?m + 1)] => replace ((a - 0 * b) / (0 * m + 1)) with x by field end.
  destruct s as [s1 s2 s3 s4 f3 f2 f1]. unfold di_lpf, di_fb, charged, charge in *. cbv zeta. cbn [fst snd z1 z2 z3 z4 fb3 fb2 fb1] in *.
  repeat split; lra.
Qed.
(** For every rate there is a cutoff at which a single click, through a cleared filter without resonance, grows beyond every bound. *)
Theorem C286_click_explodes_refuted : forall sr, 20 <= sr -> exists n2p, 0 < n2p /\ di_coeff n2p sr 0 = c_open /\
  forall B, exists n, B < last (snd (di_run Rinv (mk_dis c_open (mk_dic 0 0 0 0 0 0 0 0) empty_dst) (1 :: repeat 0 n))) 0.
Proof.
  intros sr Hsr. set (f := 15 / 16 * sr / PI). exists (f / (817579891564371 / 100000000000000)). pose proof PI_bounds as PB.
  assert (F : 5 <= f <= sr * (3 / 10)).
  { unfold f. split; [apply (Rmult_le_reg_r PI); [lra|]; replace (15 / 16 * sr / PI * PI) with (15 / 16 * sr) by (field; lra); nra|].
    apply (Rmult_le_reg_r PI); [lra|]. replace (15 / 16 * sr / PI * PI) with (15 / 16 * sr) by (field; lra). nra. }
  split; [apply Rdiv_lt_0_compat; lra|]. split.
  - unfold di_coeff. rewrite <- c_open_eq. f_equal. unfold di_warp. cbv zeta. unfold di_freq. rewrite limR.
    replace (f / (817579891564371 / 100000000000000) * (817579891564371 / 100000000000000)) with f by field. rewrite Rmax_left, Rmin_left by (try rewrite Rmax_left; lra).
    replace (f * 2 * PI * (1 / sr) * (1 / 2)) with (15 / 16) by (unfold f; field; lra). rewrite g_open_tan. field. lra.
  - assert (MV : di_move c_open (mk_dic 0 0 0 0 0 0 0 0) = c_open) by (unfold di_move, c_open; cbn [d_alpha d_gamma d_g d_g4 d_g3 d_g2 d_g1 d_k]; rewrite !Rplus_0_r; reflexivity).
    (* from a charged state on *)
    assert (G : forall n s, charged s -> charge s * (101 / 100) ^ n / 100000 <= last (snd (di_run Rinv (mk_dis c_open (mk_dic 0 0 0 0 0 0 0 0) s) (0 :: repeat 0 n))) 0).
    { induction n as [|n IH]; intros s C; destruct (open_step s 0 C (Rle_refl 0)) as (C' & V & Y); cbn [di_run repeat]; unfold di_process at 1; cbn [dis_c dis_d dis_s]; rewrite MV;
        destruct (di_step Rinv c_open s 0) as [s' [u y]]; cbn [fst snd] in *.
      - cbn [last pow]. lra.
      - specialize (IH s' C'). cbn [di_run repeat] in IH. unfold di_process at 1 in IH. unfold di_process at 1. cbn [dis_c dis_d dis_s] in *. rewrite MV in *.
        destruct (di_step Rinv c_open s' 0) as [s2 [u2 y2]]. cbn [fst snd] in *. destruct (di_run Rinv (mk_dis c_open _ s2) (repeat 0 n)) as [s3 ys]. cbn [snd] in *.
        change (last (y :: y2 :: ys) 0) with (last (y2 :: ys) 0). eapply Rle_trans; [|exact IH]. cbn [pow]. assert (Q : 0 <= (101 / 100) ^ n) by (apply pow_le; lra).
        assert (M : 101 / 100 * charge s * (101 / 100) ^ n <= charge s' * (101 / 100) ^ n) by (apply Rmult_le_compat_r; lra). lra. }
    assert (Z : charged empty_dst) by (unfold charged, empty_dst; cbn [z1 z2 z3 z4 fb3 fb2]; lra).
    destruct (open_step empty_dst 1 Z ltac:(lra)) as (C1 & V1 & _).
    assert (V0 : charge empty_dst = 0) by (unfold charge, empty_dst; cbn [z1 z2 z3 z4 fb3 fb2]; ring). rewrite V0 in V1.
    destruct (di_step Rinv c_open empty_dst 1) as [s1 [u1 y1]] eqn:E1. cbn [fst snd] in *.
    intros B. destruct (Pow_x_infinity (101 / 100) ltac:(rewrite Rabs_pos_eq; lra) (100000 * Rabs B + 1)) as [n Hn]. exists (Datatypes.S n).
    specialize (G n s1 C1). specialize (Hn n (Nat.le_refl n)). rewrite Rabs_pos_eq in Hn by (apply pow_le; lra).
    assert (T : last (snd (di_run Rinv (mk_dis c_open (mk_dic 0 0 0 0 0 0 0 0) empty_dst) (1 :: repeat 0 (Datatypes.S n)))) 0 = last (snd (di_run Rinv (mk_dis c_open (mk_dic 0 0 0 0 0 0 0 0) s1) (0 :: repeat 0 n))) 0).
    { change (repeat 0 (Datatypes.S n)) with (0 :: repeat 0 n). cbn [di_run]. unfold di_process at 1. cbn [dis_c dis_d dis_s]. rewrite MV, E1.
      destruct (di_process Rinv (mk_dis c_open _ s1) 0) as [st y]. destruct (di_run Rinv st (repeat 0 n)) as [st2 ys]. reflexivity. }
    rewrite T. assert (AB := Rle_abs B). assert (PB2 := Rabs_pos B).
    assert (P1 : 1 * (101 / 100) ^ n <= charge s1 * (101 / 100) ^ n) by (apply Rmult_le_compat_r; [apply pow_le; lra|lra]). lra.
Qed.
Print Assumptions C286_click_explodes_refuted.
