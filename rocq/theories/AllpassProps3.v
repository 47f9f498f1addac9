(** Theorems about the loop of the all-pass reverb: its tail, superposition, smoothing, decay time. *)
From Coq Require Import Reals Lra Lia Bool List.
From Verif Require Import Base Util BlockModel MathModel ParamModel AdsrModel LfoModel LagModel SmallModel UnitModel AllpassModel AllpassProofs AllpassProps AllpassProps2.
Local Open Scope R_scope.

(** ** C176: with nothing coming in, no energy is created *)

(** the energy held by a delay: the samples it still has to return *)
Definition ad_energy (s : adel) : R := sumn (fun i => back s (Z.of_nat i) * back s (Z.of_nat i)) (Z.to_nat (d_len s)).
(** the energy held by a block, for constant build-up c, high damping h, low damping l *)
Definition blk_energy (q : avals) (b : ablock) : R :=
  (1 - s_build q * s_build q) * (ap_energy (b_a0 b) + ap_energy (b_a1 b)) +
  s_hf q / (1 - s_hf q) * (b_hf b * b_hf b) + / s_lf q * (b_lf b * b_lf b) + ad_energy (b_del b).
Fixpoint blks_energy (q : avals) (bs : list ablock) : R := match bs with [] => 0 | b :: r => blk_energy q b + blks_energy q r end.
(** a block whose sections, delay and taps have sizes that fit *)
Definition blk_ok (b : ablock) : Prop :=
  ap_ok (b_a0 b) /\ ap_ok (b_a1 b) /\ (0 <= d_k (b_del b) < 16384)%Z /\ (1 <= d_len (b_del b) <= 16384)%Z /\
  (1 <= b_tl b <= d_len (b_del b))%Z /\ (1 <= b_tr b <= d_len (b_del b))%Z.
Definition vals_ok (q : avals) : Prop := -1 <= s_build q <= 1 /\ 0 <= s_hf q < 1 /\ 0 < s_lf q <= 1 /\ s_mod q = 0 /\ 0 <= s_decay q <= 1.

Lemma sq_nonneg : forall x : R, 0 <= x * x. Proof. intros; nra. Qed.
Lemma ap_energy_nonneg : forall s, 0 <= ap_energy s.
Proof. intros. apply sumn_nonneg. intros. apply sq_nonneg. Qed.
Lemma ad_energy_nonneg : forall s, 0 <= ad_energy s.
Proof. intros. apply sumn_nonneg. intros. apply sq_nonneg. Qed.
Lemma lowpass_passive : forall a x h, 0 <= h < 1 -> let '(a', y) := op_lowpass a x h in y * y + h / (1 - h) * (a' * a') <= x * x + h / (1 - h) * (a * a).
Proof.
  intros a x h H. unfold op_lowpass. set (a' := a * h + x * (1 - h)).
  assert (C : a' * a' <= h * (a * a) + (1 - h) * (x * x)).
  { unfold a'. assert (0 <= h * (1 - h) * ((a - x) * (a - x))) by (apply Rmult_le_pos; [nra|apply sq_nonneg]). nra. }
  assert (E : a' * a' + h / (1 - h) * (a' * a') = / (1 - h) * (a' * a')) by (field; lra).
  assert (E2 : x * x + h / (1 - h) * (a * a) = / (1 - h) * (h * (a * a) + (1 - h) * (x * x))) by (field; lra).
  rewrite E, E2. apply Rmult_le_compat_l; [|exact C]. left. apply Rinv_0_lt_compat. lra.
Qed.
Lemma highpass_passive : forall a x l, 0 < l <= 1 -> let '(a', y) := op_highpass a x l in y * y + / l * (a' * a') <= x * x + / l * (a * a).
Proof.
  intros a x l H. unfold op_highpass.
  assert (E : (x - (a * (1 - l) + x * l)) * (x - (a * (1 - l) + x * l)) + / l * ((a * (1 - l) + x * l) * (a * (1 - l) + x * l))
    = x * x + / l * (a * a) - a * a - (1 - l) * l * ((x - a) * (x - a))) by (field; lra).
  rewrite E. assert (0 <= (1 - l) * l * ((x - a) * (x - a))) by (apply Rmult_le_pos; [nra|apply sq_nonneg]). pose proof (sq_nonneg a). lra.
Qed.
Lemma as_i32R_0 : as_i32R 0 = 0%Z.
Proof. unfold as_i32R. change 0 with (IZR 0). rewrite truncR_IZR. reflexivity. Qed.

Lemma back_step : forall s x i, (0 <= d_k s < 16384)%Z -> (0 <= i < 16383)%Z ->
  back (mk_ad (d_len s) (Z.land (d_k s + 1) AP_MASK) (put (d_data s) (Z.land (d_k s + 1) AP_MASK) x)) (i + 1) = back s i.
Proof.
  intros s x i Hk Hi. unfold back. simpl d_k. simpl d_data. rewrite !land_mask. rewrite Zminus_mod_idemp_l. unfold put.
  destruct (Z.eqb_spec ((d_k s + 1 - (i + 1)) mod AP_MAX) ((d_k s + 1) mod AP_MAX)) as [E|_].
  - exfalso. apply (mod_shift_ne (d_k s) (i + 1) AP_MAX); [unfold AP_MAX; lia|exact E].
  - f_equal. f_equal. lia.
Qed.
Lemma back_step_0 : forall s x, back (mk_ad (d_len s) (Z.land (d_k s + 1) AP_MASK) (put (d_data s) (Z.land (d_k s + 1) AP_MASK) x)) 0 = x.
Proof. intros. unfold back. simpl d_k. simpl d_data. rewrite !land_mask, Z.sub_0_r, Zmod_mod. unfold put. rewrite Z.eqb_refl. reflexivity. Qed.
Lemma ad_step_energy : forall s x t1 t2, (0 <= d_k s < 16384)%Z -> (1 <= d_len s <= 16384)%Z -> (1 <= t1 <= d_len s)%Z -> (1 <= t2 <= d_len s)%Z ->
  exists s' y a b, ad_process s x t1 t2 0 = Ok (s', (y, a, b)) /\ d_len s' = d_len s /\ (0 <= d_k s' < 16384)%Z /\
  y * y + ad_energy s' = x * x + ad_energy s /\ a * a <= ad_energy s /\ b * b <= ad_energy s.
Proof.
  intros s x t1 t2 Hk Hl H1 H2. rewrite ad_step by (unfold AP_MAX, lim; lia). cbv zeta.
  do 4 eexists. split; [reflexivity|]. split; [reflexivity|]. split; [apply mask_range|].
  change (0 / 256)%Z with 0%Z. change (0 mod 256)%Z with 0%Z. rewrite Z.sub_0_r.
  assert (A : forall t, (1 <= t)%Z -> d_data s (Z.land (Z.land (d_k s + 1) AP_MASK - t) AP_MASK) = back s (t - 1)).
  { intros t Ht. unfold back. rewrite !land_mask, Zminus_mod_idemp_l. f_equal. f_equal. lia. }
  assert (T : forall t, (1 <= t <= d_len s)%Z -> back s (t - 1) * back s (t - 1) <= ad_energy s).
  { intros t Ht. unfold ad_energy. pose proof (sumn_point (fun i => back s (Z.of_nat i) * back s (Z.of_nat i)) (Z.to_nat (d_len s)) (Z.to_nat (t - 1))
      ltac:(intros; apply sq_nonneg) ltac:(lia)) as P. cbv beta in P. rewrite Z2Nat.id in P by lia. exact P. }
  rewrite (A t1), (A t2), (A (d_len s)) by lia.
  split; [|split; apply T; lia].
  set (y := back s (d_len s - 1)).
  match goal with |- ?u * ?u + _ = _ => replace u with y by (replace (256 - 0)%Z with 256%Z by lia; field) end.
  unfold ad_energy. simpl d_len. destruct (Z.to_nat (d_len s)) as [|n] eqn:En; [lia|].
  rewrite sumn_shift. rewrite (sumn_ext _ (fun i => back s (Z.of_nat i) * back s (Z.of_nat i)) n).
  - rewrite back_step_0. simpl sumn. replace (Z.of_nat n) with (d_len s - 1)%Z by lia. fold y. lra.
  - intros i Hi. rewrite Nat2Z.inj_succ. unfold Z.succ. rewrite back_step by lia. reflexivity.
Qed.

(** one block, nothing injected *)
Lemma block_energy : forall q lfo b x, vals_ok q -> blk_ok b -> exists b' x' tl tr,
  do_block q lfo 0 b x = Ok (b', x', (tl, tr)) /\ blk_ok b' /\
  (exists y, x' = s_decay q * y /\ y * y + blk_energy q b' <= x * x + blk_energy q b) /\
  tl * tl <= (b_gl b * b_gl b) * ad_energy (b_del b) /\ tr * tr <= (b_gr b * b_gr b) * ad_energy (b_del b) /\ b_gl b' = b_gl b /\ b_gr b' = b_gr b.
Proof.
  intros q lfo b x (Hc & Hh & Hl & Hm & Hd) (O0 & O1 & Ok_ & Ol & Otl & Otr). unfold do_block. cbv zeta. rewrite Rplus_0_r.
  destruct (ap_step (b_a0 b) x (s_build q) O0) as (a0 & x0 & E0 & O0' & _ & _ & N0). rewrite E0. cbn [obind].
  destruct (ap_step (b_a1 b) x0 (s_build q) O1) as (a1 & x1 & E1 & O1' & _ & _ & N1). rewrite E1. cbn [obind].
  pose proof (lowpass_passive (b_hf b) x1 (s_hf q) Hh) as Plp. destruct (op_lowpass (b_hf b) x1 (s_hf q)) as [hf x2].
  pose proof (highpass_passive (b_lf b) x2 (s_lf q) Hl) as Php. destruct (op_highpass (b_lf b) x2 (s_lf q)) as [lf x3].
  rewrite Hm. replace (0 * lfo * IZR AP_SUB) with 0 by ring. rewrite as_i32R_0.
  destruct (ad_step_energy (b_del b) x3 (b_tl b) (b_tr b) Ok_ Ol Otl Otr) as (del & y & ta & tb & Ed & Ld & Kd & Nd & Ta & Tb). rewrite Ed. cbn [obind].
  do 4 eexists. split; [reflexivity|]. split.
  - unfold blk_ok. simpl. rewrite Ld. repeat split; try assumption; try apply O0'; try apply O1'; try apply Kd; lia.
  - split; [|split; [|split]].
    + exists y. split; [ring|]. unfold blk_energy. simpl. lra.
    + replace (ta * b_gl b * (ta * b_gl b)) with ((b_gl b * b_gl b) * (ta * ta)) by ring. apply Rmult_le_compat_l; [apply sq_nonneg|exact Ta].
    + replace (tb * b_gr b * (tb * b_gr b)) with ((b_gr b * b_gr b) * (tb * tb)) by ring. apply Rmult_le_compat_l; [apply sq_nonneg|exact Tb].
    + split; reflexivity.
Qed.
Lemma blk_energy_ge : forall q b, vals_ok q -> ad_energy (b_del b) <= blk_energy q b.
Proof.
  intros q b (Hc & Hh & Hl & _). unfold blk_energy.
  pose proof (ap_energy_nonneg (b_a0 b)). pose proof (ap_energy_nonneg (b_a1 b)).
  assert (0 <= (1 - s_build q * s_build q) * (ap_energy (b_a0 b) + ap_energy (b_a1 b))) by (apply Rmult_le_pos; nra).
  assert (0 <= s_hf q / (1 - s_hf q) * (b_hf b * b_hf b)).
  { apply Rmult_le_pos; [|apply sq_nonneg]. apply Rmult_le_pos; [lra|]. left. apply Rinv_0_lt_compat. lra. }
  assert (0 <= / s_lf q * (b_lf b * b_lf b)) by (apply Rmult_le_pos; [left; apply Rinv_0_lt_compat; lra|apply sq_nonneg]).
  lra.
Qed.
Lemma blk_energy_nonneg : forall q b, vals_ok q -> 0 <= blk_energy q b.
Proof. intros q b H. pose proof (blk_energy_ge q b H). pose proof (ad_energy_nonneg (b_del b)). lra. Qed.
Lemma blks_energy_nonneg : forall q bs, vals_ok q -> 0 <= blks_energy q bs.
Proof. intros q bs H. induction bs as [|b bs IH]; simpl; [lra|]. pose proof (blk_energy_nonneg q b H). lra. Qed.

Definition gain_sum_l (bs : list ablock) : R := fold_right (fun b a => Rabs (b_gl b) + a) 0 bs.
Definition gain_sum_r (bs : list ablock) : R := fold_right (fun b a => Rabs (b_gr b) + a) 0 bs.
Lemma gain_sums_nonneg : forall bs, 0 <= gain_sum_l bs /\ 0 <= gain_sum_r bs.
Proof. induction bs as [|b bs [I1 I2]]; simpl; [lra|]. pose proof (Rabs_pos (b_gl b)). pose proof (Rabs_pos (b_gr b)). lra. Qed.
Lemma sq_le_abs : forall t g e W, t * t <= (g * g) * e -> 0 <= e <= W * W -> 0 <= W -> Rabs t <= Rabs g * W.
Proof.
  intros t g e W H He HW. rewrite <- (Rabs_pos_eq W) by exact HW. rewrite <- Rabs_mult. apply Rsqr_le_abs_0. unfold Rsqr. pose proof (sq_nonneg g).
  pose proof (Rmult_le_compat_l (g * g) e (W * W) H0 (proj2 He)). lra.
Qed.
(** the four blocks; W bounds the energy *)
Lemma blocks_energy : forall q lfos bs x ol orr W, vals_ok q -> Forall blk_ok bs -> 0 <= W -> x * x + blks_energy q bs <= W * W ->
  (length bs <= length lfos)%nat ->
  exists bs' x' l r, do_blocks q lfos 0 bs x ol orr = Ok (bs', x', (l, r)) /\ Forall blk_ok bs' /\ length bs' = length bs /\
    x' * x' + blks_energy q bs' <= x * x + blks_energy q bs /\
    (bs <> [] -> exists y, x' = s_decay q * y /\ y * y + blks_energy q bs' <= x * x + blks_energy q bs) /\
    Rabs (l - ol) <= gain_sum_l bs * W /\ Rabs (r - orr) <= gain_sum_r bs * W /\ gain_sum_l bs' = gain_sum_l bs /\ gain_sum_r bs' = gain_sum_r bs.
Proof.
  induction lfos as [|lfo lfos IH]; intros bs x ol orr W Hq Hb HW He Hl; destruct bs as [|b bs]; try (simpl in Hl; lia).
  - simpl. do 4 eexists. split; [reflexivity|]. split; [constructor|]. split; [reflexivity|]. split; [simpl; lra|]. split; [contradiction|]. simpl.
    rewrite !Rminus_eq_0, !Rabs_R0. repeat split; lra.
  - simpl. do 4 eexists. split; [reflexivity|]. split; [constructor|]. split; [reflexivity|]. split; [simpl; lra|]. split; [contradiction|]. simpl.
    rewrite !Rminus_eq_0, !Rabs_R0. repeat split; lra.
  - inversion Hb; subst. destruct (block_energy q lfo b x Hq H1) as (b' & x' & tl & tr & E & O' & (y & Ey & Ny) & Tl & Tr & Gl & Gr).
    simpl do_blocks. rewrite E. cbn [obind]. simpl in He.
    pose proof (blks_energy_nonneg q bs Hq) as Pb. pose proof (blk_energy_nonneg q b' Hq) as Pb'. pose proof (sq_nonneg x) as Px. pose proof (blk_energy_ge q b Hq) as Pg.
    pose proof (ad_energy_nonneg (b_del b)) as Pd. pose proof (sq_nonneg y) as Py.
    destruct Hq as (Hc & Hh & Hlf & Hm & Hd).
    assert (Nx : x' * x' <= y * y). { rewrite Ey. replace (s_decay q * y * (s_decay q * y)) with ((s_decay q * s_decay q) * (y * y)) by ring.
      assert (D1 : s_decay q * s_decay q <= 1) by nra. pose proof (Rmult_le_compat_r (y * y) _ _ Py D1). lra. }
    destruct (IH bs x' (ol + tl) (orr + tr) W) as (bs'' & x'' & l & r & E2 & O2 & L2 & N2 & D2 & A2 & B2 & G2 & G3).
    + repeat split; tauto || lra.
    + assumption.
    + assumption.
    + lra.
    + simpl in Hl. lia.
    + rewrite E2. cbn [obind]. do 4 eexists. split; [reflexivity|]. split; [constructor; assumption|]. split; [simpl; lia|]. simpl.
      split; [lra|]. split; [|split; [|split; [|split; [rewrite Gl, G2; reflexivity|rewrite Gr, G3; reflexivity]]]].
      * intros _. destruct bs as [|c bs].
        -- assert (Z : bs'' = [] /\ x'' = x'). { destruct lfos; simpl in E2; injection E2 as <- <- _; auto. }
           destruct Z as [-> ->]. exists y. split; [exact Ey|]. simpl. lra.
        -- destruct D2 as (y2 & Ey2 & Ny2); [discriminate|]. exists y2. split; [exact Ey2|]. simpl in Ny2. simpl. lra.
      * replace (l - ol) with ((l - (ol + tl)) + tl) by ring. eapply Rle_trans; [apply Rabs_triang|].
        pose proof (sq_le_abs tl (b_gl b) _ W Tl ltac:(lra) HW). lra.
      * replace (r - orr) with ((r - (orr + tr)) + tr) by ring. eapply Rle_trans; [apply Rabs_triang|].
        pose proof (sq_le_abs tr (b_gr b) _ W Tr ltac:(lra) HW). lra.
Qed.

(** the loop alone: n samples with nothing coming in; the trace of (loop state, left, right) *)
Fixpoint tail (q : avals) (lfos : list R) (n : nat) (bs : list ablock) (x : R) : res (list ablock * R * list (R * (R * R))) :=
  match n with
  | O => Ok (bs, x, [])
  | Datatypes.S m => obind (do_blocks q lfos 0 bs x 0 0) (fun '(bs1, x1, o) => obind (tail q lfos m bs1 x1) (fun '(bs2, x2, t) => Ok (bs2, x2, (x1, o) :: t)))
  end.
(** total energy of the loop *)
Definition energy (q : avals) (bs : list ablock) (x : R) : R := x * x + blks_energy q bs.
(** Sizes that fit, damping, build-up and decay in range, no modulation: for every number of samples the loop does not panic,
    the energy does not grow, the feedback signal has total energy at most d^2/(1-d^2) E0, and the wet signal stays below
    the sum of the tap gains times sqrt E0. *)
Theorem C176_tail_passive : forall q lfos n bs x, vals_ok q -> Forall blk_ok bs -> bs <> [] -> (length bs <= length lfos)%nat ->
  exists bs' x' t, tail q lfos n bs x = Ok (bs', x', t) /\ length t = n /\ energy q bs' x' <= energy q bs x /\
    (1 - s_decay q * s_decay q) * sumsq (map fst t) <= (s_decay q * s_decay q) * energy q bs x /\
    Forall (fun '(_, (l, r)) => Rabs l <= gain_sum_l bs * sqrt (energy q bs x) /\ Rabs r <= gain_sum_r bs * sqrt (energy q bs x)) t.
Proof.
  intros q lfos n bs x Hq.
  assert (G : forall n bs x W, 0 <= W -> energy q bs x <= W * W -> Forall blk_ok bs -> bs <> [] -> (length bs <= length lfos)%nat ->
    exists bs' x' t, tail q lfos n bs x = Ok (bs', x', t) /\ length t = n /\ energy q bs' x' <= energy q bs x /\
    (1 - s_decay q * s_decay q) * sumsq (map fst t) <= (s_decay q * s_decay q) * (energy q bs x - energy q bs' x') /\
    Forall (fun '(_, (l, r)) => Rabs l <= gain_sum_l bs * W /\ Rabs r <= gain_sum_r bs * W) t).
  { clear n bs x. induction n as [|n IH]; intros bs x W HW He Hb Hne Hl.
    - simpl. do 3 eexists. split; [reflexivity|]. split; [reflexivity|]. split; [lra|]. split; [simpl; lra|constructor].
    - simpl tail. destruct (blocks_energy q lfos bs x 0 0 W Hq Hb HW He Hl) as (b1 & x1 & l & r & E1 & O1 & L1 & N1 & D1 & A1 & B1 & G1 & G2).
      rewrite E1. cbn [obind]. destruct (IH b1 x1 W HW) as (b2 & x2 & t & E2 & L2 & N2 & S2 & F2).
      + unfold energy in *. lra.
      + exact O1.
      + intros ->. simpl in L1. destruct bs; [contradiction|discriminate].
      + lia.
      + rewrite E2. cbn [obind]. do 3 eexists. split; [reflexivity|]. split; [simpl; lia|]. split; [unfold energy in *; lra|]. split.
        * destruct (D1 Hne) as (y & Ey & Ny). simpl. unfold energy in *.
          set (d := s_decay q) in *. assert (Ex : x1 * x1 = d * d * (y * y)) by (rewrite Ey; ring).
          assert (K : (1 - d * d) * (x1 * x1) <= d * d * (x * x + blks_energy q bs - (x1 * x1 + blks_energy q b1))).
          { rewrite Ex. replace (d * d * (x * x + blks_energy q bs - (d * d * (y * y) + blks_energy q b1)))
              with (d * d * (x * x + blks_energy q bs - blks_energy q b1) - d * d * (d * d * (y * y))) by ring.
            pose proof (sq_nonneg d). assert (d * d * (y * y) <= d * d * (x * x + blks_energy q bs - blks_energy q b1)) by (apply Rmult_le_compat_l; lra). lra. }
          lra.
        * constructor; [rewrite Rminus_0_r in A1, B1; split; assumption|]. rewrite G1, G2 in F2. exact F2. }
  intros Hb Hne Hl. assert (P : 0 <= energy q bs x) by (unfold energy; pose proof (sq_nonneg x); pose proof (blks_energy_nonneg q bs Hq); lra).
  destruct (G n bs x (sqrt (energy q bs x)) (sqrt_pos _)) as (b2 & x2 & t & E2 & L2 & N2 & S2 & F2); try assumption.
  - rewrite sqrt_sqrt by exact P. lra.
  - exists b2, x2, t. split; [exact E2|]. split; [exact L2|]. split; [exact N2|]. split; [|exact F2].
    assert (0 <= energy q b2 x2) by (unfold energy; pose proof (sq_nonneg x2); pose proof (blks_energy_nonneg q b2 Hq); lra).
    pose proof (sq_nonneg (s_decay q)). nra.
Qed.
(** the sizes the effect itself computes meet the hypotheses *)
Theorem C176_sizes_meet_it : forall sr room s s', 1000 <= sr -> -1 <= room <= 1 -> sr * (1788 / 10) * (1 / 1000) * room_scale room < 16385 ->
  Forall (fun b => (0 <= a_k (b_a0 b))%Z /\ (0 <= a_k (b_a1 b))%Z /\ (0 <= d_k (b_del b) < 16384)%Z) (v_blocks s) ->
  calc_size sr (room_scale room) s = Ok s' -> Forall blk_ok (v_blocks s').
Proof.
  intros sr room s s' Hs Hr Hf Hk H. pose proof (C175_fits sr room s s' Hs Hr Hf H) as F. unfold calc_size in H. destruct (Rlt_dec 0 _); [|discriminate]. injection H as <-.
  simpl in *. rewrite Forall_forall in *. intros b Hb. specialize (F b Hb). destruct F as (_ & F1 & F2 & F3 & F4 & F5).
  apply in_map_iff in Hb. destruct Hb as ([b1 [[[[tl tr] l0] l1] d]] & <- & Hin). apply in_combine_l in Hin. specialize (Hk b1 Hin). simpl in *.
  repeat split; simpl; unfold AP_MAX; try lia; tauto.
Qed.
Example C176_witness : let b := mk_ab (ap_set_len ap_default 3) (ap_set_len ap_default 2) 0 0 (ad_set_len ad_default 5) 2 3 (1/4) (1/4) in
  blk_ok b /\ vals_ok (mk_vals (9/10) (1/2) (1/2) (1/10) (1/10) 0).
Proof. cbv zeta. split; [|unfold vals_ok; simpl; lra]. unfold blk_ok, ap_ok. simpl. unfold AP_MAX. repeat split; lia. Qed.
(** Without the low damper (coefficient 0) it is false: a residue left in the damper is added to the loop for ever. *)
Lemma highpass_frozen : forall a x, op_highpass a x 0 = (a, x - a).
Proof. intros. unfold op_highpass. apply f_equal2; ring. Qed.
Fixpoint hp_run (l a : R) (xs : list R) : list R := match xs with [] => [] | x :: r => let '(a', y) := op_highpass a x l in y :: hp_run l a' r end.
Theorem C176_frozen_low_damper_refuted : forall a n, hp_run 0 a (repeat 0 n) = repeat (- a) n.
Proof. intros a n. induction n as [|n IH]; [reflexivity|]. simpl repeat. cbn [hp_run]. rewrite highpass_frozen. rewrite IH. apply f_equal2; [ring|reflexivity]. Qed.
Print Assumptions C176_tail_passive.
Print Assumptions C176_sizes_meet_it.
Print Assumptions C176_frozen_low_damper_refuted.
