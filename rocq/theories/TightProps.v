(** Further theorems about C17, C83, C86, C87, C94, C116, C121, C132, C134, C136, C155, C156, C159: facts that wrong programs tried
    against the earlier theorems (seeded/LOG.jsonl) showed to be missing. *)
From Coq Require Import Reals Lra Psatz Lia.
From Flocq Require Import Core.Core.
From Verif Require Import Base Util F32 BlockModel RampProps MathModel ClipProps ParamModel ParamProps TuneModel TuneProps AdsrModel LfoModel UnitModel UnitProps ShaperModel ShaperProps ReverbModel ReverbProps ReverbProps2 FiltModel FiltProps FiltProps2 WavModel.
Local Open Scope R_scope.

(** * C17: a float sample can only be stored in 32 bits *)
Theorem C17_float_needs_32_bits : forall v bits, (bits <> 32)%Z -> sample_write TF32 v bits = Err Unsupported.
Proof. intros v bits H. unfold sample_write. replace (bits =? 32)%Z with false by lia. reflexivity. Qed.
Print Assumptions C17_float_needs_32_bits.

(** * C83: in the standard tuning the inverse lookup is the reciprocal on every whole note *)
Theorem C83_standard_inverse : forall t ignore k, (-256 <= k < 255)%Z -> exists v w, n2p (tuner_init t) ignore (IZR k) = Ok v /\ n2pinv (tuner_init t) ignore (IZR k) = Ok w /\ v = Rpower 2 (IZR k / 12) /\ v * w = 1.
Proof.
  intros t ig k Hk. set (g := fun i => exp2R ((IZR i - 256) * (1 / 12))).
  assert (F : full std_table g) by (intros i Hi; unfold std_table; rewrite zget_idxs by lia; reflexivity).
  assert (FI : full (map (fun x => 1 / x) std_table) (fun i => 1 / g i)).
  { intros i Hi. unfold std_table. rewrite map_map. rewrite zget_idxs by lia. reflexivity. }
  assert (P : g (k + 256)%Z = Rpower 2 (IZR k / 12)). { unfold g, exp2R. f_equal. rewrite plus_IZR. lra. }
  exists (g (k + 256)%Z), (1 / g (k + 256)%Z). assert (0 < g (k + 256)%Z) by (rewrite P; apply exp_pos).
  unfold n2p, n2pinv. cbn [tuner_init tu_table tu_table0 tu_inv tu_inv0].
  assert (L : forall ta h, full ta h -> lookup ta (IZR k) = Ok (h (k + 256)%Z)). { intros ta h Fh. rewrite (C83_lookup ta h (IZR k) k Fh Hk) by lra. f_equal. ring. }
  repeat split; [destruct ig; now apply L|destruct ig; apply (L _ (fun i => 1 / g i) FI)|exact P|field; lra].
Qed.
Print Assumptions C83_standard_inverse.

(** * C86: the shape parameter selects the eight shapes in order and nothing else is accepted *)
Theorem C86_shape_numbers : forall n,
  shape_of n = match n with 0 => Ok LsSine | 1 => Ok LsTri | 2 => Ok LsSquare | 3 => Ok LsRamp | 4 => Ok LsNoise | 5 => Ok LsSampleAndHold | 6 => Ok LsEnvelope | 7 => Ok LsStepSequencer | _ => Panic end%Z.
Proof. intros [|p|p]; [reflexivity| |reflexivity]. do 4 (destruct p as [p|p|]; try reflexivity). Qed.
Print Assumptions C86_shape_numbers.
(** * C87: step number i of the sequence is read, cyclically *)
Theorem C87_step_value : forall q i, length (sq_steps q) = 16%nat -> sq_step q (Z.land i 15) = Ok (nth (Z.to_nat (i mod 16)) (sq_steps q) 0).
Proof.
  intros q i L. replace 15%Z with (Z.ones 4) by reflexivity. rewrite Z.land_ones by lia. change (2 ^ 4)%Z with 16%Z.
  pose proof (Z.mod_pos_bound i 16 ltac:(lia)). unfold sq_step. replace (i mod 16 <? 16)%Z with true by lia. unfold zget. replace (0 <=? i mod 16)%Z with true by lia. rewrite (nth_error_nth' _ 0) by (rewrite L; lia). reflexivity.
Qed.
Print Assumptions C87_step_value.
(** a new LFO fires no envelope, stands on an even step, and its first block starts at the start phase *)
Theorem C87_fresh : f_feg lfo_new = false /\ f_aeg lfo_new = false /\ f_shuffle lfo_new = 0%Z /\ f_step lfo_new = 0%Z
  /\ forall e sp r, l_start e = PFloat sp -> lfo_process e lfo_new r = lfo_process e (lf_phase lfo_new true (wrap01 sp)) r.
Proof. do 4 (split; [reflexivity|]). intros e sp r H. unfold lfo_process. rewrite H. reflexivity. Qed.
Print Assumptions C87_fresh.

(** * C94: splitting a number into whole and fractional part is defined only for the i32 range *)
Theorem C94_split_outside_range : forall p a b x, 2147483648 <= x -> split_float (numR p a b) x = Panic.
Proof.
  intros p a b x H. unfold split_float.
  assert (E : (2147483648 <= truncR x)%Z).
  { unfold truncR. destruct (Rle_dec 0 x); [|lra]. destruct (base_Int_part x) as [B1 B2]. assert (2147483647 < Int_part x)%Z by (apply lt_IZR; lra). lia. }
  assert (F : nu_trunc_ok (numR p a b) x = false) by (cbn; unfold i32_max; lia). rewrite F, andb_false_r. reflexivity.
Qed.
Print Assumptions C94_split_outside_range.

(** * C116: set_rate restores unit amplitude without turning the phasor; an oscillator that is only given a rate starts at phase 0 *)
Theorem C116_set_rate_normalises : forall s w, qo_r s * qo_r s + qo_i s * qo_i s <> 0 -> exists s' c, qo_set_rate s w = Ok s' /\ 0 < c /\ qo_r s' = c * qo_r s /\ qo_i s' = c * qo_i s
  /\ qo_r s' * qo_r s' + qo_i s' * qo_i s' = 1 /\ qo_dr s' = cos w /\ qo_di s' = sin w.
Proof.
  intros s w N. unfold qo_set_rate. cbv zeta. set (m := qo_r s * qo_r s + qo_i s * qo_i s) in *. destruct (Req_EM_T m 0); [contradiction|].
  assert (M : 0 < m) by (unfold m in *; nra). assert (S : 0 < sqrt m) by (now apply sqrt_lt_R0).
  eexists. exists (1 / sqrt m). split; [reflexivity|]. cbn [qo_r qo_i qo_dr qo_di]. split; [apply Rdiv_lt_0_compat; lra|].
  split; [ring|]. split; [ring|]. split; [|split; reflexivity].
  replace (qo_r s * (1 / sqrt m) * (qo_r s * (1 / sqrt m)) + qo_i s * (1 / sqrt m) * (qo_i s * (1 / sqrt m))) with (m / (sqrt m * sqrt m)) by (unfold m; field; fold m; lra).
  rewrite sqrt_sqrt by lra. field. lra.
Qed.
Print Assumptions C116_set_rate_normalises.
Theorem C116_default_starts_at_zero : forall w n, exists s', qo_run qo_default (QoRate w :: repeat QoProcess n) = Ok s' /\ qo_r s' = sin (INR n * w) /\ qo_i s' = - cos (INR n * w).
Proof.
  intros w n. destruct (C116_set_rate_normalises qo_default w) as (s1 & c & E & C & A1 & A2 & A3 & A4 & A5); [cbn; lra|]. cbn [qo_r qo_i qo_default] in *.
  assert (c = 1) by (rewrite A1, A2 in A3; nra). subst c. cbn [qo_run qo_step]. rewrite E. cbn [obind].
  destruct (C116_phase_history (repeat QoProcess n) s1 0 w) as (s' & E' & H); [rewrite A1, sin_0; ring|rewrite A2, cos_0; ring|exact A4|exact A5|].
  exists s'. split; [exact E'|].
  assert (G : forall n a, fold_left qphase (repeat QoProcess n) (a, w) = (a + INR n * w, w)).
  { clear. induction n as [|n IH]; intros a; [cbn; f_equal; ring|]. cbn [repeat fold_left]. rewrite S_INR. unfold qphase at 2. rewrite IH. f_equal. ring. }
  rewrite G in H. destruct H as (H1 & H2 & _). rewrite Rplus_0_l in H1, H2. split; assumption.
Qed.
Print Assumptions C116_default_starts_at_zero.

(** * C121: beyond the range of a 32-bit integer the digital shaper answers with the most negative step whatever the sign *)
Theorem C121_digi_overload_refuted : forall input drive, 0 < drive -> drive * 134217729 <= Rabs input -> shape_digi Rinv input drive = drive * (- (2147483648 + 1 / 2) / 16).
Proof.
  intros x d D H. unfold shape_digi. set (z := 1 / 2 + / d * (16 * x)).
  assert (Z1 : 2147483649 <= Rabs z).
  { assert (16 * 134217729 <= Rabs (/ d * (16 * x))). { rewrite !Rabs_mult, (Rabs_right (/ d)), (Rabs_right 16) by (try lra; apply Rle_ge, Rlt_le, Rinv_0_lt_compat; lra).
      apply Rmult_le_reg_l with d; [lra|]. replace (d * (/ d * (16 * Rabs x))) with (16 * Rabs x) by (field; lra). lra. }
    unfold z. set (v := / d * (16 * x)) in *. destruct (Rcase_abs v) as [V|V]; [rewrite (Rabs_left v V) in H0; rewrite Rabs_left by lra; lra|rewrite (Rabs_right v V) in H0; rewrite Rabs_right by lra; lra]. }
  assert (E : cvtps_epi32 z = i32_min).
  { unfold cvtps_epi32. pose proof (Znearest_half (fun n => negb (Z.even n)) z) as N. fold (ZnearestE z) in N. set (n := ZnearestE z) in *.
    destruct ((i32_min <=? n) && (n <=? i32_max))%Z eqn:B; [|reflexivity]. exfalso. apply andb_prop in B as [B1 B2]. unfold i32_min, i32_max in *.
    assert (-2147483648 <= IZR n <= 2147483647) by (split; apply IZR_le; lia). apply Rabs_le_inv in N. destruct (Rcase_abs z); [rewrite Rabs_left in Z1 by lra|rewrite Rabs_right in Z1 by lra]; lra. }
  rewrite E. unfold i32_min. change (IZR (-2147483648)) with (-2147483648). field.
Qed.
Print Assumptions C121_digi_overload_refuted.

(** * C132, C134: coefficients glide by exactly one increment per sample. The sample is what the filter with the coefficients held
    still at their new values gives. *)
Definition held_at_next (s : fu) : fu := mk_fu (k0 s + e0 s) (k1 s + e1 s) (k2 s + e2 s) (k3 s + e3 s) 0 0 0 0 (g0 s) (g1 s) (g2 s) (g3 s) (g4 s).
Definition regs (s : fu) : R * R * R * R * R := (g0 s, g1 s, g2 s, g3 s, g4 s).
Definition incs (s : fu) : R * R * R * R := (e0 s, e1 s, e2 s, e3 s).
Definition coefs (s : fu) : R * R * R * R := (k0 s, k1 s, k2 s, k3 s).
Theorem C132_glide : forall o p s x, let '(s', y) := svf_process o p s x in let '(t', z) := svf_process o p (held_at_next s) x in
  y = z /\ regs s' = regs t' /\ incs s' = incs s /\ coefs s' = (k0 s + e0 s, k1 s + e1 s, k2 s + e2 s, k3 s + e3 s).
Proof.
  intros o p s x. destruct p; unfold svf_process, svf12, svf24, held_at_next; cbv zeta; cbn [k0 k1 k2 k3 e0 e1 e2 e3 g0 g1 g2 g3 g4]; rewrite !Rplus_0_r.
  - destruct (svf_half (k0 s + e0 s) (k1 s + e1 s) x (g0 s) (g1 s)) as [[b l] h]. destruct (svf_half (k0 s + e0 s) (k1 s + e1 s) x b l) as [[b2 l2] h2]. repeat split.
  - destruct (svf_half (k0 s + e0 s) (k1 s + e1 s) x (g0 s) (g1 s)) as [[b l] h]. destruct (svf_half (k0 s + e0 s) (k1 s + e1 s) x b l) as [[b2 l2] h2].
    destruct (svf_half (k0 s + e0 s) (k1 s + e1 s) _ (g3 s) (g4 s)) as [[b3 l3] h3]. destruct (svf_half (k0 s + e0 s) (k1 s + e1 s) _ b3 l3) as [[b4 l4] h4]. repeat split.
Qed.
Print Assumptions C132_glide.
Theorem C134_glide : forall wp s x, let '(s', y) := moog_step wp s x in let '(t', z) := moog_step wp (held_at_next s) x in
  y = z /\ regs s' = regs t' /\ incs s' = incs s /\ (k0 s', k1 s', k2 s') = (k0 s + e0 s, k1 s + e1 s, k2 s + e2 s).
Proof. intros wp s x. unfold moog_step, held_at_next. cbv zeta. cbn [k0 k1 k2 k3 e0 e1 e2 e3 g0 g1 g2 g3 g4]. rewrite !Rplus_0_r. repeat split. Qed.
Print Assumptions C134_glide.
(** the resonance is negative feedback of the average of the last two outputs: at rest with input x every stage stands at v, the
    driving term of the first stage being c0 x - 2 c2 v - v *)
Theorem C134_rest : forall wp s x, e0 s = 0 -> e1 s = 0 -> e2 s = 0 -> 0 < k1 s -> (regs (fst (moog_step wp s x)) = regs s <->
  exists v, regs s = (v, v, v, v, v) /\ v = softclip8_ps arithR (v + k1 s * (k0 s * x - 2 * k2 s * v - v))).
Proof.
  intros wp s x E0 E1 E2 K. unfold moog_step, regs. cbv zeta. cbn [fst g0 g1 g2 g3 g4]. rewrite E0, E1, E2, !Rplus_0_r. split.
  - intros H. remember (softclip8_ps arithR (g0 s + k1 s * (x * k0 s - k2 s * (g3 s + g4 s) - g0 s))) as r0 eqn:R0.
    injection H as H0 H1 H2 H3 H4. rewrite H0 in H1. assert (A1 : g1 s = g0 s) by nra. rewrite A1 in *.
    assert (A2 : g2 s = g0 s). { replace (g0 s + k1 s * (g0 s - g0 s)) with (g0 s) in H2 by ring. nra. }
    rewrite H0 in H3. replace (g0 s + k1 s * (g0 s - g0 s)) with (g0 s) in H3 by ring. rewrite A2 in H3. replace (g0 s + k1 s * (g0 s - g0 s)) with (g0 s) in H3 by ring.
    assert (A3 : g3 s = g0 s) by nra. exists (g0 s). rewrite A2, A3 in *. rewrite <- H4 in *. split; [reflexivity|]. rewrite <- H0 at 1. rewrite R0. f_equal. ring.
  - intros (v & HR & Hv). injection HR as -> -> -> -> ->.
    assert (C : softclip8_ps arithR (v + k1 s * (x * k0 s - k2 s * (v + v) - v)) = v) by (transitivity (softclip8_ps arithR (v + k1 s * (k0 s * x - 2 * k2 s * v - v))); [f_equal; ring|symmetry; exact Hv]). rewrite C.
    replace (v + k1 s * (v - v)) with v by ring. replace (v + k1 s * (v - v)) with v by ring. replace (v + k1 s * (v - v)) with v by ring. reflexivity.
Qed.
Print Assumptions C134_rest.

(** * C136: the comb's variants. Smooth feeds back with negative, the others with positive sign; the rough one has no dry part *)
Theorem C136_variants : forall pitch sr reso, 0 <= reso <= 1 ->
  (let '(_, r, dry, wet) := comb_coeffs CSmooth pitch sr reso in r = - reso /\ dry = 1 / 2 /\ wet = 1 / 2)
  /\ (let '(_, r, dry, wet) := comb_coeffs CRough pitch sr reso in r = reso /\ dry = 0 /\ wet = 1)
  /\ (let '(_, r, dry, wet) := comb_coeffs COther pitch sr reso in r = reso /\ dry = 1 / 2 /\ wet = 1 / 2).
Proof.
  intros pitch sr reso H. unfold comb_coeffs. cbv zeta. rewrite !FiltProps.limR, (Rmax_left reso 0), (Rmin_left reso 1) by lra. cbn [reso_factor combmix]. repeat split; lra.
Qed.
Print Assumptions C136_variants.

(** * C155: the pre-delay in samples is sample rate x 2^setting x tempo ratio, rounded down *)
Theorem C155_predelay_length : forall sr pitch tsr, 0 <= IZR sr * pitch * tsr < 2147483648 -> IZR (predelay_time sr pitch tsr) <= IZR sr * pitch * tsr < IZR (predelay_time sr pitch tsr) + 1.
Proof.
  intros sr pitch tsr H. unfold predelay_time. set (v := IZR sr * pitch * tsr) in *. clearbody v.
  assert (E : as_i32R v = Int_part v).
  { unfold as_i32R. assert (T : forall u, 0 <= u -> ParamModel.truncR u = Int_part u) by (intros u Hu; unfold ParamModel.truncR; destruct (Rle_dec 0 u); [reflexivity|lra]). rewrite T by lra.
    destruct (base_Int_part v) as [B1 B2]. assert (-1 < Int_part v)%Z by (apply lt_IZR; lra). assert (Int_part v < 2147483648)%Z by (apply lt_IZR; lra). unfold i32_min, i32_max. lia. }
  rewrite E. destruct (base_Int_part v). lra.
Qed.
Print Assumptions C155_predelay_length.
(** * C156: the taps of an initialised reverb are panned as C156_pans describes, left and right *)
Theorem C156_initial_pans : forall sr p t, rv_pl (fx_net (rv_init sr p)) t = pan_l t /\ rv_pr (fx_net (rv_init sr p)) t = pan_r t.
Proof. intros. split; reflexivity. Qed.
Print Assumptions C156_initial_pans.
(** * C159: choosing another preset empties the delay lines *)
Theorem C159_preset_change_clears : forall sr p f f', pr_shape p <> preset_num (fx_preset f) -> rv_control sr p f = Ok f' -> forall i, rv_delay (fx_net f') i = 0 /\ rv_pre (fx_net f') i = 0.
Proof.
  intros sr p f f' H E i. unfold rv_control in E. cbv zeta in E. unfold maybe_update_preset in E. cbv zeta in E.
  replace (pr_shape p =? preset_num (fx_preset f))%Z with false in E by lia. cbn [negb] in E. rewrite orb_true_r in E.
  destruct (preset_of (pr_shape p)) as [q| |]; cbn [obind] in E; try discriminate. injection E as <-.
  destruct (Rlt_dec (1 / 1000) (Rabs (pr_decay p - fx_lastdecay f))); split; reflexivity.
Qed.
Print Assumptions C159_preset_change_clears.
