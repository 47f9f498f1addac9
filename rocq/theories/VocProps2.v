(* VocProps2.v - C226-C230: the vocoder over whole histories. *)
From Coq Require Import Reals Lra Psatz Lia.
From Verif Require Import Base Util BlockModel RampProps LagModel BiquadProofs VocModel VocProofs VocProps.
Local Open Scope R_scope.

Definition cf (s : svf1) : R * R * R := (v_f1 s, v_f2 s, v_q s).
Definition cfs (b : vband) := (cf (vb_m b), cf (vb_l b), cf (vb_r b)).
Lemma svf_eq s t : cf s = cf t -> regs s = regs t -> s = t.
Proof. destruct s, t. unfold cf, regs. cbn. congruence. Qed.
Lemma bpf_cf s x : cf (fst (sv_bpf s x)) = cf s.
Proof. reflexivity. Qed.
Lemma step_cfs sq rate gate b m l r : cfs (fst (vb_step sq rate gate b m l r)) = cfs b.
Proof. reflexivity. Qed.
Lemma steps_cfs sq rate gate : forall n bs m l r, map cfs (fst (vb_steps sq rate gate n bs m l r)) = map cfs bs.
Proof.
  induction n as [|n IH]; intros [|b bs] m l r; try reflexivity. cbn [vb_steps]. destruct (vb_step sq rate gate b m l r) as [b1 y] eqn:E. specialize (IH bs m l r). destruct (vb_steps sq rate gate n bs m l r) as [t z]. cbn [fst map] in *. rewrite IH.
  replace b1 with (fst (vb_step sq rate gate b m l r)) by now rewrite E. now rewrite step_cfs.
Qed.
Definition same_tuning (p q : vpar) : Prop := vp_quality p = vp_quality q /\ vp_nbands p = vp_nbands q /\ vp_lo p = vp_lo q /\ vp_hi p = vp_hi q /\ vp_expand p = vp_expand q /\ vp_center p = vp_center q.
Lemma update_same srinv p q s : same_tuning p q -> voc_update srinv p s = voc_update srinv q s.
Proof. intros (A & B & C & D & E & F). unfold voc_update. now rewrite A, B, C, D, E, F. Qed.
Lemma nth_cfs bs bs' i : map cfs bs = map cfs bs' -> cfs (nth i bs vb_new) = cfs (nth i bs' vb_new).
Proof. intros E. rewrite <- !(map_nth cfs). now rewrite E. Qed.
(* tuning again changes nothing *)
Lemma retune srinv p s0 s1 s : in_range p -> length (vo_bands s0) = 20%nat -> voc_update srinv p s0 = Ok s1 -> map cfs (vo_bands s) = map cfs (vo_bands s1) -> vo_active s = vo_active s1 -> voc_update srinv p s = Ok s.
Proof.
  intros (lo & hi & c & x & E1 & E2 & E3 & E4 & _ & _ & _ & _ & _ & Hn & _) L E M Ac.
  destruct (C224_placement srinv p s0 lo hi c x L ltac:(lia) E1 E2 E3 E4) as (bs0 & E' & L0 & U0 & T0). assert (Es : s1 = mk_voc bs0 (vo_gain s0) (vo_bi s0) (vp_nbands p - Z.rem (vp_nbands p) 4)) by congruence. subst s1. cbn [vo_bands vo_active] in M, Ac.
  assert (Ls : length (vo_bands s) = 20%nat) by (rewrite <- (map_length cfs), M, map_length; lia).
  destruct (C224_placement srinv p s lo hi c x Ls ltac:(lia) E1 E2 E3 E4) as (bs & -> & Lb & U1 & T1). destruct s as [sb sg si sa]. cbn [vo_bands vo_gain vo_bi vo_active] in *. subst sa. do 2 f_equal.
  apply (nth_ext _ _ vb_new vb_new); [exact Lb|]. intros i _. destruct (Nat.lt_ge_cases i (Z.to_nat (vp_nbands p - Z.rem (vp_nbands p) 4))) as [Hi|Hi]; [|now apply U1].
  specialize (T0 i Hi). specialize (T1 i Hi). pose proof (nth_cfs _ _ i M) as C. cbv zeta in T0, T1. set (b := nth i bs vb_new) in *. set (b0 := nth i bs0 vb_new) in *. set (b1 := nth i sb vb_new) in *.
  destruct T0 as (A1 & A2 & A3 & _). destruct T1 as (B1 & B2 & B3 & R1 & R2 & R3 & R4).
  assert (EQ : forall F Q t t', tuned_to srinv F Q t -> tuned_to srinv F Q t' -> cf t = cf t') by (intros F Q t t' (X1 & X2 & X3) (Y1 & Y2 & Y3); unfold cf; congruence).
  assert (Cm : cf (vb_m b1) = cf (vb_m b0)) by (unfold cfs in C; congruence). assert (Cl : cf (vb_l b1) = cf (vb_l b0)) by (unfold cfs in C; congruence). assert (Cr : cf (vb_r b1) = cf (vb_r b0)) by (unfold cfs in C; congruence).
  assert (S1 : vb_l b = vb_l b1) by (apply svf_eq; [rewrite Cl; eapply EQ; eassumption|exact R1]). assert (S2 : vb_r b = vb_r b1) by (apply svf_eq; [rewrite Cr; eapply EQ; eassumption|exact R2]). assert (S3 : vb_m b = vb_m b1) by (apply svf_eq; [rewrite Cm; eapply EQ; eassumption|exact R3]).
  destruct b as [bm bl br be], b1 as [cm cl cr ce]. cbn in *. congruence.
Qed.

(** ** C226 *)
Lemma band_bounded f1 f2 q : stable f1 q -> stable f2 q -> exists K, 0 < K /\ forall X, 0 <= X -> exists I : svf1 -> Prop, (forall s, cf s = (f1, f2, q) -> regs s = (0, 0, 0, 0) -> I s) /\
  forall s x, I s -> Rabs x <= X -> I (fst (sv_bpf s x)) /\ Rabs (snd (sv_bpf s x)) <= K * X.
Proof.
  intros S1 S2. destruct (loop_invariant f1 q S1) as (K1 & HK1 & H1). destruct (loop_invariant f2 q S2) as (K2 & HK2 & H2). exists (K2 * K1). split; [apply Rmult_lt_0_compat; assumption|]. intros X HX.
  destruct (H1 X HX) as (I1 & Z1 & B1 & C1). assert (HX1 : 0 <= K1 * X) by (apply Rmult_le_pos; lra). destruct (H2 _ HX1) as (I2 & Z2 & B2 & C2).
  exists (fun s => cf s = (f1, f2, q) /\ I1 (v_l1 s) (v_b1 s) /\ I2 (v_l2 s) (v_b2 s)). split.
  - intros s Hc Hr. split; [exact Hc|]. unfold regs in Hr. assert (v_l1 s = 0 /\ v_b1 s = 0 /\ v_l2 s = 0 /\ v_b2 s = 0) as (-> & -> & -> & ->) by (repeat split; congruence). auto.
  - intros s x (Hc & G1 & G2) Hx. rewrite bpf_cf. unfold cf in Hc. assert (v_f1 s = f1 /\ v_f2 s = f2 /\ v_q s = q) as (F1 & F2 & Q) by (repeat split; congruence).
    assert (A1 : I1 (v_l1 (fst (sv_bpf s x))) (v_b1 (fst (sv_bpf s x)))). { unfold sv_bpf. cbv zeta. cbn [fst v_l1 v_b1]. rewrite F1, Q. specialize (C1 x _ _ G1 Hx). replace (f1 * v_b1 s + v_l1 s) with (v_l1 s + f1 * v_b1 s) by ring. replace (f1 * (x * q - (v_l1 s + f1 * v_b1 s) - q * v_b1 s) + v_b1 s) with (v_b1 s + f1 * (q * x - (v_l1 s + f1 * v_b1 s) - q * v_b1 s)) by ring. exact C1. }
    assert (A2 : I2 (v_l2 (fst (sv_bpf s x))) (v_b2 (fst (sv_bpf s x)))).
    { specialize (C2 (v_b1 (fst (sv_bpf s x))) _ _ G2 (B1 _ _ A1)). change (v_l2 (fst (sv_bpf s x))) with (v_f2 s * v_b2 s + v_l2 s). change (v_b2 (fst (sv_bpf s x))) with (v_f2 s * (v_b1 (fst (sv_bpf s x)) * v_q s - (v_f2 s * v_b2 s + v_l2 s) - v_q s * v_b2 s) + v_b2 s). rewrite F2, Q.
      set (y := v_b1 (fst (sv_bpf s x))) in *. replace (f2 * v_b2 s + v_l2 s) with (v_l2 s + f2 * v_b2 s) by ring. replace (f2 * (y * q - (v_l2 s + f2 * v_b2 s) - q * v_b2 s) + v_b2 s) with (v_b2 s + f2 * (q * y - (v_l2 s + f2 * v_b2 s) - q * v_b2 s)) by ring. exact C2. }
    split; [unfold cf; rewrite F1, F2, Q; auto|]. change (snd (sv_bpf s x)) with (v_b2 (fst (sv_bpf s x))). rewrite Rmult_assoc. apply (B2 _ _ A2).
Qed.
Definition quiet (b : vband) : Prop := regs (vb_l b) = (0, 0, 0, 0) /\ regs (vb_r b) = (0, 0, 0, 0) /\ 0 <= vb_e b <= 6.
Lemma env_range rate gate e y : 0 <= rate <= 1 -> 0 <= e <= 6 -> let z := Rmin (y * y) 6 in let z := if Rle_dec gate z then z else 0 in 0 <= e * (1 - rate) + rate * z <= 6.
Proof.
  intros Hr He z0. cbv zeta. assert (0 <= z0 <= 6). { unfold z0. split; [apply Rmin_glb; [exact (Rle_0_sqr y)|lra]|apply Rmin_r]. } set (z := if Rle_dec gate z0 then z0 else 0). assert (0 <= z <= 6) by (unfold z; destruct (Rle_dec gate z0); lra).
  assert (0 <= e * (1 - rate) <= 6 * (1 - rate)) by (split; [apply Rmult_le_pos; lra|apply Rmult_le_compat_r; lra]). assert (0 <= rate * z <= rate * 6) by (split; [apply Rmult_le_pos; lra|apply Rmult_le_compat_l; lra]). lra.
Qed.
Lemma steps_bounded sq S : 0 <= S -> (forall e, 0 <= e <= 6 -> 0 <= sq e <= S) -> forall n bs, (n <= length bs)%nat ->
  (forall i, (i < n)%nat -> let b := nth i bs vb_new in quiet b /\ forall t, In t [vb_l b; vb_r b] -> stable (v_f1 t) (v_q t) /\ stable (v_f2 t) (v_q t)) ->
  exists K, 0 < K /\ forall X, 0 <= X -> exists INV : list vband -> Prop, INV bs /\
  forall bs' rate gate m l r, INV bs' -> 0 <= rate <= 1 -> Rabs l <= X -> Rabs r <= X -> INV (fst (vb_steps sq rate gate n bs' m l r)) /\ Rabs (fst (snd (vb_steps sq rate gate n bs' m l r))) <= K * X /\ Rabs (snd (snd (vb_steps sq rate gate n bs' m l r))) <= K * X.
Proof.
  intros HS Hsq. induction n as [|n IH]; intros bs L H.
  - exists 1. split; [lra|]. intros X HX. exists (fun _ => True). split; [exact I|]. intros bs' rate gate m l r _ _ _ _. split; [exact I|]. cbn [vb_steps snd fst]. rewrite Rabs_R0. lra.
  - destruct bs as [|b bs]; [cbn in L; lia|]. cbn [length] in L. destruct (IH bs ltac:(lia)) as (K & HK & T). { intros i Hi. specialize (H (Datatypes.S i) ltac:(lia)). exact H. }
    specialize (H 0%nat ltac:(lia)). cbv zeta in H. cbn [nth] in H. destruct H as ((Ql & Qr & Qe) & St). destruct (St (vb_l b)) as (L1 & L2); [left; reflexivity|]. destruct (St (vb_r b)) as (R1 & R2); [right; left; reflexivity|].
    destruct (band_bounded _ _ _ L1 L2) as (Kl & HKl & Bl). destruct (band_bounded _ _ _ R1 R2) as (Kr & HKr & Br). exists (K + (Kl + Kr) * S). assert (P0 : 0 <= (Kl + Kr) * S) by (apply Rmult_le_pos; lra). split; [lra|]. intros X HX.
    assert (HX2 : 0 <= X * S) by (apply Rmult_le_pos; assumption). destruct (Bl _ HX2) as (Il & Zl & Cl). destruct (Br _ HX2) as (Ir & Zr & Cr). destruct (T X HX) as (INV & V0 & V1).
    exists (fun bs' => match bs' with b' :: t => Il (vb_l b') /\ Ir (vb_r b') /\ 0 <= vb_e b' <= 6 /\ INV t | [] => False end). split; [split; [apply Zl; [reflexivity|exact Ql]|split; [apply Zr; [reflexivity|exact Qr]|auto]]|].
    intros [|b' t] rate gate m l r G Hr Hl Hrr; [contradiction|]. destruct G as (G1 & G2 & G3 & G4). specialize (V1 t rate gate m l r G4 Hr Hl Hrr). cbn [vb_steps]. destruct (vb_steps sq rate gate n t m l r) as [t1 z]. cbn [fst snd] in V1. destruct V1 as (V1 & V2 & V3).
    unfold vb_step. destruct (sv_bpf (vb_m b') m) as [sm y]. pose proof (env_range rate gate (vb_e b') y Hr G3) as He. cbv zeta in He. cbv zeta. set (e := vb_e b' * (1 - rate) + rate * (if Rle_dec gate (Rmin (y * y) 6) then Rmin (y * y) 6 else 0)) in *. specialize (Hsq e He).
    assert (In1 : forall u, Rabs u <= X -> Rabs (u * sq e) <= X * S). { intros u Hu. rewrite Rabs_mult, (Rabs_right (sq e)) by lra. apply Rmult_le_compat; try lra. apply Rabs_pos. }
    destruct (Cl _ _ G1 (In1 l Hl)) as (A1 & A2). destruct (Cr _ _ G2 (In1 r Hrr)) as (A3 & A4). destruct (sv_bpf (vb_l b') (l * sq e)) as [sl yl]. destruct (sv_bpf (vb_r b') (r * sq e)) as [sr yr]. cbn [fst snd vb_l vb_r vb_e] in *.
    split; [auto|]. pose proof (Rabs_triang yl (fst z)). pose proof (Rabs_triang yr (snd z)). assert (0 <= Kl * (X * S)) by (apply Rmult_le_pos; lra). assert (0 <= Kr * (X * S)) by (apply Rmult_le_pos; lra).
    replace ((K + (Kl + Kr) * S) * X) with (K * X + (Kl * (X * S) + Kr * (X * S))) by ring. split; lra.
Qed.
Lemma samples_inv sq dbl p A N (INV : list vband -> Prop) K X : (A <= 20)%Z -> N = (4 * Z.to_nat (Z.shiftr A 2))%nat -> 0 <= voc_rate p <= 1 ->
  (forall bs' rate gate m l r, INV bs' -> 0 <= rate <= 1 -> Rabs l <= X -> Rabs r <= X -> INV (fst (vb_steps sq rate gate N bs' m l r)) /\ Rabs (fst (snd (vb_steps sq rate gate N bs' m l r))) <= K * X /\ Rabs (snd (snd (vb_steps sq rate gate N bs' m l r))) <= K * X) ->
  forall ms xs s, vo_active s = A -> INV (vo_bands s) -> Forall (fun x => Rabs (fst x) <= X /\ Rabs (snd x) <= X) xs ->
  exists s' ys, voc_samples sq dbl p s ms xs = Ok (s', ys) /\ INV (vo_bands s') /\ vo_active s' = A /\ vo_gain s' = vo_gain s /\ vo_bi s' = vo_bi s /\ map cfs (vo_bands s') = map cfs (vo_bands s) /\ Forall (fun y => Rabs (fst y) <= 4 * K * X /\ Rabs (snd y) <= 4 * K * X) ys.
Proof.
  intros HA HN Hr HV. induction ms as [|m ms IH]; intros xs s Es Hs Hx; [exists s, []; repeat split; auto|]. destruct xs as [|x xs]; [exists s, []; repeat split; auto|]. inversion Hx as [|? ? (X1 & X2) Hx']; subst.
  cbn [voc_samples]. unfold voc_sample. replace (vo_active s <=? N_VOCODER_BANDS)%Z with true by (symmetry; apply Z.leb_le; unfold N_VOCODER_BANDS; lia).
  pose proof (HV (vo_bands s) (voc_rate p) (voc_gate dbl p) m (fst x) (snd x) Hs Hr X1 X2) as (V1 & V2 & V3). pose proof (steps_cfs sq (voc_rate p) (voc_gate dbl p) (4 * Z.to_nat (Z.shiftr (vo_active s) 2)) (vo_bands s) m (fst x) (snd x)) as MC. destruct (vb_steps sq (voc_rate p) (voc_gate dbl p) (4 * Z.to_nat (Z.shiftr (vo_active s) 2)) (vo_bands s) m (fst x) (snd x)) as [bs y]. cbn [fst snd] in V1, V2, V3, MC. cbn [obind fst snd].
  destruct (IH xs (mk_voc bs (vo_gain s) (vo_bi s) (vo_active s)) eq_refl V1 Hx') as (s' & ys & E & B1 & B2 & B3 & B4 & B5 & B6). rewrite E. cbn [obind fst snd]. eexists _, _. split; [reflexivity|]. repeat (split; [first [assumption|now rewrite B5, <- MC]|]).
  constructor; [|exact B6]. cbn [fst snd]. rewrite !Rabs_mult, (Rabs_right 4) by lra. split; lra.
Qed.
Lemma rate_range p : 0 <= vp_rate p <= 1 -> 0 <= voc_rate p <= 1.
Proof.
  intros H. unfold voc_rate. assert (0 < Rpower 2 (4 * vp_rate p)) by apply exp_pos. assert (Rpower 2 (4 * vp_rate p) <= Rpower 2 4) by (apply Rle_Rpower; lra). replace (Rpower 2 4) with 16 in H1; [lra|]. replace 4 with (INR 4) by (cbn; lra). rewrite Rpower_pow by lra. ring.
Qed.
Definition block_ok (p : vpar) (X : R) (e : vpar * list (R * R) * list (R * R)) : Prop := let '(q, side, xs) := e in same_tuning q p /\ 0 <= vp_rate q <= 1 /\ Forall (fun x => Rabs (fst x) <= X /\ Rabs (snd x) <= X) xs.
(* With settings in range at 44100 Hz or above, Gain, Gate, Rate and the side chain free in every block: no block fails, and the output is at most
   a constant times the carrier's bound, however loud the side chain. sq is any approximate square root bounded by S on [0, 6]. *)
Theorem C226_bounded : forall sq S dbl srinv p, 0 <= S -> (forall e, 0 <= e <= 6 -> 0 <= sq e <= S) -> 0 < srinv <= 1 / 44100 -> in_range p ->
  exists s0 K, voc_init srinv p voc_new = Ok s0 /\ 0 < K /\ forall h X, 0 <= X -> Forall (block_ok p X) h -> exists s ys, voc_run sq dbl srinv h s0 = Ok (s, ys) /\ Forall (Forall (fun y => Rabs (fst y) <= K * X /\ Rabs (snd y) <= K * X)) ys.
Proof.
  intros sq S dbl srinv p HS Hsq Hr Hp. destruct (C225_init_succeeds srinv p voc_new Hp eq_refl) as (s0 & E0 & L0). destruct (C225_stable_in_range srinv p voc_new s0 Hr Hp eq_refl E0) as (A & St).
  assert (A4 : (4 * Z.to_nat (Z.shiftr (vo_active s0) 2) = Z.to_nat (vo_active s0))%nat).
  { pose proof Hp as (lo & hi & c & x & E1 & E2 & E3 & E4 & _ & _ & _ & _ & _ & Hn & _). destruct (C224_placement srinv p voc_new lo hi c x eq_refl ltac:(lia) E1 E2 E3 E4) as (bs & E' & _). unfold voc_init in E0. assert (Es : vo_active s0 = (vp_nbands p - Z.rem (vp_nbands p) 4)%Z) by (replace s0 with (mk_voc bs (vo_gain voc_new) (vo_bi voc_new) (vp_nbands p - Z.rem (vp_nbands p) 4)) by congruence; reflexivity). rewrite Es. rewrite Z.shiftr_div_pow2 by lia. change (2 ^ 2)%Z with 4%Z. rewrite Z.rem_mod_nonneg by lia. pose proof (Z.div_mod (vp_nbands p) 4 ltac:(lia)) as D. pose proof (Z.mod_pos_bound (vp_nbands p) 4 ltac:(lia)).
    replace (vp_nbands p - vp_nbands p mod 4)%Z with (vp_nbands p / 4 * 4)%Z by lia. rewrite Z.div_mul by lia. assert (0 <= vp_nbands p / 4)%Z by (apply Z.div_pos; lia). lia. }
  destruct (steps_bounded sq S HS Hsq (4 * Z.to_nat (Z.shiftr (vo_active s0) 2)) (vo_bands s0)) as (K & HK & T).
  { lia. }
  { intros i Hi. rewrite A4 in Hi. specialize (St i Hi). cbv zeta in *. split; [|intros t Ht; apply St; right; exact Ht].
    pose proof Hp as (lo & hi & c & x & E1 & E2 & E3 & E4 & _ & _ & _ & _ & _ & Hn & _). destruct (C224_placement srinv p voc_new lo hi c x eq_refl ltac:(lia) E1 E2 E3 E4) as (bs & E' & _ & _ & TT). unfold voc_init in E0. assert (Es : s0 = mk_voc bs (vo_gain voc_new) (vo_bi voc_new) (vp_nbands p - Z.rem (vp_nbands p) 4)) by congruence. rewrite Es in Hi |- *. cbn [vo_active vo_bands] in *. specialize (TT i Hi). cbv zeta in TT. destruct TT as (_ & _ & _ & R1 & R2 & _ & R4).
    assert (N0 : nth i (vo_bands voc_new) vb_new = vb_new) by (cbn [vo_bands voc_new]; apply nth_repeat). rewrite N0 in *. unfold quiet. rewrite R1, R2, R4. cbn. repeat split; lra. }
  exists s0, (4 * K). split; [exact E0|]. split; [lra|]. intros h X HX. destruct (T X HX) as (INV & V0 & V1).
  assert (G : forall h s, Forall (block_ok p X) h -> INV (vo_bands s) -> vo_active s = vo_active s0 -> map cfs (vo_bands s) = map cfs (vo_bands s0) -> exists s' ys, voc_run sq dbl srinv h s = Ok (s', ys) /\ Forall (Forall (fun y => Rabs (fst y) <= 4 * K * X /\ Rabs (snd y) <= 4 * K * X)) ys).
  { clear h. induction h as [|((q, side), xs) h IH]; intros s Hh Is As Ms; [exists s, []; split; [reflexivity|constructor]|]. inversion Hh as [|? ? Hq Hh']; subst. destruct Hq as (Q1 & Q2 & Q3). cbn [voc_run]. unfold voc_process. cbv zeta.
    set (s1 := mk_voc (vo_bands s) (vo_gain s) (Z.land (vo_bi s + 1) 63) (vo_active s)).
    match goal with |- context [obind (obind ?z _) _] => assert (U : z = Ok s1) end. { destruct (Z.land (vo_bi s + 1) 63 =? 0)%Z; [|reflexivity]. rewrite (update_same srinv q p) by exact Q1. exact (retune srinv p voc_new s0 s1 Hp eq_refl E0 Ms As). }
    rewrite U. cbn [obind]. set (g := ps_set_target_smoothed arithR (vo_gain s1) (dbl (voc_db q))).
    destruct (samples_inv sq dbl q (vo_active s0) _ INV K X ltac:(lia) eq_refl (rate_range q Q2) V1 (voc_modulator g side) xs (mk_voc (vo_bands s1) g (vo_bi s1) (vo_active s1)) As Is Q3) as (s2 & ys & E & B1 & B2 & _ & _ & B5 & B6). rewrite E. cbn [obind fst snd].
    destruct (IH s2 Hh' B1 B2) as (s3 & yss & E3 & B7). { rewrite B5. exact Ms. } rewrite E3. cbn [obind fst snd]. eexists _, _. split; [reflexivity|]. constructor; assumption. }
  intros Hh. apply (G h s0 Hh V0 eq_refl eq_refl).
Qed.
Example C226_ex : (forall e, 0 <= e <= 6 -> 0 <= sqrt e <= 3) /\ Forall (block_ok p_ex 1) [(p_ex, [(1, 0)], [(1 / 2, -1)])].
Proof.
  split. { intros e He. split; [apply sqrt_pos|]. rewrite <- (sqrt_square 3) by lra. apply sqrt_le_1; lra. }
  repeat constructor; cbn; try lra; unfold Rabs; destruct (Rcase_abs _); lra.
Qed.
Print Assumptions C226_bounded.
