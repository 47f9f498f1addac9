(* FshiftProofs2.v - the frequency shifter over any number of blocks. *)
From Coq Require Import Reals Lra Psatz Lia.
From Coquelicot Require Rcomplements.
From Flocq Require Import Core.Core.
From Verif Require Import Base Util BlockModel RampProps LagModel LagProps MathModel ParamModel LfoModel TableProps UnitModel DelayModel DelayProps QfModel HalfModel HalfProps HalfProps2 ChorusModel ChorusProps OscProps RotaryModel RotaryProps FshiftModel FshiftProofs.
Local Open Scope R_scope.

(* the right channel's oscillators are never locked, or always and start with the left ones' angles *)
Definition steady (P : nat -> fspar) (f1l f2l f1r f2r : R) : Prop :=
  (forall j, fs_locked (P j) = false) \/ ((forall j, fs_locked (P j) = true) /\ f1r = f1l /\ f2r = f2l).
Lemma divmod n j : (j < 32)%nat -> ((32 * n + j) / 32 = n /\ (32 * n + j) mod 32 = j)%nat.
Proof. intros J. split; [symmetry; apply (Nat.div_unique _ _ _ j); lia|symmetry; apply (Nat.mod_unique _ _ n); lia]. Qed.
Section Fs.
Variables (tab ws : Z -> R) (sr : R) (A B : list R) (P : nat -> fspar) (In : nat -> R * R) (f1l f2l f1r f2r v0 g0 : R) (m0 : lipolps R).
Definition a1l : nat -> R := ang f1l (per (fun j => fs_rate1 (fs_omega sr (P j)))).
Definition a2l : nat -> R := ang f2l (per (fun j => fs_rate2 (fs_omega sr (P j)))).
Definition a1r : nat -> R := ang f1r (per (fun j => fs_rate1 (fs_omega_r sr (P j)))).
Definition a2r : nat -> R := ang f2r (per (fun j => fs_rate2 (fs_omega_r sr (P j)))).
Definition vt : nat -> R := lagv v0 (per (fun j => fs_target sr (P j))).
Definition fbt : nat -> R := fbv g0 (fun j => fp_gain (P j)).
Definition mixn (n : nat) : lipolps R := mixat m0 (fun j => fp_mix (P j)) n.

(* xl, xr: what the lines give; hl, hr: what they are given; all of it up to block n *)
Definition lines (n : nat) (xl xr : nat -> R) (hl hr : Z -> R) : Prop :=
  (forall u, (u < 0)%Z -> hl u = 0 /\ hr u = 0) /\
  forall t, (t < 32 * n)%nat ->
    xl t = fread tab hl (Z.of_nat t) (vt t) /\ xr t = fread tab hr (Z.of_nat t) (vt t) /\
    hl (Z.of_nat t) = fst (In t) + shaped ws (wetf A B xl a1l a2l t * fbt t) /\ hr (Z.of_nat t) = snd (In t) + shaped ws (wetf A B xr a1r a2r t * fbt t).
(* what is heard *)
Definition out (xl xr : nat -> R) (t : nat) : R * R :=
  ch_fade (mixn (Datatypes.S (t / 32))) (Z.of_nat (t mod 32)) (In t) (wetf A B xl a1l a2l t, wetf A B xr a1r a2r t).
Definition fs_at (n : nat) (xl xr : nat -> R) (hl hr : Z -> R) (s : fshift) : Prop :=
  fs_wpos s = ((32 * Z.of_nat n) mod DLEN)%Z /\ keeps (32 * Z.of_nat n) hl (fs_bl s) /\ keeps (32 * Z.of_nat n) hr (fs_br s) /\
  heard A B (psin xl a1l) (psin xr a1r) (32 * n) (fs_fr s) /\ heard A B (pcos xl a1l) (pcos xr a1r) (32 * n) (fs_fi s) /\
  isat (fs_o1l s) (pang f1l (per (fun j => fs_rate1 (fs_omega sr (P j)))) (32 * n)) /\ isat (fs_o2l s) (pang f2l (per (fun j => fs_rate2 (fs_omega sr (P j)))) (32 * n)) /\
  isat (fs_o1r s) (pang f1r (per (fun j => fs_rate1 (fs_omega_r sr (P j)))) (32 * n)) /\ isat (fs_o2r s) (pang f2r (per (fun j => fs_rate2 (fs_omega_r sr (P j)))) (32 * n)) /\
  (l_v (fs_time s) = plag v0 (per (fun j => fs_target sr (P j))) (32 * n) /\ l_lp (fs_time s) = 1 / 10000 /\ l_lpinv (fs_time s) = 996 / 1000 /\ l_first (fs_time s) = false) /\
  (p_new (fs_fb s) = prev g0 (fun j => fp_gain (P j)) n /\ p_bsinv (fs_fb s) = 1 / 32 /\ p_first (fs_fb s) = false) /\ fs_mix s = mixn n.

Hypothesis AB : length A = length B.
Hypothesis ST : steady P f1l f2l f1r f2r.
Hypothesis VB : forall t, Rabs (vt t) <= 8000000.

Lemma ang_ext f w w' t : (forall t, w t = w' t) -> ang f w t = ang f w' t.
Proof. intros E. induction t as [|t IH]; cbn [ang]; now rewrite ?IH, E. Qed.
Lemma pang_ext f w w' t : (forall t, w t = w' t) -> pang f w t = pang f w' t.
Proof. intros E. destruct t; [reflexivity|]. cbn [pang]. now apply ang_ext. Qed.
Lemma lock_same phi q r : isat q phi -> isat r phi -> isat (fs_lock q r) phi.
Proof. intros (Q1 & Q2) (R1 & R2). unfold isat, fs_lock. cbn [qo_r qo_i]. rewrite Q1, Q2, R1, R2. split; field. Qed.
Lemma rate_ok q w phi : isat q phi -> exists q', qo_set_rate q w = Ok q' /\ isat q' phi /\ turns_by q' w.
Proof. intros (Q1 & Q2). rewrite (qo_rate_unit q w phi Q1 Q2). eexists. split; [reflexivity|]. repeat split. Qed.
Lemma update_at n xl xr hl hr s : fs_at n xl xr hl hr s -> exists a b c d,
  fs_update sr (P n) s = Ok (mk_fs (fs_fr s) (fs_fi s) (mixn (Datatypes.S n)) (lipol_new_value (fs_fb s) (fp_gain (P n))) (lag_new_value (fs_time s) (fs_target sr (P n))) (fs_bl s) (fs_br s) (fs_wpos s) a b c d) /\
  isat a (pang f1l (per (fun j => fs_rate1 (fs_omega sr (P j)))) (32 * n)) /\ isat b (pang f2l (per (fun j => fs_rate2 (fs_omega sr (P j)))) (32 * n)) /\
  isat c (pang f1r (per (fun j => fs_rate1 (fs_omega_r sr (P j)))) (32 * n)) /\ isat d (pang f2r (per (fun j => fs_rate2 (fs_omega_r sr (P j)))) (32 * n)) /\
  turns_by a (fs_rate1 (fs_omega sr (P n))) /\ turns_by b (fs_rate2 (fs_omega sr (P n))) /\ turns_by c (fs_rate1 (fs_omega_r sr (P n))) /\ turns_by d (fs_rate2 (fs_omega_r sr (P n))).
Proof.
  intros (_ & _ & _ & _ & _ & O1 & O2 & O3 & O4 & _ & _ & M). unfold fs_update. cbv zeta.
  destruct (rate_ok _ (fs_rate1 (fs_omega sr (P n))) _ O1) as (a & Ea & Ia & Ta). destruct (rate_ok _ (fs_rate2 (fs_omega sr (P n))) _ O2) as (b & Eb & Ib & Tb). rewrite Ea. cbn [obind]. rewrite Eb. cbn [obind].
  assert (C : isat (if fs_locked (P n) then fs_lock a (fs_o1r s) else fs_o1r s) (pang f1r (per (fun j => fs_rate1 (fs_omega_r sr (P j)))) (32 * n)) /\ isat (if fs_locked (P n) then fs_lock b (fs_o2r s) else fs_o2r s) (pang f2r (per (fun j => fs_rate2 (fs_omega_r sr (P j)))) (32 * n))).
  { destruct ST as [S1|(S1 & E1 & E2)]; rewrite S1; [split; assumption|].
    assert (Q : forall t, per (fun j => fs_rate1 (fs_omega_r sr (P j))) t = per (fun j => fs_rate1 (fs_omega sr (P j))) t) by (intros t; unfold per, fs_omega_r; now rewrite S1).
    assert (Q' : forall t, per (fun j => fs_rate2 (fs_omega_r sr (P j))) t = per (fun j => fs_rate2 (fs_omega sr (P j))) t) by (intros t; unfold per, fs_omega_r; now rewrite S1).
    rewrite (pang_ext _ _ _ _ Q), (pang_ext _ _ _ _ Q'), E1, E2 in *. split; apply lock_same; assumption. }
  destruct C as (C1 & C2). destruct (rate_ok _ (fs_rate1 (fs_omega_r sr (P n))) _ C1) as (c & Ec & Ic & Tc). destruct (rate_ok _ (fs_rate2 (fs_omega_r sr (P n))) _ C2) as (d & Ed & Id & Td).
  rewrite Ec. cbn [obind]. rewrite Ed. cbn [obind]. exists a, b, c, d. split; [rewrite M; reflexivity|]. auto 10.
Qed.
Lemma cut_map (f : nat -> R) n : cut f n 32 = map (fun j => f (n + j)%nat) (seq 0 32).
Proof.
  unfold cut. assert (X : forall q a, map (fun k => (n + k)%nat) (seq a q) = seq (n + a) q) by (induction q as [|q IH]; intros a; [reflexivity|]; cbn [seq map]; rewrite IH, Nat.add_succ_r; reflexivity).
  rewrite <- (Nat.add_0_r n) at 1. rewrite <- X, map_map. reflexivity.
Qed.
Lemma wet_below x y a b t : (forall k, (k <= t)%nat -> x k = y k) -> wetf A B x a b t = wetf A B y a b t.
Proof. intros E. unfold wetf. rewrite (lowpass_below A B (psin x a) (psin y a) t), (lowpass_below A B (pcos x a) (pcos y a) t); [reflexivity| |]; intros k K; unfold psin, pcos; now rewrite E. Qed.

Lemma block_at n xl xr hl hr s : fs_at n xl xr hl hr s -> lines n xl xr hl hr ->
  exists s' xl' xr' hl' hr', fs_process tab ws sr (P n) s (map In (seq (32 * n) 32)) = Ok (s', map (fun j => out xl' xr' (32 * n + j)) (seq 0 32)) /\
    fs_at (n + 1) xl' xr' hl' hr' s' /\ lines (n + 1) xl' xr' hl' hr' /\ (forall t, (t < 32 * n)%nat -> xl' t = xl t /\ xr' t = xr t).
Proof.
  intros At Li. destruct (update_at n xl xr hl hr s At) as (a & b & c & d & EU & I1 & I2 & I3 & I4 & T1 & T2 & T3 & T4).
  destruct At as (W & Kl & Kr & Hr & Hi & _ & _ & _ & _ & (V1 & V2 & V3 & V4) & (G1 & G2 & G3) & M). destruct Li as (L0 & L1).
  set (xl' := fun t => if (t <? 32 * n)%nat then xl t else fread tab hl (Z.of_nat t) (vt t)). set (xr' := fun t => if (t <? 32 * n)%nat then xr t else fread tab hr (Z.of_nat t) (vt t)).
  set (hl' := fun u => if ((32 * Z.of_nat n <=? u) && (u <? 32 * Z.of_nat n + 32))%Z then fst (In (Z.to_nat u)) + shaped ws (wetf A B xl' a1l a2l (Z.to_nat u) * fbt (Z.to_nat u)) else hl u).
  set (hr' := fun u => if ((32 * Z.of_nat n <=? u) && (u <? 32 * Z.of_nat n + 32))%Z then snd (In (Z.to_nat u)) + shaped ws (wetf A B xr' a1r a2r (Z.to_nat u) * fbt (Z.to_nat u)) else hr u).
  assert (Xl : forall t, (t < 32 * n)%nat -> xl' t = xl t /\ xr' t = xr t) by (intros t Ht; unfold xl', xr'; replace (t <? 32 * n)%nat with true by (symmetry; apply Nat.ltb_lt; exact Ht); auto).
  assert (Xn : forall j, (j < 32)%nat -> xl' (32 * n + j)%nat = fread tab hl (32 * Z.of_nat n + Z.of_nat j) (vt (32 * n + j)) /\ xr' (32 * n + j)%nat = fread tab hr (32 * Z.of_nat n + Z.of_nat j) (vt (32 * n + j))).
  { intros j J. unfold xl', xr'. replace (32 * n + j <? 32 * n)%nat with false by (symmetry; apply Nat.ltb_ge; lia). replace (Z.of_nat (32 * n + j)) with (32 * Z.of_nat n + Z.of_nat j)%Z by lia. auto. }
  assert (Hold : forall u, (u < 32 * Z.of_nat n)%Z -> hl' u = hl u /\ hr' u = hr u) by (intros u U; unfold hl', hr'; replace (32 * Z.of_nat n <=? u)%Z with false by lia; auto).
  unfold fs_process. rewrite EU. cbn [obind].
  set (lg := lag_new_value (fs_time s) (fs_target sr (P n))) in *.
  assert (LG : l_lp lg = 1 / 10000 /\ l_lpinv lg = 996 / 1000 /\ l_target lg = fs_target sr (P n) /\ l_v lg = plag v0 (per (fun j => fs_target sr (P j))) (32 * n) /\ l_first lg = false).
  { unfold lg, lag_new_value. rewrite V4. cbn [l_lp l_lpinv l_target l_v l_first]. auto. }
  destruct LG as (LG1 & LG2 & LG3 & LG4 & LG5).
  pose proof (lag_block v0 (fun j => fs_target sr (P j)) n lg LG1 LG2 LG3 LG4) as LB. cbv zeta in LB.
  assert (LV : forall j, (j < 32)%nat -> l_v (Nat.iter (Datatypes.S j) lag_process lg) = vt (32 * n + j)) by (intros j J; apply (LB j J)).
  match goal with |- context [fs_pres tab 32 0 ?s1] => destruct (pres_spec tab (Z.of_nat n) hl hr ltac:(lia) 32 0 s1 _ _ _ _ ltac:(lia) ltac:(lia) W Kl Kr I1 T1 I3 T3) as (a' & c' & Ia' & Ic' & EP) end.
  { cbn [fs_time]. intros j J. rewrite (LV j J). apply VB. }
  rewrite EP. clear EP. cbn [obind fs_fr fs_fi fs_mix fs_fb fs_time fs_bl fs_br fs_wpos fs_o1l fs_o2l fs_o1r fs_o2r]. cbv zeta. rewrite !map_map. cbn [fst snd].
  assert (F : forall (g : R -> R) f0 Wf h x', (forall j, (j < 32)%nat -> x' (32 * n + j)%nat = fread tab h (32 * Z.of_nat n + Z.of_nat j) (vt (32 * n + j))) ->
    map (fun j => fread tab h (32 * Z.of_nat n + 0 + Z.of_nat j) (l_v (Nat.iter (Datatypes.S j) lag_process lg)) * g (pang f0 (per Wf) (32 * n) + INR (Datatypes.S j) * Wf n)) (seq 0 32) = cut (fun t => x' t * g (ang f0 (per Wf) t)) (32 * n) 32).
  { intros g f0 Wf h x' Hx. rewrite cut_map. apply map_ext_in. intros j J. apply in_seq in J. rewrite (LV j) by lia. rewrite Hx by lia. rewrite (ang_block f0 Wf n j) by lia. rewrite Z.add_0_r. reflexivity. }
  rewrite (F sin f1l (fun j => fs_rate1 (fs_omega sr (P j))) hl xl') by (intros; now apply Xn).
  rewrite (F sin f1r (fun j => fs_rate1 (fs_omega_r sr (P j))) hr xr') by (intros; now apply Xn).
  rewrite (F (fun z => - cos z) f1l (fun j => fs_rate1 (fs_omega sr (P j))) hl xl') by (intros; now apply Xn).
  rewrite (F (fun z => - cos z) f1r (fun j => fs_rate1 (fs_omega_r sr (P j))) hr xr') by (intros; now apply Xn).
  clear F. change (fun t : nat => xl' t * sin (ang f1l (per (fun j => fs_rate1 (fs_omega sr (P j)))) t)) with (psin xl' a1l). change (fun t : nat => xr' t * sin (ang f1r (per (fun j => fs_rate1 (fs_omega_r sr (P j)))) t)) with (psin xr' a1r).
  change (fun t : nat => xl' t * - cos (ang f1l (per (fun j => fs_rate1 (fs_omega sr (P j)))) t)) with (pcos xl' a1l). change (fun t : nat => xr' t * - cos (ang f1r (per (fun j => fs_rate1 (fs_omega_r sr (P j)))) t)) with (pcos xr' a1r).
  apply (heard_below A B _ _ (psin xl' a1l) (psin xr' a1r)) in Hr; [|intros k K; unfold psin; destruct (Xl k K) as [-> ->]; auto].
  apply (heard_below A B _ _ (pcos xl' a1l) (pcos xr' a1r)) in Hi; [|intros k K; unfold pcos; destruct (Xl k K) as [-> ->]; auto].
  destruct (heard_block A B _ _ _ _ AB Hr) as (fr1 & EF & Hr'). destruct (heard_block A B _ _ _ _ AB Hi) as (fi1 & EI & Hi'). rewrite EF. cbn [obind]. rewrite EI. cbn [obind]. clear EF EI.
  set (lb := lipol_new_value (fs_fb s) (fp_gain (P n))) in *.
  assert (FB : forall j, (j < 32)%nat -> p_v (times (Datatypes.S j) lipol_process lb) = fbt (32 * n + j)).
  { intros j J. unfold lb. rewrite glides by exact G2. unfold from. rewrite G3, G1. unfold fbt, fbv. destruct (divmod n j J) as [-> ->]. reflexivity. }
  assert (CO : forall (f g : nat -> R) j, (j < 32)%nat -> nth j (combine (cut f (32 * n) 32) (cut g (32 * n) 32)) (0, 0) = (f (32 * n + j)%nat, g (32 * n + j)%nat)).
  { intros f g j J. rewrite combine_nth by (unfold cut; rewrite !map_length, !seq_length; reflexivity). rewrite !cut_map. rewrite !(nth_map_seq _ _ _ _ J). reflexivity. }
  assert (LX : length (map In (seq (32 * n) 32)) = 32%nat) by (rewrite map_length, seq_length; reflexivity).
  assert (NX : forall j, (j < 32)%nat -> nth j (map In (seq (32 * n) 32)) (0, 0) = In (32 * n + j)%nat).
  { intros j J. rewrite (nth_indep _ (0, 0) (In 0%nat)) by (rewrite LX; exact J). rewrite map_nth, seq_nth by exact J. reflexivity. }
  assert (LC : forall f g : nat -> R, length (combine (cut f (32 * n) 32) (cut g (32 * n) 32)) = 32%nat) by (intros; unfold cut; rewrite combine_length, !map_length, !seq_length; reflexivity).
  set (rrs := combine (cut (lowpass A B (psin xl' a1l)) (32 * n) 32) (cut (lowpass A B (psin xr' a1r)) (32 * n) 32)) in *.
  set (iis := combine (cut (lowpass A B (pcos xl' a1l)) (32 * n) 32) (cut (lowpass A B (pcos xr' a1r)) (32 * n) 32)) in *.
  assert (WL : forall j, (j < 32)%nat -> 2 * (fst (nth j rrs (0, 0)) * sin (pang f2l (per (fun j => fs_rate2 (fs_omega sr (P j)))) (32 * n) + INR (Datatypes.S j) * fs_rate2 (fs_omega sr (P n))) +
      fst (nth j iis (0, 0)) * - cos (pang f2l (per (fun j => fs_rate2 (fs_omega sr (P j)))) (32 * n) + INR (Datatypes.S j) * fs_rate2 (fs_omega sr (P n)))) = wetf A B xl' a1l a2l (32 * n + j)).
  { intros j J. unfold rrs, iis. rewrite !(CO _ _ j J). cbn [fst snd]. unfold wetf, a2l. rewrite (ang_block f2l (fun j => fs_rate2 (fs_omega sr (P j))) n j J). reflexivity. }
  assert (WR : forall j, (j < 32)%nat -> 2 * (snd (nth j rrs (0, 0)) * sin (pang f2r (per (fun j => fs_rate2 (fs_omega_r sr (P j)))) (32 * n) + INR (Datatypes.S j) * fs_rate2 (fs_omega_r sr (P n))) +
      snd (nth j iis (0, 0)) * - cos (pang f2r (per (fun j => fs_rate2 (fs_omega_r sr (P j)))) (32 * n) + INR (Datatypes.S j) * fs_rate2 (fs_omega_r sr (P n)))) = wetf A B xr' a1r a2r (32 * n + j)).
  { intros j J. unfold rrs, iis. rewrite !(CO _ _ j J). cbn [fst snd]. unfold wetf, a2r. rewrite (ang_block f2r (fun j => fs_rate2 (fs_omega_r sr (P j))) n j J). reflexivity. }
  assert (HN : forall j, (j < 32)%nat -> hl' (32 * Z.of_nat n + Z.of_nat j)%Z = fst (In (32 * n + j)%nat) + shaped ws (wetf A B xl' a1l a2l (32 * n + j) * fbt (32 * n + j)) /\
      hr' (32 * Z.of_nat n + Z.of_nat j)%Z = snd (In (32 * n + j)%nat) + shaped ws (wetf A B xr' a1r a2r (32 * n + j) * fbt (32 * n + j))).
  { intros j J. unfold hl', hr'. replace ((32 * Z.of_nat n <=? 32 * Z.of_nat n + Z.of_nat j) && (32 * Z.of_nat n + Z.of_nat j <? 32 * Z.of_nat n + 32))%Z with true by lia. replace (Z.to_nat (32 * Z.of_nat n + Z.of_nat j)) with (32 * n + j)%nat by lia. auto. }
  assert (K0 : forall h h' bb, (forall u, (u < 32 * Z.of_nat n)%Z -> h' u = h u) -> keeps (32 * Z.of_nat n) h bb -> keeps (32 * Z.of_nat n + 0) h' bb).
  { intros h h' bb Hh Hk. rewrite Z.add_0_r. apply (keeps_ext _ h); [|exact Hk]. intros u U. symmetry. apply Hh. lia. }
  match goal with |- context [fs_posts ws 0 ?xs rrs iis ?s1] => pose proof (posts_spec ws (Z.of_nat n) hl' hr' ltac:(lia) xs rrs iis 0 s1 (pang f2l (per (fun j => fs_rate2 (fs_omega sr (P j)))) (32 * n)) (fs_rate2 (fs_omega sr (P n))) (pang f2r (per (fun j => fs_rate2 (fs_omega_r sr (P j)))) (32 * n)) (fs_rate2 (fs_omega_r sr (P n)))) as PS end.
  rewrite LX in PS. cbn [fs_fr fs_fi fs_mix fs_fb fs_time fs_bl fs_br fs_wpos fs_o1l fs_o2l fs_o1r fs_o2r] in PS.
  destruct PS as (bl & br & b' & d' & Kl' & Kr' & Ib' & Id' & EP); try assumption; try lia; try (apply LC).
  { apply (K0 hl); [|exact Kl]. intros u U. apply (Hold u U). } { apply (K0 hr); [|exact Kr]. intros u U. apply (Hold u U). }
  { intros j J. rewrite (WL j J), (WR j J), (NX j J), (FB j J), Z.add_0_r. apply (HN j J). }
  rewrite EP. clear EP. cbn [obind fs_fr fs_fi fs_mix fs_fb fs_time fs_bl fs_br fs_wpos fs_o1l fs_o2l fs_o1r fs_o2r].
  eexists. exists xl', xr', hl', hr'. split; [|split; [|split]].
  - f_equal. f_equal. apply (nth_ext _ _ (0, 0) (0, 0)); [rewrite zip_length, LX, map_length, seq_length; [reflexivity|rewrite LX, map_length, seq_length; reflexivity]|].
    intros j J. assert (J' : (j < 32)%nat) by (rewrite zip_length in J; rewrite LX in *; [exact J|rewrite map_length, seq_length; reflexivity]).
    rewrite (nth_zip _ _ _ (0, 0) (0, 0)) by (rewrite ?LX, ?map_length, ?seq_length; auto). rewrite (NX j J'), !(nth_map_seq _ (0, 0) j 32 J'). unfold out. destruct (divmod n j J') as [-> ->]. rewrite (WL j J'), (WR j J'). reflexivity.
  - unfold fs_at. cbn [fs_fr fs_fi fs_mix fs_fb fs_time fs_bl fs_br fs_wpos fs_o1l fs_o2l fs_o1r fs_o2r]. rewrite !pang_block.
    replace (32 * (n + 1))%nat with (32 * n + 32)%nat by lia. replace (32 * Z.of_nat (n + 1))%Z with (32 * Z.of_nat n + 0 + Z.of_nat 32)%Z by lia.
    split; [rewrite landD, W, Zplus_mod_idemp_l; f_equal; lia|]. split; [exact Kl'|]. split; [exact Kr'|]. split; [exact Hr'|]. split; [exact Hi'|]. split; [exact Ia'|]. split; [exact Ib'|]. split; [exact Ic'|]. split; [exact Id'|].
    split. { destruct (LB 31%nat ltac:(lia)) as (B1 & B2 & B3 & _ & B5). rewrite LG5 in B5. change (Datatypes.S 31) with 32%nat in *. repeat split; try assumption. rewrite B1. replace (32 * n + 32)%nat with (Datatypes.S (32 * n + 31)) by lia. reflexivity. }
    split. { destruct (lipol_times 32 lb) as (_ & X1 & _ & X3 & X4). cbv zeta in X1, X3, X4. rewrite X1, X3, X4. unfold lb, lipol_new_value. cbn [p_new p_bsinv p_first]. replace (n + 1)%nat with (Datatypes.S n) by lia. cbn [prev]. auto. }
    replace (n + 1)%nat with (Datatypes.S n) by lia. reflexivity.
  - split.
    + intros u U. destruct (Hold u ltac:(lia)) as [-> ->]. apply (L0 u U).
    + intros t Ht. destruct (Nat.lt_ge_cases t (32 * n)) as [Lt|Ge].
      * destruct (L1 t Lt) as (Q1 & Q2 & Q3 & Q4). destruct (Xl t Lt) as [-> ->]. destruct (Hold (Z.of_nat t) ltac:(lia)) as [-> ->].
        rewrite (wet_below xl' xl), (wet_below xr' xr) by (intros k Hk; apply Xl; lia).
        assert (PF : forall h h', (forall u, (u < 32 * Z.of_nat n)%Z -> h' u = h u) -> fread tab h' (Z.of_nat t) (vt t) = fread tab h (Z.of_nat t) (vt t)).
        { intros h h' E. apply (fread_past tab h' h (Z.of_nat (t / 32))). { pose proof (Nat.div_mod t 32 ltac:(lia)). pose proof (Nat.mod_upper_bound t 32 ltac:(lia)). lia. } intros u U. apply E. pose proof (Nat.div_mod t 32 ltac:(lia)). lia. }
        rewrite (PF hl hl'), (PF hr hr') by (intros u U; apply (Hold u U)). auto.
      * replace t with (32 * n + (t - 32 * n))%nat by lia. set (j := (t - 32 * n)%nat). assert (J : (j < 32)%nat) by (unfold j; lia). destruct (Xn j J) as [E1 E2]. destruct (HN j J) as [E3 E4].
        replace (Z.of_nat (32 * n + j)) with (32 * Z.of_nat n + Z.of_nat j)%Z by lia. rewrite E3, E4, E1, E2. split; [|split; [|auto]]; apply (fread_past tab _ _ (Z.of_nat n)); try lia; intros u U; symmetry; apply Hold; lia.
  - exact Xl.
Qed.
Lemma out_below xl xr yl yr t : (forall k, (k <= t)%nat -> xl k = yl k /\ xr k = yr k) -> out xl xr t = out yl yr t.
Proof. intros E. unfold out. rewrite (wet_below xl yl), (wet_below xr yr) by (intros k K; apply (E k K)). reflexivity. Qed.
Definition block (n : nat) : fspar * list (R * R) := (P n, map In (seq (32 * n) 32)).
Lemma fs_run_app h1 h2 s : fs_run tab ws sr (h1 ++ h2) s = obind (fs_run tab ws sr h1 s) (fun '(s1, y1) => obind (fs_run tab ws sr h2 s1) (fun '(s2, y2) => Ok (s2, y1 ++ y2))).
Proof.
  revert s. induction h1 as [|(p, xs) h1 IH]; intros s; cbn [fs_run app].
  - cbn [obind]. destruct (fs_run tab ws sr h2 s) as [(s2, y2)| |]; reflexivity.
  - destruct (fs_process tab ws sr p s xs) as [(s1, ys)| |]; [|reflexivity|reflexivity]. cbn [obind]. rewrite IH. destruct (fs_run tab ws sr h1 s1) as [(s2, y2)| |]; [|reflexivity|reflexivity]. cbn [obind].
    destruct (fs_run tab ws sr h2 s2) as [(s3, y3)| |]; reflexivity.
Qed.
Lemma run_at s0 : (exists xl xr hl hr, fs_at 0 xl xr hl hr s0 /\ lines 0 xl xr hl hr) -> forall n, exists s xl xr hl hr, fs_run tab ws sr (map block (seq 0 n)) s0 = Ok (s, map (fun i => map (fun j => out xl xr (32 * i + j)) (seq 0 32)) (seq 0 n)) /\
  fs_at n xl xr hl hr s /\ lines n xl xr hl hr.
Proof.
  intros (x0 & y0 & h0 & k0 & A0 & L0). induction n as [|n IH]; [exists s0, x0, y0, h0, k0; auto|].
  destruct IH as (s & xl & xr & hl & hr & E & At & Li). destruct (block_at n xl xr hl hr s At Li) as (s' & xl' & xr' & hl' & hr' & E' & At' & Li' & Xl).
  exists s', xl', xr', hl', hr'. replace (Datatypes.S n) with (n + 1)%nat by lia. split; [|split; assumption].
  assert (EO : map (fun i => map (fun j => out xl xr (32 * i + j)) (seq 0 32)) (seq 0 n) = map (fun i => map (fun j => out xl' xr' (32 * i + j)) (seq 0 32)) (seq 0 n)).
  { apply map_ext_in. intros i Hi. apply in_seq in Hi. apply map_ext_in. intros j Hj. apply in_seq in Hj. apply out_below. intros k K. destruct (Xl k ltac:(lia)) as [-> ->]. auto. }
  rewrite EO in E. rewrite seq_app, !map_app, fs_run_app, E. cbn [obind]. change (seq (0 + n) 1) with [n]. cbn [map fs_run]. unfold block at 1. rewrite E'. reflexivity.
Qed.
End Fs.
