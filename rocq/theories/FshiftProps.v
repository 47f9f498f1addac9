(* FshiftProps.v - C213-C219: the frequency shifter. *)
From Coq Require Import Reals Lra Psatz Lia.
From Coquelicot Require Rcomplements.
From Flocq Require Import Core.Core.
From Verif Require Import Base Util BlockModel RampProps LagModel LagProps MathModel ParamModel LfoModel TableProps UnitModel DelayModel DelayProps QfModel HalfModel HalfProps HalfProps2 FastProps ChorusModel ChorusProps FlangerProps OscProps RotaryModel RotaryProps FshiftModel FshiftProofs FshiftProofs2.
Local Open Scope R_scope.

(** ** specification *)
(* the half-band filter's two cascades with z^2 replaced by -z^2: y(n) = -x(n-2) + a (x(n) + y(n-2)) *)
Fixpoint apm (a : R) (x : nat -> R) (n : nat) : R :=
  match n with
  | O => a * x O
  | Datatypes.S O => a * x 1%nat
  | Datatypes.S (Datatypes.S k) => - x k + a * (x n + apm a x k)
  end.
Definition cascadem (cs : list R) (x : nat -> R) : nat -> R := fold_left (fun s a => apm a s) cs x.
(* a running sum, one term per sample *)
Definition sum_to (f : nat -> R) (t : nat) : R := ang 0 f t.
(* the shift accumulated upwards and downwards by sample t; om j is the shift of block j in radians per sample *)
Definition up (om : nat -> R) : nat -> R := sum_to (per (fun j => Rmax 0 (om j))).
Definition down (om : nat -> R) : nat -> R := sum_to (per (fun j => - Rmin 0 (om j))).
(* single-sideband modulation: the signal is moved down by the phase d, split into two branches and moved up by the phase u *)
Definition ssb (A B : list R) (x d u : nat -> R) (t : nat) : R :=
  let xc k := x k * cos (d k) in let xs k := x k * sin (d k) in
  cos (u t) * (cascadem A xc t + delay1 (cascadem B xs) t) - sin (u t) * (delay1 (cascadem B xc) t - cascadem A xs t).
Definition hz (sr : R) (P : nat -> fspar) (j : nat) : R := fs_omega sr (P j).
Definition hz_r (sr : R) (P : nat -> fspar) (j : nat) : R := fs_omega_r sr (P j).
Definition uniform (P : nat -> fspar) : Prop := (forall j, fs_locked (P j) = false) \/ (forall j, fs_locked (P j) = true).
Definition gentle_times (sr : R) (p0 : fspar) (P : nat -> fspar) : Prop := Rabs (fs_target sr p0) <= 8000000 /\ forall j, Rabs (fs_target sr (P j)) <= 8000000.
(* the settings for block j with the samples 32 j .. 32 j + 31 *)
Definition history (P : nat -> fspar) (In : nat -> R * R) (n : nat) : list (fspar * list (R * R)) := map (fun j => (P j, map In (seq (32 * j) 32))) (seq 0 n).

(** ** modulating by a quarter of the sample rate *)
Lemma apm_ext a x y : (forall n, x n = y n) -> forall n, apm a x n = apm a y n.
Proof.
  intros E. assert (K : forall n, apm a x n = apm a y n /\ apm a x (Datatypes.S n) = apm a y (Datatypes.S n)).
  { induction n as [|n [I1 I2]]; [cbn; rewrite !E; split; reflexivity|]. split; [exact I2|]. cbn [apm]. rewrite I1, !E. reflexivity. }
  intros n. apply K.
Qed.
Lemma ap_flip a s x : (forall n, s (Datatypes.S (Datatypes.S n)) = - s n) -> forall n, ap a (fun k => x k * s k) n = apm a x n * s n.
Proof.
  intros F. assert (K : forall n, ap a (fun k => x k * s k) n = apm a x n * s n /\ ap a (fun k => x k * s k) (Datatypes.S n) = apm a x (Datatypes.S n) * s (Datatypes.S n)).
  { induction n as [|n [I1 I2]]; [cbn; split; ring|]. split; [exact I2|]. cbn [ap apm]. rewrite I1, !F. ring. }
  intros n. apply K.
Qed.
Lemma cascade_flip cs s : (forall n, s (Datatypes.S (Datatypes.S n)) = - s n) -> forall x n, cascade cs (fun k => x k * s k) n = cascadem cs x n * s n.
Proof.
  intros F. unfold cascade, cascadem. induction cs as [|c cs IH]; intros x n; [reflexivity|]. cbn [fold_left]. rewrite <- IH. apply (cascade_ext cs). intros k. now apply ap_flip.
Qed.
Lemma ap_lin a x y : forall n, ap a (fun k => x k + y k) n = ap a x n + ap a y n.
Proof.
  assert (K : forall n, ap a (fun k => x k + y k) n = ap a x n + ap a y n /\ ap a (fun k => x k + y k) (Datatypes.S n) = ap a x (Datatypes.S n) + ap a y (Datatypes.S n)).
  { induction n as [|n [I1 I2]]; [cbn; split; ring|]. split; [exact I2|]. cbn [ap]. rewrite I1. ring. }
  intros n. apply K.
Qed.
Lemma cascade_lin cs : forall x y n, cascade cs (fun k => x k + y k) n = cascade cs x n + cascade cs y n.
Proof.
  unfold cascade. induction cs as [|c cs IH]; intros x y n; [reflexivity|]. cbn [fold_left]. rewrite <- IH. apply (cascade_ext cs). intros k. apply ap_lin.
Qed.
(* the quarter-rate carrier starting at angle f *)
Definition base (f : R) (t : nat) : R := f + INR (Datatypes.S t) * (PI / 2).
Lemma base_flip f (g : R -> R) : (forall z, g (z + PI) = - g z) -> forall n, g (base f (Datatypes.S (Datatypes.S n))) = - g (base f n).
Proof. intros G n. unfold base. rewrite <- G. f_equal. rewrite !S_INR. field. Qed.
Lemma split_ang f w w' t : ang f (fun k => PI * (1 / 2) + w k) t = base f t + ang 0 w t /\ (forall k, w k = w' k) -> ang f (fun k => PI * (1 / 2) + w k) t = base f t + ang 0 w' t.
Proof. intros (E & X). rewrite E. f_equal. now apply ang_ext. Qed.
Lemma ang_base f w t : ang f (fun k => PI * (1 / 2) + w k) t = base f t + ang 0 w t.
Proof. induction t as [|t IH]; cbn [ang]; [unfold base; cbn [INR]; lra|]. rewrite IH. unfold base. rewrite (S_INR (Datatypes.S t)). lra. Qed.
Lemma a1_split f om t : ang f (per (fun j => fs_rate1 (om j))) t = base f t + down om t.
Proof. unfold down, sum_to. rewrite <- ang_base. apply ang_ext. intros k. unfold per, fs_rate1. lra. Qed.
Lemma a2_split f om t : ang f (per (fun j => fs_rate2 (om j))) t = base f t + up om t.
Proof. unfold up, sum_to. rewrite <- ang_base. apply ang_ext. intros k. unfold per, fs_rate2. lra. Qed.
Lemma shift_back f t : sin (base f t) = - cos (base f (Datatypes.S t)) /\ cos (base f t) = sin (base f (Datatypes.S t)).
Proof. replace (base f (Datatypes.S t)) with (base f t + PI / 2) by (unfold base; rewrite (S_INR (Datatypes.S t)); ring). rewrite cos_plus, sin_plus, cos_PI2, sin_PI2. split; ring. Qed.
Lemma wet_ssb A B x f om t : wetf A B x (ang f (per (fun j => fs_rate1 (om j)))) (ang f (per (fun j => fs_rate2 (om j)))) t = ssb A B x (down om) (up om) t.
Proof.
  set (d := down om). set (u := up om). set (xc := fun k => x k * cos (d k)). set (xs := fun k => x k * sin (d k)).
  assert (FS : forall n, sin (base f (Datatypes.S (Datatypes.S n))) = - sin (base f n)) by (apply base_flip; intros; apply neg_sin).
  assert (FC : forall n, cos (base f (Datatypes.S (Datatypes.S n))) = - cos (base f n)) by (apply base_flip; intros; apply neg_cos).
  assert (PS : forall cs k, cascade cs (psin x (ang f (per (fun j => fs_rate1 (om j))))) k = cascadem cs xc k * sin (base f k) + cascadem cs xs k * cos (base f k)).
  { intros cs k. rewrite <- (cascade_flip cs (fun k => sin (base f k)) FS), <- (cascade_flip cs (fun k => cos (base f k)) FC), <- cascade_lin. apply cascade_ext. intros i. unfold psin, xc, xs. rewrite a1_split. fold d. rewrite sin_plus. ring. }
  assert (PC : forall cs k, cascade cs (pcos x (ang f (per (fun j => fs_rate1 (om j))))) k = - (cascadem cs xc k * cos (base f k) - cascadem cs xs k * sin (base f k))).
  { intros cs k. transitivity (cascadem cs xc k * (- cos (base f k)) + cascadem cs xs k * sin (base f k)); [|ring].
    rewrite <- (cascade_flip cs (fun k => sin (base f k)) FS), <- (cascade_flip cs (fun k => - cos (base f k))) by (intros n; rewrite FC; reflexivity). rewrite <- cascade_lin. apply cascade_ext. intros i. unfold pcos, xc, xs. rewrite a1_split. fold d. rewrite cos_plus. ring. }
  unfold wetf, lowpass, ssb. cbv zeta. fold xc xs. rewrite a2_split. fold u. rewrite PS, PC.
  pose proof (sin2_cos2 (base f t)) as SC. unfold Rsqr in SC. rewrite sin_plus, cos_plus. destruct t as [|t]; cbn [delay1].
  - set (sb := sin (base f 0)) in *. set (cb := cos (base f 0)) in *. set (su := sin (u 0%nat)). set (cu := cos (u 0%nat)). set (c1 := cascadem A xc 0). set (c2 := cascadem A xs 0). transitivity ((sb * sb + cb * cb) * (c1 * cu + c2 * su)); [field|rewrite SC; ring].
  - rewrite !PS, !PC. destruct (shift_back f t) as [-> ->].
    set (sb := sin (base f (Datatypes.S t))) in *. set (cb := cos (base f (Datatypes.S t))) in *. set (su := sin (u (Datatypes.S t))). set (cu := cos (u (Datatypes.S t))).
    set (c1 := cascadem A xc (Datatypes.S t)). set (c2 := cascadem A xs (Datatypes.S t)). set (b1 := cascadem B xc t). set (b2 := cascadem B xs t).
    transitivity ((sb * sb + cb * cb) * (cu * (c1 + b2) - su * (b1 - c2))); [field|rewrite SC; ring].
Qed.

(** ** from a new effect *)
Definition A6 : list R := match steep_coefficients 12 with Ok (a, _) => a | _ => [] end.
Definition B6 : list R := match steep_coefficients 12 with Ok (_, b) => b | _ => [] end.
Lemma half6 : half_new 6 true = Ok (at_rest A6 B6).
Proof. apply new_from; [lia|reflexivity]. Qed.
Lemma rest_reset : half_reset (at_rest A6 B6) = at_rest A6 B6.
Proof. apply reset_store. Qed.
Lemma lag_bound v0 T t : Rabs v0 <= 8000000 -> (forall j, Rabs (T j) <= 8000000) -> Rabs (lagv v0 T t) <= 8000000.
Proof.
  intros V H. assert (K : forall v x, Rabs v <= 8000000 -> Rabs x <= 8000000 -> Rabs (v * (996 / 1000) + x * (1 / 10000)) <= 8000000).
  { intros v x X1 X2. apply Rcomplements.Rabs_le_between in X1. apply Rcomplements.Rabs_le_between in X2. apply Rabs_le. lra. }
  induction t as [|t IH]; cbn [lagv]; apply K; auto.
Qed.
Definition m_of (p0 : fspar) : lipolps R := ps_set_target_smoothed arithR (ps_default arithR) (fp_mix p0).
Lemma new_at tab ws sr P In p0 : exists s0, fs_new sr p0 = Ok s0 /\
  fs_at sr A6 B6 P 0 0 0 0 (fs_target sr p0) (fp_gain p0) (m_of p0) 0 (fun _ => 0) (fun _ => 0) (fun _ => 0) (fun _ => 0) s0 /\
  lines tab ws sr A6 B6 P In 0 0 0 0 (fs_target sr p0) (fp_gain p0) 0 (fun _ => 0) (fun _ => 0) (fun _ => 0) (fun _ => 0).
Proof.
  unfold fs_new. rewrite half6. cbn [obind]. unfold fs_init. cbn [fs_fr fs_fi fs_mix fs_fb fs_time fs_bl fs_br fs_wpos fs_o1l fs_o2l fs_o1r fs_o2r]. rewrite rest_reset. unfold fs_update. cbv zeta. cbn [fs_fr fs_fi fs_mix fs_fb fs_time fs_bl fs_br fs_wpos fs_o1l fs_o2l fs_o1r fs_o2r].
  assert (D : isat qo_default 0) by (unfold isat, qo_default; cbn [qo_r qo_i]; rewrite sin_0, cos_0; split; lra).
  destruct (rate_ok _ (fs_rate1 (fs_omega sr p0)) _ D) as (a & -> & Ia & Ta). cbn [obind]. destruct (rate_ok _ (fs_rate2 (fs_omega sr p0)) _ D) as (b & -> & Ib & Tb). cbn [obind].
  assert (C : isat (if fs_locked p0 then fs_lock a qo_default else qo_default) 0) by (destruct (fs_locked p0); [now apply lock_same|exact D]).
  assert (C' : isat (if fs_locked p0 then fs_lock b qo_default else qo_default) 0) by (destruct (fs_locked p0); [now apply lock_same|exact D]).
  destruct (rate_ok _ (fs_rate1 (fs_omega_r sr p0)) _ C) as (c & -> & Ic & Tc). cbn [obind]. destruct (rate_ok _ (fs_rate2 (fs_omega_r sr p0)) _ C') as (d & -> & Id & Td). cbn [obind].
  eexists. split; [reflexivity|]. split; [|split; [intros; split; reflexivity|intros t T; lia]].
  unfold fs_at. cbn [fs_fr fs_fi fs_mix fs_fb fs_time fs_bl fs_br fs_wpos fs_o1l fs_o2l fs_o1r fs_o2r]. change (32 * 0)%nat with 0%nat. cbn [pang plag prev].
  split; [reflexivity|]. split; [intros u U; reflexivity|]. split; [intros u U; reflexivity|]. split; [apply heard_rest|]. split; [apply heard_rest|]. split; [exact Ia|]. split; [exact Ib|]. split; [exact Ic|]. split; [exact Id|].
  split; [unfold lag_new_value, lag_new; cbn [l_first l_v l_lp l_lpinv l_target lag_default]; repeat split; lra|]. split; [|reflexivity].
  unfold lipol_new_value, lipol_new, lipol_set_blocksize. cbn [p_first p_new p_bsinv]. repeat split. rewrite INR_IZR_INZ. reflexivity.
Qed.

(** ** C213 what the effect plays *)
(* the smoothed delay time and the feedback gain of sample t *)
Definition time_at (sr : R) (p0 : fspar) (P : nat -> fspar) : nat -> R := lagv (fs_target sr p0) (per (fun j => fs_target sr (P j))).
Definition gain_at (p0 : fspar) (P : nat -> fspar) : nat -> R := fbv (fp_gain p0) (fun j => fp_gain (P j)).
Definition mix_at (p0 : fspar) (P : nat -> fspar) (t : nat) : lipolps R := mixat (m_of p0) (fun j => fp_mix (P j)) (Datatypes.S (t / 32)).
(* one channel: om the shift of each block, i the input, h the delay line, x what is read from it *)
Definition channel (tab ws : Z -> R) (sr : R) (p0 : fspar) (P : nat -> fspar) (om : nat -> R) (i : nat -> R) (h : Z -> R) (x : nat -> R) (n : nat) : Prop :=
  (forall u, (u < 0)%Z -> h u = 0) /\
  forall t, (t < 32 * n)%nat -> x t = fread tab h (Z.of_nat t) (time_at sr p0 P t) /\
    h (Z.of_nat t) = i t + shaped ws (ssb A6 B6 x (down om) (up om) t * gain_at p0 P t).
(* For all settings of every block (with RMult always or never 1) and all inputs: every block succeeds, each line is read in its past and
   written with the input plus the waveshaped feedback, and the output fades from the input to the single-sideband modulated line. *)
Theorem C213_shifts : forall tab ws sr p0 P In n, uniform P -> gentle_times sr p0 P ->
  exists s0 s xl xr hl hr, fs_new sr p0 = Ok s0 /\
    fs_run tab ws sr (history P In n) s0 = Ok (s, map (fun i => map (fun j => let t := (32 * i + j)%nat in
      ch_fade (mix_at p0 P t) (Z.of_nat j) (In t) (ssb A6 B6 xl (down (hz sr P)) (up (hz sr P)) t, ssb A6 B6 xr (down (hz_r sr P)) (up (hz_r sr P)) t)) (seq 0 32)) (seq 0 n)) /\
    channel tab ws sr p0 P (hz sr P) (fun t => fst (In t)) hl xl n /\ channel tab ws sr p0 P (hz_r sr P) (fun t => snd (In t)) hr xr n.
Proof.
  intros tab ws sr p0 P In n U (G0 & G). destruct (new_at tab ws sr P In p0) as (s0 & E0 & At & Li).
  assert (AB : length A6 = length B6) by reflexivity. assert (ST : steady P 0 0 0 0) by (destruct U as [U|U]; [left|right]; auto).
  destruct (run_at tab ws sr A6 B6 P In 0 0 0 0 (fs_target sr p0) (fp_gain p0) (m_of p0) AB ST) with (s0 := s0) (n := n) as (s & xl & xr & hl & hr & E & _ & L0 & L1).
  { intros t. apply lag_bound; [exact G0|]. intros j. apply G. } { do 4 eexists. split; [exact At|exact Li]. }
  exists s0, s, xl, xr, hl, hr. split; [exact E0|]. unfold history. change (fun j : nat => (P j, map In (seq (32 * j) 32))) with (block P In). rewrite E. clear E. split; [|split].
  - f_equal. f_equal. apply map_ext_in. intros i Hi. apply map_ext_in. intros j Hj. apply in_seq in Hj. unfold out, mix_at, mixn, a1l, a2l, a1r, a2r. cbv zeta. destruct (divmod i j ltac:(lia)) as [-> ->].
    rewrite (wet_ssb A6 B6 xl 0 (fun j => fs_omega sr (P j))), (wet_ssb A6 B6 xr 0 (fun j => fs_omega_r sr (P j))). reflexivity.
  - split; [intros u Hu; apply (L0 u Hu)|]. intros t T. destruct (L1 t T) as (Q1 & _ & Q3 & _). split; [exact Q1|]. rewrite Q3. unfold a1l, a2l. rewrite (wet_ssb A6 B6 xl 0 (fun j => fs_omega sr (P j))). reflexivity.
  - split; [intros u Hu; apply (L0 u Hu)|]. intros t T. destruct (L1 t T) as (_ & Q2 & _ & Q4). split; [exact Q2|]. rewrite Q4. unfold a1r, a2r. rewrite (wet_ssb A6 B6 xr 0 (fun j => fs_omega_r sr (P j))). reflexivity.
Qed.
(* upwards only: the Hartley form; no shift at all: an all-pass *)
Lemma cascadem_ext cs : forall x y, (forall n, x n = y n) -> forall n, cascadem cs x n = cascadem cs y n.
Proof. unfold cascadem. induction cs as [|c cs IH]; intros x y E n; [apply E|]. cbn [fold_left]. apply IH. apply apm_ext, E. Qed.
Lemma sum_zero f t : (forall k, f k = 0) -> sum_to f t = 0.
Proof. intros E. unfold sum_to. induction t as [|t IH]; cbn [ang]; rewrite ?IH, E; ring. Qed.
Lemma cascadem_zero cs : forall x, (forall n, x n = 0) -> forall n, cascadem cs x n = 0.
Proof.
  unfold cascadem. induction cs as [|c cs IH]; intros x E n; [apply E|]. cbn [fold_left]. apply IH.
  assert (K : forall n, apm c x n = 0 /\ apm c x (Datatypes.S n) = 0) by (induction n0 as [|m [I1 I2]]; [cbn; rewrite !E; split; ring|split; [exact I2|cbn [apm]; rewrite I1, !E; ring]]). intros m. apply K.
Qed.
Lemma delay1_ext x y : (forall n, x n = y n) -> forall n, delay1 x n = delay1 y n.
Proof. intros E [|n]; [reflexivity|]. apply E. Qed.
Theorem C213_upwards : forall A B x om t, (forall j, 0 <= om j) ->
  ssb A B x (down om) (up om) t = cos (sum_to (per om) t) * cascadem A x t - sin (sum_to (per om) t) * delay1 (cascadem B x) t.
Proof.
  intros A B x om t H. assert (D : forall k, down om k = 0) by (intros k; apply sum_zero; intros i; unfold per; rewrite Rmin_left by apply H; ring).
  assert (U : up om t = sum_to (per om) t) by (unfold up, sum_to; apply ang_ext; intros i; unfold per; apply Rmax_right, H).
  unfold ssb. cbv zeta. rewrite U. rewrite (cascadem_ext A (fun k => x k * cos (down om k)) x), (delay1_ext (cascadem B (fun k => x k * cos (down om k))) (cascadem B x)), (cascadem_zero A (fun k => x k * sin (down om k))).
  - replace (delay1 (cascadem B (fun k => x k * sin (down om k))) t) with 0; [ring|]. destruct t as [|t]; [reflexivity|]. cbn [delay1]. symmetry. apply cascadem_zero. intros k. rewrite D, sin_0. ring.
  - intros k. rewrite D, sin_0. ring.
  - intros k. apply cascadem_ext. intros i. rewrite D, cos_0. ring.
  - intros k. rewrite D, cos_0. ring.
Qed.
Theorem C213_downwards : forall A B x om t, (forall j, om j <= 0) -> let d := sum_to (per (fun j => - om j)) in
  ssb A B x (down om) (up om) t = cascadem A (fun k => x k * cos (d k)) t + delay1 (cascadem B (fun k => x k * sin (d k))) t.
Proof.
  intros A B x om t H d. assert (D : forall k, down om k = d k) by (intros k; unfold down, d, sum_to; apply ang_ext; intros i; unfold per; rewrite Rmin_right by apply H; reflexivity).
  assert (U : up om t = 0) by (apply sum_zero; intros i; unfold per; apply Rmax_left, H).
  unfold ssb. cbv zeta. rewrite U, cos_0, sin_0. rewrite (cascadem_ext A (fun k => x k * cos (down om k)) (fun k => x k * cos (d k))) by (intros; now rewrite D).
  rewrite (delay1_ext (cascadem B (fun k => x k * sin (down om k))) (cascadem B (fun k => x k * sin (d k)))) by (apply cascadem_ext; intros; now rewrite D). ring.
Qed.
(* the two branches neither add nor (eventually) lose energy; with no shift the line is heard through the first *)
Definition sgn4 (n : nat) : R := if Nat.even (Nat.div2 n) then 1 else - (1).
Lemma sgn4_flip n : sgn4 (Datatypes.S (Datatypes.S n)) = - sgn4 n.
Proof. unfold sgn4. cbn [Nat.div2]. rewrite Nat.even_succ, <- Nat.negb_even. destruct (Nat.even (Nat.div2 n)); cbn [negb]; ring. Qed.
Lemma sgn4_sq n : sgn4 n * sgn4 n = 1.
Proof. unfold sgn4. destruct (Nat.even _); ring. Qed.
Lemma energy_sgn x N : energy (fun k => x k * sgn4 k) N = energy x N.
Proof.
  assert (K : forall k, x k * sgn4 k * (x k * sgn4 k) = x k * x k) by (intros k; transitivity (x k * x k * (sgn4 k * sgn4 k)); [ring|rewrite sgn4_sq; ring]).
  induction N as [|N IH]; [reflexivity|]. cbn [energy]. rewrite IH, K. reflexivity.
Qed.
Theorem C213_branches_all_pass : forall cs x N, contractive cs -> energy (cascadem cs x) N <= energy x N.
Proof.
  intros cs x N C. rewrite <- (energy_sgn (cascadem cs x)), <- (energy_sgn x). eapply Rle_trans; [|apply (cascade_energy cs C (fun k => x k * sgn4 k))]. apply Req_le.
  induction N as [|N IH]; [reflexivity|]. cbn [energy]. rewrite IH, (cascade_flip cs sgn4 sgn4_flip). reflexivity.
Qed.
Theorem C213_no_shift : forall x t, ssb A6 B6 x (down (fun _ => 0)) (up (fun _ => 0)) t = cascadem A6 x t /\ contractive A6 /\ contractive B6.
Proof.
  intros x t. split; [|destruct C141_ex as (a & b & E & _ & Ca & Cb)].
  - rewrite C213_upwards by (intros; lra). rewrite sum_zero by reflexivity. rewrite cos_0, sin_0. ring.
  - rewrite half6 in E. unfold A6, B6. cbn [steep_coefficients]. unfold contractive. split; repeat (apply Forall_cons; [split; lra|]); apply Forall_nil.
Qed.
Print Assumptions C213_shifts.
Print Assumptions C213_upwards.
Print Assumptions C213_downwards.
Print Assumptions C213_branches_all_pass.
Print Assumptions C213_no_shift.
(* a constant setting with RMult = 1, half a second at 48 kHz *)
Example C213_ex : let p := mk_fp 0 (1 / 2) false 0 1 1 false 1 in uniform (fun _ => p) /\ gentle_times 48000 p (fun _ => p) /\ (forall j : nat, 0 <= hz 48000 (fun _ => p) j).
Proof.
  cbv zeta. split; [right; intros _; unfold fs_locked; cbn [fp_rmult]; destruct (Rlt_dec _ _) as [H|H]; [reflexivity|exfalso; apply H; replace (1 - 1) with 0 by ring; rewrite Rabs_R0; lra]|]. split.
  - assert (T : Rabs (fs_target 48000 (mk_fp 0 (1 / 2) false 0 1 1 false 1)) <= 8000000) by (unfold fs_target, sync; cbn [fp_sync fp_pitch]; rewrite Rabs_right; lra). split; [exact T|intros _; exact T].
  - intros j. unfold hz, fs_omega. cbn [fp_shift fp_ext]. pose proof PI_RGT_0. lra.
Qed.
