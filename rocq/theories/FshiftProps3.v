(* FshiftProps3.v - C215, C216, C218: the frequency shifter's delay time, its RMult parameter, and suspend. *)
From Coq Require Import Reals Lra Psatz Lia.
From Coquelicot Require Rcomplements.
From Coquelicot Require Import Lim_seq Rbar Hierarchy.
From Flocq Require Import Core.Core.
From Verif Require Import Base Util BlockModel RampProps LagModel LagProps MathModel ParamModel LfoModel TableProps UnitModel DelayModel DelayProps QfModel HalfModel HalfProps HalfProps2 FastProps ChorusModel ChorusProps FlangerProps OscProps RotaryModel RotaryProps FshiftModel FshiftProofs FshiftProofs2 FshiftProps FshiftProps2.
Local Open Scope R_scope.

(** ** C215 the delay time *)
(* a constant setting: the time starts at the target T and drifts to a fortieth of it *)
Theorem C215_delay_refuted : forall sr p, let T := fs_target sr p in
  (forall t, time_at sr p (fun _ => p) t = T / 40 + 39 / 40 * T * (996 / 1000) ^ (Datatypes.S t)) /\ is_lim_seq (time_at sr p (fun _ => p)) (T / 40).
Proof.
  intros sr p T. assert (E : forall t, time_at sr p (fun _ => p) t = T / 40 + 39 / 40 * T * (996 / 1000) ^ (Datatypes.S t)).
  { unfold time_at. fold T. induction t as [|t IH]; [cbn [lagv pow]; unfold per; fold T; field|]. cbn [lagv]. rewrite IH. unfold per. fold T. change ((996 / 1000) ^ Datatypes.S (Datatypes.S t)) with (996 / 1000 * (996 / 1000) ^ Datatypes.S t). field. }
  split; [exact E|]. apply is_lim_seq_ext with (u := fun t => T / 40 + 39 / 40 * T * (996 / 1000) ^ (Datatypes.S t)); [intros; symmetry; apply E|].
  replace (Finite (T / 40)) with (Finite (T / 40 + 39 / 40 * T * 0)) by (f_equal; ring). apply is_lim_seq_plus'; [apply is_lim_seq_const|]. apply (is_lim_seq_scal_l _ (39 / 40 * T) 0).
  apply (is_lim_seq_incr_1 (fun n => (996 / 1000) ^ n)). apply is_lim_seq_geom. rewrite Rabs_right; lra.
Qed.
Lemma dtime_is v k : (44 <= k <= DLEN - 13)%Z -> IZR k <= v < IZR k + 1 -> fs_dtime v = k.
Proof. intros K V. unfold fs_dtime. rewrite (as_i32R_is v k); [lia| |exact V]. unfold i32_max, DLEN in *. lia. Qed.
Lemma dtime_low v : v < 45 -> fs_dtime v = 44%Z.
Proof.
  intros V. unfold fs_dtime. assert (as_i32R v <= 44)%Z; [|unfold DLEN; lia]. unfold as_i32R. destruct (Rle_or_lt 0 v) as [P|N].
  - change (ParamModel.truncR v) with (MathModel.truncR v). destruct (truncR_spec v) as [S1 _]. destruct (S1 P) as [A _]. assert (MathModel.truncR v < 45)%Z by (apply lt_IZR; lra). unfold i32_min, i32_max. lia.
  - change (ParamModel.truncR v) with (MathModel.truncR v). destruct (truncR_spec v) as [_ S2]. destruct (S2 (Rlt_le _ _ N)) as [A _]. assert (MathModel.truncR v < 1)%Z by (apply lt_IZR; lra). unfold i32_min, i32_max. lia.
Qed.
(* tempo-synced (the inverse ratio is 0 in the running program): 44 samples whatever the Delay parameter *)
Theorem C215_synced_refuted : forall sr p0 P, fp_sync p0 = true -> fp_inv p0 = 0 -> (forall j, fp_sync (P j) = true /\ fp_inv (P j) = 0) ->
  forall t, fs_dtime (time_at sr p0 P t) = 44%Z.
Proof.
  intros sr p0 P S0 I0 H t. apply dtime_low. assert (T : forall p, fp_sync p = true -> fp_inv p = 0 -> fs_target sr p = -6) by (intros p A B; unfold fs_target, sync; rewrite A, B; lra).
  assert (time_at sr p0 P t <= 0); [|lra]. unfold time_at. rewrite (T p0 S0 I0). assert (FT : forall k, per (fun j => fs_target sr (P j)) k = -6) by (intros k; unfold per; apply T; apply H). revert FT. generalize (per (fun j => fs_target sr (P j))). intros f FT. induction t as [|t IH]; cbn [lagv]; rewrite FT; lra.
Qed.
(* between two whole numbers of samples the delay does not change at all *)
Theorem C215_no_fraction_refuted : forall tab h t k v, (44 <= k <= DLEN - 13)%Z -> IZR k < v < IZR k + 1 -> fread tab h t v = rtap tab 0 h (t - k) /\ fread tab h t (IZR k) = rtap tab (12 * 255) h (t - k).
Proof.
  intros tab h t k v K V. unfold fread, fs_row. rewrite (dtime_is v k), (dtime_is (IZR k) k) by (assumption || lra). rewrite plus_IZR. split.
  - rewrite (as_i32R_is (IZR k + 1 - v) 0); [reflexivity|unfold i32_max; lia|lra].
  - rewrite (as_i32R_is (IZR k + 1 - IZR k) 1); [reflexivity|unfold i32_max; lia|lra].
Qed.
Example C215_ex : let p := mk_fp 0 (1 / 2) false 0 1 1 false 1 in fs_target 48000 p = 23994 /\ (44 <= 1000 <= DLEN - 13)%Z /\ IZR 1000 < 1000 + 1 / 2 < IZR 1000 + 1.
Proof. cbv zeta. unfold fs_target, sync. cbn [fp_sync fp_pitch]. repeat split; try lra; unfold DLEN; lia. Qed.

(** ** C216 the right channel's multiplier *)
Definition with_rmult (p : fspar) (m : R) : fspar := mk_fp (fp_gain p) (fp_pitch p) (fp_sync p) (fp_inv p) (fp_mix p) (fp_shift p) (fp_ext p) m.
Theorem C216_squared_refuted : forall sr P, (forall j, fs_locked (P j) = false) -> forall j, hz_r sr P j = fp_rmult (P j) * fp_rmult (P j) * hz sr P j.
Proof. intros sr P H j. unfold hz_r, hz, fs_omega_r. rewrite H. ring. Qed.
(* so a multiplier and its negative sound the same *)
Theorem C216_sign_refuted : forall tab ws sr p m s xs, fs_locked (with_rmult p m) = false -> fs_locked (with_rmult p (- m)) = false ->
  fs_process tab ws sr (with_rmult p m) s xs = fs_process tab ws sr (with_rmult p (- m)) s xs.
Proof.
  intros tab ws sr p m s xs H1 H2. assert (E : fs_omega_r sr (with_rmult p m) = fs_omega_r sr (with_rmult p (- m))) by (unfold fs_omega_r; rewrite H1, H2; unfold fs_omega, with_rmult; cbn [fp_shift fp_ext fp_rmult]; ring).
  assert (U : fs_update sr (with_rmult p m) s = fs_update sr (with_rmult p (- m)) s).
  { unfold fs_update. rewrite E, H1, H2. reflexivity. }
  unfold fs_process. rewrite U. reflexivity.
Qed.
Theorem C216_one : forall sr P, (forall j, fs_locked (P j) = true) -> forall j, hz_r sr P j = hz sr P j.
Proof. intros sr P H j. unfold hz_r, hz, fs_omega_r. now rewrite H. Qed.
Example C216_ex : let p := mk_fp 0 (1 / 2) false 0 1 1 false 1 in fs_locked (with_rmult p 2) = false /\ fs_locked (with_rmult p (- (2))) = false /\ fs_locked p = true.
Proof.
  cbv zeta. unfold fs_locked, with_rmult. cbn [fp_rmult]. repeat split; (destruct (Rlt_dec _ _) as [H|H]; [|]); try reflexivity; exfalso.
  - rewrite Rabs_right in H; lra.
  - rewrite Rabs_left in H; lra.
  - apply H. replace (1 - 1) with 0 by ring. rewrite Rabs_R0. lra.
Qed.

(** ** C218 suspend *)
Lemma filters_va : forall st o, map va (fst (process_filters st o)) = map va st.
Proof.
  assert (K : forall n o s, (length o <= n)%nat -> va (fst (ap_pairs s o)) = va s).
  { induction n as [|n IH]; intros o s L; [destruct o; [reflexivity|cbn in L; lia]|]. destruct o as [|a [|b o]]; [reflexivity|reflexivity|]. cbn [ap_pairs].
    destruct (ap_step s a) as [s1 y0] eqn:E1. destruct (ap_step s1 b) as [s2 y1] eqn:E2. specialize (IH o s2 ltac:(cbn [length] in L; lia)). destruct (ap_pairs s2 o) as [s3 ys]. cbn [fst] in *. rewrite IH.
    unfold ap_step in E1, E2. assert (V2 : va s2 = va s1) by (inversion E2; reflexivity). assert (V1 : va s1 = va s) by (inversion E1; reflexivity). congruence. }
  induction st as [|s st IH]; intros o; [reflexivity|]. cbn [process_filters]. pose proof (K (length o) o s (le_n _)) as V. destruct (ap_pairs s o) as [s' o1]. specialize (IH o1). destruct (process_filters st o1) as [r' o2]. cbn [fst map] in *. now rewrite V, IH.
Qed.
Lemma reset_va h h' : map va (h_stages h) = map va (h_stages h') -> half_reset h = half_reset h'.
Proof.
  intros E. unfold half_reset. f_equal. revert E. generalize (h_stages h'). induction (h_stages h) as [|s st IH]; intros st' E; destruct st' as [|s' st']; try discriminate E; [reflexivity|].
  cbn [map] in *. assert (V1 : va s = va s') by congruence. rewrite (IH st') by congruence. now rewrite V1.
Qed.
Lemma process_reset h l r h' ls rs : process_block h l r = Ok (h', ls, rs) -> half_reset h' = half_reset h.
Proof.
  unfold process_block. destruct (scratch_buffer l r) as [o| |]; cbn [obind]; try discriminate. pose proof (filters_va (h_stages h) o) as V. destruct (process_filters (h_stages h) o) as [st o']. destruct (combine_out _ _ _ o') as [[a b] c]. intros E.
  assert (h' = mk_half st c) as -> by congruence. apply reset_va. exact V.
Qed.
Definition tuned6 (s : fshift) : Prop := half_reset (fs_fr s) = at_rest A6 B6 /\ half_reset (fs_fi s) = at_rest A6 B6.
Lemma posts_filters ws : forall xs rrs iis k s s' ys, fs_posts ws k xs rrs iis s = Ok (s', ys) -> fs_fr s' = fs_fr s /\ fs_fi s' = fs_fi s.
Proof.
  assert (Z0 : forall (s s' : fshift) (ys : list (R * R)), (Ok (s, []) : res (fshift * list (R * R))) = Ok (s', ys) -> fs_fr s' = fs_fr s /\ fs_fi s' = fs_fi s) by (intros s s' ys E; assert (s = s') by congruence; subst; auto).
  induction xs as [|x xs IH]; intros rrs iis k s s' ys E; [exact (Z0 _ _ _ E)|]. destruct rrs as [|rr rrs]; [exact (Z0 _ _ _ E)|]. destruct iis as [|ii iis]; [exact (Z0 _ _ _ E)|].
  cbn [fs_posts] in E. unfold fs_post at 1 in E. cbv zeta in E. rewrite !wshape_ok in E. cbn [obind] in E. unfold rset in E. rewrite !land_range in E. cbn [obind] in E.
  match type of E with context [fs_posts ws (k + 1) xs rrs iis ?s1] => destruct (fs_posts ws (k + 1) xs rrs iis s1) as [(s2, y2)| |] eqn:E1 end; [|discriminate|discriminate].
  cbn [obind] in E. assert (s2 = s') by congruence. subst s2. exact (IH _ _ _ _ _ _ E1).
Qed.
Lemma process_tuned tab ws sr p xs s s' ys M : fine M s -> Rabs (fs_target sr p) <= 8000000 -> tuned6 s -> fs_process tab ws sr p s xs = Ok (s', ys) -> tuned6 s'.
Proof.
  intros (U & L & C) T (T1 & T2) E. destruct (update_fine sr p s U) as (a & b & c & d & E0 & _). unfold fs_process in E. rewrite E0 in E. cbn [obind] in E. clear E0.
  destruct (lag_new_fine sr p (fs_time s) (or_introl L) T) as (L1 & L2). cbv zeta in L1, L2.
  match type of E with context [fs_pres tab 32 0 ?s1] => destruct (pres_fine tab 32 0 s1) as (prods & E1 & _) end; auto. rewrite E1 in E. clear E1. cbn [obind fs_fr fs_fi fs_mix fs_fb fs_time fs_bl fs_br fs_wpos fs_o1l fs_o2l fs_o1r fs_o2r] in E.
  match type of E with context [process_block (fs_fr s) ?l ?r] => destruct (process_block (fs_fr s) l r) as [((h1, l1), r1)| |] eqn:P1 end; [|discriminate|discriminate]. cbn [obind] in E.
  match type of E with context [process_block (fs_fi s) ?l ?r] => destruct (process_block (fs_fi s) l r) as [((h2, l2), r2)| |] eqn:P2 end; [|discriminate|discriminate]. cbn [obind] in E.
  match type of E with context [fs_posts ws 0 xs ?rs ?is ?s1] => destruct (fs_posts ws 0 xs rs is s1) as [(s3, wet)| |] eqn:P3 end; [|discriminate|discriminate]. cbn [obind] in E.
  apply posts_filters in P3. cbn [fs_fr fs_fi] in P3. destruct P3 as (Q1 & Q2). match type of E with Ok (?x, _) = _ => assert (Es : s' = x) by congruence end. subst s'. unfold tuned6. cbn [fs_fr fs_fi]. rewrite Q1, Q2.
  rewrite (process_reset _ _ _ _ _ _ P1), (process_reset _ _ _ _ _ _ P2). auto.
Qed.
Lemma run_tuned tab ws sr M : (forall i, (0 <= i < 1024)%Z -> -1 <= ws i <= 1) -> forall h s s' yss, fine M s -> timely sr h -> limited (M - 1) h -> tuned6 s -> fs_run tab ws sr h s = Ok (s', yss) -> fine M s' /\ tuned6 s'.
Proof.
  intros WS. induction h as [|(p, xs) h IH]; intros s s' yss Fs T L Tu E; [cbn in E; assert (s = s') by congruence; subst; auto|]. inversion T; subst. inversion L; subst. cbn [fst snd] in *.
  destruct (process_fine tab ws sr p xs s M Fs) as (s1 & ys & E1 & F1 & _); auto. cbn [fs_run] in E. rewrite E1 in E. cbn [obind] in E. destruct (fs_run tab ws sr h s1) as [(s2, y2)| |] eqn:E2; [|discriminate|discriminate]. cbn [obind] in E. assert (s2 = s') by congruence. subst s2.
  apply (IH s1 s' y2 F1); auto. eapply process_tuned; [exact Fs| |exact Tu|exact E1]; assumption.
Qed.
(* silence *)
Lemma ap_zero a : forall n, ap a (fun _ => 0) n = 0.
Proof. assert (K : forall n, ap a (fun _ => 0) n = 0 /\ ap a (fun _ => 0) (Datatypes.S n) = 0) by (induction n as [|n [I1 I2]]; [cbn; split; ring|split; [exact I2|cbn [ap]; rewrite I1; ring]]). intros n. apply K. Qed.
Lemma cascade_zero cs : forall x, (forall n, x n = 0) -> forall n, cascade cs x n = 0.
Proof. unfold cascade. induction cs as [|c cs IH]; intros x E n; [apply E|]. cbn [fold_left]. apply IH. intros m. rewrite (ap_below c x (fun _ => 0)) by (intros; apply E). apply ap_zero. Qed.
Lemma lowpass_zero a b n : lowpass a b (fun _ => 0) n = 0.
Proof. unfold lowpass. rewrite cascade_zero by reflexivity. destruct n as [|n]; cbn [delay1]; [|rewrite cascade_zero by reflexivity]; lra. Qed.
Lemma cut_zero f n m : (forall k, f k = 0) -> cut f n m = repeat 0 m.
Proof. intros E. unfold cut. revert n. induction m as [|m IH]; intros n; [reflexivity|]. cbn [seq map repeat]. now rewrite E, IH. Qed.
Lemma silent_block a b n h : length a = length b -> heard a b (fun _ => 0) (fun _ => 0) n h -> exists h', process_block h (repeat 0 32) (repeat 0 32) = Ok (h', repeat 0 32, repeat 0 32) /\ heard a b (fun _ => 0) (fun _ => 0) (n + 32) h'.
Proof.
  intros AB H. destruct (heard_block a b _ _ n h AB H) as (h' & E & H'). exists h'. split; [|exact H']. rewrite !(cut_zero (fun _ => 0)) in E by reflexivity. rewrite !(cut_zero (lowpass a b (fun _ => 0))) in E by apply lowpass_zero. exact E.
Qed.
Definition empty (s : fshift) : Prop := (forall i, fs_bl s i = 0 /\ fs_br s i = 0) /\ exists n, heard A6 B6 (fun _ => 0) (fun _ => 0) n (fs_fr s) /\ heard A6 B6 (fun _ => 0) (fun _ => 0) n (fs_fi s).
Lemma shaped_zero ws x : ws 512%Z = 0 -> x = 0 -> shaped ws x = 0.
Proof. intros H ->. unfold shaped. destruct (C85_waveshape ws 0) as (W & _). rewrite (W 0%Z 0); [|lia|lra|lra]. change (0 + 512)%Z with 512%Z. rewrite H. ring. Qed.
Lemma posts_zero ws : ws 512%Z = 0 -> forall m k s, (forall i, fs_bl s i = 0 /\ fs_br s i = 0) -> exists s',
  fs_posts ws k (repeat (0, 0) m) (repeat (0, 0) m) (repeat (0, 0) m) s = Ok (s', repeat (0, 0) m) /\ (forall i, fs_bl s' i = 0 /\ fs_br s' i = 0) /\ fs_fr s' = fs_fr s /\ fs_fi s' = fs_fi s.
Proof.
  intros W0. induction m as [|m IH]; intros k s C; [exists s; auto|]. cbn [repeat fs_posts]. unfold fs_post at 1. cbv zeta. rewrite !wshape_ok. cbn [obind fst snd]. unfold rset. rewrite !land_range. cbn [obind].
  match goal with |- context [fs_posts ws (k + 1) _ _ _ ?s1] => destruct (IH (k + 1)%Z s1) as (s2 & E & C2 & F1 & F2) end.
  { intros i. cbn [fs_bl fs_br]. rewrite !(shaped_zero ws _ W0) by ring. destruct (C i) as (C1 & C2). destruct (i =? _)%Z; split; try assumption; ring. }
  rewrite E. cbn [obind]. cbn [fs_fr fs_fi] in F1, F2. exists s2. split; [|auto]. do 3 f_equal; f_equal; ring.
Qed.
Lemma combine_repeat {A B} (a : A) (b : B) m : combine (repeat a m) (repeat b m) = repeat (a, b) m.
Proof. induction m as [|m IH]; [reflexivity|]. cbn [repeat combine]. now rewrite IH. Qed.
Lemma fade_zero g n : zip (ch_fade g) (repeat (0, 0) n) (repeat (0, 0) n) = repeat (0, 0) n.
Proof.
  apply (nth_ext _ _ (0, 0) (0, 0)); [rewrite zip_length, !repeat_length by reflexivity; lia|]. intros i Hi. rewrite zip_length, !repeat_length in Hi by reflexivity. rewrite (nth_zip _ _ _ (0, 0) (0, 0)) by (rewrite ?repeat_length; lia).
  rewrite nth_repeat. unfold ch_fade. cbv zeta. cbn [fst snd]. f_equal; ring.
Qed.
Lemma map_repeat' {A B} (f : A -> B) a m : map f (repeat a m) = repeat (f a) m.
Proof. induction m as [|m IH]; [reflexivity|]. cbn [repeat map]. now rewrite IH. Qed.
Lemma process_empty tab ws sr p s M : ws 512%Z = 0 -> fine M s -> empty s -> Rabs (fs_target sr p) <= 8000000 -> exists s', fs_process tab ws sr p s (repeat (0, 0) 32) = Ok (s', repeat (0, 0) 32) /\ empty s'.
Proof.
  intros W0 (U & L & C) (Z0 & n & H1 & H2) T. destruct (update_fine sr p s U) as (a & b & c & d & E & _). unfold fs_process. rewrite E. cbn [obind]. clear E.
  destruct (lag_new_fine sr p (fs_time s) (or_introl L) T) as (L1 & T1). cbv zeta in L1, T1.
  match goal with |- context [fs_pres tab 32 0 ?s1] => destruct (pres_fine tab 32 0 s1) as (prods & E & _ & ZP) end; auto. rewrite (ZP Z0) in E. rewrite E. clear E. cbn [obind fs_fr fs_fi fs_mix fs_fb fs_time fs_bl fs_br fs_wpos fs_o1l fs_o2l fs_o1r fs_o2r].
  rewrite !map_repeat'. cbn [fst snd]. destruct (silent_block A6 B6 n (fs_fr s) eq_refl H1) as (h1 & P1 & K1). destruct (silent_block A6 B6 n (fs_fi s) eq_refl H2) as (h2 & P2 & K2). rewrite P1. cbn [obind]. rewrite P2. cbn [obind]. rewrite combine_repeat.
  match goal with |- context [fs_posts ws 0 _ _ _ ?s1] => destruct (posts_zero ws W0 32 0%Z s1 Z0) as (s3 & E3 & C3 & F1 & F2) end. rewrite E3. cbn [obind]. eexists. split; [rewrite fade_zero; reflexivity|].
  split; [exact C3|]. exists (n + 32)%nat. cbn [fs_fr fs_fi]. cbn [fs_fr fs_fi] in F1, F2. rewrite F1, F2. auto.
Qed.
Definition silence (ps : list fspar) : list (fspar * list (R * R)) := map (fun p => (p, repeat (0, 0) 32)) ps.
Lemma run_empty tab ws sr M : 1 <= M -> ws 512%Z = 0 -> (forall i, (0 <= i < 1024)%Z -> -1 <= ws i <= 1) -> forall ps s, fine M s -> empty s -> timely sr (silence ps) -> exists s', fs_run tab ws sr (silence ps) s = Ok (s', repeat (repeat (0, 0) 32) (length ps)).
Proof.
  intros M1 W0 WS. induction ps as [|p ps IH]; intros s Fs E T; [exists s; reflexivity|]. inversion T as [|? ? T1 T2]; subst. cbn [fst] in T1. destruct (process_empty tab ws sr p s M W0 Fs E T1) as (s1 & E1 & Em).
  destruct (process_fine tab ws sr p (repeat (0, 0) 32) s M Fs T1 WS) as (s1' & ys & E1' & F1 & _). { apply Forall_forall. intros x Hx. apply repeat_spec in Hx. subst x. cbn [fst snd]. rewrite Rabs_R0. lra. }
  assert (s1' = s1) by congruence. subst s1'. destruct (IH s1 F1 Em T2) as (s2 & E2). exists s2. cbn [silence map fs_run]. rewrite E1. cbn [obind]. unfold silence in E2. rewrite E2. reflexivity.
Qed.
Lemma new_tuned sr p s : Rabs (fs_target sr p) <= 8000000 -> fs_new sr p = Ok s -> tuned6 s.
Proof.
  intros T E. unfold fs_new in E. rewrite half6 in E. cbn [obind] in E. match type of E with fs_init sr p ?s1 = _ => destruct (init_fine sr p s1 1) as (s' & E' & _ & _ & F1 & F2) end; auto; [lra| | |].
  - cbn. repeat split; apply default_unit.
  - right. cbn. repeat split; lra.
  - assert (s' = s) by congruence. subst s'. unfold tuned6. rewrite F1, F2. cbn [fs_fr fs_fi]. rewrite !rest_reset. auto.
Qed.
(* After any history: suspend succeeds, and then silence in is silence out, for any settings. *)
Theorem C218_suspend_silences : forall tab ws sr p0 h p ps M, 0 <= M -> (forall i, (0 <= i < 1024)%Z -> -1 <= ws i <= 1) -> ws 512%Z = 0 ->
  Rabs (fs_target sr p0) <= 8000000 -> timely sr h -> limited M h -> Rabs (fs_target sr p) <= 8000000 -> timely sr (silence ps) ->
  exists s0 s yss s1 s2, fs_new sr p0 = Ok s0 /\ fs_run tab ws sr h s0 = Ok (s, yss) /\ fs_suspend sr p s = Ok s1 /\ fs_run tab ws sr (silence ps) s1 = Ok (s2, repeat (repeat (0, 0) 32) (length ps)).
Proof.
  intros tab ws sr p0 h p ps M M0 WS W0 T0 T L Tp Ts. destruct (new_fine sr p0 (M + 1) ltac:(lra) T0) as (s0 & E0 & F0). assert (Q : M + 1 - 1 = M) by ring.
  destruct (run_fine tab ws sr (M + 1) WS h s0 F0 T) as (s & yss & E & _ & _); [rewrite Q; exact L|].
  destruct (run_tuned tab ws sr (M + 1) WS h s0 s yss F0 T) as (F & Tu); [rewrite Q; exact L|exact (new_tuned sr p0 s0 T0 E0)|exact E|].
  destruct F as (U & Lg & C). destruct (init_fine sr p s (M + 1) ltac:(lra) U Tp (or_introl Lg)) as (s1 & E1 & F1 & Z1 & R1 & R2). destruct Tu as (Tu1 & Tu2).
  destruct (run_empty tab ws sr (M + 1) ltac:(lra) W0 WS ps s1 F1) as (s2 & E2); [|exact Ts|exists s0, s, yss, s1, s2; auto].
  split; [exact Z1|]. exists 0%nat. rewrite R1, R2, Tu1, Tu2. split; apply heard_rest.
Qed.
(* the same for a new effect *)
Theorem C218_starts_silent : forall tab ws sr p0 ps, (forall i, (0 <= i < 1024)%Z -> -1 <= ws i <= 1) -> ws 512%Z = 0 -> Rabs (fs_target sr p0) <= 8000000 -> timely sr (silence ps) ->
  exists s0 s, fs_new sr p0 = Ok s0 /\ fs_run tab ws sr (silence ps) s0 = Ok (s, repeat (repeat (0, 0) 32) (length ps)).
Proof.
  intros tab ws sr p0 ps WS W0 T0 Ts. unfold fs_new. rewrite half6. cbn [obind]. match goal with |- context [fs_init sr p0 ?s1] => destruct (init_fine sr p0 s1 1) as (s & E & F & Z1 & R1 & R2) end; auto; [lra| | |].
  - cbn. repeat split; apply default_unit.
  - right. cbn. repeat split; lra.
  - destruct (run_empty tab ws sr 1 ltac:(lra) W0 WS ps s F) as (s2 & E2); [|exact Ts|exists s, s2; auto]. split; [exact Z1|]. exists 0%nat. rewrite R1, R2. cbn [fs_fr fs_fi]. rewrite rest_reset. split; apply heard_rest.
Qed.
Example C218_ex : let p := mk_fp 0 (1 / 2) false 0 1 1 false 1 in let ws := fun i => (IZR i - 512) / 512 in
  (forall i, (0 <= i < 1024)%Z -> -1 <= ws i <= 1) /\ ws 512%Z = 0 /\ Rabs (fs_target 48000 p) <= 8000000 /\ timely 48000 [(p, repeat (1, 0) 32)] /\ limited 1 [(p, repeat (1, 0) 32)] /\ timely 48000 (silence [p]).
Proof.
  cbv zeta. assert (T : Rabs (fs_target 48000 (mk_fp 0 (1 / 2) false 0 1 1 false 1)) <= 8000000) by (unfold fs_target, sync; cbn [fp_sync fp_pitch]; rewrite Rabs_right; lra).
  split; [intros i I; assert (0 <= IZR i <= 1024) by (split; apply IZR_le; lia); lra|]. split; [lra|]. split; [exact T|]. split; [apply Forall_cons; [exact T|apply Forall_nil]|]. split; [apply Forall_cons; [|apply Forall_nil]|apply Forall_cons; [exact T|apply Forall_nil]].
  apply Forall_forall. intros x Hx. cbn [snd] in Hx. apply repeat_spec in Hx. subst x. cbn [fst snd]. rewrite Rabs_R0, Rabs_R1. lra.
Qed.
Print Assumptions C215_delay_refuted.
Print Assumptions C215_synced_refuted.
Print Assumptions C215_no_fraction_refuted.
Print Assumptions C216_squared_refuted.
Print Assumptions C216_sign_refuted.
Print Assumptions C216_one.
Print Assumptions C218_suspend_silences.
Print Assumptions C218_starts_silent.
