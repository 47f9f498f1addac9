(* SsoProps.v - C233-C236: settings, level bookkeeping, impulse positions and heights, mean level of the super oscillator. *)
From Coq Require Import Reals ZArith List Lia Lra Psatz.
From Verif Require Import Base Util ParamModel LagModel SsoModel SsoProofs.
Import ListNotations.
Local Open Scope R_scope.

(** ** C233: settings stay in range *)
Definition rate5 (l : lag) : Prop := l_lp l = 5 / 100 /\ l_lpinv l = 1 - 5 / 100.
Definition rates5 (l : sso_lags) : Prop := rate5 (lg_sync l) /\ rate5 (lg_pw l) /\ rate5 (lg_pw2 l) /\ rate5 (lg_shape l) /\ rate5 (lg_sub l).
Definition in_range (lo hi x : R) : Prop := lo <= x <= hi.
Definition settings_ok (l : sso_lags) : Prop :=
  0 <= l_v (lg_sync l) /\ in_range (1 / 1000) (999 / 1000) (l_v (lg_pw l)) /\ in_range (1 / 1000) (999 / 1000) (l_v (lg_pw2 l)) /\
  in_range (-1) 1 (l_v (lg_shape l)) /\ in_range 0 1 (l_v (lg_sub l)).

Lemma limR3_range : forall x lo hi, lo <= hi -> lo <= limR3 x lo hi <= hi.
Proof. intros. unfold limR3, Rmax, Rmin. repeat destruct (Rle_dec _ _); lra. Qed.
Lemma lag_start_range : forall (P : R -> Prop) l x, P x -> l_v (lag_instantize (lag_new_value l x)) = x /\ l_target (lag_instantize (lag_new_value l x)) = x.
Proof. intros P l x H. unfold lag_instantize, lag_new_value. destruct (l_first l); cbn [l_v l_target]; auto. Qed.
Lemma lag_rate_start : forall l x, rate5 l -> rate5 (lag_instantize (lag_new_value l x)).
Proof. intros l x [H1 H2]. unfold rate5, lag_instantize, lag_new_value. destruct (l_first l); cbn [l_lp l_lpinv]; auto. Qed.
Lemma lag_rate_step : forall l x, rate5 l -> rate5 (lag_process (lag_new_value l x)).
Proof. intros l x [H1 H2]. unfold rate5, lag_process, lag_new_value. destruct (l_first l); cbn [l_lp l_lpinv]; auto. Qed.
Lemma lag_step_range : forall l x lo hi, rate5 l -> lo <= l_v l <= hi -> lo <= x <= hi -> lo <= l_v (lag_process (lag_new_value l x)) <= hi.
Proof. intros l x lo hi [H1 H2] H3 H4. unfold lag_process, lag_new_value. destruct (l_first l); cbn [l_v l_target l_lp l_lpinv]; rewrite H1, H2; lra. Qed.
Lemma lag_step_nonneg : forall l x, rate5 l -> 0 <= l_v l -> 0 <= x -> 0 <= l_v (lag_process (lag_new_value l x)).
Proof. intros l x [H1 H2] H3 H4. unfold lag_process, lag_new_value. destruct (l_first l); cbn [l_v l_target l_lp l_lpinv]; rewrite H1, H2; lra. Qed.

Lemma C233_inv : forall l p, rates5 l -> settings_ok l -> rates5 (sso_lags_block l p) /\ settings_ok (sso_lags_block l p).
Proof.
  intros l p (A & B & C & D & E) (F & G & H & I & J). unfold rates5, settings_ok, in_range, sso_lags_block, sso_map, sso_targets. cbn [lg_sync lg_pw lg_pw2 lg_shape lg_sub].
  split. { refine (conj _ (conj _ (conj _ (conj _ _)))); apply lag_rate_step; assumption. }
  refine (conj _ (conj _ (conj _ (conj _ _)))).
  { apply lag_step_nonneg; [assumption|assumption|apply Rmax_l]. }
  all: apply lag_step_range; try assumption; apply limR3_range; lra.
Qed.
Theorem C233_settings_in_range : forall l0 p0 ps, rates5 l0 ->
  settings_ok (fold_left sso_lags_block ps (sso_lags_start l0 p0)).
Proof.
  intros l0 p0 ps R0.
  assert (S0 : rates5 (sso_lags_start l0 p0) /\ settings_ok (sso_lags_start l0 p0)).
  { destruct R0 as (A & B & C & D & E). unfold rates5, settings_ok, in_range, sso_lags_start, sso_map, sso_targets. cbn [lg_sync lg_pw lg_pw2 lg_shape lg_sub].
    split. { refine (conj _ (conj _ (conj _ (conj _ _)))); apply lag_rate_start; assumption. }
    repeat match goal with |- context[l_v (lag_instantize (lag_new_value ?l ?x))] => rewrite (proj1 (lag_start_range (fun _ => True) l x I)) end.
    refine (conj (Rmax_l _ _) (conj _ (conj _ (conj _ _)))); apply limR3_range; lra. }
  revert S0. generalize (sso_lags_start l0 p0). induction ps as [|p ps IH]; intros l [S1 S2]; cbn [fold_left]; [exact S2|].
  apply IH. apply C233_inv; assumption.
Qed.
Print Assumptions C233_settings_in_range.
(* init.rs leaves such smoothers, and a note may start with any parameter values *)
Example C233_instance : rates5 sso_lags_init /\
  l_v (lg_pw (sso_lags_start sso_lags_init {| pp_sync := -3; pp_pw := 7; pp_pw2 := 0; pp_shape := 2; pp_sub := 1 / 3 |})) = 999 / 1000.
Proof.
  split. { unfold rates5, rate5, sso_lags_init, sso_lag0, lag_set_rate. cbn [lg_sync lg_pw lg_pw2 lg_shape lg_sub l_lp l_lpinv]. repeat split; lra. }
  unfold sso_lags_start, sso_map, sso_targets. cbn [lg_pw pp_pw]. rewrite (proj1 (lag_start_range (fun _ => True) _ _ I)).
  unfold limR3, Rmax, Rmin. repeat destruct (Rle_dec _ _); lra.
Qed.
(* pitchmult is at most 1 and positive, whatever the pitch; the high-pass gain is below 0.9982 and positive *)
Theorem C233_speed_and_leak : forall sr inv pp, 0 < 1 / sso_pinv sr inv <= 1 /\ 0 < sso_hpf sr pp <= 9982 / 10000.
Proof.
  intros sr inv pp. split.
  - assert (1 <= sso_pinv sr inv) by apply Rmax_l. unfold Rdiv. rewrite Rmult_1_l. split; [apply Rinv_0_lt_compat; lra|]. rewrite <- Rinv_1. apply Rinv_le_contravar; lra.
  - unfold sso_hpf. split; [|apply Rmin_l]. apply Rmin_glb_lt; [lra|]. unfold Rpower. apply exp_pos.
Qed.
Print Assumptions C233_speed_and_leak.

(** ** C234: the remembered level is the level of the wave form *)
Lemma wave_app : forall es1 es2 y0 p0 s0 p1 x,
  wave y0 p0 s0 (es1 ++ es2) x = wave (wave y0 p0 s0 es1 p1) p1 (s0 + sumR (map e_ddc es1)) es2 x.
Proof.
  intros es1 es2 y0 p0 s0 p1 x. unfold wave. rewrite map_app, sumR_app.
  assert (H : forall l, sumR (map (fun e => e_g e - e_ddc e * (x - e_pos e)) l) = sumR (map (fun e => e_g e - e_ddc e * (p1 - e_pos e)) l) - sumR (map e_ddc l) * (x - p1)).
  { induction l as [|e l IH]; cbn [map sumR]; [ring|rewrite IH; ring]. }
  rewrite (H es1). ring.
Qed.
Lemma wave_shift : forall es y0 p0 s0 x A, wave y0 (A + p0) s0 (map (shift_ev A) es) (A + x) = wave y0 p0 s0 es x.
Proof.
  intros es y0 p0 s0 x A. unfold wave. rewrite map_map. f_equal; [ring|]. induction es as [|e es IH]; cbn [map sumR]; [reflexivity|]. rewrite IH. unfold shift_ev at 1 2 3. cbn [e_g e_ddc e_pos]. ring.
Qed.
Lemma ddc_shift : forall A es, sumR (map e_ddc (map (shift_ev A) es)) = sumR (map e_ddc es).
Proof. intros A es. rewrite map_map. reflexivity. Qed.

Lemma convolute_wave : forall c w w' e, cfg_ok c -> voice_ok w -> sso_convolute c w = Ok (w', e) ->
  w_last w' = wave (w_last w) (w_osc w) (w_dc w) [e] (w_osc w') /\ w_dc w' = w_dc w + e_ddc e.
Proof.
  intros c w w' e K V E. pose proof (convolute_spec c w K V) as C. cbv zeta in C. destruct C as (w1 & e1 & g & pw & pw2 & C1 & C2 & C3 & P & Q & _ & _ & C4 & _).
  rewrite C1 in E. injection E as -> ->. unfold wave. cbn [map sumR]. rewrite C3. cbn [e_g e_ddc e_pos].
  split; [|ring]. pose proof (f_equal w_last C4) as L. cbn [w_last] in L. pose proof (f_equal w_osc C4) as O. cbn [w_osc] in O.
  assert (U : w_last (sso_sync_step c w) = w_last w + w_dc w * (w_osc w - w_osc (sso_sync_step c w))).
  { unfold sso_sync_step. destruct (sso_synced c w); cbn [w_last w_osc]; ring. }
  rewrite L, U, O. ring.
Qed.
Lemma loop_wave : forall c a fuel w w' es, cfg_ok c -> voice_ok w -> sso_loop fuel c a w = Ok (Some (w', es)) ->
  w_last w' = wave (w_last w) (w_osc w) (w_dc w) es (w_osc w') /\ w_dc w' = w_dc w + sumR (map e_ddc es).
Proof.
  intros c a fuel w w' es K V E.
  apply (loop_ind c a (fun w w' es => w_last w' = wave (w_last w) (w_osc w) (w_dc w) es (w_osc w') /\ w_dc w' = w_dc w + sumR (map e_ddc es)) K) with (4 := E); [| |exact V].
  - intros w0 V0 M. unfold wave. cbn [map sumR]. split; ring.
  - intros w0 w1 e w2 es2 V0 V1 M C [I1 I2]. destruct (convolute_wave _ _ _ _ K V0 C) as [J1 J2]. split.
    + change (e :: es2) with ([e] ++ es2). rewrite (wave_app [e] es2 _ _ _ (w_osc w1)). rewrite <- J1. cbn [map sumR]. rewrite Rplus_0_r, <- J2. exact I1.
    + cbn [map sumR]. rewrite I2, J2. ring.
Qed.
Theorem C234_level_is_the_wave : forall fuel bs A w A' w' es,
  Forall (fun b => cfg_ok (fst b)) bs -> voice_ok w -> sso_run fuel bs A w = Ok (Some (A', w', es)) ->
  w_last w' = wave (w_last w) (A + w_osc w) (w_dc w) es (A' + w_osc w') /\ w_dc w' = w_dc w + sumR (map e_ddc es).
Proof.
  intros fuel. induction bs as [|[c a] bs IH]; intros A w A' w' es F V E.
  - cbn [sso_run] in E. assert (X : A = A' /\ w = w' /\ [] = es) by (repeat split; congruence). destruct X as (-> & -> & <-). unfold wave. cbn [map sumR]. split; ring.
  - destruct (run_inv _ _ _ _ _ _ _ _ _ E) as (w1 & es1 & es2 & E1 & E2 & ->). inversion F as [|? ? K F']; subst. cbn [fst] in K.
    pose proof (block_voice_ok _ _ _ _ _ _ K V E1) as V1. destruct (block_inv _ _ _ _ _ _ E1) as (u & E3 & Hw1).
    destruct (IH _ _ _ _ _ F' V1 E2) as [I1 I2]. destruct (loop_wave _ _ _ _ _ _ K V E3) as [J1 J2].
    assert (O1 : w_osc w1 = w_osc u - a) by (rewrite Hw1; reflexivity). assert (L1 : w_last w1 = w_last u) by (rewrite Hw1; reflexivity). assert (D1 : w_dc w1 = w_dc u) by (rewrite Hw1; reflexivity).
    split.
    + rewrite (wave_app _ es2 _ _ _ (A + w_osc u)). rewrite wave_shift, ddc_shift, <- J1, <- J2, <- L1, <- D1. rewrite I1. f_equal. rewrite O1. ring.
    + rewrite I2, D1, J2, map_app, sumR_app, ddc_shift. ring.
Qed.
Print Assumptions C234_level_is_the_wave.
(* and an impulse that starts a cycle takes the wave form to a level that depends on the settings only: no error of an earlier
   cycle survives, however the parameters moved *)
Theorem C234_cycle_start_resets_level : forall c w w' e, cfg_ok c -> voice_ok w -> sso_convolute c w = Ok (w', e) ->
  (w_state w = 0%Z \/ (0 < c_sync c /\ w_sync w < w_osc w)) ->
  let start := ((1 + c_wf c) / 2 - (1 - c_pw c) * c_wf c) * (1 - c_sub c) + c_sub c * (1 - c_pw2 c) in
  wave (w_last w) (w_osc w) (w_dc w) [e] (e_pos e) = start /\ 0 <= start <= 1.
Proof.
  intros c w w' e K V E S0. pose proof (convolute_spec c w K V) as C. cbv zeta in C. destruct C as (w1 & e1 & g & pw & pw2 & C1 & C2 & C3 & P & Q & _ & _ & C4 & C5).
  rewrite C1 in E. injection E as -> ->.
  assert (S1 : w_state (sso_sync_step c w) = 0%Z).
  { unfold sso_sync_step, sso_synced. destruct S0 as [S0|[S0 S2]].
    - destruct (Rlt_dec 0 (c_sync c)); [destruct (Rlt_dec (w_sync w) (w_osc w))|]; cbn [w_state]; auto.
    - destruct (Rlt_dec 0 (c_sync c)); [|contradiction]. destruct (Rlt_dec (w_sync w) (w_osc w)); [reflexivity|contradiction]. }
  rewrite S1 in C5. unfold sso_get_g in C5. cbn [Z.eqb] in C5.
  assert (G : g = sso_tg (c_wf c) (c_sub c) (c_pw c) (2 * c_pw2 c) - w_last (sso_sync_step c w)) by congruence.
  assert (U : w_last (sso_sync_step c w) = w_last w + w_dc w * (w_osc w - w_osc (sso_sync_step c w))).
  { unfold sso_sync_step. destruct (sso_synced c w); cbn [w_last w_osc]; ring. }
  unfold wave. cbn [map sumR]. rewrite C3. cbn [e_g e_ddc e_pos]. split.
  - rewrite G, U. unfold sso_tg. field.
  - destruct K as (K1 & K2 & K3 & K4 & K5 & K6 & K7).
    assert (0 <= (1 + c_wf c) / 2 - (1 - c_pw c) * c_wf c <= 1) by nra.
    set (z := (1 + c_wf c) / 2 - (1 - c_pw c) * c_wf c) in *. clearbody z. nra.
Qed.
Print Assumptions C234_cycle_start_resets_level.

(* whatever the modulation, the level stays bounded for ever *)
Definition lev_inv (w : sso_voice) : Prop :=
  let p := w_pw w in let q := w_pw2 w in
  (w_state w = 0%Z -> -7 <= w_last w <= 4) /\
  (w_state w = 1%Z -> - (2 * (p * q)) <= w_last w <= 1) /\
  (w_state w = 2%Z -> - (1 + 2 * (p * q + (1 - p) * (2 - q))) <= w_last w <= 2) /\
  (w_state w = 3%Z -> - (2 + 2 * (p * q + (1 - p) * (2 - q) + p * (2 - q))) <= w_last w <= 3).
Lemma prod4 : forall x a b, 0 <= x -> 0 <= a <= 2 -> 0 <= b <= 1 -> 0 <= x * a * b <= 2 * x.
Proof. intros x a b X A B. split; [repeat apply Rmult_le_pos; lra|]. assert (a * b <= 2) by nra. rewrite Rmult_assoc. rewrite (Rmult_comm 2). apply Rmult_le_compat_l; lra. Qed.
Lemma lev_step : forall c w w' e, cfg_ok c -> voice_ok w -> lev_inv w -> sso_convolute c w = Ok (w', e) -> lev_inv w'.
Proof.
  intros c w w' e K V L E. pose proof (convolute_spec c w K V) as C. cbv zeta in C.
  destruct C as (w1 & e1 & g & pw & pw2 & C1 & C2 & C3 & P & Q & Z0 & Z1 & C4 & C5).
  rewrite C1 in E. injection E as -> ->. pose proof (sync_step_ok c w K V) as (_ & _ & US & _).
  assert (LU : w_state (sso_sync_step c w) <> 0%Z -> w_state (sso_sync_step c w) = w_state w /\ w_last (sso_sync_step c w) = w_last w /\ w_pw (sso_sync_step c w) = w_pw w /\ w_pw2 (sso_sync_step c w) = w_pw2 w).
  { unfold sso_sync_step. destruct (sso_synced c w); cbn [w_state]; intros H; [lia|auto]. }
  set (u := sso_sync_step c w) in *. clearbody u.
  assert (ST : w_state w' = Z.land (w_state u + 1) 3 /\ w_pw w' = pw /\ w_pw2 w' = pw2) by (rewrite C4; cbn [w_state w_pw w_pw2]; auto).
  destruct ST as (ST & SP & SQ). clear C4 C1 C3.
  destruct K as (K1 & K2 & K3 & K4 & K5 & K6 & K7). unfold lev_inv in *. cbv zeta in *. rewrite SP, SQ.
  pose proof (prod4 (pw * pw2) (1 + c_wf c) (1 - c_sub c) ltac:(nra) ltac:(lra) ltac:(lra)) as B0.
  pose proof (prod4 ((1 - pw) * (2 - pw2)) (1 + c_wf c) (1 - c_sub c) ltac:(nra) ltac:(lra) ltac:(lra)) as B1.
  pose proof (prod4 (pw * (2 - pw2)) (1 + c_wf c) (1 - c_sub c) ltac:(nra) ltac:(lra) ltac:(lra)) as B2.
  pose proof (prod4 ((1 - pw) * pw2) (1 + c_wf c) (1 - c_sub c) ltac:(nra) ltac:(lra) ltac:(lra)) as B3.
  assert (G1 : -1 <= c_wf c * (1 - c_sub c) - c_sub c <= 1) by nra.
  assert (G3 : -1 <= c_wf c * (1 - c_sub c) + c_sub c <= 1) by nra.
  destruct L as (L0 & L1 & L2 & L3). unfold sso_get_g in C5.
  destruct (state_cases _ US) as [H|[H|[H|H]]]; rewrite H in *; cbn [Z.eqb BinPos.Pos.eqb] in C5; cbv zeta in C5.
  - assert (X : w_last w' = sso_tg (c_wf c) (c_sub c) pw pw2 - pw * pw2 * (1 + c_wf c) * (1 - c_sub c)) by (destruct (Z0 eq_refl) as [-> ->]; congruence).
    assert (T : 0 <= sso_tg (c_wf c) (c_sub c) pw pw2 <= 1).
    { unfold sso_tg. assert (0 <= (1 + c_wf c) * (1 / 2) + (1 - pw) * - c_wf c <= 1) by nra. set (z := (1 + c_wf c) * (1 / 2) + (1 - pw) * - c_wf c) in *. clearbody z.
      assert (0 <= z * (1 - c_sub c) <= 1 - c_sub c) by nra. assert (0 <= 1 / 2 * c_sub c * (2 - pw2) <= c_sub c) by nra. lra. }
    change (Z.land (0 + 1) 3) with 1%Z in ST. rewrite ST. split; [lia|]. split; [intros _|split; lia]. rewrite X. lra.
  - destruct (LU ltac:(lia)) as (A1 & A2 & A3 & A4). destruct (Z1 ltac:(lia)) as [Hp Hq]. rewrite Hp, Hq, A3, A4 in *. rewrite A2 in C5.
    specialize (L1 (eq_sym A1)). change (Z.land (1 + 1) 3) with 2%Z in ST. rewrite ST. split; [lia|]. split; [lia|]. split; [intros _|lia].
    assert (X : w_last w' = w_last w + (c_wf c * (1 - c_sub c) - c_sub c) - (1 - w_pw w) * (2 - w_pw2 w) * (1 + c_wf c) * (1 - c_sub c)) by congruence. lra.
  - destruct (LU ltac:(lia)) as (A1 & A2 & A3 & A4). destruct (Z1 ltac:(lia)) as [Hp Hq]. rewrite Hp, Hq, A3, A4 in *. rewrite A2 in C5.
    specialize (L2 (eq_sym A1)). change (Z.land (2 + 1) 3) with 3%Z in ST. rewrite ST. split; [lia|]. split; [lia|]. split; [lia|intros _].
    assert (X : w_last w' = w_last w + (1 - c_sub c) - w_pw w * (2 - w_pw2 w) * (1 + c_wf c) * (1 - c_sub c)) by congruence. lra.
  - destruct (LU ltac:(lia)) as (A1 & A2 & A3 & A4). destruct (Z1 ltac:(lia)) as [Hp Hq]. rewrite Hp, Hq, A3, A4 in *. rewrite A2 in C5.
    specialize (L3 (eq_sym A1)). change (Z.land (3 + 1) 3) with 0%Z in ST. rewrite ST. split; [intros _|split; [lia|split; lia]].
    assert (X : w_last w' = w_last w + (c_wf c * (1 - c_sub c) + c_sub c) - (1 - w_pw w) * w_pw2 w * (1 + c_wf c) * (1 - c_sub c)) by congruence.
    assert (Y : w_pw w * w_pw2 w + (1 - w_pw w) * (2 - w_pw2 w) + w_pw w * (2 - w_pw2 w) + (1 - w_pw w) * w_pw2 w = 2) by ring. lra.
Qed.
Lemma lev_bound : forall w, voice_ok w -> lev_inv w -> -7 <= w_last w <= 4.
Proof.
  intros w (V1 & V2 & V3 & V4) (L0 & L1 & L2 & L3). destruct (state_cases _ V3) as [H|[H|[H|H]]]; [specialize (L0 H); lra| | |]; specialize (V4 ltac:(lia)); destruct V4 as [P Q].
  - specialize (L1 H). assert (w_pw w * w_pw2 w <= 2) by nra. lra.
  - specialize (L2 H). assert (w_pw w * w_pw2 w + (1 - w_pw w) * (2 - w_pw2 w) <= 2) by nra. lra.
  - specialize (L3 H). assert (w_pw w * w_pw2 w + (1 - w_pw w) * (2 - w_pw2 w) + w_pw w * (2 - w_pw2 w) <= 2) by nra. lra.
Qed.
Lemma loop_lev : forall c a fuel w w' es, cfg_ok c -> voice_ok w -> lev_inv w -> sso_loop fuel c a w = Ok (Some (w', es)) -> lev_inv w'.
Proof.
  intros c a fuel w w' es K V L E.
  apply (loop_ind c a (fun w w' _ => lev_inv w -> lev_inv w') K) with (4 := E); [| |exact V|exact L].
  - auto.
  - intros w0 w1 e w2 es2 V0 V1 M C IH L0. apply IH. apply (lev_step _ _ _ _ K V0 L0 C).
Qed.
Lemma run_lev : forall fuel bs A w A' w' es, Forall (fun b => cfg_ok (fst b)) bs -> voice_ok w -> lev_inv w ->
  sso_run fuel bs A w = Ok (Some (A', w', es)) -> voice_ok w' /\ lev_inv w'.
Proof.
  intros fuel. induction bs as [|[c a] bs IH]; intros A w A' w' es F V L E.
  - cbn [sso_run] in E. assert (X : w = w') by congruence. subst. auto.
  - destruct (run_inv _ _ _ _ _ _ _ _ _ E) as (w1 & es1 & es2 & E1 & E2 & ->). inversion F as [|? ? K F']; subst. cbn [fst] in K.
    pose proof (block_voice_ok _ _ _ _ _ _ K V E1) as V1. destruct (block_inv _ _ _ _ _ _ E1) as (u & E3 & Hw1).
    apply (IH _ _ _ _ _ F' V1) with (2 := E2). pose proof (loop_lev _ _ _ _ _ _ K V L E3) as LU. rewrite Hw1. exact LU.
Qed.
Theorem C234_level_bounded : forall fuel bs A rt draw ictr pw pw2 A' w' es,
  Forall (fun b => cfg_ok (fst b)) bs -> 0 <= draw -> 0 <= ictr ->
  sso_run fuel bs A (sso_start rt draw ictr pw pw2) = Ok (Some (A', w', es)) ->
  -7 <= wave (if rt then -4 / 10 else 0) (A + w_osc (sso_start rt draw ictr pw pw2)) 0 es (A' + w_osc w') <= 4.
Proof.
  intros fuel bs A rt draw ictr pw pw2 A' w' es F D I E.
  assert (V : voice_ok (sso_start rt draw ictr pw pw2)).
  { unfold voice_ok, sso_start. cbv zeta. cbn [w_osc w_sync w_state w_pw w_pw2]. assert (0 <= 1 / 2 * draw * ictr) by (apply Rmult_le_pos; lra).
    split; [destruct rt; lra|]. split; [destruct rt; lra|]. split; [lia|]. intros H0. exfalso. apply H0. reflexivity. }
  assert (L : lev_inv (sso_start rt draw ictr pw pw2)).
  { unfold lev_inv, sso_start. cbv zeta. cbn [w_state w_last]. split; [intros _; destruct rt; lra|]. repeat split; discriminate. }
  destruct (run_lev _ _ _ _ _ _ _ F V L E) as [V' L']. destruct (C234_level_is_the_wave _ _ _ _ _ _ _ F V E) as [W _].
  unfold sso_start in W at 1 3. cbv zeta in W. cbn [w_last w_dc] in W. rewrite <- W. apply lev_bound; assumption.
Qed.
Print Assumptions C234_level_bounded.
