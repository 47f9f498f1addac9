(* SsoProofs.v - specification vocabulary and lemmas about the super oscillator's impulse generator (SsoModel.v). *)
From Coq Require Import Reals ZArith List Lia Lra Psatz Wf_nat.
From Verif Require Import Base Util ParamModel LagModel SsoModel.
Import ListNotations.
Local Open Scope R_scope.

(** ** Specification vocabulary *)
(* the settings a block may have, and the states a voice may be in *)
Definition cfg_ok (c : sso_cfg) : Prop :=
  0 <= c_sync c /\ 1 / 1000 <= c_pw c <= 999 / 1000 /\ 1 / 1000 <= c_pw2 c <= 999 / 1000 /\
  -1 <= c_wf c <= 1 /\ 0 <= c_sub c <= 1 /\ 0 < c_t c /\ 0 < c_T c.
Definition voice_ok (w : sso_voice) : Prop :=
  0 <= w_osc w /\ 0 <= w_sync w /\ (0 <= w_state w <= 3)%Z /\
  (w_state w <> 0%Z -> 1 / 1000 <= w_pw w <= 999 / 1000 /\ 2 / 1000 <= w_pw2 w <= 1998 / 1000).

(* several blocks, each with its own settings and length; the positions of the impulses are made absolute *)
Definition shift_ev (A : R) (e : sso_ev) : sso_ev := {| e_pos := A + e_pos e; e_g := e_g e; e_ddc := e_ddc e |}.
Fixpoint sso_run (fuel : nat) (bs : list (sso_cfg * R)) (A : R) (w : sso_voice) : res (option (R * sso_voice * list sso_ev)) :=
  match bs with
  | [] => Ok (Some (A, w, []))
  | (c, a) :: bs =>
      obind (sso_voice_block fuel c a w) (fun q =>
      match q with
      | None => Ok None
      | Some (w1, es) =>
          obind (sso_run fuel bs (A + a) w1) (fun q =>
          Ok (match q with None => None | Some (A', w', es') => Some (A', w', map (shift_ev A) es ++ es') end))
      end)
  end.

(* the wave form the impulses stand for: every impulse is a jump of height g and a change of slope -ddc *)
Fixpoint sumR (l : list R) : R := match l with [] => 0 | x :: r => x + sumR r end.
Definition wave (y0 p0 slope0 : R) (es : list sso_ev) (x : R) : R :=
  y0 - slope0 * (x - p0) + sumR (map (fun e => e_g e - e_ddc e * (x - e_pos e)) es).
(* where the k-th impulse of an undisturbed oscillator belongs *)
Definition cum (p q : R) (k : nat) : R :=
  match k with O => 0 | 1%nat => p * q | 2%nat => p * q + (1 - p) * (2 - q) | _ => p * q + (1 - p) * (2 - q) + p * (2 - q) end.
Definition Pos (t p q p0 : R) (k : nat) : R := p0 + 2 * t * INR (k / 4) + t * cum p q (k mod 4).

Lemma obind_inv : forall {X Y} (r : res X) (f : X -> res Y) y, obind r f = Ok y -> exists x, r = Ok x /\ f x = Ok y.
Proof. intros X Y [x| |] f y E; cbn [obind] in E; try discriminate E. exists x. auto. Qed.

Lemma sumR_app : forall a b, sumR (a ++ b) = sumR a + sumR b.
Proof. induction a as [|x a IH]; intros b; cbn [sumR app]; [ring|rewrite IH; ring]. Qed.

Lemma state_cases : forall s, (0 <= s <= 3)%Z -> s = 0%Z \/ s = 1%Z \/ s = 2%Z \/ s = 3%Z.
Proof. intros. lia. Qed.

(** ** One impulse *)
Lemma sync_step_ok : forall c w, cfg_ok c -> voice_ok w -> voice_ok (sso_sync_step c w).
Proof.
  intros c w K V. unfold sso_sync_step. destruct (sso_synced c w); [|exact V].
  destruct V as (V1 & V2 & V3 & V4). unfold voice_ok. cbn [w_osc w_sync w_state w_pw w_pw2]. repeat split; try lra; try lia.
  apply Rmax_l.
Qed.
Lemma rate0 : forall t p q, sso_rate t 0 p q = t * p * q. Proof. reflexivity. Qed.
Lemma rate1 : forall t p q, sso_rate t 1 p q = t * (1 - p) * (2 - q). Proof. reflexivity. Qed.
Lemma rate2 : forall t p q, sso_rate t 2 p q = t * p * (2 - q). Proof. reflexivity. Qed.
Lemma rate3 : forall t p q, sso_rate t 3 p q = t * (1 - p) * q. Proof. reflexivity. Qed.
(* the widths a voice uses for the step it starts *)
Lemma get_g_ok : forall c w, cfg_ok c -> voice_ok w -> exists g last pw pw2,
  sso_get_g c (w_state w) (w_pw w) (w_pw2 w) (w_last w) = Ok (g, last, pw, pw2) /\
  1 / 1000 <= pw <= 999 / 1000 /\ 2 / 1000 <= pw2 <= 1998 / 1000 /\
  (w_state w = 0%Z -> pw = c_pw c /\ pw2 = 2 * c_pw2 c) /\ (w_state w <> 0%Z -> pw = w_pw w /\ pw2 = w_pw2 w) /\
  last = w_last w + g - sso_rate 1 (w_state w) pw pw2 * ((1 + c_wf c) * (1 - c_sub c)).
Proof.
  intros c w (K1 & K2 & K3 & K4 & K5 & K6 & K7) (V1 & V2 & V3 & V4). unfold sso_get_g.
  destruct (state_cases _ V3) as [H|[H|[H|H]]]; rewrite H in *; cbv zeta; cbn [Z.eqb].
  - do 4 eexists. split; [reflexivity|]. rewrite rate0. repeat split; try lra; try (intros; lia); try (intros; lra).
  - destruct (V4 ltac:(lia)) as [P Q]. do 4 eexists. split; [reflexivity|]. rewrite rate1. repeat split; try lra; try (intros; lia); try reflexivity.
  - destruct (V4 ltac:(lia)) as [P Q]. do 4 eexists. split; [reflexivity|]. rewrite rate2. repeat split; try lra; try (intros; lia); try reflexivity.
  - destruct (V4 ltac:(lia)) as [P Q]. do 4 eexists. split; [reflexivity|]. rewrite rate3. repeat split; try lra; try (intros; lia); try reflexivity.
Qed.
Lemma rate_scale : forall t s p q, sso_rate t s p q = t * sso_rate 1 s p q.
Proof. intros. unfold sso_rate. destruct (_ =? _)%Z; destruct (_ =? _)%Z; ring. Qed.
Definition rmin : R := 2 / 1000000.
Lemma rate_pos : forall s p q, 1 / 1000 <= p <= 999 / 1000 -> 2 / 1000 <= q <= 1998 / 1000 -> rmin <= sso_rate 1 s p q.
Proof. intros s p q P Q. unfold sso_rate, rmin. destruct (_ =? _)%Z; destruct (_ =? _)%Z; nra. Qed.

(* everything one call does *)
Lemma convolute_spec : forall c w, cfg_ok c -> voice_ok w -> exists w' e g pw pw2, let u := sso_sync_step c w in
  sso_convolute c w = Ok (w', e) /\ voice_ok w' /\
  e = {| e_pos := w_osc u; e_g := g; e_ddc := w_dc w' - w_dc w |} /\
  1 / 1000 <= pw <= 999 / 1000 /\ 2 / 1000 <= pw2 <= 1998 / 1000 /\
  (w_state u = 0%Z -> pw = c_pw c /\ pw2 = 2 * c_pw2 c) /\ (w_state u <> 0%Z -> pw = w_pw u /\ pw2 = w_pw2 u) /\
  w' = {| w_osc := w_osc u + c_t c * sso_rate 1 (w_state u) pw pw2; w_sync := w_sync u; w_state := Z.land (w_state u + 1) 3;
          w_pw := pw; w_pw2 := pw2; w_last := w_last u + g - w_dc w' * (c_t c * sso_rate 1 (w_state u) pw pw2);
          w_dc := 1 / c_t c * (1 + c_wf c) * (1 - c_sub c) |} /\
  sso_get_g c (w_state u) (w_pw u) (w_pw2 u) (w_last u) = Ok (g, w_last w', pw, pw2).
Proof.
  intros c w K V. pose proof (sync_step_ok c w K V) as U. set (u := sso_sync_step c w) in *.
  assert (D : w_dc u = w_dc w) by (unfold u, sso_sync_step; destruct (sso_synced c w); reflexivity).
  destruct (get_g_ok c u K U) as (g & last & pw & pw2 & E & P & Q & Z0 & Z1 & L).
  pose proof (rate_pos (w_state u) pw pw2 P Q) as RP. destruct K as (K1 & K2 & K3 & K4 & K5 & K6 & K7). destruct U as (U1 & U2 & U3 & U4).
  assert (TP : 0 <= c_t c * sso_rate 1 (w_state u) pw pw2) by (unfold rmin in RP; apply Rmult_le_pos; lra).
  unfold sso_convolute. fold u. rewrite E. cbn [obind].
  eexists. eexists. exists g, pw, pw2. cbv zeta. split; [reflexivity|]. rewrite (rate_scale (c_t c)).
  rewrite Rmax_right by lra. cbn [w_osc w_sync w_state w_pw w_pw2 w_last w_dc].
  split; [|split; [|split; [|split; [|split; [|split; [|split]]]]]]; try assumption; try (rewrite D; reflexivity).
  - unfold voice_ok. cbn [w_osc w_sync w_state w_pw w_pw2]. repeat split; try lra;
    destruct (state_cases _ U3) as [H|[H|[H|H]]]; rewrite H; cbn; lia.
  - rewrite L. f_equal. field. lra.
  - reflexivity.
Qed.

(** ** The loop *)
Lemma more_pos : forall c w a, sso_more c a w = true -> w_osc (sso_sync_step c w) < a.
Proof.
  intros c w a. unfold sso_more, sso_sync_step, sso_synced. destruct (Rlt_dec 0 (c_sync c)).
  - destruct (Rlt_dec (w_sync w) (w_osc w)); cbn [w_osc]; destruct (Rlt_dec (w_sync w) a); destruct (Rlt_dec (w_osc w) a); cbn [orb]; intros; try discriminate; lra.
  - destruct (Rlt_dec (w_osc w) a); cbn [orb]; intros; [lra|discriminate].
Qed.
Lemma more_done : forall c w a, sso_more c a w = false -> a <= w_osc w /\ (0 < c_sync c -> a <= w_sync w).
Proof.
  intros c w a. unfold sso_more. destruct (Rlt_dec 0 (c_sync c)); [destruct (Rlt_dec (w_sync w) a)|]; destruct (Rlt_dec (w_osc w) a); cbn [orb]; intros; try discriminate; split; intros; lra.
Qed.

(* induction over the rounds of the loop *)
Lemma loop_ind : forall c a (P : sso_voice -> sso_voice -> list sso_ev -> Prop), cfg_ok c ->
  (forall w, voice_ok w -> sso_more c a w = false -> P w w []) ->
  (forall w w1 e w' es, voice_ok w -> voice_ok w1 -> sso_more c a w = true -> sso_convolute c w = Ok (w1, e) -> P w1 w' es -> P w w' (e :: es)) ->
  forall fuel w w' es, voice_ok w -> sso_loop fuel c a w = Ok (Some (w', es)) -> P w w' es.
Proof.
  intros c a P K H0 H1. induction fuel as [|fuel IH]; intros w w' es V E; cbn [sso_loop] in E; destruct (sso_more c a w) eqn:M; try discriminate E.
  - injection E as <- <-. apply H0; assumption.
  - apply obind_inv in E. destruct E as ([w1 e] & E1 & E2). apply obind_inv in E2. destruct E2 as (q & E2 & E3). destruct q as [[w2 es2]|]; [|discriminate E3].
    cbn [fst snd] in *. injection E3 as <- <-. pose proof (convolute_spec c w K V) as C. cbv zeta in C.
    destruct C as (w1' & e' & g & pw & pw2 & C1 & C2 & _). rewrite C1 in E1. injection E1 as -> ->.
    apply (H1 w w1 e w2 es2 V C2 M C1). apply (IH w1 w2 es2 C2 E2).
  - injection E as <- <-. apply H0; assumption.
Qed.
Lemma loop_no_panic : forall c a, cfg_ok c -> forall fuel w, voice_ok w -> exists q, sso_loop fuel c a w = Ok q.
Proof.
  intros c a K. induction fuel as [|fuel IH]; intros w V; cbn [sso_loop]; destruct (sso_more c a w); try (eexists; reflexivity).
  pose proof (convolute_spec c w K V) as C. cbv zeta in C. destruct C as (w1 & e & g & pw & pw2 & C1 & C2 & _). rewrite C1. cbn [obind fst snd].
  destruct (IH w1 C2) as [q Hq]. rewrite Hq. cbn [obind]. eexists; reflexivity.
Qed.
Lemma loop_fuel : forall c a fuel w x, sso_loop fuel c a w = Ok (Some x) -> forall f2, (fuel <= f2)%nat -> sso_loop f2 c a w = Ok (Some x).
Proof.
  intros c a. induction fuel as [|fuel IH]; intros w x E f2 L; cbn [sso_loop] in E; destruct (sso_more c a w) eqn:M; try discriminate E.
  - destruct f2; cbn [sso_loop]; rewrite M; exact E.
  - destruct f2 as [|f2]; [lia|]. cbn [sso_loop]. rewrite M. apply obind_inv in E. destruct E as (r & E1 & E2). rewrite E1. cbn [obind].
    apply obind_inv in E2. destruct E2 as (q & E2 & E3). destruct q as [y|]; [|discriminate E3].
    rewrite (IH _ _ E2 f2) by lia. cbn [obind]. exact E3.
  - destruct f2; cbn [sso_loop]; rewrite M; exact E.
Qed.

(* termination: Phi grows by at least m every round *)
Definition phi (c : sso_cfg) (w : sso_voice) : R :=
  if Rlt_dec 0 (c_sync c) then Rmin (w_osc w) (w_sync w + rmin * c_t c) + w_sync w else w_osc w.
Definition gain (c : sso_cfg) : R := Rmin (rmin * c_t c) (c_T c).
Lemma gain_pos : forall c, cfg_ok c -> 0 < gain c.
Proof. intros c (K1 & K2 & K3 & K4 & K5 & K6 & K7). unfold gain, rmin. apply Rmin_glb_lt; lra. Qed.
Lemma phi_step : forall c w w' e, cfg_ok c -> voice_ok w -> sso_convolute c w = Ok (w', e) ->
  phi c w + gain c <= phi c w' /\ (w_sync w' <= Rmax (w_sync w) (w_osc (sso_sync_step c w) + c_T c)).
Proof.
  intros c w w' e K V E. pose proof (convolute_spec c w K V) as C. cbv zeta in C. destruct C as (w1 & e1 & g & pw & pw2 & C1 & C2 & C3 & P & Q & _ & _ & C4 & _).
  rewrite C1 in E. injection E as -> ->. pose proof (rate_pos (w_state (sso_sync_step c w)) pw pw2 P Q) as RP.
  destruct K as (K1 & K2 & K3 & K4 & K5 & K6 & K7). destruct V as (V1 & V2 & V3 & V4).
  set (rt := sso_rate 1 (w_state (sso_sync_step c w)) pw pw2) in *. clearbody rt.
  assert (X : rmin * c_t c <= c_t c * rt) by (rewrite (Rmult_comm rmin); apply Rmult_le_compat_l; lra).
  assert (X0 : 0 < rmin * c_t c) by (unfold rmin; lra).
  unfold phi, gain. rewrite C4. cbn [w_osc w_sync]. unfold sso_sync_step, sso_synced.
  set (y := c_t c * rt) in *. set (z := rmin * c_t c) in *. clearbody y z. clear C4 C1 C2 C3.
  destruct (Rlt_dec 0 (c_sync c)) as [S0|S0].
  - destruct (Rlt_dec (w_sync w) (w_osc w)) as [L|L]; cbn [w_osc w_sync].
    + rewrite (Rmax_right 0) by lra. split; [|apply Rmax_r]. unfold Rmin. repeat destruct (Rle_dec _ _); lra.
    + split; [|apply Rmax_l]. unfold Rmin. repeat destruct (Rle_dec _ _); lra.
  - split; [|apply Rmax_l]. pose proof (Rmin_l z (c_T c)). lra.
Qed.
Lemma phi_bound : forall c a w B, 0 <= a -> 0 <= rmin * c_t c -> sso_more c a w = true -> w_sync w <= B -> a <= B -> phi c w <= 2 * B + rmin * c_t c.
Proof.
  intros c a w B A0 Z M SB AB. unfold phi. unfold sso_more in M. destruct (Rlt_dec 0 (c_sync c)).
  - pose proof (Rmin_l (w_osc w) (w_sync w + rmin * c_t c)). pose proof (Rmin_r (w_osc w) (w_sync w + rmin * c_t c)). lra.
  - cbn [orb] in M. destruct (Rlt_dec (w_osc w) a); [lra|discriminate M].
Qed.
Lemma loop_terminates_aux : forall c a B n w, cfg_ok c -> voice_ok w -> 0 <= a -> w_sync w <= B -> a + c_T c <= B ->
  2 * B + rmin * c_t c < phi c w + INR n * gain c -> exists x, sso_loop n c a w = Ok (Some x).
Proof.
  intros c a B. induction n as [|n IH]; intros w K V A0 SB AB H; cbn [sso_loop]; destruct (sso_more c a w) eqn:M; try (eexists; reflexivity).
  - exfalso. destruct K as (K1 & K2 & K3 & K4 & K5 & K6 & K7). pose proof (phi_bound c a w B A0 ltac:(unfold rmin; lra) M SB ltac:(lra)). cbn [INR] in H. lra.
  - pose proof (convolute_spec c w K V) as C. cbv zeta in C. destruct C as (w1 & e & g & pw & pw2 & C1 & C2 & _). rewrite C1. cbn [obind fst snd].
    destruct (phi_step c w w1 e K V C1) as [P1 P2]. pose proof (more_pos c w a M) as MP.
    assert (SB1 : w_sync w1 <= B). { apply Rle_trans with (1 := P2). apply Rmax_lub; lra. }
    destruct (IH w1 K C2 A0 SB1 AB) as [[x es] Hx]. { rewrite S_INR in H. lra. }
    rewrite Hx. cbn [obind]. eexists; reflexivity.
Qed.
Lemma nat_above : forall x, exists n, INR n > x.
Proof.
  intros x. exists (Z.to_nat (up x)). rewrite INR_IZR_INZ. destruct (archimed x) as [H _].
  destruct (Z_le_gt_dec 0 (up x)); [rewrite Z2Nat.id by lia; lra|].
  assert (IZR (up x) <= IZR (Z.of_nat (Z.to_nat (up x)))) by (apply IZR_le; lia). lra.
Qed.
Lemma loop_terminates : forall c a w, cfg_ok c -> voice_ok w -> 0 <= a -> exists n w' es, sso_loop n c a w = Ok (Some (w', es)).
Proof.
  intros c a w K V A0. set (B := Rmax (w_sync w) (a + c_T c)). pose proof (gain_pos c K) as G.
  destruct (nat_above ((2 * B + rmin * c_t c - phi c w) / gain c + 1)) as [n Hn].
  destruct (loop_terminates_aux c a B n w K V A0 (Rmax_l _ _) (Rmax_r _ _)) as [[w' es] E].
  - apply Rmult_gt_compat_r with (r := gain c) in Hn; [|exact G]. rewrite Rmult_plus_distr_r in Hn. unfold Rdiv in Hn. rewrite Rmult_assoc, Rinv_l, Rmult_1_r in Hn by lra. lra.
  - exists n, w', es. exact E.
Qed.

(** ** Blocks *)
Lemma loop_voice_ok : forall c a fuel w w' es, cfg_ok c -> voice_ok w -> sso_loop fuel c a w = Ok (Some (w', es)) ->
  voice_ok w' /\ a <= w_osc w' /\ (0 < c_sync c -> a <= w_sync w').
Proof.
  intros c a fuel w w' es K V E.
  apply (loop_ind c a (fun w w' _ => voice_ok w' /\ a <= w_osc w' /\ (0 < c_sync c -> a <= w_sync w')) K) with (4 := E); [| |exact V].
  - intros w0 V0 M. destruct (more_done _ _ _ M). auto.
  - intros. assumption.
Qed.
Lemma advance_ok : forall c a w, cfg_ok c -> voice_ok w -> a <= w_osc w -> (0 < c_sync c -> a <= w_sync w) -> voice_ok (sso_advance c a w).
Proof.
  intros c a w K (V1 & V2 & V3 & V4) H1 H2. unfold voice_ok, sso_advance. cbn [w_osc w_sync w_state w_pw w_pw2]. repeat split; try lra; try lia; try apply V4; try assumption.
  destruct (Rlt_dec 0 (c_sync c)) as [S0|S0]; [specialize (H2 S0)|]; lra.
Qed.
Lemma block_inv : forall fuel c a w w' es, sso_voice_block fuel c a w = Ok (Some (w', es)) ->
  exists w1, sso_loop fuel c a w = Ok (Some (w1, es)) /\ w' = sso_advance c a w1.
Proof.
  intros fuel c a w w' es E. unfold sso_voice_block in E. apply obind_inv in E. destruct E as (q & E1 & E2). destruct q as [[w1 es1]|]; [|discriminate E2].
  injection E2 as <- <-. exists w1. auto.
Qed.
Lemma block_voice_ok : forall fuel c a w w' es, cfg_ok c -> voice_ok w -> sso_voice_block fuel c a w = Ok (Some (w', es)) -> voice_ok w'.
Proof.
  intros fuel c a w w' es K V E. destruct (block_inv _ _ _ _ _ _ E) as (w1 & E1 & ->). destruct (loop_voice_ok _ _ _ _ _ _ K V E1) as (V1 & H1 & H2). apply advance_ok; assumption.
Qed.
Lemma run_inv : forall fuel c a bs A w A' w' es, sso_run fuel ((c, a) :: bs) A w = Ok (Some (A', w', es)) ->
  exists w1 es1 es2, sso_voice_block fuel c a w = Ok (Some (w1, es1)) /\ sso_run fuel bs (A + a) w1 = Ok (Some (A', w', es2)) /\ es = map (shift_ev A) es1 ++ es2.
Proof.
  intros fuel c a bs A w A' w' es E. cbn [sso_run] in E. apply obind_inv in E. destruct E as (q & E1 & E2). destruct q as [[w1 es1]|]; [|discriminate E2].
  apply obind_inv in E2. destruct E2 as (q & E2 & E3). destruct q as [[[A2 w2] es2]|]; [|discriminate E3].
  assert (X : A2 = A' /\ w2 = w' /\ map (shift_ev A) es1 ++ es2 = es) by (repeat split; congruence). destruct X as (-> & -> & <-).
  exists w1, es1, es2. auto.
Qed.
