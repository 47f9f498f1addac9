(* SnhProps2.v - C246-C248: sync and termination of the sample-and-hold oscillator (SnhModel.v). *)
From Coq Require Import Reals ZArith List Lia Lra Psatz.
From Verif Require Import Base Util ParamModel LagModel SsoModel SsoProofs SsoProps SsoProps2 SsoProps3 VocModel SnhModel SnhProps.
Import ListNotations.
Local Open Scope R_scope.

(** ** C246: Sync off *)
(* the code asks for the master's position even with Sync off: at the start of every note the first level lasts no time, the second
   impulse comes at the same place and starts a second cycle *)
Theorem C246_first_level_is_lost_refuted : forall c a on draw ctr pw ds v' es ds', scfg_ok c -> 0 <= draw -> 0 <= ctr ->
  h_osc (snh_start on draw ctr pw) < a -> snh_loop ds c a (snh_start on draw ctr pw) = Some (v', es, ds') ->
  exists e1 e2 es', es = e1 :: e2 :: es' /\ v_pos e1 = h_osc (snh_start on draw ctr pw) /\ v_pos e2 = v_pos e1.
Proof.
  intros c a on draw ctr pw ds v' es ds' K D0 C0 L E. set (v := snh_start on draw ctr pw) in *.
  assert (EQ : h_sync v = h_osc v) by reflexivity.
  assert (Z0 : 0 <= h_osc v). { unfold v, snh_start. cbn [h_osc]. destruct on; [lra|]. apply Rmult_le_pos; [apply Rmult_le_pos; assumption|lra]. }
  assert (V : svoice_ok v). { refine (conj Z0 (conj _ (conj (or_introl eq_refl) (conj _ _)))); [rewrite EQ; exact Z0|apply limR3_range; lra|change (h_last v) with 0; rewrite Rabs_R0; lra]. }
  assert (N : nextp v = h_osc v) by (unfold nextp; rewrite EQ; apply Rmin_left; lra).
  destruct ds as [|r ds]; cbn [snh_loop] in E; rewrite (proj2 (more_next a v)) in E by lra; [discriminate E|].
  pose proof (convolute_cases c r v K V) as Q. destruct (snh_convolute c r v) as [v1 e1].
  destruct Q as (V1 & Q2 & _ & _ & (p & _ & _ & Q7 & _) & _ & Q10 & _).
  destruct (Q7 (or_intror eq_refl)) as (_ & _ & B3). specialize (Q10 ltac:(unfold synced; lra)).
  destruct K as (K1 & K2 & K3 & K4 & K5). assert (TP : 0 < n_t c * n_pw c) by (apply Rmult_lt_0_compat; lra).
  assert (N1 : nextp v1 = h_osc v) by (unfold nextp; rewrite Rmin_right; lra).
  destruct ds as [|r2 ds]; cbn [snh_loop] in E; rewrite (proj2 (more_next a v1)) in E by lra; [discriminate E|].
  pose proof (convolute_cases c r2 v1 (conj K1 (conj K2 (conj K3 (conj K4 K5)))) V1) as W. destruct (snh_convolute c r2 v1) as [v2 e2]. destruct W as (_ & W2 & _).
  destruct (snh_loop ds c a v2) as [[[v3 es3] d3]|]; [|discriminate E]. injection E as <- <- <-. exists e1, e2, es3. split; [reflexivity|]. split; congruence.
Qed.
Print Assumptions C246_first_level_is_lost_refuted.
(* after the first block the master is out of the way for blocks no longer than the first, whatever their settings: from then on no cycle
   is cut short, and every impulse is where C245 says *)
Lemma loop_width : forall c a ds v v' es ds', scfg_ok c -> svoice_ok v -> snh_loop ds c a v = Some (v', es, ds') -> (h_state v = 1%Z -> h_pw v = n_pw c) -> (h_state v' = 1%Z -> h_pw v' = n_pw c).
Proof.
  intros c a ds v v' es ds' K V E. apply (snh_ind c a (fun v v' es => (h_state v = 1%Z -> h_pw v = n_pw c) -> (h_state v' = 1%Z -> h_pw v' = n_pw c)) K) with (4 := E); [auto| |exact V].
  intros v0 r v1 e v2 es2 V0 V1 M C IH H. apply IH. intros S1. pose proof (convolute_cases c r v0 K V0) as Q. rewrite C in Q. destruct Q as (_ & _ & _ & _ & (p & _ & Q6 & Q7 & Q8) & _).
  destruct (Rlt_dec (h_sync v0) (h_osc v0)) as [S2|S2]; [destruct (Q7 (or_introl S2)) as (-> & _); congruence|].
  destruct V0 as (_ & _ & [Z0|Z1] & _); [destruct (Q7 (or_intror Z0)) as (-> & _); congruence|]. destruct (Q8 S2 Z1) as (_ & B & _). congruence.
Qed.
Theorem C246_steady_after_first_block : forall c a ds bs A v v1 es1 d1 A' v' es, scfg_ok c -> n_sync c = 0 -> svoice_ok v -> h_state v = 0%Z ->
  snh_voice_block ds c a v = Some (v1, es1, d1) -> Forall (fun b => 0 <= fst b <= a) bs -> snh_run (map (fun b => (c, fst b, snd b)) bs) A v1 = Some (A', v', es) ->
  exists p0 k, (k <= 1)%nat /\ p0 = A + h_osc v1 - INR k * (n_t c * n_pw c) /\
  (forall i d, (i < length es)%nat -> v_pos (nth i es d) = P2 c p0 (k + i) /\ P2 c p0 (k + i) < A') /\ A' <= P2 c p0 (k + length es).
Proof.
  intros c a ds bs A v v1 es1 d1 A' v' es K S0 V ST B F E. destruct (snh_block_inv _ _ _ _ _ _ _ B) as (w & L & ->).
  destruct (snh_loop_ok _ _ _ _ _ _ _ K V L) as (O1 & O2 & O3). pose proof (loop_width _ _ _ _ _ _ _ K V L ltac:(intros; congruence)) as W.
  pose proof (snh_advance_ok c a w O1 O2 O3) as V1.
  assert (SY : h_sync (snh_advance c a w) = h_sync w). { unfold snh_advance. cbn [h_sync]. rewrite S0. destruct (Rlt_dec 0 0); lra. }
  set (u := snh_advance c a w) in *. assert (W' : h_state u = 1%Z -> h_pw u = n_pw c) by exact W.
  assert (F' : Forall (fun b => 0 <= fst b <= h_sync u) bs). { rewrite SY. revert F. apply Forall_impl. intros b Hb. cbv beta in *. lra. }
  assert (X : exists k, (k <= 1)%nat /\ h_state u = Z.of_nat (k mod 2) /\ P2 c (A + h_osc u - INR k * (n_t c * n_pw c)) k = A + h_osc u).
  { destruct V1 as (_ & _ & [Z0|Z1] & _).
    - exists 0%nat. split; [lia|]. split; [exact Z0|]. set (q := _ - _). rewrite (P2_even c q 0 : P2 c q 0 = _). unfold q. cbn [INR]. ring.
    - exists 1%nat. split; [lia|]. split; [exact Z1|]. set (q := _ - _). rewrite (P2_odd c q 0 : P2 c q 1 = _). unfold q. cbn [INR]. ring. }
  destruct X as (k & X1 & X2 & X3). exists (A + h_osc u - INR k * (n_t c * n_pw c)), k. split; [exact X1|]. split; [reflexivity|].
  destruct (run_k c (A + h_osc u - INR k * (n_t c * n_pw c)) bs k A u A' v' es K S0 V1) as (G1 & G2 & _).
  - split; [symmetry; exact X3|]. split; [exact X2|exact W'].
  - exact F'.
  - exact E.
  - rewrite X3. destruct V1 as (? & _). lra.
  - auto.
Qed.
Print Assumptions C246_steady_after_first_block.

(** ** C247: Sync on *)
(* the master ticks every n_T; at every tick inside the block there is an impulse that starts a new cycle *)
Theorem C247_hard_sync : forall ds c a v v' es ds', scfg_ok c -> 0 < n_sync c -> svoice_ok v -> snh_voice_block ds c a v = Some (v', es, ds') ->
  exists m, h_sync v' = h_sync v + INR m * n_T c - a /\ 0 <= h_sync v' /\ (forall i, (i < m)%nat -> h_sync v + INR i * n_T c < a /\ exists e, In e es /\ v_pos e = h_sync v + INR i * n_T c).
Proof.
  intros ds c a v v' es ds' K S0 V B. destruct (snh_block_inv _ _ _ _ _ _ _ B) as (w & L & ->). destruct (snh_loop_ok _ _ _ _ _ _ _ K V L) as (_ & _ & O3).
  assert (G : exists m, h_sync w = h_sync v + INR m * n_T c /\ (forall i, (i < m)%nat -> h_sync v + INR i * n_T c < a /\ exists e, In e es /\ v_pos e = h_sync v + INR i * n_T c)).
  { apply (snh_ind c a (fun v v' es => exists m, h_sync v' = h_sync v + INR m * n_T c /\ (forall i, (i < m)%nat -> h_sync v + INR i * n_T c < a /\ exists e, In e es /\ v_pos e = h_sync v + INR i * n_T c)) K) with (4 := L); [| |exact V].
    - intros v0 _ _. exists 0%nat. split; [cbn [INR]; ring|]. intros; lia.
    - intros v0 r v1 e v2 es2 V0 V1 M C (m & H1 & H2). pose proof (convolute_cases c r v0 K V0) as Q. rewrite C in Q. destruct Q as (_ & Q2 & _ & _ & _ & Q9 & Q10 & _).
      destruct (Rlt_dec (h_sync v0) (h_osc v0)) as [S1|S1].
      + specialize (Q9 S1). exists (Datatypes.S m). split; [rewrite H1, Q9, S_INR; ring|]. assert (N : nextp v0 = h_sync v0) by (unfold nextp; apply Rmin_right; lra).
        intros [|i] Hi.
        * cbn [INR]. rewrite Rmult_0_l, Rplus_0_r. split; [lra|]. exists e. split; [left; reflexivity|congruence].
        * destruct (H2 i ltac:(lia)) as (J1 & e' & J2 & J3). rewrite S_INR. rewrite Q9 in *. replace (h_sync v0 + (INR i + 1) * n_T c) with (h_sync v0 + n_T c + INR i * n_T c) by ring. split; [exact J1|]. exists e'. split; [right; exact J2|exact J3].
      + specialize (Q10 S1). exists m. rewrite Q10 in *. split; [exact H1|]. intros i Hi. destruct (H2 i Hi) as (J1 & e' & J2 & J3). split; [exact J1|]. exists e'. split; [right; exact J2|exact J3]. }
  destruct G as (m & G1 & G2). exists m. unfold snh_advance. cbn [h_sync]. destruct (Rlt_dec 0 (n_sync c)) as [_|?]; [|contradiction]. split; [rewrite G1; ring|]. split; [lra|exact G2].
Qed.
Print Assumptions C247_hard_sync.
(* what such an impulse does *)
Theorem C247_restart : forall c r v, scfg_ok c -> svoice_ok v -> h_sync v < h_osc v -> let '(v', e) := snh_convolute c r v in
  v_pos e = h_sync v /\ h_state v' = 1%Z /\ h_pw v' = n_pw c /\ h_osc v' = h_sync v + n_t c * n_pw c /\ h_sync v' = h_sync v + n_T c.
Proof.
  intros c r v K V S0. pose proof (convolute_cases c r v K V) as Q. destruct (snh_convolute c r v) as [v' e]. destruct Q as (_ & Q2 & _ & _ & (p & _ & Q6 & Q7 & _) & Q9 & _).
  assert (N : nextp v = h_sync v) by (unfold nextp; apply Rmin_right; lra). destruct (Q7 (or_introl S0)) as (B1 & B2 & B3). rewrite Q2, N, Q6, B1, B2, B3, N, (Q9 S0). auto.
Qed.
Print Assumptions C247_restart.

(** ** C248: every block ends *)
Definition sphi (c : snh_cfg) (v : snh_voice) : R := Rmin (h_osc v) (h_sync v + n_t c / 1000) + h_sync v.
Definition sgain (c : snh_cfg) : R := Rmin (n_t c / 1000) (n_T c).
Lemma snh_term_aux : forall c a B n v, scfg_ok c -> svoice_ok v -> h_sync v <= B -> a + n_T c <= B ->
  2 * B + n_t c / 1000 < sphi c v + INR n * sgain c -> forall ds, (n <= length ds)%nat -> exists x, snh_loop ds c a v = Some x.
Proof.
  intros c a B. induction n as [|n IH]; intros v K V SB AB H ds LD.
  - exfalso. cbn [INR] in H. unfold sphi in H. pose proof (Rmin_r (h_osc v) (h_sync v + n_t c / 1000)). lra.
  - destruct ds as [|r ds]; [cbn [length] in LD; lia|]. cbn [snh_loop]. destruct (snh_more a v) eqn:M; [|eexists; reflexivity].
    pose proof (convolute_cases c r v K V) as Q. destruct (snh_convolute c r v) as [v1 e]. destruct Q as (V1 & _ & _ & _ & (p & P & P1 & Q7 & Q8) & Q9 & Q10 & _).
    apply more_next in M. pose proof K as (K1 & K2 & K3 & K4 & K5). pose proof V as (W1 & W2 & W3 & W4 & _).
    assert (X1 : n_t c / 1000 <= n_t c * n_pw c) by (unfold Rdiv; apply Rmult_le_compat_l; lra).
    assert (X2 : n_t c / 1000 <= n_t c * (1 - h_pw v)) by (unfold Rdiv; apply Rmult_le_compat_l; lra).
    assert (X0 : 0 < n_t c / 1000) by lra.
    assert (O : nextp v + n_t c / 1000 <= h_osc v1).
    { destruct (Rlt_dec (h_sync v) (h_osc v)) as [S1|S1]; [destruct (Q7 (or_introl S1)) as (_ & _ & ->); lra|]. destruct W3 as [Z0|Z1]; [destruct (Q7 (or_intror Z0)) as (_ & _ & ->); lra|destruct (Q8 S1 Z1) as (_ & _ & ->); lra]. }
    assert (SB1 : h_sync v1 <= B /\ sphi c v + sgain c <= sphi c v1).
    { unfold sphi, sgain. set (y := n_t c / 1000) in *. clearbody y. clear Q7 Q8 H IH. unfold nextp in *.
      destruct (Rlt_dec (h_sync v) (h_osc v)) as [S1|S1]; [rewrite (Q9 S1) in *; rewrite Rmin_right in M, O by lra|rewrite (Q10 S1) in *; rewrite Rmin_left in M, O by lra]; (split; [lra|]); unfold Rmin; repeat destruct (Rle_dec _ _); lra. }
    destruct SB1 as [SB1 PH]. destruct (IH v1 K V1 SB1 AB ltac:(rewrite S_INR in H; lra) ds ltac:(cbn [length] in LD; lia)) as [[[v2 es] d2] E]. rewrite E. eexists; reflexivity.
Qed.
(* for any settings and any state there is a number of draws that is enough, whatever their values *)
Theorem C248_block_ends : forall c a v, scfg_ok c -> svoice_ok v -> exists n, forall ds, (n <= length ds)%nat ->
  exists v' es ds', snh_voice_block ds c a v = Some (v', es, ds') /\ (svoice_ok v').
Proof.
  intros c a v K V. set (B := Rmax (h_sync v) (a + n_T c)). assert (G : 0 < sgain c). { destruct K as (K1 & K2 & K3 & K4 & K5). unfold sgain. apply Rmin_glb_lt; lra. }
  destruct (nat_above ((2 * B + n_t c / 1000 - sphi c v) / sgain c + 1)) as [n Hn]. exists n. intros ds L.
  destruct (snh_term_aux c a B n v K V (Rmax_l _ _) (Rmax_r _ _)) with (ds := ds) as [[[w es] d] E].
  - apply Rmult_gt_compat_r with (r := sgain c) in Hn; [|exact G]. rewrite Rmult_plus_distr_r in Hn. unfold Rdiv in Hn at 1. rewrite Rmult_assoc, Rinv_l, Rmult_1_r in Hn by lra. lra.
  - exact L.
  - exists (snh_advance c a w), es, d. unfold snh_voice_block. rewrite E. split; [reflexivity|]. destruct (snh_loop_ok _ _ _ _ _ _ _ K V E) as (O1 & O2 & O3). apply snh_advance_ok; assumption.
Qed.
Print Assumptions C248_block_ends.

(** ** Instances *)
Definition scfg1 : snh_cfg := {| n_sync := 0; n_pw := 1 / 2; n_wf := 4 / 10; n_t := 1; n_T := 1 |}.
Definition scfg2 : snh_cfg := {| n_sync := 7; n_pw := 1 / 4; n_wf := 0; n_t := 2 / 3; n_T := 1 |}.
Example snh_instance : scfg_ok scfg1 /\ scfg_ok scfg2 /\ (forall draw ctr, 0 <= draw -> 0 <= ctr -> svoice_ok (snh_start false draw ctr (1 / 2))).
Proof.
  split; [|split].
  - unfold scfg_ok, scfg1. cbn. rewrite Rabs_right by lra. lra.
  - unfold scfg_ok, scfg2. cbn. rewrite Rabs_R0. lra.
  - intros draw ctr D C. assert (0 <= draw * ctr * (1 / 2)) by (apply Rmult_le_pos; [apply Rmult_le_pos; assumption|lra]). unfold svoice_ok, snh_start. cbn [h_osc h_sync h_state h_pw h_last].
    refine (conj H (conj H (conj (or_introl eq_refl) (conj _ _)))); [apply limR3_range; lra|rewrite Rabs_R0; lra].
Qed.
(* a note's first block completes, and so does a second one *)
Example snh_block_runs : exists ds1 ds2 v1 es1 d1 v2 es2 d2, snh_voice_block ds1 scfg1 (3 / 4) (snh_start true 0 0 (1 / 2)) = Some (v1, es1, d1) /\
  snh_voice_block ds2 scfg1 (3 / 4) v1 = Some (v2, es2, d2) /\ h_osc (snh_start true 0 0 (1 / 2)) < 3 / 4.
Proof.
  destruct snh_instance as (K & _ & _). assert (V : svoice_ok (snh_start true 0 0 (1 / 2))).
  { unfold svoice_ok, snh_start. cbn [h_osc h_sync h_state h_pw h_last]. refine (conj _ (conj _ (conj (or_introl eq_refl) (conj _ _)))); try lra; [apply limR3_range; lra|rewrite Rabs_R0; lra]. }
  destruct (C248_block_ends scfg1 (3 / 4) _ K V) as [n1 H1]. destruct (H1 (repeat 0 n1)) as (v1 & es1 & d1 & E1 & V1); [rewrite repeat_length; lia|].
  destruct (C248_block_ends scfg1 (3 / 4) v1 K V1) as [n2 H2]. destruct (H2 (repeat 0 n2)) as (v2 & es2 & d2 & E2 & _); [rewrite repeat_length; lia|].
  exists (repeat 0 n1), (repeat 0 n2), v1, es1, d1, v2, es2, d2. split; [exact E1|]. split; [exact E2|]. cbn [h_osc snh_start]. lra.
Qed.
