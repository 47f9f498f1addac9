(** C185, C188: the phaser's LFO, and its stereo behaviour. *)
From Coq Require Import Reals Lra Psatz Lia.
From Verif Require Import Base Util LagModel BiquadModel BiquadProofs BlockModel RampProps ParamModel TuneModel TuneProps LfoModel TableProps PhaserModel.
Local Open Scope R_scope.

(** * C185: the LFO *)
(** settings within the ranges of the parameters, and a rate of at most one cycle per eight blocks *)
Definition in_range (p : phpar) : Prop := -1 <= pp_base p <= 1 /\ -1 <= pp_fb p <= 1 /\ -1 <= pp_q p <= 1 /\ 0 <= pp_depth p <= 1 /\ 0 <= pp_stereo p <= 1 /\ 0 <= pp_mix p <= 1.
Definition slow (p : phpar) : Prop := 0 <= pp_rate p <= 1 / 8.
(** a note-to-pitch lookup that works for the notes the phaser needs *)
Definition pitched (n2p : R -> res R) : Prop := forall x, -47 <= x <= 81 -> exists v, n2p x = Ok v.
Lemma wrap_range ph st : 0 <= ph <= 1 -> 0 <= st <= 1 -> 0 <= ph_wrap (ph + st) <= 1.
Proof. intros. unfold ph_wrap. destruct (Rlt_dec 1 (ph + st)); lra. Qed.
Lemma lfo_range ph : 0 <= ph <= 1 -> -1 <= ph_lfo ph <= 1.
Proof. intros. unfold ph_lfo. unfold Rabs. destruct (Rcase_abs (2 - 4 * ph)); lra. Qed.
Lemma tune_ok n2p srinv p lfo bs : pitched n2p -> in_range p -> -1 <= lfo <= 1 -> length bs = 4%nat -> exists r, ph_tune n2p srinv p lfo PH_FREQ PH_PAN bs = Ok r /\ length r = 4%nat.
Proof.
  intros N (B & _ & _ & D & _) L H. destruct bs as [|b0 [|b1 [|b2 [|b3 [|]]]]]; try discriminate H.
  assert (M : -1 <= lfo * pp_depth p <= 1) by (set (d := pp_depth p) in *; clearbody d; nra).
  assert (K : forall f a, In (f, a) [(15 / 10 / 12, 2); (195 / 10 / 12, 15 / 10); (35 / 12, 1); (50 / 12, 5 / 10)] -> exists om, ph_omega n2p srinv p lfo f a = Ok om).
  { intros f a I. unfold ph_omega. cbv zeta.
    destruct (N (12 * (2 * pp_base p + f + a * lfo * pp_depth p))) as [v E]; [|rewrite E; eexists; reflexivity].
    rewrite (Rmult_assoc a). set (m := lfo * pp_depth p) in *. clearbody m.
    destruct I as [I|[I|[I|[I|[]]]]]; injection I as <- <-; lra. }
  unfold PH_FREQ, PH_PAN. cbn [ph_tune].
  destruct (K (15 / 10 / 12) 2) as [o0 E0]; [cbn; auto|]. destruct (K (195 / 10 / 12) (15 / 10)) as [o1 E1]; [cbn; auto|].
  destruct (K (35 / 12) 1) as [o2 E2]; [cbn; auto|]. destruct (K (50 / 12) (5 / 10)) as [o3 E3]; [cbn; auto|].
  rewrite E0, E1, E2, E3. cbn [obind]. eexists. split; [reflexivity|reflexivity].
Qed.
(** the invariant *)
Definition healthy (s : phaser) : Prop := length (ph_l s) = 4%nat /\ length (ph_r s) = 4%nat /\ 0 <= ph_phase s <= 1 /\ (0 <= ph_bi s <= 7)%Z.
Lemma chain_length bs : forall x, length (fst (chain bs x)) = length bs.
Proof. induction bs as [|b bs IH]; intros x; [reflexivity|]. cbn [chain]. destruct (process_sample b x) as [b' y]. specialize (IH y). destruct (chain bs y). cbn [fst length] in *. congruence. Qed.
Lemma samples_frame xs : forall s, let s' := fst (ph_samples s xs) in length (ph_l s') = length (ph_l s) /\ length (ph_r s') = length (ph_r s) /\ ph_phase s' = ph_phase s /\ ph_bi s' = ph_bi s /\ ph_mix s' = ph_mix s /\ length (snd (ph_samples s xs)) = length xs.
Proof.
  induction xs as [|x xs IH]; intros s; [cbn; repeat split|]. cbn [ph_samples]. unfold ph_sample. unfold ph_channel.
  pose proof (chain_length (ph_l s) (limit_range_R (fst x + ph_dl s * p_v (lipol_process (ph_fb s))) (-32) 32)) as C1.
  pose proof (chain_length (ph_r s) (limit_range_R (snd x + ph_dr s * p_v (lipol_process (ph_fb s))) (-32) 32)) as C2.
  destruct (chain (ph_l s) _) as [l yl]. destruct (chain (ph_r s) _) as [r yr]. cbn [fst snd] in *.
  set (s1 := mk_ph _ _ _ _ _ _ _ _). specialize (IH s1). destruct (ph_samples s1 xs) as [s2 ys]. cbn [fst snd ph_l ph_r ph_phase ph_bi ph_mix s1] in *.
  destruct IH as (I1 & I2 & I3 & I4 & I5 & I6). cbn [length]. do 5 (split; [congruence|]). congruence.
Qed.
Lemma land7 b : (0 <= b <= 7)%Z -> (0 <= Z.land (b + 1) 7 <= 7)%Z /\ Z.land (b + 1) 7 = ((b + 1) mod 8)%Z.
Proof.
  intros H. assert (E : Z.land (b + 1) 7 = ((b + 1) mod 8)%Z) by (change 7%Z with (Z.ones 3); rewrite Z.land_ones by lia; reflexivity).
  split; [|exact E]. rewrite E. pose proof (Z.mod_pos_bound (b + 1) 8 ltac:(lia)). lia.
Qed.
Lemma process_ok n2p srinv p s xs : pitched n2p -> in_range p -> slow p -> healthy s ->
  exists s' ys, ph_process n2p srinv p s xs = Ok (s', ys) /\ healthy s'.
Proof.
  intros N IR SL (L1 & L2 & P & B). unfold ph_process.
  assert (U : exists s1, (forall K : phaser -> res (phaser * list (R * R)), obind (if (ph_bi s =? 0)%Z then ph_update n2p srinv p s else Ok s) K = K s1) /\ healthy s1 /\ ph_bi s1 = ph_bi s).
  { destruct (ph_bi s =? 0)%Z; [|exists s; repeat split; assumption || lia || lra].
    unfold ph_update. cbv zeta. destruct SL as [S1 S2].
    pose proof (wrap_range (ph_phase s) (8 * pp_rate p) P ltac:(lra)) as W. destruct IR as (I1 & I2 & I3 & I4 & I5 & I6).
    pose proof (wrap_range _ (1 / 2 * pp_stereo p) W ltac:(lra)) as W2.
    destruct (tune_ok n2p srinv p (ph_lfo (ph_wrap (ph_phase s + 8 * pp_rate p))) (ph_l s) N ltac:(unfold in_range; auto 10) ltac:(now apply lfo_range) L1) as (l & El & Ll).
    destruct (tune_ok n2p srinv p (ph_lfo (ph_wrap (ph_wrap (ph_phase s + 8 * pp_rate p) + 1 / 2 * pp_stereo p))) (ph_r s) N ltac:(unfold in_range; auto 10) ltac:(now apply lfo_range) L2) as (r & Er & Lr).
    rewrite El, Er. cbn [obind]. eexists. split; [reflexivity|]. split; [|reflexivity]. unfold healthy. cbn [ph_l ph_r ph_phase ph_bi]. repeat split; assumption || lia || lra. }
  destruct U as (s1 & E & (K1 & K2 & K3 & K4) & K5). rewrite E. cbn [obind].
  set (s2 := mk_ph _ _ _ _ _ _ _ _). pose proof (samples_frame xs s2) as F. cbv zeta in F. destruct (ph_samples s2 xs) as [s3 ys]. cbn [fst snd] in F.
  destruct F as (F1 & F2 & F3 & F4 & F5 & F6). eexists _, _. split; [reflexivity|]. unfold healthy. cbn [ph_l ph_r ph_phase ph_bi s2] in *. rewrite F1, F2, F3, F4.
  destruct (land7 (ph_bi s1) K4). repeat split; assumption || lia || lra.
Qed.
(** for every history of blocks with slow rates and settings in range nothing panics and the phase stays in [0, 1]; so both
    channels' LFO stays in [-1, 1] *)
Theorem C185_slow_rates : forall n2p srinv h s, pitched n2p -> healthy s -> Forall (fun '(p, _) => in_range p /\ slow p) h ->
  exists s' yss, ph_run n2p srinv s h = Ok (s', yss) /\ healthy s' /\ (forall st, 0 <= st <= 1 -> -1 <= ph_lfo (ph_wrap (ph_phase s' + 1 / 2 * st)) <= 1).
Proof.
  intros n2p srinv. induction h as [|[p xs] h IH]; intros s N H F.
  - exists s, []. split; [reflexivity|]. split; [exact H|]. intros st Hs. destruct H as (_ & _ & P & _). apply lfo_range, wrap_range; lra.
  - apply Forall_cons_iff in F as [[IR SL] F]. destruct (process_ok n2p srinv p s xs N IR SL H) as (s1 & ys & E & H1).
    destruct (IH s1 N H1 F) as (s' & yss & E' & H'). exists s', (ys :: yss). cbn [ph_run]. rewrite E. cbn [obind]. rewrite E'. cbn [obind]. split; [reflexivity|exact H'].
Qed.
Print Assumptions C185_slow_rates.
Lemma init_healthy : healthy ph_init.
Proof. unfold healthy. cbn. repeat split; try lia; lra. Qed.
(** the standard tuning is such a lookup *)
Theorem C185_standard_tuning_pitched : forall t, pitched (n2p (tuner_init t) false).
Proof.
  intros t x Hx. set (g := fun i => exp2R ((IZR i - 256) * (1 / 12))).
  assert (F : full std_table g) by (intros i Hi; unfold std_table; rewrite zget_idxs by lia; reflexivity).
  unfold n2p. cbn [tuner_init tu_table]. eexists.
  destruct (base_Int_part x) as [B1 B2]. assert (-257 < Int_part x)%Z by (apply lt_IZR; lra). assert (Int_part x < 255)%Z by (apply lt_IZR; lra).
  apply (C83_lookup std_table g x (Int_part x) F); [lia|lra].
Qed.
Print Assumptions C185_standard_tuning_pitched.

(** what a block does to the phase and the block counter *)
Lemma process_phase n2p srinv p s xs s' ys : ph_process n2p srinv p s xs = Ok (s', ys) ->
  ph_phase s' = (if (ph_bi s =? 0)%Z then ph_wrap (ph_phase s + 8 * pp_rate p) else ph_phase s) /\ ph_bi s' = Z.land (ph_bi s + 1) 7.
Proof.
  unfold ph_process. intros E. destruct (ph_bi s =? 0)%Z eqn:B.
  - destruct (ph_update n2p srinv p s) as [s1| |] eqn:U; cbn [obind] in E; try discriminate.
    unfold ph_update in U. cbv zeta in U. destruct (ph_tune _ _ _ _ _ _ (ph_l s)) as [l| |]; cbn [obind] in U; try discriminate. destruct (ph_tune _ _ _ _ _ _ (ph_r s)) as [r| |]; cbn [obind] in U; try discriminate.
    injection U as <-. cbn [ph_l ph_r ph_fb ph_dl ph_dr ph_phase ph_bi ph_mix] in E. match type of E with (let (_, _) := ph_samples ?S _ in _) = _ => pose proof (samples_frame xs S) as F; destruct (ph_samples S xs) as [s3 zs] end.
    injection E as <- _. cbn [fst snd ph_phase ph_bi] in *. tauto.
  - cbn [obind] in E. match type of E with (let (_, _) := ph_samples ?S _ in _) = _ => pose proof (samples_frame xs S) as F; destruct (ph_samples S xs) as [s3 zs] end.
    injection E as <- _. cbn [fst snd ph_phase ph_bi] in *. tauto.
Qed.
(** [n] blocks with constant settings *)
Lemma run_app n2p srinv : forall h1 h2 s, ph_run n2p srinv s (h1 ++ h2) = obind (ph_run n2p srinv s h1) (fun '(s1, y1) => obind (ph_run n2p srinv s1 h2) (fun '(s2, y2) => Ok (s2, y1 ++ y2))).
Proof.
  induction h1 as [|[p xs] h1 IH]; intros h2 s.
  - cbn [app ph_run obind]. destruct (ph_run n2p srinv s h2) as [[s2 y2]| |]; reflexivity.
  - cbn [app ph_run]. destruct (ph_process n2p srinv p s xs) as [[s1 ys]| |]; cbn [obind]; [|reflexivity|reflexivity]. rewrite IH.
    destruct (ph_run n2p srinv s1 h1) as [[s2 y2]| |]; cbn [obind]; [|reflexivity|reflexivity]. destruct (ph_run n2p srinv s2 h2) as [[s3 y3]| |]; reflexivity.
Qed.
(** the phase and the block counter through a run with one setting *)
Definition adv (r : R) (a : R * Z) : R * Z := (if (snd a =? 0)%Z then ph_wrap (fst a + 8 * r) else fst a, Z.land (snd a + 1) 7).
Lemma run_phase n2p srinv p : forall xss s s' yss, ph_run n2p srinv s (map (fun xs => (p, xs)) xss) = Ok (s', yss) ->
  (ph_phase s', ph_bi s') = Nat.iter (length xss) (adv (pp_rate p)) (ph_phase s, ph_bi s).
Proof.
  induction xss as [|xs xss IH]; intros s s' yss E; cbn [map ph_run length] in E |- *; [injection E as <- <-; reflexivity|].
  destruct (ph_process n2p srinv p s xs) as [[s1 ys]| |] eqn:E1; cbn [obind] in E; try discriminate.
  destruct (ph_run n2p srinv s1 _) as [[s2 y2]| |] eqn:E2; cbn [obind] in E; try discriminate. injection E as <- <-.
  apply IH in E2. rewrite E2, iter_S_r. f_equal. apply process_phase in E1 as [-> ->]. reflexivity.
Qed.
Lemma adv8 r p : Nat.iter 8 (adv r) (p, 0%Z) = (ph_wrap (p + 8 * r), 0%Z).
Proof. reflexivity. Qed.
Lemma iter_plus {A} (f : A -> A) : forall m n x, Nat.iter (m + n) f x = Nat.iter m f (Nat.iter n f x).
Proof. induction m as [|m IH]; intros n x; [reflexivity|]. change (f (Nat.iter (m + n) f x) = f (Nat.iter m f (Nat.iter n f x))). now rewrite IH. Qed.
Lemma adv8k r k p : Nat.iter (k * 8) (adv r) (p, 0%Z) = (Nat.iter k (fun q => ph_wrap (q + 8 * r)) p, 0%Z).
Proof.
  revert p. induction k as [|k IH]; intros p; [reflexivity|]. change (Datatypes.S k * 8)%nat with (8 + k * 8)%nat.
  replace (8 + k * 8)%nat with (k * 8 + 8)%nat by lia. rewrite iter_plus, adv8, IH, iter_S_r. reflexivity.
Qed.
(** at constant slow rate the LFO's phase after 8k blocks is p0 + 8 r k up to whole turns *)
Theorem C185_period : forall n2p srinv p s s' k xss yss, slow p -> healthy s -> ph_bi s = 0%Z -> length xss = (k * 8)%nat ->
  ph_run n2p srinv s (map (fun xs => (p, xs)) xss) = Ok (s', yss) ->
  0 <= ph_phase s' <= 1 /\ exists turns : nat, ph_phase s' = ph_phase s + INR k * (8 * pp_rate p) - INR turns.
Proof.
  intros n2p srinv p s s' k xss yss SL (_ & _ & P & _) B L E. apply run_phase in E. rewrite L, B, adv8k in E. injection E as E _. rewrite E. clear - SL P.
  destruct SL as [S1 S2]. revert P. generalize (ph_phase s). intros q Q. induction k as [|k (I1 & m & I2)]; [cbn; split; [lra|]; exists O; cbn; lra|].
  change (Nat.iter (Datatypes.S k) ?f q) with (f (Nat.iter k f q)). rewrite S_INR. split; [apply wrap_range; lra|].
  unfold ph_wrap at 1. destruct (Rlt_dec _ _); [exists (Datatypes.S m); rewrite S_INR; lra|exists m; lra].
Qed.
Print Assumptions C185_period.
(** above one cycle per eight blocks the phase is brought back by one turn only, so it grows without bound *)
Lemma fast_iter r k q : 1 / 8 < r -> 0 <= q -> Nat.iter k (fun q => ph_wrap (q + 8 * r)) q = q + INR k * (8 * r - 1).
Proof.
  intros Hr Hq. induction k as [|k IH]; [cbn; ring|]. change (Nat.iter (Datatypes.S k) ?f q) with (f (Nat.iter k f q)). rewrite IH, S_INR. pose proof (pos_INR k).
  assert (0 <= INR k * (8 * r - 1)) by (apply Rmult_le_pos; lra). unfold ph_wrap. destruct (Rlt_dec _ _); [ring|lra].
Qed.
Theorem C185_fast_phase_refuted : forall n2p srinv p s s' k xss yss, 1 / 8 < pp_rate p -> 0 <= ph_phase s -> ph_bi s = 0%Z -> length xss = (k * 8)%nat ->
  ph_run n2p srinv s (map (fun xs => (p, xs)) xss) = Ok (s', yss) -> ph_phase s' = ph_phase s + INR k * (8 * pp_rate p - 1).
Proof. intros n2p srinv p s s' k xss yss Hr P B L E. apply run_phase in E. rewrite L, B, adv8k in E. injection E as E _. rewrite E. now apply fast_iter. Qed.
Print Assumptions C185_fast_phase_refuted.

(** ... and with the standard tuning the note looked up for a section leaves the table: the run panics *)
Lemma lookup_noerr table x : forall e, lookup table x <> Err e.
Proof.
  intros e. unfold lookup. cbv zeta. unfold zget. set (i := (_ mod 512)%Z). set (j := (_ mod 512)%Z).
  destruct (0 <=? i)%Z; [|discriminate]. destruct (nth_error table (Z.to_nat i)) as [a|]; [|discriminate]. cbn [obind].
  destruct (0 <=? j)%Z; [|discriminate]. destruct (nth_error table (Z.to_nat j)) as [b|]; [|discriminate]. cbn [obind].
  unfold lerp. match goal with |- (if ?c then _ else _) <> _ => destruct c end; discriminate.
Qed.
Lemma tune_noerr n2p srinv p lfo : (forall x e, n2p x <> Err e) -> forall fs ps bs e, ph_tune n2p srinv p lfo fs ps bs <> Err e.
Proof.
  intros N. induction fs as [|f fs IH]; intros [|a ps] [|b bs] e; try discriminate. cbn [ph_tune]. unfold ph_omega. cbv zeta. match goal with |- context[n2p ?x] => specialize (N x); destruct (n2p x) as [v| |]; cbn [obind]; [|intros X; injection X as <-; eapply N; reflexivity|discriminate] end.
  specialize (IH ps bs). destruct (ph_tune n2p srinv p lfo fs ps bs) as [v'| |]; cbn [obind]; [discriminate|intros X; injection X as <-; eapply IH; reflexivity|discriminate].
Qed.
Lemma run_noerr n2p srinv : (forall x e, n2p x <> Err e) -> forall h s e, ph_run n2p srinv s h <> Err e.
Proof.
  intros N. induction h as [|[p xs] h IH]; intros s e; [discriminate|]. cbn [ph_run].
  assert (P : forall e, ph_process n2p srinv p s xs <> Err e).
  { intros e0. unfold ph_process. assert (U : forall e, ph_update n2p srinv p s <> Err e).
    { intros e1. unfold ph_update. cbv zeta. match goal with |- obind ?t _ <> _ => pose proof (fun e => tune_noerr n2p srinv p (ph_lfo (ph_wrap (ph_phase s + 8 * pp_rate p))) N PH_FREQ PH_PAN (ph_l s) e) as T1; destruct t as [l| |]; cbn [obind]; [|intros X; injection X as <-; eapply T1; reflexivity|discriminate] end.
      match goal with |- obind ?t _ <> _ => pose proof (fun e => tune_noerr n2p srinv p (ph_lfo (ph_wrap (ph_wrap (ph_phase s + 8 * pp_rate p) + 1 / 2 * pp_stereo p))) N PH_FREQ PH_PAN (ph_r s) e) as T2; destruct t as [r| |]; cbn [obind]; [discriminate|intros X; injection X as <-; eapply T2; reflexivity|discriminate] end. }
    destruct (ph_bi s =? 0)%Z; [destruct (ph_update n2p srinv p s) as [s1| |]; cbn [obind]; [|intros X; injection X as <-; eapply U; reflexivity|discriminate]|cbn [obind]];
      match goal with |- context[ph_samples ?a ?b] => destruct (ph_samples a b) end; discriminate. }
  destruct (ph_process n2p srinv p s xs) as [[s1 ys]| |]; cbn [obind]; [|intros X; injection X as <-; eapply P; reflexivity|discriminate].
  specialize (IH s1). destruct (ph_run n2p srinv s1 h) as [[s2 y2]| |]; cbn [obind]; [discriminate|intros X; injection X as <-; eapply IH; reflexivity|discriminate].
Qed.
Lemma run_chain_len n2p srinv : forall h s s' yss, length (ph_l s) = 4%nat -> length (ph_r s) = 4%nat -> ph_run n2p srinv s h = Ok (s', yss) -> length (ph_l s') = 4%nat /\ length (ph_r s') = 4%nat.
Proof.
  induction h as [|[p xs] h IH]; intros s s' yss L1 L2 E; cbn [ph_run] in E; [injection E as <- <-; auto|].
  destruct (ph_process n2p srinv p s xs) as [[s1 ys]| |] eqn:E1; cbn [obind] in E; try discriminate. destruct (ph_run n2p srinv s1 h) as [[s2 y2]| |] eqn:E2; cbn [obind] in E; try discriminate. injection E as <- <-.
  cut (length (ph_l s1) = 4%nat /\ length (ph_r s1) = 4%nat); [intros [A1 A2]; eapply IH; eauto|]. clear E2 IH.
  assert (T : forall lfo bs r, length bs = 4%nat -> ph_tune n2p srinv p lfo PH_FREQ PH_PAN bs = Ok r -> length r = 4%nat).
  { intros lfo bs r L. destruct bs as [|b0 [|b1 [|b2 [|b3 [|]]]]]; try discriminate L. unfold PH_FREQ, PH_PAN. cbn [ph_tune]. do 4 (destruct (ph_omega _ _ _ _ _ _) as [?| |]; cbn [obind]; try discriminate). intros X. injection X as <-. reflexivity. }
  unfold ph_process in E1. destruct (ph_bi s =? 0)%Z.
  - destruct (ph_update n2p srinv p s) as [s3| |] eqn:U; cbn [obind] in E1; try discriminate. unfold ph_update in U. cbv zeta in U.
    destruct (ph_tune _ _ _ _ _ _ (ph_l s)) as [l| |] eqn:T1; cbn [obind] in U; try discriminate. destruct (ph_tune _ _ _ _ _ _ (ph_r s)) as [r| |] eqn:T2; cbn [obind] in U; try discriminate. apply T in T1, T2; try assumption.
    injection U as <-. cbn [ph_l ph_r ph_fb ph_dl ph_dr ph_phase ph_bi ph_mix] in E1. match type of E1 with (let (_, _) := ph_samples ?S _ in _) = _ => pose proof (samples_frame xs S) as F; destruct (ph_samples S xs) as [s3 zs] end.
    injection E1 as <- _. cbn [fst snd ph_l ph_r] in *. destruct F as (F1 & F2 & _). split; congruence.
  - cbn [obind] in E1. match type of E1 with (let (_, _) := ph_samples ?S _ in _) = _ => pose proof (samples_frame xs S) as F; destruct (ph_samples S xs) as [s3 zs] end.
    injection E1 as <- _. cbn [fst snd ph_l ph_r] in *. destruct F as (F1 & F2 & _). split; congruence.
Qed.
(** a left chain far along the phase cannot be tuned *)
Lemma tune_far t srinv p q bs r : -1 <= pp_base p <= 1 -> 0 < pp_depth p <= 1 -> length bs = 4%nat -> 60 <= (4 * q - 3) * pp_depth p <= 100 ->
  ph_tune (n2p (tuner_init t) false) srinv p (ph_lfo q) PH_FREQ PH_PAN bs <> Ok r.
Proof.
  intros B D L W E. assert (Q : 1 / 2 <= q) by (destruct (Rlt_dec q (1 / 2)); [exfalso; assert ((4 * q - 3) * pp_depth p <= 0) by nra; lra|lra]).
  destruct bs as [|b0 [|b1 [|b2 [|b3 [|]]]]]; try discriminate L.
  set (g := fun i => exp2R ((IZR i - 256) * (1 / 12))). assert (F : full std_table g) by (intros i Hi; unfold std_table; rewrite zget_idxs by lia; reflexivity).
  destruct (C83_below_refuted std_table g F) as [LP _].
  assert (LF : ph_lfo q = 3 - 4 * q) by (unfold ph_lfo; rewrite Rabs_left1 by lra; ring).
  set (u := (4 * q - 3) * pp_depth p) in *.
  assert (K : forall f a om, 0 <= f <= 5 -> 1 / 2 <= a <= 2 -> ph_omega (n2p (tuner_init t) false) srinv p (ph_lfo q) f a = Ok om -> exists k : Z, 12 * (2 * pp_base p + f - a * u) = IZR k).
  { intros f a om Hf Ha EO. unfold ph_omega in EO. cbv zeta in EO. rewrite LF in EO. replace (2 * pp_base p + f + a * (3 - 4 * q) * pp_depth p) with (2 * pp_base p + f - a * u) in EO by (unfold u; ring).
    destruct (Classical_Prop.classic (exists k : Z, 12 * (2 * pp_base p + f - a * u) = IZR k)) as [X|X]; [exact X|exfalso].
    unfold n2p in EO. cbn [tuner_init tu_table] in EO. rewrite LP in EO; [discriminate EO| |intros k Hk; apply X; exists k; exact Hk].
    assert (30 <= a * u <= 200) by (clearbody u; split; nra). lra. }
  unfold PH_FREQ, PH_PAN in E. cbn [ph_tune] in E.
  destruct (ph_omega _ _ _ _ (15 / 10 / 12) 2) as [o0| |]; cbn [obind] in E; try discriminate.
  destruct (ph_omega _ _ _ _ (195 / 10 / 12) (15 / 10)) as [o1| |] eqn:O1; cbn [obind] in E; try discriminate.
  destruct (ph_omega _ _ _ _ (35 / 12) 1) as [o2| |] eqn:O2; cbn [obind] in E; try discriminate.
  destruct (ph_omega _ _ _ _ (50 / 12) (5 / 10)) as [o3| |] eqn:O3; cbn [obind] in E; try discriminate. clear E.
  apply K in O1 as [k1 O1]; [|lra|lra]. apply K in O2 as [k2 O2]; [|lra|lra]. apply K in O3 as [k3 O3]; [|lra|lra].
  assert (X : 2 * IZR k1 - 4 * IZR k2 + 2 * IZR k3 = -1) by (rewrite <- O1, <- O2, <- O3; field).
  rewrite <- !mult_IZR, <- minus_IZR, <- plus_IZR in X. apply eq_IZR in X. lia.
Qed.

Theorem C185_fast_panics_refuted : forall t srinv p s, -1 <= pp_base p <= 1 -> 0 < pp_depth p <= 1 -> 1 / 8 < pp_rate p <= 1 -> healthy s -> ph_bi s = 0%Z ->
  exists N : nat, forall xss, (N <= length xss)%nat -> ph_run (n2p (tuner_init t) false) srinv s (map (fun xs => (p, xs)) xss) = Panic.
Proof.
  intros t srinv p s B D RR (L1 & L2 & P & _) B0.
  set (d := pp_depth p) in *. set (st := 8 * pp_rate p - 1). assert (S0 : 0 < st <= 7) by (unfold st; lra).
  set (z := ((60 / d + 3) / 4 - ph_phase s) / st). destruct (archimed z) as [A1 A2].
  assert (Id : 60 <= 60 / d) by (apply (Rmult_le_reg_r d); [lra|]; unfold Rdiv; rewrite Rmult_assoc, Rinv_l by lra; lra).
  assert (Z0 : 0 < z) by (unfold z; apply Rdiv_lt_0_compat; lra). assert (U0 : (0 < up z)%Z) by (apply lt_IZR; lra).
  set (k := Z.to_nat (up z - 1)). assert (Ek : INR k = IZR (up z) - 1) by (unfold k; rewrite INR_IZR_INZ, Z2Nat.id by lia; now rewrite minus_IZR).
  exists (Datatypes.S (k * 8)). intros xss HL.
  destruct (ph_run (n2p (tuner_init t) false) srinv s (map (fun xs => (p, xs)) xss)) as [[s' yss]| |] eqn:E; [exfalso|exfalso; eapply run_noerr; [|exact E]; intros; unfold n2p; apply lookup_noerr|reflexivity].
  rewrite <- (firstn_skipn (k * 8) xss), map_app, run_app in E.
  destruct (ph_run _ _ s (map _ (firstn _ _))) as [[s1 y1]| |] eqn:E1; cbn [obind] in E; try discriminate.
  pose proof (run_chain_len _ _ _ _ _ _ L1 L2 E1) as [C1 C2].
  pose proof (run_phase _ _ _ _ _ _ _ E1) as HP. rewrite firstn_length_le, B0, adv8k in HP by lia. injection HP as HP HB. rewrite fast_iter in HP by lra.
  pose proof (skipn_length (k * 8) xss) as X. destruct (skipn (k * 8) xss) as [|xs rest]; [cbn [length] in X; clear - X HL; lia|clear X].
  cbn [map ph_run] in E. unfold ph_process in E. rewrite HB in E. cbn [Z.eqb] in E. unfold ph_update in E. cbv zeta in E.
  assert (W : ph_wrap (ph_phase s1 + 8 * pp_rate p) = ph_phase s + (INR k + 1) * st).
  { rewrite HP. unfold ph_wrap. pose proof (pos_INR k). assert (0 <= INR k * (8 * pp_rate p - 1)) by (apply Rmult_le_pos; lra). destruct (Rlt_dec _ _); [unfold st; ring|lra]. }
  rewrite W in E. destruct (ph_tune _ _ _ _ _ _ (ph_l s1)) as [l| |] eqn:T; cbn [obind] in E; try discriminate.
  revert T. apply tune_far; auto. rewrite Ek. replace (IZR (up z) - 1 + 1) with (IZR (up z)) by ring. fold d.
  assert (M : z * st = (60 / d + 3) / 4 - ph_phase s) by (unfold z; field; lra).
  assert (M1 : z * st <= IZR (up z) * st) by (apply Rmult_le_compat_r; lra).
  assert (M2 : IZR (up z) * st <= (z + 1) * st) by (apply Rmult_le_compat_r; lra).
  assert (M3 : (60 / d) * d = 60) by (field; lra).
  assert (N1 : 60 / d <= 4 * (ph_phase s + IZR (up z) * st) - 3) by lra.
  assert (N2 : 4 * (ph_phase s + IZR (up z) * st) - 3 <= 60 / d + 28) by lra.
  apply (Rmult_le_compat_r d) in N1; [|lra]. apply (Rmult_le_compat_r d) in N2; [|lra]. lra.
Qed.
Print Assumptions C185_fast_panics_refuted.
(** the parameter can ask for that: LFORate = 9 is 32768 / (oversampled rate) cycles a block, and the most this is allowed to be is 1/8 only from 262144 Hz on *)
Theorem C185_max_rate : forall p2 sr, 0 < sr -> p2 (-9) = 1 / 512 -> envelope_rate_linear p2 sr (-9) = Ok (32768 / sr) /\ (1 / 8 < 32768 / sr <-> sr < 262144).
Proof.
  intros p2 sr H P. split.
  - assert (E := C85_rate_exact_and_linear p2 sr (-144)%Z 0). cbv zeta in E. specialize (E ltac:(lia) ltac:(lra) ltac:(intros; lra)). replace ((IZR (-144) + 0) / 16) with (-9) in E by lra. rewrite E. f_equal.
    replace (IZR (-144) / 16) with (-9) by lra. rewrite P, Rmult_0_l. field. lra.
  - split; intros X.
    + apply (Rmult_lt_compat_r sr) in X; [|lra]. replace (32768 / sr * sr) with 32768 in X by (field; lra). lra.
    + apply (Rmult_lt_reg_r sr); [lra|]. replace (32768 / sr * sr) with 32768 by (field; lra). lra.
Qed.
Print Assumptions C185_max_rate.
(** an effect that is only being controlled (process_only_control) runs its LFO eight times as fast: each call advances the phase by what eight processed blocks do *)
Theorem C185_only_control_refuted : forall n2p srinv p s s' xss yss, ph_bi s = 0%Z -> length xss = 8%nat ->
  ph_run n2p srinv s (map (fun xs => (p, xs)) xss) = Ok (s', yss) -> ph_phase (ph_only_control p s) = ph_phase s' /\ ph_bi (ph_only_control p s) = ph_bi s'.
Proof. intros n2p srinv p s s' xss yss B L E. apply run_phase in E. rewrite L, B, adv8 in E. injection E as -> ->. split; [reflexivity|exact B]. Qed.
Print Assumptions C185_only_control_refuted.
(** the settings and states the theorems speak of exist: the initial state, and full depth at a rate of a quarter cycle per block *)
Example C185_instance : forall t, healthy ph_init /\ ph_bi ph_init = 0%Z /\ pitched (n2p (tuner_init t) false) /\
  (let p := mk_pp 0 0 0 (1 / 100) 1 (1 / 2) 1 in in_range p /\ slow p) /\
  (exists N : nat, forall xss, (N <= length xss)%nat -> ph_run (n2p (tuner_init t) false) (1 / 48000) ph_init (map (fun xs => (mk_pp 0 0 0 (1 / 4) 1 0 1, xs)) xss) = Panic).
Proof.
  intros t. split; [exact init_healthy|]. split; [reflexivity|]. split; [apply C185_standard_tuning_pitched|]. split; [cbv zeta; unfold in_range, slow; cbn; repeat split; lra|].
  apply C185_fast_panics_refuted; cbn; try lra; [exact init_healthy|reflexivity].
Qed.
