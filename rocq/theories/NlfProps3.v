(** Theorems about the nonlinear feedback and nonlinear states voice filters: boundedness, silence, symmetry (C256-C260). *)
From Coq Require Import Reals Lra Psatz Lia List.
From Flocq Require Import Core.Core.
From Verif Require Import Base Util F32 BlockModel MathModel NlfModel RampProps ClipProps FastProps FastProps2 FiltProps NlfProps NlfProps2.
Import ListNotations.
Local Open Scope R_scope.

(* ================= C256: bounded in, bounded out ================= *)

Definition coef_le (c : nlc) (M : R) : Prop :=
  Rabs (cA1 c) <= M /\ Rabs (cA2 c) <= M /\ Rabs (cB0 c) <= M /\ Rabs (cB1 c) <= M /\ Rabs (cB2 c) <= M /\ Rabs (cMk c) <= M.
Definition Ksat : R := 100001 / 100000.
(** what a chain of n stages with coefficients up to M makes of signals up to X, at most *)
Fixpoint nl_bound (M : R) (n : nat) (X : R) : R := match n with 0%nat => X | Datatypes.S m => nl_bound M m (M * (3 * M * X + 2 * M * Ksat)) end.
Fixpoint st_ok (M X : R) (n : nat) (zs : list (R * R)) : Prop :=
  match n, zs with
  | Datatypes.S m, z :: t => Rabs (fst z) <= 2 * M * X + 2 * M * Ksat /\ Rabs (snd z) <= M * X + M * Ksat /\ st_ok M (M * (3 * M * X + 2 * M * Ksat)) m t
  | _, _ => True
  end.
Lemma iter_r {A} (f : A -> A) n : forall x, Nat.iter (Datatypes.S n) f x = Nat.iter n f (f x).
Proof. induction n as [|n IH]; intros x; [reflexivity|]. change (f (Nat.iter (Datatypes.S n) f x) = f (Nat.iter n f (f x))). rewrite IH. reflexivity. Qed.
Lemma sat_bounded s x : s <> SSine -> Rabs (saturate_nl s x) <= Ksat.
Proof.
  intros H. unfold Ksat. destruct (C255_saturators x) as (A & B & C & D & _). destruct s; [exact A| | |congruence].
  - lra.
  - destruct (Rle_dec x (17 / 10)) as [L|L]; [rewrite C by exact L|rewrite D by lra]; unfold Rabs; destruct (Rcase_abs _); lra.
Qed.
Lemma mul_le a b A B : Rabs a <= A -> Rabs b <= B -> Rabs (a * b) <= A * B.
Proof. intros. rewrite Rabs_mult. apply Rmult_le_compat; try apply Rabs_pos; assumption. Qed.
Lemma add_le a b A B : Rabs a <= A -> Rabs b <= B -> Rabs (a + b) <= A + B.
Proof. intros. eapply Rle_trans; [apply Rabs_triang|]. lra. Qed.
Lemma sub_le a b A B : Rabs a <= A -> Rabs b <= B -> Rabs (a - b) <= A + B.
Proof. intros. unfold Rminus. apply add_le; [assumption|]. rewrite Rabs_Ropp. assumption. Qed.
Lemma stages_bounded s c M : s <> SSine -> coef_le c M -> forall n zs X x, (n <= length zs)%nat -> Rabs x <= X -> st_ok M X n zs ->
  let '(zs', y) := nl_stages (nlff_stage s c) n zs x in st_ok M X n zs' /\ Rabs y <= nl_bound M n X /\ length zs' = length zs.
Proof.
  intros Hs (A1 & A2 & B0 & B1 & B2 & MK). induction n as [|n IH]; intros zs X x L Hx Hz; cbn [nl_stages].
  - repeat split; assumption.
  - destruct zs as [|z t]; [cbn in L; lia|]. destruct Hz as (Z1 & Z2 & Z3).
    destruct (nlff_stage s c z x) as [z' y'] eqn:E. unfold nlff_stage in E. cbv zeta in E. injection E as E1 E2.
    set (out := fst z + cB0 c * x) in *. assert (NF := sat_bounded s out Hs). set (nf := saturate_nl s out) in *. clearbody nf.
    assert (O : Rabs out <= 3 * M * X + 2 * M * Ksat).
    { unfold out. replace (3 * M * X + 2 * M * Ksat) with ((2 * M * X + 2 * M * Ksat) + M * X) by ring. apply add_le; [exact Z1|apply mul_le; assumption]. }
    assert (Y : Rabs y' <= M * (3 * M * X + 2 * M * Ksat)). { rewrite <- E2. rewrite Rmult_comm. apply mul_le; assumption. }
    specialize (IH t (M * (3 * M * X + 2 * M * Ksat)) y' ltac:(cbn in L; lia) Y Z3).
    destruct (nl_stages (nlff_stage s c) n t y') as [r o]. destruct IH as (I1 & I2 & I3). cbn [st_ok length nl_bound]. rewrite <- E1. cbn [fst snd].
    split; [|split; [exact I2|congruence]]. split; [|split; [|exact I1]].
    + replace (2 * M * X + 2 * M * Ksat) with ((M * X + M * Ksat) + (M * X + M * Ksat)) by ring. apply add_le; [exact Z2|apply sub_le; apply mul_le; assumption].
    + apply sub_le; apply mul_le; assumption.
Qed.

(** For the Tanh, Soft and Ojd saturators: whatever the coefficients (stable or not) and however they glide, as long as they
    stay within M, every input signal within X gives an output within a bound that depends on M, X and the number of stages only. *)
Theorem C256_bounded : forall sat stages c d M X xs, (0 <= sat < 3)%Z -> (1 <= stages <= 4)%nat -> 0 <= M ->
  (forall k, (k < length xs)%nat -> coef_le (Nat.iter k (fun c => nlc_add c d) c) M) -> Forall (fun x => Rabs x <= X) xs -> 0 <= X ->
  exists s' ys, nl_run (nlff_process (subtype sat stages)) (cleared c d) xs = Ok (s', ys) /\ length ys = length xs /\ Forall (fun y => Rabs y <= nl_bound M stages X) ys.
Proof.
  intros sat stages c d M X xs H1 H2 HM Hc Hx HX. destruct (subtype_bits sat stages ltac:(lia) H2) as [B1 B2].
  assert (S : exists s, nlff_sat sat = Some s /\ s <> SSine). { assert (T : (sat = 0 \/ sat = 1 \/ sat = 2)%Z) by lia. destruct T as [-> | [-> | ->]]; eexists; (split; [reflexivity|discriminate]). }
  destruct S as (s & S1 & S2).
  assert (G : forall xs c zs, length zs = 4%nat -> st_ok M X stages zs -> (forall k, (k < length xs)%nat -> coef_le (Nat.iter k (fun c => nlc_add c d) c) M) -> Forall (fun x => Rabs x <= X) xs ->
    exists s' ys, nl_run (nlff_process (subtype sat stages)) (mk_nls c d zs) xs = Ok (s', ys) /\ length ys = length xs /\ Forall (fun y => Rabs y <= nl_bound M stages X) ys).
  { clear xs c Hc Hx. induction xs as [|x t IH]; intros c zs L Hz Hc Hx; cbn [nl_run]; [exists (mk_nls c d zs), []; repeat split; constructor|].
    inversion Hx as [|? ? Hx1 Hx2]; subst. unfold nlff_process at 1. rewrite B1, B2, S1. cbn [ns_c ns_d ns_z].
    pose proof (stages_bounded s c M S2 (Hc 0%nat ltac:(cbn; lia)) stages zs X x ltac:(lia) Hx1 Hz) as P. destruct (nl_stages _ _ _ _) as [zs' y]. destruct P as (P1 & P2 & P3). cbn [obind].
    destruct (IH (nlc_add c d) zs' ltac:(congruence) P1) as (s' & ys & E & L' & F).
    - intros k Hk. specialize (Hc (Datatypes.S k) ltac:(cbn; lia)). rewrite iter_r in Hc. exact Hc.
    - exact Hx2.
    - rewrite E. cbn [obind]. exists s', (y :: ys). split; [reflexivity|]. split; [cbn; congruence|constructor; assumption]. }
  apply G; [reflexivity| |exact Hc|exact Hx].
  assert (Z : forall n X zs, 0 <= X -> (forall z, In z zs -> z = (0, 0)) -> st_ok M X n zs).
  { clear - HM. assert (0 < Ksat) by (unfold Ksat; lra). induction n as [|n IH]; intros X zs HX Hz; [exact I|]. destruct zs as [|z t]; [exact I|]. rewrite (Hz z (or_introl eq_refl)). cbn [st_ok fst snd]. rewrite Rabs_R0.
    assert (0 <= M * X) by (apply Rmult_le_pos; assumption). assert (0 <= M * Ksat) by (apply Rmult_le_pos; lra).
    split; [lra|]. split; [lra|]. apply IH; [|intros z' Hz'; apply Hz; right; exact Hz']. apply Rmult_le_pos; [assumption|]. lra. }
  apply Z; [exact HX|]. intros z Hz. cbn in Hz. intuition congruence.
Qed.
Print Assumptions C256_bounded.

(* ================= C257: the sine saturator ================= *)

Lemma fastsin_far x : 40 <= Rabs x -> 20 * Rabs x <= Rabs (fastsin x) <= 27 * Rabs x.
Proof.
  intros H. unfold fastsin. assert (U : 1600 <= x * x). { replace (x * x) with (Rabs x * Rabs x) by (rewrite <- Rabs_mult; apply Rabs_pos_eq; nra). nra. }
  set (u := x * x) in *. cbv zeta.
  set (P := -11511339840 + u * (1640635920 + u * (-52785432 + u * 479249))). set (Q := 11511339840 + u * (277920720 + u * (3177720 + u * 18361))).
  assert (HQ : 0 < Q). { unfold Q. assert (0 <= u * (277920720 + u * (3177720 + u * 18361))) by (repeat (apply Rmult_le_pos; [lra|]; try apply Rplus_le_le_0_compat; try lra)); lra. }
  assert (HU : 0 <= u * u) by nra.
  assert (H1 : P <= 27 * Q).
  { assert (E : 27 * Q - P = 27 * 11511339840 + 11511339840 + u * (27 * 277920720 - 1640635920) + (u * u) * (27 * 3177720 + 52785432) + u * (u * u) * (27 * 18361 - 479249)) by (unfold P, Q; ring).
    assert (0 <= u * (u * u)) by (apply Rmult_le_pos; lra). lra. }
  assert (H2 : 20 * Q <= P).
  { set (t := u - 1600). assert (T : 0 <= t) by (unfold t; lra). assert (E : P - 20 * Q = (-11511339840 - 20 * 11511339840) + u * ((1640635920 - 20 * 277920720) + u * (u * (479249 - 20 * 18361) - (52785432 + 20 * 3177720)))) by (unfold P, Q; ring).
    assert (F1 : 62000000 <= u * (479249 - 20 * 18361) - (52785432 + 20 * 3177720)) by lra.
    assert (F2 : 90000000000 <= u * (u * (479249 - 20 * 18361) - (52785432 + 20 * 3177720))). { apply Rle_trans with (1600 * 62000000); [lra|]. apply Rmult_le_compat; lra. }
    assert (F3 : 1600 * 80000000000 <= u * ((1640635920 - 20 * 277920720) + u * (u * (479249 - 20 * 18361) - (52785432 + 20 * 3177720)))) by (apply Rmult_le_compat; lra). lra. }
  assert (E : Rabs (- x * P / Q) = Rabs x * (P / Q)).
  { unfold Rdiv. rewrite !Rabs_mult, Rabs_Ropp, (Rabs_pos_eq P), (Rabs_pos_eq (/ Q)); [ring|left; apply Rinv_0_lt_compat; exact HQ|lra]. }
  rewrite E. clearbody P Q. assert (R1 : 20 <= P / Q) by (apply (proj1 (Rcomplements.Rle_div_r 20 P Q HQ)); lra). assert (R2 : P / Q <= 27) by (apply (proj2 (Rcomplements.Rle_div_l P 27 Q HQ)); lra).
  pose proof (Rabs_pos x). split; [rewrite (Rmult_comm 20)|rewrite (Rmult_comm 27)]; apply Rmult_le_compat_l; lra.
Qed.
Lemma sine_growth c z : 1 <= Rabs (cA1 c) -> Rabs (cA2 c) <= 1 -> 40 <= Rabs (fst z) -> Rabs (snd z) <= 2 * Rabs (fst z) ->
  let z' := fst (nlff_stage SSine c z 0) in 18 * Rabs (fst z) <= Rabs (fst z') /\ Rabs (snd z') <= 2 * Rabs (fst z') /\ snd (nlff_stage SSine c z 0) = fst z * cMk c.
Proof.
  intros A1 A2 H1 H2. unfold nlff_stage. cbv zeta. cbn [fst snd saturate_nl]. rewrite !Rmult_0_r, !Rplus_0_r. destruct (fastsin_far (fst z) H1) as [L U].
  assert (N : 20 * Rabs (fst z) <= Rabs (cA1 c * fastsin (fst z))). { rewrite Rabs_mult. pose proof (Rabs_pos (fastsin (fst z))). apply Rle_trans with (1 * Rabs (fastsin (fst z))); [lra|apply Rmult_le_compat_r; lra]. }
  assert (N2 : Rabs (cA2 c * fastsin (fst z)) <= 27 * Rabs (fst z)). { rewrite Rabs_mult. pose proof (Rabs_pos (fastsin (fst z))). apply Rle_trans with (1 * Rabs (fastsin (fst z))); [apply Rmult_le_compat_r; lra|lra]. }
  assert (T : 18 * Rabs (fst z) <= Rabs (snd z + (0 - cA1 c * fastsin (fst z)))).
  { replace (snd z + (0 - cA1 c * fastsin (fst z))) with (- (cA1 c * fastsin (fst z) - snd z)) by ring. rewrite Rabs_Ropp. eapply Rle_trans; [|apply Rabs_triang_inv]. lra. }
  split; [exact T|]. split; [|reflexivity]. rewrite Rminus_0_l, Rabs_Ropp. lra.
Qed.

(** Bounded in, bounded out, fails with the sine saturator: the fast sine is only a sine near 0 and grows like -26 x further out.
    With lowpass, highpass, bandpass or notch coefficients (|b1| <= 2 |b0|, |b2| <= |b0|) and a pole pair with |a1| >= 1, one
    sample of size at least 40 / |b0|, followed by silence, gives an output that is multiplied by at least 18 at every sample. *)
Theorem C257_sine_bounded_refuted : forall c x N, 1 <= Rabs (cA1 c) -> Rabs (cA2 c) <= 1 -> Rabs (cB1 c) <= 2 * Rabs (cB0 c) -> Rabs (cB2 c) <= Rabs (cB0 c) ->
  40 <= Rabs (cB0 c * x) ->
  exists s' y0 ys, nl_run (nlff_process (subtype 3 1)) (cleared c no_glide) (x :: repeat 0 N) = Ok (s', y0 :: ys) /\
  length ys = N /\ forall k, (k < N)%nat -> 40 * 18 ^ (Datatypes.S k) * Rabs (cMk c) <= Rabs (nth k ys 0).
Proof.
  intros c x N A1 A2 B1 B2 HX. 
  assert (G : forall N z K, 40 <= K -> K <= Rabs (fst z) -> Rabs (snd z) <= 2 * Rabs (fst z) -> exists s' ys,
    nl_run (nlff_process (subtype 3 1)) (mk_nls c no_glide [z; (0, 0); (0, 0); (0, 0)]) (repeat 0 N) = Ok (s', ys) /\ length ys = N /\ forall k, (k < N)%nat -> K * 18 ^ k * Rabs (cMk c) <= Rabs (nth k ys 0)).
  { clear N HX. induction N as [|N IH]; intros z K HK H1 H2; cbn [repeat nl_run]; [exists (mk_nls c no_glide [z; (0, 0); (0, 0); (0, 0)]), []; repeat split; intros; lia|].
    unfold nlff_process at 1. change (nlff_sat (nl_sat_index (subtype 3 1))) with (Some SSine). change (nl_stage_count (subtype 3 1)) with 1%nat. cbn [ns_c ns_d ns_z nl_stages].
    destruct (sine_growth c z A1 A2 ltac:(lra) H2) as (P1 & P2 & P3). destruct (nlff_stage SSine c z 0) as [z' y]. cbn [fst snd] in P1, P2, P3. cbn [obind]. rewrite add_no_glide.
    destruct (IH z' (18 * K) ltac:(lra) ltac:(lra) P2) as (s' & ys & E & L & F). rewrite E. cbn [obind]. exists s', (y :: ys). split; [reflexivity|]. split; [cbn; congruence|].
    intros [|k] Hk; cbn [nth].
    - rewrite P3, Rabs_mult. cbn [pow]. rewrite Rmult_1_r. apply Rmult_le_compat_r; [apply Rabs_pos|exact H1].
    - replace (K * 18 ^ Datatypes.S k) with (18 * K * 18 ^ k) by (cbn [pow]; ring). apply F. lia. }
  cbn [nl_run]. unfold nlff_process at 1. change (nlff_sat (nl_sat_index (subtype 3 1))) with (Some SSine). change (nl_stage_count (subtype 3 1)) with 1%nat. unfold cleared. cbn [ns_c ns_d ns_z nl_stages].
  unfold nlff_stage at 1. cbv zeta. cbn [fst snd saturate_nl obind]. rewrite add_no_glide. rewrite !Rplus_0_l. set (o := cB0 c * x) in *.
  destruct (fastsin_far o HX) as [L U].
  assert (N1 : 20 * Rabs o <= Rabs (cA1 c * fastsin o)). { rewrite Rabs_mult. pose proof (Rabs_pos (fastsin o)). apply Rle_trans with (1 * Rabs (fastsin o)); [lra|apply Rmult_le_compat_r; lra]. }
  assert (N2 : Rabs (cA2 c * fastsin o) <= 27 * Rabs o). { rewrite Rabs_mult. pose proof (Rabs_pos (fastsin o)). apply Rle_trans with (1 * Rabs (fastsin o)); [apply Rmult_le_compat_r; lra|lra]. }
  assert (O : Rabs o = Rabs (cB0 c) * Rabs x) by (unfold o; apply Rabs_mult). pose proof (Rabs_pos x) as PX.
  assert (M1 : Rabs (cB1 c * x) <= 2 * Rabs o). { rewrite O, Rabs_mult. rewrite <- Rmult_assoc. apply Rmult_le_compat_r; assumption. }
  assert (M2 : Rabs (cB2 c * x) <= Rabs o). { rewrite O, Rabs_mult. apply Rmult_le_compat_r; assumption. }
  assert (Z1 : 18 * Rabs o <= Rabs (cB1 c * x - cA1 c * fastsin o)).
  { replace (cB1 c * x - cA1 c * fastsin o) with (- (cA1 c * fastsin o - cB1 c * x)) by ring. rewrite Rabs_Ropp. eapply Rle_trans; [|apply Rabs_triang_inv]. lra. }
  assert (Z2 : Rabs (cB2 c * x - cA2 c * fastsin o) <= 28 * Rabs o). { eapply Rle_trans; [apply sub_le; [exact M2|exact N2]|lra]. }
  destruct (G N (cB1 c * x - cA1 c * fastsin o, cB2 c * x - cA2 c * fastsin o) 720 ltac:(lra)) as (s' & ys & E & L' & F); [cbn [fst]; lra|cbn [fst snd]; lra|].
  rewrite E. cbn [obind]. eexists; eexists; exists ys. split; [reflexivity|]. split; [exact L'|]. intros k Hk. replace (40 * 18 ^ Datatypes.S k) with (720 * 18 ^ k) by (cbn [pow]; ring). apply F. exact Hk.
Qed.
Print Assumptions C257_sine_bounded_refuted.
(** non-vacuity: a notch at a sixteenth of the sample rate meets the hypotheses *)
Example C257_ex : exists c, 1 <= Rabs (cA1 c) /\ Rabs (cA2 c) <= 1 /\ Rabs (cB1 c) <= 2 * Rabs (cB0 c) /\ Rabs (cB2 c) <= Rabs (cB0 c) /\ 40 <= Rabs (cB0 c * 100) /\ design_of c = nl_design NNotch (4 / 10) (9 / 10) 1.
Proof.
  exists (mk_nlc (-2 * (9 / 10) * (1 / (1 + 4 / 10 / (2 * 1)))) ((1 - 4 / 10 / (2 * 1)) * (1 / (1 + 4 / 10 / (2 * 1)))) (1 / (1 + 4 / 10 / (2 * 1))) (-2 * (9 / 10) * (1 / (1 + 4 / 10 / (2 * 1)))) (1 / (1 + 4 / 10 / (2 * 1))) 1).
  cbn [cA1 cA2 cB0 cB1 cB2 design_of]. replace (1 / (1 + 4 / 10 / (2 * 1))) with (5 / 6) by lra. replace (1 - 4 / 10 / (2 * 1)) with (8 / 10) by lra.
  replace (-2 * (9 / 10) * (5 / 6)) with (- (15 / 10)) by lra. rewrite !Rabs_Ropp. rewrite !Rabs_pos_eq by lra. repeat split; try lra. unfold design_of, nl_design. cbn [cA1 cA2 cB0 cB1 cB2]. cbv zeta.
  replace (1 / (1 + 4 / 10 / (2 * 1))) with (5 / 6) by lra. repeat apply f_equal2; lra.
Qed.

(* ================= C258: the Ojd saturator ================= *)

(** Below 1.7 the Ojd saturator is the constant -1, so the feedback is a constant: while the stage's output stays below 1.7 the
    filter has no resonance at all - its output is the three-tap sum of the input plus a1 + a2 (from the third sample). *)
Theorem C258_ojd_no_feedback_refuted : forall c x o, stage_eq c (saturate_nl SOjd) x o -> (forall n, o n <= 17 / 10) ->
  forall n, o n = cB0 c * x n + cB1 c * at_ x n 1 + cB2 c * at_ x n 2 + (if Nat.ltb n 1 then 0 else cA1 c) + (if Nat.ltb n 2 then 0 else cA2 c).
Proof.
  intros c x o H L n. rewrite (H n) at 1. unfold at_.
  assert (S : forall k, saturate_nl SOjd (o k) = -1) by (intros k; exact (proj1 (proj2 (proj2 (C255_saturators (o k)))) (L k))).
  rewrite !S. destruct (Nat.ltb n 1), (Nat.ltb n 2); ring.
Qed.
Print Assumptions C258_ojd_no_feedback_refuted.
(** Silence in, from a cleared state, is not silence out: the output goes to (a1 + a2) times the makeup gain and stays there. *)
Theorem C258_ojd_silence_refuted : forall c N, cA1 c <= 17 / 10 -> cA1 c + cA2 c <= 17 / 10 ->
  exists s', nl_run (nlff_process (subtype 2 1)) (cleared c no_glide) (repeat 0 (2 + N)) = Ok (s', 0 :: (cA1 c * cMk c) :: repeat ((cA1 c + cA2 c) * cMk c) N).
Proof.
  intros c N H1 H2.
  set (o := fun n => if Nat.ltb n 1 then 0 else if Nat.ltb n 2 then cA1 c else cA1 c + cA2 c).
  assert (O : forall n, o n <= 17 / 10). { intros n. unfold o. destruct (Nat.ltb n 1); [lra|]. destruct (Nat.ltb n 2); assumption. }
  assert (S : forall k, saturate_nl SOjd (o k) = -1) by (intros k; exact (proj1 (proj2 (proj2 (C255_saturators (o k)))) (O k))).
  assert (E : stage_eq c (saturate_nl SOjd) (fun _ => 0) o).
  { intros n. unfold at_. rewrite !S. unfold o. destruct n as [|[|n]]; cbn [Nat.ltb Nat.leb]; ring. }
  destruct (C255_signal_path 2 1 SOjd c (fun _ => 0) (fun k => o k * cMk c) (2 + N) ltac:(lia) ltac:(lia) eq_refl) as (s' & RR); [exists o; split; [exact E|intros k; reflexivity]|].
  exists s'. rewrite <- (app_nil_r (repeat 0 (2 + N))). rewrite app_nil_r.
  assert (M : forall (v : R) (f : nat -> R) n b, (forall k, (b <= k)%nat -> f k = v) -> map f (seq b n) = repeat v n).
  { induction n as [|n IH]; intros b Hf; [reflexivity|]. cbn [seq map repeat]. rewrite Hf by lia. f_equal. apply IH. intros; apply Hf; lia. }
  unfold samples in RR. rewrite (M 0 (fun _ => 0) (2 + N)%nat 0%nat ltac:(reflexivity)) in RR. rewrite RR. f_equal. f_equal. cbn [plus seq map]. f_equal; [unfold o; cbn; ring|]. f_equal.
  apply M. intros k Hk. unfold o. destruct k as [|[|k]]; [lia|lia|reflexivity].
Qed.
Print Assumptions C258_ojd_silence_refuted.
Example C258_ex : let c := mk_nlc (-15 / 10) (6 / 10) (1 / 10) (2 / 10) (1 / 10) 1 in cA1 c <= 17 / 10 /\ cA1 c + cA2 c <= 17 / 10 /\ (cA1 c + cA2 c) * cMk c = -9 / 10.
Proof. cbn. lra. Qed.

(* ================= C259: silence and polarity ================= *)

Definition neg_c (z : R * R) : R * R := (- fst z, - snd z).
Lemma stage_neg s c z x : s <> SOjd -> nlff_stage s c (neg_c z) (- x) = (neg_c (fst (nlff_stage s c z x)), - snd (nlff_stage s c z x)).
Proof.
  intros H. unfold nlff_stage, neg_c. cbv zeta. cbn [fst snd].
  replace (- fst z + cB0 c * - x) with (- (fst z + cB0 c * x)) by ring. rewrite (proj2 (proj2 (proj2 (proj2 (proj2 (C255_saturators (fst z + cB0 c * x)))))) s H).
  f_equal; [f_equal; ring|ring].
Qed.
Lemma stages_neg s c : s <> SOjd -> forall n zs x, nl_stages (nlff_stage s c) n (map neg_c zs) (- x) = (map neg_c (fst (nl_stages (nlff_stage s c) n zs x)), - snd (nl_stages (nlff_stage s c) n zs x)).
Proof.
  intros H. induction n as [|n IH]; intros zs x; cbn [nl_stages]; [destruct zs; reflexivity|]. destruct zs as [|z t]; [reflexivity|]. cbn [map].
  rewrite stage_neg by exact H. destruct (nlff_stage s c z x) as [z' y]. cbn [fst snd]. rewrite IH. destruct (nl_stages (nlff_stage s c) n t y) as [r o]. reflexivity.
Qed.
Definition neg_state (s : nlstate) : nlstate := mk_nls (ns_c s) (ns_d s) (map neg_c (ns_z s)).
(** With the Tanh, Soft and Sine saturators the filter does not care about polarity: turning every input and the state upside
    down turns the whole output upside down, for every subtype, state, glide and signal. *)
Theorem C259_polarity : forall cwp s xs s' ys, nlff_sat (nl_sat_index cwp) <> Some SOjd -> nl_run (nlff_process cwp) s xs = Ok (s', ys) ->
  nl_run (nlff_process cwp) (neg_state s) (map Ropp xs) = Ok (neg_state s', map Ropp ys).
Proof.
  intros cwp s xs. revert s. induction xs as [|x t IH]; intros s s' ys Hs H; cbn [nl_run map] in *.
  - assert (E : s' = s /\ ys = []) by (split; congruence). destruct E; subst. reflexivity.
  - unfold nlff_process at 1 in H. unfold nlff_process at 1. destruct (nlff_sat (nl_sat_index cwp)) as [k|] eqn:K; [|discriminate].
    assert (Hk : k <> SOjd) by congruence. unfold neg_state at 1 2 3 4 5. cbn [ns_c ns_d ns_z]. rewrite stages_neg by exact Hk.
    destruct (nl_stages _ _ _ _) as [zs y]. cbn [fst snd obind] in *.
    destruct (nl_run (nlff_process cwp) (mk_nls (nlc_add (ns_c s) (ns_d s)) (ns_d s) zs) t) as [[s2 ys2]|?|] eqn:E; cbn [obind] in H; try discriminate.
    assert (Q : s' = s2 /\ ys = y :: ys2) by (split; congruence). destruct Q; subst. specialize (IH _ _ _ Hs E). unfold neg_state at 1 in IH. cbn [ns_c ns_d ns_z] in IH. rewrite IH. reflexivity.
Qed.
Print Assumptions C259_polarity.
(** and silence stays silence: cleared state, any coefficients and glide *)
Theorem C259_silence : forall sat stages c d N, (sat = 0 \/ sat = 1 \/ sat = 3)%Z -> (1 <= stages <= 4)%nat ->
  exists s', nl_run (nlff_process (subtype sat stages)) (cleared c d) (repeat 0 N) = Ok (s', repeat 0 N).
Proof.
  intros sat stages c d N Hs H2. destruct (subtype_bits sat stages ltac:(lia) H2) as [B1 B2].
  assert (S : exists s, nlff_sat sat = Some s /\ s <> SOjd) by (destruct Hs as [-> | [-> | ->]]; eexists; (split; [reflexivity|discriminate])). destruct S as (s & S1 & S2).
  assert (Z : saturate_nl s 0 = 0). { pose proof (proj2 (proj2 (proj2 (proj2 (proj2 (C255_saturators 0))))) s S2) as P. rewrite Ropp_0 in P. lra. }
  assert (T : forall n zs c, (forall z, In z zs -> z = (0, 0)) -> nl_stages (nlff_stage s c) n zs 0 = (zs, 0)).
  { clear - Z. induction n as [|n IH]; intros zs c H; cbn [nl_stages]; [destruct zs; reflexivity|]. destruct zs as [|z t]; [reflexivity|]. rewrite (H z (or_introl eq_refl)).
    unfold nlff_stage at 1. cbv zeta. cbn [fst snd]. rewrite !Rmult_0_r, !Rplus_0_r, Z, !Rmult_0_r, !Rminus_0_r, Rmult_0_l, ?Rplus_0_r. rewrite IH; [reflexivity|]. intros z' Hz'. apply H. right. exact Hz'. }
  exists (mk_nls (Nat.iter N (fun c => nlc_add c d) c) d [(0, 0); (0, 0); (0, 0); (0, 0)]). unfold cleared. revert c. induction N as [|N IH]; intros c; [reflexivity|]. cbn [repeat nl_run].
  unfold nlff_process at 1. rewrite B1, B2, S1. cbn [ns_c ns_d ns_z]. rewrite T by (intros z Hz; cbn in Hz; intuition congruence). cbn [obind]. rewrite IH. cbn [obind]. rewrite iter_r. reflexivity.
Qed.
Print Assumptions C259_silence.

(* ================= C260: the nonlinear states filter ================= *)

(** The nonlinear states filter has no memory of its input: each register is overwritten with the saturated value it had before, so
    for every filter type, coefficients, glide and signal, from a cleared state, each sample is only multiplied by b0 once per stage. *)
Theorem C260_states_filter_refuted : forall sat stages c d xs, (sat = 0 \/ sat = 1)%Z -> (1 <= stages <= 4)%nat ->
  exists s', nl_run (nlsf_process (subtype sat stages)) (cleared c d) xs =
    Ok (s', map (fun k => (cB0 c + INR k * cB0 d) ^ stages * nth k xs 0) (seq 0 (length xs))) /\ ns_z s' = [(0, 0); (0, 0); (0, 0); (0, 0)].
Proof.
  intros sat stages c d xs Hs H2. destruct (subtype_bits sat stages ltac:(lia) H2) as [B1 B2].
  assert (S : exists s, nlsf_sat sat = Some s /\ saturate_nl s 0 = 0).
  { assert (Q : forall s, s <> SOjd -> saturate_nl s 0 = 0). { intros s S2. pose proof (proj2 (proj2 (proj2 (proj2 (proj2 (C255_saturators 0))))) s S2) as P. rewrite Ropp_0 in P. lra. }
    destruct Hs as [-> | ->]; eexists; (split; [reflexivity|apply Q; discriminate]). }
  destruct S as (s & S1 & Z).
  assert (T : forall n zs c x, (n <= length zs)%nat -> (forall z, In z zs -> z = (0, 0)) -> nl_stages (nlsf_stage s c) n zs x = (zs, cB0 c ^ n * x)).
  { clear - Z. induction n as [|n IH]; intros zs c x L H; cbn [nl_stages pow]; [rewrite Rmult_1_l; destruct zs; reflexivity|]. destruct zs as [|z t]; [cbn in L; lia|]. rewrite (H z (or_introl eq_refl)).
    unfold nlsf_stage at 1. cbv zeta. cbn [fst snd]. rewrite Z, Rplus_0_l. rewrite IH; [f_equal; ring|cbn in L; lia|]. intros z' Hz'. apply H. right. exact Hz'. }
  unfold cleared. revert c. induction xs as [|x t IH]; intros c; [eexists; split; reflexivity|]. cbn [nl_run length seq map].
  unfold nlsf_process at 1. rewrite B1, B2, S1. cbn [ns_c ns_d ns_z]. rewrite T; [|cbn; lia|intros z Hz; cbn in Hz; intuition congruence]. cbn [obind].
  destruct (IH (nlc_add c d)) as (s' & E & F). rewrite E. cbn [obind]. exists s'. split; [|exact F]. f_equal. f_equal. f_equal; [cbn [nth INR]; f_equal; f_equal; ring|].
  rewrite <- seq_shift, map_map. apply map_ext. intros k. cbn [nth]. rewrite S_INR. unfold nlc_add. cbn [cB0]. f_equal. f_equal. ring.
Qed.
Print Assumptions C260_states_filter_refuted.

(** What a state left in the registers does: it dies away through the saturator, whatever the input; the output is b0 times the
    input plus the first register (one stage). *)
Theorem C260_states_drain : forall sat s c x z cz, nlsf_sat sat = Some s -> (0 <= sat < 4)%Z ->
  nlsf_process (subtype sat 1) (mk_nls c no_glide (z :: cz)) x = Ok (mk_nls c no_glide ((saturate_nl s (fst z), saturate_nl s (snd z)) :: cz), fst z + cB0 c * x).
Proof.
  intros sat s c x z cz Hs H. destruct (subtype_bits sat 1 H ltac:(lia)) as [B1 B2]. unfold nlsf_process. rewrite B1, B2, Hs. cbn [ns_c ns_d ns_z nl_stages]. unfold nlsf_stage. cbv zeta. cbn [fst snd].
  destruct cz; rewrite add_no_glide; reflexivity.
Qed.
Print Assumptions C260_states_drain.

(** Only two saturators exist here, but the subtype has room for four: half of the subtype numbers panic. *)
Theorem C260_states_panic : forall cwp s x, nlsf_process cwp s x = Panic <-> Z.testbit cwp 3 = true.
Proof.
  intros cwp s x. unfold nlsf_process. 
  assert (B : nl_sat_index cwp = (Z.b2z (Z.testbit cwp 2) + 2 * Z.b2z (Z.testbit cwp 3))%Z).
  { unfold nl_sat_index. change 3%Z with (Z.ones 2) at 1. rewrite Z.land_ones by lia. rewrite Z.shiftr_div_pow2 by lia.
    rewrite !Z.testbit_spec' by lia. change (2 ^ 2)%Z with 4%Z. change (2 ^ 3)%Z with 8%Z.
    replace 8%Z with (4 * 2)%Z by reflexivity. rewrite <- Z.div_div by lia. set (q := (cwp / 4)%Z). pose proof (Z.rem_mul_r q 2 2 ltac:(lia) ltac:(lia)) as R. exact R. }
  rewrite B. destruct (Z.testbit cwp 2), (Z.testbit cwp 3); cbn [Z.b2z]; cbn; try (destruct (nl_stages _ _ _ _)); split; intros; try reflexivity; discriminate.
Qed.
Print Assumptions C260_states_panic.
