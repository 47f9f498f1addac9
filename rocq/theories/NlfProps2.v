(** Theorems about the nonlinear feedback and nonlinear states voice filters, signal path (C255-C260). *)
From Coq Require Import Reals Lra Psatz Lia List.
From Flocq Require Import Core.Core.
From Verif Require Import Base Util F32 BlockModel MathModel NlfModel RampProps ClipProps FastProps FastProps2 FiltProps NlfProps.
Import ListNotations.
Local Open Scope R_scope.

Definition no_glide : nlc := mk_nlc 0 0 0 0 0 0.
Definition cleared (c d : nlc) : nlstate := mk_nls c d [(0, 0); (0, 0); (0, 0); (0, 0)].
(** subtype numbers: [stages] 1..4 in bits 0-1, the saturator in bits 2-3 *)
Definition subtype (sat : Z) (stages : nat) : Z := (4 * sat + (Z.of_nat stages - 1))%Z.

Lemma subtype_bits sat stages : (0 <= sat < 4)%Z -> (1 <= stages <= 4)%nat -> nl_stage_count (subtype sat stages) = stages /\ nl_sat_index (subtype sat stages) = sat.
Proof.
  intros H1 H2. assert (S : (sat = 0 \/ sat = 1 \/ sat = 2 \/ sat = 3)%Z) by lia. assert (G : stages = 1%nat \/ stages = 2%nat \/ stages = 3%nat \/ stages = 4%nat) by lia.
  destruct S as [-> | [-> | [-> | ->]]], G as [-> | [-> | [-> | ->]]]; split; reflexivity.
Qed.
Lemma add_no_glide c : nlc_add c no_glide = c.
Proof. destruct c. unfold nlc_add, no_glide. cbn. f_equal; ring. Qed.

(* ================= C255: what the filter computes ================= *)

(** Specification.  The samples of a signal before the first are 0. *)
Definition at_ (f : nat -> R) (n k : nat) : R := if Nat.ltb n k then 0 else f (n - k)%nat.
(** [o] is a stage's output before its makeup gain, for the stage input [x]: a biquad whose feedback is saturated *)
Definition stage_eq (c : nlc) (sat : R -> R) (x o : nat -> R) : Prop := forall n,
  o n = cB0 c * x n + cB1 c * at_ x n 1 + cB2 c * at_ x n 2 - cA1 c * at_ (fun k => sat (o k)) n 1 - cA2 c * at_ (fun k => sat (o k)) n 2.
(** a chain of stages, each fed with the one before times the makeup gain *)
Fixpoint chain_eq (c : nlc) (sat : R -> R) (n : nat) (x y : nat -> R) : Prop :=
  match n with
  | 0%nat => forall k, y k = x k
  | Datatypes.S m => exists o, stage_eq c sat x o /\ chain_eq c sat m (fun k => o k * cMk c) y
  end.
Definition samples (f : nat -> R) (n : nat) : list R := map f (seq 0 n).

(* the register contents just before sample n *)
Definition trace (c : nlc) (sat : R -> R) (x o : nat -> R) (n : nat) : R * R :=
  (cB1 c * at_ x n 1 - cA1 c * at_ (fun k => sat (o k)) n 1 + (cB2 c * at_ x n 2 - cA2 c * at_ (fun k => sat (o k)) n 2),
   cB2 c * at_ x n 1 - cA2 c * at_ (fun k => sat (o k)) n 1).
Lemma at_1S f n : at_ f (Datatypes.S n) 1 = f n. Proof. unfold at_. cbn [Nat.ltb Nat.leb]. f_equal. lia. Qed.
Lemma at_2S f n : at_ f (Datatypes.S n) 2 = at_ f n 1.
Proof. unfold at_. destruct n; [reflexivity|]. change (Nat.ltb (Datatypes.S (Datatypes.S n)) 2) with false. change (Nat.ltb (Datatypes.S n) 1) with false. cbv iota. f_equal. Qed.
Lemma stage_step c s x o n : stage_eq c (saturate_nl s) x o ->
  nlff_stage s c (trace c (saturate_nl s) x o n) (x n) = (trace c (saturate_nl s) x o (Datatypes.S n), o n * cMk c).
Proof.
  intros H. unfold nlff_stage. cbv zeta. unfold trace at 1 2 3 4 5. cbn [fst snd].
  match goal with |- context[saturate_nl s ?e] => replace e with (o n) by (rewrite (H n); ring) end.
  unfold trace. rewrite !at_1S, !at_2S. apply f_equal2; [apply f_equal2; ring|try reflexivity; rewrite (H n); ring].
Qed.
Fixpoint traces (c : nlc) (sat : R -> R) (x : nat -> R) (os : list (nat -> R)) (n : nat) : list (R * R) :=
  match os with [] => [] | o :: t => trace c sat x o n :: traces c sat (fun k => o k * cMk c) t n end.
Fixpoint chain_os (c : nlc) (sat : R -> R) (x : nat -> R) (os : list (nat -> R)) : Prop :=
  match os with [] => True | o :: t => stage_eq c sat x o /\ chain_os c sat (fun k => o k * cMk c) t end.
Definition chain_out (c : nlc) (x : nat -> R) (os : list (nat -> R)) : nat -> R := fold_left (fun _ o k => o k * cMk c) os x.
Lemma chain_unpack c sat n : forall x y, chain_eq c sat n x y -> exists os, length os = n /\ chain_os c sat x os /\ forall k, y k = chain_out c x os k.
Proof.
  induction n as [|n IH]; intros x y H; cbn [chain_eq] in H.
  - exists []. repeat split. exact H.
  - destruct H as (o & H1 & H2). destruct (IH _ _ H2) as (os & L & C & Y). exists (o :: os). cbn. rewrite L. repeat split; try assumption.
Qed.
Lemma stages_step c s os : forall x rest n, chain_os c (saturate_nl s) x os ->
  nl_stages (nlff_stage s c) (length os) (traces c (saturate_nl s) x os n ++ rest) (x n) = (traces c (saturate_nl s) x os (Datatypes.S n) ++ rest, chain_out c x os n).
Proof.
  induction os as [|o t IH]; intros x rest n H; cbn [length nl_stages traces app].
  - destruct rest; reflexivity.
  - destruct H as [H1 H2]. rewrite (stage_step c s x o n H1). rewrite (IH (fun k => o k * cMk c) rest n H2). reflexivity.
Qed.
Lemma traces_0 c sat : forall os x, traces c sat x os 0 = repeat (0, 0) (length os).
Proof. induction os as [|o t IH]; intros x; [reflexivity|]. cbn [traces length repeat]. rewrite IH. f_equal. unfold trace, at_. cbn. f_equal; ring. Qed.

(** For every subtype (four saturators, one to four stages), coefficients, input signal and length: from a cleared state
    the filter is a chain of biquads each of which feeds back its saturated output. *)
Theorem C255_signal_path : forall sat stages s c x y N, (0 <= sat < 4)%Z -> (1 <= stages <= 4)%nat -> nlff_sat sat = Some s ->
  chain_eq c (saturate_nl s) stages x y ->
  exists s', nl_run (nlff_process (subtype sat stages)) (cleared c no_glide) (samples x N) = Ok (s', samples y N).
Proof.
  intros sat stages s c x y N H1 H2 Hs H. destruct (subtype_bits sat stages H1 H2) as [B1 B2].
  destruct (chain_unpack _ _ _ _ _ H) as (os & L & C & Y).
  assert (G : forall N n, exists s', nl_run (nlff_process (subtype sat stages)) (mk_nls c no_glide (traces c (saturate_nl s) x os n ++ repeat (0, 0) (4 - stages))) (map x (seq n N)) = Ok (s', map y (seq n N))).
  { clear N. induction N as [|N IH]; intros n; cbn [seq map nl_run]; [eexists; reflexivity|].
    unfold nlff_process at 1. rewrite B1, B2, Hs. cbn [ns_c ns_d ns_z]. rewrite <- L. rewrite (stages_step c s os x _ n C). rewrite L. cbn [obind].
    rewrite add_no_glide. destruct (IH (Datatypes.S n)) as (s' & E). rewrite E. cbn [obind]. rewrite (Y n). eexists; reflexivity. }
  destruct (G N 0%nat) as (s' & E). exists s'. unfold samples. rewrite <- E. f_equal. unfold cleared. f_equal. rewrite traces_0, L, <- repeat_app.
  replace (stages + (4 - stages))%nat with 4%nat by lia. reflexivity.
Qed.
Print Assumptions C255_signal_path.

(* the recursion always has a solution, so the theorem above says what happens for every input *)
Fixpoint stage_pairs (c : nlc) (sat : R -> R) (x : nat -> R) (n : nat) : R * R :=
  match n with
  | 0%nat => (cB0 c * x 0%nat, 0)
  | Datatypes.S m =>
    let p := stage_pairs c sat x m in
    (cB0 c * x n + cB1 c * at_ x n 1 + cB2 c * at_ x n 2 - cA1 c * sat (fst p) - cA2 c * (if Nat.eqb m 0 then 0 else sat (snd p)), fst p)
  end.
Lemma stage_pairs_snd c sat x n : snd (stage_pairs c sat x (Datatypes.S n)) = fst (stage_pairs c sat x n). Proof. reflexivity. Qed.
Theorem C255_exists : forall c sat n x, exists y, chain_eq c sat n x y.
Proof.
  intros c sat. induction n as [|n IH]; intros x; cbn [chain_eq]; [exists x; reflexivity|].
  set (o := fun k => fst (stage_pairs c sat x k)).
  assert (H : stage_eq c sat x o).
  { intros k. unfold o. destruct k as [|k].
    - unfold at_. cbn. ring.
    - rewrite (at_1S (fun k => sat (fst (stage_pairs c sat x k)))), (at_2S (fun k => sat (fst (stage_pairs c sat x k)))). cbn [stage_pairs]. cbv zeta. cbn [fst]. f_equal. f_equal.
      destruct k as [|k]; [reflexivity|]. rewrite at_1S. cbn [Nat.eqb]. rewrite stage_pairs_snd. reflexivity. }
  destruct (IH (fun k => o k * cMk c)) as (y & Hy). exists y, o. split; assumption.
Qed.
Print Assumptions C255_exists.

(** every subtype number is one of the sixteen, and none panics *)
Theorem C255_no_panic : forall cwp s x, exists s' y, nlff_process cwp s x = Ok (s', y).
Proof.
  intros cwp s x. unfold nlff_process. set (i := nl_sat_index cwp).
  assert (I : (0 <= i < 4)%Z). { unfold i, nl_sat_index. change 3%Z with (Z.ones 2). rewrite Z.land_ones by lia. apply Z.mod_pos_bound. reflexivity. }
  assert (S : (i = 0 \/ i = 1 \/ i = 2 \/ i = 3)%Z) by lia.
  assert (K : exists k, nlff_sat i = Some k) by (destruct S as [-> | [-> | [-> | ->]]]; eexists; reflexivity). destruct K as [k ->].
  destruct (nl_stages _ _ _ _) as [zs y]. eexists; eexists; reflexivity.
Qed.
Print Assumptions C255_no_panic.

(** the four saturators: odd and nondecreasing with slope 1 at 0 (except Ojd); the first three never leave
    [-1.00001, 1.00001]; Ojd only takes the values -1 and 1 *)
Theorem C255_saturators : forall x,
  Rabs (saturate_nl STanh x) <= 100001 / 100000 /\ Rabs (saturate_nl SSoft x) <= 1 /\
  (x <= 17 / 10 -> saturate_nl SOjd x = -1) /\ (17 / 10 < x -> saturate_nl SOjd x = 1) /\
  (-5 <= x <= 5 -> saturate_nl STanh x = fasttanh x) /\ (forall s, s <> SOjd -> saturate_nl s (- x) = - saturate_nl s x).
Proof.
  intros x. destruct C74_fasttanh as (_ & _ & _ & O & _ & B & E). destruct C53_softclip as (O2 & _ & B2 & _).
  split; [exact (proj2 (Rcomplements.Rabs_le_between _ _) (B x))|]. split; [exact (proj2 (Rcomplements.Rabs_le_between _ _) (B2 x))|].
  split; [intros H; cbn [saturate_nl]; unfold ojd; destruct (Rle_dec _ _); [reflexivity|lra]|].
  split; [intros H; cbn [saturate_nl]; unfold ojd; repeat (destruct (Rle_dec _ _) || destruct (Rlt_dec _ _)); lra|].
  split; [exact (E x)|]. intros s Hs. destruct s; cbn [saturate_nl]; [apply O|apply O2|congruence|].
  apply (proj1 C74_fastsin_fastcos).
Qed.
Print Assumptions C255_saturators.
