(* BiquadProps2.v - C110..C114: what the filter computes, its gains, and how coefficients are set. *)
From Coq Require Import Reals Lra Psatz List.
From Coquelicot Require Complex.
From Verif Require Import Base LagModel BiquadModel BiquadProofs BiquadProps.
Local Open Scope R_scope.

(* ================= C110: the difference equation ================= *)

(* the coefficients used for sample n of a run that starts in state s *)
Definition coefs_at (s : biquad) (n : nat) : coef5 := coefs (Nat.iter (S n) coeff_process s).

Lemma process_set_left : forall s a b, coeff_process (set_left s a b) = set_left (coeff_process s) a b.
Proof. reflexivity. Qed.
Lemma coefs_at_shift : forall s a b n, coefs_at (set_left (coeff_process s) a b) n = coefs_at s (S n).
Proof.
  intros s a b n. unfold coefs_at. rewrite (iter_S_r _ coeff_process (S n) s).
  assert (E : forall m u, coefs (Nat.iter m coeff_process (set_left u a b)) = coefs (Nat.iter m coeff_process u)).
  { induction m as [|m IH]; intros u; [reflexivity|]. rewrite !iter_S_r, process_set_left. apply IH. }
  apply E.
Qed.

Lemma mono_cons : forall s x xs, mono_loop s (x :: xs) =
  (let s1 := fst (step_left (coeff_process s) x) in
   (fst (mono_loop s1 xs), snd (step_left (coeff_process s) x) :: snd (mono_loop s1 xs))).
Proof. intros. cbn [mono_loop]. destruct (step_left _ _) as [s1 o]. cbn. destruct (mono_loop s1 xs). reflexivity. Qed.
Lemma mono_len : forall xs s, length (snd (mono_loop s xs)) = length xs.
Proof. induction xs as [|x xs IH]; intros s; [reflexivity|]. rewrite mono_cons. cbv zeta. cbn. f_equal. apply IH. Qed.

(* Every output sample, also while the coefficients glide: y[n+2] = b0 x[n+2] + b1 x[n+1] + b2 x[n] - a1 y[n+1] - a2 y[n],
   each coefficient taken at the time its product was formed. *)
Theorem C110_difference_equation : forall xs s n, (n + 2 < length xs)%nat ->
  let y := fun i => nth i (snd (mono_loop s xs)) 0 in let x := fun i => nth i xs 0 in let k := coefs_at s in
  y (n + 2)%nat = k_b0 (k (n + 2)%nat) * x (n + 2)%nat + k_b1 (k (n + 1)%nat) * x (n + 1)%nat + k_b2 (k n) * x n
             - k_a1 (k (n + 1)%nat) * y (n + 1)%nat - k_a2 (k n) * y n.
Proof.
  induction xs as [|x0 xs IH]; intros s n Hn; [cbn in Hn; lia|].
  destruct n as [|n].
  - destruct xs as [|x1 [|x2 xs]]; [cbn in Hn; lia|cbn in Hn; lia|].
    cbv zeta. repeat (rewrite mono_cons; cbv zeta; cbn [snd]). cbn [Nat.add nth].
    unfold coefs_at. cbn [Nat.iter nat_rect].
    cbv beta iota zeta delta [step_left chan_step fst snd].
    rewrite !process_set_left. cbn [q_r0l q_r1l set_left coeff_process].
    repeat match goal with |- context [coefs (set_left ?u ?a ?b)] => change (coefs (set_left u a b)) with (coefs u) end.
    ring.
  - cbv zeta. rewrite mono_cons. cbv zeta. cbn [snd]. 
    specialize (IH (fst (step_left (coeff_process s) x0)) n ltac:(cbn in Hn; lia)). cbv zeta in IH.
    change (S n + 2)%nat with (S (n + 2)). change (S n + 1)%nat with (S (n + 1)). cbn [nth].
    replace (coefs_at s (S (n + 2))) with (coefs_at (fst (step_left (coeff_process s) x0)) (n + 2)) by (unfold step_left, chan_step; cbn [fst]; apply coefs_at_shift).
    replace (coefs_at s (S (n + 1))) with (coefs_at (fst (step_left (coeff_process s) x0)) (n + 1)) by (unfold step_left, chan_step; cbn [fst]; apply coefs_at_shift).
    replace (coefs_at s (S n)) with (coefs_at (fst (step_left (coeff_process s) x0)) n) by (unfold step_left, chan_step; cbn [fst]; apply coefs_at_shift).
    exact IH.
Qed.

(* The first two samples: what was in the registers is added in. *)
Theorem C110_first_samples : forall s x0 x1 xs,
  let y := fun i => nth i (snd (mono_loop s (x0 :: x1 :: xs))) 0 in let k := coefs_at s in
  y 0%nat = k_b0 (k 0%nat) * x0 + q_r0l s /\
  y 1%nat = k_b0 (k 1%nat) * x1 + k_b1 (k 0%nat) * x0 - k_a1 (k 0%nat) * y 0%nat + q_r1l s.
Proof.
  intros s x0 x1 xs. cbv zeta. repeat (rewrite mono_cons; cbv zeta; cbn [snd]). cbn [nth]. unfold coefs_at. cbn [Nat.iter nat_rect].
  cbv beta iota zeta delta [step_left chan_step fst snd]. rewrite !process_set_left. cbn [q_r0l q_r1l set_left coeff_process].
  repeat match goal with |- context [coefs (set_left ?u ?a ?b)] => change (coefs (set_left u a b)) with (coefs u) end.
  split; ring.
Qed.

(* a run of the one-sample function *)
Fixpoint samples (s : biquad) (xs : list R) : biquad * list R :=
  match xs with
  | [] => (s, [])
  | x :: r => let (s1, o) := process_sample s x in let (s2, os) := samples s1 r in (s2, o :: os)
  end.

(* The block function is the one-sample function repeated, except that registers smaller than 1e-30 become 0 at
   the end; with a separate output the input is left as it was, in place it is replaced by the same values. *)
Theorem C110_block_is_samples : forall s data o,
  let r := samples s data in
  exists s', process_block_mono s data None = (s', snd r, None) /\
  process_block_mono s data (Some o) = (s', data, Some (snd r)) /\
  coefs s' = coefs (fst r) /\ q_r0r s' = q_r0r (fst r) /\ q_r1r s' = q_r1r (fst r) /\
  (forall reg, In reg [q_r0l; q_r1l] -> (reg s' = reg (fst r) \/ (reg s' = 0 /\ Rabs (reg (fst r)) < 1 / 10 ^ 30))).
Proof.
  intros s data o. cbv zeta.
  assert (E : forall xs s, samples s xs = mono_loop s xs).
  { induction xs as [|x xs IH]; intros u; [reflexivity|]. cbn. unfold process_sample. destruct (step_left (coeff_process u) x). rewrite IH. reflexivity. }
  rewrite E. unfold process_block_mono. destruct (mono_loop s data) as [s1 os]. cbn [fst snd].
  exists (flush_left s1). split; [reflexivity|]. split; [reflexivity|]. split; [reflexivity|]. split; [reflexivity|]. split; [reflexivity|].
  intros reg [<-|[<-|[]]]; unfold flush_left; cbn [q_r0l q_r1l set_left]; unfold flush_denormal;
    match goal with |- context [Rlt_dec ?a ?b] => destruct (Rlt_dec a b) as [H|H] end; auto.
Qed.

(* swapping the two channels of a filter *)
Definition swap_lr (s : biquad) : biquad :=
  mk_bq (q_a1 s) (q_a2 s) (q_b0 s) (q_b1 s) (q_b2 s) (q_r0r s) (q_r1r s) (q_r0l s) (q_r1l s) (q_first s).

(* Stereo processing is two independent mono runs: the left output is the mono run on the left samples, the right
   output the mono run on the right samples of the same filter with its channels exchanged. *)
Theorem C110_stereo_is_two_monos : forall data s,
  map fst (snd (stereo_loop s data)) = snd (mono_loop s (map fst data)) /\
  map snd (snd (stereo_loop s data)) = snd (mono_loop (swap_lr s) (map snd data)) /\
  (let e := fst (stereo_loop s data) in let el := fst (mono_loop s (map fst data)) in let er := fst (mono_loop (swap_lr s) (map snd data)) in
   q_r0l e = q_r0l el /\ q_r1l e = q_r1l el /\ q_r0r e = q_r0l er /\ q_r1r e = q_r1l er /\ coefs e = coefs el).
Proof.
  assert (Cong : forall xs s a b, mono_loop (set_right s a b) xs = (set_right (fst (mono_loop s xs)) a b, snd (mono_loop s xs))).
  { induction xs as [|x xs IH]; intros s a b; [reflexivity|]. rewrite !mono_cons. cbv zeta. cbn [fst snd].
    change (coeff_process (set_right s a b)) with (set_right (coeff_process s) a b).
    change (fst (step_left (set_right (coeff_process s) a b) x)) with (set_right (fst (step_left (coeff_process s) x)) a b).
    rewrite IH. reflexivity. }
  induction data as [|[l r] data IH]; intros s; [cbn; auto 10|].
  cbn [stereo_loop map fst snd]. rewrite !mono_cons. cbv zeta. cbn [fst snd].
  destruct (step_left (coeff_process s) l) as [s1 ol] eqn:EL. destruct (step_right s1 r) as [s2 or] eqn:ER.
  destruct (IH s2) as (I1 & I2 & I3).
  destruct (stereo_loop s2 data) as [s3 os]. cbn [fst snd map] in *. cbv zeta in I3. destruct I3 as (J1 & J2 & J3 & J4 & J5).
  unfold step_left, chan_step in EL. injection EL as EL1 EL2. unfold step_right, chan_step in ER. injection ER as ER1 ER2.
  assert (C1 := Cong (map fst data) s1 (q_r0r s2) (q_r1r s2)).
  replace (set_right s1 (q_r0r s2) (q_r1r s2)) with s2 in C1 by (rewrite <- ER1; reflexivity).
  assert (D1 := Cong (map snd data) (fst (step_left (coeff_process (swap_lr s)) r)) (q_r0l s2) (q_r1l s2)).
  replace (set_right (fst (step_left (coeff_process (swap_lr s)) r)) (q_r0l s2) (q_r1l s2)) with (swap_lr s2) in D1
    by (rewrite <- ER1, <- EL1; reflexivity).
  rewrite I1, I2, J1, J2, J3, J4, J5, C1, D1. cbn [fst snd].
  repeat split; try reflexivity.
  f_equal. rewrite <- ER2, <- EL1. reflexivity.
Qed.

(* The variants without a lag use the coefficients as they stand; otherwise they are the stereo step; and "no input" is
   input zero. *)
Theorem C110_variants_agree : forall s l r,
  process_sample_nolag s l r = process_sample_stereo_nolag s l r /\
  process_sample_nolag_noinput s = process_sample_nolag s 0 0 /\
  process_sample_stereo s l r = process_sample_nolag (coeff_process s) l r /\
  (settled s -> process_sample_stereo s l r = process_sample_nolag s l r) /\
  (exists s', stereo_loop s [(l, r)] = (s', [snd (process_sample_stereo s l r)]) /\ s' = fst (process_sample_stereo s l r)).
Proof.
  intros s l r. split; [reflexivity|]. split.
  { unfold process_sample_nolag, process_sample_nolag_noinput, step_left, step_right, chan_step. cbn.
    f_equal; [unfold set_right; f_equal; cbn; try reflexivity; ring|f_equal; ring]. }
  split; [reflexivity|]. split.
  { intros H. unfold process_sample_stereo. rewrite (settled_process s H). reflexivity. }
  unfold process_sample_stereo. cbn [stereo_loop]. destruct (step_left (coeff_process s) l) as [s1 o1]. destruct (step_right s1 r) as [s2 o2].
  exists s2. split; reflexivity.
Qed.

(* The "slow lag" block moves the coefficients once, at its start, and then is the lag-free step on every frame. *)
Theorem C110_slowlag : forall data s,
  let s1 := fst (process_block_slowlag s data) in
  coefs s1 = coefs (coeff_process s) /\
  (settled s -> snd (process_block_slowlag s data) = snd (stereo_loop s data)) /\
  (forall d2, snd (process_block_slowlag s (data ++ d2)) = snd (process_block_slowlag s data) ++ snd (slow_loop (fst (slow_loop (coeff_process s) data)) d2)).
Proof.
  intros data s. cbv zeta. unfold process_block_slowlag.
  assert (K : forall data s, coefs (fst (slow_loop s data)) = coefs s).
  { clear. induction data as [|[l r] data IH]; intros s; [reflexivity|]. cbn.
    match goal with |- context [slow_loop ?u data] => specialize (IH u); destruct (slow_loop u data) as [s3 os] end. cbn in *. exact IH. }
  assert (A : forall data s d2, snd (slow_loop s (data ++ d2)) = snd (slow_loop s data) ++ snd (slow_loop (fst (slow_loop s data)) d2)).
  { clear. induction data as [|[l r] data IH]; intros s d2; [reflexivity|]. cbn.
    match goal with |- context [slow_loop ?u data] => specialize (IH u d2); destruct (slow_loop u data) as [s3 os]; destruct (slow_loop u (data ++ d2)) as [s4 os4] end.
    cbn in *. rewrite IH. reflexivity. }
  assert (E : forall data s, settled s -> snd (slow_loop s data) = snd (stereo_loop s data)).
  { clear. induction data as [|[l r] data IH]; intros s Hs; [reflexivity|]. cbn [slow_loop stereo_loop]. rewrite (settled_process s Hs).
    destruct (step_left s l) as [s1 o1] eqn:E1. destruct (step_right s1 r) as [s2 o2] eqn:E2.
    assert (H2 : settled s2).
    { unfold step_left, chan_step in E1. injection E1 as <- _. unfold step_right, chan_step in E2. injection E2 as <- _. exact Hs. }
    specialize (IH s2 H2). destruct (slow_loop s2 data), (stereo_loop s2 data). cbn in *. rewrite IH. reflexivity. }
  split.
  { pose proof (K data (coeff_process s)) as P. destruct (slow_loop (coeff_process s) data). exact P. }
  split.
  { intros Hs. rewrite (settled_process s Hs), <- (E data s Hs). destruct (slow_loop s data). reflexivity. }
  intros d2. pose proof (A data (coeff_process s) d2) as P. destruct (slow_loop (coeff_process s) (data ++ d2)). destruct (slow_loop (coeff_process s) data). exact P.
Qed.

Example C110_case : snd (mono_loop (set_coef (mk_c6 2 1 0 2 4 0) bq_new) [1; 0; 0]) = [1; 3 / 2; - 3 / 4].
Proof.
  repeat (rewrite mono_cons; cbv zeta; cbn [snd]).
  rewrite (settled_process _ (settled_new _)). unfold step_left, chan_step. rewrite coefs_new. cbn [fst snd c_a0 c_a1 c_a2 c_b0 c_b1 c_b2 k_a1 k_a2 k_b0 k_b1 k_b2].
  rewrite !process_set_left. rewrite (settled_process _ (settled_new _)).
  repeat match goal with |- context [coefs (set_left ?u ?a ?b)] => change (coefs (set_left u a b)) with (coefs u) end.
  rewrite coefs_new. cbn [fst snd c_a0 c_a1 c_a2 c_b0 c_b1 c_b2 k_a1 k_a2 k_b0 k_b1 k_b2 q_r0l q_r1l set_left mono_loop].
  cbn. repeat (f_equal; try lra).
Qed.

Print Assumptions C110_difference_equation.
Print Assumptions C110_first_samples.
Print Assumptions C110_block_is_samples.
Print Assumptions C110_stereo_is_two_monos.
Print Assumptions C110_variants_agree.
Print Assumptions C110_slowlag.
