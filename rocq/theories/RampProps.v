(* RampProps.v - C41 (gain ramps of LipolPs) and C42 (triangular panning). *)
From Coq Require Import Reals Lra.
From Verif Require Import Base Util F32 BlockModel BlockProofs BlockProps.
Local Open Scope Z_scope.

(** ** specification vocabulary *)
(* the documented ramp: sample i of a block of bs samples lies (i+1)/bs of the way from cur to tgt *)
Definition ramp (cur tgt bs : R) (i : Z) : R := (cur + (IZR i + 1) / bs * (tgt - cur))%R.

(** ** lemmas *)
Section Ramp.
Context {T : Type} (A : arith T).
Definition rampreg (s : lipolps T) (k : Z) : m128 T :=
  let '(y1, dy) := ps_initblock A s in if Z.even k then y1 else vadd A y1 dy.
(* gain applied to sample i *)
Definition gain8 (s : lipolps T) (i : Z) : T := rampreg s (i / 4) (i mod 4).
Lemma gain8_quad s d k a : d + 4 * k <= a < d + 4 * k + 4 -> rampreg s k (a - (d + 4 * k)) = gain8 s (a - d).
Proof. intros H. unfold gain8. replace ((a - d) / 4) with k by lia. replace ((a - d) mod 4) with (a - (d + 4 * k)) by lia. reflexivity. Qed.
Lemma gain8_period s i : gain8 s (i + 8) = gain8 s i.
Proof.
  unfold gain8. replace ((i + 8) / 4) with (i / 4 + 2) by lia. replace ((i + 8) mod 4) with (i mod 4) by lia.
  unfold rampreg. destruct (ps_initblock A s). rewrite Z.even_add. change (Z.even 2) with true. now destruct (Z.even (i / 4)).
Qed.
Lemma sse_eq2 s n c (Q : mem T -> Z -> m128 T -> mem T) m : 0 <= n ->
  (forall m i y1 y2 dy, fst (fst (c m i y1 y2 dy)) = Q (Q m i y1) (i + 1) y2) ->
  sse_block A s n false c m = fold_left (fun m k => Q m k (rampreg s k)) (zseq (2 * cdiv n 2)) m.
Proof.
  intros Hn H. pose proof (unroll_eq (fun m k => Q m k (rampreg s k)) 1 2 n m ltac:(lia) ltac:(lia) Hn) as E. rewrite !Z.mul_1_l in E.
  transitivity (fold_left (fun m k => Q m (1 * k) (rampreg s (1 * k))) (zseq (2 * cdiv n 2)) m).
  2: { apply fold_ext_in. intros m0 k _. now rewrite !Z.mul_1_l. }
  rewrite <- E. unfold sse_block, rampreg. destruct (ps_initblock A s) as [y1 dy]. apply fold_ext_in. intros m1 i Hi.
  destruct (in_stepby n 2 i ltac:(lia) Hi) as (j & -> & Hj). change (zseq 2) with [0; 1]. cbn [fold_left]. rewrite Z.mul_0_r, Z.add_0_r, Z.mul_1_l.
  rewrite Z.even_add, !Z.even_mul. cbn [Z.even orb eqb Bool.eqb]. rewrite <- H with (dy := vmul A dy (set1 (lit A 2 1))). destruct (c m1 (2 * j) y1 (vadd A y1 dy) _) as [[? ?] ?]. reflexivity.
Qed.
Lemma sse_eq8 s n c (Q : mem T -> Z -> m128 T -> mem T) m : 0 <= n ->
  (forall m i y1 y2 dy, fst (fst (c m i y1 y2 dy)) = Q (Q m i y1) (i + 4) y2) ->
  sse_block A s n true c m = fold_left (fun m k => Q m (4 * k) (rampreg s k)) (zseq (2 * cdiv n 2)) m.
Proof.
  intros Hn H. transitivity (fold_left (fun m k => Q m (4 * k) (rampreg s (4 * k / 4))) (zseq (2 * cdiv n 2)) m).
  2: { apply fold_ext_in. intros m0 k _. replace (4 * k / 4) with k by lia. reflexivity. }
  rewrite <- (unroll_eq (fun m k => Q m k (rampreg s (k / 4))) 4 2 n m) by lia.
  unfold sse_block, rampreg. destruct (ps_initblock A s) as [y1 dy]. apply fold_ext_in. intros m1 i Hi.
  destruct (in_stepby (4 * n) 8 i ltac:(lia) Hi) as (j & -> & Hj). change (zseq 2) with [0; 1]. cbn [fold_left]. rewrite Z.mul_0_r, Z.add_0_r.
  replace (8 * j / 4) with (2 * j) by lia. change (4 * 1) with 4. replace ((8 * j + 4) / 4) with (2 * j + 1) by lia.
  rewrite Z.even_add, !Z.even_mul. cbn [Z.even orb eqb Bool.eqb]. rewrite <- H with (dy := vmul A dy (set1 (lit A 2 1))). destruct (c m1 (8 * j) y1 (vadd A y1 dy) _) as [[? ?] ?]. reflexivity.
Qed.
End Ramp.


(* exact value of the gain actually applied *)
Lemma gain8_exact s bs i : bs <> 0%R -> (0 <= i) ->
  ps_bs4_inv s = (4 / bs)%R -> gain8 arithR s i = ramp (ps_current s) (ps_target s) bs (i mod 8).
Proof.
  intros Hb Hi B. unfold gain8, rampreg, ps_initblock, ramp. cbn [fst snd].
  assert (P : i mod 8 = 4 * ((i / 4) mod 2) + i mod 4) by lia. rewrite P.
  destruct (Z.even (i / 4)) eqn:E.
  - replace ((i / 4) mod 2) with 0 by (apply Z.even_spec in E; destruct E as [q E]; lia).
    unfold vadd, vmul, set1, starter. cbn [ar_add ar_mul ar_sub ar_lit arithR lit]. unfold lit. cbn [ar_lit arithR]. rewrite B, !plus_IZR, mult_IZR. field. exact Hb.
  - replace ((i / 4) mod 2) with 1 by (rewrite <- Z.negb_odd in E; destruct (Z.odd (i / 4)) eqn:O; [|discriminate]; apply Z.odd_spec in O; destruct O as [q O]; lia).
    unfold vadd, vmul, set1, starter. cbn [ar_add ar_mul ar_sub ar_lit arithR lit]. unfold lit. cbn [ar_lit arithR]. rewrite B, !plus_IZR, mult_IZR. field. exact Hb.
Qed.
Lemma blocksize_inv s bs : (0 < bs)%Z -> ps_bs4_inv (ps_set_blocksize arithR s bs) = (4 / IZR bs)%R.
Proof. intros H. cbn. unfold lit. cbn. field. apply IZR_lt in H. lra. Qed.

Section Ops.
Context {T : Type} (A : arith T) (s : lipolps T) (F : T -> T -> T -> T).
Definition q1 (d p q : Z) (m : mem T) (k : Z) (y : m128 T) : mem T :=
  vstore m (quad d k) (fun j => F (vload m (quad p k) j) (vload m (quad q k) j) (y j)).
Lemma gain1 m d p q N : 0 <= N -> clear_of p d N -> clear_of q d N ->
  writes d (4 * N) (fun i => F (m (p + i)) (m (q + i)) (gain8 A s i)) m (fold_left (fun m k => q1 d p q m k (rampreg A s k)) (zseq N) m).
Proof.
  intros HN C1 C2. apply writes_of_if. intros a. apply (loop1 N d _ (fun i => F (m (p + i)) (m (q + i)) (gain8 A s i))); [exact HN|].
  intros m1 k Hk Ag. unfold q1. split; intros b Hb.
  - rewrite vstore_in by (unfold quad; lia). unfold vload, quad in *. rewrite (gain8_quad A s d k b) by lia. repeat addr Ag. finish.
  - apply vstore_out. unfold quad. lia.
Qed.
Definition q1c (d p q : Z) (m : mem T) (o : Z) (y : m128 T) : mem T :=
  vstore m (d + o) (fun j => F (vload m (p + o) j) (vload m (q + o) j) (y j)).
Definition q2 (d1 d2 p1 p1' p2 p2' : Z) (m : mem T) (k : Z) (y : m128 T) : mem T :=
  q1 d2 p2 p2' (q1 d1 p1 p1' m k y) k y.
Lemma gain2 m d1 d2 p1 p1' p2 p2' N : 0 <= N -> apart d1 d2 N ->
  clear_of p1 d1 N -> clear_of p1' d1 N -> apart p1 d2 N -> apart p1' d2 N ->
  clear_of p2 d2 N -> clear_of p2' d2 N -> apart p2 d1 N -> apart p2' d1 N ->
  writes2 d1 d2 (4 * N) (fun i => F (m (p1 + i)) (m (p1' + i)) (gain8 A s i)) (fun i => F (m (p2 + i)) (m (p2' + i)) (gain8 A s i)) m
   (fold_left (fun m k => q2 d1 d2 p1 p1' p2 p2' m k (rampreg A s k)) (zseq N) m).
Proof.
  intros HN D C1 C2 C3 C4 C5 C6 C7 C8. apply writes2_of_if; [exact D|]. intros a. unfold apart, clear_of in *.
  apply (loop2 N d1 d2 _ (fun i => F (m (p1 + i)) (m (p1' + i)) (gain8 A s i)) (fun i => F (m (p2 + i)) (m (p2' + i)) (gain8 A s i))); [exact HN|lia|].
  intros m1 k Hk Ag. unfold q2, q1. split; [|split]; intros b Hb.
  - rewrite vstore_out, vstore_in by (unfold quad; lia). unfold vload, quad in *. rewrite (gain8_quad A s d1 k b) by lia. repeat addr2 Ag. finish.
  - rewrite vstore_in by (unfold quad; lia). unfold vload, quad in *. rewrite !vstore_out by lia. rewrite (gain8_quad A s d2 k b) by lia. repeat addr2 Ag. finish.
  - intros Hb2. rewrite !vstore_out by (unfold quad; lia). reflexivity.
Qed.
End Ops.

(* every block operation of LipolPs, in terms of the gain g i applied to sample i *)
Definition all_blocks_use {T} (A : arith T) (s : lipolps T) (g : Z -> T) : Prop :=
  forall (m : mem T) n, 0 <= n -> n mod 2 = 0 ->
  let add := ar_add A in let sub := ar_sub A in let mul := ar_mul A in
  let mix a b y := add (mul a (sub (ar_lit A 1 1) y)) (mul b y) in
  (forall dst, writes dst (4 * n) (fun i => g i) m (ps_store_block A s m dst n))
  /\ (forall src, writes src (4 * n) (fun i => mul (m (src + i)) (g i)) m (ps_multiply_block A s m src n))
  /\ (forall src, writes src (4 * n) (fun i => mul (m (src + i)) (g i)) m (ps_multiply_block_sat1 A s m src n))
  /\ (forall src dst, clear_of src dst n -> writes dst (4 * n) (fun i => mul (m (src + i)) (g i)) m (ps_multiply_block_to A s m src dst n))
  /\ (forall src, writes src (4 * n) (fun i => add (m (src + i)) (g i)) m (ps_add_block A s m src n))
  /\ (forall src, writes src (4 * n) (fun i => sub (m (src + i)) (g i)) m (ps_subtract_block A s m src n))
  /\ (forall src dst, clear_of src dst n -> writes dst (4 * n) (fun i => add (m (dst + i)) (mul (m (src + i)) (g i))) m (ps_mac_block_to A s m src dst n))
  /\ (forall src1 src2 dst, clear_of src1 dst n -> clear_of src2 dst n ->
        writes dst (4 * n) (fun i => mix (m (src1 + i)) (m (src2 + i)) (g i)) m (ps_fade_block_to A s m src1 src2 dst n))
  /\ (forall src1 src2, apart src1 src2 n ->
        writes2 src1 src2 (4 * n) (fun i => mul (m (src1 + i)) (g i)) (fun i => mul (m (src2 + i)) (g i)) m (ps_multiply_2_blocks A s m src1 src2 n))
  /\ (forall src1 src2 dst1 dst2, apart dst1 dst2 n -> clear_of src1 dst1 n -> apart src1 dst2 n -> clear_of src2 dst2 n -> apart src2 dst1 n ->
        writes2 dst1 dst2 (4 * n) (fun i => mul (m (src1 + i)) (g i)) (fun i => mul (m (src2 + i)) (g i)) m (ps_multiply_2_blocks_to A s m src1 src2 dst1 dst2 n)
     /\ writes2 dst1 dst2 (4 * n) (fun i => add (m (dst1 + i)) (mul (m (src1 + i)) (g i))) (fun i => add (m (dst2 + i)) (mul (m (src2 + i)) (g i))) m (ps_mac_2_blocks_to A s m src1 src2 dst1 dst2 n))
  /\ (forall src11 src12 src21 src22 dst1 dst2, apart dst1 dst2 n -> clear_of src11 dst1 n -> clear_of src12 dst1 n -> apart src11 dst2 n -> apart src12 dst2 n ->
        clear_of src21 dst2 n -> clear_of src22 dst2 n -> apart src21 dst1 n -> apart src22 dst1 n ->
        writes2 dst1 dst2 (4 * n) (fun i => mix (m (src11 + i)) (m (src12 + i)) (g i)) (fun i => mix (m (src21 + i)) (m (src22 + i)) (g i)) m
          (ps_fade_2_blocks_to A s m src11 src12 src21 src22 dst1 dst2 n)).

Lemma blocks_use_gain8 {T} (A : arith T) s : all_blocks_use A s (gain8 A s).
Proof.
  intros m n Hn Hm add sub mul mix. assert (E : 2 * cdiv n 2 = n) by (apply cdiv_exact; lia).
  assert (CR : forall p, clear_of p p n) by (intros; left; reflexivity).
  assert (K8 : forall c (F : T -> T -> T -> T) d p q, clear_of p d n -> clear_of q d n ->
    (forall m i y1 y2 dy, fst (fst (c m i y1 y2 dy)) = q1c F d p q (q1c F d p q m i y1) (i + 4) y2) ->
    writes d (4 * n) (fun i => F (m (p + i)) (m (q + i)) (gain8 A s i)) m (sse_block A s n true c m)).
  { intros c F d p q C1 C2 H. rewrite (sse_eq8 A s n c (q1c F d p q) m Hn H), E. apply (gain1 A s F m d p q n Hn C1 C2). }
  assert (K2 : forall c (F : T -> T -> T -> T) d p q, clear_of p d n -> clear_of q d n ->
    (forall m i y1 y2 dy, fst (fst (c m i y1 y2 dy)) = q1 F d p q (q1 F d p q m i y1) (i + 1) y2) ->
    writes d (4 * n) (fun i => F (m (p + i)) (m (q + i)) (gain8 A s i)) m (sse_block A s n false c m)).
  { intros c F d p q C1 C2 H. rewrite (sse_eq2 A s n c (q1 F d p q) m Hn H), E. apply (gain1 A s F m d p q n Hn C1 C2). }
  assert (K22 : forall c (F : T -> T -> T -> T) d1 d2 p1 p1' p2 p2', apart d1 d2 n ->
    clear_of p1 d1 n -> clear_of p1' d1 n -> apart p1 d2 n -> apart p1' d2 n ->
    clear_of p2 d2 n -> clear_of p2' d2 n -> apart p2 d1 n -> apart p2' d1 n ->
    (forall m i y1 y2 dy, fst (fst (c m i y1 y2 dy)) = q2 F d1 d2 p1 p1' p2 p2' (q2 F d1 d2 p1 p1' p2 p2' m i y1) (i + 1) y2) ->
    writes2 d1 d2 (4 * n) (fun i => F (m (p1 + i)) (m (p1' + i)) (gain8 A s i)) (fun i => F (m (p2 + i)) (m (p2' + i)) (gain8 A s i)) m (sse_block A s n false c m)).
  { intros c F d1 d2 p1 p1' p2 p2' D C1 C2 C3 C4 C5 C6 C7 C8 H. rewrite (sse_eq2 A s n c (q2 F d1 d2 p1 p1' p2 p2') m Hn H), E. apply (gain2 A s F m d1 d2 p1 p1' p2 p2' n Hn D C1 C2 C3 C4 C5 C6 C7 C8). }
  split. { intros d. apply (K8 _ (fun _ _ y => y) d d d); auto. intros. unfold q1c. rewrite !Z.add_assoc. reflexivity. }
  split. { intros d. apply (K8 _ (fun a _ y => ar_mul A a y) d d d); auto. intros. unfold q1c. rewrite !Z.add_assoc. reflexivity. }
  split. { intros d. apply (K8 _ (fun a _ y => ar_mul A a y) d d d); auto. intros. unfold q1c. rewrite !Z.add_assoc. reflexivity. }
  split. { intros p d C. apply (K2 _ (fun a _ y => ar_mul A a y) d p p); auto. }
  split. { intros d. apply (K2 _ (fun a _ y => ar_add A a y) d d d); auto. }
  split. { intros d. apply (K2 _ (fun a _ y => ar_sub A a y) d d d); auto. }
  split. { intros p d C. apply (K2 _ (fun a b y => ar_add A a (ar_mul A b y)) d d p); auto. }
  split. { intros p1 p2 d C1 C2. apply (K2 _ (fun a b y => mix a b y) d p1 p2); auto. }
  assert (SY : forall p q, apart p q n -> apart q p n) by (unfold apart; lia).
  split. { intros p1 p2 D. apply (K22 _ (fun a _ y => ar_mul A a y) p1 p2 p1 p1 p2 p2); auto. }
  split.
  { intros p1 p2 d1 d2 D C1 C2 C3 C4. split.
    - apply (K22 _ (fun a _ y => ar_mul A a y) d1 d2 p1 p1 p2 p2); auto.
    - apply (K22 _ (fun a b y => ar_add A a (ar_mul A b y)) d1 d2 d1 p1 d2 p2); auto. }
  intros p11 p12 p21 p22 d1 d2 D C1 C2 C3 C4 C5 C6 C7 C8. apply (K22 _ (fun a b y => mix a b y) d1 d2 p11 p12 p21 p22); auto.
Qed.
Lemma blocks_use_ext {T} (A : arith T) s g h : (forall i, 0 <= i -> g i = h i) -> all_blocks_use A s g -> all_blocks_use A s h.
Proof.
  intros E H m n Hn Hm. specialize (H m n Hn Hm). cbv zeta in *.
  assert (W : forall d len o o' m', (forall i, 0 <= i -> o i = o' i) -> writes d len o m m' -> writes (T := T) d len o' m m').
  { intros d len o o' m' Q [W1 W2]. split; [|exact W2]. intros i Hi. rewrite <- Q by lia. now apply W1. }
  assert (W2 : forall d1 d2 len o1 o1' o2 o2' m', (forall i, 0 <= i -> o1 i = o1' i) -> (forall i, 0 <= i -> o2 i = o2' i) -> writes2 d1 d2 len o1 o2 m m' -> writes2 (T := T) d1 d2 len o1' o2' m m').
  { intros d1 d2 len o1 o1' o2 o2' m' Q1 Q2 (X1 & X2 & X3). split; [|split; [|exact X3]]; intros i Hi; [rewrite <- Q1 by lia; now apply X1|rewrite <- Q2 by lia; now apply X2]. }
  destruct H as (H1 & H2 & H3 & H4 & H5 & H6 & H7 & H8 & H9 & H10 & H11).
  repeat match goal with |- _ /\ _ => split end; intros;
   try (eapply W; [|eauto]; intros i Hi; cbn beta; rewrite E by exact Hi; reflexivity);
   try (eapply W2; [| |eauto]; intros i Hi; cbn beta; rewrite E by exact Hi; reflexivity).
  split; (eapply W2; [| |apply H10; assumption]; intros i Hi; cbn beta; rewrite E by exact Hi; reflexivity).
Qed.

(** ** C41 *)
(* What every LipolPs block operation really does, in exact arithmetic: sample i gets the ramp value of sample i mod 8.
   It is therefore right on the first eight samples of a block ... *)
Theorem C41_ramp_partial : forall (s : lipolps R) bs, 0 < bs ->
  all_blocks_use arithR (ps_set_blocksize arithR s bs) (fun i => ramp (ps_current s) (ps_target s) (IZR bs) (i mod 8)).
Proof.
  intros s bs Hb. eapply blocks_use_ext; [|apply blocks_use_gain8]. intros i Hi. cbn beta.
  rewrite (gain8_exact (ps_set_blocksize arithR s bs) (IZR bs) i); [reflexivity| |exact Hi|now apply blocksize_inv]. apply IZR_lt in Hb. lra.
Qed.
Print Assumptions C41_ramp_partial.
(* ... and wrong after them: whenever the target differs from the current value, no sample from the ninth on gets its ramp value *)
Theorem C41_ramp_restarts_refuted : forall (s : lipolps R) bs n i (m : mem R) dst, 0 < bs -> 0 <= n -> n mod 2 = 0 -> 8 <= i < 4 * n ->
  ps_target s <> ps_current s ->
  ps_store_block arithR (ps_set_blocksize arithR s bs) m dst n (dst + i) <> ramp (ps_current s) (ps_target s) (IZR bs) i
  /\ ps_store_block arithR (ps_set_blocksize arithR s bs) m dst n (dst + i) = ps_store_block arithR (ps_set_blocksize arithR s bs) m dst n (dst + (i - 8)).
Proof.
  intros s bs n i m dst Hb Hn Hm Hi Ht. destruct (C41_ramp_partial s bs Hb m n Hn Hm) as (W & _). destruct (W dst) as [W1 _].
  rewrite !W1 by lia. replace ((i - 8) mod 8) with (i mod 8) by lia. split; [|reflexivity].
  unfold ramp. assert (HB : (IZR bs > 0)%R) by (apply IZR_lt in Hb; lra). assert (HI : (IZR (i mod 8) < IZR i)%R) by (apply IZR_lt; lia).
  intros X. apply Rplus_eq_reg_l in X. apply Rmult_eq_reg_r in X; [|lra]. unfold Rdiv in X. apply Rmult_eq_reg_r in X; [lra|]. apply Rinv_neq_0_compat. lra.
Qed.
Print Assumptions C41_ramp_restarts_refuted.
(* in every arithmetic (in particular binary32) the gain sequence has period 8 *)
Theorem C41_ramp_period_refuted : forall T (A : arith T) (s : lipolps T),
  exists g : Z -> T, (forall i, g (i + 8) = g i) /\ all_blocks_use A s g.
Proof. intros T A s. exists (gain8 A s). split; [apply gain8_period|apply blocks_use_gain8]. Qed.
Print Assumptions C41_ramp_period_refuted.
(* with a block of exactly eight samples the ramp is right, ends on the target, and the next one starts there *)
Theorem C41_block_of_eight : forall (s : lipolps R) (m : mem R) dst t, let s' := ps_set_target (ps_set_blocksize arithR s 8) t in
  writes dst 8 (fun i => ramp (ps_target s) t 8 i) m (ps_store_block arithR s' m dst 2)
  /\ ramp (ps_target s) t 8 7 = t.
Proof.
  intros s m dst t s'. split; [|unfold ramp; lra].
  change s' with (ps_set_blocksize arithR (ps_set_target s t) 8).
  destruct (C41_ramp_partial (ps_set_target s t) 8 ltac:(lia) m 2 ltac:(lia) eq_refl) as (W & _). destruct (W dst) as [W1 W2].
  split; [|exact W2]. intros i Hi. rewrite W1 by lia. rewrite Z.mod_small by lia. reflexivity.
Qed.
Print Assumptions C41_block_of_eight.
(* a constant gain is applied to all samples *)
Theorem C41_constant_gain : forall (s : lipolps R) bs t, 0 < bs ->
  all_blocks_use arithR (ps_instantize (ps_set_target (ps_set_blocksize arithR s bs) t)) (fun _ => t).
Proof.
  intros s bs t Hb. eapply blocks_use_ext; [|apply blocks_use_gain8]. intros i Hi. cbn beta.
  rewrite (gain8_exact _ (IZR bs) i); [|apply IZR_lt in Hb; lra|exact Hi|exact (blocksize_inv s bs Hb)]. unfold ramp. cbn. lra.
Qed.
Print Assumptions C41_constant_gain.
(* set_target_smoothed moves a quarter of the way; repeated it approaches the value asked for *)
Theorem C41_smoothed_target : forall (s : lipolps R) t k, ps_coef s = (1/4)%R -> ps_coef_m1 s = (3/4)%R ->
  ps_target (Nat.iter k (fun s => ps_set_target_smoothed arithR s t) s) = (t + (ps_target s - t) * (3/4) ^ k)%R.
Proof.
  intros s t k H1 H2.
  assert (I : ps_coef (Nat.iter k (fun s => ps_set_target_smoothed arithR s t) s) = (1/4)%R /\ ps_coef_m1 (Nat.iter k (fun s => ps_set_target_smoothed arithR s t) s) = (3/4)%R).
  { induction k; cbn in *; auto. }
  induction k as [|k IH]; [cbn; ring|]. destruct I as [I1 I2]. change (Nat.iter (S k) ?f s) with (f (Nat.iter k f s)) in *. cbn in I1, I2.
  unfold ps_set_target_smoothed at 1. cbn [ps_target ar_add ar_mul arithR]. rewrite IH, I1, I2 by auto. cbn [pow]. lra.
Qed.
Print Assumptions C41_smoothed_target.
Example C41_instance : (ps_coef (ps_default arithR) = 1/4 /\ ps_coef_m1 (ps_default arithR) = 3/4)%R
  /\ ps_target (ps_set_target (ps_new_with_blocksize arithR 32) 1%R) <> ps_current (ps_set_target (ps_new_with_blocksize arithR 32) 1%R).
Proof. cbn. unfold lit. cbn. split; [split; lra|]. lra. Qed.

(** ** C42 *)
Lemma fold_pair {S Y X} (f : S -> X -> Y -> S) (g : Y -> Y) (l : list X) : forall k s y0,
  fst (fold_left (fun '(s, y) x => (f s x y, g y)) l (s, Nat.iter k g y0))
  = fst (fold_left (fun '(s, j) x => (f s x (Nat.iter j g y0), Datatypes.S j)) l (s, k)).
Proof.
  induction l as [|x l IH]; intros k s y0; cbn [fold_left]; [reflexivity|]. change (g (Nat.iter k g y0)) with (Nat.iter (Datatypes.S k) g y0). apply IH.
Qed.
Lemma fold_counter {S} (f : S -> Z -> nat -> S) n : forall s, 0 <= n ->
  fold_left (fun '(s, j) x => (f s x j, Datatypes.S j)) (zseq n) (s, 0%nat) = (fold_left (fun s x => f s x (Z.to_nat x)) (zseq n) s, Z.to_nat n).
Proof.
  intros s Hn. pattern n. apply natlike_ind; [reflexivity| |exact Hn]. clear n Hn. intros n Hn IH. unfold Z.succ.
  rewrite zseq_S, !fold_left_app, IH by lia. cbn [fold_left]. f_equal. lia.
Qed.
(* the two-channel mixing of the panner at position p, as documented: left = (1-a)*left - b*right, right = a*left + (1+b)*right
   with a the positive and b the negative part of p *)
Definition pan_l (p l r : R) : R := ((1 - Rmax 0 p) * l - Rmin 0 p * r)%R.
Definition pan_r (p l r : R) : R := (Rmax 0 p * l + (1 + Rmin 0 p) * r)%R.
Lemma smaxR x y : smax arithR x y = Rmax x y.
Proof. unfold smax. cbn. destruct (Rlt_dec y x); unfold Rmax; destruct (Rle_dec x y); lra. Qed.
Lemma sminR x y : smin arithR x y = Rmin x y.
Proof. unfold smin. cbn. destruct (Rlt_dec x y); unfold Rmin; destruct (Rle_dec x y); lra. Qed.
Theorem C42_trixpan_blocks : forall (s : lipolps R) bs (m : mem R) left right dl dr n, 0 < bs -> 0 <= n ->
  four_apart left right dl dr n ->
  writes2 dl dr (4 * n)
   (fun i => pan_l (ramp (ps_current s) (ps_target s) (IZR bs) i) (m (left + i)) (m (right + i)))
   (fun i => pan_r (ramp (ps_current s) (ps_target s) (IZR bs) i) (m (left + i)) (m (right + i))) m
   (ps_trixpan_blocks arithR (ps_set_blocksize arithR s bs) m left right dl dr n).
Proof.
  intros s bs m l r dl dr n Hb Hn (D1 & D2 & D3 & D4 & D5 & D6). apply writes2_of_if; [exact D6|]. intros a.
  unfold ps_trixpan_blocks, ps_initblock. set (dy := set1 _). set (y0 := vadd _ _ _).
  rewrite stepby_zseq, cdiv_1.
  rewrite fold_map.
  set (pq := fun (m : mem R) (i : Z) (y : m128 R) => fst (trixpan_do_quad arithR m (quad l (1 * i)) (quad r (1 * i)) (quad dl (1 * i)) (quad dr (1 * i)) y dy)).
  rewrite (fold_ext_in _ (fun '(m, y) x => (pq m x y, vadd arithR y dy))) by (intros [m1 y1] x _; reflexivity).
  pose proof (fold_pair pq (fun y => vadd arithR y dy) (zseq n) 0 m y0) as FP. change (Nat.iter 0 (fun y => vadd arithR y dy) y0) with y0 in FP. rewrite FP. clear FP.
  rewrite fold_counter by exact Hn. cbn [fst].
  assert (YK : forall k j, Nat.iter k (fun y => vadd arithR y dy) y0 j = (y0 j + INR k * dy j)%R).
  { induction k as [|k IH]; intros j; [cbn; ring|]. change (Nat.iter (S k) ?f y0) with (f (Nat.iter k f y0)). unfold vadd at 1. cbn [ar_add arithR]. rewrite IH, S_INR. ring. }
  assert (HB : (IZR bs <> 0)%R) by (apply IZR_lt in Hb; lra).
  assert (YV : forall d k b, 0 <= k -> d + 4 * k <= b < d + 4 * k + 4 -> Nat.iter (Z.to_nat k) (fun y => vadd arithR y dy) y0 (b - quad d k) = ramp (ps_current s) (ps_target s) (IZR bs) (b - d)).
  { intros d k b Hk H. rewrite YK, INR_IZR_INZ, Z2Nat.id by lia. unfold y0, dy, ramp, vadd, vmul, set1, starter, quad, lit.
    cbn [ar_add ar_mul ar_sub ar_lit arithR]. rewrite (blocksize_inv s bs Hb). cbn [ps_target ps_current ps_set_blocksize].
    replace (b - d) with (4 * k + (b - (d + 4 * k))) by ring. rewrite !plus_IZR, mult_IZR. field. exact HB. }
  unfold apart in *.
  apply (loop2 n dl dr _ (fun i => pan_l (ramp (ps_current s) (ps_target s) (IZR bs) i) (m (l + i)) (m (r + i)))
    (fun i => pan_r (ramp (ps_current s) (ps_target s) (IZR bs) i) (m (l + i)) (m (r + i)))); [lia|lia|].
  intros m1 k Hk Ag. cbn beta. unfold pq, trixpan_do_quad. cbn [fst]. rewrite !Z.mul_1_l. split; [|split]; intros b Hb2.
  - rewrite vstore_out, vstore_in by (unfold quad; lia). unfold trixpan_left, vsub, vmul, vmax, vmin, vload, set1.
    rewrite (YV dl k b) by lia. rewrite smaxR, sminR. unfold lit, pan_l. cbn [ar_sub ar_mul ar_lit arithR].
    repeat addr2 Ag. replace (quad l k + (b - quad dl k)) with (l + (b - dl)) by (unfold quad; lia). replace (quad r k + (b - quad dl k)) with (r + (b - dl)) by (unfold quad; lia).
    replace (0 / 1)%R with 0%R by lra. lra.
  - rewrite vstore_in by (unfold quad; lia). pose proof (YV dr k b ltac:(lia) ltac:(lia)) as YB. set (Y := Nat.iter (Z.to_nat k) _ y0) in *. unfold trixpan_right, vadd, vmul, vmax, vmin, vload, set1.
    rewrite !vstore_out by (unfold quad; lia).
    rewrite YB. rewrite smaxR, sminR. unfold lit, pan_r. cbn [ar_sub ar_mul ar_add ar_lit arithR].
    repeat addr2 Ag. replace (quad l k + (b - quad dr k)) with (l + (b - dr)) by (unfold quad; lia). replace (quad r k + (b - quad dr k)) with (r + (b - dr)) by (unfold quad; lia).
    replace (0 / 1)%R with 0%R by lra. lra.
  - intros Hb3. rewrite !vstore_out by (unfold quad; lia). reflexivity.
Qed.
Print Assumptions C42_trixpan_blocks.
(* the mixing: sum preserved at every position; centre is the identity; hard right/left moves one channel into the other *)
Theorem C42_pan_law : forall p l r,
  (pan_l p l r + pan_r p l r = l + r)%R
  /\ (pan_l 0 l r = l /\ pan_r 0 l r = r)%R
  /\ (pan_l 1 l r = 0 /\ pan_r 1 l r = l + r)%R
  /\ (pan_l (-1) l r = l + r /\ pan_r (-1) l r = 0)%R
  /\ trixpan arithR l r p = (pan_l p l r, pan_r p l r).
Proof.
  intros p l r. unfold pan_l, pan_r. split; [lra|].
  split; [rewrite Rmax_left, Rmin_left by lra; lra|]. split; [rewrite Rmax_right, Rmin_left by lra; lra|].
  split; [rewrite Rmax_left, Rmin_right by lra; lra|].
  unfold trixpan, lit. cbn [ar_lt ar_sub ar_mul ar_add ar_lit arithR]. replace (0 / 1)%R with 0%R by lra.
  destruct (Rlt_dec p 0).
  - rewrite Rmax_left, Rmin_right by lra. f_equal; lra.
  - rewrite Rmax_right, Rmin_left by lra. f_equal; lra.
Qed.
Print Assumptions C42_pan_law.
Example C42_instance : four_apart 0 32 64 96 8 /\ (pan_l (1/2) 4 6 = 2 /\ pan_r (1/2) 4 6 = 8)%R.
Proof. split; [unfold four_apart, apart; lia|]. unfold pan_l, pan_r. rewrite Rmax_right, Rmin_left by lra. lra. Qed.
