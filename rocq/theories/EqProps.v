(* EqProps.v - C219-C222: the three-band equaliser. *)
From Coq Require Import Reals Lra Psatz Lia.
From Verif Require Import Base Util BlockModel RampProps LagModel BiquadModel ChorusModel ChorusProps EqModel.
Local Open Scope R_scope.

(** ** specification *)
(* a second-order section with coefficients k and memory r *)
Definition section (k : coef5) (r : R * R) (x : R) : (R * R) * R :=
  let y := k_b0 k * x + fst r in ((k_b1 k * x - k_a1 k * y + snd r, k_b2 k * x - k_a2 k * y), y).
Fixpoint sections (k : coef5) (r : R * R) (xs : list R) : (R * R) * list R :=
  match xs with [] => (r, []) | x :: l => let (r1, y) := section k r x in let (r2, ys) := sections k r1 l in (r2, y :: ys) end.
(* at the end of a block, memory below 10^-30 is dropped *)
Definition tiny (x : R) : R := if Rlt_dec (Rabs x) (1 / 10 ^ 30) then 0 else x.
Definition band_block (k : coef5) (r : R * R) (xs : list R) : (R * R) * list R := let (r1, ys) := sections k r xs in ((tiny (fst r1), tiny (snd r1)), ys).
(* a signal in blocks through a band that starts empty *)
Fixpoint memory (k : coef5) (x : nat -> list R) (j : nat) : R * R := match j with O => (0, 0) | Datatypes.S i => fst (band_block k (memory k x i) (x i)) end.
Definition band (k : coef5) (x : nat -> list R) (j : nat) : list R := snd (band_block k (memory k x j) (x j)).
Definition bands (k1 k2 k3 : coef5) (x : nat -> list R) : nat -> list R := band k3 (band k2 (band k1 x)).
(* a design divided by its a0 *)
Definition normal (c : coef6) : coef5 := mk_c5 (c_a1 c / c_a0 c) (c_a2 c / c_a0 c) (c_b0 c / c_a0 c) (c_b1 c / c_a0 c) (c_b2 c / c_a0 c).
(* the smoothed level before block j, G j being the level asked for in block j *)
Fixpoint level (G : nat -> R) (j : nat) : R := match j with O => 1 | Datatypes.S i => 1 / 4 * G i + 3 / 4 * level G i end.
(* the level at sample i of block j *)
Definition level_at (G : nat -> R) (j i : nat) : R := level G j + (INR (i mod 8) + 1) / 32 * (level G (Datatypes.S j) - level G j).
Definition blocks (P : nat -> eqpar) (In : nat -> list (R * R)) (n : nat) : list (eqpar * list (R * R)) := map (fun j => (P j, In j)) (seq 0 n).
Definition lefts (In : nat -> list (R * R)) (j : nat) : list R := map fst (In j).
Definition rights (In : nat -> list (R * R)) (j : nat) : list R := map snd (In j).
Fixpoint scaled (g : nat -> R) (i : nat) (l r : list R) : list (R * R) := match l, r with a :: l', b :: r' => (a * g i, b * g i) :: scaled g (Datatypes.S i) l' r' | _, _ => [] end.

(** ** one band *)
Definition still (x : R) : vlag := {| vl_v := x; vl_target := x |}.
Definition fixed (k : coef5) (l r : R * R) : biquad := mk_bq (still (k_a1 k)) (still (k_a2 k)) (still (k_b0 k)) (still (k_b1 k)) (still (k_b2 k)) (fst l) (snd l) (fst r) (snd r) false.
Lemma tune_new c : set_coef c bq_new = fixed (normal c) (0, 0) (0, 0).
Proof. unfold set_coef, bq_new, fixed, normal, still, vlag_start_value, vlag_new_value. cbn. unfold Rdiv. rewrite Rmult_1_l. reflexivity. Qed.
Lemma tune_same c l r : set_coef c (fixed (normal c) l r) = fixed (normal c) l r.
Proof. unfold set_coef, fixed, normal, still, vlag_new_value. cbn. unfold Rdiv. rewrite Rmult_1_l. reflexivity. Qed.
Lemma still_process x : vlag_process (still x) = still x.
Proof. unfold vlag_process, still. cbn [vl_v vl_target]. f_equal. unfold VLAG_LPINV, VLAG_LP. lra. Qed.
Lemma fixed_process k l r : coeff_process (fixed k l r) = fixed k l r.
Proof. unfold coeff_process, fixed. cbn [q_a1 q_a2 q_b0 q_b1 q_b2 q_r0l q_r1l q_r0r q_r1r q_first]. rewrite !still_process. reflexivity. Qed.
Lemma loop_fixed k : forall xs l r, stereo_loop (fixed k l r) xs = (fixed k (fst (sections k l (map fst xs))) (fst (sections k r (map snd xs))), combine (snd (sections k l (map fst xs))) (snd (sections k r (map snd xs)))).
Proof.
  induction xs as [|(x, y) xs IH]; intros l r; [reflexivity|]. cbn [stereo_loop map fst snd sections]. rewrite fixed_process.
  unfold step_left, chan_step. cbn [fixed coefs q_a1 q_a2 q_b0 q_b1 q_b2 q_r0l q_r1l q_r0r q_r1r still vl_v k_a1 k_a2 k_b0 k_b1 k_b2]. unfold set_left, step_right, chan_step. cbn [fixed coefs q_a1 q_a2 q_b0 q_b1 q_b2 q_r0l q_r1l q_r0r q_r1r q_first still vl_v k_a1 k_a2 k_b0 k_b1 k_b2]. unfold set_right. cbn [fixed coefs q_a1 q_a2 q_b0 q_b1 q_b2 q_r0l q_r1l q_r0r q_r1r q_first still vl_v k_a1 k_a2 k_b0 k_b1 k_b2].
  unfold section. cbv zeta. cbn [fst snd].
  replace (x * k_b0 k + fst l) with (k_b0 k * x + fst l) by ring. replace (y * k_b0 k + fst r) with (k_b0 k * y + fst r) by ring.
  replace (x * k_b1 k) with (k_b1 k * x) by ring. replace (y * k_b1 k) with (k_b1 k * y) by ring. replace (x * k_b2 k) with (k_b2 k * x) by ring. replace (y * k_b2 k) with (k_b2 k * y) by ring.
  set (l1 := (k_b1 k * x - k_a1 k * (k_b0 k * x + fst l) + snd l, k_b2 k * x - k_a2 k * (k_b0 k * x + fst l))). set (r1 := (k_b1 k * y - k_a1 k * (k_b0 k * y + fst r) + snd r, k_b2 k * y - k_a2 k * (k_b0 k * y + fst r))).
  match goal with |- context [stereo_loop ?s xs] => change s with (fixed k l1 r1) end. rewrite IH. destruct (sections k l1 (map fst xs)) as [l2 yl]. destruct (sections k r1 (map snd xs)) as [r2 yr]. reflexivity.
Qed.
Lemma sections_len k : forall xs r, length (snd (sections k r xs)) = length xs.
Proof. induction xs as [|x xs IH]; intros r; [reflexivity|]. cbn [sections]. destruct (section k r x) as [r1 y]. specialize (IH r1). destruct (sections k r1 xs) as [r2 ys]. cbn [snd length] in *. now rewrite IH. Qed.
Lemma block_fixed k l r xs : process_block_stereo (fixed k l r) xs None = (fixed k (fst (band_block k l (map fst xs))) (fst (band_block k r (map snd xs))), combine (snd (band_block k l (map fst xs))) (snd (band_block k r (map snd xs))), None).
Proof.
  unfold process_block_stereo. rewrite loop_fixed. unfold band_block. destruct (sections k l (map fst xs)) as [l1 yl]. destruct (sections k r (map snd xs)) as [r1 yr]. reflexivity.
Qed.
Lemma split_combine {A B} : forall (l : list A) (r : list B), length l = length r -> map fst (combine l r) = l /\ map snd (combine l r) = r.
Proof. induction l as [|a l IH]; intros [|b r] E; try discriminate E; [split; reflexivity|]. cbn [combine map fst snd]. destruct (IH r) as [-> ->]; [now injection E|split; reflexivity]. Qed.
Lemma band_len k r xs : length (snd (band_block k r xs)) = length xs.
Proof. unfold band_block. pose proof (sections_len k xs r). destruct (sections k r xs). exact H. Qed.
(** ** the gain *)
Definition gain_state (t : R) (g : lipolps R) : Prop := ps_target g = t /\ ps_coef g = 1 / 4 /\ ps_coef_m1 g = 3 / 4 /\ ps_bs4_inv g = 4 / 32.
Lemma gain_step t g x : gain_state t g -> gain_state (1 / 4 * x + 3 / 4 * t) (ps_set_target_smoothed arithR g x) /\ forall i, gain8 arithR (ps_set_target_smoothed arithR g x) (Z.of_nat i) = t + (INR (i mod 8) + 1) / 32 * (1 / 4 * x + 3 / 4 * t - t).
Proof.
  intros (A & B & C & D). split.
  - unfold gain_state, ps_set_target_smoothed. cbn [ps_target ps_coef ps_coef_m1 ps_bs4_inv ar_add ar_mul arithR]. rewrite A, B, C. auto.
  - intros i. rewrite (gain8_exact _ 32) by (lra || lia || exact D). unfold ramp, ps_set_target_smoothed. cbn [ps_target ps_current ar_add ar_mul arithR]. rewrite A, B, C. rewrite (INR_IZR_INZ (i mod 8)), Nat2Z.inj_mod. reflexivity.
Qed.
Lemma gain_init g : gain_state (ps_target g) g -> gain_state 1 (ps_instantize (ps_set_target g 1)).
Proof. intros (_ & B & C & D). unfold gain_state, ps_instantize, ps_set_target. cbn. auto. Qed.
Lemma gain_new : gain_state 0 (ps_new_with_blocksize arithR 32).
Proof. unfold gain_state, ps_new_with_blocksize, ps_set_blocksize, ps_default. cbn. unfold lit. cbn. repeat split; lra. Qed.
Lemma scale_scaled g : forall l r, length l = length r -> zip (eq_scale g) (combine l r) (combine l r) = scaled (fun i => gain8 arithR g (Z.of_nat i)) 0 l r.
Proof.
  intros l r. unfold zip. assert (K : forall l r i, length l = length r -> map (fun '(k, (x, y)) => eq_scale g (Z.of_nat k) x y) (combine (seq i (length (combine l r))) (combine (combine l r) (combine l r))) = scaled (fun i => gain8 arithR g (Z.of_nat i)) i l r).
  { clear l r. induction l as [|a l IH]; intros [|b r] i E; try discriminate E; [reflexivity|]. cbn [combine length seq map scaled]. rewrite IH by (now injection E). unfold eq_scale at 1. cbv zeta. cbn [fst snd]. reflexivity. }
  apply K.
Qed.
Lemma scaled_ext g h : (forall i, g i = h i) -> forall l r i, scaled g i l r = scaled h i l r.
Proof. intros E. induction l as [|a l IH]; intros [|b r] i; try reflexivity. cbn [scaled]. now rewrite E, IH. Qed.

Section Run.
Context (om dbl pow2 sh : R -> R).
Notation design b := (design_peak_eq dbl pow2 sh (om (b_freq b * (1 / 12))) (b_bw b) (b_gain b)).
Definition k_of (b : eqband) : coef5 := normal (design b).
Definition level_of (P : nat -> eqpar) (j : nat) : R := dbl (ep_gain (P j)).
(* the state before block j *)
Definition at_block (p : eqpar) (P : nat -> eqpar) (In : nat -> list (R * R)) (j : nat) (s : eq3) : Prop :=
  gain_state (level (level_of P) j) (e_gain s) /\ e_bi s = (Z.of_nat j mod 8)%Z /\
  let at1 k x y q := (j = O /\ q = bq_new) \/ ((0 < j)%nat /\ q = fixed k (memory k x j) (memory k y j)) in
  let k1 := k_of (ep_1 p) in let k2 := k_of (ep_2 p) in let k3 := k_of (ep_3 p) in
  at1 k1 (lefts In) (rights In) (e_1 s) /\ at1 k2 (band k1 (lefts In)) (band k1 (rights In)) (e_2 s) /\ at1 k3 (band k2 (band k1 (lefts In))) (band k2 (band k1 (rights In))) (e_3 s).
Definition same_bands (p q : eqpar) : Prop := ep_1 p = ep_1 q /\ ep_2 p = ep_2 q /\ ep_3 p = ep_3 q.
Definition expected (p : eqpar) (P : nat -> eqpar) (In : nat -> list (R * R)) (j : nat) : list (R * R) :=
  let f := bands (k_of (ep_1 p)) (k_of (ep_2 p)) (k_of (ep_3 p)) in scaled (level_at (level_of P) j) 0 (f (lefts In) j) (f (rights In) j).
Lemma land7 z : (0 <= z)%Z -> Z.land z 7 = (z mod 8)%Z.
Proof. intros _. change 7%Z with (Z.ones 3). now rewrite Z.land_ones by lia. Qed.
Lemma band_step p P In j s : at_block p P In j s -> ((j mod 8 = 0)%nat -> same_bands (P j) p) ->
  exists s', eq_process om dbl pow2 sh (P j) s (In j) = (s', expected p P In j) /\ at_block p P In (Datatypes.S j) s'.
Proof.
  intros (G & B & A1 & A2 & A3) SB. unfold eq_process.
  assert (U : exists q : eq3, eq_maybe_update om dbl pow2 sh (P j) s = q /\ e_gain q = e_gain s /\ e_bi q = (Z.of_nat (Datatypes.S j) mod 8)%Z /\
    e_1 q = fixed (k_of (ep_1 p)) (memory (k_of (ep_1 p)) (lefts In) j) (memory (k_of (ep_1 p)) (rights In) j) /\
    e_2 q = fixed (k_of (ep_2 p)) (memory (k_of (ep_2 p)) (band (k_of (ep_1 p)) (lefts In)) j) (memory (k_of (ep_2 p)) (band (k_of (ep_1 p)) (rights In)) j) /\
    e_3 q = fixed (k_of (ep_3 p)) (memory (k_of (ep_3 p)) (band (k_of (ep_2 p)) (band (k_of (ep_1 p)) (lefts In))) j) (memory (k_of (ep_3 p)) (band (k_of (ep_2 p)) (band (k_of (ep_1 p)) (rights In))) j)).
  { eexists. split; [reflexivity|]. unfold eq_maybe_update. cbv zeta. cbn [e_gain e_1 e_2 e_3 e_bi].
    assert (BI : forall b, b = (Z.of_nat j mod 8)%Z -> Z.land (b + 1) 7 = (Z.of_nat (Datatypes.S j) mod 8)%Z).
    { intros b ->. pose proof (Z.mod_pos_bound (Z.of_nat j) 8 ltac:(lia)). rewrite land7 by lia. rewrite Nat2Z.inj_succ. rewrite Z.add_mod_idemp_l by lia. f_equal. }
    destruct (e_bi s =? 0)%Z eqn:E.
    - apply Z.eqb_eq in E. rewrite B in E. assert (J : (j mod 8 = 0)%nat) by (apply Nat2Z.inj; rewrite Nat2Z.inj_mod; exact E). destruct (SB J) as (S1 & S2 & S3).
      unfold eq_update_all, eq_tune. cbn [e_gain e_1 e_2 e_3 e_bi]. rewrite S1, S2, S3. split; [reflexivity|]. split; [apply BI; exact B|].
      assert (T : forall b k x y q, k = k_of b -> (j = O /\ q = bq_new) \/ ((0 < j)%nat /\ q = fixed k (memory k x j) (memory k y j)) -> set_coef (design b) q = fixed k (memory k x j) (memory k y j)).
      { intros b k x y q -> [(J0 & ->)|(_ & ->)]; [subst j; rewrite tune_new; reflexivity|apply tune_same]. }
      repeat split; apply T; auto.
    - apply Z.eqb_neq in E. split; [reflexivity|]. split; [apply BI; exact B|]. assert (J : (0 < j)%nat) by (destruct j; [rewrite B in E; cbn in E; congruence|lia]).
      destruct A1 as [(J0 & _)|(_ & ->)]; [lia|]. destruct A2 as [(J0 & _)|(_ & ->)]; [lia|]. destruct A3 as [(J0 & _)|(_ & ->)]; [lia|]. auto. }
  destruct U as (q & -> & Gq & Bq & Q1 & Q2 & Q3). unfold eq_bands. rewrite Q1, Q2, Q3, Gq, Bq. clear Q1 Q2 Q3 A1 A2 A3.
  set (k1 := k_of (ep_1 p)). set (k2 := k_of (ep_2 p)). set (k3 := k_of (ep_3 p)). rewrite block_fixed.
  assert (L1 : length (snd (band_block k1 (memory k1 (lefts In) j) (lefts In j))) = length (snd (band_block k1 (memory k1 (rights In) j) (rights In j)))) by (rewrite !band_len; unfold lefts, rights; now rewrite !map_length).
  fold (lefts In j) (rights In j). rewrite block_fixed. destruct (split_combine _ _ L1) as [E1 E2]. rewrite E1, E2. fold (band k1 (lefts In) j) (band k1 (rights In) j).
  assert (L2 : length (snd (band_block k2 (memory k2 (band k1 (lefts In)) j) (band k1 (lefts In) j))) = length (snd (band_block k2 (memory k2 (band k1 (rights In)) j) (band k1 (rights In) j)))) by (rewrite !band_len; exact L1).
  rewrite block_fixed. destruct (split_combine _ _ L2) as [E3 E4]. rewrite E3, E4. fold (band k2 (band k1 (lefts In)) j) (band k2 (band k1 (rights In)) j).
  cbn [e_gain e_1 e_2 e_3 e_bi]. destruct (gain_step _ _ (dbl (ep_gain (P j))) G) as (G1 & G2).
  eexists. split; [f_equal|].
  - rewrite scale_scaled by (rewrite !band_len; exact L2). unfold expected. cbv zeta. fold k1 k2 k3. unfold bands. unfold band at 1 3. apply scaled_ext. intros i. rewrite G2. unfold level_at. cbn [level]. reflexivity.
  - split; [exact G1|]. split; [reflexivity|]. cbv zeta. fold k1 k2 k3. cbn [e_1 e_2 e_3]. repeat split; right; (split; [lia|reflexivity]).
Qed.
Lemma run_bands p P In : (forall j, (j mod 8 = 0)%nat -> same_bands (P j) p) -> forall n j s, at_block p P In j s ->
  exists s', eq_run om dbl pow2 sh (map (fun j => (P j, In j)) (seq j n)) s = (s', map (expected p P In) (seq j n)) /\ at_block p P In (j + n) s'.
Proof.
  intros SB. induction n as [|n IH]; intros j s A; [exists s; rewrite Nat.add_0_r; auto|]. destruct (band_step p P In j s A (SB j)) as (s1 & E1 & A1). destruct (IH (Datatypes.S j) s1 A1) as (s2 & E2 & A2).
  exists s2. cbn [seq map eq_run]. rewrite E1, E2. split; [reflexivity|]. replace (j + Datatypes.S n)%nat with (Datatypes.S j + n)%nat by lia. exact A2.
Qed.
(* any state the effect can be in keeps its gain's constants *)
Definition sane (s : eq3) : Prop := gain_state (ps_target (e_gain s)) (e_gain s).
Lemma sane_process p s xs : sane s -> sane (fst (eq_process om dbl pow2 sh p s xs)).
Proof.
  unfold sane, eq_process. intros H. destruct (eq_bands _ xs) as [s1 ys] eqn:E. cbn [fst e_gain]. assert (Eg : e_gain s1 = e_gain s).
  { unfold eq_bands in E. destruct (process_block_stereo (e_1 _) _ _) as [[q1 y1] o1]. destruct (process_block_stereo (e_2 _) _ _) as [[q2 y2] o2]. destruct (process_block_stereo (e_3 _) _ _) as [[q3 y3] o3]. assert (Es : s1 = mk_eq (e_gain (eq_maybe_update om dbl pow2 sh p s)) q1 q2 q3 (e_bi (eq_maybe_update om dbl pow2 sh p s))) by congruence. rewrite Es. cbn [e_gain].
    unfold eq_maybe_update. cbv zeta. cbn [e_gain]. destruct (e_bi s =? 0)%Z; reflexivity. }
  rewrite Eg. destruct (gain_step _ _ (dbl (ep_gain p)) H) as ((A & B) & _). split; [reflexivity|exact B].
Qed.
Lemma sane_run : forall h s, sane s -> sane (fst (eq_run om dbl pow2 sh h s)).
Proof.
  induction h as [|(p, xs) h IH]; intros s H; [exact H|]. cbn [eq_run]. pose proof (sane_process p s xs H) as H1. destruct (eq_process _ _ _ _ p s xs) as [s1 ys]. specialize (IH s1 H1). destruct (eq_run _ _ _ _ h s1) as [s2 yss]. exact IH.
Qed.
Lemma init_at p0 s p P In : sane s -> at_block p P In 0 (eq_init om dbl pow2 sh p0 s).
Proof. intros H. split; [apply gain_init; exact H|]. split; [reflexivity|]. cbv zeta. repeat split; left; auto. Qed.
Lemma new_sane : sane eq_new.
Proof. unfold sane, eq_new. cbn [e_gain]. destruct gain_new as (A & B). split; [reflexivity|exact B]. Qed.

Lemma band_head k f x xs : f 0%nat = x :: xs -> exists ys, band k f 0 = k_b0 k * x :: ys.
Proof. intros E. unfold band, memory, band_block. rewrite E. cbn [sections]. unfold section. cbv zeta. cbn [fst snd]. destruct (sections k _ xs) as [r ys]. exists ys. cbn [snd fst]. now rewrite Rplus_0_r. Qed.

(** ** C220 *)
(* After any history and then init (or suspend), with the band parameters the same at every eighth block: each block is the three bands in
   series with exactly the coefficients designed for those parameters, from the first sample on, times the smoothed level. *)
Theorem C220_response : forall h0 p0 p P In n, (forall j, (j mod 8 = 0)%nat -> same_bands (P j) p) ->
  exists s, eq_run om dbl pow2 sh (blocks P In n) (eq_init om dbl pow2 sh p0 (fst (eq_run om dbl pow2 sh h0 eq_new))) = (s, map (expected p P In) (seq 0 n)).
Proof. intros h0 p0 p P In n SB. destruct (run_bands p P In SB n 0%nat _ (init_at p0 _ p P In (sane_run h0 eq_new new_sane))) as (s & E & _). exists s. exact E. Qed.
(* the comment "Set the bands to 0dB so the eq fades in initially" (update.rs:60) does not come true *)
Theorem C220_no_fade_in_refuted : forall h0 p0 p x y xs, exists s out,
  eq_process om dbl pow2 sh p (eq_init om dbl pow2 sh p0 (fst (eq_run om dbl pow2 sh h0 eq_new))) ((x, y) :: xs) = (s, out) /\
  nth 0 out (0, 0) = let b := k_b0 (k_of (ep_1 p)) * k_b0 (k_of (ep_2 p)) * k_b0 (k_of (ep_3 p)) in let g := 1 + 1 / 32 * (1 / 4 * (dbl (ep_gain p) - 1)) in (b * x * g, b * y * g).
Proof.
  intros h0 p0 p x y xs. destruct (band_step p (fun _ => p) (fun _ => (x, y) :: xs) 0 (eq_init om dbl pow2 sh p0 (fst (eq_run om dbl pow2 sh h0 eq_new)))) as (s & E & _); [apply init_at, sane_run, new_sane|repeat split|].
  exists s. eexists. split; [exact E|]. unfold expected, bands. cbv zeta. set (In := fun _ : nat => (x, y) :: xs).
  destruct (band_head (k_of (ep_1 p)) (lefts In) x (map fst xs) eq_refl) as (l1 & L1). destruct (band_head (k_of (ep_2 p)) _ _ _ L1) as (l2 & L2). destruct (band_head (k_of (ep_3 p)) _ _ _ L2) as (l3 & L3).
  destruct (band_head (k_of (ep_1 p)) (rights In) y (map snd xs) eq_refl) as (r1 & R1). destruct (band_head (k_of (ep_2 p)) _ _ _ R1) as (r2 & R2). destruct (band_head (k_of (ep_3 p)) _ _ _ R2) as (r3 & R3).
  rewrite L3, R3. cbn [scaled nth]. unfold level_at, level_of. cbn [level]. change (0 mod 8)%nat with 0%nat. change (INR 0) with 0. f_equal; field.
Qed.

(** ** C219 *)
Lemma flat_design b : dbl 0 = 1 -> b_gain b = 0 -> k_of b = mk_c5 0 0 1 0 0.
Proof.
  intros D G. unfold k_of, design_peak_eq. cbv zeta. rewrite G, D. replace (1 - 1) with 0 by ring. rewrite Rabs_R0. destruct (Rlt_dec (1 / 100000) 0); [lra|]. unfold normal. cbn [c_a0 c_a1 c_a2 c_b0 c_b1 c_b2]. f_equal; field.
Qed.
Lemma tiny0 : tiny 0 = 0. Proof. unfold tiny. destruct (Rlt_dec _ _); reflexivity. Qed.
Lemma flat_sections : forall xs, sections (mk_c5 0 0 1 0 0) (0, 0) xs = ((0, 0), xs).
Proof.
  induction xs as [|x xs IH]; [reflexivity|]. cbn [sections]. unfold section. cbv zeta. cbn [k_a1 k_a2 k_b0 k_b1 k_b2 fst snd]. replace (1 * x + 0) with x by ring. replace (0 * x - 0 * x + 0, 0 * x - 0 * x) with ((0, 0) : R * R) by (f_equal; ring). now rewrite IH.
Qed.
Lemma flat_memory x : forall j, memory (mk_c5 0 0 1 0 0) x j = (0, 0).
Proof. induction j as [|j IH]; [reflexivity|]. cbn [memory]. rewrite IH. unfold band_block. rewrite flat_sections. cbn [fst snd]. now rewrite tiny0. Qed.
Lemma flat_band x j : band (mk_c5 0 0 1 0 0) x j = x j.
Proof. unfold band. rewrite flat_memory. unfold band_block. now rewrite flat_sections. Qed.
Lemma band_ext k x y : (forall j, x j = y j) -> forall j, band k x j = band k y j.
Proof. intros E. assert (M : forall j, memory k x j = memory k y j) by (induction j as [|j IH]; [reflexivity|cbn [memory]; now rewrite IH, E]). intros j. unfold band. now rewrite M, E. Qed.
Definition flat (p : eqpar) : Prop := b_gain (ep_1 p) = 0 /\ b_gain (ep_2 p) = 0 /\ b_gain (ep_3 p) = 0.
(* bands at 0 dB, whatever their frequencies and widths at any time: only the level is applied *)
Lemma flat_expected p P In j : dbl 0 = 1 -> flat p -> expected p P In j = scaled (level_at (level_of P) j) 0 (lefts In j) (rights In j).
Proof.
  intros D (F1 & F2 & F3). unfold expected. cbv zeta. rewrite !flat_design by assumption. unfold bands. f_equal; rewrite flat_band; rewrite flat_band; apply flat_band.
Qed.
End Run.
Lemma scaled_one g : (forall i, g i = 1) -> forall xs i, scaled g i (map fst xs) (map snd xs) = xs.
Proof. intros E. induction xs as [|(a, b) xs IH]; intros i; [reflexivity|]. cbn [map fst snd scaled]. rewrite E, IH, !Rmult_1_r. reflexivity. Qed.
Lemma level_const G j : (forall i, G i = 1) -> level G j = 1.
Proof. intros E. induction j as [|j IH]; [reflexivity|]. cbn [level]. rewrite IH, E. lra. Qed.
Lemma level_geo c j : level (fun _ => c) j = c + (1 - c) * (3 / 4) ^ j.
Proof. induction j as [|j IH]; [cbn; ring|]. cbn [level pow]. rewrite IH. field. Qed.
Definition all_flat (P : nat -> eqpar) : Prop := forall j, flat (P j).
(* flat bands stay flat though their frequencies and widths change *)
Lemma fixed_flat_run om dbl pow2 sh P In : dbl 0 = 1 -> all_flat P -> forall n j s, at_block om dbl pow2 sh (P 0%nat) P In j s ->
  exists s', eq_run om dbl pow2 sh (map (fun j => (P j, In j)) (seq j n)) s = (s', map (fun j => scaled (level_at (level_of dbl P) j) 0 (lefts In j) (rights In j)) (seq j n)).
Proof.
  intros D F. induction n as [|n IH]; intros j s A; [exists s; reflexivity|].
  assert (A' : at_block om dbl pow2 sh (P j) P In j s).
  { destruct A as (G & B & A). split; [exact G|]. split; [exact B|]. cbv zeta in *. destruct (F 0%nat) as (F1 & F2 & F3). destruct (F j) as (H1 & H2 & H3). rewrite !flat_design in * by assumption. exact A. }
  destruct (band_step om dbl pow2 sh (P j) P In j s A') as (s1 & E1 & A1); [repeat split|]. rewrite (flat_expected om dbl pow2 sh (P j) P In j D (F j)) in E1.
  assert (A2 : at_block om dbl pow2 sh (P 0%nat) P In (Datatypes.S j) s1).
  { destruct A1 as (G & B & A1). split; [exact G|]. split; [exact B|]. cbv zeta in *. destruct (F 0%nat) as (F1 & F2 & F3). destruct (F j) as (H1 & H2 & H3). rewrite !flat_design in * by assumption. exact A1. }
  destruct (IH (Datatypes.S j) s1 A2) as (s2 & E2). exists s2. cbn [seq map eq_run]. rewrite E1, E2. reflexivity.
Qed.
(* With every band at 0 dB - their frequencies, widths and the return level free in every block - each sample is the input times the level. *)
Theorem C219_flat_is_gain : forall om dbl pow2 sh h0 p0 P In n, dbl 0 = 1 -> all_flat P ->
  exists s, eq_run om dbl pow2 sh (blocks P In n) (eq_init om dbl pow2 sh p0 (fst (eq_run om dbl pow2 sh h0 eq_new))) = (s, map (fun j => scaled (level_at (level_of dbl P) j) 0 (lefts In j) (rights In j)) (seq 0 n)).
Proof. intros om dbl pow2 sh h0 p0 P In n D F. apply (fixed_flat_run om dbl pow2 sh P In D F n 0%nat). apply init_at, sane_run, new_sane. Qed.
(* and at 0 dB overall it is a straight wire, sample for sample *)
Theorem C219_straight_wire : forall om dbl pow2 sh h0 p0 P In n, dbl 0 = 1 -> all_flat P -> (forall j, ep_gain (P j) = 0) ->
  exists s, eq_run om dbl pow2 sh (blocks P In n) (eq_init om dbl pow2 sh p0 (fst (eq_run om dbl pow2 sh h0 eq_new))) = (s, map In (seq 0 n)).
Proof.
  intros om dbl pow2 sh h0 p0 P In n D F G. destruct (C219_flat_is_gain om dbl pow2 sh h0 p0 P In n D F) as (s & E). exists s. rewrite E. f_equal. apply map_ext. intros j. apply scaled_one. intros i. unfold level_at.
  assert (L : forall j, level_of dbl P j = 1) by (intros i'; unfold level_of; now rewrite G). rewrite !level_const by exact L. ring.
Qed.
(* a constant Gain is approached by a quarter per block *)
Theorem C219_gain_approach : forall om dbl pow2 sh h0 p0 P In n g, dbl 0 = 1 -> all_flat P -> (forall j, dbl (ep_gain (P j)) = g) -> let t j := g + (1 - g) * (3 / 4) ^ j in
  exists s, eq_run om dbl pow2 sh (blocks P In n) (eq_init om dbl pow2 sh p0 (fst (eq_run om dbl pow2 sh h0 eq_new))) =
    (s, map (fun j => scaled (fun i => t j + (INR (i mod 8) + 1) / 32 * (t (Datatypes.S j) - t j)) 0 (lefts In j) (rights In j)) (seq 0 n)).
Proof.
  intros om dbl pow2 sh h0 p0 P In n g D F G t. destruct (C219_flat_is_gain om dbl pow2 sh h0 p0 P In n D F) as (s & E). exists s. rewrite E. f_equal. apply map_ext. intros j. apply scaled_ext. intros i. unfold level_at.
  assert (L : forall j, level (level_of dbl P) j = t j) by (intros k; unfold t; rewrite <- level_geo; induction k as [|k IH]; [reflexivity|cbn [level]; rewrite IH; unfold level_of; now rewrite G]). now rewrite !L.
Qed.

(** ** C221 the band parameters are read at every eighth block only *)
Fixpoint agree_at (j : nat) (h h' : list (eqpar * list (R * R))) : Prop :=
  match h, h' with
  | [], [] => True
  | (p, xs) :: r, (p', xs') :: r' => xs = xs' /\ ep_gain p = ep_gain p' /\ ((j mod 8 = 0)%nat -> same_bands p p') /\ agree_at (Datatypes.S j) r r'
  | _, _ => False
  end.
Lemma agree_run om dbl pow2 sh : forall h h' j s, agree_at j h h' -> e_bi s = (Z.of_nat j mod 8)%Z -> eq_run om dbl pow2 sh h s = eq_run om dbl pow2 sh h' s.
Proof.
  induction h as [|(p, xs) h IH]; intros [|(p', xs') h'] j s A B; cbn [agree_at] in A; try contradiction; [reflexivity|]. destruct A as (<- & Gp & SB & A).
  assert (U : eq_maybe_update om dbl pow2 sh p s = eq_maybe_update om dbl pow2 sh p' s).
  { unfold eq_maybe_update. destruct (e_bi s =? 0)%Z eqn:E; [|reflexivity]. apply Z.eqb_eq in E. rewrite B in E. assert (J : (j mod 8 = 0)%nat) by (apply Nat2Z.inj; rewrite Nat2Z.inj_mod; exact E). destruct (SB J) as (S1 & S2 & S3). unfold eq_update_all. now rewrite S1, S2, S3. }
  assert (E : eq_process om dbl pow2 sh p s xs = eq_process om dbl pow2 sh p' s xs) by (unfold eq_process; now rewrite U, Gp).
  assert (B1 : e_bi (fst (eq_process om dbl pow2 sh p' s xs)) = (Z.of_nat (Datatypes.S j) mod 8)%Z).
  { unfold eq_process, eq_bands. destruct (process_block_stereo (e_1 _) _ _) as [[q1 y1] o1]. destruct (process_block_stereo (e_2 _) _ _) as [[q2 y2] o2]. destruct (process_block_stereo (e_3 _) _ _) as [[q3 y3] o3]. cbn [fst e_bi].
    unfold eq_maybe_update. cbv zeta. cbn [e_bi]. assert (Eb : e_bi (if (e_bi s =? 0)%Z then eq_update_all om dbl pow2 sh None p' s else s) = e_bi s) by (destruct (e_bi s =? 0)%Z; reflexivity). rewrite Eb, B.
    pose proof (Z.mod_pos_bound (Z.of_nat j) 8 ltac:(lia)). rewrite land7 by lia. rewrite Nat2Z.inj_succ, Z.add_mod_idemp_l by lia. f_equal. }
  cbn [eq_run]. rewrite E. destruct (eq_process om dbl pow2 sh p' s xs) as [s1 ys]. cbn [fst] in B1. rewrite (IH h' (Datatypes.S j) s1 A B1). reflexivity.
Qed.
Theorem C221_every_eighth_block : forall om dbl pow2 sh p0 s h h', agree_at 0 h h' ->
  eq_run om dbl pow2 sh h (eq_init om dbl pow2 sh p0 s) = eq_run om dbl pow2 sh h' (eq_init om dbl pow2 sh p0 s).
Proof. intros. apply (agree_run om dbl pow2 sh h h' 0%nat); [assumption|reflexivity]. Qed.
(* the return level changes nothing *)
Theorem C221_return_level_refuted : forall om dbl pow2 sh s p r xs, eq_process om dbl pow2 sh (mk_ep (ep_1 p) (ep_2 p) (ep_3 p) (ep_gain p) r) s xs = eq_process om dbl pow2 sh p s xs.
Proof. reflexivity. Qed.

(** ** C222 suspend *)
Theorem C222_suspend_is_fresh : forall om dbl pow2 sh h p p', eq_suspend om dbl pow2 sh p (fst (eq_run om dbl pow2 sh h eq_new)) = eq_init om dbl pow2 sh p' eq_new.
Proof.
  intros om dbl pow2 sh h p p'. unfold eq_suspend, eq_init. cbv zeta. cbn [eq_update_all e_gain e_1 e_2 e_3 e_bi]. unfold bq_suspend. f_equal.
  pose proof (sane_run om dbl pow2 sh h eq_new new_sane) as (_ & A & B & C). destruct gain_new as (_ & A' & B' & C'). unfold ps_instantize, ps_set_target. cbn [ps_target ps_coef ps_coef_m1 ps_bs4_inv].
  cbn [eq_new e_gain]. rewrite A, B, C, A', B', C'. reflexivity.
Qed.
(* a new equaliser that was never initialised fades in from silence: its level starts at 0 *)
Theorem C222_uninitialised_starts_silent : ps_target (e_gain eq_new) = 0.
Proof. apply gain_new. Qed.

Example C219_ex : let b := mk_band 6 2 0 in let p := mk_ep b b b 0 (1 / 2) in all_flat (fun _ => p) /\ (forall j : nat, (j mod 8 = 0)%nat -> same_bands p p) /\
  agree_at 0 [(p, [(1, 1)]); (p, [])] [(p, [(1, 1)]); (mk_ep (mk_band 7 2 3) b b 0 1, [])].
Proof. cbv zeta. split; [intros j; repeat split|]. split; [intros; repeat split|]. cbn [agree_at ep_gain]. repeat split; intros; try reflexivity. cbn in H. discriminate. Qed.
Print Assumptions C219_flat_is_gain.
Print Assumptions C219_straight_wire.
Print Assumptions C219_gain_approach.
Print Assumptions C220_response.
Print Assumptions C220_no_fade_in_refuted.
Print Assumptions C221_every_eighth_block.
Print Assumptions C221_return_level_refuted.
Print Assumptions C222_suspend_is_fresh.
Print Assumptions C222_uninitialised_starts_silent.
