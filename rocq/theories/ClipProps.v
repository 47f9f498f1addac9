(* ClipProps.v - C53: clippers keep signals in their documented range. *)
From Coq Require Import Reals Lra.
From Flocq Require Import Core.Core IEEE754.BinarySingleNaN.
From Verif Require Import Base Util F32 F32Facts BlockModel BlockProofs BlockProps RampProps MathModel.
Local Open Scope Z_scope.

(** ** specification vocabulary *)
(* f limits to [lo,hi]: for EVERY binary32 input (NaN and infinities included) the result is a finite number in [lo,hi];
   for a finite input it is the nearest point of [lo,hi], so the input itself when it lies inside *)
Definition limits (f : f32 -> f32) (lo hi : R) : Prop :=
  (forall x, fin (f x) /\ (lo <= val (f x) <= hi)%R)
  /\ (forall x, fin x -> (val x < lo -> val (f x) = lo)%R /\ (lo <= val x <= hi -> val (f x) = val x)%R /\ (hi < val x -> val (f x) = hi)%R)
  /\ val (f (finf false)) = hi /\ val (f (finf true)) = lo.
(* over the reals: odd, nondecreasing, bounded by b *)
Definition odd_fn (f : R -> R) : Prop := forall x, f (- x)%R = (- f x)%R.
Definition nondecreasing (f : R -> R) : Prop := forall x y, (x <= y)%R -> (f x <= f y)%R.
Definition bounded_by (f : R -> R) (b : R) : Prop := forall x, (- b <= f x <= b)%R.

(** ** lemmas *)
Lemma flit_ok n d : Z.abs n <= 16777216 -> 0 < d <= 16777216 -> fin (flit n d) /\ val (flit n d) = rnd (IZR n / IZR d).
Proof.
  intros Hn Hd. destruct (fofZ_ok n Hn) as [A B]. destruct (fofZ_ok d ltac:(lia)) as [C D]. assert (P : (1 <= IZR d)%R) by (apply IZR_le; lia).
  destruct (fdiv_ok (fofZ n) (fofZ d) A C) as [E F]; [rewrite D; lra| |].
  - rewrite B, D. apply Rle_trans with (Rabs (IZR n)); [|apply big_Z; lia]. unfold Rdiv. rewrite Rabs_mult, (Rabs_right (/ IZR d)).
    + pose proof (Rabs_pos (IZR n)). assert (0 < / IZR d <= 1)%R by (split; [apply Rinv_0_lt_compat; lra|rewrite <- Rinv_1; apply Rinv_le_contravar; lra]). nra.
    + apply Rle_ge, Rlt_le, Rinv_0_lt_compat. lra.
  - split; [exact E|]. unfold flit. rewrite F, B, D. reflexivity.
Qed.
Lemma flit_int n : Z.abs n <= 16777216 -> fin (flit n 1) /\ val (flit n 1) = IZR n.
Proof. intros H. destruct (flit_ok n 1 H ltac:(lia)) as [A B]. split; [exact A|]. rewrite B. unfold Rdiv. rewrite Rinv_1, Rmult_1_r. now apply rnd_Z. Qed.
Lemma flit_half n : Z.abs n <= 16777216 -> fin (flit n 2) /\ val (flit n 2) = (IZR n / 2)%R.
Proof.
  intros H. destruct (flit_ok n 2 H ltac:(lia)) as [A B]. split; [exact A|]. rewrite B. apply rnd_id.
  replace (IZR n / IZR 2)%R with (IZR n * bpow radix2 (-1))%R by (cbn; lra). apply fmt_pow; lia.
Qed.
(* MAXPS(MINPS(x,hi),lo), every x *)
Lemma smax_smin_limits lo hi : fin lo -> fin hi -> (val lo < val hi)%R ->
  limits (fun x => smax arith32 (smin arith32 x hi) lo) (val lo) (val hi) /\ smax arith32 (smin arith32 fnan hi) lo = hi.
Proof.
  intros Fl Fh H. assert (LH : fltb lo hi = true) by now apply fltb_spec.
  assert (N : smax arith32 (smin arith32 fnan hi) lo = hi).
  { unfold smax, smin. cbn [ar_lt arith32]. change (fltb fnan hi) with false. cbn [ar_lt]. rewrite LH. reflexivity. }
  assert (I1 : smax arith32 (smin arith32 (finf false) hi) lo = hi).
  { unfold smax, smin. cbn [ar_lt arith32]. rewrite fltb_inf_l by exact Fh. rewrite LH. reflexivity. }
  assert (I2 : smax arith32 (smin arith32 (finf true) hi) lo = lo).
  { unfold smax, smin. cbn [ar_lt arith32]. rewrite fltb_inf_l by exact Fh. rewrite fltb_inf_r by exact Fl. reflexivity. }
  assert (F : forall x, fin x -> fin (smax arith32 (smin arith32 x hi) lo) /\
     ((val x < val lo -> val (smax arith32 (smin arith32 x hi) lo) = val lo)%R /\ (val lo <= val x <= val hi -> val (smax arith32 (smin arith32 x hi) lo) = val x)%R
      /\ (val hi < val x -> val (smax arith32 (smin arith32 x hi) lo) = val hi)%R)).
  { intros x Fx. unfold smin. cbn [ar_lt arith32]. destruct (fltb_cases x hi Fx Fh) as [[-> C]|[-> C]].
    - unfold smax. cbn [ar_lt arith32]. destruct (fltb_cases lo x Fl Fx) as [[-> D]|[-> D]]; (split; [assumption|]); repeat split; intros; lra.
    - unfold smax. cbn [ar_lt arith32]. rewrite LH. split; [assumption|]. repeat split; intros; lra. }
  split; [|exact N]. split; [|split].
  - intros x. destruct (cases x) as [Fx|[-> | [s ->]]].
    + destruct (F x Fx) as (A & B & C & D). split; [exact A|].
      destruct (Rlt_dec (val x) (val lo)); [rewrite B by lra; lra|]. destruct (Rlt_dec (val hi) (val x)); [rewrite D by lra; lra|]. rewrite C by lra. lra.
    + rewrite N. split; [exact Fh|lra].
    + destruct s; [rewrite I2|rewrite I1]; (split; [assumption|lra]).
  - intros x Fx. apply F, Fx.
  - rewrite I1, I2. split; reflexivity.
Qed.
Lemma smin_smax_limits lo hi : fin lo -> fin hi -> (val lo < val hi)%R ->
  limits (fun x => limit_range_f32 arith32 x lo hi) (val lo) (val hi) /\ limit_range_f32 arith32 fnan lo hi = lo.
Proof.
  intros Fl Fh H. assert (LH : fltb lo hi = true) by now apply fltb_spec. unfold limit_range_f32.
  assert (N : smin arith32 (smax arith32 fnan lo) hi = lo).
  { unfold smax, smin. cbn [ar_lt arith32]. destruct (fltb lo fnan) eqn:E; [destruct lo; discriminate E|]. rewrite LH. reflexivity. }
  assert (I1 : smin arith32 (smax arith32 (finf false) lo) hi = hi).
  { unfold smax, smin. cbn [ar_lt arith32]. rewrite fltb_inf_r by exact Fl. cbn [negb]. rewrite fltb_inf_l by exact Fh. reflexivity. }
  assert (I2 : smin arith32 (smax arith32 (finf true) lo) hi = lo).
  { unfold smax, smin. cbn [ar_lt arith32]. rewrite fltb_inf_r by exact Fl. cbn [negb]. rewrite LH. reflexivity. }
  assert (F : forall x, fin x -> fin (smin arith32 (smax arith32 x lo) hi) /\
     ((val x < val lo -> val (smin arith32 (smax arith32 x lo) hi) = val lo)%R /\ (val lo <= val x <= val hi -> val (smin arith32 (smax arith32 x lo) hi) = val x)%R
      /\ (val hi < val x -> val (smin arith32 (smax arith32 x lo) hi) = val hi)%R)).
  { intros x Fx. unfold smax. cbn [ar_lt arith32]. destruct (fltb_cases lo x Fl Fx) as [[-> C]|[-> C]].
    - unfold smin. cbn [ar_lt arith32]. destruct (fltb_cases x hi Fx Fh) as [[-> D]|[-> D]]; (split; [assumption|]); repeat split; intros; lra.
    - unfold smin. cbn [ar_lt arith32]. rewrite LH. split; [assumption|]. repeat split; intros; lra. }
  split; [|exact N]. split; [|split].
  - intros x. destruct (cases x) as [Fx|[-> | [s ->]]].
    + destruct (F x Fx) as (A & B & C & D). split; [exact A|].
      destruct (Rlt_dec (val x) (val lo)); [rewrite B by lra; lra|]. destruct (Rlt_dec (val hi) (val x)); [rewrite D by lra; lra|]. rewrite C by lra. lra.
    + rewrite N. split; [exact Fl|lra].
    + destruct s; [rewrite I2|rewrite I1]; (split; [assumption|lra]).
  - intros x Fx. apply F, Fx.
  - rewrite I1, I2. split; reflexivity.
Qed.

(** ** C53 hard clipping, binary32, every input *)
Theorem C53_hardclip : limits (hardclip arith32) (-1) 1 /\ limits (saturate arith32) (-1) 1
  /\ val (hardclip arith32 fnan) = 1%R /\ val (saturate arith32 fnan) = 1%R.
Proof.
  destruct (flit_int 1 ltac:(lia)) as [A B]. destruct (flit_int (-1) ltac:(lia)) as [C D].
  destruct (smax_smin_limits (flit (-1) 1) (flit 1 1) C A) as [L N]; [rewrite B, D; lra|]. rewrite B, D in L.
  split; [exact L|]. split; [exact L|]. unfold hardclip, saturate, lit. cbn [ar_lit arith32]. rewrite N, B. split; reflexivity.
Qed.
Print Assumptions C53_hardclip.
Theorem C53_limit_range : forall lo hi, fin lo -> fin hi -> (val lo < val hi)%R ->
  limits (fun x => limit_range_f32 arith32 x lo hi) (val lo) (val hi) /\ limit_range_f32 arith32 fnan lo hi = lo.
Proof. exact smin_smax_limits. Qed.
Print Assumptions C53_limit_range.
Theorem C53_clamps : limits (clamp01 arith32) 0 1 /\ limits (clamp1_bipolar arith32) (-1) 1
  /\ val (clamp01 arith32 fnan) = 0%R /\ val (clamp1_bipolar arith32 fnan) = (-1)%R.
Proof.
  destruct (flit_int 1 ltac:(lia)) as [A B]. destruct (flit_int (-1) ltac:(lia)) as [C D]. destruct (flit_int 0 ltac:(lia)) as [G H].
  destruct (smin_smax_limits (flit (-1) 1) (flit 1 1) C A) as [L N]; [rewrite B, D; lra|]. rewrite B, D in L.
  destruct (smin_smax_limits (flit 0 1) (flit 1 1) G A) as [L2 N2]; [rewrite B, H; lra|]. rewrite B, H in L2.
  split; [exact L2|]. split; [exact L|]. unfold clamp01, clamp1_bipolar, lit. cbn [ar_lit arith32]. rewrite N, N2, H, D. split; reflexivity.
Qed.
Print Assumptions C53_clamps.
Theorem C53_limit_range_int : forall x lo hi, lo <= hi ->
  lo <= limit_range_i x lo hi <= hi /\ (lo <= x <= hi -> limit_range_i x lo hi = x) /\ (x < lo -> limit_range_i x lo hi = lo) /\ (hi < x -> limit_range_i x lo hi = hi).
Proof. intros. unfold limit_range_i. lia. Qed.
Print Assumptions C53_limit_range_int.
(* hardclip8_sd is asymmetric: every value in [-8,-7) comes out as -7 (stated in binary32; the code is f64) *)
Theorem C53_hardclip8_sd_refuted : limits (hardclip8_sd arith32) (-7) 8
  /\ (forall x, fin x -> (-8 <= val x < -7)%R -> val (hardclip8_sd arith32 x) = (-7)%R /\ val (hardclip8_sd arith32 x) <> val x).
Proof.
  destruct (flit_int 8 ltac:(lia)) as [A B]. destruct (flit_int (-7) ltac:(lia)) as [C D].
  destruct (smax_smin_limits (flit (-7) 1) (flit 8 1) C A) as [L _]; [rewrite B, D; lra|]. rewrite B, D in L. split; [exact L|].
  intros x F H. destruct L as (_ & L & _). destruct (L x F) as (E & _). cbn beta in E.
  assert (E' : val (hardclip8_sd arith32 x) = (-7)%R) by (apply E; lra). rewrite E'. split; [reflexivity|lra].
Qed.
Print Assumptions C53_hardclip8_sd_refuted.

(** ** C53 the block versions apply the scalar clipper to each sample and touch nothing else *)
Definition hardclip8 {T} (A : arith T) (x : T) : T := smax A (smin A x (lit A 8 1)) (lit A (-8) 1).
Lemma clip_block {T} (g : T -> T) (m : mem T) x n : 0 <= n ->
  writes x (4 * (2 * cdiv n 2)) (fun i => g (m (x + i))) m (unroll2c (fun m o => vstore m (x + o) (fun j => g (vload m (x + o) j))) n m).
Proof.
  intros Hn. apply writes_of_if. intros a. rewrite unroll2c_eq by exact Hn. pose proof (cdiv_nonneg n 2 ltac:(lia) Hn).
  apply (loop1 _ x _ (fun i => g (m (x + i)))); [lia|]. intros m1 k Hk Ag. split; intros b Hb.
  - rewrite vstore_in by lia. unfold vload. addr Ag. finish.
  - apply vstore_out. lia.
Qed.
Theorem C53_hardclip_blocks : forall T (A : arith T) (m : mem T) x n, 0 <= n -> n mod 2 = 0 ->
  writes x (4 * n) (fun i => hardclip A (m (x + i))) m (hardclip_block A m x n)
  /\ writes x (4 * n) (fun i => hardclip8 A (m (x + i))) m (hardclip_block8 A m x n).
Proof.
  intros T A m x n Hn Hm. split.
  - pose proof (clip_block (hardclip A) m x n Hn) as W. rewrite (cdiv_exact n 2) in W by lia. exact W.
  - pose proof (clip_block (hardclip8 A) m x n Hn) as W. rewrite (cdiv_exact n 2) in W by lia. exact W.
Qed.
Print Assumptions C53_hardclip_blocks.
Theorem C53_hardclip8_range : limits (hardclip8 arith32) (-8) 8.
Proof.
  destruct (flit_int 8 ltac:(lia)) as [A B]. destruct (flit_int (-8) ltac:(lia)) as [C D].
  destruct (smax_smin_limits (flit (-8) 1) (flit 8 1) C A) as [L _]; [rewrite B, D; lra|]. rewrite B, D in L. exact L.
Qed.
Print Assumptions C53_hardclip8_range.
(* an odd number of quads: the quad after the block is clipped too *)
Theorem C53_hardclip_block_overrun_refuted : forall T (A : arith T) (m : mem T) x n, 0 <= n -> n mod 2 = 1 ->
  writes x (4 * n + 4) (fun i => hardclip A (m (x + i))) m (hardclip_block A m x n).
Proof.
  intros T A m x n Hn Hm. pose proof (clip_block (hardclip A) m x n Hn) as W. replace (4 * (2 * cdiv n 2)) with (4 * n + 4) in W; [exact W|unfold cdiv; lia].
Qed.
Print Assumptions C53_hardclip_block_overrun_refuted.
(* two quads per iteration, both read before either is written *)
Lemma pair_block {T} (g : T -> T) (m : mem T) x n : 0 <= n ->
  writes x (4 * (2 * cdiv n 2)) (fun i => g (m (x + i))) m
   (fold_left (fun m i => vstore (vstore m (x + 4 * i) (fun j => g (vload m (x + 4 * i) j))) (x + 4 * (i + 1)) (fun j => g (vload m (x + 4 * (i + 1)) j))) (stepby n 2) m).
Proof.
  intros Hn. pose proof (clip_block g m x n Hn) as W.
  assert (P : forall l m1 m2, (forall a, m1 a = m2 a) -> forall a,
     fold_left (fun m i => vstore (vstore m (x + 4 * i) (fun j => g (vload m (x + 4 * i) j))) (x + 4 * (i + 1)) (fun j => g (vload m (x + 4 * (i + 1)) j))) l m1 a
     = fold_left (fun m i => (fun m o => vstore m (x + o) (fun j => g (vload m (x + o) j))) ((fun m o => vstore m (x + o) (fun j => g (vload m (x + o) j))) m i) (i + 4)) (map (fun i => 4 * i) l) m2 a).
  { induction l as [|i l IH]; intros m1 m2 E a; cbn [fold_left map]; [apply E|]. apply IH. clear a. intros a. unfold vload.
    destruct (in_quad_dec (x + 4 * (i + 1)) a) as [Q|Q].
    - rewrite (vstore_in _ (x + 4 * (i + 1))), (vstore_in _ (x + (4 * i + 4))) by lia. rewrite vstore_out by lia. rewrite E. f_equal. f_equal. lia.
    - rewrite (vstore_out _ (x + 4 * (i + 1))), (vstore_out _ (x + (4 * i + 4))) by lia.
      destruct (in_quad_dec (x + 4 * i) a) as [Q2|Q2]; [rewrite !vstore_in by lia; now rewrite E|rewrite !vstore_out by lia; apply E]. }
  assert (L : map (fun i => 4 * i) (stepby n 2) = stepby (4 * n) 8).
  { rewrite !stepby_zseq, map_map. replace (cdiv (4 * n) 8) with (cdiv n 2) by (symmetry; apply (cdiv_scale 4 n 2); lia). apply map_ext. intros; lia. }
  destruct W as [W1 W2]. split.
  - intros i Hi. rewrite (P (stepby n 2) m m (fun a => eq_refl) (x + i)), L. now apply W1.
  - intros a Ha. rewrite (P (stepby n 2) m m (fun a => eq_refl) a), L. now apply W2.
Qed.
Theorem C53_softclip_block : forall T (A : arith T) (m : mem T) x n, 0 <= n -> n mod 2 = 0 ->
  writes x (4 * n) (fun i => softclip A (m (x + i))) m (softclip_block A m x n).
Proof.
  intros T A m x n Hn Hm. pose proof (pair_block (softclip A) m x n Hn) as W. rewrite (cdiv_exact n 2) in W by lia. exact W.
Qed.
Print Assumptions C53_softclip_block.
Theorem C53_tanh7_block : forall T (A : arith T) (m : mem T) x n, 0 <= n -> n mod 4 = 0 ->
  writes x (4 * n) (fun i => tanh7_clipped A (m (x + i))) m (tanh7_block A m x n).
Proof.
  intros T A m x n Hn Hm. set (g := tanh7_clipped A).
  assert (B : writes x (4 * (4 * cdiv n 4)) (fun i => g (m (x + i))) m (unroll4 (fun m o => vstore m (quad x o) (fun j => g (vload m (quad x o) j))) n m)).
  { apply (bin_block (fun a _ => g a) m x x x n Hn); left; reflexivity. }
  rewrite (cdiv_exact n 4) in B by lia.
  assert (P : forall l m1 m2, (forall a, m1 a = m2 a) -> forall a,
     fold_left (fun m i => let t k := fun j => g (vload m (quad x (i + k)) j) in
        vstore (vstore (vstore (vstore m (quad x i) (t 0)) (quad x (i + 1)) (t 1)) (quad x (i + 2)) (t 2)) (quad x (i + 3)) (t 3)) l m1 a
     = fold_left (fun m i => (fun m o => vstore m (quad x o) (fun j => g (vload m (quad x o) j))) ((fun m o => vstore m (quad x o) (fun j => g (vload m (quad x o) j)))
        ((fun m o => vstore m (quad x o) (fun j => g (vload m (quad x o) j))) ((fun m o => vstore m (quad x o) (fun j => g (vload m (quad x o) j))) m i) (i + 1)) (i + 2)) (i + 3)) l m2 a).
  { induction l as [|i l IH]; intros m1 m2 E a; cbn [fold_left]; [apply E|]. apply IH. clear a. intros a. cbv zeta. unfold vload, quad.
    destruct (in_quad_dec (x + 4 * (i + 3)) a) as [Q|Q]; [rewrite !(vstore_in _ (x + 4 * (i + 3))) by lia; rewrite !vstore_out by lia; now rewrite E|rewrite !(vstore_out _ (x + 4 * (i + 3))) by lia].
    destruct (in_quad_dec (x + 4 * (i + 2)) a) as [Q2|Q2]; [rewrite !(vstore_in _ (x + 4 * (i + 2))) by lia; rewrite !vstore_out by lia; now rewrite E|rewrite !(vstore_out _ (x + 4 * (i + 2))) by lia].
    destruct (in_quad_dec (x + 4 * (i + 1)) a) as [Q3|Q3]; [rewrite !(vstore_in _ (x + 4 * (i + 1))) by lia; rewrite !vstore_out by lia; now rewrite E|rewrite !(vstore_out _ (x + 4 * (i + 1))) by lia].
    destruct (in_quad_dec (x + 4 * i) a) as [Q4|Q4]; [rewrite !(vstore_in _ (x + 4 * i)) by lia; rewrite Z.add_0_r; now rewrite E|rewrite !(vstore_out _ (x + 4 * i)) by lia; apply E]. }
  destruct B as [B1 B2]. split.
  - intros i Hi. etransitivity; [apply (P (stepby n 4) m m (fun a => eq_refl) (x + i))|]. now apply B1.
  - intros a Ha. etransitivity; [apply (P (stepby n 4) m m (fun a => eq_refl) a)|]. now apply B2.
Qed.
Print Assumptions C53_tanh7_block.

(** ** C53 soft clipping, exact arithmetic *)
Local Open Scope R_scope.
Definition clip (h x : R) : R := Rmax (Rmin x h) (- h).
Lemma clip_in h x : 0 <= h -> - h <= clip h x <= h.
Proof. intros H. unfold clip, Rmax, Rmin. destruct (Rle_dec x h), (Rle_dec _ (- h)); lra. Qed.
Lemma clip_odd h x : 0 <= h -> clip h (- x) = - clip h x.
Proof. intros H. unfold clip, Rmax, Rmin. repeat (destruct (Rle_dec _ _)); lra. Qed.
Lemma clip_mono h x y : x <= y -> clip h x <= clip h y.
Proof. intros H. unfold clip, Rmax, Rmin. repeat (destruct (Rle_dec _ _)); lra. Qed.
Lemma clip_id h x : - h <= x <= h -> clip h x = x.
Proof. intros H. unfold clip, Rmax, Rmin. repeat (destruct (Rle_dec _ _)); lra. Qed.
Lemma clip_above h x : 0 <= h -> h <= x -> clip h x = h.
Proof. intros H. unfold clip, Rmax, Rmin. repeat (destruct (Rle_dec _ _)); lra. Qed.
Lemma gen_clip lo hi x : lo <= hi -> (let y := if ar_lt arithR lo x then x else lo in if ar_lt arithR y hi then y else hi) = Rmax (Rmin x hi) lo.
Proof. intros H. cbn. unfold Rmax, Rmin. repeat (destruct (Rle_dec _ _) || destruct (Rlt_dec _ _)); lra. Qed.
Definition cubic (c h x : R) : R := let y := clip h x in y - c * y * (y * y).
Lemma cubic_ok c h : 0 <= h -> 0 <= c -> 3 * c * (h * h) <= 1 ->
  odd_fn (cubic c h) /\ nondecreasing (cubic c h) /\ bounded_by (cubic c h) (h - c * h * (h * h)).
Proof.
  intros Hh Hc H.
  assert (M : forall x y, - h <= x -> x <= y -> y <= h -> x - c * x * (x * x) <= y - c * y * (y * y)).
  { intros x y H1 H2 H3. assert (S : x * x + x * y + y * y <= 3 * (h * h)) by nra.
    assert (E : y - c * y * (y * y) - (x - c * x * (x * x)) = (y - x) * (1 - c * (x * x + x * y + y * y))) by ring.
    assert (0 <= (y - x) * (1 - c * (x * x + x * y + y * y))); [|lra]. apply Rmult_le_pos; [lra|]. nra. }
  split; [|split].
  - intros x. unfold cubic. rewrite clip_odd by exact Hh. ring.
  - intros x y L. unfold cubic. pose proof (clip_in h x Hh). pose proof (clip_in h y Hh). pose proof (clip_mono h x y L). apply M; lra.
  - intros x. unfold cubic. pose proof (clip_in h x Hh). cbv zeta. split; [|apply M; lra].
    replace (- (h - c * h * (h * h))) with (- h - c * (- h) * (- h * - h)) by ring. apply M; lra.
Qed.
Lemma sc_ext (f g : R -> R) b : (forall x, f x = g x) -> odd_fn g /\ nondecreasing g /\ bounded_by g b -> odd_fn f /\ nondecreasing f /\ bounded_by f b.
Proof. intros E (A & B & C). split; [|split]; [intros x|intros x y H|intros x]; rewrite !E; auto. Qed.
Lemma softclip_cubic x : softclip arithR x = cubic (4 / 27) (3 / 2) x.
Proof. unfold softclip, cubic, clip. rewrite smaxR, sminR. unfold lit. cbn [ar_lit ar_mul ar_add arithR]. replace (-3 / 2) with (- (3 / 2)) by lra. cbv zeta. set (y := Rmax _ _). clearbody y.
  field. Qed.
Lemma softclip8ps_cubic x : softclip8_ps arithR x = cubic (28935185 / 100000000000) 12 x.
Proof. unfold softclip8_ps, cubic, clip. rewrite smaxR, sminR. unfold lit. cbn [ar_lit ar_mul ar_add arithR]. replace (-12 / 1) with (Ropp 12) by lra. replace (12 / 1) with 12 by lra. cbv zeta. replace (-28935185 / 100000000000) with (- (28935185 / 100000000000)) by lra.
 ring. Qed.
Lemma gen_cubic c h x : 0 <= h -> softclip_gen arithR c (- h) h x = cubic c h x.
Proof.
  intros H. unfold softclip_gen, cubic, clip. pose proof (gen_clip (- h) h x ltac:(lra)) as G. cbv zeta in G |- *. rewrite G. reflexivity.
Qed.
(* y = x - (4/27)x^3 on [-1.5,1.5]: odd, nondecreasing, output in [-1,1], reaching +-1 exactly from +-1.5 on *)
Theorem C53_softclip : odd_fn (softclip arithR) /\ nondecreasing (softclip arithR) /\ bounded_by (softclip arithR) 1
  /\ (forall x, 3 / 2 <= x -> softclip arithR x = 1)
  /\ (forall x, softclip_f64 arithR x = softclip arithR x).
Proof.
  destruct (sc_ext _ _ _ softclip_cubic (cubic_ok (4 / 27) (3 / 2) ltac:(lra) ltac:(lra) ltac:(lra))) as (A & B & C).
  replace (3 / 2 - 4 / 27 * (3 / 2) * (3 / 2 * (3 / 2))) with 1 in C by lra.
  split; [exact A|]. split; [exact B|]. split; [exact C|]. split.
  - intros x H. rewrite softclip_cubic. unfold cubic. rewrite clip_above by lra. lra.
  - intros x. rewrite softclip_cubic. unfold softclip_f64, lit. cbn [ar_lit arithR]. replace (-3 / 2) with (- (3 / 2)) by lra. apply gen_cubic. lra.
Qed.
Print Assumptions C53_softclip.
(* the wider variants: odd, nondecreasing, bounded by 5.5 and 11.5 (attained; NOT by 4 and 8 as the names suggest) *)
Theorem C53_softclip_wide : 
  (odd_fn (softclip4_f64 arithR) /\ nondecreasing (softclip4_f64 arithR) /\ bounded_by (softclip4_f64 arithR) (55001/10000))
  /\ (odd_fn (softclip8_f64 arithR) /\ nondecreasing (softclip8_f64 arithR) /\ bounded_by (softclip8_f64 arithR) (115001/10000))
  /\ (odd_fn (softclip8_ps arithR) /\ nondecreasing (softclip8_ps arithR) /\ bounded_by (softclip8_ps arithR) (115001/10000)).
Proof.
  assert (W : forall f b b', b <= b' -> bounded_by f b -> bounded_by f b') by (intros f b b' H B x; specialize (B x); lra).
  assert (E4 : forall x, softclip4_f64 arithR x = cubic (23148148148 / 10000000000000) 6 x).
  { intros x. unfold softclip4_f64, lit. cbn [ar_lit arithR]. replace (-6 / 1) with (Ropp 6) by lra. replace (6 / 1) with 6 by lra. apply gen_cubic. lra. }
  assert (E8 : forall x, softclip8_f64 arithR x = cubic (28935185185 / 100000000000000) 12 x).
  { intros x. unfold softclip8_f64, lit. cbn [ar_lit arithR]. replace (-12 / 1) with (Ropp 12) by lra. replace (12 / 1) with 12 by lra. apply gen_cubic. lra. }
  split; [|split].
  - destruct (sc_ext _ _ _ E4 (cubic_ok (23148148148 / 10000000000000) 6 ltac:(lra) ltac:(lra) ltac:(lra))) as (A & B & C). split; [exact A|]. split; [exact B|]. eapply W; [|exact C]. lra.
  - destruct (sc_ext _ _ _ E8 (cubic_ok (28935185185 / 100000000000000) 12 ltac:(lra) ltac:(lra) ltac:(lra))) as (A & B & C). split; [exact A|]. split; [exact B|]. eapply W; [|exact C]. lra.
  - destruct (sc_ext _ _ _ softclip8ps_cubic (cubic_ok (28935185 / 100000000000) 12 ltac:(lra) ltac:(lra) ltac:(lra))) as (A & B & C). split; [exact A|]. split; [exact B|]. eapply W; [|exact C]. lra.
Qed.
Print Assumptions C53_softclip_wide.
(* softclip2_f64's coefficient is ten times too large: it decreases from 1.35 on and every input of 3 or more comes out below -1.9 *)
Theorem C53_softclip2_refuted :
  (forall x y, 135 / 100 <= x -> x < y -> y <= 3 -> softclip2_f64 arithR y < softclip2_f64 arithR x)
  /\ (forall x, 3 <= x -> softclip2_f64 arithR x < -19 / 10)
  /\ (forall x, x <= -3 -> 19 / 10 < softclip2_f64 arithR x).
Proof.
  assert (E2 : forall x, softclip2_f64 arithR x = cubic (18518518518518517 / 100000000000000000) 3 x).
  { intros x. unfold softclip2_f64, lit. cbn [ar_lit arithR]. replace (-3 / 1) with (Ropp 3) by lra. replace (3 / 1) with 3 by lra. apply gen_cubic. lra. }
  set (c := 18518518518518517 / 100000000000000000) in *. assert (C : 185 / 1000 < c < 186 / 1000) by (unfold c; lra). clearbody c.
  split; [|split].
  - intros x y H1 H2 H3. rewrite !E2. unfold cubic. rewrite !clip_id by lra. cbv zeta.
    assert (E : y - c * y * (y * y) - (x - c * x * (x * x)) = (y - x) * (1 - c * (x * x + x * y + y * y))) by ring.
    assert (S : 546 / 100 < x * x + x * y + y * y) by nra.
    assert (N : 1 - c * (x * x + x * y + y * y) < 0) by nra. nra.
  - intros x H. rewrite E2. unfold cubic. rewrite clip_above by lra. lra.
  - intros x H. rewrite E2. unfold cubic. replace x with (- - x) by ring. rewrite clip_odd, clip_above by lra. lra.
Qed.
Print Assumptions C53_softclip2_refuted.
(* binary32: whatever comes in - NaN, infinities, huge values - a finite number of magnitude at most 65/32 comes out *)
Lemma rnd_abs_le x m e : (Z.abs m <= 16777216)%Z -> (-149 <= e)%Z -> Rabs x <= IZR m * bpow radix2 e -> Rabs (rnd x) <= IZR m * bpow radix2 e.
Proof.
  intros Hm He H. pose proof (fmt_pow m e Hm He) as F. apply Rabs_le. apply Rabs_le_inv in H. split.
  - rewrite <- (rnd_id (IZR m * bpow radix2 e)) by exact F. rewrite <- rnd_opp. apply rnd_le. lra.
  - rewrite <- (rnd_id (IZR m * bpow radix2 e)) by exact F. apply rnd_le. lra.
Qed.
Lemma small_big x : Rabs x <= 1000 -> Rabs x <= big.
Proof. intros H. apply Rle_trans with (Rabs (IZR 1000)); [rewrite (Rabs_pos_eq 1000) by lra; exact H|apply big_Z; lia]. Qed.
Theorem C53_softclip_f32 : forall x : f32, fin (softclip arith32 x) /\ Rabs (val (softclip arith32 x)) <= 65 / 32.
Proof.
  intros x. destruct (flit_half 3 ltac:(lia)) as [A B]. destruct (flit_half (-3) ltac:(lia)) as [C D].
  destruct (smax_smin_limits (flit (-3) 2) (flit 3 2) C A) as [(L & _) _]; [rewrite B, D; lra|]. specialize (L x).
  unfold softclip, lit. cbn [ar_lit ar_mul ar_add arith32]. set (X := smax arith32 (smin arith32 x _) _) in *. clearbody X.
  destruct L as [FX LX]. rewrite B, D in LX. assert (AX : Rabs (val X) <= 3 / 2) by (apply Rabs_le; lra).
  destruct (flit_ok (-4) 27 ltac:(lia) ltac:(lia)) as [FC VC]. set (c := flit (-4) 27) in *. clearbody c.
  assert (AC : Rabs (val c) <= 5 / 32).
  { rewrite VC. replace (5 / 32) with (IZR 5 * bpow radix2 (-5)) by (cbn; lra). apply rnd_abs_le; [lia|lia|]. cbn. rewrite Rabs_left; lra. }
  assert (P0 : 0 <= Rabs (val X)) by apply Rabs_pos. assert (P1 : 0 <= Rabs (val c)) by apply Rabs_pos.
  assert (XX : Rabs (val X * val X) <= 9 / 4) by (rewrite Rabs_mult; nra).
  destruct (fmul_ok X X FX FX) as [F2 V2]; [apply small_big; lra|]. set (xx := fmul X X) in *. clearbody xx.
  assert (A2 : Rabs (val xx) <= 9 / 4).
  { rewrite V2. replace (9 / 4) with (IZR 9 * bpow radix2 (-2)) by (cbn; lra). apply rnd_abs_le; [lia|lia|]. cbn. lra. }
  assert (XC : Rabs (val X * val c) <= 15 / 64) by (rewrite Rabs_mult; nra).
  destruct (fmul_ok X c FX FC) as [F3 V3]; [apply small_big; lra|]. set (t := fmul X c) in *. clearbody t.
  assert (A3 : Rabs (val t) <= 15 / 64).
  { rewrite V3. replace (15 / 64) with (IZR 15 * bpow radix2 (-6)) by (cbn; lra). apply rnd_abs_le; [lia|lia|]. cbn. lra. }
  assert (P2 : 0 <= Rabs (val xx)) by apply Rabs_pos. assert (P3 : 0 <= Rabs (val t)) by apply Rabs_pos.
  assert (TX : Rabs (val t * val xx) <= 17 / 32) by (rewrite Rabs_mult; nra).
  destruct (fmul_ok t xx F3 F2) as [F4 V4]; [apply small_big; lra|]. set (u := fmul t xx) in *. clearbody u.
  assert (A4 : Rabs (val u) <= 17 / 32).
  { rewrite V4. replace (17 / 32) with (IZR 17 * bpow radix2 (-5)) by (cbn; lra). apply rnd_abs_le; [lia|lia|]. cbn. lra. }
  assert (UX : Rabs (val u + val X) <= 65 / 32) by (pose proof (Rabs_triang (val u) (val X)); lra).
  destruct (fadd_ok u X F4 FX) as [F5 V5]; [apply small_big; lra|]. split; [exact F5|].
  rewrite V5. replace (65 / 32) with (IZR 65 * bpow radix2 (-5)) by (cbn; lra). apply rnd_abs_le; [lia|lia|]. cbn. lra.
Qed.
Print Assumptions C53_softclip_f32.

(** ** C53 the tanh approximations *)
Theorem C53_tanh_fast : odd_fn tanh_fast /\ nondecreasing tanh_fast /\ (forall x, -1 < tanh_fast x < 1) /\ tanh_fast 0 = 0.
Proof.
  set (d := fun x => 1 + x + x * x + 2 / 3 * x * (x * x)).
  assert (D : forall x, 0 <= x -> 1 <= d x) by (intros x H; unfold d; assert (0 <= x * x) by nra; assert (0 <= x * (x * x)) by nra; nra).
  assert (DM : forall x y, 0 <= x -> x <= y -> d x <= d y).
  { intros x y H1 H2. unfold d. assert (x * x <= y * y) by nra. assert (0 <= x * x) by nra. assert (x * (x * x) <= y * (y * y)) by nra. nra. }
  set (g := fun x => 1 - 1 / d x).
  assert (G : forall x, 0 <= x -> 0 <= g x < 1).
  { intros x H. specialize (D x H). unfold g. assert (0 < / d x) by (apply Rinv_0_lt_compat; lra). assert (/ d x <= 1) by (rewrite <- Rinv_1; apply Rinv_le_contravar; lra). unfold Rdiv. lra. }
  assert (GM : forall x y, 0 <= x -> x <= y -> g x <= g y).
  { intros x y H1 H2. pose proof (D x H1). pose proof (DM x y H1 H2). unfold g. assert (/ d y <= / d x) by (apply Rinv_le_contravar; lra). unfold Rdiv. lra. }
  assert (P : forall x, 0 < x -> tanh_fast x = g x).
  { intros x H. unfold tanh_fast. rewrite (Rabs_pos_eq x) by lra. destruct (Rlt_dec 0 x); [unfold g, d; lra|lra]. }
  assert (N : forall x, x <= 0 -> tanh_fast x = - g (- x)).
  { intros x H. unfold tanh_fast. rewrite (Rabs_left1 x) by lra. destruct (Rlt_dec 0 x); [lra|]. unfold g, d. lra. }
  assert (Z : g 0 = 0) by (unfold g, d; field).
  split; [|split; [|split]].
  - intros x. destruct (Rtotal_order x 0) as [H|[->|H]].
    + rewrite (P (- x)), (N x) by lra. lra.
    + rewrite Ropp_0, N by lra. rewrite Ropp_0, Z. lra.
    + rewrite (N (- x)), (P x) by lra. now rewrite Ropp_involutive.
  - intros x y H. destruct (Rle_dec y 0).
    + rewrite !N by lra. pose proof (GM (- y) (- x) ltac:(lra) ltac:(lra)). lra.
    + rewrite (P y) by lra. destruct (Rle_dec x 0).
      * rewrite N by lra. pose proof (G (- x) ltac:(lra)). pose proof (G y ltac:(lra)). lra.
      * rewrite P by lra. apply GM; lra.
  - intros x. destruct (Rle_dec x 0); [rewrite N by lra; pose proof (G (- x) ltac:(lra)); lra|rewrite P by lra; pose proof (G x ltac:(lra)); lra].
  - rewrite N by lra. rewrite Ropp_0, Z. lra.
Qed.
Print Assumptions C53_tanh_fast.
(* tanh7_block's function: odd, at most 0.77 in magnitude (not 1, however loud the input), and nondecreasing up to |x| = 1.138 *)
Lemma tanh7c_clip x : tanh7_clipped arithR x = let y := clip (1139 / 1000) x in y * (1 - 1 / 3 * (y * y) + 2 / 15 * (y * y * (y * y)) - 17 / 315 * (y * y * (y * y) * (y * y))).
Proof.
  unfold tanh7_clipped. rewrite smaxR, sminR. unfold lit. cbn [ar_lit ar_mul ar_add arithR].
  replace (Rmin (Rmax x (-1139 / 1000)) (1139 / 1000)) with (clip (1139 / 1000) x).
  - set (y := clip _ x). clearbody y. cbv zeta. field.
  - unfold clip, Rmax, Rmin. repeat (destruct (Rle_dec _ _)); lra.
Qed.
Definition p7 (y : R) : R := y * (1 - 1 / 3 * (y * y) + 2 / 15 * (y * y * (y * y)) - 17 / 315 * (y * y * (y * y) * (y * y))).
Definition p7' (y : R) : R := 1 - y * y + 2 / 3 * (y * y * (y * y)) - 17 / 45 * (y * y * (y * y) * (y * y)).
Lemma p7_derive y : derivable_pt_lim p7 y (p7' y).
Proof.
  set (G := ((fun y => y) * (((fct_cte 1 - (fct_cte (1 / 3) * ((fun y => y) * (fun y => y)))) + (fct_cte (2 / 15) * (((fun y => y) * (fun y => y)) * ((fun y => y) * (fun y => y)))))
     - (fct_cte (17 / 315) * ((((fun y => y) * (fun y => y)) * ((fun y => y) * (fun y => y))) * ((fun y => y) * (fun y => y))))))%F).
  change p7 with G. unfold G.
  pose proof (derivable_pt_lim_id y) as I. change id with (fun y : R => y) in I.
  pose proof (derivable_pt_lim_mult _ _ y _ _ I I) as I2. pose proof (derivable_pt_lim_mult _ _ y _ _ I2 I2) as I4. pose proof (derivable_pt_lim_mult _ _ y _ _ I4 I2) as I6.
  pose proof (derivable_pt_lim_const (1/3) y) as C1. pose proof (derivable_pt_lim_const (2/15) y) as C2. pose proof (derivable_pt_lim_const (17/315) y) as C3. pose proof (derivable_pt_lim_const 1 y) as C0.
  pose proof (derivable_pt_lim_mult _ _ y _ _ C1 I2) as M1. pose proof (derivable_pt_lim_mult _ _ y _ _ C2 I4) as M2. pose proof (derivable_pt_lim_mult _ _ y _ _ C3 I6) as M3.
  pose proof (derivable_pt_lim_minus _ _ y _ _ C0 M1) as S1. pose proof (derivable_pt_lim_plus _ _ y _ _ S1 M2) as S2. pose proof (derivable_pt_lim_minus _ _ y _ _ S2 M3) as S3.
  pose proof (derivable_pt_lim_mult _ _ y _ _ I S3) as F. match type of F with derivable_pt_lim _ _ ?v => replace (p7' y) with v; [exact F|] end.
  unfold p7', minus_fct, plus_fct, mult_fct, fct_cte. field.
Qed.
Lemma p7'_pos y : - (1138 / 1000) <= y <= 1138 / 1000 -> 0 <= p7' y.
Proof.
  intros H. unfold p7'. assert (U : 0 <= y * y <= 1295044 / 1000000) by nra. set (u := y * y) in *. clearbody u. clear H y.
  (* decreasing in u, positive at the end *)
  set (a := 1295044 / 1000000) in *.
  assert (E : 1 - u + 2 / 3 * (u * u) - 17 / 45 * (u * u * u) = (1 - a + 2 / 3 * (a * a) - 17 / 45 * (a * a * a)) + (a - u) * (1 - 2 / 3 * (a + u) + 17 / 45 * (a * a + a * u + u * u))) by field.
  replace (u * u * u) with (u * u * u) by ring. rewrite E.
  assert (K : 0 <= 1 - 2 / 3 * (a + u) + 17 / 45 * (a * a + a * u + u * u)) by (unfold a; nra).
  assert (P0 : 0 <= 1 - a + 2 / 3 * (a * a) - 17 / 45 * (a * a * a)) by (unfold a; lra). nra.
Qed.
Lemma p7_mono x y : - (1138 / 1000) <= x -> x <= y -> y <= 1138 / 1000 -> p7 x <= p7 y.
Proof.
  intros H1 H2 H3. destruct (Req_dec x y) as [->|N]; [lra|].
  destruct (MVT_cor2 p7 p7' x y ltac:(lra) (fun c _ => p7_derive c)) as (c & E & Hc). pose proof (p7'_pos c ltac:(lra)). nra.
Qed.
Lemma p7_odd y : p7 (- y) = - p7 y.
Proof. unfold p7. ring. Qed.
Theorem C53_tanh7_bounded : odd_fn (tanh7_clipped arithR) /\ bounded_by (tanh7_clipped arithR) (77 / 100)
  /\ (forall x, 1139 / 1000 <= x -> 767 / 1000 < tanh7_clipped arithR x)
  /\ (forall x y, - (1138 / 1000) <= x -> x <= y -> y <= 1138 / 1000 -> tanh7_clipped arithR x <= tanh7_clipped arithR y).
Proof.
  assert (E : forall x, tanh7_clipped arithR x = p7 (clip (1139 / 1000) x)) by exact tanh7c_clip.
  assert (B : forall y, 0 <= y <= 1139 / 1000 -> 0 <= p7 y <= 77 / 100).
  { intros y H. assert (M : p7 (1138 / 1000) <= 77 / 100) by (unfold p7; lra). assert (Z : p7 0 = 0) by (unfold p7; ring).
    destruct (Rle_dec y (1138 / 1000)).
    - pose proof (p7_mono y (1138 / 1000) ltac:(lra) ltac:(lra) ltac:(lra)). pose proof (p7_mono 0 y ltac:(lra) ltac:(lra) ltac:(lra)). lra.
    - unfold p7. set (q := 1 - 1 / 3 * (y * y) + 2 / 15 * (y * y * (y * y)) - 17 / 315 * (y * y * (y * y) * (y * y))).
      assert (Q : 0 <= q <= 676 / 1000).
      { unfold q. assert (U : 1295044 / 1000000 <= y * y <= 1297321 / 1000000) by nra. set (u := y * y) in *. clearbody u. split; nra. }
      nra. }
  split; [|split; [|split]].
  - intros x. rewrite !E, clip_odd, p7_odd by lra. reflexivity.
  - intros x. rewrite E. pose proof (clip_in (1139 / 1000) x ltac:(lra)) as H. set (y := clip _ x) in *. clearbody y.
    destruct (Rle_dec 0 y); [specialize (B y ltac:(lra)); lra|]. replace y with (- - y) by ring. rewrite p7_odd. specialize (B (- y) ltac:(lra)). lra.
  - intros x H. rewrite E, clip_above by lra. unfold p7. lra.
  - intros x y H1 H2 H3. rewrite !E, !clip_id by lra. now apply p7_mono.
Qed.
Print Assumptions C53_tanh7_bounded.
Example C53_instance : (hardclip arithR (1/2) = 1/2 /\ softclip arithR (3/4) = 11/16)%R /\ fltb (hardclip arith32 (flit 5 2)) (flit 3 2) = true.
Proof.
  split; [|vm_compute; reflexivity]. split.
  - unfold hardclip. rewrite smaxR, sminR. unfold lit. cbn [ar_lit arithR]. unfold Rmin, Rmax. repeat (destruct (Rle_dec _ _)); lra.
  - rewrite softclip_cubic. unfold cubic. rewrite clip_id by lra. lra.
Qed.
