(* BlockProps.v - C70 (block arithmetic), C52 (mid/side), C41 (gain ramps), C42 (panning). *)
From Coq Require Import Reals Lra.
From Flocq Require Import Core.Core IEEE754.BinarySingleNaN.
From Verif Require Import Base Util F32 F32Facts BlockModel BlockProofs.
Local Open Scope Z_scope.

(** ** specification vocabulary *)
(* m' is m with the len cells from d replaced by out 0, out 1, ..., and nothing else changed *)
Definition writes {T} (d len : Z) (out : Z -> T) (m m' : mem T) : Prop :=
  (forall i, 0 <= i < len -> m' (d + i) = out i) /\ (forall a, ~ (d <= a < d + len) -> m' a = m a).
(* the same with two destinations *)
Definition writes2 {T} (d1 d2 len : Z) (out1 out2 : Z -> T) (m m' : mem T) : Prop :=
  (forall i, 0 <= i < len -> m' (d1 + i) = out1 i) /\ (forall i, 0 <= i < len -> m' (d2 + i) = out2 i)
  /\ (forall a, ~ (d1 <= a < d1 + len) -> ~ (d2 <= a < d2 + len) -> m' a = m a).

Lemma writes_of_if {T} d N (G : Z -> T) m m' : (forall a, m' a = if inr d (4 * N) a then G (a - d) else m a) -> writes d (4 * N) G m m'.
Proof.
  intros H. split.
  - intros i Hi. rewrite H. destruct (inr d (4 * N) (d + i)) eqn:E; [f_equal; lia|apply inr_false in E; lia].
  - intros a Ha. rewrite H. destruct (inr d (4 * N) a) eqn:E; [apply inr_spec in E; lia|reflexivity].
Qed.
Lemma writes2_of_if {T} d1 d2 N (G1 G2 : Z -> T) m m' : apart d1 d2 N ->
  (forall a, m' a = if inr d1 (4 * N) a then G1 (a - d1) else if inr d2 (4 * N) a then G2 (a - d2) else m a) -> writes2 d1 d2 (4 * N) G1 G2 m m'.
Proof.
  unfold apart. intros D H. repeat split.
  - intros i Hi. rewrite H. destruct (inr d1 (4 * N) (d1 + i)) eqn:E; [f_equal; lia|apply inr_false in E; lia].
  - intros i Hi. rewrite H. destruct (inr d1 (4 * N) (d2 + i)) eqn:E; [apply inr_spec in E; lia|]. destruct (inr d2 (4 * N) (d2 + i)) eqn:E2; [f_equal; lia|apply inr_false in E2; lia].
  - intros a H1 H2. rewrite H. destruct (inr d1 (4 * N) a) eqn:E; [apply inr_spec in E; lia|]. destruct (inr d2 (4 * N) a) eqn:E2; [apply inr_spec in E2; lia|reflexivity].
Qed.

Ltac addr Ag := match goal with |- context [?m ?x] => match type of Ag with forall b, _ -> m b = _ => rewrite (Ag x) by (unfold quad, clear_of, apart in *; lia) end end.
Ltac addr2 Ag := match goal with |- context [?m ?x] => match type of Ag with forall b, _ -> _ -> m b = _ => rewrite (Ag x) by (unfold quad, clear_of, apart in *; lia) end end.
Ltac finish := match goal with |- @eq Z _ _ => unfold quad; lia | |- _ => first [reflexivity | progress f_equal; finish] end.

Section Arith.
Context {T : Type} (A : arith T).
Lemma bin_block (f : T -> T -> T) (m : mem T) p1 p2 d n : 0 <= n -> let N := 4 * cdiv n 4 in clear_of p1 d N -> clear_of p2 d N ->
  writes d (4 * N) (fun i => f (m (p1 + i)) (m (p2 + i))) m
    (unroll4 (fun m o => vstore m (quad d o) (fun j => f (vload m (quad p1 o) j) (vload m (quad p2 o) j))) n m).
Proof.
  intros Hn N C1 C2. apply writes_of_if. intros a. rewrite unroll4_eq by exact Hn. pose proof (cdiv_nonneg n 4 ltac:(lia) Hn).
  apply (loop1 N d _ (fun i => f (m (p1 + i)) (m (p2 + i)))); [unfold N; lia|].
  intros m1 k Hk Ag. split; intros b Hb.
  - rewrite vstore_in by (unfold quad; lia). unfold vload. repeat addr Ag. finish.
  - apply vstore_out. unfold quad. lia.
Qed.
End Arith.

(** ** C70 element-wise block arithmetic *)
(* For every arithmetic (in particular binary32), with a whole number of four-quad groups, sources that coincide with or do
   not overlap the destination: exactly the destination's 4n cells change, each to the operation of its operands. *)
Theorem C70_block_arithmetic : forall T (A : arith T) (m : mem T) src1 src2 dst n, 0 <= n -> n mod 4 = 0 ->
  clear_of src1 dst n -> clear_of src2 dst n ->
  writes dst (4 * n) (fun i => ar_sub A (m (src1 + i)) (m (src2 + i))) m (subtract_block A m src1 src2 dst n)
  /\ writes dst (4 * n) (fun i => ar_mul A (m (src1 + i)) (m (src2 + i))) m (mul_block A m src1 src2 dst n)
  /\ (src1 mod 4 = 0 -> src2 mod 4 = 0 -> dst mod 4 = 0 -> exists m', add_block A m src1 src2 dst n = Ok m'
       /\ writes dst (4 * n) (fun i => ar_add A (m (src1 + i)) (m (src2 + i))) m m').
Proof.
  intros T A m p1 p2 d n Hn Hm C1 C2. assert (E : 4 * cdiv n 4 = n) by (apply cdiv_exact; lia).
  assert (B : forall f, writes d (4 * n) (fun i => f (m (p1 + i)) (m (p2 + i))) m
    (unroll4 (fun m o => vstore m (quad d o) (fun j => f (vload m (quad p1 o) j) (vload m (quad p2 o) j))) n m)).
  { intros f. pose proof (bin_block f m p1 p2 d n Hn) as B. cbv zeta in B. rewrite E in B. apply B; assumption. }
  split; [apply (B (ar_sub A))|]. split; [apply (B (ar_mul A))|]. intros M1 M2 M3.
  eexists. split; [unfold add_block; rewrite M1, M2, M3; reflexivity|apply (B (ar_add A))].
Qed.
Print Assumptions C70_block_arithmetic.
(* a misaligned pointer is reported (which one) and nothing is written *)
Theorem C70_add_block_misaligned : forall T (A : arith T) m src1 src2 dst n,
  ~ (src1 mod 4 = 0 /\ src2 mod 4 = 0 /\ dst mod 4 = 0) ->
  exists e, add_block A m src1 src2 dst n = Err e
   /\ match e with SrcPtr 0 => src1 mod 4 <> 0 | SrcPtr _ => src2 mod 4 <> 0 | DstPtr _ => dst mod 4 <> 0 end.
Proof.
  intros T A m p1 p2 d n H. unfold add_block. destruct (Z.eqb_spec (p1 mod 4) 0) as [E1|E1]; cbn [negb]; [|eexists; split; [reflexivity|assumption]].
  destruct (Z.eqb_spec (p2 mod 4) 0) as [E2|E2]; cbn [negb]; [|eexists; split; [reflexivity|assumption]].
  destruct (Z.eqb_spec (d mod 4) 0) as [E3|E3]; cbn [negb]; [|eexists; split; [reflexivity|assumption]]. tauto.
Qed.
Print Assumptions C70_add_block_misaligned.
(* accumulate_block handles every quad count *)
Theorem C70_accumulate_block : forall T (A : arith T) (m : mem T) src dst n, 0 <= n -> src mod 4 = 0 -> dst mod 4 = 0 -> clear_of src dst n ->
  exists m', accumulate_block A m src dst n = Ok m' /\ writes dst (4 * n) (fun i => ar_add A (m (dst + i)) (m (src + i))) m m'.
Proof.
  intros T A m p d n Hn M1 M2 C. unfold accumulate_block. rewrite M1, M2. cbn [Z.eqb negb]. eexists. split; [reflexivity|].
  apply writes_of_if. intros a. rewrite stepby_zseq, cdiv_1, fold_map.
  apply (loop1 n d _ (fun i => ar_add A (m (d + i)) (m (p + i)))); [lia|].
  intros m1 k Hk Ag. split; intros b Hb.
  - rewrite vstore_in by lia. unfold vadd, vload. repeat addr Ag. finish.
  - apply vstore_out. lia.
Qed.
Print Assumptions C70_accumulate_block.
(* clear_block zeroes exactly 4n cells *)
Theorem C70_clear_block : forall T (A : arith T) (m : mem T) p n, 0 <= n -> p mod 4 = 0 ->
  exists m', clear_block A m p n = Ok m' /\ writes p (4 * n) (fun _ => ar_lit A 0 1) m m'.
Proof.
  intros T A m p n Hn M. unfold clear_block. rewrite M. cbn [Z.eqb negb].
  exists (fold_left (fun m k => vstore m (p + 4 * k) (set1 (lit A 0 1))) (zseq n) m). split.
  - rewrite stepby_zseq. replace (cdiv (4 * n) 4) with n by (symmetry; replace 4 with (4 * 1) at 2 by lia; rewrite cdiv_scale, cdiv_1; lia).
    rewrite fold_map. generalize m. clear m. generalize (zseq n) as l. induction l as [|k l IH]; intros m; cbn [fold_left]; [reflexivity|].
    cbn [obind]. replace ((p + 4 * k) mod 4) with 0 by lia. cbn [Z.eqb negb]. apply IH.
  - apply writes_of_if. intros a. apply (loop1 n p _ (fun _ => ar_lit A 0 1)); [lia|]. intros m1 k Hk Ag. split; intros b Hb.
    + rewrite vstore_in by lia. reflexivity.
    + apply vstore_out. lia.
Qed.
Print Assumptions C70_clear_block.
Lemma copy_eq {T} (m : mem T) src dst n : 0 <= n ->
  copy_block m src dst n = fold_left (fun m k => vstore m (dst + 4 * k) (vload m (src + 4 * k))) (zseq (8 * cdiv n 8)) m.
Proof.
  intros Hn. rewrite <- (unroll_eq (fun m o => vstore m (dst + o) (vload m (src + o))) 4 8 n m) by lia. unfold copy_block.
  apply fold_ext_in. intros s i _. change (zseq 8) with [0;1;2;3;4;5;6;7]. cbn [fold_left]. rewrite Z.mul_0_r, Z.add_0_r. reflexivity.
Qed.
Lemma copy_gen {T} (m : mem T) src dst n : 0 <= n -> clear_of src dst (8 * cdiv n 8) ->
  writes dst (4 * (8 * cdiv n 8)) (fun i => m (src + i)) m (copy_block m src dst n).
Proof.
  intros Hn C. apply writes_of_if. intros a. rewrite copy_eq by exact Hn. pose proof (cdiv_nonneg n 8 ltac:(lia) Hn).
  apply (loop1 _ dst _ (fun i => m (src + i))); [lia|]. intros m1 k Hk Ag. split; intros b Hb.
  - rewrite vstore_in by lia. unfold vload. addr Ag. finish.
  - apply vstore_out. lia.
Qed.
Theorem C70_copy_block : forall T (m : mem T) src dst n, 0 <= n -> n mod 8 = 0 -> clear_of src dst n ->
  writes dst (4 * n) (fun i => m (src + i)) m (copy_block m src dst n).
Proof.
  intros T m p d n Hn Hm C. pose proof (copy_gen m p d n Hn) as G. rewrite (cdiv_exact n 8) in G by lia. now apply G.
Qed.
Print Assumptions C70_copy_block.
(* With any other count the unrolled loops run past the declared length: cells beyond dst+4n are overwritten, whatever they held. *)
Theorem C70_overrun_refuted : forall T (A : arith T) (m : mem T) src1 src2 dst n, 0 <= n -> n mod 4 <> 0 ->
  clear_of src1 dst (4 * cdiv n 4) -> clear_of src2 dst (4 * cdiv n 4) ->
  4 * n < 16 * cdiv n 4 /\
  forall i, 4 * n <= i < 16 * cdiv n 4 ->
    subtract_block A m src1 src2 dst n (dst + i) = ar_sub A (m (src1 + i)) (m (src2 + i))
    /\ mul_block A m src1 src2 dst n (dst + i) = ar_mul A (m (src1 + i)) (m (src2 + i)).
Proof.
  intros T A m p1 p2 d n Hn Hm C1 C2. pose proof (cdiv_ge n 4 ltac:(lia)) as G. split; [unfold cdiv in *; lia|].
  intros i Hi. split.
  - destruct (bin_block (ar_sub A) m p1 p2 d n Hn C1 C2) as [W _]. apply (W i). lia.
  - destruct (bin_block (ar_mul A) m p1 p2 d n Hn C1 C2) as [W _]. apply (W i). lia.
Qed.
Print Assumptions C70_overrun_refuted.
Theorem C70_copy_overrun_refuted : forall T (m : mem T) src dst n, 0 <= n -> n mod 8 <> 0 -> clear_of src dst (8 * cdiv n 8) ->
  4 * n < 32 * cdiv n 8 /\ forall i, 4 * n <= i < 32 * cdiv n 8 -> copy_block m src dst n (dst + i) = m (src + i).
Proof.
  intros T m p d n Hn Hm C. pose proof (cdiv_ge n 8 ltac:(lia)) as G. split; [unfold cdiv in *; lia|].
  intros i Hi. destruct (copy_gen m p d n Hn C) as [W _]. apply (W i). lia.
Qed.
Print Assumptions C70_copy_overrun_refuted.
Example C70_instance : clear_of 0 64 8 /\ clear_of 32 64 8 /\ (8 mod 4 = 0) /\ cdiv 3 4 = 1 /\ cdiv 4 8 = 1
  /\ copy_block (fun a => a) 0 64 4 (64 + 17) = 17.
Proof. unfold clear_of. repeat split; lia || reflexivity. Qed.

(** ** C52 mid/side *)
Lemma encode_gen {T} (A : arith T) (m : mem T) l r mm s n : 0 <= n -> let N := 4 * cdiv n 4 in
  apart mm s N -> apart l mm N -> apart r mm N -> apart l s N -> apart r s N ->
  writes2 mm s (4 * N) (fun i => ar_mul A (ar_add A (m (l + i)) (m (r + i))) (ar_lit A 1 2))
                       (fun i => ar_mul A (ar_sub A (m (l + i)) (m (r + i))) (ar_lit A 1 2)) m (encode_mid_side A m l r mm s n).
Proof.
  intros Hn N D1 D2 D3 D4 D5. apply writes2_of_if; [exact D1|]. intros a. unfold encode_mid_side. rewrite unroll4_eq by exact Hn.
  pose proof (cdiv_nonneg n 4 ltac:(lia) Hn). unfold apart in *.
  apply (loop2 N mm s _ (fun i => ar_mul A (ar_add A (m (l + i)) (m (r + i))) (ar_lit A 1 2)) (fun i => ar_mul A (ar_sub A (m (l + i)) (m (r + i))) (ar_lit A 1 2)));
   [unfold N; lia|lia|].
  intros m1 k Hk Ag. split; [|split]; intros b Hb.
  - rewrite vstore_out, vstore_in by (unfold quad; lia). unfold vmul, vadd, vload, set1. repeat addr2 Ag. finish.
  - rewrite vstore_in by (unfold quad; lia). unfold vmul, vsub, set1. unfold vload. rewrite !vstore_out by (unfold quad; lia). repeat addr2 Ag.  finish.
  - intros Hb2. rewrite !vstore_out by (unfold quad; lia). reflexivity.
Qed.
Lemma decode_gen {T} (A : arith T) (m : mem T) mm s l r n : 0 <= n -> let N := 4 * cdiv n 4 in
  apart l r N -> apart mm l N -> apart s l N -> apart mm r N -> apart s r N ->
  writes2 l r (4 * N) (fun i => ar_add A (m (mm + i)) (m (s + i))) (fun i => ar_sub A (m (mm + i)) (m (s + i))) m (decode_mid_side A m mm s l r n).
Proof.
  intros Hn N D1 D2 D3 D4 D5. apply writes2_of_if; [exact D1|]. intros a. unfold decode_mid_side. rewrite unroll4_eq by exact Hn.
  pose proof (cdiv_nonneg n 4 ltac:(lia) Hn). unfold apart in *.
  apply (loop2 N l r _ (fun i => ar_add A (m (mm + i)) (m (s + i))) (fun i => ar_sub A (m (mm + i)) (m (s + i)))); [unfold N; lia|lia|].
  intros m1 k Hk Ag. split; [|split]; intros b Hb.
  - rewrite vstore_out, vstore_in by (unfold quad; lia). unfold vadd, vload. repeat addr2 Ag. finish.
  - rewrite vstore_in by (unfold quad; lia). unfold vsub. unfold vload. rewrite !vstore_out by (unfold quad; lia). repeat addr2 Ag. finish.
  - intros Hb2. rewrite !vstore_out by (unfold quad; lia). reflexivity.
Qed.
(* four buffers of n quads, pairwise disjoint *)
Definition four_apart (a b c d n : Z) : Prop := apart a b n /\ apart a c n /\ apart a d n /\ apart b c n /\ apart b d n /\ apart c d n.
Lemma ms_roundtrip {T} (A : arith T) (m : mem T) l r mm s n : 0 <= n -> n mod 4 = 0 -> four_apart l r mm s n ->
  forall i, 0 <= i < 4 * n ->
  let M := ar_mul A (ar_add A (m (l + i)) (m (r + i))) (ar_lit A 1 2) in
  let S := ar_mul A (ar_sub A (m (l + i)) (m (r + i))) (ar_lit A 1 2) in
  let m1 := encode_mid_side A m l r mm s n in
  let m2 := decode_mid_side A m1 mm s l r n in
  m1 (mm + i) = M /\ m1 (s + i) = S /\ m1 (l + i) = m (l + i) /\ m1 (r + i) = m (r + i) /\ m2 (l + i) = ar_add A M S /\ m2 (r + i) = ar_sub A M S.
Proof.
  intros Hn Hm (D1 & D2 & D3 & D4 & D5 & D6) i Hi M S m1 m2.
  assert (E : 4 * cdiv n 4 = n) by (apply cdiv_exact; lia).
  pose proof (encode_gen A m l r mm s n Hn) as G1. pose proof (decode_gen A m1 mm s l r n Hn) as G2. cbv zeta in G1, G2. rewrite E in *.
  unfold apart in *. destruct (G1 ltac:(lia) ltac:(lia) ltac:(lia) ltac:(lia) ltac:(lia)) as (W1 & W2 & W3). destruct (G2 ltac:(lia) ltac:(lia) ltac:(lia) ltac:(lia) ltac:(lia)) as (V1 & V2 & _).
  fold m1 in W1, W2, W3. fold m2 in V1, V2. rewrite V1, V2, W1, W2, !W3 by lia. repeat split.
Qed.
(* exact arithmetic: the pair of calls restores both channels, and the mid/side signals are the half sum and half difference *)
Theorem C52_mid_side_lossless_partial : forall (m : mem R) l r mm s n, 0 <= n -> n mod 4 = 0 -> four_apart l r mm s n ->
  let m1 := encode_mid_side arithR m l r mm s n in
  let m2 := decode_mid_side arithR m1 mm s l r n in
  forall i, 0 <= i < 4 * n ->
    m1 (mm + i) = ((m (l + i)%Z + m (r + i)%Z) / 2)%R /\ m1 (s + i) = ((m (l + i)%Z - m (r + i)%Z) / 2)%R
    /\ m2 (l + i) = m (l + i) /\ m2 (r + i) = m (r + i).
Proof.
  intros m l r mm s n Hn Hm D m1 m2 i Hi. destruct (ms_roundtrip arithR m l r mm s n Hn Hm D i Hi) as (E1 & E2 & _ & _ & E3 & E4).
  fold m1 in E1, E2. unfold m2, m1. rewrite E3, E4. fold m1. rewrite E1, E2. cbn [ar_mul ar_add ar_sub ar_lit arithR]. repeat split; lra.
Qed.
Print Assumptions C52_mid_side_lossless_partial.
(* binary32: exact (as numbers) whenever both samples are multiples of one power of two 2^e with at most 23-bit integers -
   e.g. any two 16- or 23-bit PCM samples *)
Definition on_grid (e : Z) (x : f32) : Prop := exists k, Z.abs k <= 8388608 /\ fin x /\ (val x = IZR k * bpow radix2 e)%R.
Theorem C52_mid_side_lossless_f32 : forall (m : mem f32) l r mm s n e, 0 <= n -> n mod 4 = 0 -> four_apart l r mm s n -> -148 <= e <= 100 ->
  (forall i, 0 <= i < 4 * n -> on_grid e (m (l + i)) /\ on_grid e (m (r + i))) ->
  let m2 := decode_mid_side arith32 (encode_mid_side arith32 m l r mm s n) mm s l r n in
  forall i, 0 <= i < 4 * n ->
   fin (m2 (l + i)) /\ val (m2 (l + i)) = val (m (l + i)) /\ fin (m2 (r + i)) /\ val (m2 (r + i)) = val (m (r + i)).
Proof.
  intros m l r mm s n e Hn Hm D He G m2 i Hi. destruct (ms_roundtrip arith32 m l r mm s n Hn Hm D i Hi) as (_ & _ & _ & _ & E3 & E4).
  unfold m2. rewrite E3, E4. clear E3 E4. destruct (G i Hi) as [(a & Ha & Fa & Va) (b & Hb & Fb & Vb)].
  set (x := m (l + i)) in *. set (y := m (r + i)) in *. cbn [ar_mul ar_add ar_sub ar_lit arith32].
  assert (BP : forall k ee, Z.abs k <= 16777216 -> -149 <= ee <= 100 -> (Rabs (IZR k * bpow radix2 ee) <= big)%R /\ rnd (IZR k * bpow radix2 ee) = (IZR k * bpow radix2 ee)%R).
  { intros k ee H1 H2. split; [|apply rnd_id, fmt_pow; lia]. rewrite Rabs_mult, <- abs_IZR, (Rabs_right (bpow radix2 ee)) by (apply Rle_ge, bpow_ge_0).
    unfold big. replace 127%Z with (27 + 100)%Z by reflexivity. rewrite bpow_plus. apply Rmult_le_compat; [apply IZR_le; lia|apply bpow_ge_0| |apply bpow_le; lia].
    rewrite <- IZR_Zpower by lia. apply IZR_le. cbn. lia. }
  assert (HALF : fin (flit 1 2) /\ val (flit 1 2) = bpow radix2 (-1)).
  { unfold flit. destruct (fofZ_ok 1) as [F1 V1]; [lia|]. destruct (fofZ_ok 2) as [F2 V2]; [lia|].
    assert (Q : (val (fofZ 1) / val (fofZ 2) = IZR 1 * bpow radix2 (-1))%R) by (rewrite V1, V2; cbn; lra).
    destruct (BP 1 (-1) ltac:(lia) ltac:(lia)) as [B1 B2]. destruct (fdiv_ok (fofZ 1) (fofZ 2) F1 F2) as [F V]; [rewrite V2; lra|rewrite Q; exact B1|].
    split; [exact F|]. rewrite V, Q, B2. ring. }
  destruct HALF as [FH VH].
  assert (EXP : (bpow radix2 e = 2 * bpow radix2 (e - 1))%R). { replace e with (1 + (e - 1))%Z at 1 by ring. rewrite bpow_plus. cbn. ring. }
  assert (SUM : forall (op : f32 -> f32 -> f32) (z : Z), Z.abs z <= 16777216 -> fin (op x y) -> (val (op x y) = IZR z * bpow radix2 e)%R ->
     fin (fmul (op x y) (flit 1 2)) /\ val (fmul (op x y) (flit 1 2)) = (IZR z * bpow radix2 (e - 1))%R).
  { intros op z Hz F V. assert (Q : (val (op x y) * val (flit 1 2) = IZR z * bpow radix2 (e - 1))%R).
    { rewrite V, VH, EXP. change (bpow radix2 (-1)) with (/ 2)%R. field. }
    destruct (BP z (e - 1) Hz ltac:(lia)) as [B1 B2]. destruct (fmul_ok (op x y) (flit 1 2) F FH) as [F' V']; [rewrite Q; exact B1|].
    split; [exact F'|]. rewrite V', Q. exact B2. }
  assert (Q1 : (val x + val y = IZR (a + b) * bpow radix2 e)%R) by (rewrite Va, Vb, plus_IZR; ring).
  assert (Q2 : (val x - val y = IZR (a - b) * bpow radix2 e)%R) by (rewrite Va, Vb, minus_IZR; ring).
  destruct (BP (a + b) e ltac:(lia) ltac:(lia)) as [B1 B2]. destruct (BP (a - b) e ltac:(lia) ltac:(lia)) as [B3 B4].
  destruct (fadd_ok x y Fa Fb) as [F1 V1]; [rewrite Q1; exact B1|]. destruct (fsub_ok x y Fa Fb) as [F2 V2]; [rewrite Q2; exact B3|].
  rewrite Q1, B2 in V1. rewrite Q2, B4 in V2.
  destruct (SUM fadd (a + b) ltac:(lia) F1 V1) as [FM VM]. destruct (SUM fsub (a - b) ltac:(lia) F2 V2) as [FS VS].
  assert (Q3 : (val (fmul (fadd x y) (flit 1 2)) + val (fmul (fsub x y) (flit 1 2)) = IZR a * bpow radix2 e)%R) by (rewrite VM, VS, plus_IZR, minus_IZR, EXP; ring).
  assert (Q4 : (val (fmul (fadd x y) (flit 1 2)) - val (fmul (fsub x y) (flit 1 2)) = IZR b * bpow radix2 e)%R) by (rewrite VM, VS, plus_IZR, minus_IZR, EXP; ring).
  destruct (BP a e ltac:(lia) ltac:(lia)) as [B5 B6]. destruct (BP b e ltac:(lia) ltac:(lia)) as [B7 B8].
  destruct (fadd_ok _ _ FM FS) as [F3 V3]; [rewrite Q3; exact B5|]. destruct (fsub_ok _ _ FM FS) as [F4 V4]; [rewrite Q4; exact B7|].
  split; [exact F3|]. split; [rewrite V3, Q3, B6, Va; reflexivity|]. split; [exact F4|]. rewrite V4, Q4, B8, Vb. reflexivity.
Qed.
Print Assumptions C52_mid_side_lossless_f32.
(* binary32 in general: a quiet channel next to a loud one is lost: right = 2^-30 beside left = 1 comes back as 0 *)
Theorem C52_mid_side_f32_refuted : exists (m : mem f32), let m2 := decode_mid_side arith32 (encode_mid_side arith32 m 0 100 200 300 4) 200 300 0 100 4 in
  feqb (m 100) (fpow 1 (-30)) = true /\ feqb (m2 100) f0 = true.
Proof.
  exists (fun a => if a <? 100 then f1 else fpow 1 (-30)). intros m2.
  assert (D : four_apart 0 100 200 300 4) by (unfold four_apart, apart; lia).
  destruct (ms_roundtrip arith32 (fun a => if a <? 100 then f1 else fpow 1 (-30)) 0 100 200 300 4 ltac:(lia) eq_refl D 0 ltac:(lia)) as (_ & _ & _ & _ & _ & E).
  change (100 + 0) with 100 in E. unfold m2. rewrite E. split; vm_compute; reflexivity.
Qed.
Print Assumptions C52_mid_side_f32_refuted.
(* with a quad count that is not a multiple of 4, decoding overwrites cells behind both outputs *)
Theorem C52_overrun_refuted : forall T (A : arith T) (m : mem T) mm s l r n, 0 <= n -> n mod 4 <> 0 -> four_apart l r mm s (4 * cdiv n 4) ->
  4 * n < 16 * cdiv n 4 /\ forall i, 4 * n <= i < 16 * cdiv n 4 ->
    decode_mid_side A m mm s l r n (l + i) = ar_add A (m (mm + i)) (m (s + i)) /\ decode_mid_side A m mm s l r n (r + i) = ar_sub A (m (mm + i)) (m (s + i)).
Proof.
  intros T A m mm s l r n Hn Hm (D1 & D2 & D3 & D4 & D5 & D6). pose proof (cdiv_ge n 4 ltac:(lia)) as G. split; [unfold cdiv in *; lia|].
  intros i Hi. unfold apart in *. destruct (decode_gen A m mm s l r n Hn) as (W1 & W2 & _); unfold apart; try lia.
  split; [apply (W1 i)|apply (W2 i)]; lia.
Qed.
Print Assumptions C52_overrun_refuted.
Example C52_instance : four_apart 0 64 128 192 8 /\ on_grid (-15) (fpow 12345 (-15)) /\ 8 mod 4 = 0.
Proof.
  split; [unfold four_apart, apart; lia|]. split; [|reflexivity]. destruct (fpow_ok 12345 (-15)) as [F V]; [lia|lia|].
  exists 12345. split; [lia|]. split; [exact F|exact V].
Qed.
