(** Theorems about the half-rate filter (C137-C141). *)
From Coq Require Import Reals Lra Psatz Lia.
From Flocq Require Import Core.Core.
From Verif Require Import Base Util QfModel HalfModel.
Local Open Scope R_scope.

(* ================= specification ================= *)

(** A first-order all-pass in z^2, from rest: y(n) = x(n-2) + a (x(n) - y(n-2)). *)
Fixpoint ap (a : R) (x : nat -> R) (n : nat) : R :=
  match n with
  | O => a * x O
  | Datatypes.S O => a * x 1%nat
  | Datatypes.S (Datatypes.S k) => x k + a * (x n - ap a x k)
  end.
Definition cascade (cs : list R) (x : nat -> R) : nat -> R := fold_left (fun s a => ap a s) cs x.
(** one sample later *)
Definition delay1 (x : nat -> R) (n : nat) : R := match n with O => 0 | Datatypes.S k => x k end.
(** the half-band low-pass: the mean of the first cascade and the delayed second one *)
Definition lowpass (a b : list R) (x : nat -> R) (n : nat) : R := (cascade a x n + delay1 (cascade b x) n) / 2.

(** a filter at rest with given coefficients *)
Definition at_rest (a b : list R) : half := mk_half (store_coefficients a b) z128.
(** samples n .. n+len-1 of a signal *)
Definition cut (x : nat -> R) (n len : nat) : list R := map x (seq n len).

(** feeding a stereo signal block by block through one of the three entry points, from time n (input samples) *)
Fixpoint feed (f : half -> list R -> list R -> res (half * list R * list R)) (h : half) (L Rr : nat -> R) (n : nat) (lens : list nat) : res (half * list R * list R) :=
  match lens with
  | [] => Ok (h, [], [])
  | len :: rest => obind (f h (cut L n len) (cut Rr n len)) (fun '(h1, l1, r1) =>
      obind (feed f h1 L Rr (n + len) rest) (fun '(h2, l2, r2) => Ok (h2, l1 ++ l2, r1 ++ r2)))
  end.
Definition total (lens : list nat) : nat := fold_right Nat.add 0%nat lens.

(* ================= lemmas: the code computes the specification ================= *)

Definition ap4 (c : q4 R) (X : nat -> q4 R) (n : nat) : q4 R :=
  Q4 (ap (l0 c) (fun k => l0 (X k)) n) (ap (l1 c) (fun k => l1 (X k)) n) (ap (l2 c) (fun k => l2 (X k)) n) (ap (l3 c) (fun k => l3 (X k)) n).
Definition back (X : nat -> q4 R) (n k : nat) : q4 R := if (k <=? n)%nat then X (n - k)%nat else z128.
Definition inv (n : nat) (X : nat -> q4 R) (s : stage) : Prop :=
  vx0 s = back X n 1 /\ vx1 s = back X n 2 /\ vy0 s = back (ap4 (va s) X) n 1 /\ vy1 s = back (ap4 (va s) X) n 2.
Fixpoint invs (n : nat) (X : nat -> q4 R) (st : list stage) : Prop :=
  match st with [] => True | s :: r => inv n X s /\ invs n (ap4 (va s) X) r end.
Definition casc4 (cs : list (q4 R)) (X : nat -> q4 R) : nat -> q4 R := fold_left (fun s c => ap4 c s) cs X.

Lemma ap_step_ok n X s : inv n X s -> let '(s', y) := ap_step s (X n) in y = ap4 (va s) X n /\ inv (Datatypes.S n) X s' /\ va s' = va s.
Proof.
  intros (A & B & C & D). unfold ap_step. cbn [va].
  assert (Y : zip4 Rplus (vx1 s) (zip4 Rmult (zip4 Rminus (X n) (vy1 s)) (va s)) = ap4 (va s) X n).
  { rewrite B, D. destruct n as [|[|n]].
    - unfold back, zip4, ap4, z128, set1. cbn [Nat.leb l0 l1 l2 l3 ap]. f_equal; ring.
    - unfold back, zip4, ap4, z128, set1. cbn [Nat.leb l0 l1 l2 l3 ap]. f_equal; ring.
    - unfold back. cbn [Nat.leb]. replace (Datatypes.S (Datatypes.S n) - 2)%nat with n by lia. unfold zip4, ap4. cbn [l0 l1 l2 l3 ap]. f_equal; ring. }
  split; [exact Y|]. split; [|reflexivity]. unfold inv. cbn [vx0 vx1 vy0 vy1 va]. rewrite Y, A, C.
  repeat split; unfold back; cbn [Nat.leb]; try (f_equal; lia); destruct n; cbn [Nat.leb Nat.sub]; try reflexivity; f_equal; lia.
Qed.
Lemma ap_pairs_ok q : forall n X s, inv n X s ->
  let '(s', o) := ap_pairs s (map X (seq n (2 * q))) in o = map (ap4 (va s) X) (seq n (2 * q)) /\ inv (n + 2 * q) X s' /\ va s' = va s.
Proof.
  induction q as [|q IH]; intros n X s I; [cbn; rewrite Nat.add_0_r; repeat split; try assumption; apply I|].
  replace (2 * Datatypes.S q)%nat with (Datatypes.S (Datatypes.S (2 * q))) by lia. cbn [seq map ap_pairs].
  pose proof (ap_step_ok n X s I) as H. destruct (ap_step s (X n)) as [s1 y0]. destruct H as (Y0 & I1 & V1).
  pose proof (ap_step_ok _ X s1 I1) as H. destruct (ap_step s1 _) as [s2 y1]. destruct H as (Y1 & I2 & V2).
  specialize (IH _ X s2 I2). destruct (ap_pairs s2 _) as [s3 ys]. destruct IH as (Ys & I3 & V3).
  rewrite V2, V1 in Ys. rewrite V1 in Y1. split; [rewrite Y0, Y1, Ys; reflexivity|].
  split; [replace (n + Datatypes.S (Datatypes.S (2 * q)))%nat with (Datatypes.S (Datatypes.S n) + 2 * q)%nat by lia; exact I3|congruence].
Qed.
Lemma filters_ok q st : forall n X, invs n X st ->
  let '(st', o) := process_filters st (map X (seq n (2 * q))) in
  o = map (casc4 (map va st) X) (seq n (2 * q)) /\ invs (n + 2 * q) X st' /\ map va st' = map va st.
Proof.
  induction st as [|s st IH]; intros n X I; [cbn [process_filters map]; repeat split|].
  destruct I as [I1 I2]. cbn [process_filters]. pose proof (ap_pairs_ok q n X s I1) as H. destruct (ap_pairs s _) as [s' o1]. destruct H as (-> & I3 & V).
  specialize (IH n _ I2). destruct (process_filters st _) as [r' o2]. destruct IH as (-> & I4 & V4).
  split; [reflexivity|]. split; [split; [exact I3|rewrite V; exact I4]|cbn [map]; rewrite V, V4; reflexivity].
Qed.

Definition old_at (Y : nat -> q4 R) (n : nat) : q4 R := match n with O => z128 | Datatypes.S k => shuf (Y k) (Y k) 3 3 1 1 end.
Lemma combine_ok len : forall Y n fa fb, combine_out fa fb (old_at Y n) (map Y (seq n len)) =
  (map (fun k => (l0 (Y k) + delay1 (fun j => l1 (Y j)) k) / 2) (seq n len), map (fun k => (l2 (Y k) + delay1 (fun j => l3 (Y j)) k) / 2) (seq n len), old_at Y (n + len)).
Proof.
  induction len as [|len IH]; intros Y n fa fb; [cbn; rewrite Nat.add_0_r; reflexivity|].
  cbn [seq map combine_out]. change (shuf (Y n) (Y n) 3 3 1 1) with (old_at Y (Datatypes.S n)). rewrite IH.
  replace (Datatypes.S n + len)%nat with (n + Datatypes.S len)%nat by lia. f_equal. f_equal.
  - f_equal. unfold add_ss, mul_ss, m128_half, set1. cbn [l0]. destruct n; cbn [old_at delay1]; unfold z128, set1, shuf; cbn [l0 lane]; lra.
  - f_equal. unfold add_ss, mul_ss, m128_half, set1, movehl. cbn [l0]. destruct n; cbn [old_at delay1]; unfold z128, set1, shuf; cbn [l0 l2 lane]; lra.
Qed.

Definition stereo (L Rr : nat -> R) (k : nat) : q4 R := Q4 (L k) (L k) (Rr k) (Rr k).
Lemma scratch_ok q : forall L Rr n, scratch4 (cut L n (4 * q)) (cut Rr n (4 * q)) = map (stereo L Rr) (seq n (4 * q)).
Proof.
  induction q as [|q IH]; intros L Rr n; [reflexivity|]. unfold cut in *. replace (4 * Datatypes.S q)%nat with (Datatypes.S (Datatypes.S (Datatypes.S (Datatypes.S (4 * q))))) by lia.
  cbn [seq map scratch4]. rewrite IH. reflexivity.
Qed.
Definition stuff (x : nat -> R) (n : nat) : R := if Nat.even n then x (Nat.div2 n) else 0.
Lemma stuff_even x n : stuff x (2 * n) = x n.
Proof. unfold stuff. rewrite Nat.even_mul. cbn [Nat.even orb]. rewrite Nat.div2_double. reflexivity. Qed.
Lemma stuff_odd x n : stuff x (Datatypes.S (2 * n)) = 0.
Proof. unfold stuff. rewrite Nat.even_succ, Nat.odd_mul. reflexivity. Qed.
Lemma work_ok q : forall L Rr n, work8 (cut L n (4 * q)) (cut Rr n (4 * q)) = map (stereo (stuff L) (stuff Rr)) (seq (2 * n) (8 * q)).
Proof.
  induction q as [|q IH]; intros L Rr n; [reflexivity|]. unfold cut in *. replace (4 * Datatypes.S q)%nat with (Datatypes.S (Datatypes.S (Datatypes.S (Datatypes.S (4 * q))))) by lia.
  replace (8 * Datatypes.S q)%nat with (Datatypes.S (Datatypes.S (Datatypes.S (Datatypes.S (Datatypes.S (Datatypes.S (Datatypes.S (Datatypes.S (8 * q))))))))) by lia.
  cbn [seq map work8]. rewrite IH. clear IH.
  replace (2 * Datatypes.S (Datatypes.S (Datatypes.S (Datatypes.S n))))%nat with (Datatypes.S (Datatypes.S (Datatypes.S (Datatypes.S (Datatypes.S (Datatypes.S (Datatypes.S (Datatypes.S (2 * n))))))))) by lia.
  unfold stereo, shuf, z128, set1. cbn [lane l0 l1 l2 l3].
  assert (E : forall x, stuff x (Datatypes.S (Datatypes.S (2 * n))) = x (Datatypes.S n)) by (intros x; replace (Datatypes.S (Datatypes.S (2 * n))) with (2 * Datatypes.S n)%nat by lia; apply stuff_even).
  assert (E4 : forall x, stuff x (Datatypes.S (Datatypes.S (Datatypes.S (Datatypes.S (2 * n))))) = x (Datatypes.S (Datatypes.S n))) by (intros x; replace (Datatypes.S (Datatypes.S (Datatypes.S (Datatypes.S (2 * n))))) with (2 * Datatypes.S (Datatypes.S n))%nat by lia; apply stuff_even).
  assert (E6 : forall x, stuff x (Datatypes.S (Datatypes.S (Datatypes.S (Datatypes.S (Datatypes.S (Datatypes.S (2 * n))))))) = x (Datatypes.S (Datatypes.S (Datatypes.S n)))) by (intros x; replace (Datatypes.S (Datatypes.S (Datatypes.S (Datatypes.S (Datatypes.S (Datatypes.S (2 * n))))))) with (2 * Datatypes.S (Datatypes.S (Datatypes.S n)))%nat by lia; apply stuff_even).
  assert (O3 : forall x, stuff x (Datatypes.S (Datatypes.S (Datatypes.S (2 * n)))) = 0) by (intros x; replace (Datatypes.S (Datatypes.S (Datatypes.S (2 * n)))) with (Datatypes.S (2 * Datatypes.S n)) by lia; apply stuff_odd).
  assert (O5 : forall x, stuff x (Datatypes.S (Datatypes.S (Datatypes.S (Datatypes.S (Datatypes.S (2 * n)))))) = 0) by (intros x; replace (Datatypes.S (Datatypes.S (Datatypes.S (Datatypes.S (Datatypes.S (2 * n)))))) with (Datatypes.S (2 * Datatypes.S (Datatypes.S n))) by lia; apply stuff_odd).
  assert (O7 : forall x, stuff x (Datatypes.S (Datatypes.S (Datatypes.S (Datatypes.S (Datatypes.S (Datatypes.S (Datatypes.S (2 * n)))))))) = 0) by (intros x; replace (Datatypes.S (Datatypes.S (Datatypes.S (Datatypes.S (Datatypes.S (Datatypes.S (Datatypes.S (2 * n)))))))) with (Datatypes.S (2 * Datatypes.S (Datatypes.S (Datatypes.S n)))) by lia; apply stuff_odd).
  rewrite !E, !E4, !E6, !O3, !O5, !O7, !stuff_even, !stuff_odd. reflexivity.
Qed.

Lemma ap_ext a x y : (forall n, x n = y n) -> forall n, ap a x n = ap a y n.
Proof.
  intros E. assert (K : forall n, ap a x n = ap a y n /\ ap a x (Datatypes.S n) = ap a y (Datatypes.S n)).
  { induction n as [|n [I1 I2]]; [cbn; rewrite !E; split; reflexivity|]. split; [exact I2|]. cbn [ap]. rewrite I1, !E. reflexivity. }
  intros n. apply K.
Qed.
Lemma cascade_ext cs : forall x y, (forall n, x n = y n) -> forall n, cascade cs x n = cascade cs y n.
Proof. unfold cascade. induction cs as [|c cs IH]; intros x y E n; [apply E|]. cbn [fold_left]. apply IH. apply ap_ext, E. Qed.
Lemma casc4_lanes : forall a b X n, length a = length b ->
  let Y := casc4 (map va (store_coefficients a b)) X in
  l0 (Y n) = cascade a (fun k => l0 (X k)) n /\ l1 (Y n) = cascade b (fun k => l1 (X k)) n /\ l2 (Y n) = cascade a (fun k => l2 (X k)) n /\ l3 (Y n) = cascade b (fun k => l3 (X k)) n.
Proof.
  unfold casc4, cascade, store_coefficients. cbv zeta. induction a as [|x a IH]; intros [|y b] X n L; try discriminate L; [repeat split|].
  injection L as L. cbn [combine map va fold_left]. destruct (IH b (ap4 (Q4 x y x y) X) n L) as (A & B & C & D). rewrite A, B, C, D. repeat split.
Qed.

(** the filter's stages after n (oversampled) samples of a signal *)
Definition reached (a b : list R) (X : nat -> q4 R) (n : nat) (h : half) : Prop :=
  invs n X (h_stages h) /\ map va (h_stages h) = map va (store_coefficients a b).
Lemma rest_reached a b X : reached a b X 0 (at_rest a b).
Proof.
  split; [|reflexivity]. cbn [at_rest h_stages]. unfold store_coefficients. revert X. induction (combine a b) as [|[x y] l IH]; intros X; [exact I|].
  cbn [map invs]. split; [repeat split|apply IH].
Qed.
Lemma out_lanes a b L Rr k : length a = length b -> let Y := casc4 (map va (store_coefficients a b)) (stereo L Rr) in
  (l0 (Y k) + delay1 (fun j => l1 (Y j)) k) / 2 = lowpass a b L k /\ (l2 (Y k) + delay1 (fun j => l3 (Y j)) k) / 2 = lowpass a b Rr k.
Proof.
  intros E. cbv zeta. unfold lowpass. destruct (casc4_lanes a b (stereo L Rr) k E) as (A & _ & C & _). rewrite A, C. cbn [stereo l0 l2].
  destruct k as [|k]; cbn [delay1]; [split; reflexivity|]. destruct (casc4_lanes a b (stereo L Rr) k E) as (_ & B & _ & D). rewrite B, D. split; reflexivity.
Qed.

Definition lens_ok (lens : list nat) : Prop := Forall (fun len => (len mod 4 = 0 /\ len <= 256)%nat) lens.
Lemma div4 len : (len mod 4 = 0)%nat -> exists q, len = (4 * q)%nat.
Proof. intros H. exists (len / 4)%nat. pose proof (Nat.div_mod len 4 ltac:(lia)). lia. Qed.

Lemma feed_process a b L Rr lens : length a = length b -> lens_ok lens -> forall n h,
  reached a b (stereo L Rr) n h -> h_old h = old_at (casc4 (map va (store_coefficients a b)) (stereo L Rr)) n ->
  exists h', feed process_block h L Rr n lens = Ok (h', cut (lowpass a b L) n (total lens), cut (lowpass a b Rr) n (total lens)) /\
    reached a b (stereo L Rr) (n + total lens) h' /\ h_old h' = old_at (casc4 (map va (store_coefficients a b)) (stereo L Rr)) (n + total lens).
Proof.
  intros E OK. induction OK as [|len lens [M Lm] _ IH]; intros n h RC OLD; [exists h; cbn [feed total fold_right]; rewrite Nat.add_0_r; repeat split; try apply RC; exact OLD|].
  cbn [feed total fold_right]. fold (total lens). destruct (div4 len M) as [q ->]. unfold process_block at 1. unfold scratch_buffer at 1.
  unfold cut at 1. rewrite map_length, seq_length, (proj2 (Z.ltb_ge _ _)) by lia. cbn [obind]. rewrite scratch_ok.
  destruct RC as [RI RV]. pose proof (filters_ok (2 * q) (h_stages h) n (stereo L Rr) RI) as F. replace (2 * (2 * q))%nat with (4 * q)%nat in F by lia.
  destruct (process_filters _ _) as [st o]. destruct F as (-> & I' & V'). rewrite RV, OLD, combine_ok. cbn [obind].
  destruct (IH (n + 4 * q)%nat (mk_half st (old_at (casc4 (map va (store_coefficients a b)) (stereo L Rr)) (n + 4 * q)))) as (h' & -> & RC' & OLD').
  { split; [exact I'|cbn [h_stages]; congruence]. } { reflexivity. }
  cbn [obind]. exists h'. replace (n + (4 * q + total lens))%nat with (n + 4 * q + total lens)%nat by lia. split; [|split; assumption].
  unfold cut. rewrite !seq_app, !map_app. f_equal. f_equal; [f_equal|]; f_equal; apply map_ext; intros k; apply (out_lanes a b L Rr k E).
Qed.

(* ================= C137 ================= *)

(** From rest, for all coefficients, all stereo signals and all ways of cutting them into blocks (of a
    multiple of four and at most 256 samples): the left output is the half-band low-pass of the left input
    and the right of the right, sample for sample.  In particular the channels do not influence each
    other and the block size does not matter. *)
Theorem C137_low_pass : forall a b L Rr lens, length a = length b -> lens_ok lens ->
  exists h', feed process_block (at_rest a b) L Rr 0 lens = Ok (h', cut (lowpass a b L) 0 (total lens), cut (lowpass a b Rr) 0 (total lens)).
Proof. intros a b L Rr lens E OK. destruct (feed_process a b L Rr lens E OK 0%nat (at_rest a b) (rest_reached a b _) eq_refl) as (h' & H & _). exists h'. exact H. Qed.
Print Assumptions C137_low_pass.

(** A block that does not fit the scratch array stops the program. *)
Theorem C137_too_long_panics : forall h l r, (256 < length l)%nat ->
  process_block h l r = Panic /\ downsample_by_two h l r = Panic.
Proof. intros h l r H. unfold process_block, downsample_by_two, scratch_buffer. rewrite (proj2 (Z.ltb_lt _ _)) by lia. split; reflexivity. Qed.
Print Assumptions C137_too_long_panics.

(** Resetting a filter after any use gives back the filter at rest. *)
Theorem C137_reset : forall a b L Rr lens h' ls rs, length a = length b -> lens_ok lens ->
  feed process_block (at_rest a b) L Rr 0 lens = Ok (h', ls, rs) -> half_reset h' = at_rest a b.
Proof.
  intros a b L Rr lens h' ls rs E OK H. destruct (feed_process a b L Rr lens E OK 0%nat (at_rest a b) (rest_reached a b _) eq_refl) as (h2 & H2 & RC & _).
  rewrite H in H2. injection H2 as <- _ _. destruct RC as [_ V]. unfold half_reset, at_rest. f_equal. clear H OK E.
  unfold store_coefficients in *. revert V. generalize (h_stages h'). induction (combine a b) as [|[x y] l IH]; intros st V; destruct st as [|s st]; try discriminate V; [reflexivity|].
  cbn [map] in V |- *. injection V as V1 V2. rewrite (IH st V2). cbn [va] in V1. rewrite V1. reflexivity.
Qed.
Print Assumptions C137_reset.

(* ================= C138: changing the sample rate ================= *)

Lemma down_ok q : forall Y n ar cr dr, downsample_apply ar cr dr (map Y (seq (2 * n) (8 * q))) =
  (map (fun i => (l0 (Y (2 * i + 1)%nat) + l1 (Y (2 * i)%nat)) / 2) (seq n (4 * q)), map (fun i => (l2 (Y (2 * i + 1)%nat) + l3 (Y (2 * i)%nat)) / 2) (seq n (4 * q))).
Proof.
  induction q as [|q IH]; intros Y n ar cr dr; [reflexivity|].
  replace (8 * Datatypes.S q)%nat with (Datatypes.S (Datatypes.S (Datatypes.S (Datatypes.S (Datatypes.S (Datatypes.S (Datatypes.S (Datatypes.S (8 * q))))))))) by lia.
  replace (4 * Datatypes.S q)%nat with (Datatypes.S (Datatypes.S (Datatypes.S (Datatypes.S (4 * q))))) by lia.
  cbn [seq map downsample_apply].
  replace (Datatypes.S (Datatypes.S (Datatypes.S (Datatypes.S (Datatypes.S (Datatypes.S (Datatypes.S (Datatypes.S (2 * n))))))))) with (2 * Datatypes.S (Datatypes.S (Datatypes.S (Datatypes.S n))))%nat by lia.
  rewrite IH. cbv zeta. unfold zip4, shuf, movelh, movehl, add_ss, m128_half, set1. cbn [l0 l1 l2 l3 lane].
  replace (2 * n + 1)%nat with (Datatypes.S (2 * n)) by lia.
  replace (2 * Datatypes.S n)%nat with (Datatypes.S (Datatypes.S (2 * n))) by lia.
  replace (2 * Datatypes.S (Datatypes.S n))%nat with (Datatypes.S (Datatypes.S (Datatypes.S (Datatypes.S (2 * n))))) by lia.
  replace (2 * Datatypes.S (Datatypes.S (Datatypes.S n)))%nat with (Datatypes.S (Datatypes.S (Datatypes.S (Datatypes.S (Datatypes.S (Datatypes.S (2 * n))))))) by lia.
  rewrite !Nat.add_1_r.
  apply f_equal2; (apply f_equal2; [lra|]; apply f_equal2; [lra|]; apply f_equal2; [lra|]; apply f_equal2; [lra|]; reflexivity).
Qed.

Lemma feed_down a b L Rr lens : length a = length b -> Forall (fun len => (len mod 8 = 0 /\ len <= 256)%nat) lens -> forall n h,
  reached a b (stereo L Rr) (2 * n) h ->
  exists h', feed downsample_by_two h L Rr (2 * n) lens = Ok (h', cut (fun i => lowpass a b L (2 * i + 1)) n (total lens / 2), cut (fun i => lowpass a b Rr (2 * i + 1)) n (total lens / 2)) /\
    reached a b (stereo L Rr) (2 * n + total lens) h'.
Proof.
  intros E OK. induction OK as [|len lens [M Lm] _ IH]; intros n h RC; [exists h; cbn [feed total fold_right]; rewrite Nat.add_0_r; split; [reflexivity|exact RC]|].
  cbn [feed total fold_right]. fold (total lens). assert (exists q, len = (8 * q)%nat) as [q ->] by (exists (len / 8)%nat; pose proof (Nat.div_mod len 8 ltac:(lia)); lia).
  unfold downsample_by_two at 1. unfold scratch_buffer at 1. unfold cut at 1. rewrite map_length, seq_length, (proj2 (Z.ltb_ge _ _)) by lia. cbn [obind].
  assert (SC : scratch4 (cut L (2 * n) (8 * q)) (cut Rr (2 * n) (8 * q)) = map (stereo L Rr) (seq (2 * n) (4 * (2 * q)))) by (replace (8 * q)%nat with (4 * (2 * q))%nat by lia; apply scratch_ok).
  rewrite SC. clear SC.
  destruct RC as [RI RV]. pose proof (filters_ok (4 * q) (h_stages h) (2 * n) (stereo L Rr) RI) as F. replace (2 * (4 * q))%nat with (4 * (2 * q))%nat in F by lia.
  destruct (process_filters _ _) as [st o]. destruct F as (-> & I' & V'). replace (4 * (2 * q))%nat with (8 * q)%nat by lia. rewrite RV, down_ok. cbn [obind].
  replace (2 * n + 8 * q)%nat with (2 * (n + 4 * q))%nat by lia.
  destruct (IH (n + 4 * q)%nat (mk_half st (h_old h))) as (h' & -> & RC').
  { split; [cbn [h_stages]; replace (2 * (n + 4 * q))%nat with (2 * n + 4 * (2 * q))%nat by lia; exact I'|cbn [h_stages]; congruence]. }
  cbn [obind]. exists h'. replace ((8 * q + total lens) / 2)%nat with (4 * q + total lens / 2)%nat by (replace (8 * q + total lens)%nat with (total lens + (4 * q) * 2)%nat by lia; rewrite Nat.div_add by lia; lia).
  split; [|replace (2 * n + (8 * q + total lens))%nat with (2 * (n + 4 * q) + total lens)%nat by lia; exact RC'].
  unfold cut. rewrite !seq_app, !map_app. f_equal. f_equal; [f_equal|]; f_equal; apply map_ext; intros k;
    destruct (out_lanes a b L Rr (2 * k + 1) E) as [O1 O2]; rewrite Nat.add_1_r in *; cbn [delay1] in O1, O2; assumption.
Qed.

(** Downsampling: from rest, for every signal and block division (multiples of eight), the output is the
    low-passed signal at every second sample. *)
Theorem C138_downsample : forall a b L Rr lens, length a = length b -> Forall (fun len => (len mod 8 = 0 /\ len <= 256)%nat) lens ->
  exists h', feed downsample_by_two (at_rest a b) L Rr 0 lens =
    Ok (h', cut (fun i => lowpass a b L (2 * i + 1)) 0 (total lens / 2), cut (fun i => lowpass a b Rr (2 * i + 1)) 0 (total lens / 2)).
Proof. intros a b L Rr lens E OK. destruct (feed_down a b L Rr lens E OK 0%nat (at_rest a b) (rest_reached a b _)) as (h' & H & _). exists h'. exact H. Qed.
Print Assumptions C138_downsample.

Lemma feed_up a b L Rr lens : length a = length b -> Forall (fun len => (len mod 4 = 0 /\ len <= 128)%nat) lens -> forall n h,
  let X := stereo (stuff L) (stuff Rr) in
  reached a b X (2 * n) h -> h_old h = old_at (casc4 (map va (store_coefficients a b)) X) (2 * n) ->
  exists h', feed upsample_by_two h L Rr n lens = Ok (h', cut (lowpass a b (stuff L)) (2 * n) (2 * total lens), cut (lowpass a b (stuff Rr)) (2 * n) (2 * total lens)).
Proof.
  intros E OK. cbv zeta. induction OK as [|len lens [M Lm] _ IH]; intros n h RC OLD; [exists h; reflexivity|].
  cbn [feed total fold_right]. fold (total lens). destruct (div4 len M) as [q ->]. unfold upsample_by_two at 1. unfold work_buffer at 1.
  unfold cut at 1. rewrite map_length, seq_length, (proj2 (Z.ltb_ge _ _)) by lia. cbn [obind]. rewrite work_ok.
  destruct RC as [RI RV]. pose proof (filters_ok (4 * q) (h_stages h) (2 * n) (stereo (stuff L) (stuff Rr)) RI) as F. replace (2 * (4 * q))%nat with (8 * q)%nat in F by lia.
  destruct (process_filters _ _) as [st o]. destruct F as (-> & I' & V'). rewrite RV, OLD, combine_ok. cbn [obind].
  replace (2 * n + 8 * q)%nat with (2 * (n + 4 * q))%nat in * by lia.
  destruct (IH (n + 4 * q)%nat (mk_half st (old_at (casc4 (map va (store_coefficients a b)) (stereo (stuff L) (stuff Rr))) (2 * (n + 4 * q))))) as (h' & ->).
  { split; [exact I'|cbn [h_stages]; congruence]. } { reflexivity. }
  cbn [obind]. exists h'. replace (2 * (4 * q + total lens))%nat with (8 * q + 2 * total lens)%nat by lia.
  unfold cut. rewrite !seq_app, !map_app. replace (2 * n + 8 * q)%nat with (2 * (n + 4 * q))%nat by lia.
  f_equal. f_equal; [f_equal|]; f_equal; apply map_ext; intros k; apply (out_lanes a b (stuff L) (stuff Rr) k E).
Qed.

(** Upsampling: the output is the low-passed signal with a zero between any two samples. *)
Theorem C138_upsample : forall a b L Rr lens, length a = length b -> Forall (fun len => (len mod 4 = 0 /\ len <= 128)%nat) lens ->
  exists h', feed upsample_by_two (at_rest a b) L Rr 0 lens =
    Ok (h', cut (lowpass a b (stuff L)) 0 (2 * total lens), cut (lowpass a b (stuff Rr)) 0 (2 * total lens)).
Proof. intros a b L Rr lens E OK. exact (feed_up a b L Rr lens E OK 0%nat (at_rest a b) (rest_reached a b _) eq_refl). Qed.
Print Assumptions C138_upsample.
