(* ChorusProps.v - C205-C208: the chorus. *)
From Coq Require Import Reals Lra Psatz.
From Coquelicot Require Rcomplements.
From Verif Require Import Base Util BlockModel BlockProofs BlockProps RampProps LagModel MathModel DelayModel DelayProps BiquadModel FlangerProps ChorusModel.
Local Open Scope R_scope.

(** ** specification: what a voice plays *)
(* with delay v, at time t: the 12-point interpolation of what was written around t - v *)
Definition voice (tab : Z -> R) (h : Z -> R) (t : Z) (v : R) : R := tap12 tab (dd_row v) h (t - dd_dtime v - 12).
(* each voice at its place between the speakers *)
Fixpoint mixdown (y : R -> R) (vs : list R) (ps : list (R * R)) : R * R :=
  match vs, ps with v :: vs', q :: ps' => (y v * fst q + fst (mixdown y vs' ps'), y v * snd q + snd (mixdown y vs' ps')) | _, _ => (0, 0) end.
(* the delay times of sample i of a block *)
Definition delays (ls : list lag) (i : nat) : list R := map (fun l => l_v (Nat.iter (Datatypes.S i) lag_process l)) ls.
Definition voices_of (tab : Z -> R) (h : Z -> R) (n : Z) (s : chorus) : list (R * R) :=
  map (fun i => mixdown (voice tab h (32 * n + Z.of_nat i)) (delays (c_time s) i) (c_pan s)) (seq 0 32).
(* the delay line holds what was written in n blocks *)
Definition line (n : Z) (h : Z -> R) (s : chorus) : Prop := c_wpos s = ((32 * n) mod DLEN)%Z /\ holds n h (c_buf s) /\ length (c_time s) = length (c_pan s).

(** ** one block *)
Lemma voices_read tab n h b k : (0 <= n)%Z -> (0 <= k < 32)%Z -> holds n h b -> forall ls ps, length ls = length ps ->
  ch_voices tab b ((32 * n) mod DLEN) k ls ps = Ok (map lag_process ls, mixdown (voice tab h (32 * n + k)) (map (fun l => l_v (lag_process l)) ls) ps).
Proof.
  intros N K H. induction ls as [|l ls IH]; intros [|q ps] L; try discriminate; [reflexivity|].
  cbn [ch_voices map mixdown]. rewrite (read_holds tab n h b k _ N K H). cbn [obind]. rewrite IH by (cbn in L; lia). cbn [obind].
  destruct (mixdown (voice tab h (32 * n + k)) (map (fun l0 => l_v (lag_process l0)) ls) ps) as (a, c). reflexivity.
Qed.
Lemma iter_in {A} (f : A -> A) i a : Nat.iter i f (f a) = Nat.iter (Datatypes.S i) f a.
Proof. induction i as [|i IH]; [reflexivity|]. change (f (Nat.iter i f (f a)) = f (Nat.iter (Datatypes.S i) f a)). now rewrite IH. Qed.
Lemma iter_map {A} (f : A -> A) i l : map (Nat.iter i f) (map f l) = map (Nat.iter (Datatypes.S i) f) l.
Proof. rewrite map_map. apply map_ext. intros a. apply iter_in. Qed.
Lemma reads_read tab n h b ps : (0 <= n)%Z -> holds n h b -> forall m k ls, length ls = length ps -> (0 <= k)%Z -> (k + Z.of_nat m <= 32)%Z ->
  ch_reads tab b ((32 * n) mod DLEN) m k ps ls = Ok (map (Nat.iter m lag_process) ls, map (fun i => mixdown (voice tab h (32 * n + k + Z.of_nat i)) (delays ls i) ps) (seq 0 m)).
Proof.
  intros N H. induction m as [|m IH]; intros k ls L K1 K2.
  - cbn [ch_reads seq map]. do 2 f_equal. rewrite map_ext with (g := fun x => x) by reflexivity. now rewrite map_id.
  - cbn [ch_reads]. rewrite (voices_read tab n h b k N) by (exact H || exact L || lia). cbn [obind]. rewrite IH by (try rewrite map_length; lia). cbn [obind]. cbn [seq map]. do 2 f_equal.
    + apply iter_map.
    + f_equal; [rewrite Z.add_0_r; reflexivity|]. rewrite <- seq_shift, map_map. apply map_ext. intros i. f_equal.
      * replace (32 * n + k + Z.of_nat (Datatypes.S i))%Z with (32 * n + (k + 1) + Z.of_nat i)%Z by lia. reflexivity.
      * unfold delays. rewrite map_map. apply map_ext. intros l. f_equal. apply iter_in.
Qed.
Lemma times_length sr p ls xs : length ls = length xs -> length (ch_times sr p ls xs) = length ls.
Proof. revert xs. induction ls as [|l ls IH]; intros [|x xs] L; try discriminate; [reflexivity|]. cbn in *. f_equal. apply IH. lia. Qed.
Lemma stereo_length : forall data s, length (snd (stereo_loop s data)) = length data.
Proof. induction data as [|(l, r) data IH]; intros s; [reflexivity|]. cbn [stereo_loop]. destruct (step_left _ l) as (s1, ol). destruct (step_right s1 r) as (s2, o2). specialize (IH s2). destruct (stereo_loop s2 data). cbn in *. lia. Qed.
Lemma zip_length {A B C} (f : Z -> A -> B -> C) xs ys : length xs = length ys -> length (zip f xs ys) = length xs.
Proof. intros L. unfold zip. rewrite map_length, !combine_length, seq_length. lia. Qed.
Lemma nth_zip {A B C} (f : Z -> A -> B -> C) xs ys dx dy dz i : length xs = length ys -> (i < length xs)%nat -> nth i (zip f xs ys) dz = f (Z.of_nat i) (nth i xs dx) (nth i ys dy).
Proof.
  intros L H. unfold zip. set (g := fun '(k, (x, y)) => f (Z.of_nat k) x y). rewrite (nth_indep _ dz (g (0%nat, (dx, dy)))) by (rewrite map_length, !combine_length, seq_length; lia).
  rewrite map_nth. rewrite combine_nth by (rewrite seq_length, combine_length; lia). rewrite combine_nth by exact L. rewrite seq_nth by exact H. reflexivity.
Qed.
(* what the filters make of the voices *)
Definition filtered (s : chorus) (vs : list (R * R)) : list (R * R) := snd (stereo_loop (c_hp s) (snd (stereo_loop (c_lp s) vs))).
Definition fed (s : chorus) (xs ws : list (R * R)) : list R := zip (ch_feed (c_fb s)) xs ws.
Lemma block_spec tab sr p s xs n h : (0 <= n)%Z -> line n h s -> length (c_time s) = length (c_phase s) ->
  let u := ch_update sr p s in let ws := filtered u (voices_of tab h n u) in
  exists s', ch_process tab sr p s xs = Ok (s', zip (ch_fade (c_mix u)) xs (zip (fun k (_ : R * R) w => ch_widen (c_width u) k w) xs ws)) /\
    line (n + 1) (append h n (fun k => nth (Z.to_nat k) (fed u xs ws) 0)) s' /\
    c_time s' = map (Nat.iter 32 lag_process) (c_time u) /\ c_phase s' = c_phase u /\ c_pan s' = c_pan s /\ c_mix s' = c_mix u /\ c_width s' = c_width u /\ c_fb s' = c_fb u.
Proof.
  intros N (W & H & L) LP u ws. unfold ch_process. cbv zeta. fold u.
  assert (Lu : length (c_time u) = length (c_pan u)). { unfold u, ch_update. cbn [c_time c_pan]. rewrite times_length by (rewrite map_length; exact LP). exact L. }
  assert (Bu : c_buf u = c_buf s) by reflexivity. assert (Wu : c_wpos u = c_wpos s) by reflexivity. rewrite Bu, Wu, W.
  rewrite (reads_read tab n h (c_buf s) (c_pan u) N H 32 0 (c_time u) Lu) by lia. cbn [obind].
  assert (VS : map (fun i => mixdown (voice tab h (32 * n + 0 + Z.of_nat i)) (delays (c_time u) i) (c_pan u)) (seq 0 32) = voices_of tab h n u).
  { unfold voices_of. apply map_ext. intros i. now rewrite Z.add_0_r. }
  rewrite VS. unfold process_block_stereo. unfold ws, filtered. destruct (stereo_loop (c_lp u) (voices_of tab h n u)) as (lp1, v1). cbn [snd]. destruct (stereo_loop (c_hp u) v1) as (hp1, v2). cbn [snd].
  destruct (write_holds n h (c_buf s) (fun k => nth (Z.to_nat k) (zip (ch_feed (c_fb u)) xs v2) 0) N H) as (b1 & E & H1). rewrite E. cbn [obind].
  eexists. split; [reflexivity|]. split; [split; [|split]|].
  - cbn [c_wpos]. unfold dd_advance. rewrite landD. rewrite Zplus_mod_idemp_l. f_equal. lia.
  - exact H1.
  - cbn [c_time c_pan]. rewrite map_length. exact Lu.
  - cbn [c_time c_phase c_pan c_mix c_width c_fb]. repeat split; reflexivity.
Qed.

(** ** C205 four voices between the speakers *)
Theorem C205_pan : forall i, (0 <= i <= 3)%Z -> let (l, r) := ch_pan i in l * l + r * r = 1 / 4 /\ 0 <= l /\ 0 <= r /\ ch_pan (3 - i) = (r, l).
Proof.
  intros i Hi. unfold ch_pan, ch_x, CH_DEPTH. change (IZR (4 - 1)) with 3. assert (S4 : sqrt 4 = 2) by (replace 4 with (2 * 2) by ring; apply sqrt_square; lra). change (IZR 4) with 4. rewrite S4.
  assert (B : 0 <= IZR i <= 3) by (split; apply IZR_le; lia). rewrite minus_IZR.
  assert (P1 : 0 <= 1 / 2 - 1 / 2 * (2 * (IZR i / 3) - 1)) by lra. assert (P2 : 0 <= 1 / 2 + 1 / 2 * (2 * (IZR i / 3) - 1)) by lra.
  pose proof (sqrt_sqrt _ P1). pose proof (sqrt_sqrt _ P2). pose proof (sqrt_pos (1 / 2 - 1 / 2 * (2 * (IZR i / 3) - 1))). pose proof (sqrt_pos (1 / 2 + 1 / 2 * (2 * (IZR i / 3) - 1))).
  split; [|split; [lra|split; [lra|]]].
  - set (a := sqrt (1 / 2 - 1 / 2 * (2 * (IZR i / 3) - 1))) in *. set (b := sqrt (1 / 2 + 1 / 2 * (2 * (IZR i / 3) - 1))) in *. nra.
  - f_equal; do 2 f_equal; field.
Qed.
Theorem C205_outer_pans : ch_pan 0 = (1 / 2, 0) /\ ch_pan 3 = (0, 1 / 2).
Proof.
  unfold ch_pan, ch_x, CH_DEPTH. change (IZR (4 - 1)) with 3. assert (S4 : sqrt 4 = 2) by (replace 4 with (2 * 2) by ring; apply sqrt_square; lra). change (IZR 4) with 4. rewrite S4.
  replace (1 / 2 - 1 / 2 * (2 * (0 / 3) - 1)) with 1 by field. replace (1 / 2 + 1 / 2 * (2 * (0 / 3) - 1)) with 0 by field. replace (1 / 2 - 1 / 2 * (2 * (3 / 3) - 1)) with 0 by field. replace (1 / 2 + 1 / 2 * (2 * (3 / 3) - 1)) with 1 by field.
  rewrite sqrt_0, sqrt_1. split; f_equal; ring.
Qed.
(* the delay of every voice stays within the depth around the delay time, whatever the LFO does *)
Definition gentle (p : chpar) : Prop := 0 <= cp_rate p * sync (cp_time_sync p) (cp_ratio p) <= 1.
Lemma wrap_range p x : gentle p -> 0 <= x <= 1 -> 0 <= ch_advance p x <= 1.
Proof. intros G H. unfold ch_advance, ch_wrap, gentle in *. destruct (Rlt_dec _ _); lra. Qed.
Lemma tri_range x : 0 <= x <= 1 -> -1 <= ch_tri x <= 1.
Proof. intros H. unfold ch_tri. assert (0 <= Rabs (2 * x - 1) <= 1) by (split; [apply Rabs_pos|apply Rabs_le; lra]). lra. Qed.
Definition centre (sr : R) (p : chpar) : R := sr * (cp_pitch p * (1 / sync (cp_time_sync p) (cp_ratio p))).
Definition in_depth (sr : R) (p : chpar) (v : R) : Prop := centre sr p * (1 - cp_depth p) <= v <= centre sr p * (1 + cp_depth p).
Lemma target_range sr p x : 0 <= centre sr p -> 0 <= cp_depth p -> 0 <= x <= 1 -> in_depth sr p (ch_target sr p x).
Proof.
  intros C D X. unfold in_depth, ch_target. fold (centre sr p). pose proof (tri_range x X) as T. split; apply Rmult_le_compat_l; try exact C; nra.
Qed.
Definition good_lag (sr : R) (p : chpar) (l : lag) : Prop := l_lp l = 1 / 1000 /\ l_lpinv l = 999 / 1000 /\ l_first l = false /\ in_depth sr p (l_v l) /\ in_depth sr p (l_target l).
Lemma good_step sr p l : good_lag sr p l -> good_lag sr p (lag_process l).
Proof.
  intros (A & B & C & (D1 & D2) & (E1 & E2)). unfold good_lag, lag_process, in_depth. cbn [l_lp l_lpinv l_first l_v l_target]. rewrite A, B. repeat split; auto; lra.
Qed.
Lemma good_iter sr p i l : good_lag sr p l -> good_lag sr p (Nat.iter i lag_process l).
Proof. intros H. induction i as [|i IH]; [exact H|]. cbn [Nat.iter nat_rect]. now apply good_step. Qed.
(* a lag that either has not been used or is in range *)
Definition fresh_or_good (sr : R) (p : chpar) (l : lag) : Prop := (l_lp l = 1 / 1000 /\ l_lpinv l = 999 / 1000 /\ l_first l = true) \/ good_lag sr p l.
Lemma new_good sr p l x : fresh_or_good sr p l -> in_depth sr p x -> good_lag sr p (lag_new_value l x).
Proof.
  intros [(A & B & C)|(A & B & C & D & E)] X; unfold lag_new_value; rewrite C; unfold good_lag; cbn [l_lp l_lpinv l_first l_v l_target]; auto 10.
Qed.
Lemma times_good sr p : forall ls xs, 0 <= centre sr p -> 0 <= cp_depth p -> Forall (fresh_or_good sr p) ls -> Forall (fun x => 0 <= x <= 1) xs -> length ls = length xs ->
  Forall (good_lag sr p) (ch_times sr p ls xs).
Proof.
  induction ls as [|l ls IH]; intros [|x xs] C D F1 F2 L; try discriminate; [constructor|]. inversion F1; subst. inversion F2; subst. cbn [ch_times]. constructor.
  - apply new_good; [assumption|]. now apply target_range.
  - apply IH; auto; cbn in L; lia.
Qed.
Lemma ch_run_app tab sr h1 h2 s : ch_run tab sr (h1 ++ h2) s = obind (ch_run tab sr h1 s) (fun '(s1, y1) => obind (ch_run tab sr h2 s1) (fun '(s2, y2) => Ok (s2, y1 ++ y2))).
Proof.
  revert s. induction h1 as [|(p, xs) h1 IH]; intros s; cbn [ch_run app].
  - cbn [obind]. destruct (ch_run tab sr h2 s) as [(s2, y2)| |]; reflexivity.
  - destruct (ch_process tab sr p s xs) as [(s1, ys)| |]; [|reflexivity|reflexivity]. cbn [obind]. rewrite IH. destruct (ch_run tab sr h1 s1) as [(s2, yss)| |]; [|reflexivity|reflexivity]. cbn [obind]. destruct (ch_run tab sr h2 s2) as [(s3, z)| |]; reflexivity.
Qed.
(* after any number of blocks at one setting, from init, every delay of every voice at every sample of the next block is within the depth *)
Lemma init_line p : line 0 (fun _ => 0) (ch_init p ch_new) /\ length (c_time (ch_init p ch_new)) = length (c_phase (ch_init p ch_new)).
Proof.
  unfold line, ch_init, ch_initial_update. cbn [c_wpos c_buf c_time c_pan c_phase]. rewrite !map_length. repeat split; try reflexivity.
Qed.
Theorem C205_delay_range : forall tab sr p xss s yss, 0 <= centre sr p -> 0 <= cp_depth p -> gentle p ->
  ch_run tab sr (map (fun xs => (p, xs)) xss) (ch_init p ch_new) = Ok (s, yss) ->
  forall i v, In v (delays (c_time (ch_update sr p s)) i) -> in_depth sr p v.
Proof.
  intros tab sr p xss s yss C D G E.
  assert (I : forall xss s0 n h, (0 <= n)%Z -> line n h s0 -> length (c_time s0) = length (c_phase s0) -> Forall (fresh_or_good sr p) (c_time s0) -> Forall (fun x => 0 <= x <= 1) (c_phase s0) ->
    forall s yss, ch_run tab sr (map (fun xs => (p, xs)) xss) s0 = Ok (s, yss) -> length (c_time s) = length (c_phase s) /\ Forall (fresh_or_good sr p) (c_time s) /\ Forall (fun x => 0 <= x <= 1) (c_phase s)).
  { clear xss s yss E. induction xss as [|xs xss IH]; intros s0 n h N L LP F1 F2 s yss E.
    - cbn in E. assert (s = s0) by congruence. subst s. auto.
    - cbn [map ch_run] in E. destruct (block_spec tab sr p s0 xs n h N L LP) as (s1 & E1 & L1 & T1 & P1 & Q1 & _). rewrite E1 in E. cbn [obind] in E.
      destruct (ch_run tab sr (map (fun xs => (p, xs)) xss) s1) as [(s2, y2)| |] eqn:E2; try discriminate. cbn [obind] in E. assert (s = s2) by congruence. subst s2.
      assert (PH : Forall (fun x => 0 <= x <= 1) (map (ch_advance p) (c_phase s0))) by (apply Forall_map; eapply Forall_impl; [|exact F2]; intros x Hx; now apply wrap_range).
      assert (TG : Forall (good_lag sr p) (c_time (ch_update sr p s0))) by (unfold ch_update; cbn [c_time]; apply times_good; auto; now rewrite map_length).
      apply (IH s1 (n + 1)%Z _ ltac:(lia) L1) with (yss := y2); auto.
      + rewrite T1, P1, map_length. unfold ch_update. cbn [c_time c_phase]. rewrite times_length by (rewrite map_length; exact LP). now rewrite map_length.
      + rewrite T1. apply Forall_map. eapply Forall_impl; [|exact TG]. intros l Hl. right. now apply good_iter.
      + rewrite P1. exact PH. }
  destruct (init_line p) as (L0 & LP0). assert (A1 : Forall (fresh_or_good sr p) (c_time (ch_init p ch_new))).
  { unfold ch_init, ch_initial_update. cbn [c_time ch_new]. unfold four. cbn [map]. assert (FG : fresh_or_good sr p (lag_set_rate lag_default (1 / 1000))) by (left; unfold lag_set_rate, lag_default; cbn [l_lp l_lpinv l_first]; repeat split; lra). repeat (apply Forall_cons; [exact FG|]). apply Forall_nil. }
  assert (A2 : Forall (fun x => 0 <= x <= 1) (c_phase (ch_init p ch_new))).
  { unfold ch_init, ch_initial_update. cbn [c_phase]. unfold four, ch_x, CH_DEPTH. cbn [map]. change (IZR (4 - 1)) with 3. repeat constructor; lra. }
  destruct (I xss (ch_init p ch_new) 0%Z (fun _ => 0) ltac:(lia) L0 LP0 A1 A2 s yss E) as (LP & F1 & F2).
  intros i v Hv. unfold delays in Hv. apply in_map_iff in Hv. destruct Hv as (l & <- & Hl).
    assert (TG : Forall (good_lag sr p) (c_time (ch_update sr p s))) by (unfold ch_update; cbn [c_time]; apply times_good; auto; [apply Forall_map; eapply Forall_impl; [|exact F2]; intros x Hx; now apply wrap_range|now rewrite map_length]).
    rewrite Forall_forall in TG. destruct (good_iter sr p (Datatypes.S i) l (TG l Hl)) as (_ & _ & _ & R1 & _). exact R1.
Qed.
(* REFUTED as four voices: the first (hard left) and last (hard right) have LFO phases 0 and 1, which is the same point of the triangle,
   so for every history of settings they have the same delay at every sample: there are three voices, one of them heard in the middle *)
Lemma four_list {A} (l : list A) : length l = 4%nat -> exists a b c d, l = [a; b; c; d].
Proof. destruct l as [|a [|b [|c [|d [|]]]]]; cbn; try lia. intros _. now exists a, b, c, d. Qed.
Definition twin (s : chorus) : Prop := exists a b c, c_time s = [a; b; c; a] /\ exists x y z w, c_phase s = [x; y; z; w] /\ (x = w \/ (x = 0 /\ w = 1)).
Lemma twin_update sr p s : gentle p -> (forall x, In x (c_phase s) -> 0 <= x <= 1) -> twin s -> twin (ch_update sr p s) /\ (forall x, In x (c_phase (ch_update sr p s)) -> 0 <= x <= 1).
Proof.
  intros G P (a & b & c & T & x & y & z & w & F & E). split.
  - unfold twin, ch_update. cbn [c_time c_phase]. rewrite T, F. cbn [map ch_times].
    assert (X : (ch_advance p x = ch_advance p w \/ (ch_advance p x = 0 /\ ch_advance p w = 1))).
    { destruct E as [->|(-> & ->)]; [now left|]. unfold ch_advance, ch_wrap, gentle in *. set (r := cp_rate p * sync (cp_time_sync p) (cp_ratio p)) in *. destruct (Rlt_dec 1 (0 + r)); [lra|]. destruct (Rlt_dec 1 (1 + r)); [left; lra|]. right. lra. }
    assert (TG : ch_target sr p (ch_advance p x) = ch_target sr p (ch_advance p w)).
    { destruct X as [->|(-> & ->)]; [reflexivity|]. unfold ch_target, ch_tri. replace (2 * 0 - 1) with (- (1)) by ring. replace (2 * 1 - 1) with 1 by ring. rewrite Rabs_R1, Rabs_Ropp, Rabs_R1. reflexivity. }
    rewrite TG. do 3 eexists. split; [reflexivity|]. do 4 eexists. split; [reflexivity|exact X].
  - unfold ch_update. cbn [c_phase]. intros q Hq. apply in_map_iff in Hq. destruct Hq as (q0 & <- & Hq). apply wrap_range; auto.
Qed.
Theorem C205_three_voices_refuted : forall tab sr p0 h, Forall (fun b => gentle (fst b)) h ->
  exists s yss, ch_run tab sr h (ch_init p0 ch_new) = Ok (s, yss) /\
  (forall p y i, gentle p -> exists v0 v1 v2, delays (c_time (ch_update sr p s)) i = [v0; v1; v2; v0] /\
     mixdown y [v0; v1; v2; v0] (c_pan s) = (1 / 2 * y v0 + fst (ch_pan 1) * y v1 + fst (ch_pan 2) * y v2, 1 / 2 * y v0 + snd (ch_pan 1) * y v1 + snd (ch_pan 2) * y v2)).
Proof.
  intros tab sr p0 h F.
  assert (I : forall h s0 n hh, (0 <= n)%Z -> line n hh s0 -> length (c_time s0) = length (c_phase s0) -> twin s0 -> (forall x, In x (c_phase s0) -> 0 <= x <= 1) -> c_pan s0 = map ch_pan four -> Forall (fun b => gentle (fst b)) h ->
    exists s yss, ch_run tab sr h s0 = Ok (s, yss) /\ twin s /\ (forall x, In x (c_phase s) -> 0 <= x <= 1) /\ c_pan s = map ch_pan four).
  { clear. induction h as [|(p, xs) h IH]; intros s0 n hh N L LP T P Q F.
    - exists s0, []. auto.
    - inversion F as [|? ? G Fh]; subst. cbn [fst] in G. destruct (block_spec tab sr p s0 xs n hh N L LP) as (s1 & E1 & L1 & T1 & P1 & Q1 & _).
      destruct (twin_update sr p s0 G P T) as (TU & PU).
      destruct (IH s1 (n + 1)%Z _ ltac:(lia) L1) as (s2 & y2 & E2 & R2); auto.
      + rewrite T1, P1, map_length. unfold ch_update. cbn [c_time c_phase]. rewrite times_length by (rewrite map_length; exact LP). now rewrite map_length.
      + destruct TU as (a & b & c & TA & x & y & z & w & TB & TC). exists (Nat.iter 32 lag_process a), (Nat.iter 32 lag_process b), (Nat.iter 32 lag_process c). split; [rewrite T1, TA; reflexivity|]. exists x, y, z, w. rewrite P1. auto.
      + rewrite P1. exact PU.
      + rewrite Q1. exact Q.
      + exists s2. eexists. cbn [ch_run]. rewrite E1. cbn [obind]. rewrite E2. cbn [obind]. split; [reflexivity|exact R2]. }
  destruct (init_line p0) as (L0 & LP0). destruct (I h (ch_init p0 ch_new) 0%Z _ ltac:(lia) L0 LP0) as (s & yss & E & T & P & Q); auto.
  - unfold twin, ch_init, ch_initial_update. cbn [c_time c_phase ch_new]. unfold four, ch_x, CH_DEPTH. cbn [map]. change (IZR (4 - 1)) with 3. do 3 eexists. split; [reflexivity|]. do 4 eexists. split; [reflexivity|]. right. split; lra.
  - unfold ch_init, ch_initial_update. cbn [c_phase]. unfold four, ch_x, CH_DEPTH. cbn [map]. change (IZR (4 - 1)) with 3. intros x [<-|[<-|[<-|[<-|[]]]]]; lra.
  - exists s, yss. split; [exact E|]. intros p y i G. destruct (twin_update sr p s G P T) as ((a & b & c & TA & _) & _). rewrite TA. unfold delays. cbn [map]. do 3 eexists. split; [reflexivity|].
    rewrite Q. unfold four. cbn [map mixdown]. destruct C205_outer_pans as (-> & ->). cbn [fst snd]. f_equal; ring.
Qed.
(* tempo sync of the Rate control does nothing, and that of the Time control also multiplies the LFO's speed *)
Theorem C205_rate_sync_refuted : forall tab sr p b s xs, ch_process tab sr (mk_cp (cp_gain p) (cp_rate p) (cp_pitch p) (cp_depth p) (cp_mix p) (cp_width p) (cp_hp p) (cp_lp p) b (cp_time_sync p) (cp_ratio p)) s xs = ch_process tab sr p s xs /\
  (cp_time_sync p = true -> forall x, ch_advance p x = ch_wrap (x + cp_rate p * cp_ratio p)).
Proof.
  intros. split; [|intros E x; unfold ch_advance; rewrite E; reflexivity].
  destruct p as [g r pi d m w hp lp rs ts ra]. cbn [cp_gain cp_rate cp_pitch cp_depth cp_mix cp_width cp_hp cp_lp cp_time_sync cp_ratio].
  assert (T : forall ls qs, ch_times sr (mk_cp g r pi d m w hp lp b ts ra) ls qs = ch_times sr (mk_cp g r pi d m w hp lp rs ts ra) ls qs) by (induction ls as [|l ls IH]; intros [|q qs]; try reflexivity; cbn [ch_times]; now rewrite IH).
  assert (U : ch_update sr (mk_cp g r pi d m w hp lp b ts ra) s = ch_update sr (mk_cp g r pi d m w hp lp rs ts ra) s) by (unfold ch_update; cbv zeta; rewrite T; reflexivity).
  unfold ch_process. rewrite U. reflexivity.
Qed.
Example C205_nonvacuous : let p := mk_cp 1 (1 / 10) (1 / 100) (1 / 2) (1 / 2) 1 1 1 false false 1 in gentle p /\ 0 <= centre 44100 p /\ 0 <= cp_depth p /\ centre 44100 p = 441.
Proof. cbn. unfold gentle, centre, sync. cbn. repeat split; lra. Qed.
Print Assumptions C205_pan. Print Assumptions C205_outer_pans. Print Assumptions C205_delay_range. Print Assumptions C205_three_voices_refuted. Print Assumptions C205_rate_sync_refuted.

(** ** C206 the delay line *)
(* whatever the settings, every history of 32-sample blocks is processed without an access outside a buffer, and what is heard before the
   filters is the voices' interpolation of what was written before this block *)
Theorem C206_blocks : forall tab sr p0 h, exists s yss, ch_run tab sr h (ch_init p0 ch_new) = Ok (s, yss) /\ length yss = length h /\
  exists hist, (forall t, (t < 0)%Z -> hist t = 0) /\ line (Z.of_nat (length h)) hist s /\
   forall p xs, exists s', ch_process tab sr p s xs = Ok (s', zip (ch_fade (c_mix (ch_update sr p s))) xs (zip (fun k (_ : R * R) w => ch_widen (c_width (ch_update sr p s)) k w) xs
     (filtered (ch_update sr p s) (voices_of tab hist (Z.of_nat (length h)) (ch_update sr p s))))).
Proof.
  intros tab sr p0 h.
  assert (I : forall h s0 n hh, (0 <= n)%Z -> line n hh s0 -> length (c_time s0) = length (c_phase s0) -> (forall t, (t < 0)%Z -> hh t = 0) ->
    exists s yss hist, ch_run tab sr h s0 = Ok (s, yss) /\ length yss = length h /\ line (n + Z.of_nat (length h)) hist s /\ length (c_time s) = length (c_phase s) /\ (forall t, (t < 0)%Z -> hist t = 0)).
  { clear. induction h as [|(p, xs) h IH]; intros s0 n hh N L LP Z0.
    - exists s0, [], hh. cbn [length]. rewrite Z.add_0_r. auto.
    - destruct (block_spec tab sr p s0 xs n hh N L LP) as (s1 & E1 & L1 & T1 & P1 & Q1 & _).
      destruct (IH s1 (n + 1)%Z _ ltac:(lia) L1) as (s2 & y2 & h2 & E2 & Y2 & L2 & R2 & Z2).
      + rewrite T1, P1, map_length. unfold ch_update. cbn [c_time c_phase]. rewrite times_length by (rewrite map_length; exact LP). now rewrite map_length.
      + intros t Ht. unfold append. replace (32 * n <=? t)%Z with false by lia. cbn [andb]. now apply Z0.
      + exists s2. eexists. exists h2. cbn [ch_run]. rewrite E1. cbn [obind]. rewrite E2. cbn [obind length]. split; [reflexivity|]. split; [cbn; lia|].
        replace (n + Z.of_nat (Datatypes.S (length h)))%Z with (n + 1 + Z.of_nat (length h))%Z by lia. auto. }
  destruct (init_line p0) as (L0 & LP0). destruct (I h (ch_init p0 ch_new) 0%Z _ ltac:(lia) L0 LP0) as (s & yss & hist & E & Y & L & LP & Z0); [reflexivity|].
  exists s, yss. split; [exact E|]. split; [exact Y|]. exists hist. split; [exact Z0|]. rewrite Z.add_0_l in L. split; [exact L|]. intros p xs.
  destruct (block_spec tab sr p s xs _ hist (Nat2Z.is_nonneg _) L LP) as (s' & Es & _). exists s'. exact Es.
Qed.
(* a voice reads only samples written before the block being played, and never older than the line *)
Theorem C206_past_only : forall tab h h' t n v, (32 * n <= t < 32 * n + 32)%Z -> (forall u, (32 * n - DLEN <= u < 32 * n)%Z -> h u = h' u) -> voice tab h t v = voice tab h' t v.
Proof.
  intros tab h h' t n v T H. unfold voice, tap12. pose proof (dtime_range v) as D. f_equal. apply map_ext_in. intros j Hj. f_equal. apply H. assert (0 <= j < 12)%Z by (cbn in Hj; lia). unfold DLEN in *. lia.
Qed.
(* the feedback cannot run away: whatever the feedback setting, no sample of the line exceeds one plus the two inputs *)
Theorem C206_line_bounded : forall s xs ws B i, length xs = 32%nat -> length ws = 32%nat -> Forall (fun x => Rabs (fst x) <= B /\ Rabs (snd x) <= B) xs -> 0 <= B -> Rabs (nth i (fed s xs ws) 0) <= 1 + 2 * B.
Proof.
  intros s xs ws B i L1 L2 F HB. destruct (Nat.ltb_spec i 32) as [Hi|Hi].
  - unfold fed. rewrite (nth_zip _ xs ws (0, 0) (0, 0) 0 i) by lia. unfold ch_feed. rewrite Forall_forall in F. destruct (F (nth i xs (0, 0))) as (F1 & F2); [apply nth_In; lia|].
    pose proof (limit_range_1 (gain8 arithR (c_fb s) (Z.of_nat i) * (fst (nth i ws (0, 0)) + snd (nth i ws (0, 0))))) as C. apply Rcomplements.Rabs_le_between in F1, F2. apply Rabs_le. lra.
  - rewrite nth_overflow; [rewrite Rabs_R0; lra|]. unfold fed. rewrite zip_length; lia.
Qed.
Theorem C206_stable : forall tab sr p0 h B, 0 <= B -> Forall (fun b => length (snd b) = 32%nat /\ Forall (fun x => Rabs (fst x) <= B /\ Rabs (snd x) <= B) (snd b)) h ->
  exists s yss hist, ch_run tab sr h (ch_init p0 ch_new) = Ok (s, yss) /\ line (Z.of_nat (length h)) hist s /\ forall t, Rabs (hist t) <= 1 + 2 * B.
Proof.
  intros tab sr p0 h B HB F.
  assert (I : forall h s0 n hh, (0 <= n)%Z -> line n hh s0 -> length (c_time s0) = length (c_phase s0) -> (forall t, Rabs (hh t) <= 1 + 2 * B) -> Forall (fun b => length (snd b) = 32%nat /\ Forall (fun x => Rabs (fst x) <= B /\ Rabs (snd x) <= B) (snd b)) h ->
    exists s yss hist, ch_run tab sr h s0 = Ok (s, yss) /\ line (n + Z.of_nat (length h)) hist s /\ (forall t, Rabs (hist t) <= 1 + 2 * B)).
  { clear - HB. induction h as [|(p, xs) h IH]; intros s0 n hh N L LP Z0 F.
    - exists s0, [], hh. cbn [length]. rewrite Z.add_0_r. auto.
    - inversion F as [|? ? (FL & FX) Fh]; subst. cbn [snd] in FL, FX. destruct (block_spec tab sr p s0 xs n hh N L LP) as (s1 & E1 & L1 & T1 & P1 & Q1 & _).
      destruct (IH s1 (n + 1)%Z _ ltac:(lia) L1) as (s2 & y2 & h2 & E2 & L2 & R2); auto.
      + rewrite T1, P1, map_length. unfold ch_update. cbn [c_time c_phase]. rewrite times_length by (rewrite map_length; exact LP). now rewrite map_length.
      + intros t. unfold append. destruct ((32 * n <=? t) && (t <? 32 * n + 32))%Z eqn:Et; [|apply Z0]. apply C206_line_bounded; auto.
        unfold filtered. rewrite !stereo_length. unfold voices_of. now rewrite map_length, seq_length.
      + exists s2. eexists. exists h2. cbn [ch_run]. rewrite E1. cbn [obind]. rewrite E2. cbn [obind length]. split; [reflexivity|].
        replace (n + Z.of_nat (Datatypes.S (length h)))%Z with (n + 1 + Z.of_nat (length h))%Z by lia. auto. }
  destruct (init_line p0) as (L0 & LP0). apply (I h (ch_init p0 ch_new) 0%Z _ ltac:(lia) L0 LP0); auto. intros t. rewrite Rabs_R0. lra.
Qed.
Example C206_nonvacuous : Forall (fun b : chpar * list (R * R) => length (snd b) = 32%nat /\ Forall (fun x => Rabs (fst x) <= 1 /\ Rabs (snd x) <= 1) (snd b)) [(mk_cp 100 (1 / 10) (1 / 100) (1 / 2) (1 / 2) 1 1 1 false false 1, repeat (1, -1) 32)].
Proof. constructor; [|constructor]. split; [reflexivity|]. apply Forall_forall. intros x Hx. apply repeat_spec in Hx. subst x. cbn [fst snd]. rewrite Rabs_R1. split; [lra|]. apply Rabs_le. lra. Qed.
Print Assumptions C206_blocks. Print Assumptions C206_past_only. Print Assumptions C206_line_bounded. Print Assumptions C206_stable.

(** ** C207 dry and wet *)
(* at constant settings the ramps sit on their targets from the first sample: out = (1 - mix) in + mix (wet with its side scaled by width) *)
Lemma gain8_flat (s : lipolps R) k : ps_current s = ps_target s -> gain8 arithR s k = ps_target s.
Proof.
  intros E. unfold gain8, rampreg, ps_initblock. cbv beta iota zeta. rewrite E. destruct (Z.even (k / 4)); unfold vadd, vmul, set1; cbn; ring.
Qed.
Definition settled (s : lipolps R) (v : R) : Prop := ps_target s = v /\ ps_coef s = 1 / 4 /\ ps_coef_m1 s = 3 / 4.
Lemma settled_smooth s v : settled s v -> settled (ps_set_target_smoothed arithR s v) v /\ ps_current (ps_set_target_smoothed arithR s v) = v.
Proof. intros (A & B & C). unfold settled, ps_set_target_smoothed. cbn [ps_target ps_coef ps_coef_m1 ps_current arithR ar_add ar_mul]. rewrite A, B, C. repeat split; lra. Qed.
Definition wide (w : R) (y : R * R) : R * R := ((fst y + snd y) / 2 + w * ((fst y - snd y) / 2), (fst y + snd y) / 2 - w * ((fst y - snd y) / 2)).
Definition dry_wet (m : R) (x y : R * R) : R * R := (fst x * (1 - m) + fst y * m, snd x * (1 - m) + snd y * m).
Theorem C207_output : forall tab sr p xss, Forall (fun xs => length xs = 32%nat) xss ->
  exists s yss, ch_run tab sr (map (fun xs => (p, xs)) xss) (ch_init p ch_new) = Ok (s, yss) /\
  forall xs, length xs = 32%nat -> exists s' ys wet, ch_process tab sr p s xs = Ok (s', ys) /\ length wet = 32%nat /\ length ys = 32%nat /\
    forall k, (k < 32)%nat -> nth k ys (0, 0) = dry_wet (cp_mix p) (nth k xs (0, 0)) (wide (cp_width p) (nth k wet (0, 0))) /\
      c_buf s' ((c_wpos s + Z.of_nat k) mod DLEN)%Z = limit_range_R (cp_gain p / 2 * (fst (nth k wet (0, 0)) + snd (nth k wet (0, 0)))) (-1) 1 + fst (nth k xs (0, 0)) + snd (nth k xs (0, 0)).
Proof.
  intros tab sr p xss F.
  set (st := fun s => settled (c_mix s) (cp_mix p) /\ settled (c_width s) (cp_width p) /\ settled (c_fb s) (1 / 2 * cp_gain p)).
  assert (U : forall s, st s -> st (ch_update sr p s) /\ ps_current (c_mix (ch_update sr p s)) = cp_mix p /\ ps_current (c_width (ch_update sr p s)) = cp_width p /\ ps_current (c_fb (ch_update sr p s)) = 1 / 2 * cp_gain p).
  { intros s (A & B & C). unfold st, ch_update. cbn [c_mix c_width c_fb]. destruct (settled_smooth _ _ A), (settled_smooth _ _ B), (settled_smooth _ _ C). auto 10. }
  assert (I : forall xss s0 n hh, (0 <= n)%Z -> line n hh s0 -> length (c_time s0) = length (c_phase s0) -> st s0 ->
    exists s yss hist, ch_run tab sr (map (fun xs => (p, xs)) xss) s0 = Ok (s, yss) /\ line (n + Z.of_nat (length xss)) hist s /\ length (c_time s) = length (c_phase s) /\ st s).
  { clear F xss. induction xss as [|xs xss IH]; intros s0 n hh N L LP S0.
    - exists s0, [], hh. cbn [length]. rewrite Z.add_0_r. auto.
    - destruct (block_spec tab sr p s0 xs n hh N L LP) as (s1 & E1 & L1 & T1 & P1 & Q1 & M1 & W1 & B1).
      destruct (IH s1 (n + 1)%Z _ ltac:(lia) L1) as (s2 & y2 & h2 & E2 & L2 & LP2 & R2); auto.
      + rewrite T1, P1, map_length. unfold ch_update. cbn [c_time c_phase]. rewrite times_length by (rewrite map_length; exact LP). now rewrite map_length.
      + unfold st. rewrite M1, W1, B1. exact (proj1 (U s0 S0)).
      + exists s2. eexists. exists h2. cbn [ch_run map]. rewrite E1. cbn [obind]. rewrite E2. cbn [obind length]. split; [reflexivity|].
        replace (n + Z.of_nat (Datatypes.S (length xss)))%Z with (n + 1 + Z.of_nat (length xss))%Z by lia. auto. }
  destruct (init_line p) as (L0 & LP0). destruct (I xss (ch_init p ch_new) 0%Z _ ltac:(lia) L0 LP0) as (s & yss & hist & E & L & LP & S1).
  { unfold st, settled, ch_init, ch_initial_update, ch_new, ps_new_with_blocksize, ps_set_blocksize, ps_default. cbn [c_mix c_width c_fb ps_set_target ps_target ps_coef ps_coef_m1 arithR ar_sub ar_lit]. repeat split; cbn; lra. }
  exists s, yss. split; [exact E|]. intros xs LX. destruct (block_spec tab sr p s xs (0 + Z.of_nat (length xss))%Z hist ltac:(lia) L LP) as (s' & Es & (W' & H' & _) & _).
  set (u := ch_update sr p s) in *. destruct (U s S1) as ((A & B & C) & A' & B' & C'). fold u in A, B, C, A', B', C'.
  set (wet := filtered u (voices_of tab hist (0 + Z.of_nat (length xss)) u)) in *.
  assert (LW : length wet = 32%nat) by (unfold wet, filtered; rewrite !stereo_length; unfold voices_of; now rewrite map_length, seq_length).
  exists s'. eexists. exists wet. split; [exact Es|]. split; [exact LW|]. split; [rewrite zip_length; rewrite ?zip_length; lia|]. intros k Hk. split.
  - rewrite (nth_zip _ _ _ (0, 0) (0, 0)) by (rewrite ?zip_length; lia). rewrite (nth_zip _ _ _ (0, 0) (0, 0)) by lia. unfold ch_fade, ch_widen, dry_wet, wide. cbv zeta.
    rewrite !gain8_flat by (rewrite ?A', ?B'; symmetry; first [apply A|apply B]). rewrite (proj1 A), (proj1 B). cbn [fst snd]. f_equal; field.
  - destruct L as (W & _). rewrite W. destruct H' as (H1 & _). set (n := (0 + Z.of_nat (length xss))%Z) in *. rewrite Zplus_mod_idemp_l.
    rewrite H1 by (unfold DLEN; lia). unfold append. replace ((32 * n <=? 32 * n + Z.of_nat k) && (32 * n + Z.of_nat k <? 32 * n + 32))%Z with true by lia.
    replace (Z.to_nat (32 * n + Z.of_nat k - 32 * n)) with k by lia. unfold fed. rewrite (nth_zip _ xs wet (0, 0) (0, 0) 0 k) by lia. unfold ch_feed. rewrite gain8_flat by (rewrite C'; symmetry; apply C). rewrite (proj1 C). do 3 f_equal. field.
Qed.
Theorem C207_dry : forall x y, dry_wet 0 x y = x /\ dry_wet 1 x y = y.
Proof. intros (a, b) (c, d). unfold dry_wet. cbn. split; f_equal; ring. Qed.
Theorem C207_width : forall y, wide 1 y = y /\ wide 0 y = ((fst y + snd y) / 2, (fst y + snd y) / 2).
Proof. intros (c, d). unfold wide. cbn. split; f_equal; field. Qed.
Example C207_nonvacuous : Forall (fun xs : list (R * R) => length xs = 32%nat) [repeat (1, -1) 32; repeat (0, 0) 32] /\ dry_wet (1 / 2) (1, 0) (0, 1) = (1 / 2, 1 / 2).
Proof. split; [repeat constructor|]. unfold dry_wet. cbn. f_equal; lra. Qed.
Print Assumptions C207_output. Print Assumptions C207_dry. Print Assumptions C207_width.
