(** C162-C167: the flanger. *)
From Coq Require Import Reals Lra.
From Verif Require Import Base Util ParamModel AdsrModel LfoModel LagModel BiquadModel MathModel FastProps FlangerModel.
Local Open Scope R_scope.

Lemma land_8191 x : Z.land x 8191 = (x mod 8192)%Z.
Proof. change 8191%Z with (Z.ones 13). rewrite Z.land_ones by lia. reflexivity. Qed.
Lemma truncR_is x k : (0 <= k)%Z -> IZR k <= x < IZR k + 1 -> truncR x = k.
Proof.
  intros Hk [H1 H2]. assert (H0 : 0 <= x) by (apply Rle_trans with (IZR k); [apply IZR_le; exact Hk|exact H1]).
  destruct (truncR_spec x) as [S1 _]. destruct (S1 H0) as [A B].
  assert (truncR x < k + 1)%Z by (apply lt_IZR; rewrite plus_IZR; lra). assert (k < truncR x + 1)%Z by (apply lt_IZR; rewrite plus_IZR; lra). lia.
Qed.
Lemma as_i32R_is x k : (0 <= k <= i32_max)%Z -> IZR k <= x < IZR k + 1 -> as_i32R x = k.
Proof. intros Hk H. unfold as_i32R. change (ParamModel.truncR x) with (truncR x). rewrite (truncR_is x k) by (lia || assumption). unfold i32_min, i32_max in *. lia. Qed.
Lemma floor_ex x : 0 <= x -> exists k, (0 <= k)%Z /\ IZR k <= x < IZR k + 1.
Proof.
  intros H. exists (truncR x). destruct (truncR_spec x) as [S1 _]. destruct (S1 H) as [A B]. split; [|lra].
  assert (-1 < truncR x)%Z; [|lia]. apply lt_IZR. lra.
Qed.

(** * C162: the interpolating delay line *)
(** the sample pushed j pushes ago (0 = the latest), zero before the first *)
Definition ago (h : list R) (j : Z) : R := nth (Z.to_nat j) (rev h) 0.
Lemma id_push_eq d v : id_push d v = Ok (mk_id (fun i => if (i =? (id_k d + 1) mod 8192)%Z then v else id_line d i) ((id_k d + 1) mod 8192)%Z).
Proof.
  unfold id_push. change FL_MASK with 8191%Z. change FL_SIZE with 8192%Z. rewrite land_8191.
  pose proof (Z.mod_pos_bound (id_k d + 1) 8192 ltac:(lia)). destruct (Z.leb_spec 0 ((id_k d + 1) mod 8192)); [|lia]. destruct (Z.ltb_spec ((id_k d + 1) mod 8192) 8192); [|lia]. reflexivity.
Qed.
Lemma mod8192_near a b : (a mod 8192 = b mod 8192 -> -8192 < a - b < 8192 -> a = b)%Z.
Proof.
  intros H L. assert (E : ((a - b) mod 8192 = 0)%Z) by (rewrite Zminus_mod, H, Z.sub_diag; reflexivity).
  apply Z.mod_divide in E; [|lia]. destruct E as [k E]. assert (k = 0)%Z by lia. subst. lia.
Qed.
Definition line_holds (h : list R) (d : idelay) : Prop := (0 <= id_k d < 8192)%Z /\ forall j, (0 <= j < 8192)%Z -> id_line d ((id_k d - j) mod 8192)%Z = ago h j.
Lemma line_new : line_holds [] id_new.
Proof. split; [cbn; lia|]. intros j Hj. unfold ago. cbn [rev]. destruct (Z.to_nat j); reflexivity. Qed.
Lemma line_push h d v : line_holds h d -> exists d', id_push d v = Ok d' /\ line_holds (h ++ [v]) d'.
Proof.
  intros [H1 H2]. eexists. split; [apply id_push_eq|]. split; cbn [id_k id_line]; [apply Z.mod_pos_bound; lia|]. intros j Hj.
  rewrite Zminus_mod_idemp_l. unfold ago. rewrite rev_app_distr. cbn [rev app].
  destruct (Z.eq_dec j 0) as [->|Hne].
  - rewrite Z.sub_0_r, Z.eqb_refl. reflexivity.
  - destruct (Z.eqb_spec ((id_k d + 1 - j) mod 8192) ((id_k d + 1) mod 8192)) as [E|E]; [apply mod8192_near in E; lia|].
    replace (id_k d + 1 - j)%Z with (id_k d - (j - 1))%Z by lia. rewrite H2 by lia. unfold ago.
    replace (Z.to_nat j) with (S (Z.to_nat (j - 1))) by lia. reflexivity.
Qed.
Lemma line_pushes h : exists d, foldM id_push h id_new = Ok d /\ line_holds h d.
Proof.
  assert (G : forall h g d, line_holds g d -> exists d', foldM id_push h d = Ok d' /\ line_holds (g ++ h) d').
  { clear. induction h as [|v h IH]; intros g d H; cbn [foldM]; [exists d; rewrite app_nil_r; split; [reflexivity|exact H]|].
    destruct (line_push g d v H) as [d1 [-> L]]. cbn [obind]. destruct (IH _ _ L) as [d2 [-> L2]]. exists d2. split; [reflexivity|]. rewrite <- app_assoc in L2. exact L2. }
  destruct (G h [] id_new line_new) as [d [E L]]. exists d. split; [exact E|exact L].
Qed.
Lemma id_get_mod d x : id_get d (x mod 8192)%Z = Ok (id_line d (x mod 8192)%Z).
Proof.
  unfold id_get. change FL_SIZE with 8192%Z. pose proof (Z.mod_pos_bound x 8192 ltac:(lia)).
  destruct (Z.leb_spec 0 (x mod 8192)); [|lia]. destruct (Z.ltb_spec (x mod 8192) 8192); [|lia]. reflexivity.
Qed.
Lemma id_value_eq d v n : (0 <= id_k d < 8192)%Z -> (0 <= n <= 2147483646)%Z -> IZR n <= v < IZR n + 1 ->
  id_value d v = Ok (id_line d ((id_k d - (n + 1)) mod 8192) * (v - IZR n) + id_line d ((id_k d - n) mod 8192) * (1 - (v - IZR n))).
Proof.
  intros Hk Hn Hv. unfold id_value. rewrite (as_i32R_is v n) by (unfold i32_max; lia || assumption). change FL_MASK with 8191%Z. change FL_SIZE with 8192%Z.
  rewrite !land_8191, !id_get_mod. unfold i32_min, i32_max.
  destruct (Z.leb_spec (-2147483648) (id_k d + 8192 - n - 1)); [|lia]. destruct (Z.leb_spec (id_k d + 8192 - n) 2147483647); [|lia]. cbn [andb obind].
  replace (id_k d + 8192 - n - 1)%Z with (id_k d - (n + 1) + 1 * 8192)%Z by lia. replace (id_k d + 8192 - n)%Z with (id_k d - n + 1 * 8192)%Z by lia.
  rewrite !Z_mod_plus_full. reflexivity.
Qed.
Theorem C162_delay_reads_interpolated_past : forall h v n, (0 <= n < 8191)%Z -> IZR n <= v < IZR n + 1 ->
  obind (foldM id_push h id_new) (fun d => id_value d v) = Ok ((1 - (v - IZR n)) * ago h n + (v - IZR n) * ago h (n + 1)).
Proof.
  intros h v n Hn Hv. destruct (line_pushes h) as [d [-> [L1 L2]]]. cbn [obind]. rewrite (id_value_eq d v n) by (lia || assumption).
  rewrite !L2 by lia. f_equal. ring.
Qed.
Print Assumptions C162_delay_reads_interpolated_past.
(** longer delays are played modulo 8192 *)
Theorem C162_long_delays_wrap_refuted : forall d v, (0 <= id_k d < 8192)%Z -> 0 <= v < 2147475455 -> id_value d (v + 8192) = id_value d v.
Proof.
  intros d v Hk [H1 H2]. destruct (floor_ex v H1) as [n [N1 N2]].
  assert (n <= 2147475454)%Z by (assert (n < 2147475455)%Z; [apply lt_IZR; lra|lia]).
  rewrite (id_value_eq d v n) by (lia || assumption). rewrite (id_value_eq d (v + 8192) (n + 8192)) by (try lia; rewrite plus_IZR; lra).
  rewrite plus_IZR. replace (v + 8192 - (IZR n + 8192)) with (v - IZR n) by ring.
  replace (id_k d - (n + 8192 + 1))%Z with (id_k d - (n + 1) + (-1) * 8192)%Z by lia. replace (id_k d - (n + 8192))%Z with (id_k d - n + (-1) * 8192)%Z by lia.
  rewrite !Z_mod_plus_full. reflexivity.
Qed.
Print Assumptions C162_long_delays_wrap_refuted.
(** and such delays are asked for: at pitch 0 (inverse pitch 1), full depth and LFO at its top, from 44.1 kHz on *)
Theorem C162_reachable : forall sr, 44100 <= sr -> 8192 < sr * FL_ONE_OVER_F0 * 1 * (1 + 1 * 1) + 1.
Proof. intros sr H. unfold FL_ONE_OVER_F0. lra. Qed.
Print Assumptions C162_reachable.

(** * Ranges of the ramps within a block *)
Definition rest (lo hi : R) (l : lipol) : Prop := p_bsinv l = / 32 /\ p_v l = p_new l /\ lo <= p_new l <= hi.
Definition going (lo hi : R) (j : R) (l : lipol) : Prop :=
  p_bsinv l = / 32 /\ p_v l = p_new l - (32 - j) * p_dv l /\ lo <= p_new l <= hi /\ lo <= p_new l - 32 * p_dv l <= hi.
Lemma lipol_new_rest lo hi : lo <= 0 <= hi -> rest lo hi (lipol_new 32).
Proof. intros H. unfold rest, lipol_new, lipol_set_blocksize. cbn [p_bsinv p_v p_new]. rewrite INR_IZR_INZ. change (IZR (Z.of_nat 32)) with 32. repeat split; lra. Qed.
Lemma new_value_going lo hi l x : rest lo hi l -> lo <= x <= hi -> going lo hi 0 (lipol_new_value l x).
Proof. intros [B [V N]] Hx. unfold going, lipol_new_value. cbn. rewrite B. destruct (p_first l); repeat split; lra. Qed.
Lemma process_going lo hi j l : going lo hi j l -> going lo hi (j + 1) (lipol_process l).
Proof. intros [B [V [N M]]]. unfold going, lipol_process. cbn. repeat split; try lra. Qed.
Lemma going_range lo hi j l : 0 <= j <= 32 -> going lo hi j l -> lo <= p_v l <= hi.
Proof.
  intros Hj [B [V [N M]]]. rewrite V. replace (p_new l - (32 - j) * p_dv l) with (j / 32 * p_new l + (1 - j / 32) * (p_new l - 32 * p_dv l)) by field.
  assert (0 <= j / 32 <= 1) by lra. nra.
Qed.
Lemma going_rest lo hi l : going lo hi 32 l -> rest lo hi l.
Proof. intros [B [V [N M]]]. repeat split; try assumption; lra. Qed.

(** * C163: the output stays within full scale *)
Lemma soft_range x : -1 <= x <= 1 -> -1 <= soft x <= 1.
Proof.
  intros H. unfold soft. assert (A : 0 <= (1 - x) * (1 - x) * (x + 2)) by (apply Rmult_le_pos; [apply Rle_0_sqr|lra]).
  assert (B : 0 <= (1 + x) * (1 + x) * (2 - x)) by (apply Rmult_le_pos; [apply Rle_0_sqr|lra]). lra.
Qed.
Lemma limit_range_1 x : -1 <= limit_range_R x (-1) 1 <= 1.
Proof. unfold limit_range_R. unfold Rmin, Rmax. destruct (Rle_dec x (-1)); destruct (Rle_dec _ 1); lra. Qed.
Lemma chan_sample_range ty depth mix fb damp gain ws x c c' y : chan_sample ty depth mix fb damp gain ws x c = Ok (c', y) -> -1 <= y <= 1.
Proof.
  unfold chan_sample. destruct (comb_sum depth (ch_line c) ws (ch_combs c) 0) as [cmb| |]; try discriminate. cbn [obind].
  destruct (fb_clip fb damp (ch_lpa c) cmb) as [f lpa]. rewrite id_push_eq. cbn [obind]. intros E. injection E as _ <-. apply soft_range, limit_range_1.
Qed.
Lemma fl_samples_range ty wl wr xs : forall f f' ys, fl_samples ty wl wr f xs = Ok (f', ys) -> length ys = length xs /\ Forall (fun y => -1 <= fst y <= 1 /\ -1 <= snd y <= 1) ys.
Proof.
  induction xs as [|x xs IH]; intros f f' ys; cbn [fl_samples]; [intros E; injection E as _ <-; split; [reflexivity|constructor]|].
  unfold fl_sample at 1. destruct (chan_sample _ _ _ _ _ _ wl _ _) as [[cl yl]| |] eqn:E1; try discriminate. cbn [obind].
  destruct (chan_sample _ _ _ _ _ _ wr _ _) as [[cr yr]| |] eqn:E2; try discriminate. cbn [obind].
  match goal with |- context [fl_samples ty wl wr ?F xs] => destruct (fl_samples ty wl wr F xs) as [[f2 ys2]| |] eqn:E3 end; try discriminate. cbn [obind].
  intros E. injection E as _ <-. destruct (IH _ _ _ E3) as [L FA]. split; [cbn; lia|]. constructor; [|exact FA]. cbn. split; eapply chan_sample_range; eassumption.
Qed.
Theorem C163_output_within_full_scale : forall pinv sr rl rr p f xs f' ys, fl_process pinv sr rl rr p f xs = Ok (f', ys) ->
  length ys = length xs /\ Forall (fun y => -1 <= fst y <= 1 /\ -1 <= snd y <= 1) ys.
Proof.
  intros pinv sr rl rr p f xs f' ys. unfold fl_process. destruct (mode_of (q_mode p)) as [[ty w]| |]; try discriminate. cbn [obind].
  destruct (init_combs _ rl 0 _) as [cl| |]; try discriminate. cbn [obind]. destruct (init_combs _ rr 0 _) as [cr| |]; try discriminate. cbn [obind].
  destruct (fill_weights _ _ ty) as [wl| |]; try discriminate. cbn [obind]. apply fl_samples_range.
Qed.
Print Assumptions C163_output_within_full_scale.
(** the clipper is odd, strictly increasing inside full scale and reaches it *)
Theorem C163_soft_clip : (forall x, soft (- x) = - soft x) /\ soft 1 = 1 /\ (forall x y, -1 <= x -> x < y -> y <= 1 -> soft x < soft y).
Proof.
  split; [intros; unfold soft; ring|]. split; [unfold soft; lra|]. intros x y Hx Hxy Hy. unfold soft.
  assert (P : 0 < 3 - (x * x + x * y + y * y)).
  { assert (x * x <= 1) by nra. assert (y * y <= 1) by nra. assert (x * y <= (x * x + y * y) / 2) by (assert (0 <= (x - y) * (x - y)) by (apply Rle_0_sqr); lra).
    destruct (Rle_lt_dec (x * x + y * y) (2 - / 1000000000)); [lra|]. assert (0 < (y - x) * (y - x)) by (apply Rmult_lt_0_compat; lra). lra. }
  assert (0 < (y - x) * (3 - (x * x + x * y + y * y))) by (apply Rmult_lt_0_compat; lra). lra.
Qed.
Print Assumptions C163_soft_clip.

(** * C164, C165: bounded state and no panic over any sequence of blocks *)
Definition comb_inv (B j : R) (c : comb) : Prop := 0 <= cb_phase c <= 1 /\ going (-1) 1 j (cb_lfo c) /\ going 0 B j (cb_base c).
Definition chan_inv (X B j : R) (c : chan) : Prop :=
  (0 <= id_k (ch_line c) < 8192)%Z /\ (forall i, Rabs (id_line (ch_line c) i) <= X + 2) /\ Rabs (ch_lpa c) <= 1 /\ length (ch_combs c) = 4%nat /\ Forall (comb_inv B j) (ch_combs c).
Lemma id_value_bound d v M : (0 <= id_k d < 8192)%Z -> 0 <= v < 2147483647 -> (forall i, Rabs (id_line d i) <= M) -> exists r, id_value d v = Ok r /\ Rabs r <= M.
Proof.
  intros Hk [H1 H2] HM. destruct (floor_ex v H1) as [n [N1 N2]].
  assert (n <= 2147483646)%Z by (assert (n < 2147483647)%Z; [apply lt_IZR; lra|lia]).
  eexists. split; [apply (id_value_eq d v n); [exact Hk|lia|exact N2]|].
  pose proof (HM ((id_k d - (n + 1)) mod 8192)%Z) as A. pose proof (HM ((id_k d - n) mod 8192)%Z) as B.
  apply Rcomplements.Rabs_le_between in A. apply Rcomplements.Rabs_le_between in B. apply Rcomplements.Rabs_le_between.
  set (a := id_line d _) in *. set (b := id_line d _) in *. set (q := v - IZR n). assert (0 <= q <= 1) by (unfold q; lra). nra.
Qed.
Lemma comb_sum_ok depth d M B j : 0 <= depth <= 1 -> 0 <= j <= 32 -> 0 <= B <= 1000000000 -> (0 <= id_k d < 8192)%Z -> (forall i, Rabs (id_line d i) <= M) ->
  forall ws cs acc, Forall (fun w => 0 <= w <= 1) ws -> Forall (comb_inv B j) cs -> exists r, comb_sum depth d ws cs acc = Ok r /\ Rabs (r - acc) <= INR (length ws) * M.
Proof.
  intros Hd Hj HB Hk HM. assert (M0 : 0 <= M) by (eapply Rle_trans; [apply Rabs_pos|apply (HM 0%Z)]).
  induction ws as [|w ws IH]; intros cs acc HW HC; [exists acc; split; [destruct cs; reflexivity|]; cbn; rewrite Rminus_diag_eq, Rabs_R0 by reflexivity; lra|].
  inversion HW; subst. destruct cs as [|c cs].
  { exists acc. split; [reflexivity|]. rewrite Rminus_diag_eq, Rabs_R0 by reflexivity. apply Rmult_le_pos; [apply pos_INR|exact M0]. }
  inversion HC as [|c0 cs0 CI CF]; subst. cbn [comb_sum length]. rewrite S_INR. destruct CI as [_ [CL CB]].
  pose proof (going_range _ _ _ _ Hj CL) as L1. pose proof (going_range _ _ _ _ Hj CB) as B1.
  destruct (Rlt_dec 0 w) as [Hw|Hw].
  - assert (T : 0 <= p_v (cb_base c) * (1 + p_v (cb_lfo c) * depth) + 1 < 2147483647).
    { assert (U : -1 <= p_v (cb_lfo c) * depth <= 1) by (clear - L1 Hd; split; nra). assert (0 <= p_v (cb_base c) * (1 + p_v (cb_lfo c) * depth)) by (apply Rmult_le_pos; lra).
      assert (p_v (cb_base c) * (1 + p_v (cb_lfo c) * depth) <= 1000000000 * 2) by (apply Rmult_le_compat; lra). lra. }
    destruct (id_value_bound d _ M Hk T HM) as [v [-> V]]. cbn [obind]. destruct (IH cs (acc + w * v) H2 CF) as [r [-> Q]]. exists r. split; [reflexivity|].
    apply Rcomplements.Rabs_le_between in Q. apply Rcomplements.Rabs_le_between in V. apply Rcomplements.Rabs_le_between.
    assert (W01 : 0 <= w <= 1) by assumption. assert (UU : - M <= w * v <= M).
    { assert (w * v <= w * M) by (apply Rmult_le_compat_l; lra). assert (w * - M <= w * v) by (apply Rmult_le_compat_l; lra).
      assert (w * M <= 1 * M) by (apply Rmult_le_compat_r; lra). lra. }
    lra.
  - cbn [obind]. destruct (IH cs acc H2 CF) as [r [-> Q]]. exists r. split; [reflexivity|]. lra.
Qed.
Lemma fb_clip_bound fb damp lpa cmb f lpa' : 0 <= damp <= 1 -> Rabs lpa <= 1 -> fb_clip fb damp lpa cmb = (f, lpa') -> Rabs f <= 2 /\ Rabs lpa' <= 1.
Proof.
  intros Hd Hl. unfold fb_clip. pose proof (soft_range _ (limit_range_1 (fb * cmb))) as S1. set (q := soft (limit_range_R (fb * cmb) (-1) 1)) in *.
  destruct (Rlt_dec 0 fb); intros E; injection E as <- <-.
  - apply Rcomplements.Rabs_le_between in Hl. assert (-1 <= lpa * (1 - damp) + q * damp <= 1) by nra. split; apply Rcomplements.Rabs_le_between; lra.
  - split; [rewrite Rabs_R0; lra|exact Hl].
Qed.
Lemma comb_tick_inv B j cs : Forall (comb_inv B j) cs -> Forall (comb_inv B (j + 1)) (map comb_tick cs).
Proof.
  intros H. induction H as [|c cs [P [L Q]] _ IH]; cbn [map]; constructor; [|exact IH]. split; [exact P|]. split; apply process_going; assumption.
Qed.
Lemma chan_sample_ok ty depth mix fb damp gain ws x c X B j : 0 <= depth <= 1 -> 0 <= damp <= 1 -> 0 <= j <= 32 -> 0 <= B <= 1000000000 -> Rabs x <= X ->
  length ws = 4%nat -> Forall (fun w => 0 <= w <= 1) ws -> chan_inv X B j c ->
  exists c' y, chan_sample ty depth mix fb damp gain ws x c = Ok (c', y) /\ chan_inv X B (j + 1) c'.
Proof.
  intros Hd Ha Hj HB Hx HL HW [K [M [P [L C]]]]. unfold chan_sample.
  destruct (comb_sum_ok depth (ch_line c) (X + 2) B j Hd Hj HB K M ws (ch_combs c) 0 HW C) as [cmb [-> _]]. cbn [obind].
  destruct (fb_clip fb damp (ch_lpa c) cmb) as [f lpa] eqn:E. destruct (fb_clip_bound _ _ _ _ _ _ Ha P E) as [F1 F2].
  rewrite id_push_eq. cbn [obind]. eexists _, _. split; [reflexivity|]. split; [|split; [|split; [|split]]]; cbn [ch_line ch_lpa ch_combs id_k id_line].
  - apply Z.mod_pos_bound. lia.
  - intros i. destruct (i =? _)%Z; [|apply M]. eapply Rle_trans; [apply Rabs_triang|]. rewrite Rabs_Ropp. lra.
  - exact F2.
  - rewrite map_length. exact L.
  - apply comb_tick_inv, C.
Qed.

(** between blocks *)
Definition comb_rest (B : R) (c : comb) : Prop := 0 <= cb_phase c <= 1 /\ rest (-1) 1 (cb_lfo c) /\ rest 0 B (cb_base c).
Definition chan_rest (X B : R) (c : chan) : Prop :=
  (0 <= id_k (ch_line c) < 8192)%Z /\ (forall i, Rabs (id_line (ch_line c) i) <= X + 2) /\ Rabs (ch_lpa c) <= 1 /\ length (ch_combs c) = 4%nat /\ Forall (comb_rest B) (ch_combs c).
Definition fl_rest (X B : R) (f : flanger) : Prop :=
  chan_rest X B (fl_l f) /\ chan_rest X B (fl_r f) /\ 0 <= fl_long f < 4 /\ rest 0 1 (fl_depth f) /\ rest 0 1 (fl_damp f) /\ fl_table f = sin_table.
Definition fl_going (X B j : R) (f : flanger) : Prop :=
  chan_inv X B j (fl_l f) /\ chan_inv X B j (fl_r f) /\ 0 <= fl_long f < 4 /\ going 0 1 j (fl_depth f) /\ going 0 1 j (fl_damp f) /\ fl_table f = sin_table.
Lemma fl_samples_ok ty wl wr X B xs : 0 <= B <= 1000000000 -> length wl = 4%nat -> Forall (fun w => 0 <= w <= 1) wl -> length wr = 4%nat -> Forall (fun w => 0 <= w <= 1) wr ->
  Forall (fun x => Rabs (fst x) <= X /\ Rabs (snd x) <= X) xs -> forall f j, fl_going X B j f -> 0 <= j -> j + INR (length xs) <= 32 ->
  exists f' ys, fl_samples ty wl wr f xs = Ok (f', ys) /\ fl_going X B (j + INR (length xs)) f'.
Proof.
  intros HB L1 W1 L2 W2 HX. induction HX as [|x xs [X1 X2] _ IH]; intros f j G J0 J1.
  - cbn [fl_samples]. exists f, []. split; [reflexivity|]. cbn [length INR]. rewrite Rplus_0_r. exact G.
  - cbn [fl_samples length] in *. rewrite S_INR in *. pose proof (pos_INR (length xs)) as PI0.
    destruct G as [GL [GR [G3 [G4 [G5 G6]]]]]. assert (JR : 0 <= j <= 32) by lra.
    pose proof (going_range _ _ _ _ JR G4) as D1. pose proof (going_range _ _ _ _ JR G5) as D2.
    unfold fl_sample at 1.
    destruct (chan_sample_ok ty (p_v (fl_depth f)) (p_v (fl_mix f)) (p_v (fl_fb f)) (p_v (fl_damp f)) (p_v (fl_gain f)) wl (fst x) (fl_l f) X B j) as [cl [yl [-> Cl]]]; try assumption; try lra.
    cbn [obind].
    destruct (chan_sample_ok ty (p_v (fl_depth f)) (p_v (fl_mix f)) (p_v (fl_fb f)) (p_v (fl_damp f)) (p_v (fl_gain f)) wr (snd x) (fl_r f) X B j) as [cr [yr [-> Cr]]]; try assumption; try lra.
    cbn [obind].
    match goal with |- context [fl_samples ty wl wr ?F xs] => destruct (IH F (j + 1)) as [f' [ys [-> G']]] end; try lra.
    { split; [exact Cl|split; [exact Cr|split; [exact G3|split; [apply process_going, G4|split; [apply process_going, G5|exact G6]]]]]. }
    cbn [obind]. eexists _, _. split; [reflexivity|]. replace (j + (INR (length xs) + 1)) with (j + 1 + INR (length xs)) by ring. exact G'.
Qed.

(** parameters within their declared ranges (rate: the phase step per block) *)
Definition par_ok (p : flpar) : Prop := 0 <= q_rate p <= 1 /\ (0 <= q_mode p <= 11)%Z /\ (1 <= q_voices p <= 4)%Z /\ 0 <= q_depth p <= 1 /\ 0 <= q_damp p <= 1.
(** the sine LFO's table is left when a phase lands exactly on 1 (see C166) *)
Definition sine_safe (p : flpar) (f : flanger) : Prop :=
  (q_mode p = 1 \/ q_mode p = 5)%Z -> forall c, In c (ch_combs (fl_l f)) \/ In c (ch_combs (fl_r f)) -> cb_phase c + q_rate p <> 1 /\ cb_phase c + q_rate p <> 2.

Lemma sin_interp_range t (tab := sin_table) : 0 <= t < 1 -> exists r, lfo_wave tab WSin t 0 0 false = Ok r /\ -1 <= r <= 1.
Proof.
  intros Ht. unfold lfo_wave. destruct (floor_ex (t * IZR FL_TABLE)) as [n [N1 N2]]; [change FL_TABLE with 8192%Z; lra|].
  assert (N3 : (n < 8192)%Z) by (apply lt_IZR; change FL_TABLE with 8192%Z in N2; lra).
  rewrite (as_i32R_is _ n) by (unfold i32_max; lia || assumption). change FL_TABLE_MASK with 8191%Z. rewrite land_8191.
  pose proof (Z.mod_pos_bound (n + 1) 8192 ltac:(lia)). change FL_TABLE with 8192%Z in *.
  destruct (Z.leb_spec 0 n); [|lia]. destruct (Z.ltb_spec n 8192); [|lia]. destruct (Z.leb_spec 0 ((n + 1) mod 8192)); [|lia]. destruct (Z.ltb_spec ((n + 1) mod 8192) 8192); [|lia].
  cbn [andb]. eexists. split; [reflexivity|]. unfold tab, sin_table. set (a := sin _). set (b := sin _).
  assert (-1 <= a <= 1) by apply SIN_bound. assert (-1 <= b <= 1) by apply SIN_bound. set (q := t * 8192 - IZR n). assert (0 <= q <= 1) by (unfold q; lra). nra.
Qed.
Lemma lfo_wave_range w t held rnd reset : 0 <= t <= 1 -> (w = WSin -> t <> 1) -> -1 <= held <= 1 -> 0 <= rnd <= 1 ->
  exists r, lfo_wave sin_table w t held rnd reset = Ok r /\ -1 <= r <= 1.
Proof.
  intros Ht Hw Hh Hr. destruct w.
  - eexists. split; [reflexivity|]. assert (0 <= Rabs (2 * t - 1) <= 1) by (split; [apply Rabs_pos|apply Rcomplements.Rabs_le_between; lra]). lra.
  - apply sin_interp_range. assert (t <> 1) by (apply Hw; reflexivity). lra.
  - eexists. split; [reflexivity|]. lra.
  - eexists. split; [reflexivity|]. destruct reset; lra.
Qed.
Lemma long_frac l : 0 <= l < 4 -> 0 <= l - IZR (as_i32R l) < 1.
Proof.
  intros H. destruct (floor_ex l ltac:(lra)) as [n [N1 N2]]. assert (n < 4)%Z by (apply lt_IZR; lra).
  rewrite (as_i32R_is l n) by (unfold i32_max; lia || assumption). lra.
Qed.
Lemma init_comb_ok pinv sr ty w v0 rate long rnd idx B c : 0 <= rate <= 1 -> 0 <= long < 4 -> 0 <= rnd <= 1 -> comb_rest B c ->
  0 <= sr * FL_ONE_OVER_F0 * pinv (v0 + IZR idx * 6) <= B -> (w = WSin -> ty <> FArp -> cb_phase c + rate <> 1 /\ cb_phase c + rate <> 2) ->
  exists c', init_comb sin_table pinv sr ty w v0 rate long rnd idx c = Ok c' /\ comb_inv B 0 c'.
Proof.
  intros Hr Hl Hrn [P [L Q]] HB HS. unfold init_comb.
  set (p0 := cb_phase c + rate). set (reset := if Rlt_dec 1 p0 then true else false). set (p := if reset then p0 - 1 else p0).
  assert (HP : 0 <= p <= 1 /\ (p = 1 -> p0 = 1 \/ p0 = 2)). { unfold p, reset, p0. destruct (Rlt_dec 1 (cb_phase c + rate)); split; intros; try lra. }
  assert (LH : -1 <= p_v (cb_lfo c) <= 1) by (destruct L as [_ [-> L]]; exact L).
  destruct (lfo_wave_range w (match ty with FArp => long - IZR (as_i32R long) | _ => p end) (p_v (cb_lfo c)) rnd reset) as [r [E RR]]; try assumption.
  - destruct ty; try apply HP. pose proof (long_frac long Hl). lra.
  - intros W. destruct ty.
    + intros E1. destruct HP as [_ HP]. destruct (HP E1) as [E2|E2]; destruct (HS W ltac:(discriminate)); contradiction.
    + intros E1. destruct HP as [_ HP]. destruct (HP E1) as [E2|E2]; destruct (HS W ltac:(discriminate)); contradiction.
    + pose proof (long_frac long Hl). lra.
  - fold p0. fold reset. fold p. rewrite E. cbn [obind]. eexists. split; [reflexivity|]. split; [apply HP|]. split; apply new_value_going; assumption.
Qed.
Lemma init_combs_ok pinv sr ty w v0 rate long B rnd : 0 <= rate <= 1 -> 0 <= long < 4 -> (forall i, 0 <= rnd i <= 1) ->
  (forall q, 0 <= sr * FL_ONE_OVER_F0 * pinv q <= B) ->
  forall cs i, Forall (comb_rest B) cs -> (w = WSin -> ty <> FArp -> forall c, In c cs -> cb_phase c + rate <> 1 /\ cb_phase c + rate <> 2) ->
  exists cs', init_combs (fun r i c => init_comb sin_table pinv sr ty w v0 rate long r i c) rnd i cs = Ok cs' /\ length cs' = length cs /\ Forall (comb_inv B 0) cs'.
Proof.
  intros Hr Hl Hrn HB cs. induction cs as [|c cs IH]; intros i HC HS; cbn [init_combs]; [exists []; repeat split; constructor|].
  inversion HC; subst. destruct (init_comb_ok pinv sr ty w v0 rate long (rnd i) i B c) as [c' [-> CI]]; try assumption; try apply Hrn; try apply HB.
  { intros W T. apply HS; [exact W|exact T|left; reflexivity]. }
  cbn [obind]. destruct (IH (i + 1)%Z H2) as [cs' [-> [LL CF]]]. { intros W T c0 I. apply HS; [exact W|exact T|right; exact I]. }
  cbn [obind]. exists (c' :: cs'). split; [reflexivity|]. split; [cbn; lia|constructor; assumption].
Qed.

(** * C167: comb weights *)
Lemma fill_unison long voices ty : ty <> FArp -> (1 <= voices <= 4)%Z ->
  fill_weights long voices ty = Ok (map (fun i => if (i <? voices)%Z then 1 else 0) [0; 1; 2; 3]%Z).
Proof.
  intros T V. assert (E : (voices = 1 \/ voices = 2 \/ voices = 3 \/ voices = 4)%Z) by lia.
  assert (Z0 : forall z : R, z - z = 0) by (intros; ring).
  destruct ty; [| |contradiction]; unfold fill_weights; rewrite Z0; destruct E as [->|[->|[->| ->]]]; reflexivity.
Qed.
Lemma frac_dt q : 9 / 10 < q < 1 -> 0 < (q - 9 / 10) * 10 < 1.
Proof. lra. Qed.
Lemma fill_arp long voices n : (0 <= n < 4)%Z -> IZR n <= long < IZR n + 1 -> exists a b,
  fill_weights long voices FArp = Ok (map (fun i => if (i =? n)%Z then a else if (i =? (n + 1) mod 4)%Z then b else 0) [0; 1; 2; 3]%Z) /\
  0 <= a <= 1 /\ 0 <= b <= 1 /\ a² + b² = 1 /\
  (long - IZR n <= 9 / 10 -> a = 1 /\ b = 0) /\ (9 / 10 < long - IZR n -> b² = 10 * (long - IZR n) - 9).
Proof.
  intros Hn Hl. unfold fill_weights. rewrite (as_i32R_is long n) by (unfold i32_max; lia || assumption).
  change FL_COMBS with 4%Z. destruct (Z.eqb_spec n 4); [lia|].
  destruct (Rlt_dec (9 / 10) (long - IZR n)) as [H|H].
  - set (dt := (long - IZR n - 9 / 10) * 10). assert (D : 0 < dt < 1) by (unfold dt; lra).
    exists (sqrt (1 - dt)), (sqrt dt).
    assert (S1 : sqrt (1 - dt) <= 1) by (apply Rle_trans with (sqrt 1); [apply sqrt_le_1_alt; lra|rewrite sqrt_1; lra]).
    assert (S2 : sqrt dt <= 1) by (apply Rle_trans with (sqrt 1); [apply sqrt_le_1_alt; lra|rewrite sqrt_1; lra]).
    pose proof (sqrt_pos (1 - dt)). pose proof (sqrt_pos dt). split.
    + assert (E : (n = 0 \/ n = 1 \/ n = 2 \/ n = 3)%Z) by lia. destruct E as [->|[->|[->| ->]]]; reflexivity.
    + repeat split; try lra. rewrite !Rsqr_sqrt by lra. ring. rewrite Rsqr_sqrt by lra. unfold dt. lra.
  - exists 1, 0. split.
    + assert (E : (n = 0 \/ n = 1 \/ n = 2 \/ n = 3)%Z) by lia. destruct E as [->|[->|[->| ->]]]; reflexivity.
    + unfold Rsqr. repeat split; lra.
Qed.
Lemma fill_weights_ok long voices ty : 0 <= long < 4 -> (1 <= voices <= 4)%Z -> exists ws, fill_weights long voices ty = Ok ws /\ length ws = 4%nat /\ Forall (fun w => 0 <= w <= 1) ws.
Proof.
  intros Hl Hv. assert (U : ty <> FArp \/ ty = FArp) by (destruct ty; [left; discriminate|left; discriminate|right; reflexivity]). destruct U as [U| ->].
  - eexists. split; [apply fill_unison; assumption|]. split; [reflexivity|]. apply Forall_forall. intros w I. apply in_map_iff in I. destruct I as [i [<- _]]. destruct (i <? voices)%Z; lra.
  - destruct (floor_ex long ltac:(lra)) as [n [N1 N2]]. assert (n < 4)%Z by (apply lt_IZR; lra).
    destruct (fill_arp long voices n ltac:(lia) N2) as [a [b [-> [A [B _]]]]]. eexists. split; [reflexivity|]. split; [reflexivity|].
    apply Forall_forall. intros w I. apply in_map_iff in I. destruct I as [i [<- _]]. destruct (i =? n)%Z; [lra|]. destruct (i =? _)%Z; lra.
Qed.
(** n voices play n combs at full level; in the arpeggio at most two neighbouring combs play, at constant power, the second fading in over
    the last tenth of each step *)
Theorem C167_comb_weights : forall long voices, 0 <= long < 4 ->
  (forall ty, ty <> FArp -> (1 <= voices <= 4)%Z -> fill_weights long voices ty = Ok (map (fun i => if (i <? voices)%Z then 1 else 0) [0; 1; 2; 3]%Z)) /\
  (exists n a b, (0 <= n < 4)%Z /\ IZR n <= long < IZR n + 1 /\
     fill_weights long voices FArp = Ok (map (fun i => if (i =? n)%Z then a else if (i =? (n + 1) mod 4)%Z then b else 0) [0; 1; 2; 3]%Z) /\
     a² + b² = 1 /\ (long - IZR n <= 9 / 10 -> a = 1 /\ b = 0) /\ (9 / 10 < long - IZR n -> b² = 10 * (long - IZR n) - 9)).
Proof.
  intros long voices Hl. split; [intros; apply fill_unison; assumption|].
  destruct (floor_ex long ltac:(lra)) as [n [N1 N2]]. assert (n < 4)%Z by (apply lt_IZR; lra).
  destruct (fill_arp long voices n ltac:(lia) N2) as [a [b [E [A [B [C [D F]]]]]]]. exists n, a, b. repeat split; try assumption; try lia; try lra; apply D; assumption.
Qed.
Print Assumptions C167_comb_weights.
(** outside 1..4 voices: none at all silence the combs, negative counts panic, more than four are four *)
Theorem C167_other_voice_counts : forall long voices ty, ty <> FArp ->
  (voices = 0%Z -> fill_weights long voices ty = Ok [0; 0; 0; 0]) /\ ((voices < 0)%Z -> fill_weights long voices ty = Panic) /\
  ((4 < voices)%Z -> fill_weights long voices ty = Ok [1; 1; 1; 1]).
Proof.
  intros long voices ty T. assert (Z0 : forall z : R, z - z = 0) by (intros; ring). split; [|split].
  - intros ->. destruct ty; [| |contradiction]; unfold fill_weights; rewrite Z0; reflexivity.
  - intros H. destruct ty; [| |contradiction]; unfold fill_weights; rewrite Z.min_l by lia; replace (Z.to_nat voices) with 0%nat by lia; cbn [seq foldM obind zset];
      (destruct (Z.ltb_spec voices 4); [|lia]); cbn; unfold zset; (destruct (Z.leb_spec 0 voices); [lia|reflexivity]).
  - intros H. destruct ty; [| |contradiction]; unfold fill_weights; rewrite Z.min_r by lia; (destruct (Z.ltb_spec voices 4); [lia|]); reflexivity.
Qed.
Print Assumptions C167_other_voice_counts.
(** modes 0..11 are the twelve type/waveform pairs in order; every other mode panics *)
Theorem C167_modes : (forall t w, (0 <= t <= 2)%Z -> (0 <= w <= 3)%Z -> exists ty wa, ftype_of t = Ok ty /\ fwave_of w = Ok wa /\ mode_of (4 * t + w) = Ok (ty, wa)) /\
  (forall m, (- 2 ^ 31 <= m < 2 ^ 31)%Z -> (mode_of m = Panic <-> ~ (0 <= m <= 11)%Z)).
Proof.
  split.
  - intros t w Ht Hw. assert (E : (t = 0 \/ t = 1 \/ t = 2)%Z) by lia. assert (F : (w = 0 \/ w = 1 \/ w = 2 \/ w = 3)%Z) by lia.
    destruct E as [->|[->| ->]]; destruct F as [->|[->|[->| ->]]]; do 2 eexists; repeat split; reflexivity.
  - intros m Hm. split.
    + intros E H. assert (C : In m (map Z.of_nat (seq 0 12))) by (apply in_map_iff; exists (Z.to_nat m); split; [lia|apply in_seq; lia]).
      cbn in C. repeat (destruct C as [<-|C]; [discriminate|]). destruct C.
    + intros H. unfold mode_of. assert (G : (12 <= m mod 2 ^ 64)%Z).
      { destruct (Z.lt_ge_cases m 0).
        - replace (m mod 2 ^ 64)%Z with (m + 2 ^ 64)%Z; [lia|]. rewrite <- (Z.mod_small (m + 2 ^ 64) (2 ^ 64)) by lia. rewrite <- (Z.mod_add m 1 (2 ^ 64)) by lia. f_equal; lia.
        - rewrite Z.mod_small by lia. lia. }
      set (u := (m mod 2 ^ 64)%Z) in *. assert (3 <= u / 4)%Z by (apply Z.div_le_lower_bound; lia).
      unfold ftype_of. destruct (Z.eqb_spec (u / 4) 0); [lia|]. destruct (Z.eqb_spec (u / 4) 1); [lia|]. destruct (Z.eqb_spec (u / 4) 2); [lia|]. reflexivity.
Qed.
Print Assumptions C167_modes.

(** * C164/C165: one block, and so any number of blocks *)
Lemma long_range l r : 0 <= l < 4 -> 0 <= r <= 1 -> 0 <= adjust_longphase l r < 4.
Proof. intros. unfold adjust_longphase. change (IZR FL_COMBS) with 4. destruct (Rle_dec 4 (l + r)); lra. Qed.
Lemma going_rest_chan X B c : chan_inv X B 32 c -> chan_rest X B c.
Proof.
  intros [A [Q [C [D E]]]]. split; [exact A|split; [exact Q|split; [exact C|split; [exact D|]]]]. eapply Forall_impl; [|exact E]. intros cb [P [L M]]. split; [exact P|]. split; apply going_rest; assumption.
Qed.
Theorem C164_block_keeps_state_bounded : forall pinv sr rl rr p f xs X B, 0 <= B <= 1000000000 -> (forall q, 0 <= sr * FL_ONE_OVER_F0 * pinv q <= B) ->
  (forall i, 0 <= rl i <= 1) -> (forall i, 0 <= rr i <= 1) -> par_ok p -> fl_rest X B f -> sine_safe p f ->
  length xs = 32%nat -> Forall (fun x => Rabs (fst x) <= X /\ Rabs (snd x) <= X) xs ->
  exists f' ys, fl_process pinv sr rl rr p f xs = Ok (f', ys) /\ fl_rest X B f'.
Proof.
  intros pinv sr rl rr p f xs X B HB HP R1 R2 [P1 [P2 [P3 [P4 P5]]]] [FL [FR [F3 [F4 [F5 F6]]]]] SS LX HX.
  unfold fl_process.
  assert (MO : exists ty w, mode_of (q_mode p) = Ok (ty, w) /\ (w = WSin -> ty <> FArp -> (q_mode p = 1 \/ q_mode p = 5)%Z)).
  { assert (C : In (q_mode p) (map Z.of_nat (seq 0 12))) by (apply in_map_iff; exists (Z.to_nat (q_mode p)); split; [lia|apply in_seq; lia]).
    cbn in C. repeat (destruct C as [<-|C]; [do 2 eexists; split; [reflexivity|]; intros E T; try discriminate; try (left; reflexivity); try (right; reflexivity); exfalso; apply T; reflexivity|]). destruct C. }
  destruct MO as [ty [w [-> MS]]]. cbn [obind].
  pose proof (long_range _ _ F3 P1) as LR. set (long := adjust_longphase (fl_long f) (q_rate p)) in *.
  destruct FL as [A1 [A2 [A3 [A4 A5]]]]. destruct FR as [B1 [B2 [B3 [B4 B5]]]]. rewrite F6.
  destruct (init_combs_ok pinv sr ty w (q_v0 p) (q_rate p) long B rl P1 LR R1 HP (ch_combs (fl_l f)) 0%Z A5) as [cl [-> [CL1 CL2]]].
  { intros W T c I. apply (SS (MS W T)). left; exact I. }
  cbn [obind].
  destruct (init_combs_ok pinv sr ty w (q_v0 p) (q_rate p) long B rr P1 LR R2 HP (ch_combs (fl_r f)) 0%Z B5) as [cr [-> [CR1 CR2]]].
  { intros W T c I. apply (SS (MS W T)). right; exact I. }
  cbn [obind].
  destruct (fill_weights_ok long (q_voices p) ty LR P3) as [ws [-> [W1 W2]]]. cbn [obind].
  match goal with |- context [fl_samples ty ws ws ?F xs] => destruct (fl_samples_ok ty ws ws X B xs HB W1 W2 W1 W2 HX F 0) as [f' [ys [-> G]]] end.
  - assert (CA : chan_inv X B 0 (mk_chan cl (ch_line (fl_l f)) (ch_lpa (fl_l f)))) by (split; [exact A1|split; [exact A2|split; [exact A3|split; [cbn [ch_combs]; lia|exact CL2]]]]).
    assert (CB : chan_inv X B 0 (mk_chan cr (ch_line (fl_r f)) (ch_lpa (fl_r f)))) by (split; [exact B1|split; [exact B2|split; [exact B3|split; [cbn [ch_combs]; lia|exact CR2]]]]).
    split; [exact CA|split; [exact CB|split; [exact LR|split; [apply new_value_going; [exact F4|exact P4]|split; [apply new_value_going; [exact F5|lra]|reflexivity]]]]].
  - lra.
  - rewrite LX. rewrite INR_IZR_INZ. cbn. lra.
  - exists f', ys. split; [reflexivity|]. rewrite LX in G. replace (0 + INR 32) with 32 in G by (rewrite INR_IZR_INZ; cbn; lra).
    destruct G as [G1 [G2 [G3 [G4 [G5 G6]]]]].
    split; [apply going_rest_chan, G1|split; [apply going_rest_chan, G2|split; [exact G3|split; [apply going_rest, G4|split; [apply going_rest, G5|exact G6]]]]].
Qed.
Print Assumptions C164_block_keeps_state_bounded.
Lemma fl_new_rest X B : 0 <= X -> 0 <= B -> fl_rest X B fl_new.
Proof.
  intros HX HB.
  assert (C : forall c, (c = 0 \/ c = 1)%Z -> chan_rest X B (new_chan c)).
  { intros c Hc. split; [cbn; lia|]. split; [intros i; change (id_line (ch_line (new_chan c)) i) with 0; rewrite Rabs_R0; lra|].
    split; [change (ch_lpa (new_chan c)) with 0; rewrite Rabs_R0; lra|]. split; [reflexivity|].
    apply Forall_forall. intros cb I. change (ch_combs (new_chan c)) with (map (fun i => mk_comb (init_phase c i) (lipol_new 32) (lipol_new 32)) [0; 1; 2; 3]%Z) in I.
    apply in_map_iff in I. destruct I as [i [<- I]]. split; [|split; apply lipol_new_rest; lra].
    cbn [cb_phase]. unfold init_phase. change (IZR FL_COMBS) with 4. cbn in I. destruct Hc as [-> | ->]; repeat (destruct I as [<-|I]; [lra|]); destruct I. }
  split; [apply C; left; reflexivity|]. split; [apply C; right; reflexivity|]. split; [change (fl_long fl_new) with 0; lra|].
  split; [apply lipol_new_rest; lra|]. split; [apply lipol_new_rest; lra|reflexivity].
Qed.
(** any sequence of blocks *)
Record fl_call := { k_par : flpar; k_rl : Z -> R; k_rr : Z -> R; k_in : list (R * R) }.
Definition call_ok (X : R) (k : fl_call) : Prop := par_ok (k_par k) /\ ~ (q_mode (k_par k) = 1 \/ q_mode (k_par k) = 5)%Z /\ (forall i, 0 <= k_rl k i <= 1) /\ (forall i, 0 <= k_rr k i <= 1) /\
  length (k_in k) = 32%nat /\ Forall (fun x => Rabs (fst x) <= X /\ Rabs (snd x) <= X) (k_in k).
Definition fl_play (pinv : R -> R) (sr : R) (ks : list fl_call) (f : flanger) : res flanger :=
  foldM (fun f k => obind (fl_process pinv sr (k_rl k) (k_rr k) (k_par k) f (k_in k)) (fun r => Ok (fst r))) ks f.
Theorem C165_flanger_never_explodes : forall pinv sr X B ks, 0 <= X -> 0 <= B <= 1000000000 -> (forall q, 0 <= sr * FL_ONE_OVER_F0 * pinv q <= B) -> Forall (call_ok X) ks ->
  exists f, fl_play pinv sr ks fl_new = Ok f /\ forall i, Rabs (id_line (ch_line (fl_l f)) i) <= X + 2 /\ Rabs (id_line (ch_line (fl_r f)) i) <= X + 2.
Proof.
  intros pinv sr X B ks HX HB HP HK.
  assert (G : forall f, fl_rest X B f -> exists f', fl_play pinv sr ks f = Ok f' /\ fl_rest X B f').
  { clear HX. induction HK as [|k ks [K1 [K2 [K3 [K4 [K5 K6]]]]] _ IH]; intros f Hf; unfold fl_play; cbn [foldM]; [exists f; split; [reflexivity|exact Hf]|].
    destruct (C164_block_keeps_state_bounded pinv sr (k_rl k) (k_rr k) (k_par k) f (k_in k) X B HB HP K3 K4 K1 Hf) as [f' [ys [-> Hf']]]; try assumption.
    { intros E. contradiction. }
    cbn [obind fst]. apply IH, Hf'. }
  destruct (G fl_new) as [f [E [[_ [A _]] [[_ [C _]] _]]]]; [apply fl_new_rest; lra|]. exists f. split; [exact E|]. intros i. split; [apply A|apply C].
Qed.
Print Assumptions C165_flanger_never_explodes.
(** without feedback (0 or less) the line holds just the input *)
Theorem C165_no_feedback : forall ty depth mix fb damp gain ws x c c' y, fb <= 0 -> chan_sample ty depth mix fb damp gain ws x c = Ok (c', y) ->
  id_push (ch_line c) x = Ok (ch_line c') /\ ch_lpa c' = ch_lpa c.
Proof.
  intros ty depth mix fb damp gain ws x c c' y Hf. unfold chan_sample. destruct (comb_sum depth (ch_line c) ws (ch_combs c) 0) as [cmb| |]; try discriminate. cbn [obind].
  unfold fb_clip. destruct (Rlt_dec 0 fb); [lra|]. rewrite Rminus_0_r. rewrite id_push_eq. cbn [obind]. intros E. injection E as <- _. split; reflexivity.
Qed.
Print Assumptions C165_no_feedback.

(** * C166: LFO range, and the edge of the sine table *)
Theorem C166_lfo_range : forall w t held rnd reset, 0 <= t < 1 -> -1 <= held <= 1 -> 0 <= rnd <= 1 -> exists r, lfo_wave sin_table w t held rnd reset = Ok r /\ -1 <= r <= 1.
Proof. intros. apply lfo_wave_range; try assumption; try lra. Qed.
Print Assumptions C166_lfo_range.
Theorem C166_sine_table_edge_refuted : forall pinv sr ty v0 rate long rnd idx c, ty <> FArp -> 0 <= cb_phase c <= 1 -> 0 <= rate <= 1 ->
  (init_comb sin_table pinv sr ty WSin v0 rate long rnd idx c = Panic <-> cb_phase c + rate = 1 \/ cb_phase c + rate = 2).
Proof.
  intros pinv sr ty v0 rate long rnd idx c T P Hr. unfold init_comb.
  set (p0 := cb_phase c + rate). set (reset := if Rlt_dec 1 p0 then true else false). set (p := if reset then p0 - 1 else p0).
  assert (HP : 0 <= p <= 1 /\ (p = 1 <-> p0 = 1 \/ p0 = 2)). { unfold p, reset, p0. destruct (Rlt_dec 1 (cb_phase c + rate)); split; try split; intros; try lra. }
  destruct HP as [HP HE]. rewrite <- HE. replace (match ty with FArp => long - IZR (as_i32R long) | _ => p end) with p by (destruct ty; [reflexivity|reflexivity|contradiction]).
  fold p0. fold reset. fold p. clearbody p. clear HE. split.
  - intros E. destruct (Req_dec p 1) as [E1|E1]; [exact E1|]. exfalso. destruct (sin_interp_range p ltac:(lra)) as [r [Q _]].
    unfold lfo_wave in E, Q. cbn zeta in E, Q. rewrite Q in E. discriminate.
  - intros ->. unfold lfo_wave. replace (1 * IZR FL_TABLE) with 8192 by (change FL_TABLE with 8192%Z; lra).
    rewrite (as_i32R_is 8192 8192) by (unfold i32_max; lia || lra). reflexivity.
Qed.
Print Assumptions C166_sine_table_edge_refuted.
(** the random waveform only ever produces the upper half of the range the others use *)
Theorem C166_sample_and_hold_unipolar_refuted : forall tab t held rnd reset r, 0 <= rnd <= 1 -> 0 <= held <= 1 -> lfo_wave tab WSandH t held rnd reset = Ok r -> 0 <= r <= 1.
Proof. intros tab t held rnd reset r Hr Hh E. injection E as <-. destruct reset; lra. Qed.
Print Assumptions C166_sample_and_hold_unipolar_refuted.
(** such a phase is reached: the last comb of the right channel starts at 7/8, and a phase step of 1/8 takes it to the edge *)
Theorem C166_reachable : forall pinv sr v0 long rnd, exists c, In c (ch_combs (fl_r fl_new)) /\ init_comb sin_table pinv sr FUnison WSin v0 (1 / 8) long rnd 3 c = Panic.
Proof.
  intros. exists (mk_comb (init_phase 1 3) (lipol_new 32) (lipol_new 32)). split; [cbn; tauto|].
  apply C166_sine_table_edge_refuted; [discriminate| | |]; cbn [cb_phase]; unfold init_phase; change (IZR FL_COMBS) with 4; lra.
Qed.
Print Assumptions C166_reachable.
(** non-vacuity of C165: two blocks, full feedback, arpeggio and Doppler *)
Example C165_nonvacuous : exists ks, length ks = 2%nat /\ Forall (call_ok 1) ks.
Proof.
  set (k := fun m => {| k_par := {| q_rate := 1 / 3; q_mode := m; q_voices := 3; q_v0 := 60; q_depth := 1; q_mix := 1; q_fb := 1; q_damp := 1 / 2; q_gain := 1 |}; k_rl := fun _ => 1 / 2; k_rr := fun _ => 1 / 3; k_in := repeat (1, -1) 32 |}).
  exists [k 8%Z; k 6%Z]. split; [reflexivity|].
  assert (A : forall m, (0 <= m <= 11)%Z -> m <> 1%Z -> m <> 5%Z -> call_ok 1 (k m)).
  { intros m H1 H2 H3. unfold call_ok. change (k_in (k m)) with (repeat ((1, -1) : R * R) 32). change (k_par (k m)) with {| q_rate := 1 / 3; q_mode := m; q_voices := 3; q_v0 := 60; q_depth := 1; q_mix := 1; q_fb := 1; q_damp := 1 / 2; q_gain := 1 |}.
    assert (F : Forall (fun x => Rabs (fst x) <= 1 /\ Rabs (snd x) <= 1) (repeat ((1, -1) : R * R) 32)).
    { apply Forall_forall. intros x I. apply repeat_spec in I. subst x. cbn [fst snd]. rewrite Rabs_R1, Rabs_left by lra. lra. }
    split; [unfold par_ok; cbn [q_rate q_mode q_voices q_v0 q_depth q_mix q_fb q_damp q_gain]; repeat split; solve [lra | lia]|]. split; [cbn [q_mode]; lia|]. split; [intros; cbn; lra|]. split; [intros; cbn; lra|]. split; [reflexivity|exact F]. }
  constructor; [apply A; lia|constructor; [apply A; lia|constructor]].
Qed.
