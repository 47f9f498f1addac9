(** C181, C182: the flanger's LFO waveforms, and what a block of the flanger computes. *)
From Coq Require Import Reals Lra.
From Verif Require Import Base Util ParamModel AdsrModel LfoModel LagModel BiquadModel MathModel FastProps FlangerModel FlangerProps.
Local Open Scope R_scope.

(** * C181 *)
(** triangle: 1 at phase 0, -1 at half a cycle, straight lines between; saw: from -1 to 1 *)
Theorem C181_triangle_and_saw : forall tab ph held rnd reset, 0 <= ph <= 1 ->
  lfo_wave tab WTri ph held rnd reset = Ok (if Rle_dec ph (1 / 2) then 1 - 4 * ph else 4 * ph - 3)
  /\ lfo_wave tab WSaw ph held rnd reset = Ok (2 * ph - 1).
Proof.
  intros tab ph held rnd reset H. split; unfold lfo_wave; apply f_equal; [|lra].
  destruct (Rle_dec ph (1 / 2)); [rewrite Rabs_left1 by lra; lra|rewrite Rabs_right by lra; lra].
Qed.
Print Assumptions C181_triangle_and_saw.
Lemma sin_lip a b : Rabs (sin a - sin b) <= Rabs (a - b).
Proof.
  destruct (Req_dec a b) as [->|N]; [rewrite !Rminus_diag_eq by reflexivity; lra|].
  assert (W : forall u v, u < v -> Rabs (sin v - sin u) <= v - u).
  { intros u v L. destruct (MVT_cor2 sin cos u v L) as (c & E & _); [intros; apply derivable_pt_lim_sin|]. rewrite E, Rabs_mult, (Rabs_right (v - u)) by lra.
    pose proof (COS_bound c). assert (Rabs (cos c) <= 1) by (apply Rabs_le; lra). pose proof (Rabs_pos (cos c)). apply Rle_trans with (1 * (v - u)); [apply Rmult_le_compat_r; lra|lra]. }
  destruct (Rtotal_order a b) as [L|[L|L]]; [|contradiction|].
  - specialize (W a b L). rewrite Rabs_minus_sym, (Rabs_minus_sym a b), (Rabs_right (b - a)) by lra. exact W.
  - specialize (W b a L). rewrite (Rabs_right (a - b)) by lra. exact W.
Qed.
(** sine: the table value at or below the phase and the next one, weighted by the distance; so the sine of the phase to 1/1000 *)
Theorem C181_sine : forall ph held rnd reset, 0 <= ph < 1 -> exists n r, (0 <= n < 8192)%Z /\ IZR n <= 8192 * ph < IZR n + 1
  /\ lfo_wave sin_table WSin ph held rnd reset = Ok r
  /\ r = sin (2 * PI * (IZR n / 8192)) + (8192 * ph - IZR n) * (sin (2 * PI * ((IZR n + 1) / 8192)) - sin (2 * PI * (IZR n / 8192)))
  /\ Rabs (r - sin (2 * PI * ph)) <= 1 / 1000.
Proof.
  intros ph held rnd reset H. destruct (floor_ex (8192 * ph)) as (n & N0 & N1); [lra|].
  assert (NL : (n < 8192)%Z) by (apply lt_IZR; lra).
  assert (E2 : sin_table (Z.land (n + 1) 8191) = sin (2 * PI * ((IZR n + 1) / 8192))).
  { rewrite land_8191. destruct (Z.eq_dec n 8191) as [->|D].
    - change ((8191 + 1) mod 8192)%Z with 0%Z. unfold sin_table. change (IZR FL_TABLE) with 8192. replace (2 * PI * 0 / 8192) with 0 by field.
      replace (2 * PI * ((8191 + 1) / 8192)) with (2 * PI) by field. now rewrite sin_0, sin_2PI.
    - rewrite Z.mod_small by lia. unfold sin_table. change (IZR FL_TABLE) with 8192. rewrite plus_IZR. f_equal. field. }
  exists n. eexists. split; [lia|]. split; [exact N1|]. split.
  { unfold lfo_wave. change (IZR FL_TABLE) with 8192. change FL_TABLE with 8192%Z. change FL_TABLE_MASK with 8191%Z. rewrite (Rmult_comm ph 8192).
    rewrite (as_i32R_is (8192 * ph) n) by (unfold i32_max; lia || assumption). cbv zeta. pose proof (Z.mod_pos_bound (n + 1) 8192 ltac:(lia)) as MB. rewrite land_8191 in *.
    destruct (Z.leb_spec 0 n); [|lia]. destruct (Z.ltb_spec n 8192); [|lia]. destruct (Z.leb_spec 0 ((n + 1) mod 8192)); [|lia]. destruct (Z.ltb_spec ((n + 1) mod 8192) 8192); [|lia]. cbn [andb]. reflexivity. }
  rewrite land_8191 in E2.
  split.
  { rewrite E2. unfold sin_table. change (IZR FL_TABLE) with 8192. replace (2 * PI * IZR n / 8192) with (2 * PI * (IZR n / 8192)) by field. ring. }
  rewrite E2. unfold sin_table. change (IZR FL_TABLE) with 8192. replace (2 * PI * IZR n / 8192) with (2 * PI * (IZR n / 8192)) by field.
  set (a := 2 * PI * (IZR n / 8192)) in *. set (b := 2 * PI * ((IZR n + 1) / 8192)) in *. set (t := 2 * PI * ph).
  set (w := 8192 * ph - IZR n) in *. assert (W : 0 <= w <= 1) by (unfold w; lra).
  pose proof PI_RGT_0 as P0. pose proof PI_4 as P4.
  assert (A : Rabs (a - t) <= 1 / 1000 /\ Rabs (b - t) <= 1 / 1000).
  { unfold a, b, t. replace (2 * PI * (IZR n / 8192) - 2 * PI * ph) with (PI * ((IZR n - 8192 * ph) / 4096)) by field.
    replace (2 * PI * ((IZR n + 1) / 8192) - 2 * PI * ph) with (PI * ((IZR n + 1 - 8192 * ph) / 4096)) by field.
    rewrite !Rabs_mult, (Rabs_right PI) by lra.
    split; (apply Rle_trans with (4 * (1 / 4096)); [apply Rmult_le_compat; [lra|apply Rabs_pos|lra|apply Rabs_le; lra]|lra]). }
  destruct A as [A B]. pose proof (sin_lip a t) as LA. pose proof (sin_lip b t) as LB.
  replace (sin a * (1 - w) + w * sin b - sin t) with ((1 - w) * (sin a - sin t) + w * (sin b - sin t)) by ring.
  eapply Rle_trans; [apply Rabs_triang|]. rewrite !Rabs_mult, (Rabs_right (1 - w)), (Rabs_right w) by lra.
  assert ((1 - w) * Rabs (sin a - sin t) <= (1 - w) * (1 / 1000)) by (apply Rmult_le_compat_l; lra).
  assert (w * Rabs (sin b - sin t) <= w * (1 / 1000)) by (apply Rmult_le_compat_l; lra). lra.
Qed.
Print Assumptions C181_sine.
(** sample and hold: a new random value exactly when the comb's cycle starts again, otherwise the held one. The LFO phase of a
    comb advances by the rate and wraps at one; the shared arpeggio phase advances by the rate and wraps at four. *)
Theorem C181_phases_and_hold : forall tab pinv sr ty v0 rate long rnd idx c, ty <> FArp -> 0 <= cb_phase c <= 1 -> 0 <= rate <= 1 ->
  exists c', init_comb tab pinv sr ty WSandH v0 rate long rnd idx c = Ok c'
   /\ cb_phase c' = (if Rlt_dec 1 (cb_phase c + rate) then cb_phase c + rate - 1 else cb_phase c + rate)
   /\ p_new (cb_lfo c') = (if Rlt_dec 1 (cb_phase c + rate) then rnd else p_v (cb_lfo c)).
Proof.
  intros tab pinv sr ty v0 rate long rnd idx c T P Q. unfold init_comb, lfo_wave.
  destruct (Rlt_dec 1 (cb_phase c + rate)) as [L|L]; destruct ty; try contradiction; (eexists; split; [reflexivity|split; reflexivity]).
Qed.
Print Assumptions C181_phases_and_hold.
Theorem C181_long_phase : forall l r, 0 <= l < 4 -> 0 <= r <= 4 -> 0 <= adjust_longphase l r < 4 /\ (adjust_longphase l r = l + r \/ adjust_longphase l r = l + r - 4).
Proof. intros l r L H. unfold adjust_longphase. change (IZR FL_COMBS) with 4. destruct (Rle_dec 4 (l + r)); split; lra. Qed.
Print Assumptions C181_long_phase.
(** every comb starts the block aiming at its own delay: the period of note v0 + 6 i, in samples *)
Theorem C181_comb_delays : forall tab pinv sr ty w v0 rate long rnd idx c c', init_comb tab pinv sr ty w v0 rate long rnd idx c = Ok c' ->
  p_new (cb_base c') = sr / (8175798915 / 1000000000) * pinv (v0 + 6 * IZR idx).
Proof.
  intros tab pinv sr ty w v0 rate long rnd idx c c' H. unfold init_comb in H.
  match type of H with obind ?e _ = _ => destruct e as [r| |]; cbn [obind] in H; try discriminate end. injection H as <-. cbn [cb_base lipol_new_value p_new].
  unfold FL_ONE_OVER_F0. rewrite (Rmult_comm (IZR idx) 6). field.
Qed.
Print Assumptions C181_comb_delays.

(** * C182 *)
(** a smoothed setting: from the value it had been heading for (the new one at once, the first time) to the new value in 32 steps *)
Definition knob (p : lipol) (target : R) (n : nat) : R := let v := if p_first p then target else p_new p in v + INR n * ((target - v) / 32).
(** the audible combs, each the delay line read lfo-modulated around its base *)
Inductive mixes (depth : R) (d : idelay) : list R -> list comb -> R -> Prop :=
  | mixes_nil : mixes depth d [] [] 0
  | mixes_silent w ws c cs s : w <= 0 -> mixes depth d ws cs s -> mixes depth d (w :: ws) (c :: cs) s
  | mixes_heard w ws c cs v s : 0 < w -> id_value d (p_v (cb_base c) * (1 + p_v (cb_lfo c) * depth) + 1) = Ok v -> mixes depth d ws cs s -> mixes depth d (w :: ws) (c :: cs) (w * v + s).
Lemma comb_sum_mixes depth d ws : forall cs acc r, length ws = length cs -> comb_sum depth d ws cs acc = Ok r -> mixes depth d ws cs (r - acc).
Proof.
  induction ws as [|w ws IH]; intros [|c cs] acc r L H; try discriminate L; cbn [comb_sum] in H.
  - injection H as <-. replace (acc - acc) with 0 by ring. constructor.
  - destruct (Rlt_dec 0 w) as [W|W].
    + destruct (id_value d (p_v (cb_base c) * (1 + p_v (cb_lfo c) * depth) + 1)) as [v| |] eqn:E; cbn [obind] in H; try discriminate.
      apply IH in H; [|cbn in L; lia]. replace (r - acc) with (w * v + (r - (acc + w * v))) by ring. now apply mixes_heard.
    + cbn [obind] in H. apply IH in H; [|cbn in L; lia]. apply mixes_silent; [lra|exact H].
Qed.
Definition clip1 (x : R) : R := Rmax (-1) (Rmin 1 x).
Definition cubic (x : R) : R := (3 * x - x ^ 3) / 2.
(** one channel of one sample: the combs' mix is clipped and shaped, high-passed (low-pass state subtracted) and, negated, fed
    back with the input; the output is the dry signal (none in Doppler mode) plus the mix, clipped and shaped *)
Definition one_sample (ty : ftype) (depth mix fb damp gain : R) (ws : list R) (x : R) (c c' : chan) (y : R) : Prop :=
  exists s f lp, mixes depth (ch_line c) ws (ch_combs c) s
    /\ (0 < fb -> lp = (1 - damp) * ch_lpa c + damp * cubic (clip1 (fb * s)) /\ f = cubic (clip1 (fb * s)) - lp)
    /\ (fb <= 0 -> lp = ch_lpa c /\ f = 0)
    /\ ch_combs c' = map (fun cb => mk_comb (cb_phase cb) (lipol_process (cb_lfo cb)) (lipol_process (cb_base cb))) (ch_combs c)
    /\ ch_lpa c' = lp /\ id_push (ch_line c) (x - f) = Ok (ch_line c')
    /\ y = cubic (clip1 ((1 + gain) * (match ty with FDoppler => 0 | _ => x end + mix * s))).
Lemma clip1_eq x : limit_range_R x (-1) 1 = clip1 x.
Proof. unfold limit_range_R, clip1, Rmax, Rmin. repeat destruct Rle_dec; lra. Qed.
Lemma soft_eq x : soft x = cubic x.
Proof. unfold soft, cubic. field. Qed.
Lemma chan_sample_exact ty depth mix fb damp gain ws x c c' y : length ws = length (ch_combs c) ->
  chan_sample ty depth mix fb damp gain ws x c = Ok (c', y) -> one_sample ty depth mix fb damp gain ws x c c' y /\ length (ch_combs c') = length (ch_combs c).
Proof.
  intros L H. unfold chan_sample in H. destruct (comb_sum depth (ch_line c) ws (ch_combs c) 0) as [s| |] eqn:E; cbn [obind] in H; try discriminate.
  apply comb_sum_mixes in E; [|exact L]. rewrite Rminus_0_r in E. destruct (fb_clip fb damp (ch_lpa c) s) as [f lp] eqn:F.
  destruct (id_push (ch_line c) (x - f)) as [line| |] eqn:P; cbn [obind] in H; try discriminate. injection H as <- <-. cbn [ch_combs ch_lpa ch_line].
  split; [|apply map_length]. exists s, f, lp. split; [exact E|]. unfold fb_clip in F. rewrite clip1_eq, soft_eq in F.
  split; [|split; [|split; [reflexivity|split; [reflexivity|split; [exact P|]]]]].
  - intros G. destruct (Rlt_dec 0 fb); [|lra]. injection F as <- <-. split; ring.
  - intros G. destruct (Rlt_dec 0 fb); [lra|]. injection F as <- <-. split; reflexivity.
  - rewrite clip1_eq, soft_eq. do 3 f_equal. destruct ty; ring.
Qed.
Fixpoint ticks (n : nat) (p : lipol) : lipol := match n with O => p | Datatypes.S k => ticks k (lipol_process p) end.
Lemma ticks_v n : forall p, p_v (ticks n p) = p_v p + INR n * p_dv p.
Proof. induction n as [|n IH]; intros p; [cbn [ticks INR]; ring|]. cbn [ticks]. rewrite IH, S_INR. cbn [lipol_process p_v p_dv]. ring. Qed.
Lemma knob_ticks p t n : p_bsinv p = 1 / 32 -> p_v (ticks n (lipol_new_value p t)) = knob p t n.
Proof. intros B. rewrite ticks_v. cbn [lipol_new_value p_v p_dv]. rewrite B. unfold knob. lra. Qed.
Lemma samples_exact ty wl wr xs : forall f f' ys, length wl = length (ch_combs (fl_l f)) -> length wr = length (ch_combs (fl_r f)) ->
  fl_samples ty wl wr f xs = Ok (f', ys) -> length ys = length xs /\ exists cl cr : nat -> chan,
   cl 0%nat = fl_l f /\ cr 0%nat = fl_r f /\ cl (length xs) = fl_l f' /\ cr (length xs) = fl_r f'
   /\ forall n x, nth_error xs n = Some x -> exists yl yr, nth_error ys n = Some (yl, yr)
   /\ one_sample ty (p_v (ticks n (fl_depth f))) (p_v (ticks n (fl_mix f))) (p_v (ticks n (fl_fb f))) (p_v (ticks n (fl_damp f))) (p_v (ticks n (fl_gain f))) wl (fst x) (cl n) (cl (Datatypes.S n)) yl
   /\ one_sample ty (p_v (ticks n (fl_depth f))) (p_v (ticks n (fl_mix f))) (p_v (ticks n (fl_fb f))) (p_v (ticks n (fl_damp f))) (p_v (ticks n (fl_gain f))) wr (snd x) (cr n) (cr (Datatypes.S n)) yr.
Proof.
  induction xs as [|x0 xs IH]; intros f f' ys L1 L2 H; cbn [fl_samples] in H.
  - injection H as <- <-. split; [reflexivity|]. exists (fun _ => fl_l f), (fun _ => fl_r f). do 4 (split; [reflexivity|]). intros [|n] x E; discriminate.
  - destruct (fl_sample ty wl wr f x0) as [[f1 y0]| |] eqn:E0; cbn [obind] in H; try discriminate.
    destruct (fl_samples ty wl wr f1 xs) as [[f2 ys2]| |] eqn:E1; cbn [obind] in H; try discriminate. injection H as <- <-.
    unfold fl_sample in E0.
    match type of E0 with obind ?e _ = _ => destruct e as [[cl yl]| |] eqn:A end; cbn [obind] in E0; try discriminate.
    match type of E0 with obind ?e _ = _ => destruct e as [[cr yr]| |] eqn:B end; cbn [obind] in E0; try discriminate. injection E0 as <- <-.
    apply chan_sample_exact in A; [|exact L1]. apply chan_sample_exact in B; [|exact L2]. destruct A as [A LA], B as [B LB].
    apply IH in E1; cbn [fl_l fl_r]; try congruence. cbn [fl_depth fl_mix fl_fb fl_damp fl_gain fl_l fl_r] in E1. destruct E1 as [LE (sl & sr & S1 & S2 & S3 & S4 & E1)]. split; [cbn; lia|].
    exists (fun n => match n with O => fl_l f | Datatypes.S k => sl k end), (fun n => match n with O => fl_r f | Datatypes.S k => sr k end).
    split; [reflexivity|]. split; [reflexivity|]. cbn [length]. split; [exact S3|]. split; [exact S4|].
    intros [|n] x En; cbn [nth_error] in *.
    + injection En as <-. exists yl, yr. cbn [ticks]. rewrite S1, S2. auto.
    + destruct (E1 n x En) as (u & v & Q1 & Q2 & Q3). exists u, v. cbn [ticks]. auto.
Qed.
(** a block: sample n is one_sample with every setting n steps into its 32-step ramp; feedback is scaled by the mode and cubed,
    damping is scaled by 0.4 *)
Definition steps32 (f : flanger) : Prop := p_bsinv (fl_depth f) = 1 / 32 /\ p_bsinv (fl_mix f) = 1 / 32 /\ p_bsinv (fl_fb f) = 1 / 32 /\ p_bsinv (fl_damp f) = 1 / 32 /\ p_bsinv (fl_gain f) = 1 / 32.
Definition four (f : flanger) : Prop := length (ch_combs (fl_l f)) = 4%nat /\ length (ch_combs (fl_r f)) = 4%nat.
Lemma init_combs_length k rnd : forall cs i cs', init_combs k rnd i cs = Ok cs' -> length cs' = length cs.
Proof.
  induction cs as [|c cs IH]; intros i cs' H; cbn [init_combs] in H; [injection H as <-; reflexivity|].
  destruct (k (rnd i) i c) as [c'| |]; cbn [obind] in H; try discriminate. destruct (init_combs k rnd (i + 1) cs) as [r| |] eqn:E; cbn [obind] in H; try discriminate.
  injection H as <-. cbn. f_equal. eapply IH. exact E.
Qed.
Theorem C182_block : forall pinv sr rl rr p f xs f' ys, steps32 f -> four f -> 0 <= fl_long f < 4 -> 0 <= q_rate p <= 1 -> (1 <= q_voices p <= 4)%Z ->
  fl_process pinv sr rl rr p f xs = Ok (f', ys) -> exists ty w ws, mode_of (q_mode p) = Ok (ty, w) /\ fill_weights (fl_long f') (q_voices p) ty = Ok ws /\ length ys = length xs /\ (steps32 f' /\ four f' /\ 0 <= fl_long f' < 4)
   /\ exists cl cr : nat -> chan, (ch_line (cl 0%nat) = ch_line (fl_l f) /\ ch_lpa (cl 0%nat) = ch_lpa (fl_l f) /\ ch_line (cr 0%nat) = ch_line (fl_r f) /\ ch_lpa (cr 0%nat) = ch_lpa (fl_r f))
   /\ cl (length xs) = fl_l f' /\ cr (length xs) = fl_r f'
   /\ forall n x, nth_error xs n = Some x ->
     let depth := knob (fl_depth f) (q_depth p) n in let mix := knob (fl_mix f) (q_mix p) n in
     let fb := knob (fl_fb f) (match ty with FUnison => 4 / 10 | FDoppler => 6 / 10 | FArp => 9 / 10 end * q_fb p ^ 3) n in
     let damp := knob (fl_damp f) (4 / 10 * q_damp p) n in let gain := knob (fl_gain f) (q_gain p) n in
     exists yl yr, nth_error ys n = Some (yl, yr)
      /\ one_sample ty depth mix fb damp gain ws (fst x) (cl n) (cl (Datatypes.S n)) yl /\ one_sample ty depth mix fb damp gain ws (snd x) (cr n) (cr (Datatypes.S n)) yr.
Proof.
  intros pinv sr rl rr p f xs f' ys (B1 & B2 & B3 & B4 & B5) [L1 L2] HL HR HV H. unfold fl_process in H.
  destruct (mode_of (q_mode p)) as [[ty w]| |] eqn:M; cbn [obind] in H; try discriminate. exists ty, w.
  pose proof (long_range _ _ HL HR) as LR. set (long := adjust_longphase (fl_long f) (q_rate p)) in *.
  match type of H with obind ?e _ = _ => destruct e as [cl| |] eqn:CL end; cbn [obind] in H; try discriminate.
  match type of H with obind ?e _ = _ => destruct e as [cr| |] eqn:CR end; cbn [obind] in H; try discriminate.
  apply init_combs_length in CL. apply init_combs_length in CR.
  destruct (fill_weights_ok long (q_voices p) ty LR HV) as [ws [WE [W1 W2]]]. rewrite WE in H. cbn [obind] in H. exists ws.
  match type of H with fl_samples _ _ _ ?F _ = _ => set (f1 := F) in * end.
  assert (LG : forall xs f f' ys, length ws = length (ch_combs (fl_l f)) -> length ws = length (ch_combs (fl_r f)) -> fl_samples ty ws ws f xs = Ok (f', ys) ->
    fl_long f' = fl_long f /\ (steps32 f -> steps32 f') /\ length ws = length (ch_combs (fl_l f')) /\ length ws = length (ch_combs (fl_r f'))).
  { clear. induction xs as [|x xs IH]; intros f f' ys N1 N2 H; cbn [fl_samples] in H; [injection H as <- <-; auto|].
    destruct (fl_sample ty ws ws f x) as [[f1 y]| |] eqn:E; cbn [obind] in H; try discriminate.
    destruct (fl_samples ty ws ws f1 xs) as [[f2 ys2]| |] eqn:E1; cbn [obind] in H; try discriminate. injection H as <- <-.
    unfold fl_sample in E. do 2 (match type of E with obind ?e _ = _ => destruct e as [[? ?]| |] eqn:?A end; cbn [obind] in E; try discriminate). injection E as <- <-.
    apply chan_sample_exact in A; [|exact N1]. apply chan_sample_exact in A0; [|exact N2]. destruct A as [_ A], A0 as [_ A0].
    apply IH in E1; cbn [fl_l fl_r fl_long] in *; try congruence. destruct E1 as (Q1 & Q2 & Q3 & Q4). split; [exact Q1|]. split; [|split; assumption]. intros U. apply Q2.
    unfold steps32 in *. cbn [fl_depth fl_mix fl_fb fl_damp fl_gain lipol_process p_bsinv]. exact U. }
  destruct (LG xs f1 f' ys) as (LE & ST & N1 & N2); [cbn [f1 fl_l ch_combs]; lia|cbn [f1 fl_r ch_combs]; lia|exact H|]. cbn [f1 fl_long] in LE. rewrite LE.
  destruct (samples_exact ty ws ws xs f1 f' ys) as [LY (sl & sr_ & S1 & S2 & S3 & S4 & S)]; [cbn [f1 fl_l ch_combs]; lia|cbn [f1 fl_r ch_combs]; lia|exact H|].
  split; [reflexivity|]. split; [exact WE|]. split; [exact LY|].
  split. { split; [apply ST; unfold steps32; cbn [f1 fl_depth fl_mix fl_fb fl_damp fl_gain lipol_new_value p_bsinv]; auto|]. split; [split; congruence|exact LR]. }
  exists sl, sr_. rewrite S1, S2. split; [cbn [f1 fl_l fl_r ch_line ch_lpa]; auto|]. split; [exact S3|]. split; [exact S4|].
  intros n x En. cbv zeta. destruct (S n x En) as (yl & yr & Q1 & Q2 & Q3).
  cbn [f1 fl_depth fl_mix fl_fb fl_damp fl_gain fl_l fl_r] in *. rewrite !knob_ticks in Q2, Q3 by assumption.
  replace (match ty with FUnison => 4 / 10 | FDoppler => 6 / 10 | FArp => 9 / 10 end * q_fb p ^ 3) with (feedback_scale ty * (q_fb p * q_fb p * q_fb p)) by (unfold feedback_scale; ring).
  exists yl, yr. auto.
Qed.
Print Assumptions C182_block.
(** the hypotheses hold from the start on *)
Example C182_new : steps32 fl_new /\ four fl_new /\ 0 <= fl_long fl_new < 4.
Proof. unfold steps32, four, fl_new. cbn [fl_depth fl_mix fl_fb fl_damp fl_gain fl_l fl_r fl_long]. unfold lipol_new, lipol_set_blocksize. cbn [p_bsinv]. replace (INR 32) with 32 by (rewrite INR_IZR_INZ; reflexivity). repeat split; lra. Qed.
