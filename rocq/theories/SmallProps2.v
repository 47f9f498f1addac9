(* SmallProps2.v - C39, C40, C43, C45, C47, C56, C57, C76, C84 (continued): initial states, first-use behaviour, shapes and coefficients. *)
From Coq Require Import Reals Lra.
From Flocq Require Import Core.Core IEEE754.BinarySingleNaN.
From Verif Require Import Base Util F32 F32Facts BlockModel MathModel ParamModel LagModel LagProps RampProps SmallModel SmallProps UniProps AdsrModel AdsrProps.
Local Open Scope Z_scope.

(** ** C39: the first value snaps, later ones glide *)
Definition lag_sets (o : lag_op) : bool := match o with NewValue _ | StartValue _ => true | _ => false end.
Theorem C39_first_value_snaps : forall ops x, let s := fold_left do_lag ops lag_default in
  l_v (lag_new_value s x) = if existsb lag_sets ops then l_v s else x.
Proof.
  intros ops x s. assert (G : forall ops s0, l_first (fold_left do_lag ops s0) = l_first s0 && negb (existsb lag_sets ops)).
  { clear. induction ops as [|o ops IH]; intros s0; cbn [fold_left existsb]; [now rewrite andb_true_r|]. rewrite IH. destruct o; cbn; try reflexivity.
    - unfold lag_new_value. destruct (l_first s0) eqn:E; cbn; reflexivity.
    - now rewrite andb_false_r. }
  unfold lag_new_value. unfold s at 1. rewrite G. cbn [l_first lag_default andb]. destruct (existsb lag_sets ops); reflexivity.
Qed.
Print Assumptions C39_first_value_snaps.
Example C39_first_instance : existsb lag_sets [SetRate (1/2)%R; Process; NewValue 3%R] = true /\ existsb lag_sets [Instantize] = false. Proof. split; reflexivity. Qed.
(* a fresh vector lag is at rest at 0 until it is given a value *)
Theorem C39_vlag_fresh : forall n, vl_v (times n vlag_process vlag_new) = 0%R.
Proof. intros n. assert (vl_v (times n vlag_process vlag_new) = 0 /\ vl_target (times n vlag_process vlag_new) = 0)%R as [? _]; [|assumption]. induction n as [|n [A B]]; cbn [times]; [split; reflexivity|]. cbn. rewrite A, B. split; lra. Qed.
Print Assumptions C39_vlag_fresh.

(** ** C40: the first ramp is flat *)
(* whether a value has been given since the ramp was built or last reset *)
Definition lipol_used (ops : list lipol_op) : bool := fold_left (fun b o => match o with LNewValue _ => true | LReset _ => false | _ => b end) ops false.
Theorem C40_first_ramp_is_flat : forall n0 ops x k, let s := fold_left do_lipol ops (lipol_new n0) in
  lipol_used ops = false -> p_v (times k lipol_process (lipol_new_value s x)) = x.
Proof.
  intros n0 ops x k s U.
  assert (G : forall ops s0 b, p_first s0 = negb b -> p_first (fold_left do_lipol ops s0) = negb (fold_left (fun b o => match o with LNewValue _ => true | LReset _ => false | _ => b end) ops b)).
  { clear. induction ops as [|o ops IH]; intros s0 b E; cbn [fold_left]; [exact E|]. apply IH. destruct o; cbn; try exact E; reflexivity. }
  assert (F : p_first s = true). { unfold s. rewrite (G ops (lipol_new n0) false eq_refl). unfold lipol_used in U. now rewrite U. }
  destruct (lipol_times k (lipol_new_value s x)) as (V & _). cbn zeta in V. rewrite V. unfold lipol_new_value. rewrite F. cbn. ring.
Qed.
Print Assumptions C40_first_ramp_is_flat.
(* and later ones start where the previous one was heading *)
Theorem C40_next_ramp_continues : forall n0 ops x, let s := fold_left do_lipol ops (lipol_new n0) in
  lipol_used ops = true -> p_v (lipol_new_value s x) = p_new s.
Proof.
  intros n0 ops x s U.
  assert (G : forall ops s0 b, p_first s0 = negb b -> p_first (fold_left do_lipol ops s0) = negb (fold_left (fun b o => match o with LNewValue _ => true | LReset _ => false | _ => b end) ops b)).
  { clear. induction ops as [|o ops IH]; intros s0 b E; cbn [fold_left]; [exact E|]. apply IH. destruct o; cbn; try exact E; reflexivity. }
  assert (F : p_first s = false). { unfold s. rewrite (G ops (lipol_new n0) false eq_refl). unfold lipol_used in U. now rewrite U. }
  unfold lipol_new_value. rewrite F. reflexivity.
Qed.
Print Assumptions C40_next_ramp_continues.
Example C40_first_instance : lipol_used [LNewValue 1%R; LReset 4; LProcess] = false /\ lipol_used [LNewValue 1%R; LProcess] = true. Proof. split; reflexivity. Qed.

(** ** C43: the counter counts the silent blocks since the last input *)
Fixpoint ring_after (r : ringout) (ins : list bool) : res ringout := match ins with [] => Ok r | b :: t => obind (process_ringout r b) (fun p => ring_after (fst p) t) end.
Theorem C43_counter_counts_silence : forall d ins k, Z.of_nat (length ins) + Z.of_nat k < 18446744073709551615 ->
  ring_after (ringout_blocks d) (ins ++ true :: repeat false k) = Ok (RingOn (Z.of_nat k) d) /\ ring_counter (RingOn (Z.of_nat k) d) = Z.of_nat k
  /\ ring_after (ringout_blocks d) (repeat false k) = Ok (RingOn (Z.of_nat k) d).
Proof.
  intros d ins k H.
  assert (S : forall k c, 0 <= c -> c + Z.of_nat k <= 18446744073709551615 -> ring_after (RingOn c d) (repeat false k) = Ok (RingOn (c + Z.of_nat k) d)).
  { clear. induction k as [|k IH]; intros c Hc H; cbn [repeat ring_after]; [do 2 f_equal; lia|]. cbn [process_ringout ring_incr]. destruct (Z.leb_spec (c + 1) 18446744073709551615); [|lia].
    cbn [obind fst]. rewrite IH by lia. do 2 f_equal. lia. }
  assert (G : forall ins c, 0 <= c -> c + Z.of_nat (length ins) <= 18446744073709551615 -> exists c', ring_after (RingOn c d) (ins ++ true :: repeat false k) = ring_after (RingOn c' d) (true :: repeat false k)).
  { clear. induction ins as [|b ins IH]; intros c Hc H; [exists c; reflexivity|]. cbn [app ring_after]. cbn [length] in H. destruct b; cbn [process_ringout ring_incr ring_reset].
    - cbn [obind fst]. apply IH; lia.
    - destruct (Z.leb_spec (c + 1) 18446744073709551615); [|lia]. cbn [obind fst]. apply IH; lia. }
  split; [|split; [reflexivity|]].
  - destruct (G ins 0 ltac:(lia) ltac:(lia)) as [c' E]. exact (eq_trans E (S k 0 ltac:(lia) ltac:(lia))).
  - exact (S k 0 ltac:(lia) ltac:(lia)).
Qed.
Print Assumptions C43_counter_counts_silence.
Theorem C43_off_has_no_count : forall ins, ring_after RingOff ins = Ok RingOff /\ ring_counter RingOff = 0.
Proof. intros ins. split; [|reflexivity]. induction ins as [|b r IH]; [reflexivity|exact IH]. Qed.
Print Assumptions C43_off_has_no_count.

(** ** C47: the default coefficient is 0.3 *)
Theorem C47_default : forall N xs, (0 < N)%nat -> exists s' ys, ap_run (ap_default N) xs = Ok (s', ys) /\ length ys = length xs /\
  forall n, (n < length xs)%nat -> nth n ys 0%R = (3 / 10 * nth n xs 0 + (if (n <? N)%nat then 0 else nth (n - N) xs 0 - 3 / 10 * nth (n - N) ys 0))%R.
Proof. intros N xs HN. exact (C47_allpass_recurrence N (3 / 10)%R 0 xs HN ltac:(lia)). Qed.
Print Assumptions C47_default.
(* a fresh unit's first sample is stored at slot 1 mod N, the write position starting at 0 *)
Theorem C47_default_position : forall N x, (0 < N)%nat -> exists s y, ap_process (ap_default N) x = Ok (s, y) /\ ap_wpos s = 1 mod Z.of_nat N.
Proof.
  intros N x HN. unfold ap_process, ap_update_wpos, ap_default. cbn [ap_buf ap_a ap_wpos]. rewrite repeat_length.
  destruct (Z.eqb_spec (Z.of_nat N) 0); [lia|]. cbn [obind ap_buf ap_a ap_wpos]. change (0 + 1) with 1.
  assert (B := Z.mod_pos_bound 1 (Z.of_nat N) ltac:(lia)). set (k := 1 mod Z.of_nat N) in *. clearbody k.
  destruct (zget_ok (repeat 0%R N) k) as [y ->]; [rewrite repeat_length; lia|]. cbn [obind]. rewrite zset_ok by (rewrite repeat_length; lia). cbn [obind].
  rewrite zget_upd_eq by (rewrite repeat_length; lia). cbn [obind]. eexists _, _. split; [reflexivity|]. reflexivity.
Qed.
Print Assumptions C47_default_position.

(** ** C56: fresh and reset controllers, the normalised output *)
Theorem C56_fresh : forall sr, let s := ctrl_new sr in c_output s = 0%R /\ c_target s = 0%R /\ ctrl_get_output01 s = 0%R /\ ctrl_get_target01 s = 0%R /\ snd (ctrl_has_changed s false) = true
  /\ forall t, let r := ctrl_reset t in c_output r = 0%R /\ c_target r = 0%R /\ ctrl_get_output01 r = 0%R /\ snd (ctrl_has_changed r false) = snd (ctrl_has_changed t false).
Proof. intros sr s. do 5 (split; [reflexivity|]). intros t. cbv zeta. do 3 (split; [reflexivity|]). unfold ctrl_has_changed. cbn [c_changed ctrl_reset]. destruct (c_changed t); reflexivity. Qed.
Print Assumptions C56_fresh.
(* the normalised output: 0..1 for the whole range of the output, increasing, and the same scale as the target's *)
Theorem C56_output01 : forall s, let lo := if c_bipolar s then (-1)%R else 0%R in
  ((ctrl_get_output01 s = 0 <-> c_output s = lo) /\ (ctrl_get_output01 s = 1 <-> c_output s = 1))%R
  /\ (forall o, c_output s < o -> ctrl_get_output01 s < ctrl_get_output01 (ctrl_with_output s o))%R /\ ctrl_get_output01 (ctrl_with_output s (c_target s)) = ctrl_get_target01 s.
Proof.
  intros s lo. unfold lo, ctrl_get_output01, ctrl_get_target01, ctrl_with_output. cbn. destruct (c_bipolar s); (split; [split; split; lra|split; [intros; lra|reflexivity]]).
Qed.
Print Assumptions C56_output01.

(** ** C57: who may modulate modulators *)
Theorem C57_modulate_modulators : forall m, (ms_can_modulate_modulators m = true <-> m <> AmpEg /\ m <> FilterEg)
  /\ (ms_can_modulate_voice_modulators m = true <-> In m [Original; Velocity; KeyTrack; PolyphonicAfterTouch; ChannelAfterTouch; PitchBend; ModWheel; Ctrl1; Ctrl2; Ctrl3; Ctrl4; Ctrl5; Ctrl6; Ctrl7; Ctrl8; Timbre]).
Proof.
  intros m. split.
  - destruct m; cbn; (split; [intros; split; discriminate || discriminate|]); try reflexivity; intros [A B]; now contradiction A || now contradiction B.
  - split; [destruct m; cbn; intros H; try discriminate; tauto|]. cbn. intros H. repeat destruct H as [<-|H]; try reflexivity. destruct H.
Qed.
Print Assumptions C57_modulate_modulators.

(** ** C76: the sign of an integer; 0 counts as positive *)
Theorem C76_sign : forall x, (x < 0 -> sign x = -1) /\ (0 <= x -> sign x = 1) /\ sign x * Z.abs x = x.
Proof. intros x. unfold sign. destruct (Z.ltb_spec x 0); lia. Qed.
Print Assumptions C76_sign.

(** ** C45: fresh envelope, retriggering, attack shapes *)
Theorem C45_fresh : ad_output adsr_new = 0%R /\ ad_state adsr_new = ASAttack /\ adsr_is_idle adsr_new = false
  /\ forall g e at_ de su re, analog e at_ de su re -> exists a, adsr_process_block g e adsr_new = Ok a /\ ad_output a = (3 / 2 * coef e at_ (e_sync_a e))%R.
Proof.
  do 3 (split; [reflexivity|]). intros g e at_ de su re (M & A & D & S & RR & SU & PW). unfold adsr_process_block. rewrite M. cbn [pvalb obind].
  unfold process_block_analog. rewrite A, D, S, RR. cbn [pvalf obind ad_state adsr_new ad_v ad_vd ad_dis astate_eqb astate_rank].
  change ((0 =? 0) || (0 =? 1)) with true. cbn [orb andb negb]. destruct (Rlt_dec 1 0) as [X|X]; [lra|]. cbn [orb andb]. eexists. split; [reflexivity|]. cbn [ad_output set_output].
  cbn [andb]. unfold V_CC. change (astate_eqb ASAttack ASAttack || astate_eqb ASAttack ASDecay) with true. cbv iota.
  rewrite (Rmax_right 0 (3 / 2 - 0)) by lra. rewrite !(Rmin_left 0 (3 / 2 - 0)) by lra. lra.
Qed.
Print Assumptions C45_fresh.
Example C45_fresh_instance : exists e, analog e 0 0 1 0.
Proof.
  exists {| e_attack := PFloat 0%R; e_decay := PFloat 0%R; e_sustain := PFloat 1%R; e_release := PFloat 0%R; e_attack_shape := PInt 0; e_decay_shape := PInt 0; e_release_shape := PInt 0;
     e_mode := PBool true; e_attack_min := PFloat 0%R; e_sync_a := false; e_sync_d := false; e_sync_r := false; e_ratio := 1%R; e_rate := fun x => x; e_sr := 48000%R;
     e_pow2 := fun _ => 1%R; e_log2 := fun x => x; e_third := fun x => x |}.
  unfold analog. cbn. do 5 (split; [reflexivity|]). split; [lra|]. intros; lra.
Qed.
(* a key struck again restarts the envelope unless it has been released *)
Theorem C45_retrigger : forall e a, adsr_retrigger e a =
  match ad_state a with ASAttack | ASDecay | ASSustain => adsr_attack e a | _ => Ok a end.
Proof. intros e a. unfold adsr_retrigger. destruct (ad_state a); reflexivity. Qed.
Print Assumptions C45_retrigger.
(* a shape number outside 0, 1, 2 is not silently taken for another shape *)
Theorem C45_unknown_attack_shape_panics : forall g e a at_ su sh, e_mode e = PBool false -> e_attack e = PFloat at_ -> e_sustain e = PFloat su -> e_attack_shape e = PInt sh -> ~ 0 <= sh <= 2 ->
  ad_state a = ASAttack -> adsr_process_block g e a = Panic.
Proof.
  intros g e a at_ su sh M A S H O ST. unfold adsr_process_block. rewrite M. cbn [pvalb obind]. unfold process_block_digital. rewrite ST. unfold digital_attack, attack_rate. rewrite A. cbn [pvalf obind].
  destruct (Rle_dec 1 _); rewrite ?S; cbn [pvalf obind]; rewrite H; cbn [pvali obind];
    (replace (sh =? 0) with false by lia; replace (sh =? 1) with false by lia; replace (sh =? 2) with false by lia; reflexivity).
Qed.
Print Assumptions C45_unknown_attack_shape_panics.

(** ** C84: what the time controls mean *)
(* with exact logarithm and power, a stage set to t (log2 seconds) moves by the fraction 4 * 2^-(t*ratio) blocks-per-second^-1 each block, at most the whole way *)
Theorem C84_coefficient : forall e t sync, (0 < e_sr e)%R -> (forall x, e_pow2 e x = exp (x * ln 2)) -> (forall x, 0 < x -> e_log2 e x = ln x / ln 2)%R ->
  coef e t sync = Rmin 1 (4 * (32 / e_sr e) * exp (- (t * (if sync then e_ratio e else 1)) * ln 2)).
Proof.
  intros e t sync SR P L. unfold coef, tsyncratio. cbv zeta. rewrite P, L by lra. set (k := if sync then e_ratio e else 1%R). clearbody k.
  assert (LN : (0 < ln 2)%R) by (rewrite <- ln_1; apply ln_increasing; lra).
  assert (E : exp ((2 - ln (e_sr e / 32) / ln 2 - t * k) * ln 2) = (4 * (32 / e_sr e) * exp (- (t * k) * ln 2))%R).
  { replace ((2 - ln (e_sr e / 32) / ln 2 - t * k) * ln 2)%R with (ln 2 + ln 2 + - ln (e_sr e / 32) + - (t * k) * ln 2)%R by (field; lra).
    rewrite !exp_plus, exp_Ropp, !exp_ln by lra. field. lra. }
  unfold Rmin at 1. destruct (Rle_dec 0 _) as [C|C].
  - rewrite Rmult_0_l, exp_0, <- E. symmetry. apply Rmin_left. rewrite <- exp_0. destruct C as [C|C]; [left; apply exp_increasing; nra|right; rewrite <- C; f_equal; lra].
  - rewrite E. symmetry. apply Rmin_right. rewrite <- E, <- exp_0. left. apply exp_increasing. nra.
Qed.
Print Assumptions C84_coefficient.
