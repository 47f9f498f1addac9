(** More theorems about the all-pass reverb: sizes, delays, linearity, smoothing, decay. *)
From Coq Require Import Reals Lra Lia Bool List.
From Verif Require Import Base Util BlockModel MathModel ParamModel AdsrModel LfoModel LagModel SmallModel UnitModel AllpassModel AllpassProofs AllpassProps.
Local Open Scope R_scope.

(** ** C174: section lengths *)
Lemma Int_part_bounds : forall x (n : Z), IZR n <= x -> (n <= Int_part x)%Z.
Proof. intros x n H. destruct (base_Int_part x) as [H1 H2]. apply Z.lt_succ_r. apply lt_IZR. unfold Z.succ. rewrite plus_IZR. lra. Qed.
Lemma Int_part_lt : forall x (n : Z), x < IZR n -> (Int_part x < n)%Z.
Proof. intros x n H. destruct (base_Int_part x) as [H1 H2]. apply lt_IZR. lra. Qed.
Lemma ms_bounds : forall sr ms m (lo hi : Z), 0 <= sr * ms * (1/1000) * m -> IZR lo <= sr * ms * (1/1000) * m < IZR hi -> (0 <= lo)%Z ->
  (lo <= ms_2_samples sr ms m < hi)%Z.
Proof.
  intros sr ms m lo hi H0 [H1 H2] Hl. unfold ms_2_samples.
  assert (T : truncR (sr * ms * (1 / 1000) * m) = Int_part (sr * ms * (1/1000) * m)) by (unfold truncR; destruct (Rle_dec 0 (sr * ms * (1/1000) * m)); [reflexivity|contradiction]).
  rewrite T. pose proof (Int_part_bounds _ _ H1). pose proof (Int_part_lt _ _ H2). lia.
Qed.
Lemma room_scale_bounds : forall room, -1 <= room <= 1 -> 1/2 <= room_scale room <= 2.
Proof.
  intros room H. unfold room_scale. rewrite Rmult_1_l. split.
  - replace (1/2) with (Rpower 2 (-1)). apply Rle_Rpower; lra. replace (-1) with (Ropp 1) by lra. rewrite Rpower_Ropp, Rpower_1 by lra. lra.
  - replace 2 with (Rpower 2 1) at 2 by (apply Rpower_1; lra). apply Rle_Rpower; lra.
Qed.
Lemma ms_range : forall sr m ms, 1000 <= sr -> sr * m * ms < 16385000 -> 1/2 <= m <= 2 -> 2 <= ms -> (1 <= ms_2_samples sr ms m <= 16384)%Z.
Proof.
  intros sr m ms Hs Hu Hm Hms.
  assert (L : 1 <= sr * ms * (1/1000) * m).
  { assert (1 <= ms * m) by nra. assert (1000 <= sr * (ms * m)) by nra. lra. }
  pose proof (ms_bounds sr ms m 1 16385). lapply H; [clear H; intros H|lra]. lapply H; [clear H; intros H|lra]. lia.
Qed.
(** At every sample rate from 1 kHz to 135 kHz and every room size in its range, the eight all-pass sections of the tank and
    the four diffusers get a length between 1 and 16384. *)
Theorem C174_lengths_fit : forall sr room s s', 1000 <= sr <= 135000 -> -1 <= room <= 1 ->
  calc_size sr (room_scale room) s = Ok s' ->
  Forall (fun a => (1 <= a_len a <= 16384)%Z) (v_in s') /\
  Forall (fun b => (1 <= a_len (b_a0 b) <= 16384)%Z /\ (1 <= a_len (b_a1 b) <= 16384)%Z) (v_blocks s').
Proof.
  intros sr room s s' Hs Hr H. pose proof (room_scale_bounds room Hr) as Hm. unfold calc_size in H. destruct (Rlt_dec 0 _); [|discriminate]. injection H as <-.
  set (m := room_scale room) in *.
  assert (U : forall ms, 2 <= ms <= 60.5 -> (1 <= ms_2_samples sr ms m <= 16384)%Z).
  { intros ms Hms. apply ms_range; try lra. assert (sr * m <= 270000) by nra. assert (0 <= sr * m) by nra. nra. }
  split; simpl; rewrite Forall_forall; intros a Ha; apply in_map_iff in Ha.
  - destruct Ha as ([a1 ms] & <- & Hin). apply in_combine_r in Hin. simpl. apply U. simpl in Hin.
    repeat (destruct Hin as [<-|Hin]; [lra|]). destruct Hin.
  - destruct Ha as ([b1 [[[[tl tr] l0] l1] d]] & <- & Hin). apply in_combine_r in Hin. simpl. unfold size_table in Hin. simpl in Hin.
    repeat (destruct Hin as [Hin|Hin]; [injection Hin; intros; subst; split; apply U; lra|]). destruct Hin.
Qed.
(** Above 135414 Hz the largest room size gives the second section of the third block a length beyond its buffer:
    by [C173_too_long_panics] that section panics. *)
Theorem C174_high_rate_refuted : forall sr s s', 135414 <= sr -> length (v_blocks s) = 4%nat ->
  calc_size sr (room_scale 1) s = Ok s' -> exists b, In b (v_blocks s') /\ (16384 < a_len (b_a1 b))%Z.
Proof.
  intros sr s s' Hs Hl H. unfold calc_size in H. destruct (Rlt_dec 0 _); [|discriminate]. injection H as <-.
  destruct (v_blocks s) as [|b0 [|b1 [|b2 [|b3 [|b4 bs]]]]]; simpl in Hl; try discriminate. simpl.
  eexists. split; [right; right; left; reflexivity|]. simpl.
  assert (E : room_scale 1 = 2) by (unfold room_scale; rewrite Rmult_1_l; apply Rpower_1; lra). rewrite E.
  unfold ms_2_samples. set (x := sr * (605/10) * (1/1000) * 2). assert (16385 <= x) by (unfold x; lra).
  assert (T : truncR x = Int_part x) by (unfold truncR; destruct (Rle_dec 0 x); [reflexivity|lra]). rewrite T.
  pose proof (Int_part_bounds x 16385 H). lia.
Qed.
Example C174_witness : exists s0 s', av_update 48000 av_new = Ok s0 /\ calc_size 48000 (room_scale 1) s0 = Ok s' /\ length (v_blocks s') = 4%nat.
Proof.
  unfold av_update, calc_size. destruct (Rlt_dec 0 1); [|lra]. eexists. 
  assert (0 < room_scale 1) by (pose proof (room_scale_bounds 1 ltac:(lra)); lra).
  destruct (Rlt_dec 0 (room_scale 1)); [|contradiction]. eexists. split; [reflexivity|]. split; reflexivity.
Qed.
Print Assumptions C174_lengths_fit.
Print Assumptions C174_high_rate_refuted.

(** ** C175: the tank's delays *)
(** what was fed j samples ago, if the buffer of 16384 cells still holds it; hist is newest first *)
Definition ago (hist : list R) (j : Z) : R := nth (Z.to_nat ((j - 1) mod 16384)) hist 0.
(** the specification: a read between two neighbouring samples at distance len - m/256 *)
Fixpoint ad_spec (t1 t2 m len : Z) (hist xs : list R) : list (R * R * R) :=
  match xs with
  | [] => []
  | x :: r => ((ago hist (len - m / 256 - 1) * IZR (m mod 256) + ago hist (len - m / 256) * IZR (256 - m mod 256)) * (1 / 256),
               ago hist t1, ago hist t2) :: ad_spec t1 t2 m len (x :: hist) r
  end.
Lemma ad_run_spec : forall t1 t2 m xs s hist, (0 <= d_k s < AP_MAX)%Z -> (0 <= t1 <= lim)%Z -> (0 <= t2 <= lim)%Z -> (- lim <= m <= lim)%Z -> (0 <= d_len s <= lim)%Z ->
  (forall i, (0 <= i < AP_MAX)%Z -> d_data s ((d_k s - i) mod AP_MAX)%Z = nth (Z.to_nat i) hist 0) ->
  exists s', ad_run t1 t2 m s xs = Ok (s', ad_spec t1 t2 m (d_len s) hist xs).
Proof.
  induction xs as [|x xs IH]; intros s hist Hk H1 H2 Hm Hl Hh; [eexists; reflexivity|].
  simpl ad_run. rewrite ad_step by assumption. cbv zeta. cbn [obind].
  assert (A : forall j, d_data s (Z.land (Z.land (d_k s + 1) AP_MASK - j) AP_MASK) = ago hist j).
  { intros j. rewrite !land_mask. rewrite Zminus_mod_idemp_l. unfold ago. change 16384%Z with AP_MAX.
    rewrite <- Hh by (apply Z.mod_pos_bound; reflexivity). f_equal. rewrite Zminus_mod_idemp_r. f_equal. lia. }
  rewrite !A.
  destruct (IH (mk_ad (d_len s) (Z.land (d_k s + 1) AP_MASK) (put (d_data s) (Z.land (d_k s + 1) AP_MASK) x)) (x :: hist)) as [s' E];
    simpl d_len; simpl d_k; simpl d_data; try assumption.
  - apply mask_range.
  - rewrite land_mask. intros i Hi. unfold put. rewrite Zminus_mod_idemp_l. destruct (Z.eq_dec i 0) as [->|Hn].
    + rewrite Z.sub_0_r, Z.eqb_refl. reflexivity.
    + destruct (Z.eqb_spec ((d_k s + 1 - i) mod AP_MAX) ((d_k s + 1) mod AP_MAX)) as [E2|_].
      * exfalso. apply (mod_shift_ne (d_k s) i AP_MAX); [lia|exact E2].
      * replace (d_k s + 1 - i)%Z with (d_k s - (i - 1))%Z by lia. rewrite Hh by lia.
        replace (Z.to_nat i) with (Datatypes.S (Z.to_nat (i - 1))) by lia. reflexivity.
  - simpl d_len in E. rewrite E. cbn [obind]. eexists. reflexivity.
Qed.
(** Every tap, every modulation and every length: what the delay returns, in terms of what it was fed. *)
Theorem C175_delay_is : forall t1 t2 m len xs, (0 <= t1 <= 536870912)%Z -> (0 <= t2 <= 536870912)%Z -> (-536870912 <= m <= 536870912)%Z -> (0 <= len <= 536870912)%Z ->
  exists s', ad_run t1 t2 m (ad_set_len ad_default len) xs = Ok (s', ad_spec t1 t2 m len [] xs).
Proof.
  intros t1 t2 m len xs H1 H2 Hm Hl. apply (ad_run_spec t1 t2 m xs (ad_set_len ad_default len) []); simpl; unfold lim, AP_MAX; try lia.
  intros i Hi. destruct (Z.to_nat i); reflexivity.
Qed.
(** the signal delayed by d samples *)
Definition delayed (d : nat) (xs : list R) (n : nat) : R := if (n <? d)%nat then 0 else nth (n - d) xs 0.
Lemma nth_rev_hist : forall (xs hist : list R) d n, (1 <= d)%nat -> (n < length xs)%nat ->
  nth (d - 1) (rev (firstn n xs) ++ hist) 0 = if (n <? d)%nat then nth (d - 1 - n) hist 0 else nth (n - d) xs 0.
Proof.
  intros xs hist d n Hd Hn. assert (Lf : length (firstn n xs) = n) by (rewrite firstn_length; lia).
  destruct (Nat.ltb_spec n d).
  - rewrite app_nth2 by (rewrite rev_length; lia). rewrite rev_length, Lf. reflexivity.
  - rewrite app_nth1 by (rewrite rev_length; lia). rewrite rev_nth by lia. rewrite Lf.
    replace (n - Datatypes.S (d - 1))%nat with (n - d)%nat by lia.
    rewrite <- (firstn_skipn n xs) at 2. rewrite app_nth1 by lia. reflexivity.
Qed.
Lemma ad_spec_nth : forall t1 t2 m len xs hist n dflt, (n < length xs)%nat -> nth n (ad_spec t1 t2 m len hist xs) dflt =
  let h := rev (firstn n xs) ++ hist in
  ((ago h (len - m / 256 - 1) * IZR (m mod 256) + ago h (len - m / 256) * IZR (256 - m mod 256)) * (1 / 256), ago h t1, ago h t2).
Proof.
  induction xs as [|x xs IH]; intros hist n dflt H; simpl in H; [lia|]. destruct n as [|n]; [reflexivity|].
  simpl nth. rewrite IH by lia. cbv zeta. simpl firstn. simpl rev. rewrite <- app_assoc. reflexivity.
Qed.
(** the delay the buffer really gives for a requested one *)
Definition real_delay (len : Z) : nat := Datatypes.S (Z.to_nat ((len - 1) mod 16384)).
Lemma ago_delayed : forall xs n j, (n < length xs)%nat -> ago (rev (firstn n xs) ++ []) j = delayed (real_delay j) xs n.
Proof.
  intros xs n j H. unfold ago, delayed, real_delay. set (d := Z.to_nat ((j - 1) mod 16384)).
  replace d with (Datatypes.S d - 1)%nat at 1 by lia. rewrite nth_rev_hist by lia.
  destruct (n <? Datatypes.S d)%nat; [|reflexivity]. destruct (Datatypes.S d - 1 - n)%nat; reflexivity.
Qed.
Theorem C175_unmodulated : forall t1 t2 len xs n, (0 <= t1 <= 536870912)%Z -> (0 <= t2 <= 536870912)%Z -> (0 <= len <= 536870912)%Z -> (n < length xs)%nat ->
  exists s' ys, ad_run t1 t2 0 (ad_set_len ad_default len) xs = Ok (s', ys) /\
  nth n ys (0, 0, 0) = (delayed (real_delay len) xs n, delayed (real_delay t1) xs n, delayed (real_delay t2) xs n).
Proof.
  intros t1 t2 len xs n H1 H2 Hl Hn. destruct (C175_delay_is t1 t2 0 len xs H1 H2 ltac:(lia) Hl) as [s' E]. exists s'. eexists. split; [exact E|].
  rewrite ad_spec_nth by exact Hn. cbv zeta. rewrite !ago_delayed by exact Hn. change (0 / 256)%Z with 0%Z. change (0 mod 256)%Z with 0%Z.
  rewrite Z.sub_0_r. replace (256 - 0)%Z with 256%Z by lia. apply f_equal2; [apply f_equal2; [|reflexivity]|reflexivity]. field.
Qed.
(** a delay of 1..16384 samples is the requested one *)
Theorem C175_short_delays_exact : forall len, (1 <= len <= 16384)%Z -> Z.of_nat (real_delay len) = len.
Proof. intros len H. unfold real_delay. rewrite Z.mod_small by lia. lia. Qed.
(** a longer one is not: it wraps round the buffer.  At 48 kHz with the largest room the first block asks for 17164 samples
    (357.6 ms) and gets 780 (16 ms). *)
Theorem C175_long_delay_refuted : forall s s', length (v_blocks s) = 4%nat -> calc_size 48000 (room_scale 1) s = Ok s' ->
  exists b, nth_error (v_blocks s') 0 = Some b /\ d_len (b_del b) = 17164%Z /\ real_delay (d_len (b_del b)) = 780%nat.
Proof.
  intros s s' Hl H. unfold calc_size in H. destruct (Rlt_dec 0 _); [|discriminate]. injection H as <-.
  destruct (v_blocks s) as [|b0 [|b1 [|b2 [|b3 [|b4 bs]]]]]; simpl in Hl; try discriminate. simpl.
  assert (E : room_scale 1 = 2) by (unfold room_scale; rewrite Rmult_1_l; apply Rpower_1; lra). rewrite E.
  assert (L : ms_2_samples 48000 (1788 / 10) 2 = 17164%Z).
  { pose proof (ms_bounds 48000 (1788/10) 2 17164 17165 ltac:(lra) ltac:(lra) ltac:(lia)). lia. }
  rewrite L. eexists. split; [reflexivity|]. split; [reflexivity|]. reflexivity.
Qed.
(** up to a delay of 16384 samples everything is exact: for every rate and room with sr * 178.8 ms * 2^room < 16385 *)
Theorem C175_fits : forall sr room s s', 1000 <= sr -> -1 <= room <= 1 -> sr * (1788 / 10) * (1 / 1000) * room_scale room < 16385 ->
  calc_size sr (room_scale room) s = Ok s' ->
  Forall (fun b => Z.of_nat (real_delay (d_len (b_del b))) = d_len (b_del b) /\ (1 <= b_tl b <= d_len (b_del b))%Z /\ (1 <= b_tr b <= d_len (b_del b))%Z /\
                   (1 <= d_len (b_del b) <= 16384)%Z /\ (1 <= a_len (b_a0 b) <= 16384)%Z /\ (1 <= a_len (b_a1 b) <= 16384)%Z) (v_blocks s').
Proof.
  intros sr room s s' Hs Hr Hf H. pose proof (room_scale_bounds room Hr) as Hm. unfold calc_size in H. destruct (Rlt_dec 0 _); [|discriminate]. injection H as <-.
  set (m := room_scale room) in *.
  assert (U : forall ms, 2 <= ms <= 1788/10 -> (1 <= ms_2_samples sr ms m <= 16384)%Z).
  { intros ms Hms. apply ms_range; try lra. assert (0 < sr * m) by nra. nra. }
  assert (M : forall a b, 2 <= a <= b -> (ms_2_samples sr a m <= ms_2_samples sr b m)%Z).
  { intros a b Hab. unfold ms_2_samples. assert (0 < sr * m) by nra.
    set (x := sr * a * (1/1000) * m). set (y := sr * b * (1/1000) * m). assert (Hxy : 0 <= x <= y) by (unfold x, y; split; nra).
    assert (Tx : truncR x = Int_part x) by (unfold truncR; destruct (Rle_dec 0 x); [reflexivity|lra]).
    assert (Ty : truncR y = Int_part y) by (unfold truncR; destruct (Rle_dec 0 y); [reflexivity|lra]).
    rewrite Tx, Ty. assert (IZR (Int_part x) <= y) by (destruct (base_Int_part x); lra). pose proof (Int_part_bounds y _ H0). lia. }
  simpl. rewrite Forall_forall. intros b Hb. apply in_map_iff in Hb. destruct Hb as ([b1 [[[[tl tr] l0] l1] d]] & <- & Hin). apply in_combine_r in Hin. simpl.
  assert (Q : (2 <= tl <= d /\ 2 <= tr <= d /\ d <= 1788/10) /\ 2 <= l0 <= 60.5 /\ 2 <= l1 <= 60.5).
  { unfold size_table in Hin. simpl in Hin. repeat (destruct Hin as [Hin|Hin]; [injection Hin; intros; subst; lra|]). destruct Hin. }
  destruct Q as ((Q1 & Q2 & Q3) & Q4 & Q5).
  pose proof (U d ltac:(lra)). pose proof (U tl ltac:(lra)). pose proof (U tr ltac:(lra)). pose proof (M tl d ltac:(lra)). pose proof (M tr d ltac:(lra)).
  split; [apply C175_short_delays_exact; lia|]. split; [lia|]. split; [lia|]. split; [lia|]. split; apply U; lra.
Qed.
Example C175_witness : real_delay 5 = 5%nat /\ delayed 2 [1; 2; 3; 4] 3 = 2. Proof. split; reflexivity. Qed.
Print Assumptions C175_delay_is.
Print Assumptions C175_unmodulated.
Print Assumptions C175_short_delays_exact.
Print Assumptions C175_long_delay_refuted.
Print Assumptions C175_fits.
