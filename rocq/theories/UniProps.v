(* UniProps.v - C55 unison spreading, C56 controller modulation sources. *)
From Coq Require Import Reals Lra.
From Verif Require Import Base Util F32 BlockModel SmallModel LagModel LagProps.
Local Open Scope Z_scope.

(* ================= C55 ================= *)
(* filling two arrays at positions 0..n-1 *)
Lemma fill2 {T} (f g : Z -> T) n : forall pl pr, (n <= length pl)%nat -> (n <= length pr)%nat ->
  exists pl' pr',
    foldM (fun st i => obind (zset (fst st) i (f i)) (fun pl => obind (zset (snd st) i (g i)) (fun pr => Ok (pl, pr))))
      (map Z.of_nat (seq 0 n)) (pl, pr) = Ok (pl', pr') /\
    length pl' = length pl /\ length pr' = length pr /\
    (forall i, 0 <= i < Z.of_nat n -> zget pl' i = Ok (f i) /\ zget pr' i = Ok (g i)).
Proof.
  assert (F : forall (h : list T * list T -> Z -> res (list T * list T)) l1 l2 s,
     foldM h (l1 ++ l2) s = obind (foldM h l1 s) (fun s' => foldM h l2 s')).
  { intros h l1; induction l1; intros l2 s; cbn; auto. destruct (h s a); cbn; auto. }
  induction n as [|n IH]; intros pl pr Hl Hr.
  - exists pl, pr. cbn. repeat split; auto; lia.
  - destruct (IH pl pr ltac:(lia) ltac:(lia)) as (pl' & pr' & E & L1 & L2 & P).
    rewrite seq_S, map_app, F, E. cbn [obind map foldM fst snd plus].
    rewrite zset_ok by lia. cbn [obind]. rewrite zset_ok by lia. cbn [obind].
    eexists _, _. split; [reflexivity|]. rewrite !upd_length. split; [lia|]. split; [lia|].
    intros i Hi. destruct (Z.eq_dec i (Z.of_nat n)) as [->|Hne].
    + rewrite !zget_upd_eq by lia. auto.
    + rewrite !zget_upd_neq by lia. apply P. lia.
Qed.

Definition litR (n : Z) : @lit R arithR n = IZR n.
Proof. unfold lit. cbn. field. Qed.

(* the un-normalised geometry: where voice i of n sits on the stereo line, from the code's own formula over the reals *)
Lemma un_d_R n i : 2 <= n -> 0 <= i < n ->
  @un_d R arithR n i =
  ((if Z.odd n && (n / 2 <=? i) then -1 else 1) * (if Z.odd i then -1 else 1) * (Rabs (2 * IZR i - IZR (n - 1)) / IZR (n - 1)))%R.
Proof.
  intros Hn Hi. unfold un_d, un_abs, un_neg. rewrite !litR. cbn.
  assert (M : (IZR n * (1 / 2) - 1 / 2 = IZR (n - 1) / 2)%R) by (rewrite minus_IZR; field). rewrite M.
  assert (P : (0 < IZR (n - 1))%R) by (apply IZR_lt; lia).
  set (m := IZR (n - 1)) in *.
  assert (Ab : (if (if Rlt_dec (IZR i - m / 2) 0 then true else false) then 0 - (IZR i - m / 2) else IZR i - m / 2)%R
               = (Rabs (2 * IZR i - m) / 2)%R).
  { destruct (Rlt_dec (IZR i - m / 2) 0).
    - rewrite Rabs_left by lra. lra.
    - rewrite Rabs_right by lra. lra. }
  rewrite Ab. destruct (Z.odd n && (n / 2 <=? i)), (Z.odd i); field; lra.
Qed.

Lemma un_d_bound n i : 2 <= n -> 0 <= i < n -> (-1 <= @un_d R arithR n i <= 1)%R.
Proof.
  intros Hn Hi. rewrite un_d_R by lia.
  assert (P : (0 < IZR (n - 1))%R) by (apply IZR_lt; lia).
  assert (Q : (0 <= Rabs (2 * IZR i - IZR (n - 1)) / IZR (n - 1) <= 1)%R).
  { split; [apply Rmult_le_pos; [apply Rabs_pos|left; apply Rinv_0_lt_compat; exact P]|].
    apply Rmult_le_reg_r with (IZR (n - 1)); [exact P|]. unfold Rdiv. rewrite Rmult_assoc, Rinv_l, Rmult_1_r, Rmult_1_l by lra.
    replace (2 * IZR i)%R with (IZR (2 * i)) by (rewrite mult_IZR; reflexivity).
    rewrite <- minus_IZR. rewrite <- abs_IZR. apply IZR_le. lia. }
  destruct (Z.odd n && (n / 2 <=? i)), (Z.odd i); lra.
Qed.

Lemma un_d_mirror n i : 2 <= n -> 0 <= i < n -> @un_d R arithR n (n - 1 - i) = (- @un_d R arithR n i)%R.
Proof.
  intros Hn Hi. rewrite !un_d_R by lia.
  assert (P : (0 < IZR (n - 1))%R) by (apply IZR_lt; lia).
  assert (S : Rabs (2 * IZR (n - 1 - i) - IZR (n - 1)) = Rabs (2 * IZR i - IZR (n - 1))).
  { rewrite minus_IZR. rewrite <- Rabs_Ropp. f_equal. ring. }
  rewrite S. set (r := (Rabs (2 * IZR i - IZR (n - 1)) / IZR (n - 1))%R) in *.
  replace (Z.odd (n - 1 - i)) with (negb (xorb (Z.odd n) (Z.odd i))).
  2:{ rewrite !Z.odd_sub. destruct (Z.odd n), (Z.odd i); reflexivity. }
  destruct (Z.odd n) eqn:On.
  - (* odd: mirror has the same parity, exactly one of the two is in the second half unless it is the middle *)
    apply Z.odd_spec in On. destruct On as [h Hh].
    assert (n / 2 = h) as -> by (subst n; rewrite Z.mul_comm, Z.div_add_l by lia; cbn; lia).
    cbn [andb xorb negb].
    destruct (Z.eq_dec i h) as [->|Hne].
    + assert (r = 0)%R as ->. { unfold r. subst n. replace (2 * h + 1 - 1) with (2 * h) by lia. rewrite mult_IZR. rewrite Rminus_diag_eq by ring. rewrite Rabs_R0. unfold Rdiv. ring. }
      ring.
    + destruct (Z.leb_spec h (n - 1 - i)), (Z.leb_spec h i); try lia; destruct (Z.odd i); cbn [negb]; ring.
  - cbn [andb xorb negb]. destruct (Z.odd i); cbn [negb]; ring.
Qed.

(* a blitter with storage for MAX_UNISON = 16 voices, asked for the number of voices it has been set to *)
Definition unison_fresh (T : Type) (z : T) (n : Z) : @unison T :=
  {| un_n := n; un_att := z; un_att_inv := z; un_bias := z; un_offset := z; un_pan_l := repeat z 16; un_pan_r := repeat z 16 |}.
Definition ready {T} (s : @unison T) (n : Z) : Prop := un_n s = n /\ length (un_pan_l s) = 16%nat /\ length (un_pan_r s) = 16%nat.

Lemma prepare_R s n : ready s n -> 1 <= n <= 16 ->
  exists s', un_prepare arithR s n = Ok s' /\ ready s' n /\ (un_att s' = 1 / IZR n /\ un_att_inv s' = IZR n)%R /\
    (n = 1 -> un_bias s' = 1%R /\ un_offset s' = 0%R /\ zget (un_pan_l s') 0 = Ok 1%R /\ zget (un_pan_r s') 0 = Ok 1%R) /\
    (2 <= n -> un_bias s' = (2 / (IZR n - 1))%R /\ un_offset s' = (-1)%R /\
       forall i, 0 <= i < n -> zget (un_pan_l s') i = Ok (1 - un_d arithR n i)%R /\ zget (un_pan_r s') i = Ok (1 + un_d arithR n i)%R).
Proof.
  intros (E & L1 & L2) Hn. unfold un_prepare. destruct (Z.eqb_spec n 1) as [->|Hne].
  - unfold un_single. cbn [un_update_att un_pan_l un_pan_r]. rewrite zset_ok by lia. cbn [obind]. rewrite zset_ok by lia. cbn [obind].
    eexists. split; [reflexivity|]. cbn [un_n un_pan_l un_pan_r un_att un_att_inv un_bias un_offset].
    split; [unfold ready; cbn [un_n un_pan_l un_pan_r]; rewrite !upd_length; auto|].
    cbn [un_update_att un_n un_att un_att_inv]. rewrite ?E, !litR. cbn [ar_div arithR]. split; [auto|]. split; [|lia].
    intros _. rewrite !zget_upd_eq by lia. auto.
  - unfold un_multi. cbn [un_update_att un_pan_l un_pan_r un_n].
    destruct (fill2 (fun i => ar_sub arithR (lit arithR 1) (un_d arithR n i)) (fun i => ar_add arithR (lit arithR 1) (un_d arithR n i))
               (Z.to_nat n) (un_pan_l s) (un_pan_r s) ltac:(lia) ltac:(lia)) as (pl & pr & F & M1 & M2 & P).
    rewrite F. cbn [obind fst snd]. eexists. split; [reflexivity|]. cbn [un_n un_pan_l un_pan_r un_att un_att_inv un_bias un_offset].
    split; [unfold ready; cbn [un_n un_pan_l un_pan_r]; repeat split; [exact E|lia|lia]|]. cbn [un_update_att un_n un_att un_att_inv]. rewrite ?E, !litR. cbn [ar_div ar_sub arithR]. split; [auto|]. split; [lia|].
    intros _. split; [reflexivity|]. split; [ring|]. intros i Hi. destruct (P i ltac:(lia)) as [-> ->]. rewrite litR. auto.
Qed.

(* For every number of voices n in 1..16: preparation succeeds; each voice's two pan weights are nonnegative and sum to 2;
   the spread is mirror symmetric (voice i on the left is voice n-1-i on the right); detunes lie in [-1,1] and are
   symmetric about 0; the level factor is 1/n. *)
Theorem C55_unison_spread : forall s n, ready s n -> 1 <= n <= 16 ->
  exists s', un_prepare arithR s n = Ok s' /\
    (un_att s' * IZR n = 1 /\ un_att_inv s' = IZR n)%R /\
    forall i, 0 <= i < n -> exists l r r',
      zget (un_pan_l s') i = Ok l /\ zget (un_pan_r s') i = Ok r /\ zget (un_pan_r s') (n - 1 - i) = Ok r' /\
      (0 <= l /\ 0 <= r /\ l + r = 2 /\ r' = l)%R /\
      (-1 <= un_detune arithR s' i <= 1)%R /\
      un_detune arithR s' (n - 1 - i) = (- un_detune arithR s' i)%R.
Proof.
  intros s n R Hn. destruct (prepare_R s n R Hn) as (s' & E & _ & (A1 & A2) & S1 & S2).
  exists s'. split; [exact E|]. split.
  { split; [|exact A2]. rewrite A1. field. apply IZR_neq. lia. }
  intros i Hi. unfold un_detune. rewrite !litR. cbn [ar_add ar_mul arithR].
  destruct (Z.eq_dec n 1) as [->|Hne].
  - destruct (S1 eq_refl) as (-> & -> & P & Q). assert (i = 0) as -> by lia. exists 1%R, 1%R, 1%R.
    replace (1 - 1 - 0) with 0 by lia. repeat split; auto; lra.
  - destruct (S2 ltac:(lia)) as (-> & -> & P). destruct (P i Hi) as [P1 P2]. destruct (P (n - 1 - i) ltac:(lia)) as [_ P4].
    pose proof (un_d_bound n i ltac:(lia) Hi). rewrite un_d_mirror in P4 by lia.
    eexists _, _, _. split; [exact P1|]. split; [exact P2|]. split; [exact P4|].
    assert (Pn : (0 < IZR n - 1)%R) by (rewrite <- minus_IZR; apply IZR_lt; lia).
    assert (Pi : (0 <= IZR i <= IZR n - 1)%R) by (rewrite <- minus_IZR; split; apply IZR_le; lia).
    split; [repeat split; lra|]. split.
    + assert (B : (0 <= 2 / (IZR n - 1) * IZR i <= 2)%R).
      { unfold Rdiv. replace (2 * / (IZR n - 1) * IZR i)%R with (2 * (IZR i * / (IZR n - 1)))%R by ring.
        assert (0 <= IZR i * / (IZR n - 1) <= 1)%R; [|lra]. split.
        - apply Rmult_le_pos; [lra|]. left. apply Rinv_0_lt_compat. lra.
        - apply Rmult_le_reg_r with (IZR n - 1)%R; [lra|]. rewrite Rmult_assoc, Rinv_l by lra. lra. }
      lra.
    + rewrite !minus_IZR. field. lra.
Qed.

(* total level: the left weights sum to n, and so do the right weights *)
Fixpoint sumR (l : list R) : R := match l with [] => 0%R | x :: r => (x + sumR r)%R end.
Lemma sumR_app a b : sumR (a ++ b) = (sumR a + sumR b)%R.
Proof. induction a; cbn; [ring|]. rewrite IHa. ring. Qed.
Lemma sumR_rev a : sumR (rev a) = sumR a.
Proof. induction a; cbn; [ring|]. rewrite sumR_app, IHa. cbn. ring. Qed.

Lemma firstn_map_zget (l : list R) n (f : Z -> R) : (forall i, 0 <= i < Z.of_nat n -> zget l i = Ok (f i)) ->
  firstn n l = map (fun k => f (Z.of_nat k)) (seq 0 n).
Proof.
  revert l f. induction n as [|n IH]; intros l f H; cbn; auto.
  destruct l as [|x l]. { specialize (H 0 ltac:(lia)). discriminate. }
  pose proof (H 0 ltac:(lia)) as H0. cbn in H0. injection H0 as ->. f_equal.
  rewrite (IH l (fun i => f (i + 1))).
  - rewrite <- seq_shift, map_map. apply map_ext. intros a. f_equal. lia.
  - intros i Hi. specialize (H (i + 1) ltac:(lia)). unfold zget in *. destruct (Z.leb_spec 0 (i + 1)); [|lia].
    destruct (Z.leb_spec 0 i); [|lia]. replace (Z.to_nat (i + 1)) with (S (Z.to_nat i)) in H by lia. exact H.
Qed.
Lemma rev_seq_map n (f : nat -> R) : rev (map f (seq 0 n)) = map (fun k => f (n - 1 - k)%nat) (seq 0 n).
Proof.
  induction n as [|n IH]; [reflexivity|]. rewrite seq_S, map_app, rev_app_distr, IH. cbn [map rev app plus].
  change (seq 0 n ++ [n]) with (seq 0 n ++ [0 + n]%nat). rewrite <- seq_S. change (seq 0 (S n)) with (0 :: seq 1 n)%nat.
  cbn [map]. f_equal; [f_equal; lia|].
  rewrite <- seq_shift, map_map. apply map_ext_in. intros k Hk. apply in_seq in Hk. f_equal. lia.
Qed.

Theorem C55_total_level : forall s n s', ready s n -> 1 <= n <= 16 -> un_prepare arithR s n = Ok s' ->
  sumR (firstn (Z.to_nat n) (un_pan_l s')) = IZR n /\ sumR (firstn (Z.to_nat n) (un_pan_r s')) = IZR n.
Proof.
  intros s n s' Rd Hn E. destruct (prepare_R s n Rd Hn) as (s2 & E2 & (_ & L1 & L2) & _ & S1 & S2). rewrite E in E2. injection E2 as <-.
  destruct (Z.eq_dec n 1) as [->|Hne].
  - destruct (S1 eq_refl) as (_ & _ & P & Q). destruct (un_pan_l s') as [|x ?]; [discriminate|]. destruct (un_pan_r s') as [|y ?]; [discriminate|].
    cbn in P, Q. injection P as ->. injection Q as ->. replace (Z.to_nat 1) with 1%nat by reflexivity. cbn [firstn sumR]. split; ring.
  - destruct (S2 ltac:(lia)) as (_ & _ & P).
    set (d := fun i => @un_d R arithR n i).
    rewrite (firstn_map_zget _ _ (fun i => (1 - d i)%R)) by (intros i Hi; apply P; lia).
    rewrite (firstn_map_zget (un_pan_r s') _ (fun i => (1 + d i)%R)) by (intros i Hi; apply P; lia).
    set (N := Z.to_nat n).
    assert (D0 : sumR (map (fun k => d (Z.of_nat k)) (seq 0 N)) = 0%R).
    { set (S0 := sumR _). assert (S0 = - S0)%R; [|lra].
      unfold S0 at 1. rewrite <- sumR_rev, rev_seq_map.
      replace (map (fun k => d (Z.of_nat (N - 1 - k))) (seq 0 N)) with (map (fun k => (- d (Z.of_nat k))%R) (seq 0 N)).
      - unfold S0. generalize (seq 0 N). induction l; cbn; [ring|]. rewrite IHl. ring.
      - apply map_ext_in. intros k Hk. apply in_seq in Hk. unfold d. rewrite <- un_d_mirror by lia. f_equal. lia. }
    assert (G : forall (c : R) l, sumR (map (fun k => (1 + c * d (Z.of_nat k))%R) l) = (INR (length l) + c * sumR (map (fun k => d (Z.of_nat k)) l))%R).
    { intros c l. induction l; [cbn; ring|]. cbn [map sumR length]. rewrite S_INR, IHl. ring. }
    pose proof (G 1%R (seq 0 N)) as Gp. pose proof (G (-1)%R (seq 0 N)) as Gm. rewrite D0, seq_length in *.
    assert (IN : INR N = IZR n) by (rewrite INR_IZR_INZ; unfold N; f_equal; lia).
    split.
    + rewrite <- IN. etransitivity; [|etransitivity; [exact Gm|ring]]. f_equal. apply map_ext. intros; ring.
    + rewrite <- IN. etransitivity; [|etransitivity; [exact Gp|ring]]. f_equal. apply map_ext. intros; ring.
Qed.

(* With binary32 rounding, over the whole range of n: the weights stay in [0,2], the mirror symmetry is exact, and the
   detunes stay in [-1,1]. *)
Definition f32_unison_ok (n : Z) : bool :=
  match un_prepare arith32 (unison_fresh f32 f0 n) n with
  | Ok s => forallb (fun i =>
      match zget (un_pan_l s) i, zget (un_pan_r s) i, zget (un_pan_r s) (n - 1 - i) with
      | Ok l, Ok r, Ok r' => fleb f0 l && fleb l (fofZ 2) && fleb f0 r && fleb r (fofZ 2) && feqb r' l
            && fleb (fofZ (-1)) (un_detune arith32 s i) && fleb (un_detune arith32 s i) f1
      | _, _, _ => false end) (map Z.of_nat (seq 0 (Z.to_nat n)))
  | _ => false
  end.
Theorem C55_unison_spread_f32 : forall n, 1 <= n <= 16 ->
  exists s, un_prepare arith32 (unison_fresh f32 f0 n) n = Ok s /\
  forall i, 0 <= i < n -> exists l r r',
    zget (un_pan_l s) i = Ok l /\ zget (un_pan_r s) i = Ok r /\ zget (un_pan_r s) (n - 1 - i) = Ok r' /\
    fleb f0 l = true /\ fleb l (fofZ 2) = true /\ fleb f0 r = true /\ fleb r (fofZ 2) = true /\ feqb r' l = true /\
    fleb (fofZ (-1)) (un_detune arith32 s i) = true /\ fleb (un_detune arith32 s i) f1 = true.
Proof.
  assert (C : forallb f32_unison_ok (map Z.of_nat (seq 1 16)) = true) by (vm_compute; reflexivity).
  intros n Hn. rewrite forallb_forall in C. specialize (C n).
  assert (f32_unison_ok n = true) as K.
  { apply C. apply in_map_iff. exists (Z.to_nat n). split; [lia|]. apply in_seq. lia. }
  unfold f32_unison_ok in K. destruct (un_prepare arith32 (unison_fresh f32 f0 n) n) as [s| |]; try discriminate.
  exists s. split; [reflexivity|]. intros i Hi. rewrite forallb_forall in K. specialize (K i).
  assert (In i (map Z.of_nat (seq 0 (Z.to_nat n)))) as I.
  { apply in_map_iff. exists (Z.to_nat i). split; [lia|]. apply in_seq. lia. }
  specialize (K I). destruct (zget (un_pan_l s) i) as [l| |]; try discriminate.
  destruct (zget (un_pan_r s) i) as [r| |]; try discriminate.
  destruct (zget (un_pan_r s) (n - 1 - i)) as [r'| |]; try discriminate.
  exists l, r, r'. repeat (apply andb_prop in K; destruct K as [K ?]). repeat split; auto.
Qed.

(* asking for more voices than there is storage panics *)
Theorem C55_too_many_voices_panics : forall {T} (A : arith T) s n, length (un_pan_l s) = 16%nat -> 17 <= n -> un_prepare A s n = Panic.
Proof.
  intros T A s n L Hn. unfold un_prepare. destruct (Z.eqb_spec n 1); [lia|]. unfold un_multi. cbn [un_update_att un_pan_l un_pan_r].
  set (h := fun st i => _).
  assert (G : forall l pl pr, length pl = 16%nat -> In 16 l -> foldM h l (pl, pr) = Panic).
  { intros l. induction l as [|a l IH]; intros pl pr Hp I; [destruct I|]. cbn [foldM]. unfold h at 1. cbn [fst snd].
    destruct (zset pl a _) as [pl'| |] eqn:E1; [|unfold zset in E1; destruct (_ && _); discriminate|reflexivity].
    cbn [obind]. destruct (zset pr a _) as [pr'| |] eqn:E2; [|unfold zset in E2; destruct (_ && _); discriminate|reflexivity].
    cbn [obind]. apply zset_inv in E1. destruct E1 as [B ->]. rewrite Hp in B.
    destruct I as [->|I]; [lia|]. apply IH; [now rewrite upd_length|exact I]. }
  rewrite G; [reflexivity|exact L|]. apply in_map_iff. exists 16%nat. split; [reflexivity|]. apply in_seq. lia.
Qed.
Print Assumptions C55_unison_spread.
Print Assumptions C55_total_level.
Print Assumptions C55_unison_spread_f32.
Example C55_ready : ready (unison_fresh R 0%R 7) 7.
Proof. repeat split. Qed.

(* ================= C56 ================= *)
(* set_target01 followed by get_target01 returns what was set; so does init for the output *)
Theorem C56_target_round_trip : forall s f u, ctrl_get_target01 (ctrl_set_target01 s f u) = f.
Proof. intros [o t b ch si] f u. unfold ctrl_get_target01, ctrl_set_target01; cbn. destruct b; lra. Qed.
Theorem C56_target01_in_range : forall s f u, (0 <= f <= 1)%R ->
  let t := c_target (ctrl_set_target01 s f u) in if c_bipolar s then (-1 <= t <= 1)%R else (0 <= t <= 1)%R.
Proof. intros s f u H. cbn. destruct (c_bipolar s); lra. Qed.
Theorem C56_init_sets_both : forall s f, c_output (ctrl_init s f) = f /\ c_target (ctrl_init s f) = f.
Proof. split; reflexivity. Qed.

(* the step gain: 0.9 * 44100 / sample rate, times the distance still to go *)
Definition gain (s : ctrl) : R := (9 / 10 * 44100 * c_sr_inv s * Rabs (c_target s - c_output s))%R.
Definition dist (s : ctrl) : R := (c_target s - c_output s)%R.

Lemma ctrl_step_dist s : dist (ctrl_process s) = (dist s * (1 - gain s))%R.
Proof. unfold dist, ctrl_process, gain. cbn. ring. Qed.
Lemma ctrl_step_target s : c_target (ctrl_process s) = c_target s. Proof. reflexivity. Qed.

(* One processed block moves the output towards the target and not past it exactly when gain <= 1 (the target not yet reached). *)
Theorem C56_no_overshoot_iff : forall s, (0 < c_sr_inv s)%R -> c_output s <> c_target s ->
  (between (c_output s) (c_target s) (c_output (ctrl_process s)) <-> (gain s <= 1)%R).
Proof.
  intros s P N. unfold between. set (o := c_output s) in *. set (t := c_target s) in *.
  assert (E : c_output (ctrl_process s) = (o + gain s * (t - o))%R) by (unfold ctrl_process, gain; cbn; fold o t; ring).
  rewrite E. assert (G0 : (0 < gain s)%R).
  { unfold gain. fold o t. repeat apply Rmult_lt_0_compat; try lra. apply Rabs_pos_lt. lra. }
  set (g := gain s) in *. destruct (Rtotal_order o t) as [H|[H|H]]; [|congruence|].
  - split; [intros [[_ K]|[K1 K2]]; nra|intros K; left; nra].
  - split; [intros [[K1 K2]|[K _]]; nra|intros K; right; nra].
Qed.

(* If the first step does not overshoot, no later step does, and the output converges to the target: the remaining
   distance after n blocks is at most (initial distance) limit 1/(n+1) of the critical distance. *)
Lemma ctrl_run_sr n s : c_sr_inv (times n ctrl_process s) = c_sr_inv s /\ c_target (times n ctrl_process s) = c_target s.
Proof. induction n; cbn; [auto|]. destruct IHn as [<- <-]. split; reflexivity. Qed.

Lemma gain_step s : (0 <= gain s <= 1)%R -> gain (ctrl_process s) = (gain s * (1 - gain s))%R.
Proof.
  intros H. unfold gain at 1. change (c_target (ctrl_process s) - c_output (ctrl_process s))%R with (dist (ctrl_process s)).
  rewrite ctrl_step_dist, Rabs_mult, (Rabs_pos_eq (1 - gain s)) by lra. change (c_sr_inv (ctrl_process s)) with (c_sr_inv s).
  unfold dist. replace (gain s * (1 - gain s))%R with ((9 / 10 * 44100 * c_sr_inv s * Rabs (c_target s - c_output s)) * (1 - gain s))%R by (unfold gain; ring).
  ring.
Qed.
Lemma gain_nonneg s : (0 < c_sr_inv s)%R -> (0 <= gain s)%R.
Proof. intros P. unfold gain. repeat apply Rmult_le_pos; try lra. apply Rabs_pos. Qed.
Lemma times_S {A} n (f : A -> A) s : times (S n) f s = f (times n f s).
Proof. reflexivity. Qed.
Lemma gain_run s n : (0 < c_sr_inv s)%R -> (gain s <= 1)%R -> (0 <= gain (times n ctrl_process s) <= / (INR n + 1))%R.
Proof.
  intros P H. pose proof (gain_nonneg s P) as G0. induction n as [|n IH].
  - cbn [times INR]. rewrite Rplus_0_l, Rinv_1. lra.
  - rewrite times_S. set (s' := times n ctrl_process s) in *.
    assert (Pn : (0 <= INR n)%R) by apply pos_INR.
    assert (I1 : (/ (INR n + 1) <= 1)%R). { rewrite <- Rinv_1 at 2. apply Rinv_le_contravar; lra. }
    rewrite gain_step by lra. rewrite S_INR. set (g := gain s') in *. set (m := INR n) in *.
    split; [nra|]. destruct n as [|n'].
    + assert (E2 : (m + 1 + 1 = 2)%R) by (unfold m; cbn [INR]; lra). rewrite E2. pose proof (Rle_0_sqr (g - 1 / 2)) as Sq. unfold Rsqr in Sq. nra.
    + assert (Hm : (1 <= m)%R) by (unfold m; rewrite S_INR; pose proof (pos_INR n'); lra).
      set (k := (m + 1)%R) in *. assert (Hk : (2 <= k)%R) by (unfold k; lra).
      assert (Ik : (0 < / k)%R) by (apply Rinv_0_lt_compat; lra).
      assert (K2 : (/ k <= / 2)%R) by (apply Rinv_le_contravar; lra).
      assert (A : (g * (1 - g) <= / k * (1 - / k))%R) by nra.
      assert (B : (/ k * (1 - / k) <= / (k + 1))%R).
      { apply Rmult_le_reg_r with (k * k * (k + 1))%R; [nra|].
        replace (/ k * (1 - / k) * (k * k * (k + 1)))%R with ((k - 1) * (k + 1))%R by (field; lra).
        replace (/ (k + 1) * (k * k * (k + 1)))%R with (k * k)%R by (field; lra). nra. }
      lra.
Qed.

Theorem C56_converges_without_overshoot : forall s, (0 < c_sr_inv s)%R -> (gain s <= 1)%R ->
  approaches (fun n => c_output (times n ctrl_process s)) (c_target s).
Proof.
  intros s P H. split.
  - intros n. pose proof (gain_run s n P H) as G. destruct (ctrl_run_sr n s) as [S T]. rewrite times_S. rewrite <- T.
    set (s' := times n ctrl_process s) in *.
    destruct (Req_dec (c_output s') (c_target s')) as [E|N].
    + replace (c_output (ctrl_process s')) with (c_target s') by (unfold ctrl_process; cbn; rewrite E; ring).
      unfold between. rewrite E. lra.
    + apply C56_no_overshoot_iff; [rewrite S; exact P|exact N|].
      assert (/ (INR n + 1) <= 1)%R; [|lra]. pose proof (pos_INR n). rewrite <- Rinv_1 at 2. apply Rinv_le_contravar; lra.
  - intros eps He. set (c := (9 / 10 * 44100 * c_sr_inv s)%R). assert (Hc : (0 < c)%R) by (unfold c; lra).
    destruct (archimed (/ (c * eps))%R) as [HN _]. set (N := Z.to_nat (up (/ (c * eps))%R)).
    assert (HN2 : (/ (c * eps) < INR N)%R).
    { assert (0 < c * eps)%R by nra. assert (0 < / (c * eps))%R by (apply Rinv_0_lt_compat; lra).
      assert (0 < up (/ (c * eps))%R) by (apply lt_IZR; lra).
      unfold N. rewrite INR_IZR_INZ, Z2Nat.id by lia. exact HN. }
    exists N. intros n Hn. pose proof (gain_run s n P H) as [_ G]. destruct (ctrl_run_sr n s) as [S T]. unfold gain in G. rewrite S, T in G. fold c in G.
    rewrite Rabs_minus_sym. set (d := Rabs _) in *.
    assert (Hce : (0 < c * eps)%R) by nra.
    assert (L : (/ (INR n + 1) < c * eps)%R).
    { rewrite <- (Rinv_inv (c * eps)). apply Rinv_lt_contravar.
      - apply Rmult_lt_0_compat; [apply Rinv_0_lt_compat; lra|pose proof (pos_INR n); lra].
      - apply le_INR in Hn. lra. }
    apply Rmult_lt_reg_l with c; [exact Hc|]. lra.
Qed.
(* the remaining distance after n blocks, in units of the critical distance, is at most 1/(n+1) *)
Theorem C56_convergence_rate : forall s n, (0 < c_sr_inv s)%R -> (gain s <= 1)%R ->
  (9 / 10 * 44100 * c_sr_inv s * Rabs (c_target s - c_output (times n ctrl_process s)) <= / (INR n + 1))%R.
Proof.
  intros s n P H. pose proof (gain_run s n P H) as [_ G]. destruct (ctrl_run_sr n s) as [S T]. unfold gain in G. rewrite S, T in G. exact G.
Qed.
(* unipolar controllers at sample rates of at least 39690 Hz are safe *)
Theorem C56_unipolar_safe : forall s sr, (39690 <= sr)%R -> c_sr_inv s = (/ sr)%R ->
  (0 <= c_output s <= 1)%R -> (0 <= c_target s <= 1)%R -> (gain s <= 1)%R.
Proof.
  intros s sr H E Ho Ht. unfold gain. rewrite E.
  assert (Rabs (c_target s - c_output s) <= 1)%R by (apply Rabs_le; lra).
  assert (I : (9 / 10 * 44100 * / sr <= 1)%R).
  { apply Rmult_le_reg_r with sr; [lra|]. rewrite Rmult_assoc, Rinv_l by lra. lra. }
  pose proof (Rabs_pos (c_target s - c_output s)).
  assert (0 <= 9 / 10 * 44100 * / sr)%R by (assert (0 < / sr)%R by (apply Rinv_0_lt_compat; lra); lra). nra.
Qed.
(* But a bipolar controller can overshoot - at 44.1 kHz every jump of more than 1/0.9 does - and when the gain exceeds 2
   it gets farther away at every block. *)
Theorem C56_bipolar_overshoots_refuted :
  (forall s, c_sr_inv s = (/ 44100)%R -> (10 / 9 < Rabs (c_target s - c_output s))%R ->
     ~ between (c_output s) (c_target s) (c_output (ctrl_process s))) /\
  (forall s n, (0 < c_sr_inv s)%R -> (2 < gain s)%R ->
     (Rabs (c_target s - c_output (times n ctrl_process s)) < Rabs (c_target s - c_output (times (S n) ctrl_process s)))%R).
Proof.
  split.
  - intros s E H B. assert (P : (0 < c_sr_inv s)%R) by (rewrite E; lra).
    assert (c_output s <> c_target s) by (intros C; rewrite C, Rminus_diag_eq, Rabs_R0 in H by reflexivity; lra).
    apply C56_no_overshoot_iff in B; auto. unfold gain in B. rewrite E in B. lra.
  - intros s n P H.
    assert (G : (2 < gain (times n ctrl_process s))%R).
    { induction n as [|n IH]; [exact H|]. rewrite times_S. set (s' := times n ctrl_process s) in *.
      unfold gain. change (c_target (ctrl_process s') - c_output (ctrl_process s'))%R with (dist (ctrl_process s')).
      rewrite ctrl_step_dist, Rabs_mult. change (c_sr_inv (ctrl_process s')) with (c_sr_inv s').
      rewrite (Rabs_left (1 - gain s')) by lra.
      replace (9 / 10 * 44100 * c_sr_inv s' * (Rabs (dist s') * - (1 - gain s')))%R with (gain s' * (gain s' - 1))%R
        by (unfold gain, dist; ring). nra. }
    rewrite times_S. destruct (ctrl_run_sr n s) as [S T]. set (s' := times n ctrl_process s) in *. rewrite <- T.
    change (c_target s' - c_output (ctrl_process s'))%R with (dist (ctrl_process s')).
    rewrite ctrl_step_dist, Rabs_mult, (Rabs_left (1 - gain s')) by lra. unfold dist.
    assert (0 < Rabs (c_target s' - c_output s'))%R; [|nra].
    destruct (Req_dec (Rabs (c_target s' - c_output s')) 0) as [Z|Z]; [unfold gain in G; rewrite Z in G; lra|].
    pose proof (Rabs_pos (c_target s' - c_output s')). lra.
Qed.
(* processing until close: once closer than sigma the output is exactly the target and false is reported; otherwise an ordinary block is processed *)
Theorem C56_until_close : forall s sigma,
  let r := ctrl_process_until_close s sigma in
  (snd r = false <-> (Rabs (c_target s - c_output s) < sigma)%R) /\
  (snd r = false -> c_output (fst r) = c_target s) /\ (snd r = true -> fst r = ctrl_process s) /\ c_target (fst r) = c_target s.
Proof.
  intros s sigma. cbv zeta. unfold ctrl_process_until_close. destruct (Rlt_dec _ _) as [H|H]; cbn [fst snd].
  - repeat split; auto; try discriminate.
  - repeat split; auto; try discriminate. intros K; contradiction.
Qed.
(* has_changed reports a pending change and clears it only when asked; setting marks it; processing moves the output but never marks it *)
Theorem C56_change_flag : forall s f,
  snd (ctrl_has_changed (ctrl_set_target s f) false) = true /\ snd (ctrl_has_changed (ctrl_init s f) false) = true /\
  snd (ctrl_has_changed (ctrl_set_target01 s f true) false) = true /\
  snd (ctrl_has_changed (ctrl_set_target01 s f false) false) = snd (ctrl_has_changed s false) /\
  snd (ctrl_has_changed (fst (ctrl_has_changed s true)) false) = false /\
  fst (ctrl_has_changed s false) = s.
Proof. intros [o t b ch si] f. destruct ch; repeat split. Qed.
Theorem C56_output_moves_without_change_refuted : forall s, (0 < c_sr_inv s)%R -> c_output s <> c_target s -> c_changed s = false ->
  c_output (ctrl_process s) <> c_output s /\ snd (ctrl_has_changed (ctrl_process s) false) = false.
Proof.
  intros s P N C. split.
  - unfold ctrl_process. cbn. intros E. assert (gain s * (c_target s - c_output s) = 0)%R as Z by (unfold gain; lra).
    apply Rmult_integral in Z. destruct Z as [Z|Z]; [|lra].
    assert (0 < gain s)%R; [|lra]. unfold gain. repeat apply Rmult_lt_0_compat; try lra. apply Rabs_pos_lt. lra.
  - unfold ctrl_has_changed. cbn. rewrite C. reflexivity.
Qed.
Print Assumptions C56_target_round_trip.
Print Assumptions C56_converges_without_overshoot.
Print Assumptions C56_bipolar_overshoots_refuted.
Example C56_instance : let s := ctrl_set_target01 (ctrl_new (/ 44100)) 1 true in (gain s <= 1)%R /\ c_output s <> c_target s.
Proof.
  cbn. split.
  - apply (C56_unipolar_safe _ 44100); cbn; lra.
  - lra.
Qed.
Example C56_instance2 : let s := ctrl_set_target (ctrl_set_bipolar (ctrl_init (ctrl_new (/ 44100)) (-1)) true) 1 in
  (10 / 9 < Rabs (c_target s - c_output s))%R.
Proof. cbn. rewrite Rabs_pos_eq; lra. Qed.
