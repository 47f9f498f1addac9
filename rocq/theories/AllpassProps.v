(** Theorems about the all-pass reverb (AllpassModel.v). *)
From Coq Require Import Reals Lra Lia Bool List.
From Verif Require Import Base Util BlockModel MathModel ParamModel AdsrModel LfoModel LagModel SmallModel UnitModel AllpassModel AllpassProofs.
Local Open Scope R_scope.

(** ** C172: the pre-delay *)

(** With a constant tap of 1..383999 samples the pre-delay yields silence for tap-1 samples and panics on the tap-th sample;
    it never yields a sample it was fed. *)
Lemma pd_silent : forall xs tap s, (1 <= tap < PD_SIZE)%Z -> (0 <= p_k s)%Z -> (p_k s + Z.of_nat (length xs) < tap)%Z ->
  (forall j, (p_k s < j < PD_SIZE)%Z -> p_data s j = 0) ->
  exists s', pd_run tap s xs = Ok (s', repeat 0 (length xs)).
Proof.
  induction xs as [|x xs IH]; intros tap s Ht Hk Hl Hz; [eexists; reflexivity|].
  pose proof PD_SIZE_val as V. simpl length in Hl.
  simpl pd_run. rewrite pd_step by lia. cbv zeta.
  assert (E : (p_k s + 1 =? PD_SIZE)%Z = false) by (apply Z.eqb_neq; lia). rewrite E.
  assert (E2 : (p_k s + 1 - tap <? 0)%Z = true) by (apply Z.ltb_lt; lia). rewrite E2.
  assert (E3 : ((0 <? p_k s + 1 - tap + PD_SIZE) && (p_k s + 1 - tap + PD_SIZE <? PD_SIZE))%Z = true)
    by (apply andb_true_intro; split; apply Z.ltb_lt; lia). rewrite E3. cbn [obind].
  rewrite Hz by lia.
  destruct (IH tap (mk_pd (p_k s + 1) (put (p_data s) (p_k s + 1) x)) Ht) as [s' Es']; simpl p_k; try lia.
  - intros j Hj. simpl. unfold put. destruct (Z.eqb_spec j (p_k s + 1)); [lia|]. apply Hz. lia.
  - rewrite Es'. cbn [obind]. eexists. reflexivity.
Qed.

Lemma pd_const_panics : forall tap xs, (-2147000000 <= tap <= 2147000000)%Z -> (384000 <= Z.of_nat (length xs))%Z -> pd_run tap pd_default xs = Panic.
Proof.
  intros tap xs Ht Hl. pose proof PD_SIZE_val as V.
  assert (B : exists j : Z, (0 <= j < 384000)%Z /\ pd_bad j tap).
  { destruct (Z_lt_le_dec tap 0) as [Hn|Hn].
    - destruct (Z_lt_le_dec (- tap) 384000) as [Hs|Hs].
      + exists (383999 + tap)%Z. split; [lia|]. unfold pd_bad. cbv zeta. rewrite V.
        destruct (Z.eqb_spec (383999 + tap + 1) 384000); [lia|]. destruct (Z.ltb_spec (383999 + tap + 1 - tap) 0); lia.
      + exists 0%Z. split; [lia|]. unfold pd_bad. cbv zeta. rewrite V. change (0 + 1 =? 384000)%Z with false. cbv iota.
        destruct (Z.ltb_spec (0 + 1 - tap) 0); lia.
    - destruct (Z.eq_dec tap 0) as [->|H0].
      + exists 383999%Z. split; [lia|]. unfold pd_bad. cbv zeta. rewrite V. change (383999 + 1 =? 384000)%Z with true. cbv iota. change (0 - 0 <? 0)%Z with false. lia.
      + destruct (Z_lt_le_dec tap 384000) as [Hs|Hs].
        * exists (tap - 1)%Z. split; [lia|]. unfold pd_bad. cbv zeta. rewrite V.
          destruct (Z.eqb_spec (tap - 1 + 1) 384000); [lia|]. destruct (Z.ltb_spec (tap - 1 + 1 - tap) 0); lia.
        * destruct (Z.eq_dec tap 384000) as [->|H1].
          -- exists 383999%Z. split; [lia|]. unfold pd_bad. cbv zeta. rewrite V. change (383999 + 1 =? 384000)%Z with true. cbv iota. change (0 - 384000 <? 0)%Z with true. cbv iota. lia.
          -- exists 0%Z. split; [lia|]. unfold pd_bad. cbv zeta. rewrite V. change (0 + 1 =? 384000)%Z with false. cbv iota.
             destruct (Z.ltb_spec (0 + 1 - tap) 0); lia. }
  destruct B as (j & Hj & Hb).
  apply (pd_run_bad (Z.to_nat j)); simpl p_k; try lia.
  - replace (0 + Z.of_nat (Z.to_nat j))%Z with j by lia. exact Hb.
Qed.

(** no function of the effect returns an error value *)
Definition noerr {A} (m : res A) : Prop := match m with Err _ => False | _ => True end.
Lemma noerr_obind : forall A B (m : res A) (k : A -> res B), noerr m -> (forall a, noerr (k a)) -> noerr (obind m k).
Proof. intros A B [a|e|] k H1 H2; simpl in *; auto. Qed.
Lemma noerr_i32 : forall z, noerr (i32 z).
Proof. intros. unfold i32. destruct (_ && _); exact I. Qed.
Ltac ne := repeat match goal with
  | |- noerr (obind _ _) => apply noerr_obind; [|intros]
  | |- noerr (i32 _) => apply noerr_i32
  | |- noerr (if ?c then _ else _) => destruct c
  | |- noerr (let '(_, _) := ?p in _) => destruct p
  | |- noerr (match ?p with (_, _) => _ end) => destruct p
  | |- noerr (Ok _) => exact I
  | |- noerr Panic => exact I
  end.
Lemma noerr_ap : forall s x c, noerr (ap_process s x c). Proof. intros. unfold ap_process. cbv zeta. ne. Qed.
Lemma noerr_adget : forall s i, noerr (ad_get s i). Proof. intros. unfold ad_get. ne. Qed.
Lemma noerr_ad : forall s x a b m, noerr (ad_process s x a b m).
Proof. intros. unfold ad_process. cbv zeta. ne; apply noerr_adget. Qed.
Lemma noerr_pd : forall s x t, noerr (pd_process s x t). Proof. intros. unfold pd_process. cbv zeta. ne. Qed.
Lemma noerr_block : forall q l i b x, noerr (do_block q l i b x).
Proof. intros. unfold do_block. cbv zeta. ne; try apply noerr_ap; try apply noerr_ad. Qed.
Lemma noerr_blocks : forall q ls i bs x a b, noerr (do_blocks q ls i bs x a b).
Proof. induction ls; intros; destruct bs; simpl; try exact I. ne; try apply noerr_block. apply IHls. Qed.
Lemma noerr_diff : forall c l x, noerr (diffuse c l x).
Proof. induction l; intros; simpl; [exact I|]. ne; try apply noerr_ap. apply IHl. Qed.
Lemma noerr_sample : forall t s x, noerr (av_sample t s x).
Proof. intros. unfold av_sample. cbv zeta. ne; first [apply noerr_pd | apply noerr_diff | apply noerr_blocks]. Qed.
Lemma noerr_samples : forall t xs s, noerr (av_samples t s xs).
Proof. induction xs; intros; simpl; [exact I|]. ne; try apply noerr_sample. apply IHxs. Qed.
Lemma noerr_calc : forall sr m s, noerr (calc_size sr m s). Proof. intros. unfold calc_size. ne. Qed.
Lemma noerr_control : forall sr p s, noerr (av_control sr p s).
Proof. intros. unfold av_control. ne; try apply noerr_calc. unfold qo_set_rate. cbv zeta. destruct (Req_EM_T _ _); exact I. Qed.
Lemma noerr_run : forall sr l s, noerr (av_run sr l s).
Proof. induction l as [|[p xs] l IH]; intros; simpl; [exact I|]. unfold av_process. ne; try apply noerr_control; try apply noerr_samples. apply IH. Qed.

Lemma obind_Ok : forall A B (m : res A) (k : A -> res B) b, obind m k = Ok b -> exists a, m = Ok a /\ k a = Ok b.
Proof. intros A B [a|e|] k b H; simpl in H; try discriminate. eauto. Qed.
Ltac ok H := apply obind_Ok in H; let a := fresh "r" in let E := fresh "E" in destruct H as (a & E & H).

(** the signal a block feeds into the pre-delay *)
Definition mono (x : R * R) : R := (fst x + snd x) * (1 / 2).
Lemma av_sample_pre : forall t s x s' y, av_sample t s x = Ok (s', y) -> exists z, pd_process (v_pre s) (mono x) t = Ok (v_pre s', z).
Proof.
  intros t s x s' y H. unfold av_sample in H. cbv zeta in H. ok H. destruct r as [pre inp]. ok H. destruct r as [ins i2]. ok H. destruct r as [[bs st] out].
  injection H as <- <-. exists inp. exact E.
Qed.
Lemma pd_run_app : forall t xs ys s s1 o, pd_run t s xs = Ok (s1, o) -> pd_run t s (xs ++ ys) = obind (pd_run t s1 ys) (fun '(s2, o2) => Ok (s2, o ++ o2)).
Proof.
  induction xs as [|x xs IH]; intros ys s s1 o H; simpl in H.
  - injection H as <- <-. simpl. destruct (pd_run t s ys) as [[a b]|e|]; reflexivity.
  - ok H. destruct r as [s2 y]. ok H. destruct r as [s3 ys3]. injection H as <- <-. simpl. rewrite E. simpl. rewrite (IH ys _ _ _ E0).
    destruct (pd_run t s3 ys) as [[a b]|e|]; reflexivity.
Qed.
Lemma av_samples_pre : forall t xs s s' ys, av_samples t s xs = Ok (s', ys) -> exists zs, pd_run t (v_pre s) (map mono xs) = Ok (v_pre s', zs).
Proof.
  induction xs as [|x xs IH]; intros s s' ys H; simpl in H.
  - injection H as <- <-. eexists; reflexivity.
  - ok H. destruct r as [s1 y]. ok H. destruct r as [s2 ys2]. injection H as <- <-.
    apply av_sample_pre in E. destruct E as [z Ez]. apply IH in E0. destruct E0 as [zs Ezs]. simpl. rewrite Ez. simpl. rewrite Ezs. simpl. eauto.
Qed.
Lemma calc_size_pre : forall sr m s s', calc_size sr m s = Ok s' -> v_pre s' = v_pre s.
Proof. intros sr m s s' H. unfold calc_size in H. destruct (Rlt_dec 0 m); [|discriminate]. injection H as <-. reflexivity. Qed.
Lemma av_control_pre : forall sr p s s', av_control sr p s = Ok s' -> v_pre s' = v_pre s.
Proof. intros sr p s s' H. unfold av_control in H. ok H. ok H. injection H as <-. simpl. eapply calc_size_pre; eauto. Qed.
Lemma av_run_pre : forall sr d l s s' ys, (forall p xs, In (p, xs) l -> r_predelay p = d) -> av_run sr l s = Ok (s', ys) ->
  exists zs, pd_run (pdt_of sr d) (v_pre s) (map mono (concat (map snd l))) = Ok (v_pre s', zs).
Proof.
  induction l as [|[p xs] l IH]; intros s s' ys Hp H; simpl in H.
  - injection H as <- <-. eexists; reflexivity.
  - ok H. destruct r as [s1 y1]. ok H. destruct r as [s2 y2]. injection H as <- <-.
    unfold av_process in E. ok E. rewrite (Hp p xs) in E by (left; reflexivity). apply av_samples_pre in E. destruct E as [zs Ezs].
    apply av_control_pre in E1. rewrite E1 in Ezs.
    apply IH in E0; [|intros; eapply Hp; right; eauto]. destruct E0 as [ws Ews].
    simpl. rewrite map_app. rewrite (pd_run_app _ _ _ _ _ _ Ezs). rewrite Ews. simpl. eauto.
Qed.

(** the number of samples fed in all blocks *)
Definition fed (l : list (avpar * list (R * R))) : Z := Z.of_nat (length (concat (map snd l))).

Theorem C172_predelay_panics_refuted : forall sr d l s,
  (forall p xs, In (p, xs) l -> r_predelay p = d) ->
  v_pre s = pd_default ->
  (1 <= pdt_of sr d < 384000)%Z -> (pdt_of sr d <= fed l)%Z ->
  av_run sr l s = Panic.
Proof.
  intros sr d l s Hp Hs Ht Hf. pose proof (noerr_run sr l s) as N.
  destruct (av_run sr l s) as [[s' ys]|e|] eqn:E; [|destruct N|reflexivity]. exfalso.
  apply (av_run_pre sr d) in E; [|exact Hp]. destruct E as [zs Ez]. rewrite Hs in Ez.
  rewrite (pd_run_bad (Z.to_nat (pdt_of sr d - 1))) in Ez; [discriminate| | | | |]; pose proof PD_SIZE_val as V; simpl p_k; try lia.
  - unfold pd_bad. cbv zeta. rewrite V. replace (0 + Z.of_nat (Z.to_nat (pdt_of sr d - 1)) + 1)%Z with (pdt_of sr d) by lia.
    destruct (Z.eqb_spec (pdt_of sr d) 384000); [lia|]. destruct (Z.ltb_spec (pdt_of sr d - pdt_of sr d) 0); lia.
  - rewrite map_length. unfold fed in Hf. lia.
Qed.

(** no signal stored anywhere *)
Definition ap_quiet (a : allp) : Prop := forall j, a_data a j = 0.
Definition blk_quiet (b : ablock) : Prop := ap_quiet (b_a0 b) /\ ap_quiet (b_a1 b) /\ b_hf b = 0 /\ b_lf b = 0 /\ (forall j, d_data (b_del b) j = 0).
Definition net_quiet (s : averb) : Prop := Forall ap_quiet (v_in s) /\ Forall blk_quiet (v_blocks s) /\ v_state s = 0.
Lemma put_quiet : forall f i v, (forall j, f j = 0) -> v = 0 -> forall j, put f i v j = 0.
Proof. intros f i v H -> j. unfold put. destruct (j =? i)%Z; auto. Qed.
Lemma ap_quiet_step : forall a c a' y, ap_quiet a -> ap_process a 0 c = Ok (a', y) -> ap_quiet a' /\ y = 0.
Proof.
  intros a c a' y Q H. unfold ap_process in H. cbv zeta in H. destruct (_ && _); [|discriminate]. injection H as <- <-.
  rewrite !Q. split; [|ring]. intros j. simpl. apply put_quiet; [exact Q|ring].
Qed.
Lemma ad_get_val : forall s i v, ad_get s i = Ok v -> v = d_data s i.
Proof. intros s i v H. unfold ad_get in H. destruct (_ && _); [|discriminate]. injection H as <-. reflexivity. Qed.
Lemma ad_quiet_step : forall s t1 t2 m s' r a b, (forall j, d_data s j = 0) -> ad_process s 0 t1 t2 m = Ok (s', (r, a, b)) ->
  (forall j, d_data s' j = 0) /\ r = 0 /\ a = 0 /\ b = 0.
Proof.
  intros s t1 t2 m s' r a b Q H. unfold ad_process in H. cbv zeta in H. do 10 ok H.
  destruct (_ && _); [|discriminate]. injection H as <- <- <- <-.
  repeat match goal with E : ad_get _ _ = Ok _ |- _ => apply ad_get_val in E; rewrite Q in E; subst end.
  split; [|split; [|split]]; try ring. intros j. simpl. apply put_quiet; auto.
Qed.
Lemma blk_quiet_step : forall q lfo b b' x o, blk_quiet b -> do_block q lfo 0 b 0 = Ok (b', x, o) -> blk_quiet b' /\ x = 0 /\ o = (0, 0).
Proof.
  intros q lfo b b' x o (Q0 & Q1 & Qh & Ql & Qd) H. unfold do_block in H. cbv zeta in H.
  replace (0 + 0) with 0 in H by ring. ok H. destruct r as [a0 x0]. apply ap_quiet_step in E; [|exact Q0]. destruct E as [Qa0 ->].
  ok H. destruct r as [a1 x1]. apply ap_quiet_step in E; [|exact Q1]. destruct E as [Qa1 ->].
  unfold op_lowpass, op_highpass in H. cbv zeta in H. rewrite Qh, Ql in H.
  replace (0 * s_hf q + 0 * (1 - s_hf q)) with 0 in H by ring.
  replace (0 * (1 - s_lf q) + 0 * s_lf q) with 0 in H by ring. replace (0 - 0) with 0 in H by ring.
  ok H. destruct r as [del [[z tl] tr]]. apply ad_quiet_step in E; [|exact Qd]. destruct E as (Qd' & -> & -> & ->).
  injection H as <- <- <-. split; [|split; [ring|f_equal; ring]]. repeat split; simpl; auto.
Qed.
Lemma blks_quiet_step : forall q lfos bs bs' x o, Forall blk_quiet bs -> do_blocks q lfos 0 bs 0 0 0 = Ok (bs', x, o) -> Forall blk_quiet bs' /\ x = 0 /\ o = (0, 0).
Proof.
  induction lfos as [|l lfos IH]; intros bs bs' x o Q H.
  - destruct bs; simpl in H; injection H as <- <- <-; auto.
  - destruct bs as [|b bs]; [simpl in H; injection H as <- <- <-; auto|]. simpl in H. ok H. destruct r as [[b1 x1] [tl tr]].
    inversion Q; subst. apply blk_quiet_step in E; [|assumption]. destruct E as (Qb & -> & E). injection E as -> ->.
    replace (0 + 0) with 0 in H by ring. ok H. destruct r as [[bs1 x2] o2]. apply IH in E; [|assumption]. destruct E as (Qs & -> & ->).
    injection H as <- <- <-. split; [constructor; assumption|auto].
Qed.
Lemma diff_quiet_step : forall c l l' y, Forall ap_quiet l -> diffuse c l 0 = Ok (l', y) -> Forall ap_quiet l' /\ y = 0.
Proof.
  induction l as [|a l IH]; intros l' y Q H; simpl in H; [injection H as <- <-; auto|].
  inversion Q; subst. ok H. destruct r as [a1 y1]. apply ap_quiet_step in E; [|assumption]. destruct E as [Qa ->].
  ok H. destruct r as [l1 y2]. apply IH in E; [|assumption]. destruct E as [Ql ->]. injection H as <- <-. split; [constructor; assumption|reflexivity].
Qed.

(** a state in which nothing has been fed yet, up to pre-delay position k *)
Lemma pd_step_fresh : forall s x tap s' z, (1 <= tap < PD_SIZE)%Z -> (0 <= p_k s)%Z -> (p_k s + 1 < tap)%Z ->
  (forall j, (p_k s < j < PD_SIZE)%Z -> p_data s j = 0) -> pd_process s x tap = Ok (s', z) ->
  z = 0 /\ p_k s' = (p_k s + 1)%Z /\ (forall j, (p_k s' < j < PD_SIZE)%Z -> p_data s' j = 0).
Proof.
  intros s x tap s' z Ht Hk Hl Hz H. pose proof PD_SIZE_val as V. rewrite pd_step in H by lia. cbv zeta in H.
  destruct (Z.eqb_spec (p_k s + 1) PD_SIZE); [lia|]. destruct (Z.ltb_spec (p_k s + 1 - tap) 0); [|lia].
  destruct (_ && _); [|discriminate]. injection H as <- <-. split; [apply Hz; lia|]. split; [reflexivity|].
  simpl. intros j Hj. unfold put. destruct (Z.eqb_spec j (p_k s + 1)); [lia|]. apply Hz. lia.
Qed.
Definition fresh (s : averb) : Prop := (0 <= p_k (v_pre s))%Z /\ (forall j, (p_k (v_pre s) < j < PD_SIZE)%Z -> p_data (v_pre s) j = 0) /\ net_quiet s.
Lemma av_samples_fresh : forall tap xs s s' ys, (1 <= tap < PD_SIZE)%Z -> fresh s -> (p_k (v_pre s) + Z.of_nat (length xs) < tap)%Z ->
  av_samples tap s xs = Ok (s', ys) -> fresh s' /\ ys = repeat (0, 0) (length xs) /\ p_k (v_pre s') = (p_k (v_pre s) + Z.of_nat (length xs))%Z.
Proof.
  induction xs as [|x xs IH]; intros s s' ys Ht F Hl H; simpl in H.
  - injection H as <- <-. simpl. rewrite Z.add_0_r. auto.
  - ok H. destruct r as [s1 y]. ok H. destruct r as [s2 ys2]. injection H as <- <-. simpl length in *.
    destruct F as (Fk & Fz & Fi & Fb & Fs). unfold av_sample in E. cbv zeta in E. ok E. destruct r as [pre z].
    apply pd_step_fresh in E1; [|assumption..|lia|assumption]. destruct E1 as (-> & Ek & Ez).
    ok E. destruct r as [ins i2]. apply diff_quiet_step in E1; [|assumption]. destruct E1 as [Qi ->].
    ok E. destruct r as [[bs st] o]. rewrite Fs in E1. apply blks_quiet_step in E1; [|assumption]. destruct E1 as (Qb & -> & ->).
    injection E as <- <-. apply IH in E0; [|assumption| |simpl; lia].
    + destruct E0 as (F2 & -> & Ek2). split; [exact F2|]. split; [reflexivity|]. rewrite Ek2. simpl. lia.
    + split; [simpl; lia|]. split; [exact Ez|]. split; [exact Qi|]. split; [exact Qb|reflexivity].
Qed.
Lemma calc_size_fresh : forall sr m s s', calc_size sr m s = Ok s' -> fresh s -> fresh s'.
Proof.
  intros sr m s s' H (Fk & Fz & Fi & Fb & Fs). unfold calc_size in H. destruct (Rlt_dec 0 m); [|discriminate]. injection H as <-.
  split; [exact Fk|]. split; [exact Fz|]. split; [|split; [|exact Fs]]; simpl.
  - rewrite Forall_forall in *. intros a Ha. apply in_map_iff in Ha. destruct Ha as ([a1 ms] & <- & Hin). apply in_combine_l in Hin. exact (Fi a1 Hin).
  - rewrite Forall_forall in *. intros b Hb. apply in_map_iff in Hb. destruct Hb as ([b1 [[[[tl tr] l0] l1] d]] & <- & Hin). apply in_combine_l in Hin.
    destruct (Fb b1 Hin) as (A & B & C & D & E). repeat split; assumption.
Qed.
Lemma av_control_fresh : forall sr p s s', av_control sr p s = Ok s' -> fresh s -> fresh s'.
Proof.
  intros sr p s s' H F. unfold av_control in H. ok H. ok H. injection H as <-. apply calc_size_fresh in E; [|exact F]. exact E.
Qed.
Lemma av_run_fresh : forall sr d l s s' ys, (forall p xs, In (p, xs) l -> r_predelay p = d) -> (1 <= pdt_of sr d < PD_SIZE)%Z -> fresh s ->
  (p_k (v_pre s) + fed l < pdt_of sr d)%Z -> av_run sr l s = Ok (s', ys) -> ys = repeat (0, 0) (length ys).
Proof.
  induction l as [|[p xs] l IH]; intros s s' ys Hp Ht F Hf H; simpl in H.
  - injection H as <- <-. reflexivity.
  - unfold fed in Hf. simpl in Hf. rewrite app_length in Hf. ok H. destruct r as [s1 y1]. ok H. destruct r as [s2 y2]. injection H as <- <-.
    unfold av_process in E. ok E. rewrite (Hp p xs) in E by (left; reflexivity).
    pose proof (av_control_pre _ _ _ _ E1) as Ep. apply av_control_fresh in E1; [|exact F].
    apply av_samples_fresh in E; [|assumption|assumption|rewrite Ep; lia]. destruct E as (F1 & -> & Ek).
    apply IH in E0; [|intros; eapply Hp; right; eauto|assumption|assumption|unfold fed; rewrite Ek, Ep; lia].
    rewrite E0. rewrite app_length, !repeat_length. symmetry. apply repeat_app.
Qed.
Theorem C172_silent_until_then : forall sr d l s0 s s' ys,
  (forall p xs, In (p, xs) l -> r_predelay p = d) ->
  av_update sr av_new = Ok s0 -> s = s0 ->
  (1 <= pdt_of sr d < 384000)%Z -> (fed l < pdt_of sr d)%Z ->
  av_run sr l s = Ok (s', ys) -> ys = repeat (0, 0) (length ys).
Proof.
  intros sr d l s0 s s' ys Hp H0 -> Ht Hf H.
  assert (F : fresh s0).
  { unfold av_update in H0. eapply calc_size_fresh; [exact H0|]. split; [simpl; lia|]. split; [intros; reflexivity|].
    assert (A : ap_quiet ap_default) by (intros j; reflexivity).
    split; [|split; [|reflexivity]]; simpl; repeat constructor; auto. }
  apply (av_run_fresh sr d l s0 s' ys); try assumption.
  replace (p_k (v_pre s0)) with 0%Z; [lia|]. unfold av_update in H0. apply calc_size_pre in H0. rewrite H0. reflexivity.
Qed.
(** and for every constant tap, the pre-delay itself stops within 384000 samples *)
Theorem C172_any_tap_refuted : forall tap xs, (-2147000000 <= tap <= 2147000000)%Z -> (384000 <= Z.of_nat (length xs))%Z ->
  pd_run tap pd_default xs = Panic.
Proof. exact pd_const_panics. Qed.
(** away from that, a step gives what was stored tap positions back *)
Theorem C172_step_value : forall s x tap s' z, (0 <= p_k s < 384000)%Z -> (0 <= tap < 384000)%Z -> pd_process s x tap = Ok (s', z) ->
  p_k s' = ((p_k s + 1) mod 384000)%Z /\ z = p_data s ((p_k s' - tap) mod 384000)%Z /\ p_data s' (p_k s') = x /\
  (forall j, j <> p_k s' -> p_data s' j = p_data s j).
Proof.
  intros s x tap s' z Hk Ht H. pose proof PD_SIZE_val as V. rewrite pd_step in H by lia. cbv zeta in H. rewrite V in H.
  destruct (_ && _) eqn:E; [|discriminate]. injection H as <- <-. simpl p_k. simpl p_data. apply andb_true_iff in E. destruct E as [E1 E2]. apply Z.ltb_lt in E1, E2.
  set (k := if (p_k s + 1 =? 384000)%Z then 0%Z else (p_k s + 1)%Z) in *.
  assert (Ekk : k = ((p_k s + 1) mod 384000)%Z).
  { unfold k. destruct (Z.eqb_spec (p_k s + 1) 384000) as [->|]; [reflexivity|]. symmetry. apply Z.mod_small. lia. }
  split; [exact Ekk|]. assert (Hkr : (0 <= k < 384000)%Z) by (unfold k; destruct (Z.eqb_spec (p_k s + 1) 384000); lia).
  split; [|split].
  - f_equal. destruct (Z.ltb_spec (k - tap) 0).
    + rewrite <- (Z.mod_small (k - tap + 384000) 384000) by lia. replace (k - tap + 384000)%Z with (k - tap + 1 * 384000)%Z by lia. apply Z_mod_plus_full.
    + symmetry. apply Z.mod_small. lia.
  - unfold put. rewrite Z.eqb_refl. reflexivity.
  - intros j Hj. unfold put. destruct (Z.eqb_spec j k); [contradiction|reflexivity].
Qed.

Lemma Rpower2_IZR : forall n : Z, (0 <= n)%Z -> Rpower 2 (IZR n) = IZR (2 ^ n).
Proof.
  intros n Hn. rewrite <- (Z2Nat.id n) by lia. generalize (Z.to_nat n). intros m. rewrite <- INR_IZR_INZ, Rpower_pow by lra.
  rewrite <- (pow_IZR 2 m). reflexivity.
Qed.
Lemma truncR_IZR : forall z, truncR (IZR z) = z.
Proof.
  intros z. unfold truncR. destruct (Rle_dec 0 (IZR z)) as [H|H].
  - unfold Int_part. rewrite <- (tech_up (IZR z) (z + 1)); [lia| |]; rewrite plus_IZR; lra.
  - rewrite <- opp_IZR. unfold Int_part. rewrite <- (tech_up (IZR (- z)) (- z + 1)); [lia| |]; rewrite plus_IZR; lra.
Qed.
(** the shipped default: 48 kHz, PreDelay -4 is 3000 samples *)
Example C172_default_predelay : pdt_of 48000 (-4) = 3000%Z.
Proof.
  unfold pdt_of. replace (Rpower 2 (-4)) with (1 / 16).
  - replace (48000 * (1 / 16)) with (IZR 3000) by lra. unfold as_i32R. rewrite truncR_IZR. reflexivity.
  - replace (-4) with (Ropp 4) by lra. rewrite Rpower_Ropp. replace (Rpower 2 4) with 16; [lra|]. change 4 with (IZR 4). rewrite Rpower2_IZR by lia. reflexivity.
Qed.
Example C172_init_ok : exists s0, av_update 48000 av_new = Ok s0 /\ v_pre s0 = pd_default.
Proof. unfold av_update, calc_size. destruct (Rlt_dec 0 1); [|lra]. eexists. split; [reflexivity|]. reflexivity. Qed.
Print Assumptions C172_predelay_panics_refuted.
Print Assumptions C172_silent_until_then.
Print Assumptions C172_any_tap_refuted.
Print Assumptions C172_step_value.

(** ** C173: the all-pass sections are lossless and stay in their buffer *)
Lemma ap_run_ok : forall c xs s, ap_ok s -> exists s' ys, ap_run c s xs = Ok (s', ys) /\ length ys = length xs /\ ap_ok s' /\ a_len s' = a_len s /\
  sumsq ys + (1 - c * c) * ap_energy s' = sumsq xs + (1 - c * c) * ap_energy s.
Proof.
  induction xs as [|x xs IH]; intros s H.
  - exists s, []. simpl. repeat split; try apply H; reflexivity || ring.
  - destruct (ap_step s x c H) as (s1 & y & E & H1 & L1 & _ & En). destruct (IH s1 H1) as (s2 & ys & E2 & Ly & H2 & L2 & En2).
    exists s2, (y :: ys). simpl. rewrite E. simpl. rewrite E2. simpl. split; [reflexivity|]. split; [lia|]. split; [exact H2|]. split; [congruence|]. lra.
Qed.
(** For every section of length 1..16384, every signal and every constant coefficient c: no panic, and
    output energy + (1 - c^2) stored energy is conserved; the stored energy is that of the first len cells. *)
Theorem C173_lossless : forall c len xs, (1 <= len <= 16384)%Z -> exists s' ys,
  ap_run c (ap_set_len ap_default len) xs = Ok (s', ys) /\ length ys = length xs /\
  sumsq ys + (1 - c * c) * sumn (fun i => a_data s' (Z.of_nat i) * a_data s' (Z.of_nat i)) (Z.to_nat len) = sumsq xs.
Proof.
  intros c len xs H. destruct (ap_run_ok c xs (ap_set_len ap_default len)) as (s' & ys & E & L & _ & Hl & En).
  - split; simpl; unfold AP_MAX; lia.
  - exists s', ys. split; [exact E|]. split; [exact L|]. unfold ap_energy in En. rewrite Hl in En. simpl a_len in En. rewrite En.
    simpl a_data. replace (sumn _ _) with 0; [ring|]. symmetry. generalize (Z.to_nat len). induction n as [|n IH]; simpl; [reflexivity|]. rewrite IH. ring.
Qed.
(** hence with |c| <= 1 the output never has more energy than the input *)
Theorem C173_output_bounded : forall c len xs s' ys, (1 <= len <= 16384)%Z -> -1 <= c <= 1 ->
  ap_run c (ap_set_len ap_default len) xs = Ok (s', ys) -> sumsq ys <= sumsq xs.
Proof.
  intros c len xs s' ys H Hc E. destruct (C173_lossless c len xs H) as (s1 & y1 & E1 & _ & En). rewrite E in E1. injection E1 as <- <-.
  assert (P : 0 <= sumn (fun i => a_data s' (Z.of_nat i) * a_data s' (Z.of_nat i)) (Z.to_nat len)).
  { apply sumn_nonneg. intros i. apply (Rle_trans _ (Rsqr (a_data s' (Z.of_nat i)))); [apply Rle_0_sqr|unfold Rsqr; lra]. }
  assert (Q : 0 <= 1 - c * c) by nra. pose proof (Rmult_le_pos _ _ Q P). lra.
Qed.
(** What the section computes: v is fed into a delay of len samples; hist is what was fed so far, newest first. *)
Fixpoint ap_spec (c : R) (len : nat) (hist xs : list R) : list R :=
  match xs with
  | [] => []
  | x :: r => let old := nth (len - 1) hist 0 in
              let v := x - c * old in
              (old + c * v) :: ap_spec c len (v :: hist) r
  end.
Lemma mod_shift_ne : forall k i len, (0 < i < len)%Z -> ((k + 1 - i) mod len <> (k + 1) mod len)%Z.
Proof.
  intros k i len H E. assert (((k + 1) - (k + 1 - i)) mod len = 0)%Z.
  { rewrite Zminus_mod, E, Z.sub_diag. apply Z.mod_0_l. lia. }
  replace (k + 1 - (k + 1 - i))%Z with i in H0 by lia. rewrite Z.mod_small in H0 by lia. lia.
Qed.
Lemma ap_run_spec : forall c xs s hist, (1 <= a_len s <= AP_MAX)%Z -> (0 <= a_k s < a_len s)%Z ->
  (forall i, (0 <= i < a_len s)%Z -> a_data s ((a_k s - i) mod a_len s)%Z = nth (Z.to_nat i) hist 0) ->
  exists s', ap_run c s xs = Ok (s', ap_spec c (Z.to_nat (a_len s)) hist xs).
Proof.
  induction xs as [|x xs IH]; intros s hist Hl Hk Hh; [eexists; reflexivity|].
  simpl ap_run. unfold ap_process. cbv zeta.
  set (k := if (a_len s <=? a_k s + 1)%Z then 0%Z else (a_k s + 1)%Z).
  assert (Ek : k = ((a_k s + 1) mod a_len s)%Z).
  { unfold k. destruct (Z.leb_spec (a_len s) (a_k s + 1)).
    - replace (a_k s + 1)%Z with (a_len s) by lia. symmetry. apply Z.mod_same. lia.
    - symmetry. apply Z.mod_small. lia. }
  assert (Hkk : (0 <= k < a_len s)%Z) by (rewrite Ek; apply Z.mod_pos_bound; lia).
  replace ((0 <=? k) && (k <? AP_MAX))%Z with true by (symmetry; apply andb_true_intro; split; [apply Z.leb_le|apply Z.ltb_lt]; lia).
  cbn [obind].
  assert (Eo : a_data s k = nth (Z.to_nat (a_len s) - 1) hist 0).
  { rewrite Ek. replace ((a_k s + 1) mod a_len s)%Z with ((a_k s - (a_len s - 1)) mod a_len s)%Z.
    - rewrite Hh by lia. f_equal. lia.
    - replace (a_k s - (a_len s - 1))%Z with (a_k s + 1 + (-1) * a_len s)%Z by lia. apply Z_mod_plus_full. }
  rewrite Eo. set (v := x - c * nth (Z.to_nat (a_len s) - 1) hist 0).
  destruct (IH (mk_ap (a_len s) k (put (a_data s) k v)) (v :: hist)) as [s' E]; simpl a_len; simpl a_k; simpl a_data; try assumption.
  - intros i Hi. unfold put. destruct (Z.eq_dec i 0) as [->|Hn].
    + rewrite Z.sub_0_r, Z.mod_small by lia. rewrite Z.eqb_refl. reflexivity.
    + assert (E1 : ((k - i) mod a_len s = (a_k s + 1 - i) mod a_len s)%Z) by (rewrite Ek, Zminus_mod_idemp_l; reflexivity).
      rewrite E1. destruct (Z.eqb_spec ((a_k s + 1 - i) mod a_len s) k) as [E2|_].
      * exfalso. rewrite Ek in E2. apply (mod_shift_ne (a_k s) i (a_len s)); [lia|exact E2].
      * replace (a_k s + 1 - i)%Z with (a_k s - (i - 1))%Z by lia. rewrite Hh by lia.
        replace (Z.to_nat i) with (Datatypes.S (Z.to_nat (i - 1))) by lia. reflexivity.
  - simpl a_len in E. rewrite E. cbn [obind]. eexists. cbn [ap_spec]. fold v. reflexivity.
Qed.
Theorem C173_is_schroeder_allpass : forall c len xs, (1 <= len <= 16384)%Z ->
  exists s', ap_run c (ap_set_len ap_default len) xs = Ok (s', ap_spec c (Z.to_nat len) [] xs).
Proof.
  intros c len xs H. apply (ap_run_spec c xs (ap_set_len ap_default len) []); simpl; unfold AP_MAX; try lia.
  intros i Hi. destruct (Z.to_nat i); reflexivity.
Qed.
(** with a longer length the buffer is left: the 16384th sample panics *)
Lemma ap_run_long : forall c xs s, (16384 < a_len s)%Z -> (0 <= a_k s <= 16383)%Z -> (16384 - a_k s <= Z.of_nat (length xs))%Z -> ap_run c s xs = Panic.
Proof.
  induction xs as [|x xs IH]; intros s Hl Hk Hn; [cbn [length] in Hn; lia|]. simpl ap_run. unfold ap_process. cbv zeta.
  destruct (Z.leb_spec (a_len s) (a_k s + 1)); [lia|].
  destruct (Z.eq_dec (a_k s) 16383) as [E|E].
  - rewrite E. reflexivity.
  - replace ((0 <=? a_k s + 1) && (a_k s + 1 <? AP_MAX))%Z with true by (symmetry; apply andb_true_intro; split; [apply Z.leb_le|apply Z.ltb_lt]; unfold AP_MAX; lia).
    cbn [obind]. cbn [length] in Hn. rewrite IH; [reflexivity| | |]; cbn [a_len a_k]; lia.
Qed.
Theorem C173_too_long_panics : forall c len xs, (16384 < len)%Z -> (16384 <= Z.of_nat (length xs))%Z -> ap_run c (ap_set_len ap_default len) xs = Panic.
Proof. intros c len xs H Hn. apply ap_run_long; simpl; lia. Qed.
Print Assumptions C173_lossless.
Print Assumptions C173_output_bounded.
Print Assumptions C173_is_schroeder_allpass.
Print Assumptions C173_too_long_panics.
Example C173_witness : exists s', ap_run (1/2) (ap_set_len ap_default 2) [1; 0; 0] = Ok (s', [1/2; 0; 3/4]).
Proof. destruct (C173_is_schroeder_allpass (1/2) 2 [1; 0; 0] ltac:(lia)) as [s' E]. exists s'. rewrite E. f_equal. f_equal. simpl. repeat (apply f_equal2; [lra|]). reflexivity. Qed.
