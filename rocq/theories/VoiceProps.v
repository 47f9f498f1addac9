(* VoiceProps.v - C189-C192: portamento, glide source, absolute pitch, pitch composition of a voice. *)
From Coq Require Import Reals Lra Psatz.
From Verif Require Import Base Util LagModel BlockModel RampProps MathModel ParamModel AdsrModel LfoModel TuneModel SceneModel BiquadModel UnitModel QfModel
  FastProps TuneProps TableProps VoiceModel.
Local Open Scope R_scope.

(** ** C189 glide *)
(* the key number that sounds a fraction c of the way from a to b *)
Definition on_the_way (a b c : R) : R := a + c * (b - a).
Fixpoint updates (rates : list R) (s : vstate) : res vstate :=
  match rates with [] => Ok s | r :: rs => obind (update_portamento (Ok 1) (Ok r) false s) (updates rs) end.
Definition sumR (l : list R) : R := fold_right Rplus 0 l.
(* s' is s except for the glide's position and the sounding key *)
Definition same_note (s s' : vstate) : Prop :=
  vs_key s' = vs_key s /\ vs_vpb s' = vs_vpb s /\ vs_mpb s' = vs_mpb s /\ vs_detune s' = vs_detune s /\ vs_src s' = vs_src s /\
  vs_vel s' = vs_vel s /\ vs_fvel s' = vs_fvel s /\ vs_lastkey s' = vs_lastkey s.
Lemma same_note_refl s : same_note s s. Proof. repeat split. Qed.
Lemma same_note_trans a b c : same_note a b -> same_note b c -> same_note a c.
Proof. unfold same_note. intuition congruence. Qed.
Lemma same_note_pitch s s' : same_note s s' -> get_pitch s' = get_pitch s.
Proof. unfold same_note, get_pitch. intros (A & B & C & D & _). now rewrite A, B, C, D. Qed.
Lemma update_step tsr r ts s : exists s', update_portamento (Ok tsr) (Ok r) ts s = Ok s' /\ same_note s s' /\
  vs_phase s' = vs_phase s + r * (if ts then tsr else 1) /\ vs_pkey s' = on_the_way (vs_src s) (get_pitch s) (Rmin 1 (vs_phase s')).
Proof.
  unfold update_portamento. cbn [obind]. eexists. split; [reflexivity|]. cbn. split; [repeat split|]. split; [reflexivity|].
  unfold on_the_way. destruct (Rlt_dec _ 1) as [L|L]; [rewrite Rmin_right by lra|rewrite Rmin_left by lra]; lra.
Qed.
(* Whatever the (non-negative) rates of the blocks, the sounding key is always on the way from the source to the note, the fraction
   is the sum of the rates so far (1 at most), and the note itself is untouched. *)
Theorem C189_glide : forall rates s, rates <> [] -> exists s', updates rates s = Ok s' /\ same_note s s' /\
  vs_phase s' = vs_phase s + sumR rates /\ vs_pkey s' = on_the_way (vs_src s) (get_pitch s) (Rmin 1 (vs_phase s + sumR rates)).
Proof.
  induction rates as [|r rs IH]; intros s N; [contradiction|]. clear N. destruct (update_step 1 r false s) as (s1 & E & S1 & P1 & K1).
  cbn [updates]. rewrite E. cbn [obind]. destruct rs as [|r2 rs].
  - exists s1. split; [reflexivity|]. split; [exact S1|]. cbn [sumR fold_right]. rewrite K1, P1. split; [lra|]. do 2 f_equal. lra.
  - destruct (IH s1) as (s2 & E2 & S2 & P2 & K2); [discriminate|]. exists s2. split; [exact E2|]. split; [eapply same_note_trans; eauto|].
    rewrite K2, P2, P1, (same_note_pitch _ _ S1). destruct S1 as (_ & _ & _ & _ & -> & _). cbn [sumR fold_right]. fold (sumR rs).
    split; [lra|]. do 2 f_equal. lra.
Qed.
Lemma sumR_repeat r n : sumR (repeat r n) = INR n * r.
Proof. induction n as [|n IH]; [cbn; lra|]. rewrite S_INR. cbn [repeat sumR fold_right]. fold (sumR (repeat r n)). lra. Qed.
(* A constant rate: linear glide that arrives after 1/rate blocks and stays. *)
Theorem C189_constant_rate : forall s r n, 0 < r -> vs_phase s = 0 -> (0 < n)%nat -> exists s', updates (repeat r n) s = Ok s' /\
  (INR n * r <= 1 -> vs_pkey s' = on_the_way (vs_src s) (get_pitch s) (INR n * r)) /\ (1 <= INR n * r -> vs_pkey s' = get_pitch s).
Proof.
  intros s r n Hr Hp Hn. destruct (C189_glide (repeat r n) s) as (s' & E & _ & _ & K); [destruct n; [lia|discriminate]|].
  exists s'. split; [exact E|]. rewrite sumR_repeat, Hp in K. rewrite K. split; intros H.
  - rewrite Rmin_right by lra. f_equal. lra.
  - rewrite Rmin_left by lra. unfold on_the_way. lra.
Qed.
(* The pitch never overshoots and never turns back: each further block brings it closer to the note. *)
Theorem C189_monotone : forall rates s s1 r s2, rates <> [] -> Forall (fun x => 0 <= x) (r :: rates) -> 0 <= vs_phase s -> updates rates s = Ok s1 ->
  update_portamento (Ok 1) (Ok r) false s1 = Ok s2 ->
  Rmin (vs_src s) (get_pitch s) <= vs_pkey s1 <= Rmax (vs_src s) (get_pitch s) /\ Rabs (get_pitch s - vs_pkey s2) <= Rabs (get_pitch s - vs_pkey s1).
Proof.
  intros rates s s1 r s2 N F P E1 E2. destruct (C189_glide rates s N) as (x & X & S1 & P1 & K1). rewrite E1 in X. injection X as <-.
  assert (Q : 0 <= sumR rates) by (inversion F as [|? ? ? F']; clear - F'; induction F'; cbn; [lra|fold (sumR l); lra]).
  assert (R0 : 0 <= r) by (inversion F; assumption).
  destruct (update_step 1 r false s1) as (y & Y & S2 & P2 & K2). rewrite E2 in Y. injection Y as <-.
  rewrite (same_note_pitch _ _ S1) in K2. destruct S1 as (_ & _ & _ & _ & Z1 & _). rewrite Z1 in K2.
  set (c := Rmin 1 (vs_phase s + sumR rates)) in *. set (d := Rmin 1 (vs_phase s2)) in *.
  assert (C : 0 <= c <= 1) by (unfold c; split; [apply Rmin_glb; lra|apply Rmin_l]).
  assert (D : c <= d <= 1) by (unfold c, d; split; [apply Rle_min_compat_l; lra|apply Rmin_l]).
  rewrite K1, K2. unfold on_the_way. set (a := vs_src s). set (b := get_pitch s). split.
  - destruct (Rle_dec a b) as [L|L]; [rewrite Rmin_left, Rmax_right by lra|rewrite Rmin_right, Rmax_left by lra]; nra.
  - replace (b - (a + d * (b - a))) with ((1 - d) * (b - a)) by ring. replace (b - (a + c * (b - a))) with ((1 - c) * (b - a)) by ring.
    rewrite !Rabs_mult, !(Rabs_pos_eq (1 - _)) by lra. apply Rmult_le_compat_r; [apply Rabs_pos|lra].
Qed.
(* A legato note continues from the key that sounds: wherever the glide is (but not exactly at its end), the new source is the sounding
   key, and the first block of the new glide moves by no more than the rate times the distance. *)
Theorem C189_legato_continuous : forall rates s s1 key vel, rates <> [] -> Forall (fun x => 0 <= x) rates -> 0 <= vs_phase s -> updates rates s = Ok s1 ->
  vs_phase s1 <> 1 -> exists s2, legato key vel s1 = Ok s2 /\ vs_src s2 = vs_pkey s1 /\ vs_phase s2 = 0 /\ vs_key s2 = key /\ vs_lastkey s2 = key /\
    vs_vel s2 = vel /\ vs_fvel s2 = IZR vel / 127 /\
    forall r, 0 <= r <= 1 -> exists s3, update_portamento (Ok 1) (Ok r) false s2 = Ok s3 /\ vs_pkey s3 - vs_pkey s1 = r * (get_pitch s2 - vs_pkey s1).
Proof.
  intros rates s s1 key vel N F P E1 P1. destruct (C189_glide rates s N) as (x & X & S1 & Q1 & K1). rewrite E1 in X. injection X as <-.
  assert (Q : 0 <= sumR rates) by (clear - F; induction F; cbn; [lra|fold (sumR l); lra]).
  assert (L : exists src, (if Rlt_dec 1 (vs_phase s1) then Ok (get_pitch s1) else lerp arithR (vs_phase s1) (vs_src s1) (get_pitch s1)) = (Ok src : res R) /\ src = vs_pkey s1).
  { destruct (Rlt_dec 1 (vs_phase s1)) as [L|L].
    - eexists. split; [reflexivity|]. rewrite K1, <- Q1, Rmin_left by lra. rewrite (same_note_pitch _ _ S1). unfold on_the_way. lra.
    - destruct (C72_lerp_partial (vs_phase s1) (vs_src s1) (get_pitch s1)) as (v & Ev & Vv & _); [lra|]. exists v. split; [exact Ev|].
      rewrite Vv, K1, <- Q1, Rmin_right by lra. rewrite (same_note_pitch _ _ S1). destruct S1 as (_ & _ & _ & _ & -> & _). unfold on_the_way. ring. }
  destruct L as (src & L & ->). unfold legato. rewrite L. cbn [obind]. eexists. split; [reflexivity|]. cbn [vs_src vs_phase vs_key vs_lastkey vs_vel vs_fvel]. do 6 (split; [reflexivity|]).
  intros r Hr. match goal with |- context [update_portamento _ _ _ ?s2] => destruct (update_step 1 r false s2) as (s3 & E3 & _ & P3 & K3) end.
  exists s3. split; [exact E3|]. rewrite K3, P3. cbn [vs_phase vs_src]. unfold on_the_way. rewrite Rmin_right by lra. ring.
Qed.
(* REFUTED: exactly at the end of a glide legato panics; with rate 1/n that is where n blocks lead. *)
Theorem C189_legato_at_end_refuted :
  (forall key vel s, vs_phase s = 1 -> legato key vel s = Panic) /\
  (forall s n, vs_phase s = 0 -> (0 < n)%nat -> exists s1, updates (repeat (/ INR n) n) s = Ok s1 /\ forall key vel, legato key vel s1 = Panic).
Proof.
  assert (A : forall key vel s, vs_phase s = 1 -> legato key vel s = Panic).
  { intros key vel s H. unfold legato. rewrite H. destruct (Rlt_dec 1 1); [lra|]. destruct (C72_lerp_endpoint_refuted) as (_ & _ & Q).
    rewrite Q by lra. reflexivity. }
  split; [exact A|]. intros s n H N. destruct (C189_glide (repeat (/ INR n) n) s) as (s1 & E & _ & P & _); [destruct n; [lia|discriminate]|].
  exists s1. split; [exact E|]. intros key vel. apply A. rewrite P, sumR_repeat, H. field. apply not_0_INR. lia.
Qed.
(* REFUTED as shipped: every glide step panics, tempo-synced or not. *)
Theorem C189_shipped_refuted : forall rate ts s, update_portamento shipped_temposyncratio rate ts s = Panic.
Proof. reflexivity. Qed.
Definition glide0 : vstate := mk_vs 72 0 0 0 60 0 0 0 100 (100 / 127) 60.
Example C189_nonvacuous : exists s', updates (repeat (1 / 4) 2) glide0 = Ok s' /\ vs_pkey s' = 66 /\ vs_phase s' <> 1.
Proof.
  destruct (C189_constant_rate glide0 (1 / 4) 2 ltac:(lra) eq_refl ltac:(lia)) as (s' & E & K & _). exists s'. split; [exact E|].
  destruct (C189_glide (repeat (1 / 4) 2) glide0 ltac:(discriminate)) as (x & X & _ & P & _). rewrite E in X. injection X as <-.
  split; [rewrite K by (cbn; lra); unfold on_the_way, get_pitch; cbn; lra|]. rewrite P. cbn. lra.
Qed.

(** ** C190 where a glide starts *)
(* what a user expects: a note played with portamento at its minimum, or detached in single-trigger fingered mode, sounds at its own pitch at
   once; otherwise it starts at the last key *)
Definition expected_source (p : poly_mode) (at_min : Prop) (own last src : R) : Prop :=
  (at_min \/ p = MonoSTFP -> src = own) /\ (~ at_min -> p <> MonoSTFP -> src = last).
Definition portamento_at_min (x m : R) : Prop := Rabs (x - m) < f32_eps.
(* the source as it is: own pitch only when both hold *)
Theorem C190_source : forall p x m key vel vpb mpb det pk pt last,
  let s := voice_new p x m key vel vpb mpb det pk pt last in
  get_pitch s = IZR key + vpb + det + mpb /\ vs_phase s = 0 /\ vs_lastkey s = key /\ vs_fvel s = IZR vel / 127 /\
  (p = MonoSTFP /\ portamento_at_min x m -> vs_src s = get_pitch s) /\ (~ (p = MonoSTFP /\ portamento_at_min x m) -> vs_src s = IZR last).
Proof.
  intros p x m key vel vpb mpb det pk pt last s. do 4 (split; [reflexivity|]). unfold s, voice_new, init_portasrc, portamento_at_min. cbn [vs_src].
  destruct (Rlt_dec (Rabs (x - m)) f32_eps) as [L|L]; split; intros H.
  - destruct H as [-> _]. reflexivity.
  - destruct p; try reflexivity. exfalso. apply H. auto.
  - lra.
  - destruct p; reflexivity.
Qed.
Theorem C190_source_partial : forall p x m key vel vpb mpb det pk pt last,
  let s := voice_new p x m key vel vpb mpb det pk pt last in
  (p = MonoSTFP <-> portamento_at_min x m) -> expected_source p (portamento_at_min x m) (get_pitch s) (IZR last) (vs_src s).
Proof.
  intros p x m key vel vpb mpb det pk pt last s H. destruct (C190_source p x m key vel vpb mpb det pk pt last) as (_ & _ & _ & _ & A & B). fold s in A, B.
  split; intros; [apply A|apply B]; tauto.
Qed.
(* REFUTED whenever exactly one of the two holds and the last key is another pitch *)
Theorem C190_source_refuted : forall p x m key vel vpb mpb det pk pt last,
  let s := voice_new p x m key vel vpb mpb det pk pt last in
  ~ (p = MonoSTFP <-> portamento_at_min x m) -> IZR last <> get_pitch s -> ~ expected_source p (portamento_at_min x m) (get_pitch s) (IZR last) (vs_src s).
Proof.
  intros p x m key vel vpb mpb det pk pt last s H D [E _]. destruct (C190_source p x m key vel vpb mpb det pk pt last) as (_ & _ & _ & _ & _ & B). fold s in B.
  assert (X : portamento_at_min x m \/ p = MonoSTFP).
  { unfold portamento_at_min in *. destruct (Rlt_dec (Rabs (x - m)) f32_eps); [now left|]. destruct p; try (exfalso; apply H; split; intros; [discriminate|contradiction]). now right. }
  rewrite B in E by tauto. now apply D, E.
Qed.
(* ... and with the shipped minimum (0) that glide takes a whole second: after n blocks of 1/sr * 64 the fraction done is n * 64 / sr. *)
Theorem C190_unwanted_glide_refuted : forall p2 sr p key vel vpb mpb det pk pt last n, 0 < sr -> p2 0 = 1 -> p <> MonoSTFP -> (0 < n)%nat -> INR n * 64 <= sr ->
  exists r s', envelope_rate_linear p2 sr 0 = Ok r /\ updates (repeat r n) (voice_new p 0 0 key vel vpb mpb det pk pt last) = Ok s' /\
    vs_pkey s' = on_the_way (IZR last) (IZR key + vpb + det + mpb) (INR n * 64 / sr).
Proof.
  intros p2 sr p key vel vpb mpb det pk pt last n Hs H2 Hp Hn Hl.
  assert (T : envelope_rate_linear p2 sr 0 = Ok (64 / sr)).
  { pose proof (C85_rate_exact_and_linear p2 sr 0 0 ltac:(lia) ltac:(lra) (fun _ => eq_refl)) as E. cbv zeta in E. replace ((IZR 0 + 0) / 16) with 0 in E by lra.
    rewrite E. f_equal. rewrite Rmult_0_l. replace (IZR 0 / 16) with 0 by lra. rewrite H2. field. lra. }
  exists (64 / sr). destruct (C190_source p 0 0 key vel vpb mpb det pk pt last) as (G & P & _ & _ & _ & B).
  destruct (C189_constant_rate (voice_new p 0 0 key vel vpb mpb det pk pt last) (64 / sr) n) as (s' & E & K & _); [apply Rdiv_lt_0_compat; lra|exact P|exact Hn|].
  exists s'. split; [exact T|]. split; [exact E|]. assert (L : INR n * (64 / sr) <= 1).
  { apply (Rmult_le_reg_r sr); [lra|]. replace (INR n * (64 / sr) * sr) with (INR n * 64) by (field; lra). lra. }
  rewrite (K L), G, B by tauto. f_equal. field. lra.
Qed.
Example C190_nonvacuous : Poly <> MonoSTFP /\ portamento_at_min 0 0 /\ ~ (Poly = MonoSTFP <-> portamento_at_min 0 0).
Proof.
  assert (A : portamento_at_min 0 0) by (unfold portamento_at_min, f32_eps; rewrite Rminus_0_r, Rabs_R0; lra).
  split; [discriminate|]. split; [exact A|]. intros [_ H]. now discriminate (H A).
Qed.

(** ** C191 absolute pitch *)
(* in hertz, for a table value v: 32 * v is the frequency ratio to middle C, 261.626 Hz *)
Definition hz (v : R) : R := v * 261.626 / 32.
Lemma hz_lin : exists c, 0 < c /\ forall v, hz v = c * v.
Proof. exists (261.626 / 32). split; [lra|]. intros. unfold hz. field. Qed.
Definition increasing (g : Z -> R) : Prop := forall i, (0 <= i < 511)%Z -> g i < g (i + 1)%Z.
Lemma increasing_lt g : increasing g -> forall i j, (0 <= i)%Z -> (i < j)%Z -> (j < 512)%Z -> g i < g j.
Proof.
  intros I i j A B C. assert (X : forall n, (i + 1 + Z.of_nat n < 512)%Z -> g i < g (i + 1 + Z.of_nat n)%Z).
  { induction n as [|n IH]; intros H; [replace (i + 1 + Z.of_nat 0)%Z with (i + 1)%Z by lia; apply I; lia|].
    apply (Rlt_trans _ (g (i + 1 + Z.of_nat n)%Z)); [apply IH; lia|]. replace (i + 1 + Z.of_nat (Datatypes.S n))%Z with (i + 1 + Z.of_nat n + 1)%Z by lia. apply I. lia. }
  specialize (X (Z.to_nat (j - i - 1))). replace (i + 1 + Z.of_nat (Z.to_nat (j - i - 1)))%Z with j in X by lia. apply X. lia.
Qed.
Lemma shift_up_spec t g target : full t g -> increasing g -> forall fuel idx, (0 <= idx <= 510)%Z -> (510 - idx < Z.of_nat fuel)%Z -> g idx <= target ->
  exists j, shift_up fuel t target idx (g idx) = Ok j /\ (0 <= j <= 510)%Z /\ g j <= target /\ (target < g (j + 1)%Z \/ j = 510%Z).
Proof.
  intros F I. induction fuel as [|f IH]; intros idx Hi Hf Ht; [lia|]. cbn [shift_up]. destruct (idx <? 510)%Z eqn:E.
  - unfold get_table_pitch. rewrite F by lia. cbn [obind]. destruct (Rle_dec (g idx) target) as [_|]; [|contradiction]. cbn [andb].
    destruct (Rlt_dec target (g (idx + 1)%Z)) as [L|L].
    + exists idx. split; [reflexivity|]. split; [lia|]. split; [exact Ht|now left].
    + apply IH; try lia; try lra.
  - exists idx. split; [reflexivity|]. split; [lia|]. split; [exact Ht|right; lia].
Qed.
Lemma shift_down_spec t g target : full t g -> increasing g -> forall fuel idx, (0 <= idx <= 510)%Z -> (idx < Z.of_nat fuel)%Z -> target <= g idx ->
  exists j, shift_down fuel t target idx (g idx) = Ok j /\ (0 <= j <= 510)%Z /\ target <= g (j + 1)%Z /\ (g j < target \/ j = 0%Z) /\ (j = 0%Z -> target <= g 0%Z \/ g 0%Z < target).
Proof.
  intros F I. induction fuel as [|f IH]; intros idx Hi Hf Ht; [lia|]. cbn [shift_down]. destruct (0 <? idx)%Z eqn:E.
  - unfold get_table_pitch. rewrite F by lia. cbn [obind]. destruct (Rle_dec target (g idx)) as [_|]; [|contradiction]. cbn [andb].
    destruct (Rlt_dec (g (idx - 1)%Z) target) as [L|L].
    + exists (idx - 1)%Z. replace (idx - 1 + 1)%Z with idx by lia. split; [reflexivity|]. split; [lia|]. split; [lra|]. split; [now left|]. intros; lra.
    + apply IH; try lia; try lra.
  - exists idx. assert (idx = 0)%Z as -> by lia. split; [reflexivity|]. split; [lia|]. pose proof (I 0%Z ltac:(lia)). split; [cbn; cbn in H; lra|]. split; [now right|]. intros; lra.
Qed.
Lemma start_index note0 k : IZR k <= note0 < IZR k + 1 -> (-256 <= k <= 254)%Z -> Z.min (as_i32R (note0 + 256)) 510 = (k + 256)%Z.
Proof.
  intros H K. pose proof (IZR_le (-256) k ltac:(lia)). pose proof (IZR_le k 254 ltac:(lia)). unfold as_i32R, truncR.
  destruct (Rle_dec 0 (note0 + 256)); [|lra]. rewrite (int_part_unique (note0 + 256) (k + 256)) by (rewrite plus_IZR; lra). unfold i32_min, i32_max. lia.
Qed.
(* The value looked up at the returned note is the frequency of the note asked for plus the shift in hertz: exactly, wherever that lies in
   the table, for every increasing table. *)
Theorem C191_absolute_hz : forall t g k p (extend : bool), full t g -> increasing g -> (-256 <= k <= 254)%Z ->
  let f := hz (g (k + 256)%Z) + 10 * p * (if extend then 12 else 1)%R in hz (g 0%Z) <= f < hz (g 511%Z) ->
  exists r v : R, note_shift t (IZR k) p true extend = Ok r /\ lookup t r = Ok v /\ hz v = f.
Proof.
  intros t g k p extend F I Hk f Hf. unfold note_shift. rewrite (start_index (IZR k) k) by (try lra; lia).
  unfold get_table_pitch at 1. rewrite F by lia. cbn [obind]. set (fs := 10 * p * (if extend then 12 else 1)) in *.
  set (target := g (k + 256)%Z + fs * 32 / 261.626).
  assert (TF : hz target = f) by (unfold hz, target, f, hz; field; lra).
  destruct hz_lin as (c & C & L). pose proof TF as TF'. rewrite L in TF'. rewrite !L in Hf.
  assert (LO : g 0%Z <= target) by (apply (Rmult_le_reg_l c); lra). assert (HI : target < g 511%Z) by (apply (Rmult_lt_reg_l c); lra). clear L.
  assert (Z0 : exists j, (forall K : Z -> res R, obind (if Rlt_dec 0 fs then shift_up 512 t target (k + 256) (g (k + 256)%Z) else shift_down 512 t target (k + 256) (g (k + 256)%Z)) K = K j) /\ (0 <= j <= 510)%Z /\ g j <= target <= g (j + 1)%Z).
  { destruct (Rlt_dec 0 fs) as [L|L].
    - destruct (shift_up_spec t g target F I 512 (k + 256)) as (j & E & J & G & Q); try lia; [unfold target; lra|]. exists j. split; [intros K; rewrite E; reflexivity|]. split; [exact J|].
      destruct Q as [Q | ->]; [lra|]. change (510 + 1)%Z with 511%Z. lra.
    - destruct (shift_down_spec t g target F I 512 (k + 256)) as (j & E & J & G & Q & _); try lia; [unfold target; lra|]. exists j. split; [intros K; rewrite E; reflexivity|]. split; [exact J|].
      destruct Q as [Q | ->]; lra. }
  destruct Z0 as (j & E & J & B). rewrite E. cbn [obind]. unfold get_table_pitch. rewrite !F by lia. cbn [obind]. pose proof (I j ltac:(lia)) as IJ.
  set (fr := (target - g j) / (g (j + 1)%Z - g j)). assert (D : 0 < g (j + 1)%Z - g j) by lra.
  assert (FR : fr * (g (j + 1)%Z - g j) = target - g j) by (unfold fr; field; lra).
  assert (F0 : 0 <= fr) by (apply (Rmult_le_reg_r (g (j + 1)%Z - g j)); lra). assert (F1 : fr <= 1) by (apply (Rmult_le_reg_r (g (j + 1)%Z - g j)); lra).
  eexists. destruct (Rlt_dec fr 1) as [L|L].
  - exists target. split; [reflexivity|]. split; [|exact TF]. destruct (Z.eq_dec j 511) as [->|]; [lia|].
    rewrite (C83_lookup t g _ (j - 256) F) by (try lia; rewrite minus_IZR; lra). rewrite minus_IZR. replace (j - 256 + 256)%Z with j by lia. replace (j - 256 + 257)%Z with (j + 1)%Z by lia.
    f_equal. replace (IZR j + fr - 256 - (IZR j - 256)) with fr by ring. lra.
  - assert (fr = 1) as E1 by lra. rewrite E1 in *. assert (T1 : target = g (j + 1)%Z) by lra. exists target. split; [reflexivity|]. split; [|exact TF].
    assert (j < 510)%Z by (destruct (Z.eq_dec j 510) as [->|]; [change (510 + 1)%Z with 511%Z in T1; lra|lia]).
    rewrite (C83_lookup t g _ (j - 255) F) by (try lia; rewrite minus_IZR; lra). rewrite minus_IZR. replace (j - 255 + 256)%Z with (j + 1)%Z by lia.
    f_equal. rewrite T1. replace (IZR j + 1 - 256 - (IZR j - 255)) with 0 by ring. ring.
Qed.
(* Relative: semitones, or octaves when extended; never a panic. *)
Theorem C191_relative : forall t note0 p extend, note_shift t note0 p false extend = Ok (note0 + p * (if extend then 12 else 1)).
Proof. reflexivity. Qed.
(* REFUTED for notes between keys: absolute mode ignores the fraction of the note, so bending, gliding or detuning moves the oscillator in
   steps of a semitone ... *)
Theorem C191_fraction_refuted : forall t note0 k p extend, (-256 <= k <= 254)%Z -> IZR k <= note0 < IZR k + 1 ->
  note_shift t note0 p true extend = note_shift t (IZR k) p true extend.
Proof. intros t note0 k p extend K H. unfold note_shift. rewrite (start_index note0 k H K), (start_index (IZR k) k) by (try lra; lia). reflexivity. Qed.
(* ... even with the shift at zero, where the note comes out rounded down *)
Theorem C191_zero_shift_refuted : forall t g note0 k extend, full t g -> increasing g -> (-256 <= k <= 254)%Z -> IZR k <= note0 < IZR k + 1 ->
  note_shift t note0 0 true extend = Ok (IZR k).
Proof.
  intros t g note0 k extend F I K H. rewrite (C191_fraction_refuted t note0 k 0 extend K H). unfold note_shift. rewrite (start_index (IZR k) k) by (try lra; lia).
  unfold get_table_pitch at 1. rewrite F by lia. cbn [obind]. replace (10 * 0 * (if extend then 12 else 1)) with 0 by ring.
  destruct (Rlt_dec 0 0) as [L|_]; [lra|]. replace (g (k + 256)%Z + 0 * 32 / 261.626) with (g (k + 256)%Z) by (field; lra).
  assert (X : forall fuel, shift_down (Datatypes.S fuel) t (g (k + 256)%Z) (k + 256) (g (k + 256)%Z) = Ok (if (0 <? k + 256)%Z then (k + 256 - 1)%Z else (k + 256)%Z)).
  { intros fuel. cbn [shift_down]. destruct (0 <? k + 256)%Z eqn:E; [|reflexivity]. unfold get_table_pitch. rewrite F by lia. cbn [obind].
    pose proof (I (k + 256 - 1)%Z ltac:(lia)) as L. replace (k + 256 - 1 + 1)%Z with (k + 256)%Z in L by lia.
    destruct (Rle_dec (g (k + 256)%Z) (g (k + 256)%Z)) as [_|]; [|lra]. destruct (Rlt_dec (g (k + 256 - 1)%Z) (g (k + 256)%Z)) as [_|]; [|contradiction]. reflexivity. }
  rewrite (X 511%nat). cbn [obind]. unfold get_table_pitch. destruct (0 <? k + 256)%Z eqn:E.
  - rewrite !F by lia. cbn [obind]. replace (k + 256 - 1 + 1)%Z with (k + 256)%Z by lia. pose proof (I (k + 256 - 1)%Z ltac:(lia)) as L. replace (k + 256 - 1 + 1)%Z with (k + 256)%Z in L by lia.
    f_equal. rewrite minus_IZR, plus_IZR. field. lra.
  - rewrite !F by lia. cbn [obind]. pose proof (I (k + 256)%Z ltac:(lia)) as L. f_equal. rewrite plus_IZR. field. lra.
Qed.
(* REFUTED: a note at or below -257 panics in absolute mode *)
Theorem C191_low_note_refuted : forall t note0 p extend, -1000000 < note0 <= -257 -> note_shift t note0 p true extend = Panic.
Proof.
  intros t note0 p extend H. unfold note_shift. assert (A : (as_i32R (note0 + 256) < 0)%Z).
  { unfold as_i32R, truncR. destruct (Rle_dec 0 (note0 + 256)); [lra|]. destruct (base_Int_part (- (note0 + 256))) as [B1 B2].
    assert (0 < Int_part (- (note0 + 256)))%Z by (apply lt_IZR; lra). unfold i32_min, i32_max. lia. }
  unfold get_table_pitch at 1. unfold zget. replace (Z.min (as_i32R (note0 + 256)) 510) with (as_i32R (note0 + 256)) by lia.
  replace (0 <=? as_i32R (note0 + 256))%Z with false by lia. reflexivity.
Qed.
Lemma std_increasing : exists g, full std_table g /\ increasing g /\ g 256%Z = 1.
Proof.
  exists (fun i => exp2R ((IZR i - 256) * (1 / 12))). split; [intros i Hi; unfold std_table; rewrite zget_idxs by lia; reflexivity|].
  split; [|unfold exp2R; replace ((256 - 256) * (1 / 12)) with 0 by lra; apply Rpower_O; lra].
  intros i Hi. unfold exp2R. apply Rpower_lt; [lra|]. rewrite plus_IZR. lra.
Qed.
Example C191_nonvacuous : exists g, full std_table g /\ increasing g /\ hz (g 0%Z) <= hz (g (0 + 256)%Z) + 10 * (1 / 20) * 1 < hz (g 511%Z).
Proof.
  destruct std_increasing as (g & F & I & G). exists g. split; [exact F|]. split; [exact I|]. pose proof (increasing_lt g I 0 256 ltac:(lia) ltac:(lia) ltac:(lia)).
  change (0 + 256)%Z with 256%Z. assert (X : g 511%Z = g 256%Z * Rpower 2 (255 / 12)).
  { pose proof (F 511%Z ltac:(lia)) as F1. pose proof (F 256%Z ltac:(lia)) as F2. unfold std_table in F1, F2. rewrite zget_idxs in F1, F2 by lia. injection F1 as F1. injection F2 as F2.
    rewrite <- F1, <- F2. unfold exp2R. rewrite <- Rpower_plus. f_equal. lra. }
  assert (Y : 2 <= Rpower 2 (255 / 12)) by (rewrite <- (Rpower_1 2) at 1 by lra; apply Rle_Rpower; lra).
  rewrite X, G. unfold hz. lra.
Qed.

(** ** C192 pitch of a voice and of its oscillators, key tracking, cutoff *)
Theorem C192_pitch : forall bend osize pitch oct ext pkey,
  calc_pitch bend osize pitch oct ext pkey = pkey + bend + (if ext then 12 * pitch else pitch) + oct * osize.
Proof. intros. unfold calc_pitch. destruct ext; ring. Qed.
(* transposing the key transposes the pitch by as much; an octave switch is twelve keys in standard tuning and one period of the scale otherwise *)
Theorem C192_transpose : forall bend osize pitch oct ext pkey d,
  calc_pitch bend osize pitch oct ext (pkey + d) = calc_pitch bend osize pitch oct ext pkey + d /\
  calc_pitch bend osize pitch (oct + 1) ext pkey = calc_pitch bend osize pitch oct ext pkey + osize.
Proof. intros. unfold calc_pitch. split; ring. Qed.
Theorem C192_octave : forall t, (tu_std t = true -> octave_size t = Ok 12) /\
  (tu_std t = false -> (0 <= sc_count (tu_scale t) <= 127)%Z -> octave_size t = Ok (IZR (sc_count (tu_scale t)))) /\
  (tu_std t = false -> (127 < sc_count (tu_scale t))%Z -> octave_size t = Panic).
Proof.
  intros t. unfold octave_size, current_scale_count. split; [now intros ->|]. split; intros -> H.
  - change 127%Z with (Z.ones 7) at 1. rewrite Z.land_ones by lia. rewrite Z.mod_small by (cbn; lia). rewrite Z.eqb_refl. reflexivity.
  - change 127%Z with (Z.ones 7) at 1. rewrite Z.land_ones by lia. destruct (_ =? _)%Z eqn:E; [|reflexivity].
    pose proof (Z.mod_pos_bound (sc_count (tu_scale t)) (2 ^ 7) ltac:(lia)). change (2 ^ 7)%Z with 128%Z in *. lia.
Qed.
(* pitch bend: the full range each way, and monotone *)
Theorem C192_bend : forall up down, 0 <= up -> 0 <= down ->
  get_pitchbend up down (Ok 1) = Ok up /\ get_pitchbend up down (Ok (-1)) = Ok (- down) /\ get_pitchbend up down (Ok 0) = Ok 0 /\
  forall p q, p <= q -> exists a b, get_pitchbend up down (Ok p) = Ok a /\ get_pitchbend up down (Ok q) = Ok b /\ a <= b.
Proof.
  intros up down U D. unfold get_pitchbend. cbn [obind]. destruct (Rlt_dec 0 1); [|lra]. destruct (Rlt_dec 0 (-1)); [lra|]. destruct (Rlt_dec 0 0); [lra|].
  split; [f_equal; ring|]. split; [f_equal; ring|]. split; [f_equal; ring|]. intros p q H. eexists. eexists. split; [reflexivity|]. split; [reflexivity|].
  destruct (Rlt_dec 0 p), (Rlt_dec 0 q); nra.
Qed.
(* REFUTED as shipped: create_voice_modsources makes no pitch-bend source, so asking it panics (get_output of None) *)
Theorem C192_bend_shipped_refuted : forall up down, get_pitchbend up down Panic = Panic.
Proof. reflexivity. Qed.
(* key tracking counts octaves from its root while the voice plays ... *)
Theorem C192_keytrack : forall pitch root, keytrack_running root root = 0 /\ keytrack_running (pitch + 12) root = keytrack_running pitch root + 1.
Proof. intros. unfold keytrack_running. split; lra. Qed.
(* ... REFUTED: but at note-on and at every switch change it is the pitch minus a twelfth of the root, which agrees only at pitch zero *)
Theorem C192_keytrack_toggled_refuted : forall pitch root, keytrack_toggled pitch root = keytrack_running pitch root <-> pitch = 0.
Proof. intros. unfold keytrack_running, keytrack_toggled. lra. Qed.
(* oscillators follow the keyboard, each with its own octave and pitch ... *)
Theorem C192_oscillators : forall t kt vp os oct pit ab ext n, kt 2%nat = true -> ab n = false ->
  osc_pitches t kt vp os oct pit ab ext n = Ok (vp + os * oct n + pit n * (if ext n then 12 else 1)).
Proof. intros t kt vp os oct pit ab ext n K A. unfold osc_pitches, osc_pitch, note_shift. rewrite K, A. reflexivity. Qed.
(* ... REFUTED: but whether oscillator 1 or 2 follows it is decided by oscillator 3's switch *)
Theorem C192_keytrack_switch_refuted : forall t kt kt' vp os oct pit ab ext n, kt 2%nat = kt' 2%nat ->
  osc_pitches t kt vp os oct pit ab ext n = osc_pitches t kt' vp os oct pit ab ext n.
Proof. intros t kt kt' vp os oct pit ab ext n K. unfold osc_pitches. now rewrite K. Qed.
Theorem C192_keytrack_off : forall t kt vp vp' os oct pit ab ext n, kt 2%nat = false ->
  osc_pitches t kt vp os oct pit ab ext n = osc_pitches t kt vp' os oct pit ab ext n.
Proof. intros t kt vp vp' os oct pit ab ext n K. unfold osc_pitches, osc_pitch. now rewrite K. Qed.
(* cutoffs: key track and envelope amounts are slopes; in offset mode filter 2 keeps its distance from filter 1 *)
Theorem C192_cutoff : forall vp root fe cut kt em off, let '(a, b) := cutoff_pair vp root fe cut kt em off in
  (cutoff_pair root root 0 cut kt em false = cut) /\
  (forall d, fst (cutoff_pair (vp + d) root fe cut kt em off) = a + d * fst kt) /\ (forall d, fst (cutoff_pair vp root (fe + d) cut kt em off) = a + d * fst em) /\
  (off = false -> forall d, snd (cutoff_pair vp root fe (fst cut + d, snd cut) kt em off) = b) /\ (off = true -> forall d, snd (cutoff_pair vp root fe (fst cut + d, snd cut) kt em off) = b + d).
Proof.
  intros vp root fe cut kt em off. unfold cutoff_pair, cutoff1. cbn [fst snd].
  split; [destruct cut; cbn; f_equal; ring|]. split; [intros; ring|]. split; [intros; ring|]. split; intros ->; intros; ring.
Qed.
Example C192_nonvacuous : calc_pitch 2 12 (1 / 2) (-1) true 60 = 56 /\ keytrack_toggled 60 60 = 55 /\ keytrack_running 60 60 = 0.
Proof. unfold calc_pitch, keytrack_toggled, keytrack_running. repeat split; lra. Qed.
Print Assumptions C189_legato_continuous. Print Assumptions C191_absolute_hz. Print Assumptions C192_cutoff.
