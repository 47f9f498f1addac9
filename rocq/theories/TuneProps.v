(* TuneProps.v - C34 Scala readers, C35 retuning, C82 keyboard mapping, C83 pitch lookup. *)
From Coq Require Import Reals Lra.
From Verif Require Import Base Util F32 BlockModel LagProps FastProps TuneModel.
Local Open Scope Z_scope.

(** ** specification *)
(* The tuning of a scale with n tones, in octaves above the scale's start: degree 0 is the start, degrees 1..n are the
   listed tones (in cents / 1200), every further n degrees add the last tone (the period) once more. *)
Definition degree (tones : list R) (k : Z) : R :=
  let n := Z.of_nat (length tones) in
  let r := k mod n in
  ((if r =? 0 then 0 else nth (Z.to_nat (r - 1)) tones 0) + IZR (k / n) * nth (Z.to_nat (n - 1)) tones 0)%R.
Definition period (tones : list R) : R := nth (Z.to_nat (Z.of_nat (length tones) - 1)) tones 0%R.
(* a scale of these tones (in octaves), as the fields of the program's type *)
Definition is_scale (s : scale) (tones : list R) : Prop :=
  tones <> [] /\ sc_count s = Z.of_nat (length tones) /\ map (fun t => tn_val t) (sc_tones s) = map (fun x => (x + 1)%R) tones.
Definition entry (t : tuner) (key : Z) : res R := zget (tu_table t) (key + 256).

Arguments degree _ _%Z.

(** ** arithmetic *)
Lemma degree_shift tones k : tones <> [] -> degree tones (k + Z.of_nat (length tones)) = (degree tones k + period tones)%R.
Proof.
  intros Hn. unfold degree, period. set (n := Z.of_nat (length tones)). assert (0 < n) by (destruct tones; [congruence|subst n; cbn [length]; lia]).
  replace ((k + n) mod n) with (k mod n) by (rewrite <- (Z_mod_plus_full k 1 n); f_equal; lia).
  replace ((k + n) / n) with (k / n + 1) by (rewrite <- (Z_div_plus_full k 1 n) by lia; f_equal; lia).
  rewrite plus_IZR. ring.
Qed.
Lemma degree_shifts tones k j : tones <> [] -> degree tones (k + j * Z.of_nat (length tones)) = (degree tones k + IZR j * period tones)%R.
Proof.
  intros Hn. unfold degree, period. set (n := Z.of_nat (length tones)). assert (0 < n) by (destruct tones; [congruence|subst n; cbn [length]; lia]).
  rewrite Z_mod_plus_full, Z_div_plus_full by lia. rewrite plus_IZR. ring.
Qed.
Lemma degree_small tones k : tones <> [] -> 1 <= k <= Z.of_nat (length tones) -> degree tones k = nth (Z.to_nat (k - 1)) tones 0%R.
Proof.
  intros Hn Hk. set (n := Z.of_nat (length tones)) in *. destruct (Z.eq_dec k n) as [->|N].
  - pose proof (degree_shift tones 0 Hn) as DS. fold n in DS. rewrite Z.add_0_l in DS. rewrite DS. unfold degree. fold n. rewrite Z.mod_0_l, Z.div_0_l by lia. cbn [Z.eqb]. unfold period. fold n. ring.
  - unfold degree. fold n. rewrite Z.mod_small, Z.div_small by lia. replace (k =? 0) with false by lia. ring.
Qed.
Lemma degree_0 tones : tones <> [] -> degree tones 0 = 0%R.
Proof. intros Hn. unfold degree. rewrite Z.mod_0_l, Z.div_0_l by (destruct tones; [congruence|cbn [length]; lia]). cbn. ring. Qed.

Lemma scale_len s tones : is_scale s tones -> length (sc_tones s) = length tones.
Proof. intros (_ & _ & E). apply (f_equal (@length R)) in E. rewrite !map_length in E. exact E. Qed.
Lemma scale_tone s tones i : is_scale s tones -> 0 <= i < Z.of_nat (length tones) -> tone_val s i = Ok (nth (Z.to_nat i) tones 0 + 1)%R.
Proof.
  intros H Hi. pose proof (scale_len s tones H) as L. destruct H as (_ & _ & E). unfold tone_val, zget. replace (0 <=? i) with true by lia.
  destruct (nth_error (sc_tones s) (Z.to_nat i)) as [t|] eqn:En; [|apply nth_error_None in En; lia]. cbn [obind]. f_equal.
  pose proof (map_nth_error (fun t => tn_val t) _ _ En) as M. rewrite E in M.
  rewrite nth_error_map in M. rewrite (nth_error_nth' tones 0%R) in M by lia. cbn in M. injection M as M. symmetry. exact M.
Qed.
Lemma floor_fix a n : 0 < n -> (let (r', q') := if Z.rem a n <? 0 then (Z.quot a n - 1, Z.rem a n + n) else (Z.quot a n, Z.rem a n) in (r', q')) = (a / n, a mod n).
Proof.
  intros Hn. pose proof (Z.quot_rem' a n) as E. pose proof (Z.rem_bound_abs a n ltac:(lia)) as A.
  rewrite (Z.abs_eq n) in A by lia. assert (HB : - n < Z.rem a n < n) by lia. clear A.
  set (q := Z.quot a n) in *. set (r := Z.rem a n) in *. clearbody q r. destruct (r <? 0) eqn:B.
  - f_equal; [apply (Z.div_unique _ _ _ (r + n)); lia|apply (Z.mod_unique _ _ (q - 1)); lia].
  - f_equal; [apply (Z.div_unique _ _ _ r); lia|apply (Z.mod_unique _ _ q); lia].
Qed.
(* the code's pitch of scale position a+1: tone (a mod n) plus (a/n) periods, plus 1 *)
Lemma degree_of_prev s tones a : is_scale s tones ->
  obind (tone_val s (a mod Z.of_nat (length tones))) (fun v => Ok (v + IZR (a / Z.of_nat (length tones)) * period tones)%R) = Ok (degree tones (a + 1) + 1)%R.
Proof.
  intros H. pose proof H as (Hn & _). set (n := Z.of_nat (length tones)). assert (0 < n) by (destruct tones; [congruence|subst n; cbn [length]; lia]).
  pose proof (Z.mod_pos_bound a n ltac:(lia)) as Hm. rewrite (scale_tone s tones _ H) by (fold n; lia). cbn [obind]. f_equal.
  replace (a + 1) with ((a mod n + 1) + (a / n) * n) by (pose proof (Z.div_mod a n); lia).
  pose proof (degree_shifts tones (a mod n + 1) (a / n) Hn) as D. fold n in D. rewrite D. rewrite (degree_small tones (a mod n + 1)) by (fold n; lia || exact Hn).
  replace (a mod n + 1 - 1) with (a mod n) by lia. ring.
Qed.

(** ** the offset of the reference key *)
Lemma wind_up_ok n dt : 0 < n -> forall fuel p t, (Z.abs p < Z.of_nat fuel) ->
  exists k, wind_up fuel n dt p t = (p + k * n, (t + IZR k * dt)%R) /\ 0 <= p + k * n /\ (0 <= p -> k = 0) /\ (p < 0 -> p + k * n < n).
Proof.
  intros Hn. induction fuel as [|fuel IH]; intros p t Hf; [lia|]. cbn [wind_up]. destruct (p <? 0) eqn:B.
  - destruct (Z.le_gt_cases 0 (p + n)) as [C|C].
    + exists 1. assert (W : wind_up fuel n dt (p + n) (t + dt)%R = (p + n, (t + dt)%R)) by (destruct fuel; cbn [wind_up]; [reflexivity|]; replace (p + n <? 0) with false by lia; reflexivity).
      rewrite W. split; [f_equal; [lia|ring]|]. lia.
    + destruct (IH (p + n) (t + dt)%R ltac:(lia)) as (k & E & H1 & H2 & H3). exists (k + 1). rewrite E. split; [f_equal; [lia|rewrite plus_IZR; ring]|]. lia.
  - exists 0. split; [f_equal; [lia|ring]|]. lia.
Qed.
Lemma wind_down_ok n dt : 0 < n -> forall fuel p t, p <= n \/ Z.abs p < Z.of_nat fuel -> 0 <= p ->
  exists k, wind_down fuel n dt p t = (p - k * n, (t - IZR k * dt)%R) /\ 0 <= p - k * n <= n.
Proof.
  intros Hn. induction fuel as [|fuel IH]; intros p t Hf Hp.
  - cbn [wind_down]. exists 0. split; [f_equal; [lia|ring]|lia].
  - cbn [wind_down]. destruct (n <? p) eqn:B.
    + destruct (IH (p - n) (t - dt)%R ltac:(lia) ltac:(lia)) as (k & E & H1). exists (k + 1). rewrite E. split; [f_equal; [lia|rewrite plus_IZR; ring]|]. lia.
    + exists 0. split; [f_equal; [lia|ring]|]. lia.
Qed.
Lemma center_offset_ok s tones pos : is_scale s tones -> center_offset s pos = Ok (degree tones pos).
Proof.
  intros H. pose proof H as (Hn & Hc & _). unfold center_offset. set (n := Z.of_nat (length tones)) in *. assert (0 < n) by (destruct tones; [congruence|subst n; cbn [length]; lia]).
  destruct (pos =? 0) eqn:B; [apply Z.eqb_eq in B; subst pos; rewrite degree_0 by exact Hn; reflexivity|].
  rewrite Hc, (scale_tone s tones) by (fold n; lia || exact H). cbn [obind]. set (dt := (_ - 1)%R). assert (Edt : dt = period tones) by (unfold dt, period; fold n; ring).
  destruct (wind_up_ok n dt ltac:(lia) (S (Z.to_nat (Z.abs pos))) pos 0%R ltac:(lia)) as (k & E1 & P1 & P2 & P3). rewrite E1.
  destruct (wind_down_ok n dt ltac:(lia) (S (Z.to_nat (Z.abs pos))) (pos + k * n) (0 + IZR k * dt)%R) as (j & E2 & Q1); [destruct (Z.le_gt_cases 0 pos); [rewrite (P2 ltac:(lia)); lia|lia]|lia|].
  rewrite E2. set (p2 := pos + k * n - j * n) in *.
  assert (D : degree tones pos = (degree tones p2 - (IZR k - IZR j) * dt)%R).
  { replace p2 with (pos + (k - j) * n) by lia. pose proof (degree_shifts tones pos (k - j) Hn) as DS. fold n in DS. rewrite DS, minus_IZR, Edt. ring. }
  rewrite D. destruct (p2 =? 0) eqn:B2.
  - apply Z.eqb_eq in B2. rewrite B2, degree_0 by exact Hn. f_equal. ring.
  - rewrite (scale_tone s tones) by (fold n; lia || exact H). cbn [obind]. f_equal. rewrite (degree_small tones p2) by (fold n; lia || exact Hn). ring.
Qed.

(** ** one key *)
(* the degree a key plays: linear mapping - its distance from the middle note; keyed mapping - per group of `count` keys *)
Definition linear_map (m : mapping) : Prop := km_count m = 0 \/ m = mapping_default.
Definition keyed_map (m : mapping) : Prop :=
  km_standard m = false /\ 0 < km_count m /\ Z.of_nat (length (km_keys m)) = km_count m /\ 0 <= km_ref m - km_middle m < km_count m.
Definition keyed_degree (m : mapping) (d : Z) : option Z :=
  let cm := nth (Z.to_nat (d mod km_count m)) (km_keys m) 0 in
  if cm <? 0 then None else Some (cm + km_count m * (d / km_count m)).

Lemma key_degree_linear m n d : linear_map m -> 0 < n -> key_degree m n d = Ok (Some ((d - 1) / n, (d - 1) mod n)).
Proof.
  intros Hm Hn. unfold key_degree. assert (E : km_standard m || (km_count m =? 0) = true) by (destruct Hm as [-> | ->]; [rewrite Z.eqb_refl, orb_true_r; reflexivity|reflexivity]).
  rewrite E. cbn [obind]. pose proof (floor_fix (d - 1) n Hn) as F. destruct (Z.rem (d - 1) n <? 0); injection F as F1 F2; rewrite F1, F2; reflexivity.
Qed.
Lemma rem_fix d c : 0 < c -> (if Z.rem d c <? 0 then Z.rem d c + c else Z.rem d c) = d mod c.
Proof. intros Hc. pose proof (floor_fix d c Hc) as F. destruct (Z.rem d c <? 0); injection F as _ F2; exact F2. Qed.
Lemma key_degree_keyed m n d : keyed_map m -> 0 < n ->
  key_degree m n d = Ok (match keyed_degree m d with None => None | Some k => Some ((k - 1) / n, (k - 1) mod n) end).
Proof.
  intros (Hs & Hc & Hl & _) Hn. unfold key_degree. rewrite Hs. replace (km_count m =? 0) with false by lia. cbn [orb].
  cbv zeta. rewrite (rem_fix d (km_count m) Hc). pose proof (Z.mod_pos_bound d (km_count m) Hc) as M. unfold zget. replace (0 <=? d mod km_count m) with true by lia.
  rewrite (nth_error_nth' (km_keys m) 0) by lia. cbn [obind]. unfold keyed_degree. set (cm := nth _ _ _). destruct (cm <? 0) eqn:B.
  - destruct (Z.rem _ n <? 0); reflexivity.
  - set (k := cm + km_count m * (d / km_count m)). replace (d - (d mod km_count m - cm) - 1) with (k - 1) by (unfold k; pose proof (Z.div_mod d (km_count m)); lia).
    pose proof (floor_fix (k - 1) n Hn) as F. destruct (Z.rem (k - 1) n <? 0); injection F as F1 F2; rewrite F1, F2; reflexivity.
Qed.
Lemma key_pitch_some s tones m off idx k : is_scale s tones -> idx <> 256 + km_ref m ->
  key_degree m (sc_count s) (idx - (256 + km_middle m)) = Ok (Some ((k - 1) / Z.of_nat (length tones), (k - 1) mod Z.of_nat (length tones))) ->
  key_pitch s m off idx = Ok (degree tones k + 1 - off)%R.
Proof.
  intros H Hi E. pose proof H as (Hn & Hc & _). unfold key_pitch. replace (idx =? 256 + km_ref m) with false by lia. rewrite E. cbn [obind].
  set (n := Z.of_nat (length tones)) in *. assert (0 < n) by (destruct tones; [congruence|subst n; cbn [length]; lia]).
  rewrite Hc, (scale_tone s tones (n - 1) H) by (fold n; lia). cbn [obind].
  pose proof (degree_of_prev s tones (k - 1) H) as P. fold n in P. replace (k - 1 + 1) with k in P by lia.
  destruct (tone_val s ((k - 1) mod n)) as [v| |]; cbn [obind] in *; try discriminate. injection P as P. f_equal.
  rewrite <- P. unfold period. fold n. ring.
Qed.

(** ** the table *)
Lemma mapM_ok {X Y} (f : X -> res Y) (g : X -> Y) l : (forall x, In x l -> f x = Ok (g x)) -> mapM f l = Ok (map g l).
Proof. induction l as [|x l IH]; intros H; [reflexivity|]. cbn [mapM map]. rewrite (H x) by (left; reflexivity). cbn [obind]. rewrite IH by (intros; apply H; now right). reflexivity. Qed.
Lemma in_idxs i : In i idxs <-> 0 <= i < 512.
Proof.
  unfold idxs. rewrite in_map_iff. split.
  - intros (k & <- & Hk). apply in_seq in Hk. lia.
  - intros H. exists (Z.to_nat i). split; [lia|]. apply in_seq. lia.
Qed.
Lemma zget_idxs {X} (g : Z -> X) i : 0 <= i < 512 -> zget (map g idxs) i = Ok (g i).
Proof.
  intros H. unfold zget. replace (0 <=? i) with true by lia. unfold idxs. rewrite map_map, nth_error_map.
  rewrite (nth_error_nth' (seq 0 512) 0%nat) by (rewrite seq_length; lia). rewrite seq_nth by lia. cbn. do 2 f_equal. lia.
Qed.
Lemma exp2_log2 p x : (0 < p)%R -> exp2R (x + 1 + (log2R p - 1)) = (p * Rpower 2 x)%R.
Proof.
  intros Hp. unfold exp2R, log2R. replace (x + 1 + (ln p / ln 2 - 1))%R with (ln p / ln 2 + x)%R by ring. rewrite Rpower_plus. f_equal.
  unfold Rpower. rewrite <- (exp_ln p Hp) at 2. f_equal. field. pose proof ln_lt_2. lra.
Qed.

Definition good_ref (m : mapping) : Prop := -256 <= km_ref m < 256.
Lemma retune_general t s tones pos (g : Z -> R) : is_scale s tones -> (0 < tu_pitch t)%R -> good_ref (tu_map t) ->
  (if 0 <? km_count (tu_map t) then zget (km_keys (tu_map t)) (km_ref (tu_map t) - km_middle (tu_map t)) else Ok (km_ref (tu_map t) - km_middle (tu_map t))) = Ok pos ->
  (forall i, 0 <= i < 512 -> i <> 256 + km_ref (tu_map t) -> key_pitch s (tu_map t) (degree tones pos) i = Ok (g i + 1)%R) ->
  exists t', retune_to_scale t s = Ok (true, t') /\ tu_scale t' = s /\ tu_std t' = false /\ tu_pitch t' = tu_pitch t /\ tu_map t' = tu_map t
    /\ (forall key, -256 <= key < 256 -> entry t' key = Ok (tu_pitch t * Rpower 2 (if (key =? km_ref (tu_map t))%Z then 0 else g (key + 256)%Z))%R)
    /\ (forall key, -256 <= key < 256 -> zget (tu_inv t') (key + 256) = Ok (1 / (tu_pitch t * Rpower 2 (if (key =? km_ref (tu_map t))%Z then 0 else g (key + 256)%Z)))%R).
Proof.
  intros H Hp Hr Hpos Hk. pose proof H as (Hn & Hc & _). unfold retune_to_scale, scale_valid. cbv zeta.
  assert (0 < Z.of_nat (length tones)) by (destruct tones; [congruence|cbn [length]; lia]).
  rewrite Hc. replace (Z.of_nat (length tones) =? 0) with false by lia. cbn [negb].
  match goal with |- context [obind (if 0 <? km_count (tu_map t) then ?x else ?y) ?k] => replace (obind (if 0 <? km_count (tu_map t) then x else y) k) with (obind (Ok pos : res Z) k) by (f_equal; symmetry; exact Hpos) end. cbn [obind]. rewrite (center_offset_ok s tones pos H). cbn [obind].
  unfold good_ref in Hr. replace ((0 <=? 256 + km_ref (tu_map t)) && (256 + km_ref (tu_map t) <? 512)) with true by lia. cbn [negb].
  set (g' := fun i => ((if (i =? 256 + km_ref (tu_map t))%Z then 0 else g i) + 1)%R).
  rewrite (mapM_ok _ g').
  2: { intros i Hi. apply in_idxs in Hi. unfold g'. destruct (i =? 256 + km_ref (tu_map t)) eqn:B.
       - unfold key_pitch. rewrite B. f_equal. ring.
       - apply Hk; lia. }
  cbn [obind]. eexists. split; [reflexivity|]. cbn [tu_scale tu_std tu_pitch tu_map]. repeat (split; [reflexivity|]). unfold entry. cbn [tu_table tu_inv].
  rewrite !map_map.
  assert (G : forall key, -256 <= key < 256 -> exp2R (g' (key + 256) + (log2R (tu_pitch t) - 1)) = (tu_pitch t * Rpower 2 (if (key =? km_ref (tu_map t))%Z then 0 else g (key + 256)%Z))%R).
  { intros key Hkey. unfold g'. replace (key + 256 =? 256 + km_ref (tu_map t)) with (key =? km_ref (tu_map t)) by lia. apply exp2_log2. exact Hp. }
  split; intros key Hkey.
  - rewrite zget_idxs by lia. f_equal. apply G. exact Hkey.
  - rewrite zget_idxs by lia. do 2 f_equal. apply G. exact Hkey.
Qed.

(** ** C35 *)
(* Linear mapping (the default one, and every mapping of size 0): the frequency ratio of every key to the reference key is
   exactly the scale's, in both directions from the middle note, and the reference key has the reference pitch. *)
Theorem C35_retune_linear : forall t s tones, is_scale s tones -> (0 < tu_pitch t)%R -> linear_map (tu_map t) -> good_ref (tu_map t) ->
  exists t', retune_to_scale t s = Ok (true, t') /\
    forall key, -256 <= key < 256 ->
      entry t' key = Ok (tu_pitch t * Rpower 2 (degree tones (key - km_middle (tu_map t)) - degree tones (km_ref (tu_map t) - km_middle (tu_map t))))%R.
Proof.
  intros t s tones H Hp Hm Hr. pose proof H as (Hn & Hc & _). set (m := tu_map t) in *.
  assert (0 < Z.of_nat (length tones)) by (destruct tones; [congruence|cbn [length]; lia]).
  destruct (retune_general t s tones (km_ref m - km_middle m) (fun i => (degree tones (i - 256 - km_middle m) - degree tones (km_ref m - km_middle m))%R) H Hp Hr) as (t' & E & _ & _ & _ & _ & T & _).
  - fold m. destruct Hm as [-> | ->]; reflexivity.
  - fold m. intros i Hi Hne. rewrite (key_pitch_some s tones m _ i (i - (256 + km_middle m)) H Hne); [|rewrite Hc; apply key_degree_linear; assumption].
    f_equal. replace (i - (256 + km_middle m)) with (i - 256 - km_middle m) by lia. ring.
  - exists t'. split; [exact E|]. intros key Hk. rewrite T by exact Hk. fold m. do 2 f_equal. f_equal. destruct (key =? km_ref m) eqn:B.
    + apply Z.eqb_eq in B. subst key. ring.
    + replace (key + 256 - 256 - km_middle m) with (key - km_middle m) by lia. reflexivity.
Qed.
(* consequences in the words of the property *)
Theorem C35_period : forall t s tones t', is_scale s tones -> (0 < tu_pitch t)%R -> linear_map (tu_map t) -> good_ref (tu_map t) ->
  retune_to_scale t s = Ok (true, t') ->
  (forall key, -256 <= key -> key + Z.of_nat (length tones) < 256 ->
     exists x, entry t' key = Ok x /\ (0 < x)%R /\ entry t' (key + Z.of_nat (length tones)) = Ok (x * Rpower 2 (period tones))%R)
  /\ entry t' (km_ref (tu_map t)) = Ok (tu_pitch t).
Proof.
  intros t s tones t' H Hp Hm Hr E. pose proof H as (Hn & _). destruct (C35_retune_linear t s tones H Hp Hm Hr) as (t2 & E2 & T). rewrite E in E2. injection E2 as <-.
  split.
  - intros key H1 H2. eexists. split; [apply T; lia|]. split; [apply Rmult_lt_0_compat; [exact Hp|unfold Rpower; apply exp_pos]|].
    rewrite T by lia. f_equal. rewrite Rmult_assoc, <- Rpower_plus. do 2 f_equal.
    replace (key + Z.of_nat (length tones) - km_middle (tu_map t)) with (key - km_middle (tu_map t) + Z.of_nat (length tones)) by lia.
    rewrite degree_shift by exact Hn. ring.
  - unfold good_ref in Hr. rewrite T by lia. f_equal. replace (_ - _)%R with 0%R by ring. rewrite Rpower_O by lra. ring.
Qed.
(* Keyed mappings: keys are taken per group of `count`; mapped keys have the exact ratio of their assigned degree. *)
Theorem C35_retune_keyed : forall t s tones k0, is_scale s tones -> (0 < tu_pitch t)%R -> keyed_map (tu_map t) -> good_ref (tu_map t) ->
  keyed_degree (tu_map t) (km_ref (tu_map t) - km_middle (tu_map t)) = Some k0 ->
  exists t', retune_to_scale t s = Ok (true, t') /\
    forall key, -256 <= key < 256 -> forall k, keyed_degree (tu_map t) (key - km_middle (tu_map t)) = Some k ->
      entry t' key = Ok (tu_pitch t * Rpower 2 (degree tones k - degree tones k0))%R.
Proof.
  intros t s tones k0 H Hp Hm Hr Hk0. pose proof H as (Hn & Hc & _). set (m := tu_map t) in *. pose proof Hm as (Hs & Hcnt & Hl & Hrange).
  assert (0 < Z.of_nat (length tones)) by (destruct tones; [congruence|cbn [length]; lia]).
  assert (K0 : zget (km_keys m) (km_ref m - km_middle m) = Ok k0).
  { unfold keyed_degree in Hk0. rewrite Z.mod_small, Z.div_small in Hk0 by lia. destruct (_ <? 0) in Hk0; [discriminate|]. injection Hk0 as <-.
    unfold zget. replace (0 <=? km_ref m - km_middle m) with true by lia. rewrite (nth_error_nth' (km_keys m) 0) by lia. f_equal. lia. }
  destruct (retune_general t s tones k0 (fun i => match keyed_degree m (i - 256 - km_middle m) with Some k => (degree tones k - degree tones k0)%R | None => (-1)%R end) H Hp Hr) as (t' & E & _ & _ & _ & _ & T & _).
  - fold m. replace (0 <? km_count m) with true by lia. exact K0.
  - fold m. intros i Hi Hne. replace (i - 256 - km_middle m) with (i - (256 + km_middle m)) by lia.
    pose proof (key_degree_keyed m (sc_count s) (i - (256 + km_middle m)) Hm ltac:(lia)) as KD.
    destruct (keyed_degree m (i - (256 + km_middle m))) as [k|] eqn:Ek.
    + rewrite (key_pitch_some s tones m _ i k H Hne); [|rewrite KD, Hc; reflexivity]. f_equal. ring.
    + unfold key_pitch. replace (i =? 256 + km_ref m) with false by lia. rewrite KD. cbn [obind]. rewrite Hc, (scale_tone s tones) by (lia || exact H). cbn [obind]. f_equal. ring.
  - exists t'. split; [exact E|]. intros key Hk k Ek. rewrite T by exact Hk. fold m. do 2 f_equal. f_equal. destruct (key =? km_ref m) eqn:B.
    + apply Z.eqb_eq in B. subst key. rewrite Hk0 in Ek. injection Ek as <-. ring.
    + replace (key + 256 - 256 - km_middle m) with (key - km_middle m) by lia. rewrite Ek. reflexivity.
Qed.
(* ... and unmapped keys are not silent: they sound one octave below the reference. *)
Theorem C35_unmapped_sound_refuted : forall t s tones k0 key, is_scale s tones -> (0 < tu_pitch t)%R -> keyed_map (tu_map t) -> good_ref (tu_map t) ->
  keyed_degree (tu_map t) (km_ref (tu_map t) - km_middle (tu_map t)) = Some k0 -> -256 <= key < 256 ->
  keyed_degree (tu_map t) (key - km_middle (tu_map t)) = None ->
  exists t', retune_to_scale t s = Ok (true, t') /\ entry t' key = Ok (tu_pitch t / 2)%R.
Proof.
  intros t s tones k0 key H Hp Hm Hr Hk0 Hkey HN. pose proof H as (Hn & Hc & _). set (m := tu_map t) in *. pose proof Hm as (Hs & Hcnt & Hl & Hrange).
  assert (0 < Z.of_nat (length tones)) by (destruct tones; [congruence|cbn [length]; lia]).
  assert (K0 : zget (km_keys m) (km_ref m - km_middle m) = Ok k0).
  { unfold keyed_degree in Hk0. rewrite Z.mod_small, Z.div_small in Hk0 by lia. destruct (_ <? 0) in Hk0; [discriminate|]. injection Hk0 as <-.
    unfold zget. replace (0 <=? km_ref m - km_middle m) with true by lia. rewrite (nth_error_nth' (km_keys m) 0) by lia. f_equal. lia. }
  destruct (retune_general t s tones k0 (fun i => match keyed_degree m (i - 256 - km_middle m) with Some k => (degree tones k - degree tones k0)%R | None => (-1)%R end) H Hp Hr) as (t' & E & _ & _ & _ & _ & T & _).
  - fold m. replace (0 <? km_count m) with true by lia. exact K0.
  - fold m. intros i Hi Hne. replace (i - 256 - km_middle m) with (i - (256 + km_middle m)) by lia.
    pose proof (key_degree_keyed m (sc_count s) (i - (256 + km_middle m)) Hm ltac:(lia)) as KD.
    destruct (keyed_degree m (i - (256 + km_middle m))) as [k|] eqn:Ek.
    + rewrite (key_pitch_some s tones m _ i k H Hne); [|rewrite KD, Hc; reflexivity]. f_equal. ring.
    + unfold key_pitch. replace (i =? 256 + km_ref m) with false by lia. rewrite KD. cbn [obind]. rewrite Hc, (scale_tone s tones) by (lia || exact H). cbn [obind]. f_equal. ring.
  - exists t'. split; [exact E|]. rewrite T by exact Hkey. fold m. f_equal.
    assert (key <> km_ref m) by (intros ->; fold m in Hk0; rewrite Hk0 in HN; discriminate). replace (key =? km_ref m) with false by lia.
    replace (key + 256 - 256 - km_middle m) with (key - km_middle m) by lia. rewrite HN. replace (-1)%R with (- (1))%R by ring. rewrite Rpower_Ropp, Rpower_1 by lra. field.
Qed.
(* REFUTED for keyed mappings: the mapping's formal octave (octave_degrees) is ignored - changing it changes nothing - so the
   interval of `count` keys is that of `count` scale degrees instead. *)
Theorem C35_octave_degrees_ignored_refuted : forall m n d x,
  key_degree {| km_standard := km_standard m; km_count := km_count m; km_first := km_first m; km_last := km_last m; km_middle := km_middle m; km_ref := km_ref m; km_freq := km_freq m; km_degrees := x; km_keys := km_keys m |} n d = key_degree m n d
  /\ (keyed_map m -> keyed_degree m (d + km_count m) = option_map (fun k => k + km_count m) (keyed_degree m d)).
Proof.
  intros m n d x. split; [reflexivity|]. intros (_ & Hc & _). unfold keyed_degree.
  replace ((d + km_count m) mod km_count m) with (d mod km_count m) by (rewrite <- (Z_mod_plus_full d 1); f_equal; lia).
  replace ((d + km_count m) / km_count m) with (d / km_count m + 1) by (rewrite <- (Z_div_plus_full d 1) by lia; f_equal; lia).
  destruct (_ <? 0); cbn; [reflexivity|]. f_equal. lia.
Qed.
(* An empty scale is refused and nothing changes; a scale with fewer tones than its count panics. *)
Theorem C35_invalid_scale : forall t s, sc_count s = 0 -> retune_to_scale t s = Ok (false, t).
Proof. intros t s E. unfold retune_to_scale, scale_valid. rewrite E. reflexivity. Qed.

(** ** C34 *)
Lemma digits_bad l : forall acc, In 10 l -> digits acc l = None.
Proof.
  induction l as [|c l IH]; intros acc H; [destruct H|]. cbn [digits]. destruct H as [-> | H]; [reflexivity|].
  destruct ((48 <=? c) && (c <=? 57)); [apply IH; exact H|reflexivity].
Qed.
Lemma parse_bad l : In 10 l -> parse_i32 l = None.
Proof.
  intros H. assert (P : forall r, In 10 r -> parse_digits r = None) by (intros r Hr; unfold parse_digits; destruct r; [reflexivity|apply digits_bad; exact Hr]).
  unfold parse_i32. assert (G : ranged (-2147483648) 2147483647 (parse_digits l) = None) by (rewrite P by exact H; reflexivity).
  destruct l as [|c r]; [exact G|]. destruct H as [-> | H]; [reflexivity|].
  assert (c = 43 \/ c = 45 \/ (c <> 43 /\ c <> 45)) as [-> | [-> | [N1 N2]]] by lia; [rewrite P by exact H; reflexivity..|].
  destruct c as [|p|p]; try exact G. do 6 (destruct p; try exact G); contradiction.
Qed.
Lemma split_first t l ls : split_lines t = l :: ls -> l <> [] /\ hd 0 l = hd 0 t /\ (In 10 t -> In 10 l) /\ (~ In 10 t -> l = t /\ ls = []).
Proof.
  revert l ls. induction t as [|c t IH]; intros l ls E; [discriminate|]. cbn [split_lines] in E. destruct (c =? 10) eqn:B.
  - apply Z.eqb_eq in B. subst c. injection E as <- <-. split; [discriminate|]. split; [reflexivity|]. split; [intros _; left; reflexivity|]. intros H; exfalso; apply H; left; reflexivity.
  - assert (c <> 10) by lia. destruct (split_lines t) as [|l0 ls0] eqn:Et.
    + injection E as <- <-. split; [discriminate|]. split; [reflexivity|]. assert (t = []) as -> by (destruct t as [|d t]; [reflexivity|]; cbn in Et; destruct (d =? 10); [discriminate|]; destruct (split_lines t); discriminate).
      split; [intros [H'|[]]; contradiction|]. auto.
    + injection E as <- <-. destruct (IH l0 ls0 eq_refl) as (A1 & A2 & A3 & A4). split; [discriminate|]. split; [reflexivity|]. split.
      * intros [->|H']; [contradiction|right; apply A3; exact H'].
      * intros H'. destruct A4 as [-> ->]; [intros X; apply H'; right; exact X|]. auto.
Qed.
Lemma split_nil t : split_lines t = [] -> t = [].
Proof. destruct t as [|c t]; [reflexivity|]. cbn. destruct (c =? 10); [discriminate|]. destruct (split_lines t); discriminate. Qed.
Section ReaderProofs.
Context (pf : list Z -> option R) (l2 : R -> R).
Lemma scale_comment ls : forall s, hd 0 (ss_line s) = 33 -> ss_line s <> [] ->
  exists line, foldM (scale_step pf l2) ls s = Ok {| ss_pos := ss_pos s; ss_line := line; ss_scale := ss_scale s |}.
Proof.
  induction ls as [|p ls IH]; intros s Hh Hl; [exists (ss_line s); destruct s; reflexivity|]. cbn [foldM]. unfold scale_step at 1.
  destruct (ss_line s) as [|b r] eqn:E; [congruence|]. cbn [app] in *. cbn in Hh. subst b. cbn [Z.eqb Pos.eqb obind].
  destruct (IH {| ss_pos := ss_pos s; ss_line := 33 :: r ++ p; ss_scale := ss_scale s |}) as (line & X); [reflexivity|discriminate|]. exists line. exact X.
Qed.
(* REFUTED, completely: no text whatever loads to a scale with a tone. A text beginning with a comment is all comment; any
   other text of more than one line panics; one-line and empty texts give an empty scale or a panic. *)
Theorem C34_no_scale_loads_refuted : forall text,
  (hd 0 text = 33 -> scale_from pf l2 text = Ok scale_default) /\
  (hd 0 text <> 33 -> In 10 text -> scale_from pf l2 text = Panic) /\
  (~ In 10 text -> scale_from pf l2 text = Panic \/ exists d, scale_from pf l2 text = Ok {| sc_desc := d; sc_count := 0; sc_tones := [] |}).
Proof.
  intros text. unfold scale_from. destruct (split_lines text) as [|l ls] eqn:E.
  - apply split_nil in E. subst text. split; [discriminate|]. split; [intros _ []|]. intros _. right. exists []. reflexivity.
  - destruct (split_first text l ls E) as (A1 & A2 & A3 & A4). cbn [foldM].
    destruct l as [|b r]; [congruence|]. cbn [hd] in A2. split; [|split].
    + intros H. rewrite H in A2. subst b. unfold scale_step at 1. cbn [ss_line app ss_pos ss_scale Z.eqb Pos.eqb obind].
      destruct (scale_comment ls {| ss_pos := ReadHeader; ss_line := 33 :: r; ss_scale := scale_default |}) as (line & X); [reflexivity|discriminate|]. rewrite X. reflexivity.
    + intros H HI. unfold scale_step at 1. cbn [ss_line app ss_pos ss_scale]. replace (b =? 33) with false by lia. rewrite parse_bad by (apply A3; exact HI). reflexivity.
    + intros HI. destruct (A4 HI) as [Et ->]. cbn [foldM]. unfold scale_step. cbn [ss_line app ss_pos ss_scale]. destruct (b =? 33); [right; exists []; reflexivity|].
      destruct (parse_i32 (b :: r)); cbn [unwrap obind foldM]; [|left; reflexivity]. destruct (pf (b :: r)); cbn [unwrap obind foldM]; [|left; reflexivity].
      right. eexists. reflexivity.
Qed.
Corollary scale_never_valid text s : scale_from pf l2 text = Ok s -> scale_valid s = false.
Proof.
  intros H. destruct (C34_no_scale_loads_refuted text) as (A & B & C). destruct (Z.eq_dec (hd 0 text) 33) as [E|E].
  - rewrite A in H by exact E. injection H as <-. reflexivity.
  - destruct (in_dec Z.eq_dec 10 text) as [I|I]; [rewrite B in H by assumption; discriminate|].
    destruct (C I) as [P|[d P]]; rewrite P in H; [discriminate|]. injection H as <-. reflexivity.
Qed.
(* In particular retuning to a loaded scale is always refused. *)
Theorem C34_loaded_scale_refused_refuted : forall text s t, scale_from pf l2 text = Ok s -> retune_to_scale t s = Ok (false, t).
Proof. intros text s t H. unfold retune_to_scale. rewrite (scale_never_valid text s H). reflexivity. Qed.

(** ** C82 keyboard mappings *)
Lemma mapping_comment ls : forall s, hd 0 (ks_line s) = 33 -> ks_line s <> [] ->
  exists line, foldM (mapping_step pf) ls s = Ok {| ks_pos := ks_pos s; ks_line := line; ks_map := ks_map s |}.
Proof.
  induction ls as [|p ls IH]; intros s Hh Hl; [exists (ks_line s); destruct s; reflexivity|]. cbn [foldM]. unfold mapping_step at 1.
  destruct (ks_line s) as [|b r] eqn:E; [congruence|]. cbn [app] in *. cbn in Hh. subst b. cbn [Z.eqb Pos.eqb obind].
  destruct (IH {| ks_pos := ks_pos s; ks_line := 33 :: r ++ p; ks_map := ks_map s |}) as (line & X); [reflexivity|discriminate|]. exists line. exact X.
Qed.
Definition with_count (c : Z) : mapping :=
  {| km_standard := false; km_count := c; km_first := 0; km_last := 127; km_middle := 60; km_ref := 60; km_freq := (8.175798915 * 32)%R; km_degrees := 12; km_keys := [] |}.
(* REFUTED, completely: no text loads to a mapping with a key, another middle note, another reference note or another frequency. *)
Theorem C82_no_mapping_loads_refuted : forall text,
  (hd 0 text = 33 -> mapping_from pf text = Ok mapping_blank) /\
  (hd 0 text <> 33 -> In 10 text -> mapping_from pf text = Panic) /\
  (~ In 10 text -> mapping_from pf text = Panic \/ exists c, mapping_from pf text = Ok (with_count c)).
Proof.
  intros text. unfold mapping_from. destruct (split_lines text) as [|l ls] eqn:E.
  - apply split_nil in E. subst text. split; [discriminate|]. split; [intros _ []|]. intros _. right. exists 12. reflexivity.
  - destruct (split_first text l ls E) as (A1 & A2 & A3 & A4). cbn [foldM].
    destruct l as [|b r]; [congruence|]. cbn [hd] in A2. split; [|split].
    + intros H. rewrite H in A2. subst b. unfold mapping_step at 1. cbn [ks_line app ks_pos ks_map Z.eqb Pos.eqb obind].
      destruct (mapping_comment ls {| ks_pos := MapSize; ks_line := 33 :: r; ks_map := mapping_blank |}) as (line & X); [reflexivity|discriminate|]. rewrite X. reflexivity.
    + intros H HI. unfold mapping_step at 1. cbn [ks_line app ks_pos ks_map]. replace (b =? 33) with false by lia. cbv zeta.
      assert (N : bytes_eqb (b :: r) [120] = false).
      { cbn. destruct r as [|c r]; [|apply andb_false_r]. destruct (A3 HI) as [->|[]]. reflexivity. }
      rewrite N, parse_bad by (apply A3; exact HI). reflexivity.
    + intros HI. destruct (A4 HI) as [Et ->]. cbn [foldM]. unfold mapping_step. cbn [ks_line app ks_pos ks_map]. destruct (b =? 33); [right; exists 12; reflexivity|]. cbv zeta.
      destruct (parse_i32 _) as [i|]; cbn [unwrap obind foldM]; [|left; reflexivity]. destruct (pf _); cbn [unwrap obind foldM]; [|left; reflexivity].
      right. exists i. reflexivity.
Qed.
(* REFUTED: retuning A69 (whose text begins with a comment) gives the blank mapping whatever the frequency, and applying it changes no
   table when no scale is loaded and panics when one is. *)
Theorem C82_tune_a69_refuted : forall rest rest12 t m, mapping_from pf (33 :: rest) = Ok m ->
  (scale_valid (tu_scale t) = false -> exists t', remap_to_keyboard (scale_from pf l2 (33 :: rest12)) t m = Ok t' /\ tu_table t' = tu_table t /\ tu_inv t' = tu_inv t) /\
  (scale_valid (tu_scale t) = true -> remap_to_keyboard (scale_from pf l2 (33 :: rest12)) t m = Panic).
Proof.
  intros rest rest12 t m E. destruct (C82_no_mapping_loads_refuted (33 :: rest)) as (A & _). rewrite A in E by reflexivity. injection E as <-.
  destruct (C34_no_scale_loads_refuted (33 :: rest12)) as (B & _). rewrite B by reflexivity.
  unfold remap_to_keyboard. cbn [mapping_blank km_standard andb tu_scale tu_std negb]. split; intros H; rewrite H; cbn [negb obind].
  - eexists. split; [reflexivity|]. split; reflexivity.
  - unfold retune_to_scale. rewrite H. reflexivity.
Qed.
End ReaderProofs.
(* Going back to the standard keyboard: equal temperament if no scale was applied; otherwise the scale with the default mapping. *)
Theorem C82_remap_standard : forall even12 t, tu_std t = true ->
  exists t', remap_to_keyboard even12 t mapping_default = Ok t' /\ (forall key, -256 <= key < 256 -> entry t' key = Ok (Rpower 2 (IZR key / 12))%R) /\ tu_std t' = true.
Proof.
  intros even12 t H. unfold remap_to_keyboard. cbn [mapping_default km_standard andb tu_std]. rewrite H. eexists. split; [reflexivity|]. split; [|reflexivity].
  intros key Hk. unfold entry. cbn [tuner_init tu_table]. unfold std_table. rewrite zget_idxs by lia. f_equal. unfold exp2R. f_equal. rewrite plus_IZR. field.
Qed.
Theorem C82_remap_standard_keeps_scale : forall even12 t tones, tu_std t = false -> is_scale (tu_scale t) tones ->
  exists t', remap_to_keyboard even12 t mapping_default = Ok t' /\ tu_scale t' = tu_scale t
    /\ forall key, -256 <= key < 256 -> entry t' key = Ok (32 * Rpower 2 (degree tones (key - 60)))%R.
Proof.
  intros even12 t tones H HS. unfold remap_to_keyboard. cbn [mapping_default km_standard andb tu_std tu_scale negb]. rewrite H.
  match goal with |- context [retune_to_scale ?x _] => set (t1 := x) end.
  assert (X : exists t', retune_to_scale t1 (tu_scale t) = Ok (true, t') /\ tu_scale t' = tu_scale t /\ forall key, -256 <= key < 256 -> entry t' key = Ok (32 * Rpower 2 (degree tones (key - 60)))%R).
  { pose proof HS as (Hn & Hc & _). destruct (C35_retune_linear t1 (tu_scale t) tones HS) as (t' & E & T); [cbn; lra|right; reflexivity|unfold good_ref; cbn; lia|].
    exists t'. split; [exact E|]. split.
    - unfold retune_to_scale in E. destruct (negb (scale_valid (tu_scale t))); [discriminate|]. cbv zeta in E.
      destruct (if 0 <? _ then _ else _) as [x| |]; cbn [obind] in E; try discriminate. destruct (center_offset _ x); cbn [obind] in E; try discriminate.
      destruct (negb _); try discriminate. destruct (mapM _ _); cbn [obind] in E; try discriminate. injection E as <-. reflexivity.
    - intros key Hk. rewrite T by exact Hk. cbn [t1 tu_map tu_pitch km_ref km_middle mapping_default]. rewrite Z.sub_diag, degree_0 by exact Hn. f_equal. f_equal. f_equal. lra. }
  destruct X as (t' & E & X1 & X2). change (tu_scale t1) with (tu_scale t). cbn [tu_scale]. rewrite E. cbn [obind snd]. exists t'. auto.
Qed.

(** ** C83 lookup *)
Definition full (table : list R) (g : Z -> R) : Prop := forall i, 0 <= i < 512 -> zget table i = Ok (g i).
Lemma trunc_nonneg x : (0 <= x < 9223372036854775807)%R -> as_i64R x = Int_part x /\ 0 <= Int_part x.
Proof.
  intros H. destruct (base_Int_part x) as [B1 B2]. assert (P : 0 <= Int_part x) by (assert (-1 < Int_part x); [apply lt_IZR; lra|lia]).
  assert (Q : Int_part x <= 9223372036854775807) by (apply le_IZR; lra). unfold as_i64R. destruct (Rle_dec 0 x); [|lra]. lia.
Qed.
Lemma int_part_unique x k : (IZR k <= x < IZR k + 1)%R -> Int_part x = k.
Proof. intros H. unfold Int_part. rewrite <- (tech_up x (k + 1)); [lia|rewrite plus_IZR; lra|rewrite plus_IZR; lra]. Qed.
(* Inside the table the value is the straight line between the two neighbouring notes; whole notes are exact. *)
Theorem C83_lookup : forall table g x k, full table g -> -256 <= k < 255 -> (IZR k <= x < IZR k + 1)%R ->
  lookup table x = Ok (g (k + 256)%Z + (x - IZR k) * (g (k + 257)%Z - g (k + 256)%Z))%R.
Proof.
  intros table g x k F Hk Hx. unfold lookup. pose proof (IZR_le (-256) k ltac:(lia)) as L1. pose proof (IZR_lt k 255 ltac:(lia)) as L2.
  destruct (trunc_nonneg (x + 256)) as [E _]; [lra|]. rewrite E. rewrite (int_part_unique (x + 256) (k + 256)) by (rewrite plus_IZR; lra).
  replace (510 <? k + 256) with false by lia. rewrite !Z.mod_small by lia. rewrite !F by lia. cbn [obind].
  destruct (C72_lerp_partial (x + 256 - IZR (k + 256)) (g (k + 256)) (g (k + 256 + 1))) as (v & Ev & Vv & _); [rewrite plus_IZR; lra|].
  rewrite Ev. f_equal. rewrite Vv, plus_IZR. replace (k + 256 + 1) with (k + 257) by lia. ring.
Qed.
(* ... so it is increasing wherever the table is. *)
Theorem C83_monotone : forall table g x y, full table g -> (forall i, 0 <= i < 511 -> (g i <= g (i + 1)%Z)%R) ->
  (-256 <= x)%R -> (x <= y)%R -> (y < 255)%R -> exists a b, lookup table x = Ok a /\ lookup table y = Ok b /\ (a <= b)%R.
Proof.
  intros table g x y F M Hx Hxy Hy.
  assert (KX : forall z, (-256 <= z < 255)%R -> exists k, -256 <= k < 255 /\ (IZR k <= z < IZR k + 1)%R).
  { intros z Hz. exists (Int_part z). destruct (base_Int_part z) as [B1 B2]. split; [|lra]. split; [assert (-257 < Int_part z); [apply lt_IZR; lra|lia]|apply lt_IZR; lra]. }
  destruct (KX x ltac:(lra)) as (k & Hk & Bk). destruct (KX y ltac:(lra)) as (j & Hj & Bj).
  rewrite (C83_lookup table g x k F Hk Bk), (C83_lookup table g y j F Hj Bj). eexists. eexists. split; [reflexivity|]. split; [reflexivity|].
  assert (LE : forall n i, 0 <= i -> i + Z.of_nat n < 512 -> (g i <= g (i + Z.of_nat n)%Z)%R).
  { induction n as [|n IH]; intros i H0 H1; [rewrite Z.add_0_r; lra|]. apply (Rle_trans _ (g (i + Z.of_nat n)%Z)); [apply IH; lia|].
    replace (i + Z.of_nat (S n)) with (i + Z.of_nat n + 1) by lia. apply M. lia. }
  assert (Kj : k <= j) by (assert (k < j + 1); [apply lt_IZR; rewrite plus_IZR; lra|lia]).
  pose proof (M (k + 256) ltac:(lia)) as Mk. pose proof (M (j + 256) ltac:(lia)) as Mj. replace (k + 256 + 1) with (k + 257) in Mk by lia. replace (j + 256 + 1) with (j + 257) in Mj by lia.
  destruct (Z.eq_dec k j) as [<-|N].
  - nra.
  - pose proof (LE (Z.to_nat (j - k - 1)) (k + 257) ltac:(lia) ltac:(lia)) as L. replace (k + 257 + Z.of_nat (Z.to_nat (j - k - 1))) with (j + 256) in L by lia. nra.
Qed.
(* Standard tuning: twelve notes higher is exactly twice the frequency, for every (fractional) note. *)
Theorem C83_octave : forall t x, (-256 <= x < 243)%R -> exists v, n2p (tuner_init t) false x = Ok v /\ (0 < v)%R /\ n2p (tuner_init t) false (x + 12) = Ok (2 * v)%R.
Proof.
  intros t x Hx. set (g := fun i => exp2R ((IZR i - 256) * (1 / 12))).
  assert (F : full std_table g) by (intros i Hi; unfold std_table; rewrite zget_idxs by lia; reflexivity).
  assert (exists k, -256 <= k < 243 /\ (IZR k <= x < IZR k + 1)%R) as (k & Hk & Bk).
  { exists (Int_part x). destruct (base_Int_part x) as [B1 B2]. split; [|lra]. split; [assert (-257 < Int_part x); [apply lt_IZR; lra|lia]|apply lt_IZR; lra]. }
  unfold n2p. cbn [tuner_init tu_table]. rewrite (C83_lookup std_table g x k F) by (lia || exact Bk). rewrite (C83_lookup std_table g (x + 12) (k + 12) F) by (lia || (rewrite plus_IZR; lra)).
  assert (G : forall i, g (i + 12) = (2 * g i)%R).
  { intros i. unfold g, exp2R. rewrite plus_IZR. replace ((IZR i + 12 - 256) * (1 / 12))%R with (1 + (IZR i - 256) * (1 / 12))%R by field. rewrite Rpower_plus, Rpower_1 by lra. reflexivity. }
  eexists. split; [reflexivity|]. replace (k + 12 + 256) with (k + 256 + 12) by lia. replace (k + 12 + 257) with (k + 257 + 12) by lia. rewrite !G.
  assert (P : forall i, (0 < g i)%R) by (intros; unfold g, exp2R, Rpower; apply exp_pos). pose proof (P (k + 256)). pose proof (P (k + 257)).
  split; [nra|]. f_equal. rewrite plus_IZR. ring.
Qed.
(* REFUTED outside the table. Above: only the fraction counts, so a note one higher gives the same pitch and the pitch jumps
   down at every whole note. Below: fractional notes panic and whole notes wrap to the top of the table. *)
Theorem C83_above_refuted : forall table g x, full table g -> (255 <= x < 1000000)%R ->
  lookup table (x + 1)%R = lookup table x /\ (forall k, 255 <= k < 1000000 -> lookup table (IZR k) = Ok (g 510)).
Proof.
  intros table g x F Hx.
  assert (L : forall z, (255 <= z < 1000002)%R -> lookup table z = lerp arithR (z + 256 - IZR (Int_part (z + 256)))%R (g 510) (g 511)).
  { intros z Hz. unfold lookup. destruct (trunc_nonneg (z + 256)) as [E _]; [lra|]. rewrite E. destruct (base_Int_part (z + 256)) as [B1 B2].
    assert (510 < Int_part (z + 256)) by (apply lt_IZR; lra). replace (510 <? Int_part (z + 256)) with true by lia. rewrite !Z.mod_small by lia. rewrite !F by lia. reflexivity. }
  split.
  - rewrite !L by lra. f_equal. destruct (base_Int_part (x + 256)) as [B1 B2]. rewrite (int_part_unique (x + 1 + 256) (Int_part (x + 256) + 1)) by (rewrite plus_IZR; lra). rewrite plus_IZR. ring.
  - intros k Hk. pose proof (IZR_le 255 k ltac:(lia)). pose proof (IZR_lt k 1000000 ltac:(lia)). rewrite L by lra. rewrite (int_part_unique (IZR k + 256) (k + 256)) by (rewrite plus_IZR; lra).
    destruct (C72_lerp_partial (IZR k + 256 - IZR (k + 256)) (g 510) (g 511)) as (v & Ev & Vv & _); [rewrite plus_IZR; lra|]. rewrite Ev. f_equal. rewrite Vv, plus_IZR. ring.
Qed.
Theorem C83_below_refuted : forall table g, full table g ->
  (forall x, (-1000000 < x < -256)%R -> (forall k, x <> IZR k) -> lookup table x = Panic) /\
  (forall k, -768 <= k < -256 -> lookup table (IZR k) = Ok (g (k + 768))).
Proof.
  intros table g F.
  assert (TN : forall z, (-1000000 < z < 0)%R -> as_i64R z = - Int_part (- z)).
  { intros z Hz. unfold as_i64R. destruct (Rle_dec 0 z); [lra|]. destruct (base_Int_part (- z)) as [B1 B2].
    assert (-1 < Int_part (- z)) by (apply lt_IZR; lra). assert (Int_part (- z) < 1000001) by (apply lt_IZR; lra). lia. }
  split.
  - intros x Hx Hn. unfold lookup. rewrite TN by lra. destruct (base_Int_part (- (x + 256))) as [B1 B2].
    set (e := Int_part (- (x + 256))) in *. assert (- 1 < e) by (apply lt_IZR; lra). replace (510 <? - e) with false by lia.
    rewrite !F by (apply Z.mod_pos_bound; lia). cbn [obind]. destruct (C72_lerp_endpoint_refuted) as (_ & _ & P). apply P.
    rewrite opp_IZR. intros [Q1 Q2]. assert (NE : x <> IZR (- e - 256)) by apply Hn. rewrite minus_IZR, opp_IZR in NE. lra.
  - intros k Hk. unfold lookup. pose proof (IZR_le (-768) k ltac:(lia)). pose proof (IZR_lt k (-256) ltac:(lia)). rewrite TN by lra.
    rewrite (int_part_unique (- (IZR k + 256)) (- (k + 256))) by (rewrite opp_IZR, plus_IZR; lra). rewrite Z.opp_involutive. replace (510 <? k + 256) with false by lia.
    assert (E : (k + 256) mod 512 = k + 768) by (symmetry; apply (Z.mod_unique _ _ (-1)); lia).
    rewrite E, !F by (lia || (apply Z.mod_pos_bound; lia)). cbn [obind].
    destruct (C72_lerp_partial (IZR k + 256 - IZR (k + 256)) (g (k + 768)) (g ((k + 256 + 1) mod 512))) as (v & Ev & Vv & _); [rewrite plus_IZR; lra|]. rewrite Ev. f_equal. rewrite Vv, plus_IZR. ring.
Qed.
(* REFUTED: a new tuner answers 0 for every note until it is initialised. *)
Theorem C83_fresh_tuner_refuted : forall x, (-256 <= x < 255)%R -> n2p tuner_new false x = Ok 0%R /\ n2p tuner_new true x = Ok 0%R.
Proof.
  intros x Hx. assert (F : full zeros512 (fun _ => 0%R)) by (intros i Hi; unfold zeros512; rewrite zget_idxs by lia; reflexivity).
  assert (exists k, -256 <= k < 255 /\ (IZR k <= x < IZR k + 1)%R) as (k & Hk & Bk).
  { exists (Int_part x). destruct (base_Int_part x) as [B1 B2]. split; [|lra]. split; [assert (-257 < Int_part x); [apply lt_IZR; lra|lia]|apply lt_IZR; lra]. }
  unfold n2p. cbn [tuner_new tu_table tu_table0]. rewrite (C83_lookup _ _ x k F Hk Bk). split; f_equal; ring.
Qed.
(* The reference-relative pitch of the reference key is 1; its inverse is REFUTED: 1/pitch^2 instead of 1. *)
Theorem C83_tuning_center : forall t s tones t', is_scale s tones -> (0 < tu_pitch t)%R -> linear_map (tu_map t) -> -256 <= km_ref (tu_map t) < 255 ->
  retune_to_scale t s = Ok (true, t') -> n2p_tuningctr t' 0 = Ok 1%R.
Proof.
  intros t s tones t' H Hp Hm Hr E. assert (GR : good_ref (tu_map t)) by (unfold good_ref; lia).
  destruct (C35_retune_linear t s tones H Hp Hm GR) as (t2 & E2 & T). rewrite E in E2. injection E2 as <-.
  assert (I : tu_pitch t' = tu_pitch t /\ tu_map t' = tu_map t).
  { unfold retune_to_scale in E. destruct (negb (scale_valid s)); [discriminate|]. cbv zeta in E.
    destruct (if 0 <? _ then _ else _) as [x| |]; cbn [obind] in E; try discriminate. destruct (center_offset _ x); cbn [obind] in E; try discriminate.
    destruct (negb _); try discriminate. destruct (mapM _ _); cbn [obind] in E; try discriminate. injection E as <-. auto. }
  destruct I as [Ip Im]. unfold n2p_tuningctr. rewrite Ip, Im.
  set (g := fun i => (tu_pitch t * Rpower 2 (degree tones (i - 256 - km_middle (tu_map t)) - degree tones (km_ref (tu_map t) - km_middle (tu_map t))))%R).
  assert (F : full (tu_table t') g).
  { intros i Hi. specialize (T (i - 256) ltac:(lia)). unfold entry in T. replace (i - 256 + 256) with i in T by lia. rewrite T. reflexivity. }
  unfold n2p. rewrite (C83_lookup _ g _ (km_ref (tu_map t)) F) by (lia || lra). cbn [obind]. f_equal. unfold g.
  replace (km_ref (tu_map t) + 256 - 256 - km_middle (tu_map t)) with (km_ref (tu_map t) - km_middle (tu_map t)) by lia. 
  replace (degree tones (km_ref (tu_map t) - km_middle (tu_map t)) - degree tones (km_ref (tu_map t) - km_middle (tu_map t)))%R with 0%R by ring.
  rewrite Rpower_O by lra. field. lra.
Qed.
Theorem C83_inverse_center_refuted : forall t (g : Z -> R), full (tu_inv t) g -> (0 < tu_pitch t)%R -> -256 <= km_ref (tu_map t) < 255 ->
  g (km_ref (tu_map t) + 256) = (1 / tu_pitch t)%R -> n2pinv_tuningctr t 0 = Ok (1 / (tu_pitch t * tu_pitch t))%R.
Proof.
  intros t g F Hp Hr G. unfold n2pinv_tuningctr, n2pinv. rewrite (C83_lookup _ g _ (km_ref (tu_map t)) F) by (lia || lra). cbn [obind]. f_equal. rewrite G. field. lra.
Qed.
(* The oscillator coefficients of a note are the sine and cosine of one angle in [0,pi]. *)
Theorem C83_omega : forall a sr tp, (0 <= a)%R -> (0 <= sr)%R -> (0 <= tp)%R -> let (s, c) := note_omega a sr tp in (s * s + c * c = 1)%R /\ (0 <= s <= 1)%R /\ (-1 <= c <= 1)%R.
Proof.
  intros a sr tp Ha Hs Ht. unfold note_omega. set (w := (2 * PI * Rmin 0.5 (a * tp * sr))%R).
  assert (W : (0 <= w <= PI)%R).
  { pose proof PI_RGT_0. unfold w. assert (0 <= a * tp * sr)%R by (repeat apply Rmult_le_pos; assumption). unfold Rmin. destruct (Rle_dec _ _); split; nra. }
  pose proof (sin2_cos2 w) as P. unfold Rsqr in P. split; [exact P|]. pose proof (sin_ge_0 w ltac:(lra) ltac:(lra)). pose proof (SIN_bound w). pose proof (COS_bound w). lra.
Qed.
(* The count is readable up to 127 tones only. *)
Theorem C83_count_refuted : forall t, (0 <= sc_count (tu_scale t) <= 127 -> current_scale_count t = Ok (sc_count (tu_scale t))) /\ (128 <= sc_count (tu_scale t) -> current_scale_count t = Panic).
Proof.
  intros t. unfold current_scale_count. set (v := sc_count (tu_scale t)). change 127 with (Z.ones 7).
  split; intros H.
  - rewrite Z.land_ones, Z.mod_small by (cbn in *; lia). rewrite Z.eqb_refl. reflexivity.
  - rewrite Z.land_ones by lia. pose proof (Z.mod_pos_bound v (2 ^ 7) ltac:(lia)) as M. change (2 ^ 7) with 128 in *. replace (v mod 128 =? v) with false by lia. reflexivity.
Qed.

(** ** non-vacuity *)
(* a five-tone scale and the default mapping; a 5-key mapping of it with one unmapped key; lookups *)
Definition ex_scale : scale := {| sc_desc := []; sc_count := 5; sc_tones := map (fun x => {| tn_cents := (1200 * x)%R; tn_val := (x + 1)%R |}) [(1/5)%R; (2/5)%R; (3/5)%R; (4/5)%R; 1%R] |}.
Definition ex_keyed : mapping := {| km_standard := false; km_count := 3; km_first := 0; km_last := 127; km_middle := 60; km_ref := 61; km_freq := 300%R; km_degrees := 5; km_keys := [0; 2; -1] |}.
Example C35_nonvacuous : is_scale ex_scale [(1/5)%R; (2/5)%R; (3/5)%R; (4/5)%R; 1%R] /\ linear_map mapping_default /\ good_ref mapping_default
  /\ keyed_map ex_keyed /\ keyed_degree ex_keyed (61 - 60) = Some 2 /\ keyed_degree ex_keyed (62 - 60) = None /\ keyed_degree ex_keyed (-2) = Some (-1)
  /\ degree [(1/5)%R; (2/5)%R; (3/5)%R; (4/5)%R; 1%R] (-3) = (-3/5)%R.
Proof.
  split; [split; [discriminate|split; reflexivity]|]. split; [right; reflexivity|]. split; [unfold good_ref, mapping_default; cbn [km_ref]; lia|]. split; [unfold keyed_map, ex_keyed; cbn [km_standard km_count km_keys km_ref km_middle length]; repeat split; lia|].
  split; [reflexivity|]. split; [reflexivity|]. split; [reflexivity|]. unfold degree. cbn [length]. change (-3 mod Z.of_nat 5) with 2. change (-3 / Z.of_nat 5) with (-1). change (2 =? 0) with false. change (Z.to_nat (2 - 1)) with 1%nat. change (Z.to_nat (Z.of_nat 5 - 1)) with 4%nat. cbn [nth]. lra.
Qed.
Example C83_nonvacuous : full std_table (fun i => exp2R ((IZR i - 256) * (1 / 12))) /\ (forall i, 0 <= i < 511 -> (exp2R ((IZR i - 256) * (1 / 12)) <= exp2R ((IZR (i + 1) - 256) * (1 / 12)))%R).
Proof.
  split; [intros i Hi; unfold std_table; rewrite zget_idxs by lia; reflexivity|]. intros i _. unfold exp2R. apply Rle_Rpower; [lra|]. rewrite plus_IZR. lra.
Qed.
Print Assumptions C35_retune_linear. Print Assumptions C35_period. Print Assumptions C35_retune_keyed. Print Assumptions C35_unmapped_sound_refuted. Print Assumptions C35_octave_degrees_ignored_refuted.
Print Assumptions C35_invalid_scale. Print Assumptions C34_no_scale_loads_refuted. Print Assumptions C34_loaded_scale_refused_refuted. Print Assumptions C82_no_mapping_loads_refuted. Print Assumptions C82_tune_a69_refuted.
Print Assumptions C82_remap_standard. Print Assumptions C82_remap_standard_keeps_scale. Print Assumptions C83_lookup. Print Assumptions C83_monotone. Print Assumptions C83_octave. Print Assumptions C83_above_refuted. Print Assumptions C83_below_refuted.
Print Assumptions C83_fresh_tuner_refuted. Print Assumptions C83_tuning_center. Print Assumptions C83_inverse_center_refuted. Print Assumptions C83_omega. Print Assumptions C83_count_refuted.
