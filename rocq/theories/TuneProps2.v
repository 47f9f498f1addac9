(* TuneProps2.v - what a line of a Scala or keymap text means (C34, C82), the reference key of a remapped tuner (C82), the
   clamped lookup behind note_to_omega (C83), and the tuner before and after it is initialised. *)
From Coq Require Import Reals Lra.
From Verif Require Import Base Util F32 BlockModel LagProps FastProps TuneModel TuneProps.
Local Open Scope Z_scope.

(** ** specification: decimal integers *)
Definition is_digit (c : Z) : Prop := 48 <= c <= 57.
(* the number written by a list of ASCII digits, most significant first *)
Definition decimal (ds : list Z) : Z := fold_left (fun a c => 10 * a + (c - 48)) ds 0.
Inductive writes : list Z -> Z -> Prop :=
| W_plain ds : ds <> [] -> Forall is_digit ds -> writes ds (decimal ds)
| W_plus ds : ds <> [] -> Forall is_digit ds -> writes (43 :: ds) (decimal ds)
| W_minus ds : ds <> [] -> Forall is_digit ds -> writes (45 :: ds) (- decimal ds).

Lemma digits_iff l : forall acc v, digits acc l = Some v <-> Forall is_digit l /\ v = fold_left (fun a c => 10 * a + (c - 48)) l acc.
Proof.
  induction l as [|c l IH]; intros acc v; cbn [digits fold_left].
  - split; [intros E; injection E as <-; split; [constructor|reflexivity]|intros [_ ->]; reflexivity].
  - destruct ((48 <=? c) && (c <=? 57)) eqn:B.
    + rewrite IH. split; intros [F ->]; (split; [|reflexivity]); [constructor; [unfold is_digit; lia|exact F]|inversion F; assumption].
    + split; [discriminate|]. intros [F _]. inversion F as [|? ? D]; subst. unfold is_digit in D. lia.
Qed.
Lemma parse_digits_iff l v : parse_digits l = Some v <-> l <> [] /\ Forall is_digit l /\ v = decimal l.
Proof.
  unfold parse_digits. destruct l as [|c l].
  - split; [discriminate|intros [F _]; congruence].
  - rewrite digits_iff. unfold decimal. split; [intros [A B]; repeat split; [discriminate|exact A|exact B]|intros (_ & A & B); split; assumption].
Qed.
Lemma ranged_iff lo hi x v : ranged lo hi x = Some v <-> x = Some v /\ lo <= v <= hi.
Proof.
  unfold ranged. destruct x as [w|]; [|split; [discriminate|intros [F _]; discriminate]]. destruct ((lo <=? w) && (w <=? hi)) eqn:B.
  - split; [intros E; injection E as <-; split; [reflexivity|lia]|intros [E _]; exact E].
  - split; [discriminate|intros [E H]; injection E as ->; lia].
Qed.
Lemma opp_digits l v : option_map Z.opp (parse_digits l) = Some v <-> l <> [] /\ Forall is_digit l /\ v = - decimal l.
Proof.
  destruct (parse_digits l) as [w|] eqn:P; cbn [option_map].
  - apply parse_digits_iff in P. destruct P as (A & B & ->). split; [intros E; injection E as <-; auto|intros (_ & _ & ->); reflexivity].
  - split; [discriminate|]. intros (A & B & _). assert (parse_digits l = Some (decimal l)) by (apply parse_digits_iff; auto). congruence.
Qed.

(* C82: the integer a line stands for: an optional sign and one or more digits, nothing else, within 32 bits. *)
Theorem C82_integer_lines : forall l v, parse_i32 l = Some v <-> writes l v /\ -2147483648 <= v <= 2147483647.
Proof.
  intros l v. assert (P : forall (ds : list Z) (w : Z), Forall is_digit ds -> ds <> [] -> parse_i32 ds = ranged (-2147483648) 2147483647 (parse_digits ds) ).
  { intros ds _ F N. destruct ds as [|c r]; [congruence|]. inversion F as [|? ? D]; subst. unfold is_digit in D. unfold parse_i32.
    destruct c as [|p|p]; try lia. do 6 (destruct p as [p|p|]; try lia; try reflexivity). }
  split.
  - intros H. destruct l as [|c r].
    + discriminate.
    + destruct (Z.eq_dec c 43) as [->|N1]; [|destruct (Z.eq_dec c 45) as [->|N2]].
      * cbn [parse_i32] in H. apply ranged_iff in H. destruct H as [H R0]. apply parse_digits_iff in H. destruct H as (A & B & ->). split; [constructor; assumption|exact R0].
      * cbn [parse_i32] in H. apply ranged_iff in H. destruct H as [H R0]. apply opp_digits in H. destruct H as (A & B & ->). split; [constructor; assumption|exact R0].
      * assert (E : parse_i32 (c :: r) = ranged (-2147483648) 2147483647 (parse_digits (c :: r))).
        { unfold parse_i32. destruct c as [|p|p]; try reflexivity. do 6 (destruct p as [p|p|]; try reflexivity; try lia). }
        rewrite E in H. apply ranged_iff in H. destruct H as [H R0]. apply parse_digits_iff in H. destruct H as (A & B & ->). split; [constructor; assumption|exact R0].
  - intros [W R0]. inversion W as [ds A B E1 E2|ds A B E1 E2|ds A B E1 E2]; subst.
    + rewrite (P _ 0) by assumption. apply ranged_iff. split; [apply parse_digits_iff; auto|exact R0].
    + cbn [parse_i32]. apply ranged_iff. split; [apply parse_digits_iff; auto|exact R0].
    + cbn [parse_i32]. apply ranged_iff. split; [apply opp_digits; auto|exact R0].
Qed.
(* C34: the tone count: digits with an optional plus sign, within 64 bits. *)
Theorem C34_count_lines : forall l v, parse_usize l = Some v <-> (exists ds, (l = ds \/ l = 43 :: ds) /\ ds <> [] /\ Forall is_digit ds /\ v = decimal ds) /\ 0 <= v <= 18446744073709551615.
Proof.
  intros l v. destruct l as [|c r].
  - split; [discriminate|]. intros [(ds & [<- | E] & A & _) _]; [congruence|discriminate].
  - destruct (Z.eq_dec c 43) as [->|N].
    + cbn [parse_usize]. rewrite ranged_iff, parse_digits_iff. split.
      * intros ((A & B & ->) & R0). split; [exists r; auto|exact R0].
      * intros ((ds & [E|E] & A & B & ->) & R0); [subst ds; inversion B as [|? ? D]; unfold is_digit in D; lia|]. injection E as <-. auto.
    + assert (E : parse_usize (c :: r) = ranged 0 18446744073709551615 (parse_digits (c :: r))).
      { unfold parse_usize. destruct c as [|p|p]; try reflexivity. do 6 (destruct p as [p|p|]; try reflexivity; try lia). }
      rewrite E, ranged_iff, parse_digits_iff. split.
      * intros ((A & B & ->) & R0). split; [exists (c :: r); auto|exact R0].
      * intros ((ds & [E2|E2] & A & B & ->) & R0); [subst ds; auto|]. injection E2 as E3 _. congruence.
Qed.

(** ** tone lines *)
Lemma find_from_spec c l : forall i, match find_from c i l with
  | None => ~ In c l
  | Some p => exists a b, l = a ++ c :: b /\ ~ In c a /\ p = i + Z.of_nat (length a) end.
Proof.
  induction l as [|x l IH]; intros i; cbn [find_from]; [intros []|]. destruct (Z.eqb_spec x c) as [->|N].
  - exists [], l. split; [reflexivity|]. split; [intros []|cbn; lia].
  - specialize (IH (i + 1)). destruct (find_from c (i + 1) l) as [p|].
    + destruct IH as (a & b & -> & Ha & ->). exists (x :: a), b. split; [reflexivity|]. split; [intros [E|E]; congruence|cbn [length]; lia].
    + intros [E|E]; congruence.
Qed.
Lemma find_char_none c l : ~ In c l -> find_char c l = None.
Proof. intros H. pose proof (find_from_spec c l 0) as S0. unfold find_char. destruct (find_from c 0 l) as [p|]; [|reflexivity]. destruct S0 as (a & b & -> & _). destruct H. apply in_or_app. right. left. reflexivity. Qed.
Lemma find_char_some c a b : ~ In c a -> find_char c (a ++ c :: b) = Some (Z.of_nat (length a)).
Proof.
  intros H. unfold find_char. assert (G : forall i, find_from c i (a ++ c :: b) = Some (i + Z.of_nat (length a))).
  { induction a as [|x a IH]; intros i; cbn [app find_from length]; [rewrite Z.eqb_refl; f_equal; lia|].
    replace (x =? c) with false by (symmetry; apply Z.eqb_neq; intros E; apply H; left; exact E). rewrite IH by (intros E; apply H; right; exact E). f_equal. lia. }
  rewrite G. reflexivity.
Qed.
Lemma find_char_in c l : In c l -> exists p, find_char c l = Some p.
Proof. intros H. apply in_split in H. pose proof (find_from_spec c l 0) as S0. unfold find_char. destruct (find_from c 0 l) as [p|]; [eauto|]. destruct H as (a & b & ->). destruct S0. apply in_or_app. right. left. reflexivity. Qed.

Section Lines.
Context (pf : list Z -> option R) (l2 : R -> R).
(* A line with a point is in cents: 1200 cents to the octave. *)
Theorem C34_cents_line : forall l c, In 46 l -> pf l = Some c -> read_tone pf l2 l = Ok {| tn_cents := c; tn_val := (1 + c / 1200)%R |}.
Proof. intros l c H E. unfold read_tone. destruct (find_char_in 46 l H) as (p & ->). rewrite E. cbn. do 2 f_equal. ring. Qed.
(* A line without point and slash is a whole-number frequency ratio. *)
Theorem C34_integer_line : forall l n, ~ In 46 l -> ~ In 47 l -> writes l n -> -2147483648 <= n <= 2147483647 ->
  read_tone pf l2 l = Ok {| tn_cents := (1200 * l2 (IZR n))%R; tn_val := (1 + l2 (IZR n))%R |}.
Proof.
  intros l n H1 H2 W R0. unfold read_tone. rewrite !find_char_none by assumption. assert (E : parse_i32 l = Some n) by (apply C82_integer_lines; auto).
  rewrite E. cbn [unwrap obind]. do 2 f_equal; field_simplify; f_equal; try (f_equal; field); try field.
Qed.
(* A frequency ratio n/d is REFUTED: whatever stands before and after the slash, the reader crashes (the denominator is read with the slash in it). *)
Theorem C34_ratio_line_refuted : forall a b, ~ In 46 (a ++ 47 :: b) -> ~ In 47 a -> read_tone pf l2 (a ++ 47 :: b) = Panic.
Proof.
  intros a b H1 H2. unfold read_tone. rewrite find_char_none by exact H1. rewrite find_char_some by exact H2. rewrite Nat2Z.id.
  rewrite firstn_app, Nat.sub_diag, firstn_all, firstn_O, app_nil_r. rewrite skipn_app, Nat.sub_diag, skipn_all, skipn_O. cbn [app].
  destruct (parse_i32 a) as [n|]; cbn [unwrap obind]; [|reflexivity].
  destruct (parse_i32 (47 :: b)) as [d|] eqn:E; [|reflexivity]. apply C82_integer_lines in E. destruct E as [W _].
  inversion W as [ds A B E1|ds A B E1|ds A B E1]; subst. inversion B as [|? ? D]. unfold is_digit in D. lia.
Qed.
End Lines.

(** ** C82: the reference key gets the mapping's frequency *)
(* Applying a mapping of its own (is_standard_mapping = false, no key list) to a tuner with a scale: the reference key sounds at
   the mapping's frequency, as a multiple of MIDI note 0 (8.175798915 Hz). *)
Theorem C82_remap_reference : forall even12 t m tones, km_standard m = false -> km_count m = 0 -> (0 < km_freq m)%R -> good_ref m -> is_scale (tu_scale t) tones ->
  exists t', remap_to_keyboard even12 t m = Ok t' /\ tu_map t' = m /\
    forall key, -256 <= key < 256 ->
      entry t' key = Ok (km_freq m / 8.175798915 * Rpower 2 (degree tones (key - km_middle m) - degree tones (km_ref m - km_middle m)))%R.
Proof.
  intros even12 t m tones Hs Hc Hf Hr HS. unfold remap_to_keyboard. rewrite Hs. cbn [andb negb tu_scale tu_std].
  assert (V : scale_valid (tu_scale t) = true). { destruct HS as (Hn & Hcn & _). unfold scale_valid. rewrite Hcn. destruct tones; [congruence|]. cbn [length]. lia. }
  rewrite V. cbn [negb].
  match goal with |- context [retune_to_scale ?x _] => set (t1 := x) end.
  destruct (C35_retune_linear t1 (tu_scale t) tones HS) as (t' & E & T); [subst t1; cbn [tu_pitch]; apply Rdiv_lt_0_compat; lra|left; exact Hc|exact Hr|].
  exists t'. rewrite E. cbn [obind snd]. split; [reflexivity|]. split; [|exact T].
  clear T. unfold retune_to_scale in E. rewrite V in E. cbn [negb] in E. cbv zeta in E.
  destruct (if 0 <? _ then _ else _) as [x| |]; cbn [obind] in E; try discriminate. destruct (center_offset _ x); cbn [obind] in E; try discriminate.
  destruct (negb _); try discriminate. destruct (mapM _ _); cbn [obind] in E; try discriminate. injection E as <-. reflexivity.
Qed.
(* The default mapping's reference frequency is middle C in the standard tuning (ratio 32 = 2^5 over MIDI note 0). *)
Theorem C82_default_reference : (km_freq mapping_default / 8.175798915 = 32)%R /\ km_ref mapping_default = 60 /\ km_middle mapping_default = 60 /\ tu_pitch tuner_new = 32%R.
Proof. split; [cbn [mapping_default km_freq]; field; lra|]. split; [reflexivity|]. split; reflexivity. Qed.
(* A new tuner given the default mapping is in the standard tuning; a scale applied to it is then centred on middle C. *)
Theorem C82_new_tuner : forall even12, exists t', remap_to_keyboard even12 tuner_new mapping_default = Ok t' /\ tu_std t' = true
  /\ (forall key, -256 <= key < 256 -> entry t' key = Ok (Rpower 2 (IZR key / 12))%R)
  /\ forall s tones, is_scale s tones -> exists t2, retune_to_scale t' s = Ok (true, t2)
       /\ forall key, -256 <= key < 256 -> entry t2 key = Ok (32 * Rpower 2 (degree tones (key - 60)))%R.
Proof.
  intros even12. exists (tuner_init tuner_new). split; [reflexivity|]. split; [reflexivity|]. split.
  - intros key Hk. unfold entry. cbn [tuner_init tu_table]. unfold std_table. rewrite zget_idxs by lia. f_equal. unfold exp2R. f_equal. rewrite plus_IZR. field.
  - intros s tones HS. destruct (C35_retune_linear (tuner_init tuner_new) s tones HS) as (t2 & E & T); [cbn; lra|right; reflexivity|unfold good_ref; cbn; lia|].
    exists t2. split; [exact E|]. intros key Hk. rewrite (T key Hk). cbn [tuner_init tuner_new tu_pitch tu_map mapping_default km_middle km_ref].
    pose proof HS as (Hn & _). change (60 - 60) with 0. rewrite (degree_0 tones Hn). rewrite Rminus_0_r. reflexivity.
Qed.
(* Returning to the standard tuning keeps nothing of the scale and mapping but the tuner's reference pitch: a scale applied
   after a retuned tuner is reset uses the old reference (REFUTED: "standard tuning is what a new tuner has"). *)
Theorem C82_reset_keeps_pitch_refuted : forall t s tones, is_scale s tones -> (0 < tu_pitch t)%R ->
  tu_std (tuner_init t) = true /\ tu_map (tuner_init t) = mapping_default /\ tu_scale (tuner_init t) = scale_default /\
  exists t2, retune_to_scale (tuner_init t) s = Ok (true, t2)
       /\ forall key, -256 <= key < 256 -> entry t2 key = Ok (tu_pitch t * Rpower 2 (degree tones (key - 60)))%R.
Proof.
  intros t s tones HS Hp. split; [reflexivity|]. split; [reflexivity|]. split; [reflexivity|].
  destruct (C35_retune_linear (tuner_init t) s tones HS) as (t2 & E & T); [exact Hp|right; reflexivity|unfold good_ref; cbn; lia|].
  exists t2. split; [exact E|]. intros key Hk. rewrite (T key Hk). cbn [tuner_init tu_pitch tu_map mapping_default km_middle km_ref].
  pose proof HS as (Hn & _). change (60 - 60) with 0. rewrite (degree_0 tones Hn). rewrite Rminus_0_r. reflexivity.
Qed.

(** ** C83: the clamped lookup *)
Theorem C83_clamped_lookup : forall table g, full table g ->
  (forall x k, -256 <= k < 255 -> (IZR k <= x < IZR k + 1)%R -> lookup_clamped table x = Ok (g (k + 256)%Z + (x - IZR k) * (g (k + 257)%Z - g (k + 256)%Z))%R) /\
  (forall k, -1000000 < k <= -256 -> lookup_clamped table (IZR k) = Ok (g 0%Z)).
Proof.
  intros table g F. split.
  - intros x k Hk Hx. rewrite <- (C83_lookup table g x k F Hk Hx). unfold lookup_clamped, lookup. pose proof (IZR_le (-256) k ltac:(lia)) as L1. pose proof (IZR_lt k 255 ltac:(lia)) as L2.
    destruct (trunc_nonneg (x + 256)) as [E _]; [lra|]. rewrite E. rewrite (int_part_unique (x + 256) (k + 256)) by (rewrite plus_IZR; lra).
    replace (k + 256 <? 0) with false by lia. reflexivity.
  - intros k Hk. unfold lookup_clamped. assert (E : as_i64R (IZR k + 256) = k + 256).
    { rewrite <- (plus_IZR k 256). unfold as_i64R. destruct (Rle_dec 0 (IZR (k + 256))) as [C|C].
      - rewrite (int_part_unique (IZR (k + 256)) (k + 256)) by lra. lia.
      - rewrite <- opp_IZR. rewrite (int_part_unique (IZR (- (k + 256))) (- (k + 256))) by lra. lia. }
    rewrite E. replace (510 <? k + 256) with false by lia.
    replace (if k + 256 <? 0 then 0 else k + 256) with 0 by (destruct (k + 256 <? 0) eqn:B; lia).
    change (0 mod 512) with 0. change ((0 + 1) mod 512) with 1. rewrite !F by lia. cbn [obind]. rewrite plus_IZR.
    destruct (C72_lerp_partial (IZR k + 256 - (IZR k + 256)) (g 0%Z) (g 1%Z)) as (v & Ev & Vv & _); [lra|].
    rewrite Ev. f_equal. rewrite Vv. ring.
Qed.
(* Below the table, between whole notes, the clamp does not help: the fraction is negative and the interpolation panics (REFUTED: safe outside). *)
Theorem C83_clamped_below_refuted : forall table g x, full table g -> (-1000000 < x < -256)%R -> (forall k, x <> IZR k) -> lookup_clamped table x = Panic.
Proof.
  intros table g x F Hx Hn. unfold lookup_clamped.
  assert (TN : as_i64R (x + 256) = - Int_part (- (x + 256))).
  { unfold as_i64R. destruct (Rle_dec 0 (x + 256)); [lra|]. destruct (base_Int_part (- (x + 256))) as [B1 B2].
    assert (-1 < Int_part (- (x + 256))) by (apply lt_IZR; lra). assert (Int_part (- (x + 256)) < 1000001) by (apply lt_IZR; lra). lia. }
  rewrite TN. destruct (base_Int_part (- (x + 256))) as [B1 B2].
  set (e := Int_part (- (x + 256))) in *. assert (- 1 < e) by (apply lt_IZR; lra). replace (510 <? - e) with false by lia.
  rewrite !F by (apply Z.mod_pos_bound; lia). cbn [obind]. destruct (C72_lerp_endpoint_refuted) as (_ & _ & P). apply P.
  rewrite opp_IZR. intros [Q1 Q2]. assert (NE : x <> IZR (- e - 256)) by apply Hn. rewrite minus_IZR, opp_IZR in NE. lra.
Qed.
Example C34_lines_nonvacuous : writes [45; 49; 50] (-12) /\ writes [43; 53] 5 /\ parse_i32 [50; 49; 52; 55; 52; 56; 51; 54; 52; 55] = Some 2147483647
  /\ parse_i32 [50; 49; 52; 55; 52; 56; 51; 54; 52; 56] = None /\ parse_i32 [45; 50; 49; 52; 55; 52; 56; 51; 54; 52; 56] = Some (-2147483648).
Proof.
  repeat split; try reflexivity; [apply (W_minus [49; 50])|apply (W_plus [53])]; try discriminate; repeat constructor; lia.
Qed.
Print Assumptions C82_integer_lines. Print Assumptions C34_count_lines. Print Assumptions C34_ratio_line_refuted. Print Assumptions C82_remap_reference. Print Assumptions C83_clamped_lookup.
