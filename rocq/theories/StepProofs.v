(* StepProofs.v - lemmas about StepModel.v *)
From Coq Require Import Reals Lra.
From Flocq Require Import Core.Core IEEE754.BinarySingleNaN.
From Verif Require Import Base Util F32 F32Facts StepModel.
Local Open Scope Z_scope.

(** mute masks *)
Lemma bit64_ok i : 0 <= i < 64 -> bit64 i = Ok (Z.shiftl 1 i).
Proof. intros H. unfold bit64. destruct (Z.leb_spec 0 i); [|lia]. destruct (Z.ltb_spec i 64); [reflexivity|lia]. Qed.
Lemma shiftl1_testbit i j : 0 <= i -> 0 <= j -> Z.testbit (Z.shiftl 1 i) j = (j =? i).
Proof.
  intros Hi Hj. rewrite Z.shiftl_spec by exact Hj. destruct (Z.eqb_spec j i) as [->|N]; [now rewrite Z.sub_diag|].
  destruct (Z.ltb_spec j i); [apply Z.testbit_neg_r; lia|]. change 1 with (2 ^ 0). apply Z.pow2_bits_false. lia.
Qed.
Lemma land_bit_0 m i : 0 <= i -> (Z.land m (Z.shiftl 1 i) =? 0) = negb (Z.testbit m i).
Proof.
  intros Hi. destruct (Z.eqb_spec (Z.land m (Z.shiftl 1 i)) 0) as [E|N].
  - assert (H : Z.testbit (Z.land m (Z.shiftl 1 i)) i = false) by (rewrite E; apply Z.bits_0).
    rewrite Z.land_spec, shiftl1_testbit, Z.eqb_refl, andb_true_r in H by lia. now rewrite H.
  - destruct (Z.testbit m i) eqn:E; [reflexivity|]. exfalso. apply N. apply Z.bits_inj_iff'. intros j Hj.
    rewrite Z.land_spec, shiftl1_testbit, Z.bits_0 by lia. destruct (Z.eqb_spec j i) as [->|]; [now rewrite E|apply andb_false_r].
Qed.
Lemma not64_testbit x i : 0 <= i < 64 -> Z.testbit (not64 x) i = negb (Z.testbit x i).
Proof.
  intros H. unfold not64. rewrite Z.lxor_spec. rewrite Z.testbit_ones_nonneg by lia.
  destruct (Z.ltb_spec i 64); [|lia]. apply xorb_true_r.
Qed.
Lemma muted_testbit q i : 0 <= i < 64 -> is_step_muted q i = Ok (Z.testbit (q_mute q) i).
Proof. intros H. unfold is_step_muted. rewrite bit64_ok by exact H. cbn. rewrite land_bit_0 by lia. now rewrite negb_involutive. Qed.
Lemma ones16_testbit i : 0 <= i -> Z.testbit (Z.shiftr (Z.ones 64) (64 - N_STEPS)) i = (i <? 16).
Proof. intros H. change (Z.shiftr (Z.ones 64) (64 - N_STEPS)) with (Z.ones 16). now rewrite Z.testbit_ones_nonneg by lia. Qed.

(** decimal and hexadecimal text *)
Definition is_digit (c : Z) : Prop := 48 <= c <= 57 \/ 65 <= c <= 70.
Lemma digit_char base n : 2 <= base <= 16 -> let d := n mod base in is_digit (if d <? 10 then 48 + d else 55 + d).
Proof. intros H d. pose proof (Z.mod_pos_bound n base ltac:(lia)). unfold is_digit. fold d in H0. destruct (Z.ltb_spec d 10); lia. Qed.
Lemma digits_ok base fuel n : 2 <= base <= 16 -> Forall is_digit (digits base fuel n).
Proof.
  intros H. revert n. induction fuel; intros n; cbn [digits]; [constructor|]. apply Forall_app. split.
  - destruct (n <? base); [constructor|apply IHfuel].
  - constructor; [|constructor]. now apply digit_char.
Qed.
Lemma digits_nonempty base fuel n : digits base (S fuel) n <> [].
Proof. cbn [digits]. intros E. apply app_eq_nil in E as [_ E]. discriminate. Qed.
Lemma parse_digits_app base lim l1 l2 acc :
  parse_digits base lim acc (l1 ++ l2) = match parse_digits base lim acc l1 with Some a => parse_digits base lim a l2 | None => None end.
Proof.
  revert acc. induction l1 as [|c l1 IH]; intros acc; cbn; [reflexivity|]. destruct (digit_of base c); [|reflexivity].
  destruct (_ <=? lim); [apply IH|reflexivity].
Qed.
Lemma digit_of_char base d : 2 <= base <= 16 -> 0 <= d < base -> digit_of base (if d <? 10 then 48 + d else 55 + d) = Some d.
Proof.
  intros Hb Hd. unfold digit_of. destruct (Z.ltb_spec d 10).
  - destruct (Z.leb_spec 48 (48 + d)); [|lia]. destruct (Z.leb_spec (48 + d) 57); [|lia]. cbn [andb].
    destruct (Z.ltb_spec (48 + d - 48) base); [|lia]. f_equal. lia.
  - destruct (Z.leb_spec (55 + d) 57); [lia|]. rewrite andb_false_r. destruct (Z.leb_spec 65 (55 + d)); [|lia]. destruct (Z.leb_spec (55 + d) 90); [|lia]. cbn [andb].
    destruct (Z.ltb_spec (55 + d - 55) base); [|lia]. f_equal. lia.
Qed.
Lemma parse_digits_show base lim fuel n : 2 <= base <= 16 -> 0 <= n <= lim -> n < base ^ Z.of_nat fuel ->
  parse_digits base lim 0 (digits base fuel n) = Some n.
Proof.
  intros Hb. revert n. induction fuel; intros n Hn Hf.
  - cbn in Hf. cbn. f_equal. lia.
  - cbn [digits]. rewrite parse_digits_app. pose proof (Z.mod_pos_bound n base ltac:(lia)) as Hm. pose proof (Z.div_mod n base ltac:(lia)) as Hd.
    assert (P : parse_digits base lim 0 (if n <? base then [] else digits base fuel (n / base)) = Some (n / base)).
    { destruct (Z.ltb_spec n base); [cbn; f_equal; symmetry; apply Z.div_small; lia|]. apply IHfuel.
      - split; [apply Z.div_pos; lia|]. apply Z.le_trans with n; [|lia]. apply Z.div_le_upper_bound; nia.
      - apply Z.div_lt_upper_bound; [lia|]. rewrite Nat2Z.inj_succ, Z.pow_succ_r in Hf by lia. lia. }
    rewrite P. cbn [parse_digits]. rewrite digit_of_char by (cbn; lia). cbv zeta. destruct (Z.leb_spec (n / base * base + n mod base) lim); [f_equal|]; lia.
Qed.
Lemma parse_uint_show base fuel n : 2 <= base <= 16 -> 0 <= n <= usize_max -> n < base ^ Z.of_nat (S fuel) ->
  parse_uint base usize_max (digits base (S fuel) n) = Some n.
Proof.
  intros Hb Hn Hf. pose proof (parse_digits_show base usize_max (S fuel) n Hb Hn Hf) as P. pose proof (digits_ok base (S fuel) n Hb) as D.
  pose proof (digits_nonempty base fuel n) as NE. destruct (digits base (S fuel) n) as [|c r]; [congruence|]. cbn [parse_uint].
  inversion D as [|? ? Hc _]; subst. destruct (Z.eqb_spec c 43) as [->|]; [unfold is_digit in Hc; lia|exact P].
Qed.
Lemma show_dec_parse n : 0 <= n <= usize_max -> parse_uint 10 usize_max (show_dec n) = Some n.
Proof. intros H. apply (parse_uint_show 10 63); [lia|exact H|]. unfold usize_max in H. change (10 ^ Z.of_nat 64) with (10 ^ 64). lia. Qed.
Lemma show_hex_parse n : 0 <= n <= usize_max -> parse_uint 16 usize_max (show_hex n) = Some n.
Proof. intros H. apply (parse_uint_show 16 63); [lia|exact H|]. unfold usize_max in H. change (16 ^ Z.of_nat 64) with (16 ^ 64). lia. Qed.

(** splitting at whitespace *)
Definition token (t : list Z) : Prop := t <> [] /\ Forall (fun c => is_space c = false) t.
Lemma tokens_token t r cur : Forall (fun c => is_space c = false) t -> tokens (t ++ r) cur = tokens r (rev t ++ cur).
Proof.
  intros H. revert cur. induction H as [|c t Hc H IH]; intros cur; cbn; [reflexivity|]. rewrite Hc, IH. f_equal. now rewrite <- app_assoc.
Qed.
Lemma split_token t r : token t -> split_ws (t ++ 32 :: r) = t :: split_ws r.
Proof.
  intros [N H]. unfold split_ws. rewrite tokens_token by exact H. cbn [tokens]. change (is_space 32) with true. cbv iota.
  rewrite app_nil_r. destruct (rev t) eqn:E; [|rewrite <- E, rev_involutive; reflexivity].
  apply (f_equal (@rev Z)) in E. rewrite rev_involutive in E. cbn in E. congruence.
Qed.
Lemma split_last t : token t -> split_ws t = [t].
Proof.
  intros [N H]. unfold split_ws. rewrite <- (app_nil_r t) at 1. rewrite tokens_token by exact H. cbn [tokens]. rewrite app_nil_r.
  destruct (rev t) eqn:E; [|rewrite <- E, rev_involutive; reflexivity].
  apply (f_equal (@rev Z)) in E. rewrite rev_involutive in E. cbn in E. congruence.
Qed.
Lemma digits_token base fuel n : 2 <= base <= 16 -> token (digits base (S fuel) n).
Proof.
  intros H. split; [apply digits_nonempty|]. eapply Forall_impl; [|apply digits_ok, H]. cbn beta. intros c Hc. unfold is_space. unfold is_digit in Hc.
  repeat match goal with |- context [c =? ?k] => destruct (Z.eqb_spec c k); [lia|] end. reflexivity.
Qed.
Lemma split_flat (show : f32 -> list Z) xs r : Forall (fun x => token (show x)) xs ->
  split_ws (flat_map (fun x => show x ++ [32]) xs ++ r) = map show xs ++ split_ws r.
Proof.
  intros H. induction H as [|x xs Hx H IH]; cbn [flat_map map app]; [reflexivity|]. rewrite <- !app_assoc. cbn [app]. rewrite split_token by exact Hx. now rewrite IH.
Qed.
Lemma load_steps_map parse show xs : forall old r, length old = length xs -> Forall (fun x => parse (show x) = Some x) xs ->
  load_steps parse old (map show xs ++ r) = (xs, r).
Proof.
  induction xs as [|x xs IH]; intros [|o old] r L H; cbn in *; try discriminate; [reflexivity|]. inversion H; subst.
  rewrite IH by (auto; lia). now rewrite H2.
Qed.
Lemma load_steps_length parse old ts : length (fst (load_steps parse old ts)) = length old.
Proof.
  revert ts. induction old as [|o old IH]; intros ts; cbn; [reflexivity|]. destruct ts as [|t ts].
  - specialize (IH []). destruct (load_steps parse old []); cbn in *. now rewrite IH.
  - specialize (IH ts). destruct (load_steps parse old ts); cbn in *. now rewrite IH.
Qed.

(** the loops of next_step *)
Definition lim23 : Z := 8388608.
Lemma loop_len_ok q : 0 <= q_loop_start q <= q_loop_end q -> q_loop_end q <= 63 ->
  exists n, loop_len q = Ok n /\ fin n /\ val n = IZR (q_loop_end q - q_loop_start q + 1).
Proof.
  intros H H'. unfold loop_len. destruct (Z.ltb_spec (q_loop_end q) (q_loop_start q)); [lia|]. eexists. split; [reflexivity|]. apply fofZ_ok. lia.
Qed.
Lemma IZR_big r a b : Z.abs a <= 2 ^ 30 -> Z.abs b <= 2 ^ 30 -> (IZR a <= r <= IZR b)%R -> (Rabs r <= big)%R.
Proof.
  intros Ha Hb H. apply Rabs_le. assert (A : (Rabs (IZR (- 2 ^ 30)) <= big)%R) by (apply big_Z; lia).
  assert (B : (Rabs (IZR (2 ^ 30)) <= big)%R) by (apply big_Z; lia).
  apply Rabs_le_inv in A. apply Rabs_le_inv in B. assert (IZR (- 2 ^ 30) <= IZR a)%R by (apply IZR_le; lia). assert (IZR b <= IZR (2 ^ 30))%R by (apply IZR_le; lia). lra.
Qed.
Lemma rnd_between r a b : Z.abs a <= 16777216 -> Z.abs b <= 16777216 -> (IZR a <= r <= IZR b)%R -> (IZR a <= rnd r <= IZR b)%R.
Proof. intros Ha Hb H. split; [rewrite <- (rnd_Z a) by exact Ha|rewrite <- (rnd_Z b) by exact Hb]; apply rnd_le; lra. Qed.

Lemma wrap_down_ok q : 0 <= q_loop_start q <= q_loop_end q -> q_loop_end q <= 63 -> forall fuel w lo hi, fin w ->
  (IZR lo <= val w <= IZR hi)%R -> - lim23 <= lo <= hi -> hi <= lim23 -> lo <= q_loop_start q - 1 -> (Z.to_nat (hi - q_loop_end q) < fuel)%nat ->
  exists w', wrap_down q fuel w = Ok (Some w') /\ fin w' /\ (IZR lo <= val w' <= IZR (q_loop_end q))%R.
Proof.
  intros HL HE. unfold lim23. induction fuel as [|fuel IH]; intros w lo hi F V H1 H2 H3 HF; [lia|]. cbn [wrap_down].
  destruct (fofZ_ok (q_loop_end q) ltac:(lia)) as [FE VE].
  destruct (fltb_cases _ w FE F) as [[-> C]|[-> C]]; rewrite VE in C.
  - destruct (loop_len_ok q HL HE) as (n & -> & Fn & Vn). cbn [obind].
    assert (LH : q_loop_end q < hi) by (apply lt_IZR; lra).
    set (n' := q_loop_end q - q_loop_start q + 1) in *.
    assert (B : (IZR (q_loop_start q - 1) <= val w - val n <= IZR (hi - n'))%R).
    { rewrite Vn, !minus_IZR. unfold n'. rewrite plus_IZR, minus_IZR. cbn. lra. }
    destruct (fsub_ok w n F Fn) as [F' V'].
    { eapply IZR_big; [| |exact B]; lia. }
    destruct (IH (fsub w n) lo (hi - n')) as (w' & E & Fw & Vw); try lia; auto.
    + rewrite V'. apply rnd_between in B; [|lia|lia]. assert (IZR lo <= IZR (q_loop_start q - 1))%R by (apply IZR_le; lia). lra.
    + exists w'. auto.
  - exists w. split; [reflexivity|]. split; [exact F|]. lra.
Qed.
Lemma wrap_up_ok q : 0 <= q_loop_start q <= q_loop_end q -> q_loop_end q <= 63 -> forall fuel w lo hi, fin w ->
  (IZR lo <= val w <= IZR hi)%R -> q_loop_start q <= hi <= q_loop_end q + 1 -> - lim23 <= lo -> (Z.to_nat (q_loop_start q - lo) < fuel)%nat ->
  exists w', wrap_up q fuel w = Ok (Some w') /\ fin w' /\ (IZR (q_loop_start q) <= val w' <= IZR (q_loop_end q + 1))%R.
Proof.
  intros HL HE. unfold lim23. induction fuel as [|fuel IH]; intros w lo hi F V H1 H2 HF; [lia|]. cbn [wrap_up].
  destruct (fofZ_ok (q_loop_start q) ltac:(lia)) as [FE VE].
  destruct (fltb_cases w _ F FE) as [[-> C]|[-> C]]; rewrite VE in C.
  - destruct (loop_len_ok q HL HE) as (n & -> & Fn & Vn). cbn [obind].
    assert (LH : lo < q_loop_start q) by (apply lt_IZR; lra).
    set (n' := q_loop_end q - q_loop_start q + 1) in *.
    assert (B : (IZR (lo + n') <= val w + val n <= IZR (q_loop_end q + 1))%R).
    { rewrite Vn, plus_IZR. replace (q_loop_end q + 1) with (q_loop_start q + n') by (unfold n'; lia). rewrite plus_IZR. lra. }
    destruct (fadd_ok w n F Fn) as [F' V'].
    { eapply IZR_big; [| |exact B]; lia. }
    destruct (IH (fadd w n) (lo + n') (q_loop_end q + 1)) as (w' & E & Fw & Vw); try lia; auto.
    + rewrite V'. apply rnd_between in B; [|lia|lia]. lra.
    + exists w'. auto.
  - exists w. split; [reflexivity|]. split; [exact F|]. assert (IZR hi <= IZR (q_loop_end q + 1))%R by (apply IZR_le; lia). lra.
Qed.

(** shuffle range *)
Lemma half_ok : fin (fpow 1 (-1)) /\ val (fpow 1 (-1)) = (/ 2)%R.
Proof. destruct (fpow_ok 1 (-1) ltac:(lia) ltac:(lia)) as [A B]. split; [exact A|]. etransitivity; [exact B|]. cbn. lra. Qed.
Lemma pow100_pos : (0 < bpow radix2 (-100))%R. Proof. apply bpow_gt_0. Qed.
Definition shuffle_ok (q : stepseq) : Prop := fin (q_shuffle q) /\ (bpow radix2 (-100) <= val (q_shuffle q) <= IZR 1048576)%R.
Lemma amount_ok q : shuffle_ok q -> fin (shuffle_amount q) /\ (0 < val (shuffle_amount q) <= IZR 524288)%R.
Proof.
  intros [F V]. destruct half_ok as [FH VH]. pose proof pow100_pos as PP. unfold shuffle_amount.
  assert (B : (Rabs (val (q_shuffle q) * val (fpow 1 (-1))) <= big)%R).
  { rewrite VH. apply IZR_big with 0 524288; [lia|lia|]. lra. }
  destruct (fmul_ok _ _ F FH B) as [F' V']. split; [exact F'|]. rewrite V', VH. split.
  - apply Rlt_le_trans with (bpow radix2 (-101)); [apply bpow_gt_0|]. rewrite <- (rnd_id (bpow radix2 (-101))) by (apply fmt_bpow; lia).
    apply rnd_le. replace (bpow radix2 (-101)) with (bpow radix2 (-100) * / 2)%R; [lra|]. change (/ 2)%R with (bpow radix2 (-1)). rewrite <- bpow_plus. reflexivity.
  - apply rnd_between with (a := 0) (b := 524288); [lia|lia|]. lra.
Qed.
Lemma amount_range q : shuffle_ok q -> gen_range_nonempty (fopp (shuffle_amount q)) (shuffle_amount q) = true.
Proof.
  intros H. destruct (amount_ok q H) as [F V]. destruct (fopp_ok _ F) as [F' V']. unfold gen_range_nonempty.
  apply andb_true_intro. split; [apply fltb_spec; auto; rewrite V'; lra|].
  apply fsub_ok; auto. rewrite V'. apply IZR_big with 0 1048576; [lia|lia|]. lra.
Qed.
Lemma draw_bounds q off : shuffle_ok q -> in_gen_range (fopp (shuffle_amount q)) (shuffle_amount q) off = true ->
  fin off /\ (IZR (-524288) <= val off <= IZR 524288)%R.
Proof.
  intros H D. destruct (amount_ok q H) as [F V]. destruct (fopp_ok _ F) as [F' V']. unfold in_gen_range in D. apply andb_prop in D as [D1 D2].
  assert (FO : fin off).
  { destruct (cases off) as [G|[-> | [s ->]]]; [exact G| |].
    - exfalso. clear - D2. unfold fltb, Bltb in D2. cbn in D2. discriminate.
    - exfalso. rewrite fltb_inf_l in D2 by exact F. subst s. unfold fleb, Bleb in D1. clear - D1 F'. unfold fin in F'. destruct (fopp (shuffle_amount q)); cbn in *; discriminate. }
  split; [exact FO|]. apply fleb_spec in D1; auto. apply fltb_spec in D2; auto. rewrite V' in D1. lra.
Qed.
Lemma zero_draw q : shuffle_ok q -> in_gen_range (fopp (shuffle_amount q)) (shuffle_amount q) f0 = true.
Proof.
  intros H. destruct (amount_ok q H) as [F V]. destruct (fopp_ok _ F) as [F' V']. destruct f0_ok as [Z0 Z1]. unfold in_gen_range.
  apply andb_true_intro. split; [apply fleb_spec; auto; rewrite V', Z1; lra|apply fltb_spec; auto; rewrite Z1; lra].
Qed.

(** integer-exact wrapping *)
Definition wrap_int (q : stepseq) (z : Z) : Z := q_loop_start q + (z - q_loop_start q) mod (q_loop_end q - q_loop_start q + 1).
Lemma wrap_down_int q : 0 <= q_loop_start q <= q_loop_end q -> q_loop_end q <= 63 -> forall fuel w z, fin w -> val w = IZR z ->
  q_loop_start q <= z <= 1000 -> (Z.to_nat z < fuel)%nat ->
  exists w', wrap_down q fuel w = Ok (Some w') /\ fin w' /\ val w' = IZR (wrap_int q z).
Proof.
  intros HL HE. induction fuel as [|fuel IH]; intros w z F V Hz HF; [lia|]. cbn [wrap_down].
  destruct (fofZ_ok (q_loop_end q) ltac:(lia)) as [FE VE].
  destruct (fltb_cases _ w FE F) as [[-> C]|[-> C]]; rewrite VE, V in C.
  - apply lt_IZR in C. destruct (loop_len_ok q HL HE) as (n & -> & Fn & Vn). cbn [obind].
    destruct (fsub_ok w n F Fn) as [F' V'].
    { rewrite V, Vn, <- minus_IZR. apply big_Z. lia. }
    rewrite V, Vn, <- minus_IZR, rnd_Z in V' by lia.
    destruct (IH (fsub w n) _ F' V') as (w' & E & Fw & Vw); try lia. exists w'. split; [exact E|]. split; [exact Fw|]. rewrite Vw. f_equal. unfold wrap_int. f_equal.
    set (n' := q_loop_end q - q_loop_start q + 1) in *. replace (z - n' - q_loop_start q) with (z - q_loop_start q + (-1) * n') by lia. apply Z.mod_add. lia.
  - apply le_IZR in C. exists w. split; [reflexivity|]. split; [exact F|]. rewrite V. f_equal. unfold wrap_int. rewrite Z.mod_small by lia. lia.
Qed.
Lemma wrap_int_in q z : 0 <= q_loop_start q <= q_loop_end q -> q_loop_start q <= wrap_int q z <= q_loop_end q.
Proof. intros H. unfold wrap_int. pose proof (Z.mod_pos_bound (z - q_loop_start q) (q_loop_end q - q_loop_start q + 1) ltac:(lia)). lia. Qed.
Lemma cast_int lo hi w z : fin w -> val w = IZR z -> 0 <= z -> lo <= z <= hi -> fcast lo hi w = z.
Proof.
  intros F V Hz H. rewrite (fcast_floor lo hi w z F Hz); [lia|]. rewrite V, plus_IZR. lra.
Qed.
