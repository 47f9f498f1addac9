(* StepProps2.v - C30, C31, C32, C69 (continued): what a fresh sequencer holds, how numbers are read from a file, how far swing moves a step. *)
From Coq Require Import Reals Lra FinFun.
From Flocq Require Import Core.Core IEEE754.BinarySingleNaN.
From Verif Require Import Base Util F32 F32Facts StepModel StepProofs StepProps.
Local Open Scope Z_scope.

(** ** C30: a step number outside the 64 flags is refused loudly *)
Theorem C30_far_steps_panic : forall q i, 64 <= i -> mute_step q i = Panic /\ unmute_step q i = Panic /\ is_step_muted q i = Panic.
Proof. intros q i H. unfold mute_step, unmute_step, is_step_muted, bit64. replace ((0 <=? i) && (i <? 64)) with false by lia. auto. Qed.
Print Assumptions C30_far_steps_panic.

(** ** C32: a fresh sequencer *)
(* the sequence given (all zero by default), certain triggers, the loop over all sixteen steps, nothing muted or masked, positioned on step 0 *)
Theorem C32_fresh : forall l, length l = 16%nat -> let q := new_from_sequence l in
  (forall i x, 0 <= i < 16 -> nth_error l (Z.to_nat i) = Some x -> step q i = Ok x) /\ (forall i, 0 <= i < 16 -> get_probability q i = Ok f1 /\ is_step_muted q i = Ok false)
  /\ q_loop_start q = 0 /\ q_loop_end q = 15 /\ q_shuffle q = f0 /\ q_trigmask q = 0 /\ q_cur q = 0 /\ (length (q_steps q) = 16 /\ length (q_probs q) = 16)%nat.
Proof.
  intros l L q. split; [|split; [|do 5 (split; [reflexivity|]); split; [exact L|reflexivity]]].
  - intros i x Hi E. unfold step, N_STEPS. replace (i <? 16) with true by lia. unfold zget, q. cbn [q_steps new_from_sequence]. replace (0 <=? i) with true by lia. now rewrite E.
  - intros i Hi. split.
    + unfold get_probability, N_STEPS. replace (i <? 16) with true by lia. unfold zget, q. cbn [q_probs new_from_sequence]. replace (0 <=? i) with true by lia.
      rewrite (nth_error_repeat f1 (m := 16)) by lia. reflexivity.
    + unfold is_step_muted, bit64. replace ((0 <=? i) && (i <? 64)) with true by lia. reflexivity.
Qed.
Print Assumptions C32_fresh.
Theorem C32_default : seq_default = new_from_sequence (repeat f0 16).
Proof. reflexivity. Qed.
Print Assumptions C32_default.
Example C32_fresh_instance : length (repeat f1 16) = 16%nat /\ step (new_from_sequence (repeat f1 16)) 15 = Ok f1. Proof. split; reflexivity. Qed.

(** ** C31: numbers in the file *)
(* what a digit is worth: decimal, or hexadecimal in either case *)
Definition digit (base c d : Z) : Prop := d < base /\ (48 <= c <= 57 /\ d = c - 48 \/ 65 <= c <= 90 /\ d = c - 55 \/ 97 <= c <= 122 /\ d = c - 87).
Fixpoint value (base : Z) (acc : Z) (ds : list Z) : Z := match ds with [] => acc | d :: r => value base (base * acc + d) r end.
(* the text of a number below 2^64: an optional plus sign, then at least one digit *)
Definition number (base : Z) (l : list Z) (v : Z) : Prop := exists cs ds, (l = cs \/ l = 43 :: cs) /\ cs <> [] /\ Forall2 (digit base) cs ds /\ v = value base 0 ds /\ v < 2 ^ 64.
Lemma digit_of_iff base c d : digit_of base c = Some d <-> digit base c d.
Proof.
  unfold digit_of, digit. destruct ((48 <=? c) && (c <=? 57)) eqn:A; [|destruct ((65 <=? c) && (c <=? 90)) eqn:B; [|destruct ((97 <=? c) && (c <=? 122)) eqn:C]].
  - destruct (c - 48 <? base) eqn:D; split; intros H; [injection H as <-; lia|f_equal; lia|discriminate|lia].
  - destruct (c - 55 <? base) eqn:D; split; intros H; [injection H as <-; lia|f_equal; lia|discriminate|lia].
  - destruct (c - 87 <? base) eqn:D; split; intros H; [injection H as <-; lia|f_equal; lia|discriminate|lia].
  - split; [discriminate|lia].
Qed.
Lemma value_ge base ds : 1 <= base -> Forall (fun d => 0 <= d) ds -> forall acc, 0 <= acc -> acc <= value base acc ds.
Proof. intros HB H. induction H as [|d ds Hd H IH]; intros acc HA; cbn [value]; [lia|]. transitivity (base * acc + d); [nia|]. apply IH. nia. Qed.
Lemma digit_nonneg base c d : digit base c d -> 0 <= d. Proof. unfold digit. lia. Qed.
Lemma parse_digits_iff base limit cs : 1 <= base -> forall acc v, 0 <= acc <= limit ->
  parse_digits base limit acc cs = Some v <-> exists ds, Forall2 (digit base) cs ds /\ v = value base acc ds /\ v <= limit.
Proof.
  intros HB. induction cs as [|c cs IH]; intros acc v HA; cbn [parse_digits].
  - split.
    + intros E. injection E as <-. exists []. repeat split; [constructor|lia].
    + intros (ds & F & -> & _). inversion F. reflexivity.
  - destruct (digit_of base c) as [d|] eqn:E.
    + apply digit_of_iff in E. pose proof (digit_nonneg _ _ _ E) as N. destruct (Z.leb_spec (acc * base + d) limit) as [L|L].
      * rewrite IH by nia. split.
        -- intros (ds & F & -> & H). exists (d :: ds). split; [now constructor|]. cbn [value]. replace (base * acc + d) with (acc * base + d) by lia. auto.
        -- intros (ds & F & -> & H). inversion F as [|? d' ? ds' F1 F2]; subst. assert (d' = d) by (unfold digit in *; lia). subst d'. exists ds'. split; [exact F2|]. cbn [value] in H |- *. replace (acc * base + d) with (base * acc + d) by lia. auto.
      * split; [discriminate|]. intros (ds & F & -> & H). exfalso. inversion F as [|? d' ? ds' F1 F2]; subst. assert (d' = d) by (unfold digit in *; lia). subst d'. cbn [value] in H.
        assert (G : base * acc + d <= value base (base * acc + d) ds').
        { apply value_ge; [lia| |nia]. clear - F2. induction F2 as [|? ? ? ? D F IH]; constructor; [exact (digit_nonneg _ _ _ D)|exact IH]. }
        lia.
    + split; [discriminate|]. intros (ds & F & _). exfalso. inversion F as [|? d' ? ds' F1 F2]; subst. apply digit_of_iff in F1. congruence.
Qed.
(* a number is read exactly when the text is one, and read as the value it denotes *)
Theorem C31_number_text : forall base l v, 2 <= base <= 36 -> (parse_uint base usize_max l = Some v <-> number base l v).
Proof.
  intros base l v HB. unfold parse_uint. destruct l as [|c r].
  - split; [discriminate|]. intros (cs & ds & [E|E] & N & _); [congruence|discriminate].
  - assert (PL : ~ exists d, digit base 43 d) by (intros [d D]; unfold digit in D; lia).
    destruct (Z.eqb_spec c 43) as [->|NE].
    + destruct r as [|c r].
      * split; [discriminate|]. intros (cs & ds & [E|E] & N & F & _).
        -- subst cs. inversion F; subst. exfalso. eauto.
        -- injection E as <-. now elim N.
      * rewrite parse_digits_iff by (unfold usize_max; lia). split.
        -- intros (ds & F & -> & H). exists (c :: r), ds. split; [now right|]. split; [discriminate|]. split; [exact F|]. split; [reflexivity|]. unfold usize_max in H. lia.
        -- intros (cs & ds & [E|E] & N & F & -> & H); [subst cs; inversion F; subst; exfalso; eauto|]. injection E as <-. exists ds. split; [exact F|]. split; [reflexivity|]. unfold usize_max. lia.
    + rewrite parse_digits_iff by (unfold usize_max; lia). split.
      * intros (ds & F & -> & H). exists (c :: r), ds. split; [now left|]. split; [discriminate|]. split; [exact F|]. split; [reflexivity|]. unfold usize_max in H. lia.
      * intros (cs & ds & [E|E] & N & F & -> & H); [|congruence]. subst cs. exists ds. split; [exact F|]. split; [reflexivity|]. unfold usize_max. lia.
Qed.
Print Assumptions C31_number_text.
Lemma load_steps_16 parse : forall old ts r, length old = length ts ->
  load_steps parse old (ts ++ r) = (map (fun t => match parse t with Some v => v | None => f0 end) ts, r).
Proof.
  induction old as [|s old IH]; intros [|t ts] r L; try discriminate L; cbn [load_steps app map]; [now destruct r|]. rewrite IH by (cbn in L; lia). reflexivity.
Qed.
Definition num_or_zero (base : Z) (l : list Z) (v : Z) : Prop := number base l v \/ (v = 0 /\ forall w, ~ number base l w).
(* whatever twenty words the file holds: sixteen steps, the loop points in decimal, the shuffle, the mask in hexadecimal; a word that is no number counts as 0 *)
Theorem C31_load_fields : forall parse q text ts a b c d, length (q_steps q) = 16%nat -> length ts = 16%nat -> split_ws text = ts ++ [a; b; c; d] ->
  let r := load_sequence parse q text in let fl := fun t => match parse t with Some v => v | None => f0 end in
  q_steps r = map fl ts /\ num_or_zero 10 a (q_loop_start r) /\ num_or_zero 10 b (q_loop_end r) /\ q_shuffle r = fl c /\ num_or_zero 16 d (q_trigmask r).
Proof.
  intros parse q text ts a b c d L1 L2 E r fl.
  assert (NZ : forall base l, 2 <= base <= 36 -> num_or_zero base l (or_zero (parse_uint base usize_max l))).
  { intros base l HB. destruct (parse_uint base usize_max l) as [v|] eqn:EP; cbn [or_zero].
    - left. now apply C31_number_text.
    - right. split; [reflexivity|]. intros w W. apply C31_number_text in W; [congruence|lia]. }
  unfold r, load_sequence. rewrite E, (load_steps_16 parse (q_steps q) ts _ ltac:(congruence)). cbn [q_steps q_loop_start q_loop_end q_shuffle q_trigmask].
  split; [reflexivity|]. split; [apply NZ; lia|]. split; [apply NZ; lia|]. split; [reflexivity|]. apply NZ; lia.
Qed.
Print Assumptions C31_load_fields.
(* 12, +7, 1F and the non-numbers +, 1x, 2^64 *)
Example C31_load_instance : parse_uint 10 usize_max [49; 50] = Some 12 /\ parse_uint 10 usize_max [43; 55] = Some 7 /\ parse_uint 16 usize_max [49; 70] = Some 31
  /\ parse_uint 10 usize_max [43] = None /\ parse_uint 10 usize_max [49; 120] = None
  /\ parse_uint 10 usize_max [49;56;52;52;54;55;52;52;48;55;51;55;48;57;53;53;49;54;49;54] = None.
Proof. vm_compute. auto 10. Qed.

(** ** C69: how far swing moves a step *)
Lemma fround_ok x : fin x -> val (fround x) = IZR (ZnearestA (val x)).
Proof.
  intros F. unfold fround. destruct (Bnearbyint_correct 24 128 _ mode_NA x) as (A & _ & _). unfold val. rewrite A. cbn [round_mode]. unfold round, F2R, scaled_mantissa, cexp, FIX_exp. cbn. rewrite !Rmult_1_r. reflexivity.
Qed.
Lemma fround_fin x : fin x -> fin (fround x).
Proof. intros F. unfold fin, fround in *. destruct (Bnearbyint_correct 24 128 _ mode_NA x) as (_ & A & _). now rewrite A. Qed.
(* m is the nearest whole number to amount * loop length, ties excluded by 1/1024 *)
Lemma swing_steps_nearest q amount m : fin amount -> 0 <= q_loop_start q <= q_loop_end q -> q_loop_end q < 16 -> Z.abs m <= 1000 ->
  (Rabs (val amount * IZR (q_loop_end q - q_loop_start q + 1) - IZR m) <= 511 / 1024)%R -> swing_steps q amount = m.
Proof.
  intros FA HL HE HM D. unfold swing_steps. set (n := q_loop_end q - q_loop_start q + 1) in *. destruct (fofZ_ok n) as [FN VN]; [unfold n; lia|].
  assert (ZM : (Rabs (IZR m) <= 1000)%R) by (rewrite <- abs_IZR; apply (IZR_le _ 1000); exact HM).
  assert (B : (Rabs (val amount * val (fofZ n)) <= big)%R).
  { rewrite VN. apply Rle_trans with 1001%R; [|rewrite <- (Rabs_right 1001) by lra; apply (big_Z 1001); lia].
    replace (val amount * IZR n)%R with ((val amount * IZR n - IZR m) + IZR m)%R by ring. eapply Rle_trans; [apply Rabs_triang|]. lra. }
  destruct (fmul_ok amount (fofZ n) FA FN B) as [FP VP]. rewrite VN in VP.
  assert (H2 : (bpow radix2 (-10) = / 1024)%R) by reflexivity.
  assert (LO : (IZR m - 511 / 1024 <= rnd (val amount * IZR n))%R).
  { apply Rabs_le_inv in D. rewrite <- (rnd_id (IZR m - 511 / 1024)); [apply rnd_le; lra|].
    replace (IZR m - 511 / 1024)%R with (IZR (1024 * m - 511) * bpow radix2 (-10))%R; [apply fmt_pow; lia|]. rewrite H2, minus_IZR, mult_IZR. field. }
  assert (HI : (rnd (val amount * IZR n) <= IZR m + 511 / 1024)%R).
  { apply Rabs_le_inv in D. rewrite <- (rnd_id (IZR m + 511 / 1024)); [apply rnd_le; lra|].
    replace (IZR m + 511 / 1024)%R with (IZR (1024 * m + 511) * bpow radix2 (-10))%R; [apply fmt_pow; lia|]. rewrite H2, plus_IZR, mult_IZR. field. }
  unfold as_i32_f. rewrite fcast_fin by (apply fround_fin; exact FP). rewrite (fround_ok _ FP), VP, Ztrunc_IZR.
  replace (ZnearestA (rnd (val amount * IZR n))) with m; [lia|]. symmetry. apply Znearest_imp. apply Rabs_lt. lra.
Qed.
(* every other step of the loop moves by (nearest whole number to amount * loop length) / 16, kept within [0,1]; the other steps stay *)
Theorem C69_swing_amount : forall q amount m, length (q_steps q) = 16%nat -> 0 <= q_loop_start q <= q_loop_end q -> q_loop_end q < 16 -> fin amount -> Z.abs m <= 1000 ->
  (Rabs (val amount * IZR (q_loop_end q - q_loop_start q + 1) - IZR m) <= 511 / 1024)%R ->
  exists q', apply_swing q amount = Ok q' /\ forall j, 0 <= j < 16 -> exists x y, step q j = Ok x /\ step q' j = Ok y /\
    if (q_loop_start q <=? j) && (j <=? q_loop_end q) && Z.even (j - q_loop_start q)
    then unit_step x -> fin y /\ val y = Rmax 0 (Rmin 1 (rnd (val x + IZR m / 16))) else y = x.
Proof.
  intros q amount m L HL HE FA HM D. pose proof (swing_steps_nearest q amount m FA HL HE HM D) as SW. clear D.
  unfold apply_swing. destruct (Z.ltb_spec (q_loop_end q) (q_loop_start q)); [lia|]. cbv zeta. rewrite SW.
  assert (IDX : forall j, In j (swing_indices q) <-> q_loop_start q <= j <= q_loop_end q /\ Z.even (j - q_loop_start q) = true).
  { intros j. unfold swing_indices. rewrite in_map_iff. split.
    - intros (a & <- & Ha). apply in_seq in Ha. split; [lia|]. replace (q_loop_start q + 2 * Z.of_nat a - q_loop_start q) with (2 * Z.of_nat a) by lia. now rewrite Z.even_mul.
    - intros [Hj He]. apply Z.even_spec in He as [h Hh]. exists (Z.to_nat h). split; [lia|]. apply in_seq. lia. }
  destruct (swing_fold m (swing_indices q) (q_steps q)) as (l' & E & L' & Rd).
  { unfold swing_indices. apply FinFun.Injective_map_NoDup; [intros a b; lia|apply seq_NoDup]. }
  { apply Forall_forall. intros j Hj. apply IDX in Hj. lia. }
  exists (set_steps q l'). rewrite E. split; [reflexivity|]. intros j Hj.
  destruct (zget_ok (q_steps q) j ltac:(lia)) as [x Ex]. unfold step, N_STEPS. destruct (Z.ltb_spec j 16); [|lia]. cbn [q_steps set_steps]. rewrite Rd by lia. rewrite Ex. cbn [obind].
  assert (EB : existsb (Z.eqb j) (swing_indices q) = (q_loop_start q <=? j) && (j <=? q_loop_end q) && Z.even (j - q_loop_start q)).
  { apply eq_iff_eq_true. rewrite existsb_exists, !andb_true_iff, !Z.leb_le. split.
    - intros (y & Y1 & Y2). apply Z.eqb_eq in Y2. subst y. apply IDX in Y1. tauto.
    - intros H'. exists j. split; [apply IDX; tauto|apply Z.eqb_refl]. }
  rewrite EB. exists x. destruct (_ && _ && _); [|eexists; repeat split; reflexivity].
  eexists. split; [reflexivity|]. split; [reflexivity|]. intros [FX VX]. unfold swing_one.
  destruct (fofZ_ok m) as [F1' V1']; [lia|]. destruct (fofZ_ok 16) as [F2 V2]; [lia|].
  assert (ZM : (Rabs (IZR m) <= 1000)%R) by (rewrite <- abs_IZR; apply (IZR_le _ 1000); exact HM).
  assert (B1000 : (1000 <= big)%R) by (rewrite <- (Rabs_right 1000) by lra; apply (big_Z 1000); lia).
  destruct (fdiv_ok (fofZ m) (fofZ 16) F1' F2) as [F3 V3]; [rewrite V2; lra| |].
  { rewrite V1', V2. unfold Rdiv. rewrite Rabs_mult, (Rabs_right (/ 16)) by lra. lra. }
  assert (V3' : val (fdiv (fofZ m) (fofZ 16)) = (IZR m / 16)%R).
  { rewrite V3, V1', V2. replace (IZR m / 16)%R with (IZR m * bpow radix2 (-4))%R by (cbn; lra). apply rnd_id, fmt_pow; lia. }
  destruct (fadd_ok x (fdiv (fofZ m) (fofZ 16)) FX F3) as [F4 V4].
  { rewrite V3'. apply Rabs_le_inv in ZM. apply Rabs_le. lra. }
  rewrite V3' in V4. destruct f0_ok as [F0 V0]. destruct f1_ok as [F1 V1].
  destruct (fmax_ok _ f0 F4 F0) as [F5 V5]. destruct (fmin_ok _ f1 F5 F1) as [F6 V6]. split; [exact F6|]. rewrite V6, V5, V4, V0, V1.
  unfold Rmax, Rmin. repeat destruct (Rle_dec _ _); lra.
Qed.
Print Assumptions C69_swing_amount.
Example C69_amount_instance : fin (fpow 1 (-1)) /\ (Rabs (val (fpow 1 (-1)) * IZR (15 - 0 + 1) - 8) <= 511 / 1024)%R.
Proof. destruct (fpow_ok 1 (-1) ltac:(lia) ltac:(lia)) as [F V]. split; [exact F|]. rewrite V. change (15 - 0 + 1) with 16. cbn. rewrite Rabs_right; lra. Qed.
