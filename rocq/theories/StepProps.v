(* StepProps.v - C30-C33, C66-C69: the step sequencer. *)
From Coq Require Import Reals Lra FinFun.
From Flocq Require Import Core.Core IEEE754.BinarySingleNaN.
From Verif Require Import Base Util F32 F32Facts StepModel StepProofs.
Local Open Scope Z_scope.

(** ** C30 mute flags *)
Inductive mute_op := Mute (i : Z) | Unmute (i : Z) | MuteAll | UnmuteAll | MuteGroup (m : Z) | UnmuteGroup (m : Z).
Definition mute_op_ok (o : mute_op) : Prop := match o with Mute i | Unmute i => 0 <= i < 64 | _ => True end.
Definition do_mute (q : stepseq) (o : mute_op) : res stepseq :=
  match o with
  | Mute i => mute_step q i | Unmute i => unmute_step q i | MuteAll => Ok (mute_all q) | UnmuteAll => Ok (unmute_all q)
  | MuteGroup m => Ok (mute_group q m) | UnmuteGroup m => Ok (unmute_group q m) end.
(* the set of muted steps after an operation *)
Definition muted_set (o : mute_op) (S : Z -> bool) : Z -> bool :=
  match o with
  | Mute i => fun j => (j =? i) || S j
  | Unmute i => fun j => negb (j =? i) && S j
  | MuteAll => fun j => j <? 16
  | UnmuteAll => fun _ => false
  | MuteGroup m => fun j => S j || Z.testbit m j
  | UnmuteGroup m => fun j => S j && negb (Z.testbit m j)
  end.
Lemma do_mute_step q o : mute_op_ok o -> exists m, do_mute q o = Ok (set_mute q m)
  /\ forall i, 0 <= i < 64 -> Z.testbit m i = muted_set o (Z.testbit (q_mute q)) i.
Proof.
  intros H. destruct o as [j|j| | |m|m]; cbn [do_mute muted_set] in *.
  - unfold mute_step. rewrite bit64_ok by exact H. eexists. split; [reflexivity|]. intros i Hi. cbn in H. rewrite Z.lor_spec, shiftl1_testbit by lia. apply orb_comm.
  - unfold unmute_step. rewrite bit64_ok by exact H. eexists. split; [reflexivity|]. intros i Hi. cbn in H.
    rewrite Z.land_spec, not64_testbit, shiftl1_testbit by lia. apply andb_comm.
  - eexists. split; [reflexivity|]. intros i Hi. apply ones16_testbit. lia.
  - eexists. split; [reflexivity|]. intros i Hi. apply Z.bits_0.
  - eexists. split; [reflexivity|]. intros i Hi. apply Z.lor_spec.
  - eexists. split; [reflexivity|]. intros i Hi. rewrite Z.land_spec, not64_testbit by lia. reflexivity.
Qed.
Theorem C30_mute_flags_are_a_set : forall ops q, Forall mute_op_ok ops ->
  exists q', foldM do_mute ops q = Ok q' /\ (exists m, q' = set_mute q m) /\
   forall S i, (forall j, 0 <= j < 64 -> is_step_muted q j = Ok (S j)) -> 0 <= i < 64 ->
     is_step_muted q' i = Ok (fold_left (fun S o => muted_set o S) ops S i).
Proof.
  induction ops as [|o ops IH]; intros q H.
  - exists q. split; [reflexivity|]. split; [exists (q_mute q); now destruct q|]. intros S i HS Hi. now apply HS.
  - inversion H as [|? ? Ho Hr]; subst. destruct (do_mute_step q o Ho) as (m & E & T). destruct (IH (set_mute q m) Hr) as (q' & E' & (m' & ->) & R).
    exists (set_mute (set_mute q m) m'). cbn [foldM]. rewrite E. cbn [obind]. split; [exact E'|]. split; [exists m'; reflexivity|].
    intros S i HS Hi. cbn [fold_left]. apply R; [|exact Hi]. intros j Hj. rewrite muted_testbit by exact Hj. f_equal. cbn [q_mute set_mute]. rewrite T by exact Hj.
    assert (SE : forall k, 0 <= k < 64 -> Z.testbit (q_mute q) k = S k).
    { intros k Hk. specialize (HS k Hk). rewrite muted_testbit in HS by exact Hk. congruence. }
    destruct o; cbn [muted_set]; rewrite ?SE by exact Hj; reflexivity.
Qed.
Print Assumptions C30_mute_flags_are_a_set.
Example C30_instance : Forall mute_op_ok [Mute 3; MuteAll; Unmute 5; UnmuteGroup 6]
  /\ obind (foldM do_mute [Mute 3; MuteAll; Unmute 5; UnmuteGroup 6] seq_default) (fun q => Ok (q_mute q)) = Ok 65497.
Proof. split; [repeat constructor; cbn; lia|reflexivity]. Qed.

(** ** C31 save and load *)
Definition seq_wf (q : stepseq) : Prop :=
  length (q_steps q) = 16%nat /\ 0 <= q_loop_start q <= usize_max /\ 0 <= q_loop_end q <= usize_max /\ 0 <= q_trigmask q <= usize_max.
(* show/parse: f32's Display and FromStr, of which only this is used: the text of a number occurring in the
   sequencer is a non-empty word without whitespace, and it parses back to that number *)
Definition text_ok (show : f32 -> list Z) (parse : list Z -> option f32) (x : f32) : Prop :=
  show x <> [] /\ (forall c, In c (show x) -> is_space c = false) /\ parse (show x) = Some x.
Theorem C31_save_then_load : forall show parse q t, seq_wf q -> length (q_steps t) = 16%nat ->
  Forall (text_ok show parse) (q_shuffle q :: q_steps q) ->
  let r := load_sequence parse t (save_sequence show q) in
  q_steps r = q_steps q /\ q_loop_start r = q_loop_start q /\ q_loop_end r = q_loop_end q /\ q_shuffle r = q_shuffle q /\ q_trigmask r = q_trigmask q
  /\ q_probs r = q_probs t /\ q_mute r = q_mute t /\ q_cur r = q_cur t.
Proof.
  intros show parse q t (L & H1 & H2 & H3) LT H r. inversion H as [|? ? (N1 & N2 & N3) HS]; subst.
  assert (TK : forall x, text_ok show parse x -> token (show x)).
  { intros x (A & B & _). split; [exact A|]. apply Forall_forall. exact B. }
  assert (ES : split_ws (save_sequence show q) = map show (q_steps q) ++ [show_dec (q_loop_start q); show_dec (q_loop_end q); show (q_shuffle q); show_hex (q_trigmask q)]).
  { unfold save_sequence. rewrite split_flat; [|eapply Forall_impl; [|exact HS]; exact TK]. f_equal. cbn [app].
    rewrite split_token by (apply (digits_token 10 63); lia). f_equal.
    rewrite split_token by (apply (digits_token 10 63); lia). f_equal.
    rewrite split_token by (apply TK; repeat split; auto). f_equal.
    apply split_last. apply (digits_token 16 63). lia. }
  subst r. unfold load_sequence. rewrite ES.
  rewrite (load_steps_map parse show (q_steps q)); [|lia|eapply Forall_impl; [|exact HS]; intros x (_ & _ & A); exact A].
  rewrite !show_dec_parse, show_hex_parse, N3 by assumption. cbn. repeat split.
Qed.
Print Assumptions C31_save_then_load.
(* any text can be loaded (load_sequence is total: nothing in it can panic), and what is not in the file is kept *)
Theorem C31_load_any_text_keeps_shape : forall parse q text,
  length (q_steps (load_sequence parse q text)) = length (q_steps q) /\ q_probs (load_sequence parse q text) = q_probs q
  /\ q_mute (load_sequence parse q text) = q_mute q /\ q_cur (load_sequence parse q text) = q_cur q
  /\ (split_ws text = [] -> load_sequence parse q text = q).
Proof.
  intros parse q text. unfold load_sequence. pose proof (load_steps_length parse (q_steps q) (split_ws text)) as L.
  assert (E : split_ws text = [] -> load_steps parse (q_steps q) (split_ws text) = (q_steps q, [])).
  { intros ->. clear. induction (q_steps q) as [|s l IH]; cbn; [reflexivity|]. now rewrite IH. }
  destruct (load_steps parse (q_steps q) (split_ws text)) as [st ts]. cbn [fst] in L.
  split; [|split; [|split; [|split]]].
  1-4: destruct ts as [|? [|? [|? [|? ?]]]]; cbn; auto.
  intros N. specialize (E N). injection E as -> ->. now destruct q.
Qed.
Print Assumptions C31_load_any_text_keeps_shape.
(* a non-trivial sequencer whose numbers are 0 and 1, printed as "0" and "1" *)
Definition show01 (x : f32) : list Z := if feqb x f0 then [48] else [49].
Definition parse01 (l : list Z) : option f32 := match l with [48] => Some f0 | [49] => Some f1 | _ => None end.
Definition q31 : stepseq := mk_seq (f1 :: repeat f0 14 ++ [f1]) (repeat f1 16) 3 11 f1 43981 0 2.
Example C31_instance : seq_wf q31 /\ Forall (text_ok show01 parse01) (q_shuffle q31 :: q_steps q31)
  /\ parse_uint 16 usize_max (show_hex 43981) = Some 43981 /\ show_hex 43981 = [65; 66; 67; 68].
Proof.
  split; [unfold seq_wf, usize_max; cbn; lia|]. split; [|split; reflexivity].
  assert (S1 : show01 f1 = [49]) by (unfold show01; replace (feqb f1 f0) with false by (vm_compute; reflexivity); reflexivity).
  assert (A : text_ok show01 parse01 f0 /\ text_ok show01 parse01 f1).
  { split; unfold text_ok; [change (show01 f0) with [48]|rewrite S1]; (split; [discriminate|]; split; [|reflexivity]); intros c [<-|[]]; reflexivity. }
  destruct A as [A0 A1]. cbn. repeat (constructor; [assumption|]). constructor.
Qed.

(** ** C32 step access *)
Theorem C32_steps : forall q i v, length (q_steps q) = 16%nat -> 0 <= i ->
  exists q', set_step q i v = Ok q' /\ (exists l, q' = set_steps q l /\ length l = 16%nat)
   /\ forall j, 0 <= j -> step q' j = if (j =? i) && (i <? 16) then Ok v else step q j.
Proof.
  intros q i v L Hi. unfold set_step, N_STEPS. destruct (Z.ltb_spec i 16) as [H|H].
  - rewrite zset_ok by lia. cbn [obind]. eexists. split; [reflexivity|]. split; [eexists; split; [reflexivity|]; rewrite upd_length; exact L|].
    intros j Hj. unfold step, N_STEPS. rewrite andb_true_r. destruct (Z.eqb_spec j i) as [->|N].
    + destruct (Z.ltb_spec i 16); [|lia]. cbn. apply zget_upd_eq. lia.
    + destruct (Z.ltb_spec j 16); [|reflexivity]. cbn. apply zget_upd_neq; lia.
  - exists q. split; [reflexivity|]. split; [exists (q_steps q); split; [now destruct q|exact L]|]. intros j Hj. now rewrite andb_false_r.
Qed.
Print Assumptions C32_steps.
Theorem C32_probabilities : forall q i v, length (q_probs q) = 16%nat -> 0 <= i ->
  exists q', set_probability q i v = Ok q' /\ (exists l, q' = set_probs q l /\ length l = 16%nat)
   /\ forall j, 0 <= j -> get_probability q' j = if (j =? i) && (i <? 16) then Ok v else get_probability q j.
Proof.
  intros q i v L Hi. unfold set_probability, N_STEPS. destruct (Z.ltb_spec i 16) as [H|H].
  - rewrite zset_ok by lia. cbn [obind]. eexists. split; [reflexivity|]. split; [eexists; split; [reflexivity|]; rewrite upd_length; exact L|].
    intros j Hj. unfold get_probability, N_STEPS. rewrite andb_true_r. destruct (Z.eqb_spec j i) as [->|N].
    + destruct (Z.ltb_spec i 16); [|lia]. cbn. apply zget_upd_eq. lia.
    + destruct (Z.ltb_spec j 16); [|reflexivity]. cbn. apply zget_upd_neq; lia.
  - exists q. split; [reflexivity|]. split; [exists (q_probs q); split; [now destruct q|exact L]|]. intros j Hj. now rewrite andb_false_r.
Qed.
Print Assumptions C32_probabilities.
(* reading outside gives 0.0, for steps and probabilities *)
Theorem C32_out_of_range_reads_zero : forall q i, 16 <= i -> step q i = Ok f0 /\ get_probability q i = Ok f0.
Proof. intros q i H. unfold step, get_probability, N_STEPS. destruct (Z.ltb_spec i 16); [lia|auto]. Qed.
Print Assumptions C32_out_of_range_reads_zero.
Lemma nth_error_firstn {A} (l : list A) n i : (i < n)%nat -> nth_error (firstn n l) i = nth_error l i.
Proof. revert n i. induction l as [|x l IH]; intros [|n] [|i] H; cbn; try lia; auto. apply IH. lia. Qed.
Lemma nth_error_skipn {A} (l : list A) n i : nth_error (skipn n l) i = nth_error l (n + i).
Proof. revert n. induction l as [|x l IH]; intros [|n]; cbn; auto. now destruct i. Qed.
(* setting many probabilities: the given ones in order, the rest kept, extra ones dropped *)
Theorem C32_set_probabilities : forall q ps i, length (q_probs q) = 16%nat -> (i < 16)%nat ->
  get_probability (set_probabilities q ps) (Z.of_nat i) =
   match nth_error ps i with Some p => Ok p | None => get_probability q (Z.of_nat i) end.
Proof.
  intros q ps i L Hi. unfold get_probability, set_probabilities, N_STEPS. destruct (Z.ltb_spec (Z.of_nat i) 16); [|lia]. cbn [q_probs set_probs].
  unfold zget. destruct (Z.leb_spec 0 (Z.of_nat i)); [|lia]. rewrite Nat2Z.id.
  destruct (Nat.lt_ge_cases i (length ps)) as [C|C].
  - rewrite nth_error_app1 by (rewrite firstn_length; lia).
    assert (E : nth_error (firstn (Nat.min (length ps) 16) ps) i = nth_error ps i).
    { apply nth_error_firstn. lia. }
    rewrite E. destruct (nth_error ps i) eqn:En; [reflexivity|]. apply nth_error_None in En. lia.
  - rewrite (proj2 (nth_error_None ps i)) by lia. rewrite nth_error_app2 by (rewrite firstn_length; lia).
    rewrite firstn_length. replace (Nat.min (Nat.min (length ps) 16) (length ps)) with (length ps) by lia.
    replace (Nat.min (length ps) 16) with (length ps) by lia.
    assert (E : nth_error (q_probs q) i = nth_error (skipn (length ps) (q_probs q)) (i - length ps)).
    { symmetry. rewrite nth_error_skipn. f_equal. lia. }
    now rewrite E.
Qed.
Print Assumptions C32_set_probabilities.
Example C32_instance : length (q_steps seq_default) = 16%nat /\ (set_step seq_default 16 f1 = Ok seq_default).
Proof. split; reflexivity. Qed.

(** ** C33 advancing *)
(* with no shuffle (the default), a negative or NaN shuffle, advancing panics *)
Lemma fltb_nan_l x : fltb fnan x = false. Proof. reflexivity. Qed.
Lemma half_not_pos x : fltb f0 x = false -> gen_range_nonempty (fopp (fmul x (fpow 1 (-1)))) (fmul x (fpow 1 (-1))) = false.
Proof.
  intros H. destruct half_ok as [FH VH]. destruct (cases x) as [F|[-> | [s ->]]].
  - assert (V : (val x <= 0)%R).
    { apply Rnot_lt_le. intros C. assert (fltb f0 x = true) by (apply fltb_spec; [reflexivity|exact F|]; replace (val f0) with 0%R by reflexivity; exact C). congruence. }
    assert (B : (Rabs (val x * val (fpow 1 (-1))) <= big)%R).
    { rewrite VH, Rabs_mult. pose proof (abs_B2R_lt_emax 24 128 x) as AB. fold (val x) in AB. rewrite (Rabs_pos_eq (/ 2)) by lra.
      unfold big. replace (bpow radix2 127) with (bpow radix2 128 * / 2)%R; [lra|]. change (/ 2)%R with (bpow radix2 (-1)). rewrite <- bpow_plus. reflexivity. }
    destruct (fmul_ok x _ F FH B) as [F' V']. assert (N : (val (fmul x (fpow 1 (-1))) <= 0)%R).
    { rewrite V', VH. rewrite <- rnd_0. apply rnd_le. lra. }
    destruct (fopp_ok _ F') as [F2 V2]. unfold gen_range_nonempty. destruct (fltb_cases _ _ F2 F') as [[_ C]|[-> _]]; [rewrite V2 in C; lra|reflexivity].
  - reflexivity.
  - destruct s; [|cbn in H; discriminate]. vm_compute. reflexivity.
Qed.
Theorem C33_no_shuffle_panics_refuted : forall fuel q off, length (q_steps q) = 16%nat -> 0 <= q_cur q < 16 ->
  fltb f0 (q_shuffle q) = false -> next_step fuel q off = Panic.
Proof.
  intros fuel q off L HC H. unfold next_step. destruct (zget_ok (q_steps q) (q_cur q)) as [x ->]; [lia|]. cbn [obind].
  unfold shuffle_amount. now rewrite (half_not_pos _ H).
Qed.
Print Assumptions C33_no_shuffle_panics_refuted.
Definition in_pattern (q : stepseq) : Prop := length (q_steps q) = 16%nat /\ 0 <= q_cur q < 16 /\ 0 <= q_loop_start q <= q_loop_end q /\ q_loop_end q < 16.
(* with a positive shuffle, valid loop points and a sixteen-bit mask, advancing returns the current step and
   stays in the pattern, whatever is drawn *)
Theorem C33_advance_partial : forall q off, in_pattern q -> shuffle_ok q ->
  in_gen_range (fopp (shuffle_amount q)) (shuffle_amount q) off = true ->
  exists fuel0 q', (forall fuel, (fuel0 <= fuel)%nat -> exists v, step q (q_cur q) = Ok v /\ next_step fuel q off = Ok (Some (q', v)))
    /\ (exists c, q' = set_cur q c) /\ 0 <= q_cur q' <= 16
    /\ (0 <= q_trigmask q < 65536 -> in_pattern q')
    /\ (q_cur q' = (q_cur q + 1) mod 16 \/ (Z.testbit (q_trigmask q) (q_cur q') = true /\ q_loop_start q <= q_cur q' <= q_loop_end q + 1))
    /\ (q_trigmask q = 0 -> q_cur q' = (q_cur q + 1) mod 16).
Proof.
  intros q off (L & HC & HL & HE) SO D. destruct (draw_bounds q off SO D) as [FO VO].
  pose proof (Z.mod_pos_bound (q_cur q + 1) 16 ltac:(lia)) as HM. set (j := (q_cur q + 1) mod 16) in *.
  destruct (fofZ_ok j ltac:(lia)) as [F1 V1]. destruct (fofZ_ok (q_loop_start q) ltac:(lia)) as [F2 V2].
  assert (B1 : (IZR (-524288) <= val (fofZ j) + val off <= IZR 524304)%R).
  { rewrite V1. assert (0 <= IZR j)%R by (apply IZR_le; lia). assert (IZR j <= IZR 16)%R by (apply IZR_le; lia). lra. }
  destruct (fadd_ok (fofZ j) off F1 FO) as [F3 V3]; [eapply IZR_big; [| |exact B1]; lia|].
  apply rnd_between in B1; [|lia|lia]. rewrite <- V3 in B1.
  assert (B2 : (IZR (-524288) <= val (fadd (fofZ j) off) + val (fofZ (q_loop_start q)) <= IZR 524320)%R).
  { rewrite V2. assert (0 <= IZR (q_loop_start q))%R by (apply IZR_le; lia). assert (IZR (q_loop_start q) <= IZR 16)%R by (apply IZR_le; lia). lra. }
  destruct (fadd_ok _ (fofZ (q_loop_start q)) F3 F2) as [F4 V4]; [eapply IZR_big; [| |exact B2]; lia|].
  apply rnd_between in B2; [|lia|lia]. rewrite <- V4 in B2.
  set (nx := fadd (fadd (fofZ j) off) (fofZ (q_loop_start q))) in *.
  assert (WD : exists w1, forall fuel, (Z.to_nat 600000 <= fuel)%nat -> wrap_down q fuel nx = Ok (Some w1) /\ fin w1 /\ (IZR (-524288) <= val w1 <= IZR (q_loop_end q))%R).
  { destruct (wrap_down_ok q HL ltac:(lia) (Z.to_nat 600000) nx (-524288) 524320 F4 B2) as (w1 & E & P); try (unfold lim23; lia).
    exists w1. intros fuel Hf. destruct (wrap_down_ok q HL ltac:(lia) fuel nx (-524288) 524320 F4 B2) as (w2 & E2 & P2); try (unfold lim23; lia).
    assert (MONO : forall f1 f2 w r, (f1 <= f2)%nat -> wrap_down q f1 w = Ok (Some r) -> wrap_down q f2 w = Ok (Some r)).
    { clear. induction f1 as [|f1 IH]; intros f2 w r Hle E; [discriminate|]. destruct f2 as [|f2]; [lia|]. cbn [wrap_down] in *.
      destruct (fltb _ w); [|exact E]. destruct (loop_len q); cbn [obind] in *; try discriminate. apply IH; [lia|exact E]. }
    rewrite (MONO _ fuel _ _ Hf E) in E2. injection E2 as <-. split; [eapply MONO; eauto|exact P]. }
  destruct WD as (w1 & WD). destruct (WD _ (Nat.le_refl _)) as (_ & FW1 & VW1).
  assert (WU : exists w2, forall fuel, (Z.to_nat 600000 <= fuel)%nat -> wrap_up q fuel w1 = Ok (Some w2) /\ fin w2 /\ (IZR (q_loop_start q) <= val w2 <= IZR (q_loop_end q + 1))%R).
  { destruct (wrap_up_ok q HL ltac:(lia) (Z.to_nat 600000) w1 (-524288) (q_loop_end q) FW1 VW1) as (w2 & E & P); try (unfold lim23; lia).
    exists w2. intros fuel Hf. destruct (wrap_up_ok q HL ltac:(lia) fuel w1 (-524288) (q_loop_end q) FW1 VW1) as (w3 & E2 & P2); try (unfold lim23; lia).
    assert (MONO : forall f1 f2 w r, (f1 <= f2)%nat -> wrap_up q f1 w = Ok (Some r) -> wrap_up q f2 w = Ok (Some r)).
    { clear. induction f1 as [|f1 IH]; intros f2 w r Hle E; [discriminate|]. destruct f2 as [|f2]; [lia|]. cbn [wrap_up] in *.
      destruct (fltb w _); [|exact E]. destruct (loop_len q); cbn [obind] in *; try discriminate. apply IH; [lia|exact E]. }
    rewrite (MONO _ fuel _ _ Hf E) in E2. injection E2 as <-. split; [eapply MONO; eauto|exact P]. }
  destruct WU as (w2 & WU). destruct (WU _ (Nat.le_refl _)) as (_ & FW2 & VW2).
  set (k := as_usize_f w2).
  assert (HK : q_loop_start q <= k <= q_loop_end q + 1).
  { unfold k, as_usize_f. rewrite fcast_fin by exact FW2. assert (T : q_loop_start q <= Ztrunc (val w2) <= q_loop_end q + 1).
    { split; [rewrite <- (Ztrunc_IZR (q_loop_start q))|rewrite <- (Ztrunc_IZR (q_loop_end q + 1))]; apply Ztrunc_le; lra. }
    lia. }
  set (q' := if Z.land (q_trigmask q) (Z.shiftl 1 k) =? 0 then set_cur q j else set_cur q k).
  exists (Z.to_nat 600000), q'.
  assert (QC : (q_cur q' = j) \/ (Z.testbit (q_trigmask q) (q_cur q') = true /\ q_cur q' = k)).
  { unfold q'. rewrite land_bit_0 by lia. destruct (Z.testbit (q_trigmask q) k) eqn:T; cbn; auto. }
  split; [|split; [|split; [|split; [|split]]]].
  - intros fuel Hf. destruct (zget_ok (q_steps q) (q_cur q)) as [v Ev]; [lia|]. exists v. split.
    + unfold step, N_STEPS. destruct (Z.ltb_spec (q_cur q) 16); [exact Ev|lia].
    + unfold next_step. rewrite Ev. cbn [obind]. rewrite (amount_range q SO). change N_STEPS with 16. fold j. fold nx.
      destruct (WD fuel Hf) as (-> & _). cbn [obind]. destruct (WU fuel Hf) as (-> & _). cbn [obind].
      change (as_u64_f w2) with k. fold k. rewrite bit64_ok by lia. cbn [obind]. reflexivity.
  - unfold q'. destruct (_ =? 0); eexists; reflexivity.
  - destruct QC as [-> | [_ ->]]; lia.
  - intros HT. assert (RS : exists c, q' = set_cur q c) by (unfold q'; destruct (_ =? 0); eexists; reflexivity).
    assert (CB : 0 <= q_cur q' < 16).
    { destruct QC as [-> | [T EK]]; [lia|]. rewrite EK in *.
      destruct (Z.le_gt_cases 16 k) as [C|C]; [|lia]. exfalso. rewrite Z.bits_above_log2 in T; [discriminate|lia|].
      destruct (Z.eq_dec (q_trigmask q) 0) as [->|]; [cbn; lia|]. apply Z.log2_lt_pow2; [lia|]. apply Z.lt_le_trans with (2 ^ 16); [lia|]. apply Z.pow_le_mono_r; lia. }
    destruct RS as [c RS]. rewrite RS in *. cbn in CB. unfold in_pattern. cbn. auto.
  - destruct QC as [-> | [T E]]; [left; reflexivity|right]. split; [exact T|]. rewrite E. exact HK.
  - intros HT. destruct QC as [-> | [T _]]; [reflexivity|]. rewrite HT, Z.bits_0 in T. discriminate.
Qed.
Print Assumptions C33_advance_partial.
(* what one advance does when 0 is drawn: the integer wrap of (cur+1) mod 16 + loop_start *)
Lemma advance_zero q : length (q_steps q) = 16%nat -> 0 <= q_cur q < 16 -> 0 <= q_loop_start q <= q_loop_end q -> q_loop_end q < 64 -> shuffle_ok q ->
  let k := q_loop_start q + ((q_cur q + 1) mod 16) mod (q_loop_end q - q_loop_start q + 1) in
  forall fuel, (100 <= fuel)%nat -> exists v, step q (q_cur q) = Ok v /\
    next_step fuel q f0 = Ok (Some (set_cur q (if Z.testbit (q_trigmask q) k then k else (q_cur q + 1) mod 16), v)).
Proof.
  intros L HC HL HE SO k fuel Hf. pose proof (Z.mod_pos_bound (q_cur q + 1) 16 ltac:(lia)) as HM. set (j := (q_cur q + 1) mod 16) in *.
  destruct (fofZ_ok j ltac:(lia)) as [F1 V1]. destruct (fofZ_ok (q_loop_start q) ltac:(lia)) as [F2 V2]. destruct f0_ok as [F0 V0].
  destruct (fadd_ok (fofZ j) f0 F1 F0) as [F3 V3]; [rewrite V1, V0, Rplus_0_r; apply big_Z; lia|]. rewrite V1, V0, Rplus_0_r, rnd_Z in V3 by lia.
  destruct (fadd_ok _ (fofZ (q_loop_start q)) F3 F2) as [F4 V4]; [rewrite V3, V2, <- plus_IZR; apply big_Z; lia|].
  rewrite V3, V2, <- plus_IZR, rnd_Z in V4 by lia.
  destruct (wrap_down_int q HL ltac:(lia) fuel _ (j + q_loop_start q) F4 V4) as (w1 & E1 & FW1 & VW1); [lia|lia|].
  assert (KE : wrap_int q (j + q_loop_start q) = k) by (unfold wrap_int, k; do 2 f_equal; lia). rewrite KE in VW1.
  pose proof (wrap_int_in q (j + q_loop_start q) HL) as HK. rewrite KE in HK.
  assert (E2 : wrap_up q fuel w1 = Ok (Some w1)).
  { destruct fuel; [lia|]. cbn [wrap_up]. destruct (fltb_cases w1 _ FW1 F2) as [[_ C]|[-> _]]; [|reflexivity]. rewrite VW1, V2 in C. apply lt_IZR in C. lia. }
  destruct (zget_ok (q_steps q) (q_cur q)) as [v Ev]; [lia|]. exists v. split.
  - unfold step, N_STEPS. destruct (Z.ltb_spec (q_cur q) 16); [exact Ev|lia].
  - unfold next_step. rewrite Ev. cbn [obind]. rewrite (amount_range q SO). change N_STEPS with 16. fold j. rewrite E1. cbn [obind]. rewrite E2. cbn [obind].
    unfold as_u64_f, as_usize_f. rewrite (cast_int _ _ w1 k FW1 VW1) by lia. rewrite bit64_ok by lia. cbn [obind]. rewrite land_bit_0 by lia.
    destruct (Z.testbit (q_trigmask q) k); reflexivity.
Qed.
(* loop points are not validated: with a loop on step 16..63 the very next advance leaves the pattern, and the one after panics *)
Theorem C33_loop_outside_pattern_panics_refuted : forall q k off fuel fuel', length (q_steps q) = 16%nat -> 0 <= q_cur q < 16 -> shuffle_ok q ->
  16 <= k < 64 -> Z.testbit (q_trigmask q) k = true -> (100 <= fuel)%nat ->
  in_gen_range (fopp (shuffle_amount (set_loop q k k))) (shuffle_amount (set_loop q k k)) f0 = true /\
  exists q' v, next_step fuel (set_loop q k k) f0 = Ok (Some (q', v)) /\ q_cur q' = k /\ next_step fuel' q' off = Panic.
Proof.
  intros q k off fuel fuel' L HC SO Hk T Hf. split; [apply zero_draw; exact SO|].
  destruct (advance_zero (set_loop q k k) L HC ltac:(cbn; lia) ltac:(cbn; lia) SO fuel Hf) as (v & _ & E).
  cbn [q_loop_start q_loop_end set_loop q_trigmask q_cur] in E. replace (k - k + 1) with 1 in E by lia. rewrite Z.mod_1_r, Z.add_0_r, T in E.
  eexists _, _. split; [exact E|]. split; [reflexivity|]. unfold next_step. cbn [q_cur set_cur q_steps set_loop]. unfold zget.
  destruct (Z.leb_spec 0 k); [|lia]. rewrite (proj2 (nth_error_None (q_steps q) (Z.to_nat k))) by lia. reflexivity.
Qed.
Print Assumptions C33_loop_outside_pattern_panics_refuted.
Definition q33 : stepseq := set_trigmask (set_shuffle seq_default (fpow 1 (-1))) (2 ^ 20 + 5).
Lemma q33_shuffle : shuffle_ok q33.
Proof.
  destruct half_ok as [F V]. split; [exact F|]. cbn [q_shuffle q33 set_trigmask set_shuffle]. rewrite V. split; [|lra].
  replace (/ 2)%R with (bpow radix2 (-1)) by (cbn; lra). apply bpow_le. lia.
Qed.
Example C33_instance : in_pattern q33 /\ shuffle_ok q33 /\ in_gen_range (fopp (shuffle_amount q33)) (shuffle_amount q33) f0 = true
  /\ Z.testbit (q_trigmask q33) 20 = true /\ fltb f0 (q_shuffle seq_default) = false.
Proof.
  split; [unfold in_pattern; cbn; lia|]. split; [exact q33_shuffle|]. split; [apply zero_draw, q33_shuffle|]. split; reflexivity.
Qed.

(** ** C66 masked steps are skipped *)
(* whatever the mask, with the full loop the advance goes to the next step - masked out or not *)
Theorem C66_masked_step_not_skipped_refuted : forall q fuel, in_pattern q -> shuffle_ok q -> q_loop_start q = 0 -> q_loop_end q = 15 -> (100 <= fuel)%nat ->
  in_gen_range (fopp (shuffle_amount q)) (shuffle_amount q) f0 = true /\
  exists v, next_step fuel q f0 = Ok (Some (set_cur q ((q_cur q + 1) mod 16), v)).
Proof.
  intros q fuel (L & HC & HL & HE) SO S0 E0 Hf. split; [apply zero_draw; exact SO|].
  destruct (advance_zero q L HC HL ltac:(lia) SO fuel Hf) as (v & _ & E). exists v. rewrite E. clear E. do 4 f_equal. rewrite S0, E0.
  change (15 - 0 + 1) with 16. rewrite Z.mod_mod, Z.add_0_l by lia. destruct (Z.testbit _ _); reflexivity.
Qed.
Print Assumptions C66_masked_step_not_skipped_refuted.
(* the mask is honoured in this sense only: a jump other than to the next step goes to an unmasked step *)
Theorem C66_jumps_go_to_unmasked_steps_partial : forall q off, in_pattern q -> shuffle_ok q ->
  in_gen_range (fopp (shuffle_amount q)) (shuffle_amount q) off = true ->
  exists fuel0 q', (forall fuel, (fuel0 <= fuel)%nat -> exists v, next_step fuel q off = Ok (Some (q', v)))
    /\ (q_cur q' <> (q_cur q + 1) mod 16 -> Z.testbit (q_trigmask q) (q_cur q') = true).
Proof.
  intros q off H1 H2 H3. destruct (C33_advance_partial q off H1 H2 H3) as (f & q' & A & _ & _ & _ & B & _). exists f, q'. split.
  - intros fuel Hf. destruct (A fuel Hf) as (v & _ & E). eauto.
  - intros N. destruct B as [B|[B _]]; [contradiction|exact B].
Qed.
Print Assumptions C66_jumps_go_to_unmasked_steps_partial.
Example C66_instance : in_pattern q33 /\ shuffle_ok q33 /\ q_loop_start q33 = 0 /\ q_loop_end q33 = 15 /\ Z.testbit (q_trigmask q33) ((q_cur q33 + 1) mod 16) = false.
Proof. split; [unfold in_pattern; cbn; lia|]. split; [exact q33_shuffle|]. repeat split. Qed.

(** ** C67 the loop *)
(* with an empty trigger mask (the default) the loop points have no effect at all *)
Theorem C67_loop_left_with_empty_mask_refuted : forall q off, in_pattern q -> shuffle_ok q -> q_trigmask q = 0 ->
  q_cur q = q_loop_end q -> q_loop_end q < 15 -> in_gen_range (fopp (shuffle_amount q)) (shuffle_amount q) off = true ->
  exists fuel0 q', (forall fuel, (fuel0 <= fuel)%nat -> exists v, next_step fuel q off = Ok (Some (q', v))) /\ q_cur q' = q_loop_end q + 1.
Proof.
  intros q off H1 H2 HT HC HE H3. destruct (C33_advance_partial q off H1 H2 H3) as (f & q' & A & _ & _ & _ & _ & B). exists f, q'. split.
  - intros fuel Hf. destruct (A fuel Hf) as (v & _ & E). eauto.
  - rewrite (B HT), HC. apply Z.mod_small. destruct H1. lia.
Qed.
Print Assumptions C67_loop_left_with_empty_mask_refuted.
(* with every step enabled the loop is kept, but it is walked in steps of the wrong origin: the next step is
   loop_start + ((cur+1) mod 16) mod length instead of cur+1 wrapped *)
Theorem C67_loop_kept_with_full_mask_partial : forall q fuel, in_pattern q -> shuffle_ok q -> (forall i, 0 <= i < 16 -> Z.testbit (q_trigmask q) i = true) -> (100 <= fuel)%nat ->
  exists v q', step q (q_cur q) = Ok v /\ next_step fuel q f0 = Ok (Some (q', v)) /\ q_loop_start q <= q_cur q' <= q_loop_end q
   /\ q_cur q' = q_loop_start q + ((q_cur q + 1) mod 16) mod (q_loop_end q - q_loop_start q + 1).
Proof.
  intros q fuel (L & HC & HL & HE) SO T Hf. destruct (advance_zero q L HC HL ltac:(lia) SO fuel Hf) as (v & Ev & E). cbv zeta in E.
  pose proof (Z.mod_pos_bound ((q_cur q + 1) mod 16) (q_loop_end q - q_loop_start q + 1) ltac:(lia)) as B.
  rewrite T in E by lia. eexists _, _. split; [exact Ev|]. split; [exact E|]. cbn. lia.
Qed.
Print Assumptions C67_loop_kept_with_full_mask_partial.
(* so a loop can get stuck: from loop_start the sequencer never moves on *)
Theorem C67_loop_stuck_on_first_step_refuted : forall q fuel, in_pattern q -> shuffle_ok q -> (forall i, 0 <= i < 16 -> Z.testbit (q_trigmask q) i = true) -> (100 <= fuel)%nat ->
  q_cur q = q_loop_start q -> q_loop_start q < q_loop_end q -> (q_loop_start q + 1) mod (q_loop_end q - q_loop_start q + 1) = 0 ->
  exists v, next_step fuel q f0 = Ok (Some (q, v)).
Proof.
  intros q fuel H SO T Hf EC HS HM. destruct (C67_loop_kept_with_full_mask_partial q fuel H SO T Hf) as (v & q' & _ & E & _ & C).
  destruct H as (L & HC & HL & HE). rewrite EC in C. rewrite (Z.mod_small (q_loop_start q + 1)) in C by lia. rewrite HM, Z.add_0_r in C.
  exists v. rewrite E. do 3 f_equal.
  destruct (advance_zero q L HC HL ltac:(lia) SO fuel Hf) as (v' & _ & E'). rewrite E' in E. injection E as E _. rewrite <- E in *. cbn in C. rewrite C, <- EC. now destruct q.
Qed.
Print Assumptions C67_loop_stuck_on_first_step_refuted.
Definition q67 : stepseq := set_cur (set_loop (set_trigmask q33 65535) 1 2) 1.
Example C67_instance : in_pattern q67 /\ shuffle_ok q67 /\ (forall i, 0 <= i < 16 -> Z.testbit (q_trigmask q67) i = true) /\ q_cur q67 = q_loop_start q67
  /\ (q_loop_start q67 + 1) mod (q_loop_end q67 - q_loop_start q67 + 1) = 0.
Proof.
  split; [unfold in_pattern; cbn; lia|]. split; [exact q33_shuffle|]. split; [|split; reflexivity].
  intros i Hi. change (q_trigmask q67) with (Z.ones 16). rewrite Z.testbit_ones_nonneg by lia. lia.
Qed.

(** ** C68 trigger probability *)
(* a probability p in [0,1] triggers for exactly floor(p * 2^64) of the 2^64 equally likely draws; 1 always, 0 never *)
Theorem C68_probability_of_trigger : forall q i p v, get_probability q i = Ok p -> fin p -> (0 <= val p <= 1)%R -> 0 <= v < 2 ^ 64 ->
  exists b, trigger_probability q i v = Ok b /\ (b = true <-> (IZR (v + 1) <= val p * IZR (2 ^ 64))%R).
Proof.
  intros q i p v E F V Hv. unfold trigger_probability. rewrite E. cbn [obind]. unfold gen_bool. destruct f0_ok as [F0 V0]. destruct f1_ok as [F1 V1].
  rewrite (proj2 (fleb_spec f0 p F0 F)) by (rewrite V0; lra). cbn [andb].
  destruct (fltb_cases p f1 F F1) as [[-> C]|[-> C]]; rewrite V1 in C.
  - eexists. split; [reflexivity|]. rewrite Z.ltb_lt.
    assert (S : scale64 p = Zfloor (val p * IZR (2 ^ 64))).
    { unfold scale64. destruct p as [s|s| |s m e Hb]; try discriminate F; [cbn; now rewrite Rmult_0_l, Zfloor_IZR|].
      assert (SG : s = false). { destruct s; [|reflexivity]. exfalso. unfold val in V. cbn in V. assert (F2R (Float radix2 (Z.neg m) e) < 0)%R by (apply F2R_lt_0; reflexivity). lra. }
      subst s. unfold val. cbn [B2R cond_Zopp]. change (IZR (2 ^ 64)) with (bpow radix2 64). unfold F2R. cbn [Fnum Fexp]. rewrite Rmult_assoc, <- bpow_plus.
      destruct (Z.leb_spec 0 (e + 64)).
      - rewrite <- (IZR_Zpower radix2) by assumption. rewrite <- mult_IZR, Zfloor_IZR. reflexivity.
      - replace (bpow radix2 (e + 64)) with (/ IZR (2 ^ (- (e + 64))))%R.
        + change (IZR (Z.pos m) * / IZR (2 ^ - (e + 64)))%R with (IZR (Z.pos m) / IZR (2 ^ - (e + 64)))%R. symmetry. apply Zfloor_div. apply Z.pow_nonzero; lia.
        + change (2 ^ - (e + 64)) with (Zpower radix2 (- (e + 64))). rewrite (IZR_Zpower radix2) by lia. rewrite <- bpow_opp. f_equal. lia. }
    rewrite S. split.
    + intros Hlt. apply Rle_trans with (IZR (Zfloor (val p * IZR (2 ^ 64)))); [apply IZR_le; lia|apply Zfloor_lb].
    + intros Hle. apply Zfloor_lub in Hle. lia.
  - assert (E1 : val p = 1%R) by lra. unfold feqb. rewrite Beqb_correct by assumption. fold (val p) (val f1). rewrite E1, V1. rewrite Req_bool_true by reflexivity.
    eexists. split; [reflexivity|]. split; [intros _|reflexivity]. rewrite Rmult_1_l. apply IZR_le. lia.
Qed.
Print Assumptions C68_probability_of_trigger.
(* probabilities are stored unchecked; one outside [0,1] makes triggering panic *)
Theorem C68_bad_probability_panics_refuted : forall q i p v, get_probability q i = Ok p -> (p = fnan \/ (exists s, p = finf s) \/ (fin p /\ (val p < 0 \/ 1 < val p)%R)) ->
  trigger_probability q i v = Panic.
Proof.
  intros q i p v E H. unfold trigger_probability. rewrite E. cbn [obind]. unfold gen_bool. destruct f0_ok as [F0 V0]. destruct f1_ok as [F1 V1].
  destruct H as [-> |[[s ->]|[F V]]].
  - reflexivity.
  - assert (Q : feqb (finf s) f1 = false) by (destruct s; vm_compute; reflexivity).
    rewrite fltb_inf_l by exact F1. destruct s; cbn [andb]; rewrite ?andb_false_r, Q; [|reflexivity]. reflexivity.
  - assert (NE : feqb p f1 = false). { unfold feqb. rewrite Beqb_correct by assumption. fold (val p) (val f1). rewrite V1. apply Req_bool_false. lra. }
    rewrite NE. destruct (fleb_cases f0 p F0 F) as [[-> C]|[-> C]]; [|reflexivity]. rewrite V0 in C.
    destruct (fltb_cases p f1 F F1) as [[-> C2]|[-> C2]]; [|reflexivity]. rewrite V1 in C2. lra.
Qed.
Print Assumptions C68_bad_probability_panics_refuted.
Example C68_instance : get_probability seq_default 3 = Ok f1 /\ trigger_probability seq_default 20 7 = Ok false /\ fin (fofZ 2) /\ (1 < val (fofZ 2))%R.
Proof. split; [reflexivity|]. split; [reflexivity|]. destruct (fofZ_ok 2 ltac:(lia)) as [A B]. split; [exact A|]. rewrite B. lra. Qed.

(** ** C69 randomising and swinging keep steps in [0,1] *)
Definition unit_step (x : f32) : Prop := fin x /\ (0 <= val x <= 1)%R.
Lemma clamp01 x : unit_step (fmin (fmax x f0) f1).
Proof.
  destruct f0_ok as [F0 V0]. destruct f1_ok as [F1 V1]. destruct (clamp_any x f0 f1 F0 F1) as (A & B & _); [rewrite V0, V1; lra|].
  rewrite V0, V1 in B. split; assumption.
Qed.
Theorem C69_mutation_changes_nothing_or_lands_in_unit : forall q rate range us ds, length (q_steps q) = 16%nat -> length us = 16%nat -> length ds = 16%nat ->
  (forall q', mutate_sequence q rate range us ds = Ok q' ->
     (exists l, q' = set_steps q l /\ Forall2 (fun x y => y = x \/ unit_step y) (q_steps q) l)) /\
  (mutate_sequence q rate range us ds = Panic <-> gen_range_nonempty (fopp range) range = false /\ exists u, In u us /\ fltb u rate = true).
Proof.
  intros q rate range us ds L1 L2 L3. unfold mutate_sequence.
  assert (G : forall xs us ds, length xs = length us -> length xs = length ds ->
     (forall l, mutate_all rate range xs us ds = Ok l -> Forall2 (fun x y => y = x \/ unit_step y) xs l)
     /\ mutate_all rate range xs us ds <> Err tt
     /\ (mutate_all rate range xs us ds = Panic <-> gen_range_nonempty (fopp range) range = false /\ exists u, In u us /\ fltb u rate = true)).
  { clear. induction xs as [|x xs IH]; intros [|u us] [|d ds] L1 L2; try discriminate.
    - cbn. split; [intros l E; injection E as <-; constructor|]. split; [discriminate|]. split; [discriminate|intros (_ & u & [] & _)].
    - cbn [mutate_all]. destruct (IH us ds) as (A & B & C); [cbn in *; lia|cbn in *; lia|]. unfold mutate_one.
      destruct (fltb u rate) eqn:EU.
      + destruct (gen_range_nonempty (fopp range) range) eqn:EG; cbn [obind].
        * destruct (mutate_all rate range xs us ds) as [ys|[]|] eqn:EM; cbn [obind]; [|congruence|].
          -- split; [intros l E; injection E as <-; constructor; [right; apply clamp01|now apply A]|]. split; [discriminate|]. split; [discriminate|intros [D _]; discriminate].
          -- exfalso. destruct C as [C _]. destruct (C eq_refl) as [D _]. discriminate.
        * split; [discriminate|]. split; [discriminate|]. split; [|reflexivity]. intros _. split; [reflexivity|]. exists u. split; [now left|exact EU].
      + cbn [obind]. destruct (mutate_all rate range xs us ds) as [ys|[]|] eqn:EM; cbn [obind]; [|congruence|].
        * split; [intros l E; injection E as <-; constructor; [now left|now apply A]|]. split; [discriminate|]. split; [discriminate|].
          intros (D & w & [<-|W] & EW); [congruence|]. assert (X : Ok ys = Panic :> res (list f32)) by (apply C; split; [exact D|eauto]). discriminate.
        * split; [discriminate|]. split; [discriminate|]. split; [|reflexivity]. intros _. destruct C as [C _]. destruct (C eq_refl) as (D & w & W & EW).
          split; [exact D|]. exists w. split; [now right|exact EW]. }
  destruct (G (q_steps q) us ds ltac:(lia) ltac:(lia)) as (A & B & C). destruct (mutate_all rate range (q_steps q) us ds) as [l|[]|] eqn:E; cbn [obind]; [|congruence|].
  - split; [intros q' E'; injection E' as <-; exists l; auto|]. split; [discriminate|]. intros H. apply C in H. discriminate.
  - split; [discriminate|]. split; [intros _; now apply C|reflexivity].
Qed.
Print Assumptions C69_mutation_changes_nothing_or_lands_in_unit.
(* swing: every other step of the loop is moved by the same amount and clamped to [0,1]; no other step changes *)
Lemma swing_fold k : forall idx l, NoDup idx -> Forall (fun i => 0 <= i < Z.of_nat (length l)) idx ->
  exists l', foldM (fun l i => obind (zget l i) (fun x => zset l i (swing_one k x))) idx l = Ok l' /\ length l' = length l
   /\ forall j, 0 <= j -> zget l' j = if existsb (Z.eqb j) idx then obind (zget l j) (fun x => Ok (swing_one k x)) else zget l j.
Proof.
  induction idx as [|i idx IH]; intros l ND H; cbn [foldM].
  - exists l. split; [reflexivity|]. split; [reflexivity|]. intros j _. reflexivity.
  - inversion ND as [|? ? NI ND']; subst. inversion H as [|? ? Hi Hr]; subst. destruct (zget_ok l i Hi) as [x Ex]. rewrite Ex. cbn [obind]. rewrite zset_ok by exact Hi. cbn [obind].
    destruct (IH (upd l (Z.to_nat i) (swing_one k x)) ND') as (l' & E & L & R). { now rewrite upd_length. }
    exists l'. split; [exact E|]. split; [rewrite L; apply upd_length|]. intros j Hj. rewrite R by exact Hj. cbn [existsb].
    destruct (Z.eqb_spec j i) as [->|N].
    + assert (F : existsb (Z.eqb i) idx = false). { apply not_true_iff_false. intros T. apply existsb_exists in T as (y & Y1 & Y2). apply Z.eqb_eq in Y2. subst. contradiction. }
      rewrite F. cbn [orb]. rewrite zget_upd_eq by exact Hi. rewrite Ex. reflexivity.
    + cbn [orb]. rewrite zget_upd_neq by lia. reflexivity.
Qed.
Theorem C69_swing : forall q amount, length (q_steps q) = 16%nat -> 0 <= q_loop_start q <= q_loop_end q -> q_loop_end q < 16 ->
  exists q' k, apply_swing q amount = Ok q' /\ (exists l, q' = set_steps q l) /\
   forall j, 0 <= j < 16 -> exists x y, step q j = Ok x /\ step q' j = Ok y /\
     if (q_loop_start q <=? j) && (j <=? q_loop_end q) && Z.even (j - q_loop_start q)
     then unit_step y /\ (forall s, s = fadd x (fdiv (fofZ k) (fofZ 16)) -> unit_step s -> val y = val s) else y = x.
Proof.
  intros q amount L HL HE. unfold apply_swing. destruct (Z.ltb_spec (q_loop_end q) (q_loop_start q)); [lia|]. cbv zeta.
  set (k := swing_steps q amount).
  assert (IDX : forall j, In j (swing_indices q) <-> q_loop_start q <= j <= q_loop_end q /\ Z.even (j - q_loop_start q) = true).
  { intros j. unfold swing_indices. rewrite in_map_iff. split.
    - intros (a & <- & Ha). apply in_seq in Ha. split; [lia|]. replace (q_loop_start q + 2 * Z.of_nat a - q_loop_start q) with (2 * Z.of_nat a) by lia. now rewrite Z.even_mul.
    - intros [Hj He]. apply Z.even_spec in He as [h Hh]. exists (Z.to_nat h). split; [lia|]. apply in_seq. lia. }
  destruct (swing_fold k (swing_indices q) (q_steps q)) as (l' & E & L' & R).
  { unfold swing_indices. apply FinFun.Injective_map_NoDup; [intros a b; lia|apply seq_NoDup]. }
  { apply Forall_forall. intros j Hj. apply IDX in Hj. lia. }
  exists (set_steps q l'), k. rewrite E. split; [reflexivity|]. split; [eexists; reflexivity|]. intros j Hj.
  destruct (zget_ok (q_steps q) j ltac:(lia)) as [x Ex]. unfold step, N_STEPS. destruct (Z.ltb_spec j 16); [|lia]. cbn [q_steps set_steps]. rewrite R by lia. rewrite Ex. cbn [obind].
  assert (EB : existsb (Z.eqb j) (swing_indices q) = (q_loop_start q <=? j) && (j <=? q_loop_end q) && Z.even (j - q_loop_start q)).
  { apply eq_iff_eq_true. rewrite existsb_exists, !andb_true_iff, !Z.leb_le. split.
    - intros (y & Y1 & Y2). apply Z.eqb_eq in Y2. subst y. apply IDX in Y1. tauto.
    - intros H'. exists j. split; [apply IDX; tauto|apply Z.eqb_refl]. }
  rewrite EB. exists x. destruct (_ && _ && _).
  - eexists. split; [reflexivity|]. split; [reflexivity|]. split; [apply clamp01|]. intros s -> [FS VS]. unfold swing_one.
    destruct f0_ok as [F0 V0]. destruct f1_ok as [F1 V1]. destruct (clamp_any (fadd x (fdiv (fofZ k) (fofZ 16))) f0 f1 F0 F1) as (_ & _ & C & _); [rewrite V0, V1; lra|].
    rewrite (C FS), V0, V1. now apply clampR_id.
  - eexists. repeat split; reflexivity.
Qed.
Print Assumptions C69_swing.
Example C69_instance : length (q_steps q33) = 16%nat /\ 0 <= q_loop_start q33 <= q_loop_end q33 /\ q_loop_end q33 < 16 /\ swing_steps q33 (fpow 1 (-1)) = 8.
Proof. split; [reflexivity|]. split; [cbn; lia|]. split; [reflexivity|]. vm_compute. reflexivity. Qed.
