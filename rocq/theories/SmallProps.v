(* SmallProps.v - C43 ring-out, C47 allpass, C51 sample rate, C57 modulation sources. *)
From Coq Require Import Reals Lra.
From Flocq Require Import Core.Core IEEE754.BinarySingleNaN.
From Verif Require Import Base Util F32 F32Facts BlockModel SmallModel.
Local Open Scope Z_scope.

(* ================= C43 ================= *)
(* Specification. A tail of n blocks: a block is processed when it has input, or when at most n blocks have passed
   since the last block with input (`left` counts how many tail blocks remain). *)
Fixpoint tail_spec (n left : Z) (ins : list bool) : list bool :=
  match ins with
  | [] => []
  | true :: r => true :: tail_spec n n r
  | false :: r => (0 <? left) :: tail_spec n (left - 1) r
  end.

Lemma ring_run_on ins : forall c n, 0 <= c -> c + Z.of_nat (length ins) <= 18446744073709551615 ->
  ring_run (RingOn c n) ins = Ok ins.
Proof.
  induction ins as [|[] r IH]; intros c n Hc H; cbn [ring_run]; auto.
  - cbn [process_ringout]. cbn [obind fst snd ring_reset]. rewrite IH; [cbn; now rewrite orb_true_r|lia|].
    cbn [length] in H. lia.
  - cbn [process_ringout ring_incr]. cbn [length] in H. destruct (Z.leb_spec (c + 1) 18446744073709551615); [|lia].
    cbn [obind fst snd ring_counter]. rewrite IH by lia. cbn [obind].
    destruct (Z.ltb_spec (c + 1) 0); [lia|reflexivity].
Qed.

(* What the code does: an effect with a ring-out of n blocks is processed exactly in the blocks that have input. *)
Theorem C43_processed_exactly_when_input_present : forall n ins,
  0 <= n -> Z.of_nat (length ins) <= 18446744073709551615 ->
  ring_run (ringout_blocks n) ins = Ok ins.
Proof. intros. apply ring_run_on; lia. Qed.

Theorem C43_always_on_is_always_processed : forall ins,
  ring_run RingOff ins = Ok (map (fun _ => true) ins).
Proof. induction ins; cbn; auto. cbn in IHins. rewrite IHins. reflexivity. Qed.

(* The tail is never played, for any ring-out length: the first block after the input stops is already suspended,
   and the history agrees with the documented tail only if no block is supposed to be a tail block. *)
Theorem C43_tail_rings_out_refuted : forall n, 0 < n ->
  tail_spec n n [true; false] = [true; true] /\ ring_run (ringout_blocks n) [true; false] = Ok [true; false].
Proof.
  intros n H. split.
  - cbn. destruct (Z.ltb_spec 0 n); [reflexivity|lia].
  - apply ring_run_on; cbn; lia.
Qed.
(* with a tail length of zero the code is right *)
Theorem C43_zero_tail_correct : forall ins, Z.of_nat (length ins) <= 18446744073709551615 ->
  ring_run (ringout_blocks 0) ins = Ok (tail_spec 0 0 ins).
Proof.
  intros ins H. rewrite C43_processed_exactly_when_input_present by lia. f_equal.
  assert (forall l k, k <= 0 -> l = tail_spec 0 k l) as G.
  { induction l as [|[] r IH]; intros k Hk; cbn; auto.
    - f_equal. apply IH; lia.
    - destruct (Z.ltb_spec 0 k); [lia|]. f_equal. apply IH; lia. }
  apply G; lia.
Qed.
Print Assumptions C43_processed_exactly_when_input_present.
Print Assumptions C43_tail_rings_out_refuted.
Example C43_instance : ring_run (ringout_blocks 1000) [true; false; false; true] = Ok [true; false; false; true]
  /\ tail_spec 1 1 [true; false; false; true] = [true; true; false; true].
Proof. split; reflexivity. Qed.

(* ================= C47 ================= *)
Definition ap_cell (s : allpass) (k : Z) : R := nth (Z.to_nat k) (ap_buf s) 0%R.
(* the next N values the filter will read, in order *)
Definition ap_queue (s : allpass) : list R :=
  map (fun k => ap_cell s ((ap_wpos s + 1 + Z.of_nat k) mod Z.of_nat (length (ap_buf s)))) (seq 0 (length (ap_buf s))).

Lemma zget_nth (l : list R) i : 0 <= i < Z.of_nat (length l) -> zget l i = Ok (nth (Z.to_nat i) l 0%R).
Proof.
  intros H. unfold zget. destruct (Z.leb_spec 0 i); [|lia].
  destruct (nth_error l (Z.to_nat i)) eqn:E; [|apply nth_error_None in E; lia].
  f_equal. symmetry. now apply nth_error_nth.
Qed.
Lemma upd_nth_R (l : list R) i j x : (i < length l)%nat ->
  nth j (upd l i x) 0%R = if Nat.eqb j i then x else nth j l 0%R.
Proof.
  intros H. destruct (Nat.eqb_spec j i) as [->|Hn].
  - apply nth_error_nth. now apply upd_nth_eq.
  - pose proof (upd_nth_neq l i j x) as E. specialize (E ltac:(auto)).
    destruct (Nat.lt_ge_cases j (length l)) as [Hj|Hj].
    + assert (nth_error l j = Some (nth j l 0%R)) as E2 by (apply nth_error_nth'; auto).
      rewrite E2 in E. now apply nth_error_nth.
    + rewrite !nth_overflow; auto. now rewrite upd_length.
Qed.

Lemma ap_process_spec s x : ap_buf s <> [] -> 0 <= ap_wpos s ->
  let N := Z.of_nat (length (ap_buf s)) in
  let p := (ap_wpos s + 1) mod N in
  let y := ap_cell s p in
  let w := (y * - ap_a s + x)%R in
  ap_process s x = Ok ({| ap_buf := upd (ap_buf s) (Z.to_nat p) w; ap_a := ap_a s; ap_wpos := p |}, (y + w * ap_a s)%R).
Proof.
  intros Hb Hw N p y w. assert (0 < N) by (unfold N; destruct (ap_buf s); [congruence|cbn [length]; lia]).
  assert (0 <= p < N) by (apply Z.mod_pos_bound; lia).
  unfold ap_process, ap_update_wpos. fold N. destruct (Z.eqb_spec N 0); [lia|].
  cbn [obind ap_buf ap_a ap_wpos]. fold p. rewrite zget_nth by (fold N; lia).
  cbn [obind]. fold (ap_cell s p). fold y. fold w. rewrite zset_ok by (fold N; lia). cbn [obind].
  rewrite zget_upd_eq by (fold N; lia). reflexivity.
Qed.

Lemma ap_queue_step s x s' y : ap_buf s <> [] -> 0 <= ap_wpos s -> ap_process s x = Ok (s', y) ->
  exists q0 q, ap_queue s = q0 :: q /\ ap_queue s' = q ++ [(x - ap_a s * q0)%R] /\ y = (q0 + ap_a s * (x - ap_a s * q0))%R
    /\ ap_a s' = ap_a s /\ ap_buf s' <> [] /\ 0 <= ap_wpos s' /\ length (ap_buf s') = length (ap_buf s).
Proof.
  intros Hb Hw E. rewrite (ap_process_spec s x Hb Hw) in E. cbv zeta in E.
  set (N := Z.of_nat (length (ap_buf s))) in *. set (p := (ap_wpos s + 1) mod N) in *.
  injection E as <- <-. assert (HN : 0 < N) by (unfold N; destruct (ap_buf s); [congruence|cbn [length]; lia]).
  assert (Hp : 0 <= p < N) by (apply Z.mod_pos_bound; lia).
  destruct (length (ap_buf s)) as [|n] eqn:EL; [lia|].
  exists (ap_cell s p), (map (fun k => ap_cell s ((ap_wpos s + 1 + Z.of_nat k) mod N)) (seq 1 n)).
  split.
  { unfold ap_queue. rewrite EL. cbn [seq map]. fold N. f_equal. f_equal. unfold p. f_equal. lia. }
  split.
  { unfold ap_queue. cbn [ap_buf ap_wpos]. rewrite upd_length, EL. fold N.
    rewrite seq_S, map_app. f_equal.
    - cbn [plus]. rewrite <- seq_shift, map_map. apply map_ext_in. intros k Hk. apply in_seq in Hk.
      assert (Hne : (p + 1 + Z.of_nat k) mod N <> p).
      { intros C. rewrite <- (Z.mod_small p N) in C at 2 by lia.
        assert (((p + 1 + Z.of_nat k) - p) mod N = 0) as D.
        { rewrite Zminus_mod, C, Z.sub_diag. apply Z.mod_0_l. lia. }
        replace (p + 1 + Z.of_nat k - p) with (1 + Z.of_nat k) in D by lia.
        rewrite Z.mod_small in D; lia. }
      assert (Hm : (p + 1 + Z.of_nat k) mod N = (ap_wpos s + 1 + Z.of_nat (S k)) mod N).
      { unfold p. rewrite <- Z.add_assoc, Zplus_mod_idemp_l. f_equal. lia. }
      unfold ap_cell. cbn [ap_buf]. rewrite upd_nth_R by lia.
      assert (0 <= (p + 1 + Z.of_nat k) mod N < N) by (apply Z.mod_pos_bound; lia).
      destruct (Nat.eqb_spec (Z.to_nat ((p + 1 + Z.of_nat k) mod N)) (Z.to_nat p)); [lia|].
      now rewrite Hm.
    - cbn [map]. f_equal. unfold ap_cell at 1. cbn [ap_buf].
      replace ((p + 1 + Z.of_nat (0 + n)) mod N) with p.
      2:{ replace (p + 1 + Z.of_nat (0 + n)) with (p + 1 * N) by (unfold N; lia). rewrite Z.mod_add by lia. now rewrite Z.mod_small by lia. }
      rewrite upd_nth_R by lia. rewrite Nat.eqb_refl. ring. }
  split; [ring|]. cbn [ap_a ap_buf ap_wpos]. rewrite upd_length, EL. split; [reflexivity|]. split; [|lia].
  intros C. apply (f_equal (@length R)) in C. rewrite upd_length, EL in C. discriminate.
Qed.

Lemma ap_run_spec xs : forall s, ap_buf s <> [] -> 0 <= ap_wpos s ->
  exists s' ys ws, ap_run s xs = Ok (s', ys) /\ length ys = length xs /\ length ws = length xs /\ ap_queue s ++ ws <> [] /\
    forall n, (n < length xs)%nat ->
      nth n ws 0%R = (nth n xs 0 - ap_a s * nth n (ap_queue s ++ ws) 0)%R /\
      nth n ys 0%R = (nth n (ap_queue s ++ ws) 0 + ap_a s * nth n ws 0)%R.
Proof.
  induction xs as [|x xs IH]; intros s Hb Hw.
  - exists s, [], []. cbn. repeat split; auto; try lia. rewrite app_nil_r. unfold ap_queue.
    destruct (ap_buf s); [congruence|discriminate].
  - pose proof (ap_process_spec s x Hb Hw) as EP. cbv zeta in EP.
    match type of EP with _ = Ok (?a, ?b) => set (s1 := a) in *; set (y := b) in * end.
    destruct (ap_queue_step s x s1 y Hb Hw EP) as (q0 & q & Q & Q1 & Y & A & B1 & W1 & L1).
    destruct (IH s1 B1 W1) as (s' & ys & ws & R & Ly & Lw & _ & P).
    exists s', (y :: ys), ((x - ap_a s * q0)%R :: ws). cbn [ap_run]. rewrite EP. cbn [obind fst snd]. rewrite R. cbn [obind fst snd].
    split; [reflexivity|]. cbn [length]. split; [lia|]. split; [lia|]. rewrite Q. split; [discriminate|].
    assert (QQ : (q0 :: q) ++ (x - ap_a s * q0)%R :: ws = q0 :: (ap_queue s1 ++ ws)).
    { rewrite Q1. cbn. now rewrite <- app_assoc. }
    rewrite QQ. intros [|n] Hn; cbn [nth].
    + split; [ring|]. exact Y.
    + specialize (P n ltac:(lia)). rewrite A in P. exact P.
Qed.

Lemma ap_queue_length s : length (ap_queue s) = length (ap_buf s).
Proof. unfold ap_queue. now rewrite map_length, seq_length. Qed.

Lemma nth_zero_buf N k : nth k (repeat 0%R N) 0%R = 0%R.
Proof. revert k; induction N; intros [|k]; cbn; auto. Qed.

(* A filter of length N with coefficient a, silent at the start, at any write position:
   y[n] = a x[n] + x[n-N] - a y[n-N], taking x and y as 0 before the start. *)
Theorem C47_allpass_recurrence : forall N a pos xs, (0 < N)%nat -> 0 <= pos ->
  exists s' ys, ap_run (ap_set_wpos (ap_set_a (ap_default N) a) pos) xs = Ok (s', ys) /\ length ys = length xs /\
    forall n, (n < length xs)%nat ->
      nth n ys 0%R = (a * nth n xs 0 + (if (n <? N)%nat then 0 else nth (n - N) xs 0 - a * nth (n - N) ys 0))%R.
Proof.
  intros N a pos xs HN Hpos. set (s := ap_set_wpos (ap_set_a (ap_default N) a) pos).
  assert (Hb : ap_buf s <> []) by (cbn; destruct N; [lia|discriminate]).
  destruct (ap_run_spec xs s Hb Hpos) as (s' & ys & ws & R & Ly & Lw & _ & P).
  exists s', ys. split; [exact R|]. split; [exact Ly|]. intros n Hn.
  assert (LQ : length (ap_queue s) = N) by (rewrite ap_queue_length; cbn; apply repeat_length).
  change (ap_a s) with a in P.
  destruct (P n Hn) as [P1 P2]. rewrite P2, P1. destruct (Nat.ltb_spec n N) as [H|H].
  - rewrite app_nth1 by lia.
    assert (nth n (ap_queue s) 0%R = 0%R) as ->.
    { assert (forall x, In x (ap_queue s) -> x = 0%R) as G.
      { intros x Hx. unfold ap_queue in Hx. apply in_map_iff in Hx. destruct Hx as (k & <- & _). apply nth_zero_buf. }
      apply G. apply nth_In. lia. }
    ring.
  - rewrite app_nth2 by lia. rewrite LQ. destruct (P (n - N)%nat ltac:(lia)) as [Q1 Q2]. rewrite Q2.
    rewrite Q1. ring.
Qed.

(* energy: sum of squares *)
Fixpoint sumsq (l : list R) : R := match l with [] => 0%R | x :: r => (x * x + sumsq r)%R end.
Lemma sumsq_upd (l : list R) i x : (i < length l)%nat ->
  sumsq (upd l i x) = (sumsq l - nth i l 0 * nth i l 0 + x * x)%R.
Proof. revert i; induction l; intros [|i] H; cbn in *; try lia; [ring|]. rewrite IHl by lia. ring. Qed.
Lemma sumsq_nonneg l : (0 <= sumsq l)%R.
Proof. induction l; cbn; [lra|]. pose proof (Rle_0_sqr a). unfold Rsqr in H. lra. Qed.
Lemma sumsq_zero N : sumsq (repeat 0%R N) = 0%R.
Proof. induction N; cbn; [auto|]. rewrite IHN. ring. Qed.

(* The filter neither creates nor loses energy: the energy put out plus (1-a^2) times the energy stored in the
   delay line always equals the energy put in plus what was stored before. *)
Theorem C47_allpass_conserves_energy : forall xs s, ap_buf s <> [] -> 0 <= ap_wpos s ->
  exists s' ys, ap_run s xs = Ok (s', ys) /\
    (sumsq ys + (1 - ap_a s * ap_a s) * sumsq (ap_buf s') = sumsq xs + (1 - ap_a s * ap_a s) * sumsq (ap_buf s))%R.
Proof.
  induction xs as [|x xs IH]; intros s Hb Hw.
  - exists s, []. split; [reflexivity|cbn; ring].
  - pose proof (ap_process_spec s x Hb Hw) as EP. cbv zeta in EP.
    set (N := Z.of_nat (length (ap_buf s))) in *. set (p := (ap_wpos s + 1) mod N) in *.
    assert (HN : 0 < N) by (unfold N; destruct (ap_buf s); [congruence|cbn [length]; lia]).
    assert (Hp : 0 <= p < N) by (apply Z.mod_pos_bound; lia).
    match type of EP with _ = Ok (?a, ?b) => set (s1 := a) in *; set (y := b) in * end.
    destruct (ap_queue_step s x s1 y Hb Hw EP) as (q0 & q & _ & _ & _ & A & B1 & W1 & L1).
    destruct (IH s1 B1 W1) as (s' & ys & R & E). rewrite A in E.
    exists s', (y :: ys). cbn [ap_run]. rewrite EP. cbn [obind fst snd]. rewrite R. cbn [obind fst snd].
    split; [reflexivity|]. cbn [sumsq].
    assert (ES : sumsq (ap_buf s1) = (sumsq (ap_buf s) - ap_cell s p * ap_cell s p
              + (ap_cell s p * - ap_a s + x) * (ap_cell s p * - ap_a s + x))%R).
    { unfold s1. cbn [ap_buf]. apply sumsq_upd. unfold N in Hp. lia. }
    rewrite ES in E. replace (y * y + sumsq ys + (1 - ap_a s * ap_a s) * sumsq (ap_buf s'))%R
      with (y * y + (sumsq ys + (1 - ap_a s * ap_a s) * sumsq (ap_buf s')))%R by ring.
    rewrite E. unfold y. ring.
Qed.
(* so a silent filter with |a| <= 1 never outputs more energy than it was given *)
Theorem C47_allpass_never_amplifies : forall N a xs, (0 < N)%nat -> (-1 <= a <= 1)%R ->
  exists s' ys, ap_run (ap_set_a (ap_default N) a) xs = Ok (s', ys) /\ (sumsq ys <= sumsq xs)%R.
Proof.
  intros N a xs HN Ha. destruct (C47_allpass_conserves_energy xs (ap_set_a (ap_default N) a)) as (s' & ys & R & E).
  - cbn. destruct N; [lia|discriminate].
  - cbn. lia.
  - exists s', ys. split; [exact R|]. cbn [ap_set_a ap_a ap_buf ap_default] in E. rewrite sumsq_zero in E.
    pose proof (sumsq_nonneg (ap_buf s')). assert (0 <= 1 - a * a)%R by nra.
    assert (0 <= (1 - a * a) * sumsq (ap_buf s'))%R by (apply Rmult_le_pos; lra). lra.
Qed.
(* a filter of length 0 panics on its first sample *)
Theorem C47_zero_length_panics : forall a x, ap_process (ap_set_a (ap_default 0) a) x = Panic.
Proof. reflexivity. Qed.
Print Assumptions C47_allpass_recurrence.
Print Assumptions C47_allpass_conserves_energy.
Example C47_instance : exists s', ap_run (ap_set_a (ap_default 1) (1/2)) [1; 0; 0]%R
  = Ok (s', [(1/2); (3/4); (-3/8)]%R).
Proof.
  eexists. unfold ap_run, ap_process, ap_update_wpos. cbn. apply f_equal. apply f_equal2; [reflexivity|].
  apply f_equal2; [lra|apply f_equal2; [lra|apply f_equal2; [lra|reflexivity]]].
Qed.

(* ================= C51 ================= *)
Lemma fval_of_eqb (x : f32) n : Z.abs n <= 16777216 -> is_finite x = true -> feqb x (fofZ n) = true -> B2R x = IZR n.
Proof.
  intros Hn Hf E. destruct (fofZ_ok n Hn) as [F V]. unfold feqb in E.
  rewrite Beqb_correct in E; [|exact Hf|exact F].
  destruct (Req_bool_spec (B2R x) (B2R (fofZ n))) as [G|]; [|discriminate]. rewrite G. exact V.
Qed.
(* After a change of sample rate the plain rate, its inverse, and all four double precision quantities are those
   of a unit built with that rate. *)
Theorem C51_set_matches_new : forall u sr, let v := sr_set u sr in let n := sr_new sr in
  sr_sr v = sr_sr n /\ sr_sr_inv v = sr_sr_inv n /\ sr_dsr v = sr_dsr n /\ sr_dsr_inv v = sr_dsr_inv n
  /\ sr_dos v = sr_dos n /\ sr_dos_inv v = sr_dos_inv n.
Proof. intros. cbn. repeat split; reflexivity. Qed.
(* the conversion from milliseconds follows the last rate set, whatever happened before *)
Theorem C51_ms_follows_rate : forall u sr ms scale,
  sr_ms_2_samples (sr_set u sr) ms scale = sr_ms_2_samples (sr_new sr) ms scale.
Proof. reflexivity. Qed.
(* The single precision oversampled rate and its inverse never change after construction, whatever rates are set:
   they keep describing the rate the unit was built with. *)
Theorem C51_oversampled_rate_updates_refuted :
  (forall u srs, let v := fold_left sr_set srs u in sr_os v = sr_os u /\ sr_os_inv v = sr_os_inv u) /\
  (let v := sr_set (sr_new (dofZ 48000)) (dofZ 44100) in
     B2R (sr_os v) = 96000%R /\ B2R (sr_os (sr_new (dofZ 44100))) = 88200%R).
Proof.
  split.
  - intros u srs. cbv zeta. revert u. induction srs as [|x r IH]; intros u; cbn [fold_left]; [auto|].
    destruct (IH (sr_set u x)) as [-> ->]. auto.
  - cbv zeta. cbn [sr_set sr_os sr_new]. unfold OSC_OVERSAMPLING. split.
    + apply fval_of_eqb; [lia|vm_compute; reflexivity..].
    + apply fval_of_eqb; [lia|vm_compute; reflexivity..].
Qed.
Print Assumptions C51_set_matches_new.
Print Assumptions C51_oversampled_rate_updates_refuted.
Example C51_instance : as_usize_f (sr_sr (sr_set (sr_new (dofZ 48000)) (dofZ 44100))) = 44100
  /\ sr_ms_2_samples (sr_new (dofZ 48000)) (fofZ 10) (fofZ 1) = 480.
Proof. split; vm_compute; reflexivity. Qed.

(* ================= C57 ================= *)
(* every source is in the list, so finite checks over it are universal *)
Lemma all_modsources_complete m : In m all_modsources.
Proof. destruct m; cbn; tauto. Qed.

(* The LFO sources are exactly the six voice LFOs and the six scene LFOs, the controllers exactly the eight controllers,
   the envelopes exactly the two envelopes; no source is in two of these families. *)
Theorem C57_families : forall m,
  (ms_is_lfo m = true <-> (exists i, 0 <= i < 6 /\ (ms_voice_lfo i = Ok m \/ ms_scene_lfo i = Ok m))) /\
  (ms_is_custom_controller m = true <-> (exists i, 0 <= i < 8 /\ ms_ctrl i = Ok m)) /\
  (ms_is_envelope m = true <-> m = AmpEg \/ m = FilterEg) /\
  (ms_is_lfo m && ms_is_custom_controller m = false) /\ (ms_is_lfo m && ms_is_envelope m = false) /\
  (ms_is_custom_controller m && ms_is_envelope m = false).
Proof.
  intros m. repeat split; try (destruct m; reflexivity).
  - intros H. destruct m; try discriminate; [exists 0|exists 1|exists 2|exists 3|exists 4|exists 5|exists 0|exists 1|exists 2|exists 3|exists 4|exists 5]; (split; [lia|auto]).
  - intros (i & Hi & H). assert (i = 0 \/ i = 1 \/ i = 2 \/ i = 3 \/ i = 4 \/ i = 5) as D by lia.
    repeat destruct D as [->|D]; subst; destruct H as [H|H]; injection H as <-; reflexivity.
  - intros H. destruct m; try discriminate; [exists 0|exists 1|exists 2|exists 3|exists 4|exists 5|exists 6|exists 7]; (split; [lia|auto]).
  - intros (i & Hi & H). assert (i = 0 \/ i = 1 \/ i = 2 \/ i = 3 \/ i = 4 \/ i = 5 \/ i = 6 \/ i = 7) as D by lia.
    repeat destruct D as [->|D]; subst; injection H as <-; reflexivity.
  - intros H. destruct m; try discriminate; auto.
  - intros [-> | ->]; reflexivity.
Qed.
(* The three index constructors are injective, have disjoint ranges and panic exactly outside their ranges. *)
Theorem C57_constructors : 
  (forall i, (exists m, ms_ctrl i = Ok m) <-> 0 <= i < 8) /\
  (forall i, (exists m, ms_scene_lfo i = Ok m) <-> 0 <= i < 6) /\
  (forall i, (exists m, ms_voice_lfo i = Ok m) <-> 0 <= i < 6) /\
  (forall i j m, ms_ctrl i = Ok m -> ms_ctrl j = Ok m -> i = j) /\
  (forall i j m, ms_scene_lfo i = Ok m -> ms_scene_lfo j = Ok m -> i = j) /\
  (forall i j m, ms_voice_lfo i = Ok m -> ms_voice_lfo j = Ok m -> i = j).
Proof.
  unfold ms_ctrl, ms_scene_lfo, ms_voice_lfo.
  repeat split; intros;
  repeat match goal with
  | H : exists _, _ |- _ => destruct H
  | H : context [Z.eqb ?a ?b] |- _ => destruct (Z.eqb_spec a b)
  | |- context [Z.eqb ?a ?b] => destruct (Z.eqb_spec a b)
  end; try discriminate; try lia; try (eexists; reflexivity); try congruence.
Qed.
(* A source is never neither: everything is a voice modulator or scene level. *)
Theorem C57_covered : forall m, ms_is_voice_modulator m || ms_is_scenelevel m = true.
Proof. destruct m; reflexivity. Qed.
(* The sources that are both per-voice and scene-level are exactly these twelve: the two classes overlap. *)
Theorem C57_voice_or_scene_not_both_refuted : forall m,
  ms_is_voice_modulator m && ms_is_scenelevel m = true <->
  In m [Original; ChannelAfterTouch; PitchBend; ModWheel; Ctrl1; Ctrl2; Ctrl3; Ctrl4; Ctrl5; Ctrl6; Ctrl7; Ctrl8].
Proof. intros m. split; [destruct m; cbn; intros H; try discriminate; tauto|]. cbn. intros H. repeat destruct H as [<-|H]; try reflexivity. destruct H. Qed.
(* Which routings the synthesizer accepts: exactly those to a modulateable float parameter, from a source other than
   Original, where a scene-wide parameter or an LFO parameter is driven only by scene-level sources. *)
Theorem C57_valid_modulation : forall p m,
  is_valid_modulation p m = true <->
  (m <> Original /\ mp_modulateable p = true /\ mp_is_float p = true /\
   (mp_per_voice p = false \/ mp_group_is_lfo p = true -> ms_is_scenelevel m = true)).
Proof.
  intros [a b c d] m. cbn. split.
  - intros H. destruct m, a, b, c, d; cbn in H; try discriminate; repeat split; try congruence; intuition congruence.
  - intros (H1 & H2 & H3 & H4). destruct m, a, b, c, d; cbn in *; try reflexivity; try congruence; exfalso; try (now apply H1); intuition congruence.
Qed.
(* consequence: no routing lets a per-voice source drive a shared parameter *)
Theorem C57_no_voice_source_on_shared_parameter : forall p m,
  is_valid_modulation p m = true -> mp_per_voice p = false -> ms_is_scenelevel m = true.
Proof. intros p m H P. apply C57_valid_modulation in H. tauto. Qed.
Print Assumptions C57_families.
Print Assumptions C57_valid_modulation.
Example C57_instance : is_valid_modulation {| mp_modulateable := true; mp_is_float := true; mp_per_voice := false; mp_group_is_lfo := true |} SceneLfo3 = true
  /\ is_valid_modulation {| mp_modulateable := true; mp_is_float := true; mp_per_voice := true; mp_group_is_lfo := true |} VoiceLfo1 = false.
Proof. split; reflexivity. Qed.
