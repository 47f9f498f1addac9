(** Lemmas about the reverb network of ReverbModel.v. *)
From Coq Require Import Reals Lra.
From Verif Require Import Base Util BlockModel MathModel AdsrModel LfoModel ReverbModel.
Local Open Scope R_scope.

Definition taps : list Z := map Z.of_nat (seq 0 16).
Definition tap_ok (t : Z) : Prop := (0 <= t < 16)%Z.
Lemma taps_in t : In t taps <-> tap_ok t.
Proof.
  unfold taps, tap_ok. rewrite in_map_iff. split.
  - intros [n [<- H]]. apply in_seq in H. lia.
  - intros H. exists (Z.to_nat t). split; [lia|apply in_seq; lia].
Qed.
Fixpoint sumR {A} (f : A -> R) (l : list A) : R := match l with [] => 0 | x :: r => f x + sumR f r end.

Definition dsamp (s : reverb) (t : Z) : Z := Z.shiftr (as_i32 (rv_time s t)) 8.
Definition cell (p t : Z) : Z := (16 * (p mod 32768) + t)%Z.

Lemma land_32767 x : Z.land x 32767 = (x mod 32768)%Z.
Proof. change 32767%Z with (Z.ones 15). rewrite Z.land_ones by lia. reflexivity. Qed.
Lemma delay_idx_eq s t o : delay_idx s t o = cell (rv_pos s - dsamp s (t + o)) (t + o).
Proof.
  unfold delay_idx, cell, dsamp. change (RV_MAX - 1)%Z with 32767%Z. rewrite land_32767.
  change RV_TAPBITS with 4%Z. rewrite Z.shiftl_mul_pow2 by lia. change (2 ^ 4)%Z with 16%Z. ring.
Qed.
Lemma cell_range p t : tap_ok t -> (0 <= cell p t < 524288)%Z.
Proof. intros [H1 H2]. unfold cell. pose proof (Z.mod_pos_bound p 32768 ltac:(lia)). lia. Qed.
Lemma rv_get_cell s p t : tap_ok t -> rv_get s (cell p t) = Ok (rv_delay s (cell p t)).
Proof.
  intros H. pose proof (cell_range p t H). unfold rv_get. change (RV_TAPS * RV_MAX)%Z with 524288%Z.
  destruct (Z.leb_spec 0 (cell p t)); [|lia]. destruct (Z.ltb_spec (cell p t) 524288); [reflexivity|lia].
Qed.
Lemma cell_inj p q t u : tap_ok t -> tap_ok u -> cell p t = cell q u -> (p mod 32768 = q mod 32768)%Z /\ t = u.
Proof. unfold cell, tap_ok. intros. lia. Qed.

Definition with_out (s : reverb) (o : Z -> R) : reverb := mk_rv (rv_delay s) (rv_pre s) o (rv_pos s) (rv_fb s) (rv_time s) (rv_pl s) (rv_pr s).
Definition rd (s : reverb) (t : Z) : R := rv_delay s (cell (rv_pos s - dsamp s t) t).

Lemma do_pre_tap_eq d e s t : (0 <= t <= 12)%Z -> exists o, do_pre_tap d e s t = Ok (with_out s o) /\
  (forall u, (t <= u < t + 4)%Z -> o u = rv_out s u * d + rd s u * e) /\ (forall u, ~ (t <= u < t + 4)%Z -> o u = rv_out s u).
Proof.
  intros H. unfold do_pre_tap. rewrite !delay_idx_eq, !rv_get_cell by (unfold tap_ok; lia). cbn [obind].
  eexists. split; [reflexivity|]. unfold store4. split; intros u Hu.
  - destruct (Z.leb_spec t u); [|lia]. destruct (Z.ltb_spec u (t + 4)); [|lia]. cbn [andb].
    replace (t + (u - t))%Z with u by lia. f_equal. f_equal. unfold rd.
    destruct (Z.eqb_spec (u - t) 0); [replace u with (t + 0)%Z by lia; reflexivity|].
    destruct (Z.eqb_spec (u - t) 1); [replace u with (t + 1)%Z by lia; reflexivity|].
    destruct (Z.eqb_spec (u - t) 2); [replace u with (t + 2)%Z by lia; reflexivity|].
    replace u with (t + 3)%Z by lia. reflexivity.
  - destruct (Z.leb_spec t u), (Z.ltb_spec u (t + 4)); cbn [andb]; try reflexivity; lia.
Qed.

Lemma do_pre_taps_eq d s : exists o, do_pre_taps d s = Ok (with_out s o) /\ forall t, tap_ok t -> o t = rv_out s t * d + rd s t * (1 - d).
Proof.
  unfold do_pre_taps. cbn [foldM].
  destruct (do_pre_tap_eq d (1 - d) s 0 ltac:(lia)) as [o0 [-> [A0 B0]]]. cbn [obind].
  destruct (do_pre_tap_eq d (1 - d) (with_out s o0) 4 ltac:(lia)) as [o1 [-> [A1 B1]]]. cbn [obind].
  destruct (do_pre_tap_eq d (1 - d) (with_out (with_out s o0) o1) 8 ltac:(lia)) as [o2 [-> [A2 B2]]]. cbn [obind].
  destruct (do_pre_tap_eq d (1 - d) (with_out (with_out (with_out s o0) o1) o2) 12 ltac:(lia)) as [o3 [-> [A3 B3]]]. cbn [obind].
  exists o3. split; [reflexivity|]. intros t Ht. unfold tap_ok in Ht.
  assert (E : (t < 4 \/ 4 <= t < 8 \/ 8 <= t < 12 \/ 12 <= t)%Z) by lia. destruct E as [E|[E|[E|E]]].
  - rewrite B3, B2, B1, A0 by lia. reflexivity.
  - cbn in *. rewrite B3 by lia. cbn. rewrite B2 by lia. cbn. rewrite A1 by lia. cbn. rewrite B0 by lia. reflexivity.
  - cbn in *. rewrite B3 by lia. cbn. rewrite A2 by lia. cbn. rewrite B1 by lia. cbn. rewrite B0 by lia. reflexivity.
  - cbn in *. rewrite A3 by lia. cbn. rewrite B2 by lia. cbn. rewrite B1 by lia. cbn. rewrite B0 by lia. reflexivity.
Qed.

Definition with_delay (s : reverb) (a : Z -> R) : reverb := mk_rv a (rv_pre s) (rv_out s) (rv_pos s) (rv_fb s) (rv_time s) (rv_pl s) (rv_pr s).

Lemma post_cell s t : (0 <= rv_pos s < 32768)%Z -> (Z.shiftl (rv_pos s) RV_TAPBITS + t)%Z = cell (rv_pos s) t.
Proof. intros H. unfold cell. rewrite Z.mod_small by lia. change RV_TAPBITS with 4%Z. rewrite Z.shiftl_mul_pow2 by lia. change (2 ^ 4)%Z with 16%Z. ring. Qed.

Lemma do_post_tap_eq fb s l r t : (0 <= rv_pos s < 32768)%Z -> (0 <= t <= 12)%Z ->
  exists a, do_post_tap fb (s, l, r) t = Ok (with_delay s a, (fun j => l j + rv_out s (t + j) * rv_pl s (t + j)), (fun j => r j + rv_out s (t + j) * rv_pr s (t + j))) /\
    (forall u, (t <= u < t + 4)%Z -> a (cell (rv_pos s) u) = rv_fb s u * (fb + rv_out s u)) /\
    (forall i, ~ (cell (rv_pos s) t <= i < cell (rv_pos s) t + 4)%Z -> a i = rv_delay s i).
Proof.
  intros Hp H. unfold do_post_tap. rewrite (post_cell s t Hp).
  pose proof (cell_range (rv_pos s) t ltac:(unfold tap_ok; lia)) as [C1 C2].
  assert (C3 : (cell (rv_pos s) t + 4 <= 524288)%Z) by (unfold cell; rewrite Z.mod_small by lia; lia).
  change (RV_TAPS * RV_MAX)%Z with 524288%Z.
  destruct (Z.leb_spec 0 (cell (rv_pos s) t)); [|lia]. destruct (Z.leb_spec (cell (rv_pos s) t + 4) 524288); [|lia]. cbn [andb].
  eexists. split; [reflexivity|]. unfold store4. split.
  - intros u Hu. assert (E : cell (rv_pos s) u = (cell (rv_pos s) t + (u - t))%Z) by (unfold cell; lia). rewrite E.
    destruct (Z.leb_spec (cell (rv_pos s) t) (cell (rv_pos s) t + (u - t))); [|lia].
    destruct (Z.ltb_spec (cell (rv_pos s) t + (u - t)) (cell (rv_pos s) t + 4)); [|lia]. cbn [andb].
    replace (t + (cell (rv_pos s) t + (u - t) - cell (rv_pos s) t))%Z with u by lia. reflexivity.
  - intros i Hi. destruct (Z.leb_spec (cell (rv_pos s) t) i), (Z.ltb_spec i (cell (rv_pos s) t + 4)); cbn [andb]; try reflexivity; lia.
Qed.

Lemma do_post_taps_eq fb s : (0 <= rv_pos s < 32768)%Z -> exists a l r,
  foldM (do_post_tap fb) [0; 4; 8; 12]%Z (s, fun _ => 0, fun _ => 0) = Ok (with_delay s a, l, r) /\
  (forall t, tap_ok t -> a (cell (rv_pos s) t) = rv_fb s t * (fb + rv_out s t)) /\
  (forall i, ~ (cell (rv_pos s) 0 <= i < cell (rv_pos s) 0 + 16)%Z -> a i = rv_delay s i) /\
  v_sum arithR l = sumR (fun t => rv_out s t * rv_pl s t) taps /\ v_sum arithR r = sumR (fun t => rv_out s t * rv_pr s t) taps.
Proof.
  intros Hp. cbn [foldM].
  destruct (do_post_tap_eq fb s (fun _ => 0) (fun _ => 0) 0 Hp ltac:(lia)) as [a0 [-> [A0 B0]]]. cbn [obind].
  match goal with |- context [do_post_tap fb (?S, ?L, ?Q) 4] => destruct (do_post_tap_eq fb S L Q 4 Hp ltac:(lia)) as [a1 [-> [A1 B1]]] end. cbn [obind].
  match goal with |- context [do_post_tap fb (?S, ?L, ?Q) 8] => destruct (do_post_tap_eq fb S L Q 8 Hp ltac:(lia)) as [a2 [-> [A2 B2]]] end. cbn [obind].
  match goal with |- context [do_post_tap fb (?S, ?L, ?Q) 12] => destruct (do_post_tap_eq fb S L Q 12 Hp ltac:(lia)) as [a3 [-> [A3 B3]]] end. cbn [obind].
  exists a3. eexists. eexists. split; [reflexivity|]. cbn in A0, A1, A2, A3, B0, B1, B2, B3.
  assert (HC : forall u, cell (rv_pos s) u = (cell (rv_pos s) 0 + u)%Z) by (intros; unfold cell; lia).
  split; [|split; [|split]].
  - intros t Ht. unfold tap_ok in Ht.
    assert (E : (t < 4 \/ 4 <= t < 8 \/ 8 <= t < 12 \/ 12 <= t)%Z) by lia. destruct E as [E|[E|[E|E]]].
    + rewrite B3, B2, B1, A0; [reflexivity|lia| | |]; rewrite (HC t), ?(HC 12%Z), ?(HC 8%Z), ?(HC 4%Z); lia.
    + rewrite B3, B2, A1; [reflexivity|lia| |]; rewrite (HC t), ?(HC 12%Z), ?(HC 8%Z), ?(HC 4%Z); lia.
    + rewrite B3, A2; [reflexivity|lia|]; rewrite (HC t), ?(HC 12%Z), ?(HC 8%Z), ?(HC 4%Z); lia.
    + rewrite A3; [reflexivity|lia].
  - intros i Hi. rewrite B3, B2, B1, B0; [reflexivity| | | |]; rewrite ?(HC 12%Z), ?(HC 8%Z), ?(HC 4%Z); lia.
  - unfold v_sum. cbn. ring.
  - unfold v_sum. cbn. ring.
Qed.

Lemma usize_sub_unchecked a b : exists v, usize_sub false a b = Ok v /\ Z.land v 32767 = ((a - b) mod 32768)%Z.
Proof.
  unfold usize_sub. cbn [andb]. eexists. split; [reflexivity|]. rewrite land_32767.
  rewrite Zminus_mod_idemp_r. change (2 ^ 64)%Z with (32768 * 562949953421312)%Z.
  rewrite <- (Znumtheory.Zmod_div_mod 32768 (32768 * 562949953421312)); [reflexivity|lia|lia|exists 562949953421312%Z; ring].
Qed.
Lemma usize_sub_checked a b : (0 <= a < 2 ^ 63)%Z -> (- 2 ^ 31 <= b < 2 ^ 31)%Z ->
  (usize_sub true a b = Panic <-> ~ (0 <= b <= a)%Z) /\ ((0 <= b <= a)%Z -> usize_sub true a b = usize_sub false a b).
Proof.
  intros Ha Hb. unfold usize_sub. cbn [andb].
  assert (E : (0 <= b -> b mod 2 ^ 64 = b)%Z) by (intros; apply Z.mod_small; lia).
  assert (F : (b < 0 -> b mod 2 ^ 64 = b + 2 ^ 64)%Z).
  { intros. rewrite <- (Z.mod_small (b + 2 ^ 64) (2 ^ 64)) by lia. rewrite <- (Z.mod_add b 1 (2 ^ 64)) by lia. f_equal; lia. }
  destruct (Z.ltb_spec a (b mod 2 ^ 64)) as [H|H].
  - split; [|intros G; rewrite E in H by lia; lia]. split; [|reflexivity]. intros _ G. rewrite E in H by lia. lia.
  - split; [|reflexivity]. split; [discriminate|]. intros G. exfalso. apply G.
    destruct (Z.lt_ge_cases b 0); [rewrite F in H by lia; lia|]. rewrite E in H by lia. lia.
Qed.

(** one sample, as equations *)
Definition same_cfg (s s' : reverb) : Prop := rv_fb s' = rv_fb s /\ rv_time s' = rv_time s /\ rv_pl s' = rv_pl s /\ rv_pr s' = rv_pr s.
Record step_spec (damp : R) (pd : Z) (s : reverb) (x : R * R) (s' : reverb) (y : R * R) : Prop := {
  ss_cfg : same_cfg s s';
  ss_pos : rv_pos s' = ((rv_pos s + 1) mod 32768)%Z;
  ss_pre : rv_pre s' = (fun i => if (i =? (rv_pos s + 1) mod 32768)%Z then / 2 * (fst x + snd x) else rv_pre s i);
  ss_out : forall t, tap_ok t -> rv_out s' t = rv_out s t * damp + rd s t * (1 - damp);
  ss_wr : forall t, tap_ok t -> rv_delay s' (cell (rv_pos s') t)
                      = rv_fb s t * (rv_pre s' ((rv_pos s' - pd) mod 32768)%Z - / 8 * sumR (rv_out s') taps + rv_out s' t);
  ss_keep : forall p t, tap_ok t -> (p mod 32768 <> rv_pos s')%Z -> rv_delay s' (cell p t) = rv_delay s (cell p t);
  ss_l : fst y = sumR (fun t => rv_out s' t * rv_pl s t) taps;
  ss_r : snd y = sumR (fun t => rv_out s' t * rv_pr s t) taps }.

Lemma rv_sample_unchecked damp pd s x : exists s' y, rv_sample false damp pd s x = Ok (s', y) /\ step_spec damp pd s x s' y.
Proof.
  unfold rv_sample. destruct (do_pre_taps_eq damp s) as [o [-> HO]]. cbn [obind]. cbn [with_out rv_pos].
  change (RV_MAX - 1)%Z with 32767%Z. change RV_MAX with 32768%Z. rewrite land_32767.
  set (p := ((rv_pos s + 1) mod 32768)%Z). assert (Hp : (0 <= p < 32768)%Z) by (apply Z.mod_pos_bound; lia).
  destruct (Z.leb_spec 0 p); [|lia]. destruct (Z.ltb_spec p 32768); [|lia]. cbn [andb].
  unfold do_post_taps, get_fb. cbn [rv_pos rv_out rv_delay rv_pre rv_fb rv_time rv_pl rv_pr with_out].
  destruct (usize_sub_unchecked p pd) as [v [-> Hv]]. cbn [obind].
  change (RV_MAX - 1)%Z with 32767%Z. change RV_MAX with 32768%Z. rewrite Hv. clear v Hv.
  assert (Hq : (0 <= (p - pd) mod 32768 < 32768)%Z) by (apply Z.mod_pos_bound; lia).
  destruct (Z.leb_spec 0 ((p - pd) mod 32768)); [|lia]. destruct (Z.ltb_spec ((p - pd) mod 32768) 32768); [|lia]. cbn [andb obind].
  match goal with |- context [foldM (do_post_tap ?F) _ (?S, _, _)] =>
    destruct (do_post_taps_eq F S Hp) as [a [l [r [-> [HA [HK [HL HR]]]]]]] end.
  cbn [obind]. eexists _, _. split; [reflexivity|].
  cbn [rv_pos rv_out rv_delay rv_pre rv_fb rv_time rv_pl rv_pr with_out with_delay] in *.
  split; cbn [rv_pos rv_out rv_delay rv_pre rv_fb rv_time rv_pl rv_pr with_out with_delay].
  - repeat split.
  - reflexivity.
  - unfold p. replace (1 / 2) with (/ 2) by lra. reflexivity.
  - exact HO.
  - intros t Ht. rewrite HA by exact Ht. f_equal. unfold v_sum. cbn [ar_add arithR].
    change (RV_TAPS) with 16%Z. cbn [sumR taps map seq]. cbn [Z.of_nat Pos.of_succ_nat Pos.succ]. cbn. lra.
  - intros q t Ht Hq'. apply HK. unfold cell. rewrite (Z.mod_small p) by lia. unfold tap_ok in Ht.
    pose proof (Z.mod_pos_bound q 32768 ltac:(lia)). lia.
  - exact HL.
  - exact HR.
Qed.

Lemma rv_sample_checked damp pd s x : (- 2 ^ 31 <= pd < 2 ^ 31)%Z ->
  let p := ((rv_pos s + 1) mod 32768)%Z in
  (rv_sample true damp pd s x = Panic <-> ~ (0 <= pd <= p)%Z) /\ ((0 <= pd <= p)%Z -> rv_sample true damp pd s x = rv_sample false damp pd s x).
Proof.
  intros Hpd p. assert (Hp : (0 <= p < 32768)%Z) by (apply Z.mod_pos_bound; lia).
  destruct (usize_sub_checked p pd ltac:(lia) Hpd) as [U1 U2].
  assert (G : (0 <= pd <= p)%Z -> rv_sample true damp pd s x = rv_sample false damp pd s x).
  { intros H. unfold rv_sample. destruct (do_pre_taps_eq damp s) as [o [-> HO]]. cbn [obind]. cbn [with_out rv_pos].
    change (RV_MAX - 1)%Z with 32767%Z. rewrite land_32767. fold p. unfold do_post_taps, get_fb. cbn [rv_pos]. rewrite U2 by exact H. reflexivity. }
  split; [|exact G]. split.
  - intros E H. rewrite G in E by exact H. destruct (rv_sample_unchecked damp pd s x) as [s' [y [E' _]]]. congruence.
  - intros H. apply U1 in H. unfold rv_sample. destruct (do_pre_taps_eq damp s) as [o [-> HO]]. cbn [obind]. cbn [with_out rv_pos].
    change (RV_MAX - 1)%Z with 32767%Z. change RV_MAX with 32768%Z. rewrite land_32767. fold p.
    destruct (Z.leb_spec 0 p); [|lia]. destruct (Z.ltb_spec p 32768); [|lia]. cbn [andb].
    unfold do_post_taps, get_fb. cbn [rv_pos]. rewrite H. reflexivity.
Qed.
