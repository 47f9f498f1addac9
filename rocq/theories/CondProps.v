(** Theorems about the conditioner's limiter (C142-C145). *)
From Coq Require Import Reals Lra Psatz Lia.
From Coquelicot Require Import Rcomplements.
From Verif Require Import Base Util CondModel.
Local Open Scope R_scope.

(* ================= specification ================= *)

(** a stereo stream: sample n for n >= 0, silence before its start *)
Definition before (x : nat -> R * R) (n : Z) : R * R := if (n <? 0)%Z then (0, 0) else x (Z.to_nat n).
(** the larger of the two channel magnitudes *)
Definition peak (v : R * R) : R := Rmax (Rabs (fst v)) (Rabs (snd v)).
(** samples n .. n+len-1 *)
Definition cut2 (x : nat -> R * R) (n len : nat) : list (R * R) := map x (seq n len).
(** a stream processed block by block, each block (attack, release, length), starting at sample n *)
Fixpoint play (rcp : R -> R) (s : cond) (x : nat -> R * R) (n : nat) (blocks : list (R * R * nat)) : res (cond * list (R * R)) :=
  match blocks with
  | [] => Ok (s, [])
  | (attack, release, len) :: rest => obind (cond_block rcp attack release s (cut2 x n len)) (fun '(s1, ys) =>
      obind (play rcp s1 x (n + len) rest) (fun '(s2, zs) => Ok (s2, ys ++ zs)))
  end.
Definition samples (blocks : list (R * R * nat)) : nat := fold_right (fun b k => (snd b + k)%nat) 0%nat blocks.
(** block settings that the two rate parameters can produce *)
Definition sane (b : R * R * nat) : Prop := 0 <= fst (fst b) <= 1 /\ 0 <= snd (fst b) <= 1.
(** each output is the input 128 samples earlier times that sample's gain *)
Definition delayed_by_128 (x : nat -> R * R) (gains : list R) (out : list (R * R)) : Prop :=
  length gains = length out /\
  forall n, (n < length out)%nat -> nth n out (0, 0) =
    (nth n gains 0 * fst (before x (Z.of_nat n - 128)), nth n gains 0 * snd (before x (Z.of_nat n - 128))).

(* ================= the maximum tree ================= *)

Definition at_ (lam : list R) (i : Z) : R := nth (Z.to_nat i) lam 0.
Lemma zget_at lam i : (0 <= i < Z.of_nat (length lam))%Z -> zget lam i = Ok (at_ lam i).
Proof.
  intros H. unfold zget, at_. destruct (Z.leb_spec 0 i); [|lia].
  rewrite (nth_error_nth' lam 0) by lia. reflexivity.
Qed.
Lemma at_upd lam i j v : (0 <= i < Z.of_nat (length lam))%Z -> (0 <= j)%Z -> at_ (upd lam (Z.to_nat i) v) j = if (i =? j)%Z then v else at_ lam j.
Proof.
  intros Hi Hj. unfold at_. destruct (Z.eqb_spec i j).
  - subst j. apply nth_error_nth. apply upd_nth_eq. lia.
  - destruct (nth_error lam (Z.to_nat j)) eqn:E.
    + rewrite (nth_error_nth lam _ _ E). apply nth_error_nth. rewrite upd_nth_neq by lia. exact E.
    + rewrite !nth_overflow; [reflexivity| |]; rewrite ?upd_length; apply nth_error_None; exact E.
Qed.
Lemma maxf_Rmax a b : maxf a b = Rmax a b.
Proof. unfold maxf, Rmax. destruct (Rlt_dec b a), (Rle_dec a b); lra. Qed.

Definition off (j : Z) : Z := (256 - Z.shiftr 256 j)%Z.
Definition width (j : Z) : Z := Z.shiftr 128 j.
Definition node_ok (lam : list R) (j k : Z) : Prop := at_ lam (off (j + 1) + k) = Rmax (at_ lam (off j + 2 * k)) (at_ lam (off j + 2 * k + 1)).

Lemma lev_cases (j : Z) : (0 <= j < 7)%Z -> (j = 0 \/ j = 1 \/ j = 2 \/ j = 3 \/ j = 4 \/ j = 5 \/ j = 6)%Z.
Proof. lia. Qed.
Ltac levs H := apply lev_cases in H; destruct H as [->|[->|[->|[->|[->|[->| ->]]]]]].
Lemma off_next j : (0 <= j < 7)%Z -> (off j + Z.shiftr LOOKAHEAD j)%Z = off (j + 1).
Proof. intros H. levs H; reflexivity. Qed.
Lemma off_range j : (0 <= j < 7)%Z -> (off j + 2 * width (j + 1) = off (j + 1) /\ 0 <= off j /\ off (j + 1) + width (j + 1) <= 255)%Z.
Proof. intros H. levs H; vm_compute; repeat split; congruence. Qed.
Lemma off_mono i j : (0 <= i < 7)%Z -> (0 <= j < 7)%Z -> (i < j)%Z -> (off (i + 1) + width (i + 1) <= off (j + 1))%Z /\ (off (i + 1) <= off j)%Z.
Proof. intros Hi Hj. levs Hi; levs Hj; intros; try lia; vm_compute; split; congruence. Qed.
Lemma shift_bound b j : (0 <= b < 128)%Z -> (0 <= j < 7)%Z -> (0 <= Z.shiftr b (j + 1) < width (j + 1))%Z.
Proof.
  intros Hb Hj. rewrite Z.shiftr_div_pow2 by lia.
  assert (P : (2 ^ (j + 1) * width (j + 1) = 128 /\ 0 < 2 ^ (j + 1))%Z) by (levs Hj; split; reflexivity).
  destruct P as [P P2]. split; [apply Z.div_pos; lia|]. apply Z.div_lt_upper_bound; lia.
Qed.
Lemma pair_lxor m : (0 <= m)%Z -> let k := Z.shiftr m 1 in
  (m = 2 * k /\ Z.lxor m 1 = 2 * k + 1)%Z \/ (m = 2 * k + 1 /\ Z.lxor m 1 = 2 * k)%Z.
Proof.
  intros H k. subst k. rewrite <- Z.div2_spec. pose proof (Zdiv2_odd_eqn m) as E.
  destruct (Z.odd m) eqn:O.
  - right. split; [lia|]. replace m with (2 * Z.div2 m + 1)%Z at 1 by lia. destruct (Z.div2 m) as [|p|p]; [reflexivity|reflexivity|lia].
  - left. split; [lia|]. replace m with (2 * Z.div2 m)%Z at 1 by lia. destruct (Z.div2 m) as [|p|p]; [reflexivity|reflexivity|lia].
Qed.

(** round i repairs the node above position bufpos on level i *)
Definition tree_from (b i : Z) (lam : list R) : Prop :=
  length lam = 256%nat /\ forall j k, (0 <= j < 7)%Z -> (0 <= k < width (j + 1))%Z -> ((j < i)%Z \/ k <> Z.shiftr b (j + 1)) -> node_ok lam j k.

Lemma look_step_ok b i lam : (0 <= b < 128)%Z -> (0 <= i < 7)%Z -> tree_from b i lam ->
  exists lam', look_step b (lam, off i) i = Ok (lam', off (i + 1)) /\ tree_from b (i + 1) lam' /\ (forall p, (0 <= p < 128)%Z -> at_ lam' p = at_ lam p).
Proof.
  intros Hb Hi [HL HT]. pose proof (off_range i Hi) as (OR1 & OR2 & OR3). pose proof (shift_bound b i Hb Hi) as SB.
  assert (OFF : (128 <= off (i + 1))%Z) by (clear - Hi; levs Hi; vm_compute; congruence).
  assert (SH : Z.shiftr (Z.shiftr b i) 1 = Z.shiftr b (i + 1)) by (rewrite Z.shiftr_shiftr; [reflexivity|lia]).
  assert (NN : (0 <= Z.shiftr b i)%Z) by (apply Z.shiftr_nonneg; lia).
  pose proof (pair_lxor (Z.shiftr b i) NN) as PL. cbv zeta in PL. rewrite SH in PL.
  unfold look_step. rewrite off_next by exact Hi.
  set (K := Z.shiftr b (i + 1)) in *.
  rewrite (zget_at lam (off i + Z.shiftr b i)) by (rewrite HL; lia). cbn [obind].
  rewrite (zget_at lam (off i + Z.lxor (Z.shiftr b i) 1)) by (rewrite HL; lia). cbn [obind].
  rewrite zset_ok by (rewrite HL; lia). cbn [obind].
  eexists. split; [reflexivity|]. split.
  - split; [rewrite upd_length; exact HL|]. intros j k Hj Hk C. unfold node_ok.
    pose proof (off_range j Hj) as (JR1 & JR2 & JR3).
    assert (JN : (0 <= off (j + 1))%Z) by lia.
    rewrite !at_upd by (rewrite ?HL; lia).
    destruct (Z.eq_dec j i) as [->|NE].
    + destruct (Z.eq_dec k K) as [->|NK].
      * rewrite Z.eqb_refl.
        rewrite (proj2 (Z.eqb_neq (off (i + 1) + K) (off i + 2 * K))) by lia.
        rewrite (proj2 (Z.eqb_neq (off (i + 1) + K) (off i + 2 * K + 1))) by lia.
        rewrite maxf_Rmax. destruct PL as [[-> ->]|[-> ->]].
        -- rewrite Z.add_assoc. reflexivity.
        -- rewrite Z.add_assoc. apply Rmax_comm.
      * rewrite (proj2 (Z.eqb_neq (off (i + 1) + K) (off (i + 1) + k))) by lia.
        rewrite (proj2 (Z.eqb_neq (off (i + 1) + K) (off i + 2 * k))) by lia.
        rewrite (proj2 (Z.eqb_neq (off (i + 1) + K) (off i + 2 * k + 1))) by lia.
        apply (HT i k Hi Hk). right. exact NK.
    + destruct (Z_lt_ge_dec j i) as [LT|GE].
      * pose proof (off_mono j i Hj Hi LT) as [M1 M2].
        rewrite (proj2 (Z.eqb_neq (off (i + 1) + K) (off (j + 1) + k))) by lia.
        rewrite (proj2 (Z.eqb_neq (off (i + 1) + K) (off j + 2 * k))) by lia.
        rewrite (proj2 (Z.eqb_neq (off (i + 1) + K) (off j + 2 * k + 1))) by lia.
        apply (HT j k Hj Hk). left. exact LT.
      * assert (LT : (i < j)%Z) by lia. pose proof (off_mono i j Hi Hj LT) as [M1 M2].
        assert (NKj : k <> Z.shiftr b (j + 1)) by (destruct C; lia).
        rewrite (proj2 (Z.eqb_neq (off (i + 1) + K) (off (j + 1) + k))) by lia.
        assert (NP : (off (i + 1) + K <> off j + 2 * k /\ off (i + 1) + K <> off j + 2 * k + 1)%Z).
        { destruct (Z.eq_dec j (i + 1)) as [->|Nj].
          - assert (SH2 : Z.shiftr K 1 = Z.shiftr b (i + 1 + 1)) by (unfold K; rewrite Z.shiftr_shiftr; [reflexivity|lia]).
            assert (0 <= K)%Z by lia. pose proof (pair_lxor K H) as P2. cbv zeta in P2. rewrite SH2 in P2.
            clear - P2 NKj. lia.
          - assert (LT2 : (i < j - 1)%Z) by lia. pose proof (off_mono i (j - 1) Hi ltac:(lia) LT2) as [M3 M4].
            replace (j - 1 + 1)%Z with j in M3 by lia. lia. }
        rewrite (proj2 (Z.eqb_neq (off (i + 1) + K) (off j + 2 * k))) by lia.
        rewrite (proj2 (Z.eqb_neq (off (i + 1) + K) (off j + 2 * k + 1))) by lia.
        apply (HT j k Hj Hk). right. exact NKj.
  - intros p Hp. rewrite at_upd by (rewrite ?HL; lia). destruct (Z.eqb_spec (off (i + 1) + K) p); [lia|reflexivity].
Qed.

Definition tree (lam : list R) : Prop := length lam = 256%nat /\ forall j k, (0 <= j < 7)%Z -> (0 <= k < width (j + 1))%Z -> node_ok lam j k.
Lemma do_lookahead_ok b lam v : (0 <= b < 128)%Z -> tree lam ->
  exists lam', do_lookahead b (upd lam (Z.to_nat b) v) = Ok lam' /\ tree lam' /\ (forall p, (0 <= p < 128)%Z -> at_ lam' p = if (b =? p)%Z then v else at_ lam p).
Proof.
  intros Hb [HL HT]. set (l0 := upd lam (Z.to_nat b) v).
  assert (T0 : tree_from b 0 l0).
  { split; [unfold l0; rewrite upd_length; exact HL|]. intros j k Hj Hk C. assert (NK : k <> Z.shiftr b (j + 1)) by (destruct C; lia).
    pose proof (off_range j Hj) as (JR1 & JR2 & JR3).
    assert (O1 : (128 <= off (j + 1))%Z) by (clear - Hj; levs Hj; vm_compute; congruence).
    unfold node_ok, l0. rewrite !at_upd by (rewrite ?HL; lia).
    assert (B : b <> (off (j + 1) + k)%Z) by lia.
    assert (B2 : (b <> off j + 2 * k /\ b <> off j + 2 * k + 1)%Z).
    { destruct (Z.eq_dec j 0) as [->|Nj].
      - change (off 0) with 0%Z. cbn [Z.add] in *. assert (0 <= b)%Z by lia. pose proof (pair_lxor b H) as P. cbv zeta in P. clear - P NK. change (0 + 1)%Z with 1%Z in *. lia.
      - assert (128 <= off j)%Z by (clear - Hj Nj; levs Hj; try lia; vm_compute; congruence). lia. }
    rewrite (proj2 (Z.eqb_neq b (off (j + 1) + k))) by lia.
    rewrite (proj2 (Z.eqb_neq b (off j + 2 * k))) by lia.
    rewrite (proj2 (Z.eqb_neq b (off j + 2 * k + 1))) by lia.
    apply HT; assumption. }
  unfold do_lookahead. change (0%Z) with (off 0) at 1.
  cbn [foldM].
  destruct (look_step_ok b 0 l0 Hb ltac:(lia) T0) as (l1 & E1 & T1 & P1). change (off 0) with 0%Z in *. rewrite E1. cbn [obind].
  destruct (look_step_ok b 1 l1 Hb ltac:(lia) T1) as (l2 & E2 & T2 & P2). change (0 + 1)%Z with 1%Z. rewrite E2. cbn [obind].
  destruct (look_step_ok b 2 l2 Hb ltac:(lia) T2) as (l3 & E3 & T3 & P3). change (1 + 1)%Z with 2%Z. rewrite E3. cbn [obind].
  destruct (look_step_ok b 3 l3 Hb ltac:(lia) T3) as (l4 & E4 & T4 & P4). change (2 + 1)%Z with 3%Z. rewrite E4. cbn [obind].
  destruct (look_step_ok b 4 l4 Hb ltac:(lia) T4) as (l5 & E5 & T5 & P5). change (3 + 1)%Z with 4%Z. rewrite E5. cbn [obind].
  destruct (look_step_ok b 5 l5 Hb ltac:(lia) T5) as (l6 & E6 & T6 & P6). change (4 + 1)%Z with 5%Z. rewrite E6. cbn [obind].
  destruct (look_step_ok b 6 l6 Hb ltac:(lia) T6) as (l7 & E7 & T7 & P7). change (5 + 1)%Z with 6%Z. rewrite E7. cbn [obind fst].
  exists l7. split; [reflexivity|]. split.
  - destruct T7 as [A B]. split; [exact A|]. intros j k Hj Hk. apply B; [exact Hj|exact Hk|lia].
  - intros p Hp. rewrite P7, P6, P5, P4, P3, P2, P1 by exact Hp. unfold l0. rewrite at_upd by (rewrite ?HL; lia). reflexivity.
Qed.

(** a node dominates, and is, one of its leaves *)
Lemma tree_node lam : tree lam -> forall j : nat, (j <= 7)%nat -> forall k, (0 <= k < width (Z.of_nat j))%Z ->
  (forall p, (k * 2 ^ Z.of_nat j <= p < (k + 1) * 2 ^ Z.of_nat j)%Z -> at_ lam p <= at_ lam (off (Z.of_nat j) + k)) /\
  (exists p, (k * 2 ^ Z.of_nat j <= p < (k + 1) * 2 ^ Z.of_nat j)%Z /\ at_ lam p = at_ lam (off (Z.of_nat j) + k)).
Proof.
  intros [HL HT]. induction j as [|j IH]; intros Hj k Hk.
  - change (off (Z.of_nat 0)) with 0%Z. change (2 ^ Z.of_nat 0)%Z with 1%Z. cbn [Z.add]. split.
    + intros p Hp. replace p with k by lia. lra.
    + exists k. split; [lia|reflexivity].
  - assert (Hj' : (0 <= Z.of_nat j < 7)%Z) by lia.
    replace (Z.of_nat (Datatypes.S j)) with (Z.of_nat j + 1)%Z in * by lia.
    pose proof (HT (Z.of_nat j) k Hj' Hk) as N. unfold node_ok in N. rewrite N.
    assert (W : (width (Z.of_nat j) = 2 * width (Z.of_nat j + 1))%Z) by (clear - Hj'; levs Hj'; reflexivity).
    destruct (IH ltac:(lia) (2 * k)%Z ltac:(lia)) as [A1 [p1 [B1 C1]]].
    destruct (IH ltac:(lia) (2 * k + 1)%Z ltac:(lia)) as [A2 [p2 [B2 C2]]].
    replace (off (Z.of_nat j) + (2 * k + 1))%Z with (off (Z.of_nat j) + 2 * k + 1)%Z in * by lia.
    assert (PW : (2 ^ (Z.of_nat j + 1) = 2 * 2 ^ Z.of_nat j)%Z) by (rewrite Z.pow_add_r by lia; lia).
    rewrite PW. set (W2 := (2 ^ Z.of_nat j)%Z) in *. clearbody W2. split.
    + intros p Hp. destruct (Z_lt_ge_dec p ((2 * k + 1) * W2)) as [L|G].
      * apply Rle_trans with (2 := Rmax_l _ _). apply A1. nia.
      * apply Rle_trans with (2 := Rmax_r _ _). apply A2. nia.
    + unfold Rmax. destruct (Rle_dec _ _).
      * exists p2. split; [nia|exact C2].
      * exists p1. split; [nia|exact C1].
Qed.
Lemma tree_root lam : tree lam ->
  (forall p, (0 <= p < 128)%Z -> at_ lam p <= at_ lam 254) /\ (exists p, (0 <= p < 128)%Z /\ at_ lam p = at_ lam 254).
Proof.
  intros T. destruct (tree_node lam T 7 ltac:(lia) 0%Z ltac:(vm_compute; split; congruence)) as [A [p [B C]]].
  change (off (Z.of_nat 7) + 0)%Z with 254%Z in *. change (2 ^ Z.of_nat 7)%Z with 128%Z in *. split.
  - intros q Hq. apply A. lia.
  - exists p. split; [lia|exact C].
Qed.

(* ================= the state after n samples ================= *)

(** the sample most recently written to slot p when n samples have gone in *)
Definition latest (n p : Z) : Z := (n - 1 - (n - 1 - p) mod 128)%Z.
Definition inv (x : nat -> R * R) (n : nat) (s : cond) : Prop :=
  tree (c_lamax s) /\ length (c_del_l s) = 128%nat /\ length (c_del_r s) = 128%nat /\
  c_bufpos s = (Z.of_nat n mod 128)%Z /\
  (forall p, (0 <= p < 128)%Z -> at_ (c_lamax s) p = peak (before x (latest (Z.of_nat n) p)) * peak (before x (latest (Z.of_nat n) p))) /\
  (forall p, (0 <= p < 128)%Z -> at_ (c_del_l s) p = fst (before x (latest (Z.of_nat n) p)) /\ at_ (c_del_r s) p = snd (before x (latest (Z.of_nat n) p))).
(** what the level tracker sees *)
Definition level (x : nat -> R * R) (n : nat) : R := Rmax 1 (sqrt (2 * (peak (before x (latest (Z.of_nat n) 126)) * peak (before x (latest (Z.of_nat n) 126))))).

Lemma latest_step n p : (0 <= p < 128)%Z -> (0 <= n)%Z -> latest (n + 1) p = if (n mod 128 =? p)%Z then n else latest n p.
Proof. intros Hp Hn. unfold latest. destruct (Z.eqb_spec (n mod 128) p); lia. Qed.
Lemma latest_here n : (0 <= n)%Z -> latest n (n mod 128) = (n - 128)%Z.
Proof. intros Hn. unfold latest. lia. Qed.
Lemma before_here x n : before x (Z.of_nat n) = x n.
Proof. unfold before. destruct (Z.ltb_spec (Z.of_nat n) 0); [lia|]. rewrite Nat2Z.id. reflexivity. Qed.
Lemma land127 m : (0 <= m)%Z -> Z.land m (LOOKAHEAD - 1) = (m mod 128)%Z.
Proof. intros H. change (LOOKAHEAD - 1)%Z with (Z.ones 7). rewrite Z.land_ones by lia. reflexivity. Qed.

Lemma inv_init x s : inv x 0 (cond_init s).
Proof.
  assert (Z0 : forall p n, at_ (repeat 0 n) p = 0) by (intros; unfold at_; apply nth_repeat).
  assert (B0 : forall p, (0 <= p < 128)%Z -> before x (latest (Z.of_nat 0) p) = (0, 0)).
  { intros p Hp. unfold before, latest. change (Z.of_nat 0) with 0%Z. destruct (Z.ltb_spec (0 - 1 - (0 - 1 - p) mod 128) 0); [reflexivity|lia]. }
  unfold inv, cond_init. cbn [c_lamax c_del_l c_del_r c_bufpos]. split; [|split; [|split; [|split; [|split]]]].
  - split; [reflexivity|]. intros j k Hj Hk. unfold node_ok, new_lamax. rewrite !Z0. unfold Rmax. destruct (Rle_dec 0 0); reflexivity.
  - reflexivity.
  - reflexivity.
  - reflexivity.
  - intros p Hp. unfold new_lamax. rewrite Z0, B0 by exact Hp. unfold peak. cbn [fst snd]. rewrite Rabs_R0. unfold Rmax. destruct (Rle_dec 0 0); lra.
  - intros p Hp. unfold new_delayed. rewrite Z0, B0 by exact Hp. cbn [fst snd]. split; reflexivity.
Qed.

Lemma peak_maxf l r : maxf (Rabs l) (Rabs r) = peak (l, r).
Proof. rewrite maxf_Rmax. reflexivity. Qed.

Lemma sample_ok rcp a r x n s : inv x n s ->
  exists s', cond_sample rcp a r s (x n) = Ok (s', (c_gain s' * fst (before x (Z.of_nat n - 128)), c_gain s' * snd (before x (Z.of_nat n - 128)))) /\
    inv x (Datatypes.S n) s' /\
    c_flam s' = (1 - a) * c_flam s + a * level x n /\
    c_flam2 s' = Rmax (c_flam s') ((1 - r) * c_flam2 s + r * c_flam s') /\
    c_gain s' = rcp (c_flam2 s').
Proof.
  intros (HT & HL & HR & HB & HP & HD). destruct (x n) as [l rr] eqn:Ex. unfold cond_sample.
  assert (Hb : (0 <= c_bufpos s < 128)%Z) by (rewrite HB; lia).
  destruct (Z.ltb_spec (c_bufpos s) 0); [lia|].
  rewrite (zget_at (c_del_l s)) by (rewrite HL; lia). cbn [obind].
  rewrite (zget_at (c_del_r s)) by (rewrite HR; lia). cbn [obind].
  unfold get_lookahead. change (LOOKAHEAD - 2)%Z with 126%Z. rewrite (zget_at (c_lamax s)) by (destruct HT as [-> _]; lia). cbn [obind].
  rewrite !zset_ok by (rewrite ?HL, ?HR; first [lia|destruct HT as [-> _]; lia]). cbn [obind].
  destruct (do_lookahead_ok (c_bufpos s) (c_lamax s) (maxf (Rabs l) (Rabs rr) * maxf (Rabs l) (Rabs rr)) Hb HT) as (lam & EL & TL & PL).
  rewrite EL. cbn [obind]. match goal with |- exists _, Ok (?S1, _) = _ /\ _ => exists S1 end. split; [|split; [|split; [|split]]].
  - cbn [c_gain c_flam2]. destruct (HD (c_bufpos s) Hb) as [D1 D2]. rewrite HB, latest_here in D1, D2 by lia. rewrite <- HB in D1, D2. rewrite D1, D2. reflexivity.
  - unfold inv. cbn [c_lamax c_del_l c_del_r c_bufpos]. rewrite !upd_length.
    replace (Z.of_nat (Datatypes.S n)) with (Z.of_nat n + 1)%Z by lia.
    split; [exact TL|]. split; [exact HL|]. split; [exact HR|]. split; [rewrite land127, HB by lia; lia|]. split.
    + intros p Hp. rewrite PL by exact Hp. rewrite latest_step, <- HB by lia. destruct (Z.eqb_spec (c_bufpos s) p).
      * rewrite before_here, Ex, peak_maxf. reflexivity.
      * apply HP. exact Hp.
    + intros p Hp. rewrite !at_upd by (rewrite ?HL, ?HR; lia). rewrite latest_step, <- HB by lia. destruct (Z.eqb_spec (c_bufpos s) p).
      * rewrite before_here, Ex. split; reflexivity.
      * apply HD. exact Hp.
  - unfold update_filtered_lamax. cbn [c_flam]. rewrite maxf_Rmax. unfold level. rewrite (HP 126%Z) by lia. reflexivity.
  - unfold update_filtered_lamax. cbn [c_flam c_flam2]. unfold Rmax. destruct (Rlt_dec _ _), (Rle_dec _ _); try reflexivity; lra.
  - reflexivity.
Qed.

  Definition part (x : nat -> R * R) (G : nat -> R -> Prop) (n : nat) (gs : list R) (out : list (R * R)) : Prop :=
    length gs = length out /\ forall k, (k < length out)%nat ->
      nth k out (0, 0) = (nth k gs 0 * fst (before x (Z.of_nat (n + k) - 128)), nth k gs 0 * snd (before x (Z.of_nat (n + k) - 128))) /\ G (n + k)%nat (nth k gs 0).
  Lemma part_app x G n g1 o1 g2 o2 : part x G n g1 o1 -> part x G (n + length o1) g2 o2 -> part x G n (g1 ++ g2) (o1 ++ o2).
  Proof.
    intros [L1 P1] [L2 P2]. split; [rewrite !app_length; lia|]. intros k Hk. rewrite app_length in Hk.
    destruct (Nat.lt_ge_cases k (length o1)) as [C|C].
    - rewrite (app_nth1 o1) by exact C. rewrite (app_nth1 g1) by lia. apply P1. exact C.
    - rewrite (app_nth2 o1) by exact C. rewrite (app_nth2 g1) by lia. rewrite L1.
      specialize (P2 (k - length o1)%nat ltac:(lia)). replace (n + length o1 + (k - length o1))%nat with (n + k)%nat in P2 by lia. exact P2.
  Qed.

(** an invariant of single samples is one of whole streams *)
Section Streams.
  Variable rcp : R -> R.
  Variable x : nat -> R * R.
  Variable Q : nat -> cond -> Prop.
  Variable G : nat -> R -> Prop.
  Variable okb : R -> R -> Prop.
  Hypothesis Qstep : forall n s a r s', inv x n s -> okb a r -> Q n s ->
    inv x (Datatypes.S n) s' -> c_flam s' = (1 - a) * c_flam s + a * level x n ->
    c_flam2 s' = Rmax (c_flam s') ((1 - r) * c_flam2 s + r * c_flam s') -> c_gain s' = rcp (c_flam2 s') ->
    Q (Datatypes.S n) s' /\ G n (c_gain s').
  Lemma block_run a r : okb a r -> forall len n s, inv x n s -> Q n s ->
    exists s' out gs, cond_block rcp a r s (cut2 x n len) = Ok (s', out) /\ length out = len /\ inv x (n + len) s' /\ Q (n + len) s' /\ part x G n gs out.
  Proof.
    intros Hok. induction len as [|len IH]; intros n s HI HQ.
    - exists s, [], []. split; [reflexivity|]. split; [reflexivity|]. rewrite Nat.add_0_r. split; [exact HI|]. split; [exact HQ|].
      split; [reflexivity|]. intros k Hk. cbn in Hk. lia.
    - unfold cut2. cbn [seq map cond_block]. destruct (sample_ok rcp a r x n s HI) as (s1 & E & I1 & F1 & F2 & F3). rewrite E. cbn [obind].
      destruct (Qstep n s a r s1 HI Hok HQ I1 F1 F2 F3) as [Q1 G1].
      destruct (IH (Datatypes.S n) s1 I1 Q1) as (s2 & out & gs & E2 & L2 & I2 & Q2 & P2). unfold cut2 in E2. rewrite E2. cbn [obind].
      eexists s2, (_ :: out), (c_gain s1 :: gs). split; [reflexivity|]. split; [cbn [length]; lia|].
      replace (n + Datatypes.S len)%nat with (Datatypes.S n + len)%nat by lia. split; [exact I2|]. split; [exact Q2|].
      apply (part_app x G n [c_gain s1] [_] gs out).
      + split; [reflexivity|]. intros k Hk. cbn [length] in Hk. assert (k = 0%nat) by lia. subst k. rewrite Nat.add_0_r. cbn [nth]. split; [reflexivity|exact G1].
      + cbn [length]. rewrite Nat.add_1_r. exact P2.
  Qed.
  Lemma play_run : forall blocks n s, Forall (fun b => okb (fst (fst b)) (snd (fst b))) blocks -> inv x n s -> Q n s ->
    exists s' out gs, play rcp s x n blocks = Ok (s', out) /\ length out = samples blocks /\ inv x (n + samples blocks) s' /\ Q (n + samples blocks) s' /\ part x G n gs out.
  Proof.
    induction blocks as [|[[a r] len] rest IH]; intros n s HF HI HQ.
    - exists s, [], []. cbn [samples fold_right]. rewrite Nat.add_0_r. split; [reflexivity|]. split; [reflexivity|]. split; [exact HI|]. split; [exact HQ|].
      split; [reflexivity|]. intros k Hk. cbn in Hk. lia.
    - inversion HF as [|? ? H1 H2]; subst. cbn [fst snd] in H1. cbn [play].
      destruct (block_run a r H1 len n s HI HQ) as (s1 & o1 & g1 & E1 & L1 & I1 & Q1 & P1). rewrite E1. cbn [obind].
      destruct (IH (n + len)%nat s1 H2 I1 Q1) as (s2 & o2 & g2 & E2 & L2 & I2 & Q2 & P2). rewrite E2. cbn [obind].
      exists s2, (o1 ++ o2), (g1 ++ g2). split; [reflexivity|]. unfold samples in *. cbn [fold_right snd]. rewrite app_length.
      split; [lia|]. rewrite Nat.add_assoc. split; [exact I2|]. split; [exact Q2|].
      apply part_app; [exact P1|]. rewrite L1. exact P2.
  Qed.
End Streams.

(* ================= C142: the tree holds the window's maximum ================= *)

(** Whatever the input and the block sizes, the limiter never panics, returns as many samples as it was
    given, and entry 254 of its level table is exactly the largest squared peak among the last 128 samples. *)
Theorem C142_window_maximum : forall rcp x s0 blocks, exists s out,
  play rcp (cond_init s0) x 0 blocks = Ok (s, out) /\ length out = samples blocks /\
  let n := Z.of_nat (samples blocks) in
  (forall m, (n - 128 <= m < n)%Z -> peak (before x m) * peak (before x m) <= at_ (c_lamax s) 254) /\
  (exists m, (n - 128 <= m < n)%Z /\ at_ (c_lamax s) 254 = peak (before x m) * peak (before x m)).
Proof.
  intros rcp x s0 blocks.
  destruct (play_run rcp x (fun _ _ => True) (fun _ _ => True) (fun _ _ => True) ltac:(intros; split; exact I) blocks 0 (cond_init s0)) as (s & out & gs & E & L & IV & _ & _).
  - apply Forall_forall. intros; exact I.
  - apply inv_init.
  - exact I.
  - exists s, out. split; [exact E|]. split; [exact L|]. cbn [Nat.add] in IV. destruct IV as (T & _ & _ & _ & P & _). cbv zeta.
    set (n := samples blocks) in *. clearbody n. destruct (tree_root _ T) as [A [p [B C]]]. split.
    + intros m Hm. assert (Hp : (0 <= m mod 128 < 128)%Z) by lia.
      replace m with (latest (Z.of_nat n) (m mod 128)) by (unfold latest; lia). rewrite <- P by exact Hp. apply A. exact Hp.
    + exists (latest (Z.of_nat n) p). split; [unfold latest; lia|]. rewrite <- P by exact B. symmetry. exact C.
Qed.
Print Assumptions C142_window_maximum.

(* ================= C143: but the gain is computed from one sample in 128 ================= *)

Lemma level_ext x y n : (forall m, (0 <= m)%Z -> (m mod 128 = 126)%Z -> peak (before x m) = peak (before y m)) -> level x n = level y n.
Proof.
  intros H. unfold level. assert (L : (latest (Z.of_nat n) 126 mod 128 = 126)%Z) by (unfold latest; lia).
  destruct (Z_lt_ge_dec (latest (Z.of_nat n) 126) 0) as [C|C].
  - unfold before. destruct (Z.ltb_spec (latest (Z.of_nat n) 126) 0); [reflexivity|lia].
  - rewrite (H (latest (Z.of_nat n) 126) ltac:(lia) L). reflexivity.
Qed.

(** the gain sequence as a function of the level sequence alone *)
Fixpoint gains_of (rcp : R -> R) (lev : nat -> R) (f1 f2 : R) (n : nat) (blocks : list (R * R)) : list R :=
  match blocks with
  | [] => []
  | (a, r) :: rest => let g1 := (1 - a) * f1 + a * lev n in let g2 := Rmax g1 ((1 - r) * f2 + r * g1) in
                      rcp g2 :: gains_of rcp lev g1 g2 (Datatypes.S n) rest
  end.
Definition spread (blocks : list (R * R * nat)) : list (R * R) := flat_map (fun b => repeat (fst b) (snd b)) blocks.

Lemma gains_app rcp lev b1 : forall f1 f2 n b2, exists g1 g2,
  gains_of rcp lev f1 f2 n (b1 ++ b2) = gains_of rcp lev f1 f2 n b1 ++ gains_of rcp lev g1 g2 (n + length b1) b2.
Proof.
  induction b1 as [|[a r] b1 IH]; intros f1 f2 n b2.
  - exists f1, f2. cbn [app length gains_of]. rewrite Nat.add_0_r. reflexivity.
  - cbn [app gains_of length]. destruct (IH ((1 - a) * f1 + a * lev n) (Rmax ((1 - a) * f1 + a * lev n) ((1 - r) * f2 + r * ((1 - a) * f1 + a * lev n))) (Datatypes.S n) b2) as (g1 & g2 & E).
    exists g1, g2. rewrite E. replace (n + Datatypes.S (length b1))%nat with (Datatypes.S n + length b1)%nat by lia. reflexivity.
Qed.
Lemma gains_ext rcp l1 l2 : (forall n, l1 n = l2 n) -> forall b f1 f2 n, gains_of rcp l1 f1 f2 n b = gains_of rcp l2 f1 f2 n b.
Proof. intros H. induction b as [|[a r] b IH]; intros; cbn [gains_of]; [reflexivity|]. rewrite H, IH. reflexivity. Qed.
Lemma gains_length rcp l : forall b f1 f2 n, length (gains_of rcp l f1 f2 n b) = length b.
Proof. induction b as [|[a r] b IH]; intros; cbn [gains_of length]; [reflexivity|]. rewrite IH. reflexivity. Qed.

(** exact computation of a run *)
Lemma block_exact rcp x a r : forall len n s, inv x n s ->
  exists s' out, cond_block rcp a r s (cut2 x n len) = Ok (s', out) /\ length out = len /\ inv x (n + len) s' /\
    let gs := gains_of rcp (level x) (c_flam s) (c_flam2 s) n (repeat (a, r) len) in
    (forall rest, gains_of rcp (level x) (c_flam s) (c_flam2 s) n (repeat (a, r) len ++ rest) = gs ++ gains_of rcp (level x) (c_flam s') (c_flam2 s') (n + len) rest) /\
    part x (fun _ _ => True) n gs out.
Proof.
  induction len as [|len IH]; intros n s HI.
  - exists s, []. split; [reflexivity|]. split; [reflexivity|]. rewrite Nat.add_0_r. split; [exact HI|]. cbn [repeat gains_of app]. split; [reflexivity|]. split; [reflexivity|]. intros k Hk. cbn in Hk. lia.
  - unfold cut2. cbn [seq map cond_block repeat]. destruct (sample_ok rcp a r x n s HI) as (s1 & E & I1 & F1 & F2 & F3). rewrite E. cbn [obind].
    destruct (IH (Datatypes.S n) s1 I1) as (s2 & out & E2 & L2 & I2 & N2 & P2). unfold cut2 in E2. rewrite E2. cbn [obind].
    exists s2, ((c_gain s1 * fst (before x (Z.of_nat n - 128)), c_gain s1 * snd (before x (Z.of_nat n - 128))) :: out). split; [reflexivity|]. split; [cbn [length]; lia|].
    replace (n + Datatypes.S len)%nat with (Datatypes.S n + len)%nat by lia. split; [exact I2|].
    cbn [app gains_of]. rewrite <- F1. rewrite <- F2. rewrite <- F3. split.
    + intros rest. cbn [app]. rewrite N2. reflexivity.
    + apply (part_app x (fun _ _ => True) n [c_gain s1] [_] _ out).
      * split; [reflexivity|]. intros k Hk. cbn [length] in Hk. assert (k = 0%nat) by lia. subst k. rewrite Nat.add_0_r. cbn [nth]. split; [reflexivity|exact I].
      * cbn [length]. rewrite Nat.add_1_r. exact P2.
Qed.
Lemma play_exact rcp x : forall blocks n s, inv x n s ->
  exists s' out, play rcp s x n blocks = Ok (s', out) /\ length out = samples blocks /\ inv x (n + samples blocks) s' /\
    part x (fun _ _ => True) n (gains_of rcp (level x) (c_flam s) (c_flam2 s) n (spread blocks)) out.
Proof.
  induction blocks as [|[[a r] len] rest IH]; intros n s HI.
  - exists s, []. cbn [samples fold_right]. rewrite Nat.add_0_r. split; [reflexivity|]. split; [reflexivity|]. split; [exact HI|]. split; [reflexivity|]. intros k Hk. cbn in Hk. lia.
  - cbn [play]. destruct (block_exact rcp x a r len n s HI) as (s1 & o1 & E1 & L1 & I1 & N1 & P1). rewrite E1. cbn [obind].
    destruct (IH (n + len)%nat s1 I1) as (s2 & o2 & E2 & L2 & I2 & P2). rewrite E2. cbn [obind].
    exists s2, (o1 ++ o2). split; [reflexivity|]. unfold samples in *. cbn [fold_right snd]. rewrite app_length. split; [lia|]. rewrite Nat.add_assoc. split; [exact I2|].
    unfold spread. cbn [flat_map fst snd]. rewrite N1. apply part_app; [exact P1|]. rewrite L1. exact P2.
Qed.
Lemma spread_length blocks : length (spread blocks) = samples blocks.
Proof. induction blocks as [|[[a r] len] rest IH]; [reflexivity|]. unfold spread, samples in *. cbn [flat_map fold_right fst snd]. rewrite app_length, repeat_length, IH. reflexivity. Qed.

(** Two inputs whose peaks agree at every sample number congruent to 126 mod 128 get exactly the same
    gains, whatever they do elsewhere: the limiter does not react to anything in between. *)
Theorem C143_lookahead_sees_one_sample_in_128_refuted : forall rcp x y s0 blocks,
  (forall m, (0 <= m)%Z -> (m mod 128 = 126)%Z -> peak (before x m) = peak (before y m)) ->
  exists gains sx sy outx outy,
    play rcp (cond_init s0) x 0 blocks = Ok (sx, outx) /\ play rcp (cond_init s0) y 0 blocks = Ok (sy, outy) /\
    length outx = samples blocks /\ length outy = samples blocks /\
    delayed_by_128 x gains outx /\ delayed_by_128 y gains outy.
Proof.
  intros rcp x y s0 blocks H.
  destruct (play_exact rcp x blocks 0 (cond_init s0) (inv_init x s0)) as (sx & ox & Ex & Lx & _ & Lgx & Px).
  destruct (play_exact rcp y blocks 0 (cond_init s0) (inv_init y s0)) as (sy & oy & Ey & Ly & _ & Lgy & Py).
  exists (gains_of rcp (level x) 1 1 0 (spread blocks)), sx, sy, ox, oy. cbn [cond_init c_flam c_flam2] in *.
  split; [exact Ex|]. split; [exact Ey|]. split; [exact Lx|]. split; [exact Ly|]. split; split.
  - exact Lgx.
  - intros n Hn. destruct (Px n Hn) as [P _]. exact P.
  - rewrite (gains_ext rcp (level x) (level y)) by (intros; apply level_ext; exact H). exact Lgy.
  - intros n Hn. rewrite (gains_ext rcp (level x) (level y)) by (intros; apply level_ext; exact H). destruct (Py n Hn) as [P _]. exact P.
Qed.
Print Assumptions C143_lookahead_sees_one_sample_in_128_refuted.

Lemma level_quiet x n : (forall m, (0 <= m)%Z -> (m mod 128 = 126)%Z -> 2 * (peak (before x m) * peak (before x m)) <= 1) -> level x n = 1.
Proof.
  intros H. unfold level. assert (L : (latest (Z.of_nat n) 126 mod 128 = 126)%Z) by (unfold latest; lia).
  apply Rmax_left. rewrite <- sqrt_1. apply sqrt_le_1_alt. destruct (Z_lt_ge_dec (latest (Z.of_nat n) 126) 0) as [C|C].
  - unfold before. destruct (Z.ltb_spec (latest (Z.of_nat n) 126) 0); [|lia]. unfold peak. cbn [fst snd]. rewrite Rabs_R0. unfold Rmax. destruct (Rle_dec 0 0); lra.
  - apply H; [lia|exact L].
Qed.
Lemma gains_one rcp lev b : (forall n, lev n = 1) -> forall n, gains_of rcp lev 1 1 n b = repeat (rcp 1) (length b).
Proof.
  intros H. induction b as [|[a r] b IH]; intros n; [reflexivity|]. cbn [gains_of length repeat].
  rewrite H. replace ((1 - a) * 1 + a * 1) with 1 by ring. replace (Rmax 1 ((1 - r) * 1 + r * 1)) with 1.
  - rewrite IH. reflexivity.
  - replace ((1 - r) * 1 + r * 1) with 1 by ring. unfold Rmax. destruct (Rle_dec 1 1); reflexivity.
Qed.
(** In particular an input that is at most -3 dB at those samples passes without any gain reduction, however
    loud it is at the other 127 of every 128. *)
Theorem C143_peaks_pass_unlimited_refuted : forall rcp x s0 blocks,
  (forall m, (0 <= m)%Z -> (m mod 128 = 126)%Z -> 2 * (peak (before x m) * peak (before x m)) <= 1) ->
  exists s out, play rcp (cond_init s0) x 0 blocks = Ok (s, out) /\ length out = samples blocks /\
    delayed_by_128 x (repeat (rcp 1) (samples blocks)) out.
Proof.
  intros rcp x s0 blocks H.
  destruct (play_exact rcp x blocks 0 (cond_init s0) (inv_init x s0)) as (sx & ox & Ex & Lx & _ & Lgx & Px).
  exists sx, ox. split; [exact Ex|]. split; [exact Lx|]. cbn [cond_init c_flam c_flam2] in *.
  rewrite gains_one, spread_length in * by (intros; apply level_quiet; exact H). split; [exact Lgx|]. intros n Hn. apply (Px n Hn).
Qed.
Print Assumptions C143_peaks_pass_unlimited_refuted.

(** a click of any height between the inspected samples: 200 samples at full rate, the click at sample 5 *)
Example C143_nonvacuous : exists x : nat -> R * R,
  (forall m, (0 <= m)%Z -> (m mod 128 = 126)%Z -> 2 * (peak (before x m) * peak (before x m)) <= 1) /\ peak (x 5%nat) = 1000.
Proof.
  exists (fun n => if Nat.eqb n 5 then (1000, 0) else (0, 0)). split.
  - intros m Hm Hmod. unfold before. destruct (Z.ltb_spec m 0); [lia|]. destruct (Nat.eqb_spec (Z.to_nat m) 5); [lia|].
    unfold peak. cbn [fst snd]. rewrite Rabs_R0. unfold Rmax. destruct (Rle_dec 0 0); lra.
  - cbn [Nat.eqb]. unfold peak. cbn [fst snd]. rewrite Rabs_R0, Rabs_pos_eq by lra. unfold Rmax. destruct (Rle_dec 1000 0); lra.
Qed.

(* ================= C144: delay and gain range ================= *)

Definition env_ok (n : nat) (s : cond) : Prop := 1 <= c_flam s /\ c_flam s <= c_flam2 s.
Lemma level_ge1 x n : 1 <= level x n.
Proof. apply Rmax_l. Qed.
Lemma env_step rcp eps x : (forall v, 1 <= v -> Rabs (rcp v * v - 1) <= eps) -> 0 <= eps < 1 ->
  forall n s a r s', inv x n s -> (0 <= a <= 1 /\ 0 <= r <= 1) -> env_ok n s -> inv x (Datatypes.S n) s' ->
    c_flam s' = (1 - a) * c_flam s + a * level x n ->
    c_flam2 s' = Rmax (c_flam s') ((1 - r) * c_flam2 s + r * c_flam s') -> c_gain s' = rcp (c_flam2 s') ->
    env_ok (Datatypes.S n) s' /\ 0 < c_gain s' <= 1 + eps.
Proof.
  intros HR HE n s a r s' _ [Ha Hr] [A B] _ F1 F2 F3. pose proof (level_ge1 x n) as L.
  assert (G1 : 1 <= c_flam s') by (rewrite F1; nra). assert (G2 : c_flam s' <= c_flam2 s') by (rewrite F2; apply Rmax_l).
  split; [split; assumption|]. rewrite F3. set (v := c_flam2 s') in *. assert (1 <= v) by lra. pose proof (HR v H) as E. apply Rcomplements.Rabs_le_between in E. split; nra.
Qed.

(** With smoothing factors between 0 and 1 and a reciprocal accurate to eps, the output is the input 128
    samples late, scaled by gains in (0, 1+eps]: the limiter never amplifies and never inverts. *)
Theorem C144_delays_128_and_never_amplifies : forall rcp eps x s0 blocks,
  (forall v, 1 <= v -> Rabs (rcp v * v - 1) <= eps) -> 0 <= eps < 1 -> Forall sane blocks ->
  exists s gains out, play rcp (cond_init s0) x 0 blocks = Ok (s, out) /\ length out = samples blocks /\
    delayed_by_128 x gains out /\ Forall (fun g => 0 < g <= 1 + eps) gains.
Proof.
  intros rcp eps x s0 blocks HR HE HF.
  destruct (play_run rcp x env_ok (fun _ g => 0 < g <= 1 + eps) (fun a r => 0 <= a <= 1 /\ 0 <= r <= 1) (env_step rcp eps x HR HE) blocks 0 (cond_init s0)) as (s & out & gs & E & L & _ & _ & [PL PN]).
  - exact HF.
  - apply inv_init.
  - unfold env_ok, cond_init. cbn. lra.
  - exists s, gs, out. split; [exact E|]. split; [exact L|]. split.
    + split; [exact PL|]. intros n Hn. apply (PN n Hn).
    + apply Forall_forall. intros g Hg. destruct (In_nth _ _ 0 Hg) as (k & Hk & <-). apply (PN k). lia.
Qed.
Print Assumptions C144_delays_128_and_never_amplifies.

(** the rate parameters (-1..1) give such smoothing factors *)
Theorem C144_rates : forall ar rr len, -1 <= ar <= 1 -> -1 <= rr <= 1 -> sane (cfg_attack ar, cfg_release rr, len) /\ 0 < cfg_attack ar /\ 0 < cfg_release rr
  /\ 1 / 100000 <= cfg_attack ar <= 361 / 100000 /\ 1 / 1000000 <= cfg_release rr <= 361 / 1000000 /\ cfg_attack 0 = 1 / 1000 /\ cfg_release 0 = 1 / 10000.
Proof. intros ar rr len Ha Hr. unfold sane, cfg_attack, cfg_release. cbn [fst snd]. repeat split; try nra. Qed.
Print Assumptions C144_rates.

(** Used before init, the same code starts from an envelope of 0: the first gain is the reciprocal of
    attack times the level, at least 277 for every setting of the attack rate (about +49 dB). *)
Theorem C144_uninitialised_refuted : forall ar rr x, -1 <= ar <= 1 -> -1 <= rr <= 1 ->
  exists s, cond_sample Rinv (cfg_attack ar) (cfg_release rr) cond_new x = Ok (s, (0, 0)) /\ 277 - 1 / 100 <= c_gain s.
Proof.
  intros ar rr [l r] Ha Hr. destruct (C144_rates ar rr 0 Ha Hr) as ([A1 A2] & A3 & A4 & _). cbn [fst snd] in *.
  assert (AB : cfg_attack ar <= 361 / 100000) by (unfold cfg_attack; nra).
  set (x := fun _ : nat => (l, r)).
  assert (IV : inv x 0 cond_new) by (exact (inv_init x cond_new)).
  destruct (sample_ok Rinv (cfg_attack ar) (cfg_release rr) x 0 cond_new IV) as (s & E & _ & F1 & F2 & F3). exists s. split.
  - change (x 0%nat) with (l, r) in E. rewrite E. unfold before. cbn [Z.of_nat Z.sub Z.opp Z.add]. cbn [Z.ltb Z.compare fst snd]. rewrite Rmult_0_r. reflexivity.
  - assert (LV : level x 0 = 1) by ((unfold level, before; cbn; unfold peak; cbn [fst snd]; rewrite Rabs_R0; replace (Rmax 0 0) with 0 by (unfold Rmax; destruct (Rle_dec 0 0); reflexivity); rewrite !Rmult_0_r, sqrt_0; unfold Rmax; destruct (Rle_dec 1 0); lra)).
    rewrite F3. rewrite LV in F1. cbn [cond_new c_flam c_flam2] in F1, F2. rewrite F1 in F2.
    assert (E2 : c_flam2 s = cfg_attack ar) by (rewrite F2; unfold Rmax; destruct (Rle_dec _ _); nra).
    rewrite E2. apply Rle_trans with (/ (361 / 100000)); [lra|]. apply Rinv_le_contravar; lra.
Qed.
Print Assumptions C144_uninitialised_refuted.

Example C144_nonvacuous : (forall v, 1 <= v -> Rabs (/ v * v - 1) <= 0) /\ Forall sane [(cfg_attack 0, cfg_release 0, 32%nat); (cfg_attack 1, cfg_release (-1), 32%nat)].
Proof.
  split.
  - intros v Hv. rewrite Rinv_l by lra. rewrite Rminus_diag_eq by reflexivity. rewrite Rabs_R0. lra.
  - constructor; [|constructor; [|constructor]]; apply C144_rates; lra.
Qed.

(* ================= C145: time constants ================= *)

(** Under a sustained peak A (with level L = sqrt 2 * A >= 1) the envelope approaches L geometrically, so
    after n further samples the gain is at most 1 / (L - (L - e) (1 - attack)^n). *)
Theorem C145_attack : forall attack L (e : nat -> R), 0 <= attack <= 1 ->
  (forall n, e (Datatypes.S n) = (1 - attack) * e n + attack * L) ->
  forall n, L - e n = (L - e 0%nat) * (1 - attack) ^ n.
Proof. intros a L e Ha He. induction n as [|n IH]; [cbn [pow]; ring|]. rewrite He. cbn [pow]. replace (L - ((1 - a) * e n + a * L)) with ((1 - a) * (L - e n)) by ring. rewrite IH. ring. Qed.

Lemma level_sustained x A n0 : 0 <= A -> (forall m, (n0 <= m)%nat -> peak (x m) = A) -> forall n, (n0 + 128 <= n)%nat -> level x n = Rmax 1 (sqrt 2 * A).
Proof.
  intros HA H n Hn. unfold level. assert (B : (Z.of_nat n0 <= latest (Z.of_nat n) 126)%Z) by (unfold latest; lia).
  unfold before. destruct (Z.ltb_spec (latest (Z.of_nat n) 126) 0); [lia|]. rewrite H by lia.
  rewrite sqrt_mult by nra. rewrite sqrt_square by exact HA. reflexivity.
Qed.
Definition env_att (x : nat -> R * R) (a L : R) (n1 : nat) (n : nat) (s : cond) : Prop :=
  1 <= c_flam s /\ c_flam s <= c_flam2 s /\ ((n1 <= n)%nat -> L - c_flam s <= (L - 1) * (1 - a) ^ (n - n1)).
(** a sustained peak A from sample n0 on: at every sample n >= n0 + 128 the output peak bound follows *)
Theorem C145_sustained_peak_is_limited : forall x A attack release n0 s0 lens,
  0 < attack <= 1 -> 0 <= release <= 1 -> 1 <= sqrt 2 * A -> (forall m, (n0 <= m)%nat -> peak (x m) = A) ->
  let blocks := map (fun len => (attack, release, len)) lens in
  let L := sqrt 2 * A in
  exists s gains out, play Rinv (cond_init s0) x 0 blocks = Ok (s, out) /\ delayed_by_128 x gains out /\
    forall n, (n0 + 128 <= n < samples blocks)%nat -> nth n gains 0 <= / (L - (L - 1) * (1 - attack) ^ (n - (n0 + 128))).
Proof.
  intros x A a r n0 s0 lens Ha Hr HA H blocks L.
  assert (S2 : 0 < sqrt 2) by (apply sqrt_lt_R0; lra). assert (A0 : 0 <= A) by (apply Rmult_le_reg_l with (sqrt 2); [exact S2|]; lra).
  set (n1 := (n0 + 128)%nat).
  destruct (play_run Rinv x (env_att x a L n1) (fun n g => (n1 <= n)%nat -> g <= / (L - (L - 1) * (1 - a) ^ (n - n1))) (fun a' r' => a' = a /\ r' = r)) with (blocks := blocks) (n := 0%nat) (s := cond_init s0) as (s & out & gs & E & LN & _ & _ & [PL PN]).
  - intros n s a' r' s' _ [-> ->] (Q1 & Q2 & Q3) _ F1 F2 F3. pose proof (level_ge1 x n) as LG.
    assert (G1 : 1 <= c_flam s') by (rewrite F1; nra). assert (G2 : c_flam s' <= c_flam2 s') by (rewrite F2; apply Rmax_l).
    assert (STEP : (n1 <= n)%nat -> L - c_flam s' <= (L - 1) * (1 - a) ^ Datatypes.S (n - n1)).
    { intros Hn. rewrite F1, (level_sustained x A n0 A0 H n Hn), Rmax_right by exact HA. fold L. cbn [pow].
      replace (L - ((1 - a) * c_flam s + a * L)) with ((1 - a) * (L - c_flam s)) by ring.
      apply Rle_trans with ((1 - a) * ((L - 1) * (1 - a) ^ (n - n1))); [apply Rmult_le_compat_l; [lra|apply Q3; exact Hn]|]. right; ring. }
    assert (FIN : (n1 <= Datatypes.S n)%nat -> L - c_flam s' <= (L - 1) * (1 - a) ^ (Datatypes.S n - n1)).
    { intros Hn. destruct (Nat.eq_dec n1 (Datatypes.S n)) as [->|NE].
      - rewrite Nat.sub_diag. cbn [pow]. lra.
      - replace (Datatypes.S n - n1)%nat with (Datatypes.S (n - n1)) by lia. apply STEP. lia. }
    split; [split; [exact G1|split; [exact G2|exact FIN]]|].
    intros Hn. rewrite F3. apply Rinv_le_contravar.
    + assert (P : 0 <= (1 - a) ^ (n - n1) <= 1). { split; [apply pow_le; lra|]. apply Rle_trans with (1 ^ (n - n1)); [apply pow_incr; lra|rewrite pow1; lra]. } unfold L in *. nra.
    + specialize (STEP Hn). cbn [pow] in STEP. assert (P : 0 <= (1 - a) ^ (n - n1)) by (apply pow_le; lra).
      assert ((L - 1) * ((1 - a) * (1 - a) ^ (n - n1)) <= (L - 1) * (1 - a) ^ (n - n1)). { apply Rmult_le_compat_l; [unfold L; lra|]. nra. } lra.
  - unfold blocks. apply Forall_forall. intros b Hb. apply in_map_iff in Hb. destruct Hb as (len & <- & _). cbn. split; reflexivity.
  - apply inv_init.
  - unfold env_att, cond_init. cbn [c_flam c_flam2]. split; [lra|]. split; [lra|]. intros Hn. unfold n1 in Hn. lia.
  - exists s, gs, out. split; [exact E|]. split; [split; [exact PL|]; intros n Hn; apply (PN n Hn)|].
    intros n Hn. apply (PN n); [rewrite LN; lia|unfold n1; lia].
Qed.
Print Assumptions C145_sustained_peak_is_limited.

Lemma control_iter a r s : 0 <= a <= 1 -> 0 <= r <= 1 -> 1 <= c_flam s <= c_flam2 s -> forall n,
  let t := process_only_control a r n s in
  1 <= c_flam t <= c_flam2 t /\ c_flam t - 1 = (c_flam s - 1) * (1 - a) ^ n /\
  c_flam2 t - 1 <= Rmax (1 - a) (1 - r) ^ n * ((c_flam2 s - 1) + INR n * (c_flam s - 1)) /\
  c_flam2 (process_only_control a r (Datatypes.S n) s) <= c_flam2 t.
Proof.
  intros Ha Hr Hs. set (rho := Rmax (1 - a) (1 - r)). assert (R1 : 1 - a <= rho) by apply Rmax_l. assert (R2 : 1 - r <= rho) by apply Rmax_r.
  assert (STEP : forall t, 1 <= c_flam t <= c_flam2 t -> let u := control_step a r t in
     1 <= c_flam u <= c_flam2 u /\ c_flam u - 1 = (1 - a) * (c_flam t - 1) /\ c_flam2 u <= c_flam2 t /\ c_flam2 u - 1 <= (1 - r) * (c_flam2 t - 1) + (c_flam u - 1)).
  { intros t Ht. unfold control_step. cbn [c_flam c_flam2]. set (f1 := (1 - a) * c_flam t + a).
    assert (F1 : 1 <= f1 <= c_flam t) by (unfold f1; split; nra).
    destruct (Rlt_dec _ _) as [L|L]; repeat split. all: try (unfold f1; nra); try lra. all: try nra. }
  induction n as [|n IH].
  - unfold process_only_control. cbn [Nat.iter pow INR]. destruct (STEP s Hs) as (_ & _ & D & _).
    cbn. fold (control_step a r s). split; [exact Hs|]. split; [ring|]. split; [lra|]. exact D.
  - cbv zeta in IH. destruct IH as (I1 & I2 & I3 & I4).
    assert (E : process_only_control a r (Datatypes.S n) s = control_step a r (process_only_control a r n s)) by reflexivity.
    assert (E2 : process_only_control a r (Datatypes.S (Datatypes.S n)) s = control_step a r (process_only_control a r (Datatypes.S n) s)) by reflexivity.
    cbv zeta. rewrite E2. rewrite E. set (t := process_only_control a r n s) in *. destruct (STEP t I1) as (S1 & S2 & S3 & S4).
    set (u := control_step a r t) in *. destruct (STEP u S1) as (_ & _ & D & _).
    split; [exact S1|]. split; [rewrite S2, I2; cbn [pow]; ring|]. split; [|exact D].
    assert (P : 0 <= (1 - a) ^ n <= rho ^ n) by (split; [apply pow_le; lra|apply pow_incr; lra]).
    assert (PR : 0 <= rho ^ n) by lra.
    cbn [pow]. rewrite S_INR.
    assert (U : c_flam u - 1 <= rho * rho ^ n * (c_flam s - 1)).
    { rewrite S2, I2. replace ((1 - a) * ((c_flam s - 1) * (1 - a) ^ n)) with (((1 - a) * (1 - a) ^ n) * (c_flam s - 1)) by ring. apply Rmult_le_compat_r; [lra|]. apply Rmult_le_compat; lra. }
    assert (V : (1 - r) * (c_flam2 t - 1) <= rho * (rho ^ n * (c_flam2 s - 1 + INR n * (c_flam s - 1)))).
    { apply Rle_trans with ((1 - r) * (rho ^ n * (c_flam2 s - 1 + INR n * (c_flam s - 1)))); [apply Rmult_le_compat_l; lra|].
      apply Rmult_le_compat_r; [|exact R2]. apply Rle_trans with (2 := I3). lra. }
    apply Rle_trans with (1 := S4). replace (rho * rho ^ n * (c_flam2 s - 1 + (INR n + 1) * (c_flam s - 1))) with (rho * (rho ^ n * (c_flam2 s - 1 + INR n * (c_flam s - 1))) + rho * rho ^ n * (c_flam s - 1)) by ring. lra.
Qed.
(** While the effect is idle (process_only_control) the gain rises back to 1: never above it, never falling,
    and the envelope's excess over 1 is below rho^n (excess0 + n * attack excess0), rho = max(1-attack, 1-release). *)
Theorem C145_idle_recovery : forall attack release s n, 0 <= attack <= 1 -> 0 <= release <= 1 -> 1 <= c_flam s <= c_flam2 s ->
  let t := process_only_control attack release n s in
  c_flam2 t - 1 <= Rmax (1 - attack) (1 - release) ^ n * ((c_flam2 s - 1) + INR n * (c_flam s - 1)) /\
  (n <> 0%nat -> c_gain t = / c_flam2 t /\ 0 < c_gain t <= 1) /\
  (n <> 0%nat -> c_gain t <= c_gain (process_only_control attack release (Datatypes.S n) s)) /\
  c_lamax t = c_lamax s /\ c_del_l t = c_del_l s /\ c_del_r t = c_del_r s /\ c_bufpos t = c_bufpos s.
Proof.
  intros a r s n Ha Hr Hs t. destruct (control_iter a r s Ha Hr Hs n) as (I1 & I2 & I3 & I4). fold t in I1, I2, I3, I4.
  assert (GAIN : forall k, k <> 0%nat -> c_gain (process_only_control a r k s) = / c_flam2 (process_only_control a r k s)).
  { intros [|k] Hk; [congruence|]. change (process_only_control a r (Datatypes.S k) s) with (control_step a r (process_only_control a r k s)). generalize (process_only_control a r k s). intros u. unfold control_step. cbn [c_gain c_flam2]. unfold Rdiv. rewrite Rmult_1_l. reflexivity. }
  split; [exact I3|]. split; [|split].
  - intros Hn. unfold t. rewrite GAIN by exact Hn. fold t. split; [reflexivity|]. split; [apply Rinv_0_lt_compat; lra|]. rewrite <- Rinv_1. apply Rinv_le_contravar; lra.
  - intros Hn. unfold t. rewrite !GAIN by congruence. fold t. destruct (control_iter a r s Ha Hr Hs (Datatypes.S n)) as (J1 & _). apply Rinv_le_contravar; lra.
  - unfold t, process_only_control. clear. induction n as [|n (A & B & C & D)]; [repeat split; reflexivity|]. cbn [Nat.iter nat_rect] in *. match goal with |- context [control_step a r ?u] => set (v := u) in * end. unfold control_step. cbn [c_lamax c_del_l c_del_r c_bufpos]. repeat split; assumption.
Qed.
Print Assumptions C145_idle_recovery.

(** the input gains: whichever way the balance is turned, the louder side keeps pregain/2 and the other fades *)
Theorem C145_balance : forall pregain balance, 0 <= pregain -> -1 <= balance <= 1 ->
  let '(l, r) := amp_targets pregain balance in
  Rmax l r = pregain / 2 /\ Rmin l r = pregain / 2 * (1 - Rabs balance) /\ (balance <= 0 -> l = pregain / 2) /\ (0 <= balance -> r = pregain / 2).
Proof.
  intros g b Hg Hb. unfold amp_targets, clamp1R.
  destruct (Rle_dec 0 b) as [P|P].
  - rewrite (Rabs_pos_eq b) by exact P. rewrite (Rmax_left (1 - b)) by lra. rewrite (Rmin_left (1 - b)) by lra. rewrite (Rmax_left (1 + b)) by lra. rewrite (Rmin_right (1 + b)) by lra.
    split; [rewrite Rmax_right by nra; lra|]. split; [rewrite Rmin_left by nra; lra|]. split; intros; [assert (b = 0) by lra; subst b|]; lra.
  - rewrite (Rabs_left b) by lra. rewrite (Rmax_left (1 - b)) by lra. rewrite (Rmin_right (1 - b)) by lra. rewrite (Rmax_left (1 + b)) by lra. rewrite (Rmin_left (1 + b)) by lra.
    split; [rewrite Rmax_left by nra; lra|]. split; [rewrite Rmin_right by nra; lra|]. split; intros; lra.
Qed.
Print Assumptions C145_balance.

Example C145_nonvacuous : 1 <= sqrt 2 * 1 /\ (let '(l, r) := amp_targets 1 0 in l = r).
Proof. split; [rewrite Rmult_1_r; rewrite <- sqrt_1 at 1; apply sqrt_le_1_alt; lra|]. unfold amp_targets. f_equal. f_equal. lra. Qed.
