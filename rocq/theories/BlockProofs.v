(* BlockProofs.v - loops over quads as pointwise memory updates. *)
From Coq Require Import Reals.
From Verif Require Import Base Util F32 BlockModel.
Local Open Scope Z_scope.

Definition zseq (n : Z) : list Z := map Z.of_nat (seq 0 (Z.to_nat n)).
Definition cdiv (n u : Z) : Z := (n + u - 1) / u.

Lemma fold_ext_in {S X} (f g : S -> X -> S) l : (forall s x, In x l -> f s x = g s x) -> forall s, fold_left f l s = fold_left g l s.
Proof. induction l as [|x l IH]; intros H s; cbn; [reflexivity|]. rewrite H by now left. apply IH. intros; apply H; now right. Qed.
Lemma fold_map {S X Y} (f : S -> Y -> S) (h : X -> Y) l : forall s, fold_left f (map h l) s = fold_left (fun s x => f s (h x)) l s.
Proof. induction l; intros s; cbn; auto. Qed.
Lemma zseq_add a b : 0 <= a -> 0 <= b -> zseq (a + b) = zseq a ++ map (fun j => a + j) (zseq b).
Proof.
  intros Ha Hb. unfold zseq. rewrite Z2Nat.inj_add, seq_app, map_app by lia. f_equal. cbn [plus].
  rewrite map_map. rewrite <- (map_map (fun j => (Z.to_nat a + j)%nat) Z.of_nat) with (l := seq 0 (Z.to_nat b)) || idtac.
  assert (E : forall l k, map Z.of_nat (map (fun j => (k + j)%nat) l) = map (fun x => Z.of_nat k + Z.of_nat x) l).
  { intros l k. rewrite map_map. apply map_ext. lia. }
  assert (S : forall k s n, seq (k + s) n = map (fun j => (k + j)%nat) (seq s n)).
  { intros k s n. revert s. induction n as [|n IH]; intros s; cbn; [reflexivity|]. f_equal. rewrite <- IH. f_equal. lia. }
  rewrite <- (Nat.add_0_r (Z.to_nat a)) at 1. rewrite S, E. apply map_ext. lia.
Qed.
Lemma in_zseq n k : In k (zseq n) -> 0 <= k < n.
Proof. unfold zseq. rewrite in_map_iff. intros (j & <- & H). apply in_seq in H. lia. Qed.
Lemma in_stepby n s k : 0 < s -> In k (stepby n s) -> exists j, k = s * j /\ 0 <= j < cdiv n s.
Proof. unfold stepby. rewrite in_map_iff. intros Hs (j & <- & H). apply in_seq in H. exists (Z.of_nat j). unfold cdiv in *. lia. Qed.
Lemma cdiv_nonneg n u : 0 < u -> 0 <= n -> 0 <= cdiv n u.
Proof. intros. unfold cdiv. apply Z.div_pos; lia. Qed.
Lemma cdiv_scale c n u : 0 < c -> 0 < u -> cdiv (c * n) (c * u) = cdiv n u.
Proof.
  intros Hc Hu. unfold cdiv. symmetry. apply (Z.div_unique_pos (c * n + c * u - 1) (c * u) ((n + u - 1) / u) (c * ((n + u - 1) mod u) + c - 1)).
  - pose proof (Z.mod_pos_bound (n + u - 1) u Hu). nia.
  - pose proof (Z_div_mod_eq_full (n + u - 1) u). nia.
Qed.
Lemma cdiv_1 n : cdiv n 1 = n.
Proof. unfold cdiv. rewrite Z.div_1_r. lia. Qed.
Lemma cdiv_exact n u : 0 < u -> n mod u = 0 -> u * cdiv n u = n.
Proof.
  intros Hu H. unfold cdiv. assert (E : n = u * (n / u)) by (pose proof (Z_div_mod_eq_full n u); lia).
  set (q := n / u) in E. clearbody q. subst n. replace (u * q + u - 1) with (q * u + (u - 1)) by ring.
  rewrite Z.div_add_l, Z.div_small by lia. ring.
Qed.
Lemma cdiv_ge n u : 0 < u -> n <= u * cdiv n u < n + u.
Proof. intros Hu. unfold cdiv. pose proof (Z_div_mod_eq_full (n + u - 1) u). pose proof (Z.mod_pos_bound (n + u - 1) u Hu). lia. Qed.
Lemma stepby_zseq n s : stepby n s = map (fun k => s * k) (zseq (cdiv n s)).
Proof. unfold stepby, zseq. rewrite map_map. reflexivity. Qed.
Lemma zseq_S k : 0 <= k -> zseq (k + 1) = zseq k ++ [k].
Proof. intros H. rewrite zseq_add by lia. f_equal. change (zseq 1) with [0]. cbn [map]. now rewrite Z.add_0_r. Qed.

(* unrolling: u bodies per iteration over blocks of u*c equals one body per quad *)
Lemma unroll_eq {S} (q : S -> Z -> S) c u n s : 0 < c -> 0 < u -> 0 <= n ->
  fold_left (fun m i => fold_left (fun m j => q m (i + c * j)) (zseq u) m) (stepby (c * n) (c * u)) s
  = fold_left (fun m k => q m (c * k)) (zseq (u * cdiv n u)) s.
Proof.
  intros Hc Hu Hn. rewrite stepby_zseq, cdiv_scale, fold_map by lia.
  pose proof (cdiv_nonneg n u Hu Hn) as HK. generalize (cdiv n u), HK. clear n Hn HK. intros K HK.
  pattern K. apply natlike_ind; [cbn; rewrite Z.mul_0_r; reflexivity| |exact HK].
  clear K HK. intros K HK IH. unfold Z.succ. rewrite zseq_S, fold_left_app, IH by lia. cbn [fold_left].
  replace (u * (K + 1)) with (u * K + u) by lia. rewrite zseq_add, fold_left_app, fold_map by nia.
  apply fold_ext_in. intros m j _. f_equal. lia.
Qed.
Lemma unroll4_eq {T} (f : mem T -> Z -> mem T) n m : 0 <= n ->
  unroll4 f n m = fold_left f (zseq (4 * cdiv n 4)) m.
Proof.
  intros H. pose proof (unroll_eq f 1 4 n m ltac:(lia) ltac:(lia) H) as E. rewrite !Z.mul_1_l in E.
  unfold unroll4. transitivity (fold_left (fun m i => fold_left (fun m j => f m (i + 1 * j)) (zseq 4) m) (stepby n 4) m).
  - apply fold_ext_in. intros s i _. change (zseq 4) with [0; 1; 2; 3]. cbn [fold_left]. rewrite !Z.mul_1_l, Z.add_0_r. reflexivity.
  - rewrite E. apply fold_ext_in. intros s k _. f_equal. lia.
Qed.
Lemma unroll2c_eq {T} (f : mem T -> Z -> mem T) n m : 0 <= n ->
  unroll2c f n m = fold_left (fun m k => f m (4 * k)) (zseq (2 * cdiv n 2)) m.
Proof.
  intros H. rewrite <- (unroll_eq f 4 2 n m) by lia. unfold unroll2c. apply fold_ext_in. intros s i _. change (zseq 2) with [0; 1]. cbn [fold_left]. rewrite Z.mul_0_r, Z.add_0_r. reflexivity.
Qed.

(** pointwise characterisation of loops *)
Lemma in_quad_dec p a : {p <= a < p + 4} + {~ (p <= a < p + 4)}.
Proof. destruct (Z_le_dec p a), (Z_lt_dec a (p + 4)); [left|right|right|right]; lia. Qed.
Lemma vstore_in {T} (m : mem T) p v a : p <= a < p + 4 -> vstore m p v a = v (a - p).
Proof. intros H. unfold vstore. destruct (Z.leb_spec p a); [|lia]. destruct (Z.ltb_spec a (p + 4)); [reflexivity|lia]. Qed.
Lemma vstore_out {T} (m : mem T) p v a : ~ (p <= a < p + 4) -> vstore m p v a = m a.
Proof. intros H. unfold vstore. destruct (Z.leb_spec p a); [|reflexivity]. destruct (Z.ltb_spec a (p + 4)); [lia|reflexivity]. Qed.

Definition inr (d n a : Z) : bool := (d <=? a) && (a <? d + n).
Lemma inr_spec d n a : inr d n a = true <-> d <= a < d + n.
Proof. unfold inr. lia. Qed.
Lemma inr_false d n a : inr d n a = false <-> ~ (d <= a < d + n).
Proof. unfold inr. lia. Qed.

Lemma loop1 {T} (N d : Z) (body : mem T -> Z -> mem T) (G : Z -> T) (m0 : mem T) : 0 <= N ->
  (forall m k, 0 <= k < N -> (forall b, ~ (d <= b < d + 4 * k) -> m b = m0 b) ->
     (forall a, d + 4 * k <= a < d + 4 * k + 4 -> body m k a = G (a - d)) /\ (forall a, ~ (d + 4 * k <= a < d + 4 * k + 4) -> body m k a = m a)) ->
  forall a, fold_left body (zseq N) m0 a = if inr d (4 * N) a then G (a - d) else m0 a.
Proof.
  intros HN. pattern N. apply natlike_ind; [| |exact HN]; clear N HN.
  - intros _ a. cbn. unfold inr. destruct (Z.leb_spec d a), (Z.ltb_spec a (d + 0)); cbn; try reflexivity; lia.
  - intros N HN IH H a. unfold Z.succ in *. rewrite zseq_S, fold_left_app by lia. cbn [fold_left].
    assert (IH' := IH (fun m k Hk => H m k ltac:(lia))). clear IH.
    destruct (H (fold_left body (zseq N) m0) N ltac:(lia)) as [I O].
    { intros b Hb. rewrite IH'. destruct (inr d (4 * N) b) eqn:E; [apply inr_spec in E; lia|reflexivity]. }
    destruct (in_quad_dec (d + 4 * N) a) as [Q|Q].
    + rewrite I by lia. destruct (inr d (4 * (N + 1)) a) eqn:E; [reflexivity|apply inr_false in E; lia].
    + rewrite O, IH' by lia.
      destruct (inr d (4 * N) a) eqn:E1, (inr d (4 * (N + 1)) a) eqn:E2; try reflexivity;
       rewrite ?inr_spec, ?inr_false in *; lia.
Qed.
(* two destinations, disjoint *)
Lemma loop2 {T} (N d1 d2 : Z) (body : mem T -> Z -> mem T) (G1 G2 : Z -> T) (m0 : mem T) : 0 <= N ->
  (d1 + 4 * N <= d2 \/ d2 + 4 * N <= d1) ->
  (forall m k, 0 <= k < N -> (forall b, ~ (d1 <= b < d1 + 4 * k) -> ~ (d2 <= b < d2 + 4 * k) -> m b = m0 b) ->
     (forall a, d1 + 4 * k <= a < d1 + 4 * k + 4 -> body m k a = G1 (a - d1))
     /\ (forall a, d2 + 4 * k <= a < d2 + 4 * k + 4 -> body m k a = G2 (a - d2))
     /\ (forall a, ~ (d1 + 4 * k <= a < d1 + 4 * k + 4) -> ~ (d2 + 4 * k <= a < d2 + 4 * k + 4) -> body m k a = m a)) ->
  forall a, fold_left body (zseq N) m0 a = if inr d1 (4 * N) a then G1 (a - d1) else if inr d2 (4 * N) a then G2 (a - d2) else m0 a.
Proof.
  intros HN D H a.
  assert (L : forall K, 0 <= K -> K <= N -> forall a, fold_left body (zseq K) m0 a = if inr d1 (4 * K) a then G1 (a - d1) else if inr d2 (4 * K) a then G2 (a - d2) else m0 a).
  2: { apply L; lia. }
  clear a. intros K HK. pattern K. apply natlike_ind; [| |exact HK]; clear K HK.
  - intros _ a. cbn. unfold inr. destruct (Z.leb_spec d1 a), (Z.ltb_spec a (d1 + 0)), (Z.leb_spec d2 a), (Z.ltb_spec a (d2 + 0)); cbn; try reflexivity; lia.
  - intros K HK IH HL a. unfold Z.succ in *. rewrite zseq_S, fold_left_app by lia. cbn [fold_left].
    specialize (IH ltac:(lia)).
    destruct (H (fold_left body (zseq K) m0) K ltac:(lia)) as (I1 & I2 & O).
    { intros b Hb1 Hb2. rewrite IH. destruct (inr d1 (4 * K) b) eqn:E; [apply inr_spec in E; lia|]. destruct (inr d2 (4 * K) b) eqn:E2; [apply inr_spec in E2; lia|reflexivity]. }
    destruct (in_quad_dec (d1 + 4 * K) a) as [Q1|Q1]; [|destruct (in_quad_dec (d2 + 4 * K) a) as [Q2|Q2]].
    + rewrite I1 by lia. destruct (inr d1 (4 * (K + 1)) a) eqn:E; [reflexivity|apply inr_false in E; lia].
    + rewrite I2 by lia. destruct (inr d1 (4 * (K + 1)) a) eqn:E; [apply inr_spec in E; lia|].
      destruct (inr d2 (4 * (K + 1)) a) eqn:E2; [reflexivity|apply inr_false in E2; lia].
    + rewrite O, IH by lia.
      destruct (inr d1 (4 * K) a) eqn:E1, (inr d1 (4 * (K + 1)) a) eqn:E2, (inr d2 (4 * K) a) eqn:E3, (inr d2 (4 * (K + 1)) a) eqn:E4; try reflexivity;
       rewrite ?inr_spec, ?inr_false in *; lia.
Qed.

(* a source buffer of N quads that is either the destination itself or does not overlap it *)
Definition clear_of (p d N : Z) : Prop := p = d \/ p + 4 * N <= d \/ d + 4 * N <= p.
Definition apart (p d N : Z) : Prop := p + 4 * N <= d \/ d + 4 * N <= p.
