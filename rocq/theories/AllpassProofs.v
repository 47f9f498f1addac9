(** Lemmas about AllpassModel.v, used by AllpassProps.v. *)
From Coq Require Import Reals Lra Lia Bool List.
From Verif Require Import Base Util BlockModel MathModel ParamModel AdsrModel LfoModel LagModel SmallModel UnitModel AllpassModel.
Local Open Scope R_scope.

(** ** the specification side: runs and sums *)
(** running a section over a signal *)
Fixpoint ap_run (c : R) (s : allp) (xs : list R) : res (allp * list R) :=
  match xs with
  | [] => Ok (s, [])
  | x :: r => obind (ap_process s x c) (fun '(s1, y) => obind (ap_run c s1 r) (fun '(s2, ys) => Ok (s2, y :: ys)))
  end.
Fixpoint ad_run (t1 t2 m : Z) (s : adel) (xs : list R) : res (adel * list (R * R * R)) :=
  match xs with
  | [] => Ok (s, [])
  | x :: r => obind (ad_process s x t1 t2 m) (fun '(s1, y) => obind (ad_run t1 t2 m s1 r) (fun '(s2, ys) => Ok (s2, y :: ys)))
  end.
Fixpoint pd_run (tap : Z) (s : pdel) (xs : list R) : res (pdel * list R) :=
  match xs with
  | [] => Ok (s, [])
  | x :: r => obind (pd_process s x tap) (fun '(s1, y) => obind (pd_run tap s1 r) (fun '(s2, ys) => Ok (s2, y :: ys)))
  end.
Fixpoint sumn (f : nat -> R) (n : nat) : R := match n with O => 0 | Datatypes.S m => sumn f m + f m end.
Fixpoint sumsq (l : list R) : R := match l with [] => 0 | x :: r => x * x + sumsq r end.

Lemma sumn_ext : forall f g n, (forall i, (i < n)%nat -> f i = g i) -> sumn f n = sumn g n.
Proof. induction n as [|n IH]; intros H; simpl; [reflexivity|]. rewrite IH by (intros; apply H; lia). rewrite H by lia. reflexivity. Qed.
Lemma sumn_nonneg : forall f n, (forall i, 0 <= f i) -> 0 <= sumn f n.
Proof. induction n as [|n IH]; intros H; simpl; [lra|]. specialize (IH H). specialize (H n). lra. Qed.
Lemma sumn_point : forall f n i, (forall i, 0 <= f i) -> (i < n)%nat -> f i <= sumn f n.
Proof.
  induction n as [|n IH]; intros i H Hi; [lia|]. simpl. pose proof (sumn_nonneg f n H). pose proof (H n).
  destruct (Nat.eq_dec i n) as [->|]; [lra|]. specialize (IH i H). assert (i < n)%nat by lia. specialize (IH H2). lra.
Qed.
Lemma sumn_shift : forall f n, sumn f (Datatypes.S n) = f 0%nat + sumn (fun i => f (Datatypes.S i)) n.
Proof. induction n as [|n IH]; [simpl; lra|]. change (sumn f (Datatypes.S (Datatypes.S n))) with (sumn f (Datatypes.S n) + f (Datatypes.S n)). rewrite IH. simpl. lra. Qed.
Lemma sumn_upd : forall f g n i, (i < n)%nat -> (forall j, j <> i -> g j = f j) -> sumn g n = sumn f n - f i + g i.
Proof.
  induction n as [|n IH]; intros i Hi H; [lia|]. simpl. destruct (Nat.eq_dec i n) as [->|Hn].
  - rewrite (sumn_ext g f n). lra. intros j Hj. apply H. lia.
  - rewrite (IH i). rewrite (H n) by lia. lra. lia. exact H.
Qed.

(** ** all-pass section *)
Definition ap_energy (s : allp) : R := sumn (fun i => a_data s (Z.of_nat i) * a_data s (Z.of_nat i)) (Z.to_nat (a_len s)).
Definition ap_ok (s : allp) : Prop := (1 <= a_len s <= AP_MAX)%Z /\ (0 <= a_k s)%Z.

Lemma ap_step : forall s x c, ap_ok s -> exists s' y,
  ap_process s x c = Ok (s', y) /\ ap_ok s' /\ a_len s' = a_len s /\ (0 <= a_k s' < a_len s)%Z /\
  y * y + (1 - c * c) * ap_energy s' = x * x + (1 - c * c) * ap_energy s.
Proof.
  intros s x c [Hl Hk]. unfold ap_process.
  set (k := if (a_len s <=? a_k s + 1)%Z then 0%Z else (a_k s + 1)%Z).
  assert (Hkk : (0 <= k < a_len s)%Z) by (unfold k; destruct (Z.leb_spec (a_len s) (a_k s + 1)); lia).
  cbv zeta. fold k.
  replace ((0 <=? k) && (k <? AP_MAX))%Z with true by (symmetry; apply andb_true_intro; split; [apply Z.leb_le|apply Z.ltb_lt]; lia).
  do 2 eexists. split; [reflexivity|]. split; [|split; [reflexivity|split; [exact Hkk|]]].
  - split; simpl; lia.
  - unfold ap_energy. simpl a_len. simpl a_data. set (d := a_data s k).
    rewrite (sumn_upd (fun i => a_data s (Z.of_nat i) * a_data s (Z.of_nat i)) _ (Z.to_nat (a_len s)) (Z.to_nat k)).
    + unfold put. rewrite Z2Nat.id by lia. rewrite Z.eqb_refl. fold d. ring.
    + lia.
    + intros j Hj. unfold put. destruct (Z.eqb_spec (Z.of_nat j) k); [lia|reflexivity].
Qed.

(** ** delay *)
Lemma land_mask : forall i, Z.land i AP_MASK = (i mod AP_MAX)%Z.
Proof. intros. change AP_MASK with (Z.ones 14). rewrite Z.land_ones by lia. reflexivity. Qed.
Lemma mask_range : forall i, (0 <= Z.land i AP_MASK < AP_MAX)%Z.
Proof. intros. rewrite land_mask. apply Z.mod_pos_bound. reflexivity. Qed.
Lemma ad_get_ok : forall s i, ad_get s (Z.land i AP_MASK) = Ok (d_data s (Z.land i AP_MASK)).
Proof.
  intros. unfold ad_get. pose proof (mask_range i).
  replace ((0 <=? Z.land i AP_MASK) && (Z.land i AP_MASK <? AP_MAX))%Z with true
    by (symmetry; apply andb_true_intro; split; [apply Z.leb_le|apply Z.ltb_lt]; lia). reflexivity.
Qed.
Lemma i32_ok : forall z, (-2147483648 <= z <= 2147483647)%Z -> i32 z = Ok z.
Proof. intros. unfold i32, i32_min, i32_max. replace ((-2147483648 <=? z) && (z <=? 2147483647))%Z with true; [reflexivity|]. symmetry; apply andb_true_intro; split; apply Z.leb_le; lia. Qed.
Lemma i32_bad : forall z, ~ (-2147483648 <= z <= 2147483647)%Z -> i32 z = Panic.
Proof. intros. unfold i32, i32_min, i32_max. destruct (Z.leb_spec (-2147483648) z), (Z.leb_spec z 2147483647); simpl; try reflexivity. lia. Qed.

(** the cell j samples back from position k *)
Definition back (s : adel) (j : Z) : R := d_data s (Z.land (d_k s - j) AP_MASK).
Definition lim : Z := 536870912.
Lemma ad_step : forall s x t1 t2 m, (0 <= d_k s < AP_MAX)%Z -> (0 <= t1 <= lim)%Z -> (0 <= t2 <= lim)%Z -> (- lim <= m <= lim)%Z -> (0 <= d_len s <= lim)%Z ->
  let k := Z.land (d_k s + 1) AP_MASK in
  let mi := (m / 256)%Z in let f1 := (m mod 256)%Z in
  let at_ := fun j => d_data s (Z.land (k - j) AP_MASK) in
  ad_process s x t1 t2 m =
    Ok (mk_ad (d_len s) k (put (d_data s) k x),
        ((at_ (d_len s - mi - 1)%Z * IZR f1 + at_ (d_len s - mi)%Z * IZR (256 - f1)) * (1 / 256), at_ t1, at_ t2)).
Proof.
  intros s x t1 t2 m Hk H1 H2 Hm Hl k mi f1 at_. unfold ad_process, lim, AP_MAX in *.
  rewrite i32_ok by lia. cbn [obind]. fold k.
  assert (Hkk : (0 <= k < 16384)%Z) by (unfold k; apply (mask_range (d_k s + 1))).
  assert (Hmi : (Z.shiftr m AP_SUB_BITS = mi)%Z) by (unfold mi; rewrite Z.shiftr_div_pow2 by (unfold AP_SUB_BITS; lia); reflexivity).
  assert (Hf : (Z.land m (AP_SUB - 1) = f1)%Z) by (change (AP_SUB - 1)%Z with (Z.ones 8); rewrite Z.land_ones by lia; reflexivity).
  rewrite Hmi, Hf.
  assert (Hmr : (- 536870912 <= mi <= 536870912)%Z).
  { unfold mi. pose proof (Z.div_mod m 256 ltac:(lia)). pose proof (Z.mod_pos_bound m 256 ltac:(lia)). lia. }
  rewrite (i32_ok (k - t1)) by lia. cbn [obind]. rewrite (i32_ok (k - t2)) by lia. cbn [obind].
  rewrite ad_get_ok. cbn [obind]. rewrite ad_get_ok. cbn [obind].
  rewrite (i32_ok (k - d_len s)) by lia. cbn [obind]. rewrite (i32_ok (k - d_len s + mi)) by lia. cbn [obind].
  rewrite (i32_ok (k - d_len s + mi + 1)) by lia. cbn [obind]. rewrite ad_get_ok. cbn [obind]. rewrite ad_get_ok. cbn [obind].
  replace ((0 <=? k) && (k <? 16384))%Z with true by (symmetry; apply andb_true_intro; split; [apply Z.leb_le|apply Z.ltb_lt]; lia).
  unfold at_. change AP_SUB with 256%Z.
  replace (k - d_len s + mi + 1)%Z with (k - (d_len s - mi - 1))%Z by lia.
  replace (k - d_len s + mi)%Z with (k - (d_len s - mi))%Z by lia. reflexivity.
Qed.

(** ** pre-delay *)
(** whether the step from position k0 panics *)
Definition pd_bad (k0 tap : Z) : Prop :=
  let k := if (k0 + 1 =? PD_SIZE)%Z then 0%Z else (k0 + 1)%Z in
  let p := (k - tap)%Z in let p := if (p <? 0)%Z then (p + PD_SIZE)%Z else p in ~ (0 < p < PD_SIZE)%Z.
Lemma PD_SIZE_val : PD_SIZE = 384000%Z. Proof. reflexivity. Qed.
Lemma pd_step : forall s x tap, (0 <= p_k s < PD_SIZE)%Z -> (-2147000000 <= tap <= 2147000000)%Z ->
  let k := if (p_k s + 1 =? PD_SIZE)%Z then 0%Z else (p_k s + 1)%Z in
  let p := if (k - tap <? 0)%Z then (k - tap + PD_SIZE)%Z else (k - tap)%Z in
  pd_process s x tap = if (0 <? p)%Z && (p <? PD_SIZE)%Z then Ok (mk_pd k (put (p_data s) k x), p_data s p) else Panic.
Proof.
  intros s x tap Hk Ht k p. unfold pd_process. pose proof PD_SIZE_val as V.
  rewrite i32_ok by lia. cbn [obind]. cbv zeta. fold k.
  assert (Hkk : (0 <= k < PD_SIZE)%Z) by (unfold k; destruct (Z.eqb_spec (p_k s + 1) PD_SIZE); lia).
  rewrite i32_ok by lia. cbn [obind].
  assert (E : forall K : Z -> res (pdel * R), obind (if (k - tap <? 0)%Z then i32 (k - tap + PD_SIZE) else Ok (k - tap)%Z) K = K p).
  { intros K. unfold p. destruct (Z.ltb_spec (k - tap) 0); [rewrite (i32_ok (k - tap + PD_SIZE)) by lia|]; reflexivity. }
  etransitivity; [apply E|]. cbv beta.
  destruct (Z.ltb_spec 0 p); cbn [negb andb]; [|reflexivity].
  replace (0 <=? p)%Z with true by (symmetry; apply Z.leb_le; lia).
  replace (0 <=? k)%Z with true by (symmetry; apply Z.leb_le; lia).
  replace (k <? PD_SIZE)%Z with true by (symmetry; apply Z.ltb_lt; lia).
  cbn [andb]. rewrite !andb_true_r. destruct (Z.ltb_spec p PD_SIZE); reflexivity.
Qed.
(** the j-th step from position k0 is at k0 + j; if it is bad, the run panics *)
Lemma pd_run_bad : forall j tap s xs, (0 <= p_k s)%Z -> (p_k s + Z.of_nat j < PD_SIZE)%Z -> (-2147000000 <= tap <= 2147000000)%Z ->
  pd_bad (p_k s + Z.of_nat j) tap -> (j < length xs)%nat -> pd_run tap s xs = Panic.
Proof.
  induction j as [|j IH]; intros tap s xs Hk Hj Ht Hb Hl; destruct xs as [|x xs]; try (simpl in Hl; lia).
  - simpl pd_run. rewrite pd_step by (try assumption; lia). cbv zeta.
    replace (p_k s + Z.of_nat 0)%Z with (p_k s) in Hb by lia. unfold pd_bad in Hb. cbv zeta in Hb.
    match goal with |- obind (if ?c then _ else _) _ = _ => destruct c eqn:E end; [|reflexivity].
    exfalso. apply Hb. apply andb_true_iff in E. destruct E as [E1 E2]. apply Z.ltb_lt in E1. apply Z.ltb_lt in E2. split; assumption.
  - simpl pd_run. rewrite pd_step by (try assumption; lia). cbv zeta.
    match goal with |- obind (if ?c then _ else _) _ = _ => destruct c eqn:E end; [|reflexivity]. cbn [obind].
    rewrite (IH tap _ xs); [reflexivity| | | | |].
    + simpl p_k. destruct (Z.eqb_spec (p_k s + 1) PD_SIZE); lia.
    + simpl p_k. destruct (Z.eqb_spec (p_k s + 1) PD_SIZE); lia.
    + exact Ht.
    + simpl p_k. destruct (Z.eqb_spec (p_k s + 1) PD_SIZE); [lia|]. replace (p_k s + 1 + Z.of_nat j)%Z with (p_k s + Z.of_nat (Datatypes.S j))%Z by lia. exact Hb.
    + simpl in Hl. lia.
Qed.
