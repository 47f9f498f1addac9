(* WtProps.v - C48 (frame layout), C49 (mip levels), C91 (flat index layout), C92 (size exponent). *)
From Coq Require Import String.
From Verif Require Import Base Util WavModel WtModel.
Local Open Scope Z_scope.

(* a for loop over a..b-1 with an invariant *)
Lemma foldM_app' {A S} (f : S -> A -> res S) l1 l2 s : foldM f (l1 ++ l2) s = obind (foldM f l1 s) (foldM f l2).
Proof. revert s. induction l1 as [|x l IH]; intros s; cbn; [reflexivity|]. destruct (f s x); cbn; auto. Qed.
Lemma for_loop {St} (f : St -> Z -> res St) (I : Z -> St -> Prop) a b s : a <= b -> I a s ->
  (forall k s, a <= k < b -> I k s -> exists s', f s k = Ok s' /\ I (k + 1) s') ->
  exists s', foldM f (zrange a b) s = Ok s' /\ I b s'.
Proof.
  intros AB I0 ST. unfold zrange.
  enough (G : forall n, (n <= Z.to_nat (b - a))%nat -> exists s', foldM f (map (fun k => a + Z.of_nat k) (seq 0 n)) s = Ok s' /\ I (a + Z.of_nat n) s').
  { destruct (G (Z.to_nat (b - a)) (le_n _)) as (s' & E & H). exists s'. split; [exact E|]. replace b with (a + Z.of_nat (Z.to_nat (b - a))) by lia. exact H. }
  induction n as [|n IH]; intros N.
  - exists s. split; [reflexivity|]. replace (a + Z.of_nat 0) with a by lia. exact I0.
  - destruct IH as (s1 & E & H); [lia|]. rewrite seq_S, map_app, foldM_app', E. cbn [obind map foldM]. rewrite Nat.add_0_l.
    destruct (ST (a + Z.of_nat n) s1 ltac:(lia) H) as (s2 & E2 & H2). rewrite E2. cbn [obind]. exists s2. split; [reflexivity|].
    replace (a + Z.of_nat (S n)) with (a + Z.of_nat n + 1) by lia. exact H2.
Qed.
Lemma land_mask x m : 0 <= m -> 0 <= Z.land x m <= m.
Proof.
  intros M. split; [apply Z.land_nonneg; now right|]. rewrite Z.land_comm.
  assert (E : m - Z.land m x = Z.ldiff m (Z.land m x)). { apply Z.sub_nocarry_ldiff. apply Z.bits_inj'. intros n N. rewrite Z.ldiff_spec, Z.land_spec, Z.bits_0. destruct (Z.testbit m n), (Z.testbit x n); reflexivity. }
  assert (0 <= Z.ldiff m (Z.land m x)) by (apply Z.ldiff_nonneg; now left). lia.
Qed.
Lemma shiftr_mono n k : 0 <= n -> 0 <= k -> 0 <= Z.shiftr n k <= n.
Proof. intros N K. rewrite Z.shiftr_div_pow2 by lia. assert (1 <= 2 ^ k) by (assert (0 < 2 ^ k) by (apply Z.pow_pos_nonneg; lia); lia). split; [apply Z.div_pos; lia|]. apply Z.div_le_upper_bound; nia. Qed.

Section Tables.
Context {T : Type} (zero : T) (smul : T -> T -> T) (hr : Z -> T).

(** ** C48 *)
Lemma base_loop d (LE : 0 < d_levels d) (LN : 0 < d_len d) : forall rest i x, 0 <= i -> i + Z.of_nat (length rest) = d_tables d * d_len d ->
  exists x' ct cs, foldM (pb_step d) rest (x, i / d_len d, i mod d_len d) = Ok (x', ct, cs) /\
   (forall j v, nth_error rest j = Some v -> x' 0 ((i + Z.of_nat j) / d_len d) ((i + Z.of_nat j) mod d_len d) = v) /\
   (forall l t s, l <> 0 \/ s < 0 \/ d_len d <= s \/ t * d_len d + s < i \/ d_tables d * d_len d <= t * d_len d + s -> x' l t s = (x l t s : T)).
Proof.
  induction rest as [|v rest IH]; intros i x I0 L.
  - exists x, (i / d_len d), (i mod d_len d). split; [reflexivity|]. split; [intros [|j] w; discriminate|]. auto.
  - cbn [foldM]. unfold pb_step at 1, a3_set, a3_in. cbn [length] in L.
    assert (DM := Z.div_mod i (d_len d) ltac:(lia)). assert (MB := Z.mod_pos_bound i (d_len d) LN).
    assert (Q0 : 0 <= i / d_len d) by (apply Z.div_pos; lia).
    assert (QT : i / d_len d < d_tables d) by (apply Z.div_lt_upper_bound; lia).
    set (q := i / d_len d) in *. set (m := i mod d_len d) in *.
    replace ((0 <=? 0) && (0 <? d_levels d) && (0 <=? q) && (q <? d_tables d) && (0 <=? m) && (m <? d_len d)) with true by (clear - LE Q0 QT MB; clearbody q m; lia).
    cbn [obind]. set (x1 := fun l' t' s' => if (l' =? 0) && (t' =? q) && (s' =? m) then v else x l' t' s').
    assert (ST : (if m + 1 =? d_len d then (x1, q + 1, 0) else (x1, q, m + 1)) = (x1, (i + 1) / d_len d, (i + 1) mod d_len d)).
    { clearbody q m x1. destruct (Z.eqb_spec (m + 1) (d_len d)) as [E|NE].
      - f_equal; [f_equal|]; [apply Z.div_unique with (r := 0)|apply Z.mod_unique with (q := q + 1)]; nia.
      - f_equal; [f_equal|]; [apply Z.div_unique with (r := m + 1)|apply Z.mod_unique with (q := q)]; nia. }
    destruct (IH (i + 1) x1 ltac:(lia) ltac:(lia)) as (x' & ct & cs & E & H1 & H2). exists x', ct, cs.
    split; [etransitivity; [apply (f_equal (foldM (pb_step d) rest)); exact ST|exact E]|]. split.
    + intros [|j] w Hw; cbn [nth_error] in Hw.
      * injection Hw as <-. rewrite Z.add_0_r. fold q m. rewrite H2; [unfold x1; rewrite !Z.eqb_refl; reflexivity|]. right. right. right. left. clearbody q m. nia.
      * replace (i + Z.of_nat (S j)) with (i + 1 + Z.of_nat j) by lia. now apply H1.
    + intros l t s H. rewrite H2 by (clear - H; lia). unfold x1. destruct ((l =? 0) && (t =? q) && (s =? m)) eqn:E1; [|reflexivity].
      exfalso. assert (t = q /\ s = m /\ l = 0) as (-> & -> & ->) by (clear - E1; clearbody q m; lia). clearbody q m. clear E1 ST E H1 H2 x1. nia.
Qed.
Lemma base_ok d x samples : 0 < d_levels d -> 0 < d_len d -> Z.of_nat (length samples) = d_tables d * d_len d ->
  exists x', populate_base d x samples = Ok x' /\
   (forall i v, nth_error samples i = Some v -> x' 0 (Z.of_nat i / d_len d) (Z.of_nat i mod d_len d) = v) /\
   (forall l t s, l <> 0 \/ ~ (0 <= t < d_tables d /\ 0 <= s < d_len d) -> x' l t s = (x l t s : T)).
Proof.
  intros LE LN L. unfold populate_base. rewrite (proj2 (Z.eqb_eq _ _) L). cbn [negb].
  destruct (base_loop d LE LN samples 0 x ltac:(lia) L) as (x' & ct & cs & E & H1 & H2). rewrite Z.div_0_l, Z.mod_0_l in E by lia.
  exists x'. split; [etransitivity; [apply (f_equal (fun m => obind m _)); exact E|reflexivity]|]. split; [exact H1|].
  intros l t s H. apply H2. destruct (Z.eq_dec l 0) as [->|]; [right|tauto].
  destruct (Z_lt_le_dec s 0); [tauto|]. destruct (Z_lt_le_dec s (d_len d)); [|tauto]. right. right. destruct H as [H|H]; [lia|].
  destruct (Z_lt_le_dec t 0); [left; nia|]. right. nia.
Qed.

(** ** C49 *)
(* the tap of the filter that is used last: the last of the 64 whose source table exists *)
Definition last_tap (d : wtdim) (level table sample : Z) : Z := Z.min 63 ((d_tables d - table) * Z.shiftr (d_len d) (level - 1) - 2 * sample + 30).
(* its source: table and position in the parent level *)
Definition tap_table (d : wtdim) (level table sample a : Z) : Z := Z.max 0 (table + Z.quot (2 * sample + a - 31) (Z.shiftr (d_len d) (level - 1))).
Definition tap_pos (d : wtdim) (level sample a : Z) : Z := Z.land (2 * sample + a - 31) (Z.shiftr (d_len d) (level - 1) - 1).
Definition small_dim (d : wtdim) : Prop := 0 <= d_len d < 2 ^ 28 /\ 0 <= d_tables d < 2 ^ 28 /\ d_levels d <= 64.
Definition mip_cell (d : wtdim) (x : a3d) (level t s : Z) : T :=
  let a := last_tap d level t s in smul (hr a) (x (level - 1) (tap_table d level t s a) (tap_pos d level s a)).
Lemma level_sizes d level : 0 <= d_len d -> 1 <= level -> let p := Z.shiftr (d_len d) (level - 1) in Z.shiftr (d_len d) level = p / 2 /\ 0 <= p <= d_len d.
Proof.
  intros L K p. split; [|apply shiftr_mono; lia]. unfold p.
  replace level with (level - 1 + 1) at 1 by lia. rewrite <- Z.shiftr_shiftr by lia. rewrite (Z.shiftr_div_pow2 _ 1) by lia. reflexivity.
Qed.
Lemma taps_loop d level t s x : small_dim d -> 1 <= level < d_levels d -> 0 <= t < d_tables d -> 0 <= s < Z.shiftr (d_len d) level ->
  exists x', foldM (mip_tap smul hr d level t s) (zrange 0 64) x = Ok x' /\
    forall l' t' s', x' l' t' s' = if (l' =? level) && (t' =? t) && (s' =? s) then mip_cell d x level t s else x l' t' s'.
Proof.
  intros (S1 & S2 & S3) L HT HS. destruct (level_sizes d level ltac:(lia) ltac:(lia)) as [LS P0]. rewrite LS in HS. set (p := Z.shiftr (d_len d) (level - 1)) in *.
  assert (P2 : 2 <= p) by (clearbody p; lia). assert (HS2 : 0 <= 2 * s /\ 2 * s + 2 <= p) by (clearbody p; lia).
  assert (LT : 31 <= last_tap d level t s <= 63). { unfold last_tap. fold p. assert (p <= (d_tables d - t) * p) by nia. clearbody p. lia. }
  destruct (for_loop (mip_tap smul hr d level t s) (fun k x1 => forall l' t' s', x1 l' t' s' = if (l' =? level) && (t' =? t) && (s' =? s) && (0 <? k)
     then let a := Z.min (k - 1) (last_tap d level t s) in smul (hr a) (x (level - 1) (tap_table d level t s a) (tap_pos d level s a)) else x l' t' s') 0 64 x ltac:(lia)) as (x' & E & H).
  - intros. rewrite andb_false_r. reflexivity.
  - intros a x1 A H. unfold mip_tap, mip_src. fold p.
    replace (negb (p <? 2 ^ 30) || negb (2 * s + a - 31 <? 2 ^ 30) || negb (t <? 2 ^ 30)) with false by (clearbody p; lia).
    destruct (Z.eqb_spec p 0) as [|_]; [clearbody p; lia|]. cbn [obind].
    change (Z.max 0 (t + Z.quot (2 * s + a - 31) p)) with (tap_table d level t s a). change (Z.land (2 * s + a - 31) (p - 1)) with (tap_pos d level s a).
    assert (TP : 0 <= tap_pos d level s a < p). { unfold tap_pos. fold p. assert (X := land_mask (2 * s + a - 31) (p - 1) ltac:(lia)). lia. }
    assert (TT : tap_table d level t s a < d_tables d <-> a <= last_tap d level t s).
    { unfold tap_table, last_tap. fold p. destruct (Z_lt_le_dec (2 * s + a - 31) 0).
      - assert (Z.quot (2 * s + a - 31) p <= 0). { replace (2 * s + a - 31) with (- (31 - a - 2 * s)) by lia. rewrite Z.quot_opp_l by lia. assert (0 <= Z.quot (31 - a - 2 * s) p) by (apply Z.quot_pos; lia). lia. }
        assert (p <= (d_tables d - t) * p) by nia. clearbody p. lia.
      - rewrite Z.quot_div_nonneg by lia. assert (0 <= (2 * s + a - 31) / p) by (apply Z.div_pos; lia).
        assert (D := Z.div_mod (2 * s + a - 31) p ltac:(lia)). assert (M := Z.mod_pos_bound (2 * s + a - 31) p ltac:(lia)).
        set (q := (2 * s + a - 31) / p) in *. set (r := (2 * s + a - 31) mod p) in *. clearbody q r p. split; intros X.
        + assert (q + 1 <= d_tables d - t) by lia. assert ((q + 1) * p <= (d_tables d - t) * p) by (apply Z.mul_le_mono_nonneg_r; lia). lia.
        + destruct (Z_lt_le_dec q (d_tables d - t)); [lia|]. assert ((d_tables d - t) * p <= q * p) by (apply Z.mul_le_mono_nonneg_r; lia). lia. }
    destruct (Z.ltb_spec (tap_table d level t s a) (d_tables d)) as [V|V].
    + assert (V1 : a <= last_tap d level t s) by tauto. assert (V0 : 0 <= tap_table d level t s a) by (unfold tap_table; lia).
      unfold a3_get, a3_set, a3_in. set (tt := tap_table d level t s a) in *. set (tp := tap_pos d level s a) in *. set (lt := last_tap d level t s) in *.
      replace ((0 <=? level - 1) && (level - 1 <? d_levels d) && (0 <=? tt) && (tt <? d_tables d) && (0 <=? tp) && (tp <? d_len d)) with true by (clearbody p tt tp lt; lia).
      cbn [obind].
      replace ((0 <=? level) && (level <? d_levels d) && (0 <=? t) && (t <? d_tables d) && (0 <=? s) && (s <? d_len d)) with true by (clearbody p tt tp lt; lia).
      eexists. split; [reflexivity|]. intros l' t' s'. cbn beta. replace (0 <? a + 1) with true by lia. rewrite andb_true_r.
      destruct ((l' =? level) && (t' =? t) && (s' =? s)) eqn:C.
      * rewrite H. replace (level - 1 =? level) with false by lia. cbn [andb]. cbv zeta. replace (Z.min (a + 1 - 1) lt) with a by (clear - V1; clearbody lt; lia). reflexivity.
      * rewrite H, C. reflexivity.
    + assert (V1 : last_tap d level t s < a) by lia. exists x1. split; [reflexivity|]. intros l' t' s'. rewrite H.
      replace (0 <? a + 1) with true by lia. replace (0 <? a) with true by lia. cbv zeta.
      replace (Z.min (a + 1 - 1) (last_tap d level t s)) with (last_tap d level t s) by lia. replace (Z.min (a - 1) (last_tap d level t s)) with (last_tap d level t s) by lia. reflexivity.
  - exists x'. split; [exact E|]. intros l' t' s'. rewrite H. change (0 <? 64) with true. rewrite andb_true_r. unfold mip_cell.
    replace (Z.min (64 - 1) (last_tap d level t s)) with (last_tap d level t s) by lia. reflexivity.
Qed.
Lemma level_loop d level x : small_dim d -> 1 <= level < d_levels d ->
  exists x', foldM (fun x table => foldM (fun x sample => foldM (mip_tap smul hr d level table sample) (zrange 0 64) x) (zrange 0 (Z.shiftr (d_len d) level)) x) (zrange 0 (d_tables d)) x = Ok x' /\
    forall l' t' s', x' l' t' s' = if (l' =? level) && (0 <=? t') && (t' <? d_tables d) && (0 <=? s') && (s' <? Z.shiftr (d_len d) level) then mip_cell d x level t' s' else x l' t' s'.
Proof.
  intros SD L. set (n := Z.shiftr (d_len d) level). assert (N0 : 0 <= n) by (apply shiftr_mono; unfold small_dim in SD; lia).
  assert (CE : forall y t s, (forall t' s', y (level - 1) t' s' = x (level - 1) t' s') -> mip_cell d y level t s = mip_cell d x level t s).
  { intros y t s Y. unfold mip_cell. cbv zeta. now rewrite Y. }
  destruct (for_loop (fun x table => foldM (fun x sample => foldM (mip_tap smul hr d level table sample) (zrange 0 64) x) (zrange 0 n) x)
    (fun k y => forall l' t' s', y l' t' s' = if (l' =? level) && (0 <=? t') && (t' <? k) && (0 <=? s') && (s' <? n) then mip_cell d x level t' s' else x l' t' s') 0 (d_tables d) x) as (x' & E & H).
  - unfold small_dim in SD. lia.
  - intros. destruct ((l' =? level) && (0 <=? t') && (t' <? 0) && (0 <=? s') && (s' <? n)) eqn:C; [lia|reflexivity].
  - intros t y HT H.
    destruct (for_loop (fun x sample => foldM (mip_tap smul hr d level t sample) (zrange 0 64) x)
      (fun k z => forall l' t' s', z l' t' s' = if (l' =? level) && (t' =? t) && (0 <=? s') && (s' <? k) then mip_cell d x level t' s' else y l' t' s') 0 n y) as (y' & E' & H').
    + exact N0.
    + intros. destruct ((l' =? level) && (t' =? t) && (0 <=? s') && (s' <? 0)) eqn:C; [lia|reflexivity].
    + intros s z HS HZ. destruct (taps_loop d level t s z SD L HT HS) as (z' & EZ & HZ'). exists z'. split; [exact EZ|].
      intros l' t' s'. rewrite HZ'. rewrite (CE z).
      2: { intros t1 s1. rewrite HZ, H. replace (level - 1 =? level) with false by lia. reflexivity. }
      rewrite HZ. destruct ((l' =? level) && (t' =? t) && (s' =? s)) eqn:C1, ((l' =? level) && (t' =? t) && (0 <=? s') && (s' <? s + 1)) eqn:C2, ((l' =? level) && (t' =? t) && (0 <=? s') && (s' <? s)) eqn:C3; try lia; try reflexivity.
      all: replace t' with t by lia; replace s' with s by lia; reflexivity.
    + exists y'. split; [exact E'|]. intros l' t' s'. rewrite H', H.
      destruct ((l' =? level) && (t' =? t) && (0 <=? s') && (s' <? n)) eqn:C1, ((l' =? level) && (0 <=? t') && (t' <? t + 1) && (0 <=? s') && (s' <? n)) eqn:C2, ((l' =? level) && (0 <=? t') && (t' <? t) && (0 <=? s') && (s' <? n)) eqn:C3; try lia; reflexivity.
  - exists x'. split; [exact E|exact H].
Qed.
Lemma mips_ok d x : small_dim d -> 1 <= d_levels d -> exists x', populate_mipmaps smul hr d x = Ok x' /\
  (forall l t s, 1 <= l < d_levels d -> 0 <= t < d_tables d -> 0 <= s < Z.shiftr (d_len d) l -> x' l t s = mip_cell d x' l t s) /\
  (forall l t s, ~ (1 <= l < d_levels d /\ 0 <= t < d_tables d /\ 0 <= s < Z.shiftr (d_len d) l) -> x' l t s = x l t s).
Proof.
  intros SD L1. unfold populate_mipmaps.
  destruct (for_loop (fun x level => if 63 <? level then Panic else
    foldM (fun x table => foldM (fun x sample => foldM (mip_tap smul hr d level table sample) (zrange 0 64) x)
      (zrange 0 (Z.shiftr (d_len d) level)) x) (zrange 0 (d_tables d)) x)
    (fun k y => (forall l t s, 1 <= l < k -> 0 <= t < d_tables d -> 0 <= s < Z.shiftr (d_len d) l -> y l t s = mip_cell d y l t s) /\
       (forall l t s, ~ (1 <= l < k /\ 0 <= t < d_tables d /\ 0 <= s < Z.shiftr (d_len d) l) -> y l t s = x l t s)) 1 (d_levels d) x L1) as (x' & E & H).
  - split; intros; [lia|reflexivity].
  - intros k y K (H1 & H2). unfold small_dim in SD. destruct (Z.ltb_spec 63 k); [lia|].
    destruct (level_loop d k y SD K) as (y' & E & H'). exists y'. split; [exact E|].
    assert (LO : forall l t s, l < k -> y' l t s = y l t s). { intros l t s HL. rewrite H'. replace (l =? k) with false by lia. reflexivity. }
    split.
    + intros l t s HL HT HS. destruct (Z.eq_dec l k) as [->|NE].
      * rewrite H'. replace ((k =? k) && (0 <=? t) && (t <? d_tables d) && (0 <=? s) && (s <? Z.shiftr (d_len d) k)) with true by lia.
        unfold mip_cell. cbv zeta. now rewrite LO by lia.
      * rewrite LO by lia. rewrite H1 by lia. unfold mip_cell. cbv zeta. now rewrite LO by lia.
    + intros l t s N. rewrite H'. destruct ((l =? k) && (0 <=? t) && (t <? d_tables d) && (0 <=? s) && (s <? Z.shiftr (d_len d) k)) eqn:C.
      * exfalso. apply N. assert (l = k) by lia. subst l. lia.
      * apply H2. intros (A & B & C'). apply N. lia.
  - exists x'. split; [exact E|exact H].
Qed.
End Tables.

Lemma new_ok {T} (zero : T) smul hr d samples : small_dim d -> 1 <= d_levels d -> 3 <= d_tables d -> 0 < d_len d -> d_levels d * d_tables d * d_len d <= isize_max ->
  Z.of_nat (length samples) = d_tables d * d_len d ->
  exists x, wt_new zero smul hr d samples = Ok x
  /\ (forall t s, 0 <= t < d_tables d -> 0 <= s < d_len d -> nth_error samples (Z.to_nat (t * d_len d + s)) = Some (x 0 t s))
  /\ (forall l t s, 1 <= l < d_levels d -> 0 <= t < d_tables d -> 0 <= s < Z.shiftr (d_len d) l -> x l t s = mip_cell smul hr d x l t s)
  /\ (forall l t s, 1 <= l < d_levels d -> Z.shiftr (d_len d) l <= s -> x l t s = zero).
Proof.
  intros SD LE TA LN SZ L. unfold wt_new. destruct (Z.ltb_spec (d_tables d) 3); [lia|]. destruct (Z.ltb_spec isize_max (d_levels d * d_tables d * d_len d)); [lia|].
  destruct (base_ok zero smul hr d (fun _ _ _ => zero) samples ltac:(lia) LN L) as (x0 & E0 & B1 & B2). destruct (mips_ok smul hr d x0 SD LE) as (x & E & M1 & M2).
  exists x. split; [etransitivity; [apply (f_equal (fun m => obind m _)); exact E0|exact E]|]. split; [|split; [exact M1|]].
  - intros t s HT HS. rewrite M2 by lia. set (i := t * d_len d + s). assert (I : 0 <= i < Z.of_nat (length samples)) by (unfold i; nia).
    destruct (nth_error samples (Z.to_nat i)) as [v|] eqn:EV; [|apply nth_error_None in EV; lia]. f_equal. rewrite <- (B1 _ _ EV), Z2Nat.id by lia.
    f_equal; [unfold i; symmetry; apply Z.div_unique with (r := s); lia|unfold i; symmetry; apply Z.mod_unique with (q := t); lia].
  - intros l t s HL HS. rewrite M2 by lia. rewrite B2 by lia. reflexivity.
Qed.
(** ** C48 *)
(* tables x length samples are stored frame by frame: slot s of table t of the finest level holds sample t * length + s *)
Theorem C48_layout : forall T (zero : T) smul hr d samples, small_dim d -> 1 <= d_levels d -> 3 <= d_tables d -> 0 < d_len d ->
  d_levels d * d_tables d * d_len d <= isize_max -> Z.of_nat (length samples) = d_tables d * d_len d ->
  exists x, wt_new zero smul hr d samples = Ok x
  /\ forall t s, 0 <= t < d_tables d -> 0 <= s < d_len d -> nth_error samples (Z.to_nat (t * d_len d + s)) = Some (x 0 t s).
Proof. intros T zero smul hr d samples SD LE TA LN SZ L. destruct (new_ok zero smul hr d samples SD LE TA LN SZ L) as (x & E & H & _). eauto. Qed.
Print Assumptions C48_layout.
(* any other number of samples, or fewer than three tables, is a panic *)
Theorem C48_wrong_count : forall T (zero : T) smul hr d samples, Z.of_nat (length samples) <> d_tables d * d_len d \/ d_tables d < 3 ->
  wt_new zero smul hr d samples = Panic.
Proof.
  intros T zero smul hr d samples H. unfold wt_new. destruct (Z.ltb_spec (d_tables d) 3); [reflexivity|]. destruct (isize_max <? _); [reflexivity|].
  unfold populate_base. destruct (Z.eqb_spec (Z.of_nat (length samples)) (d_tables d * d_len d)); [lia|reflexivity].
Qed.
Print Assumptions C48_wrong_count.

(** ** C49 *)
Lemma levels_spec n : forall fuel l, 1 <= l <= 16 -> 16 <= l + Z.of_nat fuel -> (l = 1 \/ 2 ^ (l - 1) < n) ->
  let r := levels_from fuel l n in l <= r <= 16 /\ (n <= 2 ^ r \/ r = 16) /\ (r = 1 \/ 2 ^ (r - 1) < n).
Proof.
  induction fuel as [|f IH]; intros l HL HF H1; cbn [levels_from].
  - cbv zeta. assert (l = 16) by lia. subst l. split; [lia|]. auto.
  - unfold MAX_LEVELS. destruct (Z.ltb_spec (2 ^ l) n), (Z.ltb_spec l 16); cbn [andb]; cbv zeta.
    + destruct (IH (l + 1)) as (A & B); [lia|lia|right; replace (l + 1 - 1) with l by lia; assumption|]. split; [lia|exact B].
    + split; [lia|]. split; [right; lia|exact H1].
    + split; [lia|]. split; [left; lia|exact H1].
    + split; [lia|]. split; [left; lia|exact H1].
Qed.
(* the number of levels is the least L >= 1 with 2^L >= table length, at most 16 *)
Theorem C49_level_count : forall n, let L := required_mipmap_levels n in 1 <= L <= 16 /\ (n <= 2 ^ L \/ L = 16) /\ forall K, 1 <= K < L -> 2 ^ K < n.
Proof.
  intros n L. destruct (levels_spec n 16 1 ltac:(lia) ltac:(lia) (or_introl eq_refl)) as (A & B & C). fold (required_mipmap_levels n) in A, B, C. fold L in A, B, C.
  split; [lia|]. split; [exact B|]. intros K HK. destruct C as [C|C]; [lia|]. apply Z.le_lt_trans with (2 ^ (L - 1)); [apply Z.pow_le_mono_r; lia|exact C].
Qed.
Print Assumptions C49_level_count.
(* no index leaves the array, for every length, table count and number of levels up to 64; every level that exists according to
   required_mipmap_levels has at least one sample; unused slots stay zero *)
Theorem C49_in_bounds : forall T (zero : T) smul hr d samples, small_dim d -> d_levels d = required_mipmap_levels (d_len d) -> 3 <= d_tables d -> 0 < d_len d ->
  d_levels d * d_tables d * d_len d <= isize_max -> Z.of_nat (length samples) = d_tables d * d_len d ->
  exists x, wt_new zero smul hr d samples = Ok x /\ (forall l, 1 <= l < d_levels d -> 1 <= Z.shiftr (d_len d) l)
  /\ forall l t s, 1 <= l < d_levels d -> Z.shiftr (d_len d) l <= s -> x l t s = zero.
Proof.
  intros T zero smul hr d samples SD LE TA LN SZ L. destruct (C49_level_count (d_len d)) as (A & _ & C). rewrite <- LE in A, C.
  destruct (new_ok zero smul hr d samples SD ltac:(lia) TA LN SZ L) as (x & E & _ & _ & H). exists x. split; [exact E|]. split; [|exact H].
  intros l HL. rewrite Z.shiftr_div_pow2 by lia. apply Z.div_le_lower_bound; [apply Z.pow_pos_nonneg; lia|]. assert (P := C l ltac:(lia)). lia.
Qed.
Print Assumptions C49_in_bounds.
(* A coarser level is NOT the filtered version of the finer one: its samples are products of one single tap (the last usable one,
   number 63 except at the end of the last table) with one parent sample. For 16-bit tables that tap is 1, so away from the end
   the coarser level is the finer one shifted by 32 samples and decimated without any filtering. *)
Theorem C49_filter_sum_refuted : forall T (zero : T) smul hr d samples, small_dim d -> 1 <= d_levels d -> 3 <= d_tables d -> 0 < d_len d ->
  d_levels d * d_tables d * d_len d <= isize_max -> Z.of_nat (length samples) = d_tables d * d_len d ->
  exists x, wt_new zero smul hr d samples = Ok x /\ forall l t s, 1 <= l < d_levels d -> 0 <= t < d_tables d -> 0 <= s < Z.shiftr (d_len d) l ->
    let a := last_tap d l t s in
    31 <= a <= 63 /\ (2 * s + 32 < (d_tables d - t) * Z.shiftr (d_len d) (l - 1) -> a = 63)
    /\ x l t s = smul (hr a) (x (l - 1) (tap_table d l t s a) (tap_pos d l s a)).
Proof.
  intros T zero smul hr d samples SD LE TA LN SZ L. destruct (new_ok zero smul hr d samples SD LE TA LN SZ L) as (x & E & _ & H & _). exists x. split; [exact E|].
  intros l t s HL HT HS a. split; [|split; [|now apply H]].
  - unfold a, last_tap. destruct (level_sizes smul hr d l ltac:(lia) ltac:(lia)) as [LS P0]. rewrite LS in HS. set (p := Z.shiftr (d_len d) (l - 1)) in *.
    assert (p <= (d_tables d - t) * p) by nia. clearbody p. lia.
  - intros X. unfold a, last_tap. set (p := Z.shiftr (d_len d) (l - 1)) in *. lia.
Qed.
Print Assumptions C49_filter_sum_refuted.
Definition i16_in (v : Z) : Prop := -32768 <= v <= 32767.
Theorem C49_pcm_unfiltered_refuted : forall d samples x k t s, d_len d = 2 ^ k -> 1 <= k -> small_dim d -> 1 < d_levels d -> 3 <= d_tables d ->
  d_levels d * d_tables d * d_len d <= isize_max -> Forall i16_in samples -> wt_new 0 sat_mul16 hr16 d samples = Ok x ->
  0 <= t < d_tables d -> 0 <= s < Z.shiftr (d_len d) 1 -> 2 * s + 32 < (d_tables d - t) * d_len d ->
  let q := t * d_len d + (2 * s + 32) in nth_error samples (Z.to_nat q) = Some (x 1 t s).
Proof.
  intros d samples x k t s DL HK SD HL TA SZ F E HT HS HA q.
  assert (K0 : 0 < d_len d) by (rewrite DL; apply Z.pow_pos_nonneg; lia).
  assert (L : Z.of_nat (length samples) = d_tables d * d_len d).
  { destruct (Z.eq_dec (Z.of_nat (length samples)) (d_tables d * d_len d)) as [|N]; [assumption|]. rewrite (C48_wrong_count _ _ _ _ d samples (or_introl N)) in E. discriminate. }
  destruct (new_ok 0 sat_mul16 hr16 d samples SD ltac:(lia) TA K0 SZ L) as (x' & E' & B & _). rewrite E in E'. injection E' as <-.
  destruct (C49_filter_sum_refuted Z 0 sat_mul16 hr16 d samples SD ltac:(lia) TA K0 SZ L) as (x' & E' & H). rewrite E in E'. injection E' as <-.
  destruct (H 1 t s ltac:(lia) HT HS) as (_ & A63 & V). cbv zeta in V. change (1 - 1) with 0 in *. rewrite Z.shiftr_0_r in A63. rewrite (A63 HA) in V. rewrite V.
  unfold tap_table, tap_pos. change (1 - 1) with 0. rewrite Z.shiftr_0_r in *. replace (2 * s + 63 - 31) with (2 * s + 32) by lia.
  assert (S0 : 0 <= s) by lia. rewrite Z.quot_div_nonneg by lia.
  assert (LA : Z.land (2 * s + 32) (d_len d - 1) = (2 * s + 32) mod d_len d). { rewrite DL. replace (2 ^ k - 1) with (Z.ones k) by (rewrite Z.ones_equiv; lia). apply Z.land_ones. lia. }
  rewrite LA. assert (DM := Z.div_mod (2 * s + 32) (d_len d) ltac:(lia)). assert (MB := Z.mod_pos_bound (2 * s + 32) (d_len d) K0).
  assert (Q0 : 0 <= (2 * s + 32) / d_len d) by (apply Z.div_pos; lia). set (j := (2 * s + 32) / d_len d) in *. set (r := (2 * s + 32) mod d_len d) in *.
  assert (J : t + j < d_tables d). { clearbody j r. nia. }
  replace (Z.max 0 (t + j)) with (t + j) by lia. assert (BB := B (t + j) r ltac:(lia) MB).
  replace ((t + j) * d_len d + r) with q in BB by (unfold q; clearbody j r; lia). rewrite BB. f_equal.
  assert (i16_in (x 0 (t + j) r)). { rewrite Forall_forall in F. apply F. eapply nth_error_In. exact BB. }
  unfold sat_mul16, i16_in in *. change (hr16 63) with 1. lia.
Qed.
Print Assumptions C49_pcm_unfiltered_refuted.
(* concrete: a unit impulse at the start of table 0 should give 31275 there (tap 31) on the first coarser level, the code stores 0 *)
Example C49_impulse : let d := {| d_levels := 6; d_tables := 3; d_len := 64 |} in let samples := 1 :: repeat 0 191 in
  small_dim d /\ d_levels d = required_mipmap_levels (d_len d) /\ Z.of_nat (length samples) = d_tables d * d_len d /\ hr16 31 = 31275
  /\ exists x, wt_new 0 sat_mul16 hr16 d samples = Ok x /\ x 0 0 0 = 1 /\ x 1 0 0 = 0.
Proof.
  cbv zeta. set (d := {| d_levels := 6; d_tables := 3; d_len := 64 |}). assert (SD : small_dim d) by (unfold small_dim, d; cbn [d_levels d_tables d_len]; lia).
  split; [exact SD|]. split; [reflexivity|]. split; [reflexivity|]. split; [reflexivity|].
  destruct (C48_layout Z 0 sat_mul16 hr16 d (1 :: repeat 0 191) SD ltac:(cbn; lia) ltac:(cbn; lia) ltac:(cbn; lia) ltac:(cbn; unfold isize_max; lia) eq_refl) as (x & E & B).
  exists x. split; [exact E|]. assert (B0 := B 0 0 ltac:(cbn; lia) ltac:(cbn; lia)). cbn in B0. injection B0 as B0. split; [symmetry; exact B0|].
  assert (X := C49_pcm_unfiltered_refuted d (1 :: repeat 0 191) x 6 0 0 eq_refl ltac:(lia) SD ltac:(cbn; lia) ltac:(cbn; lia) ltac:(cbn; unfold isize_max; lia)).
  assert (F : Forall i16_in (1 :: repeat 0 191)). { rewrite Forall_forall. intros v [<-|V]; [unfold i16_in; lia|]. apply repeat_spec in V. subst v. unfold i16_in. lia. }
  specialize (X F E ltac:(cbn; lia) ltac:(cbn; lia) ltac:(cbn; lia)). cbn in X. injection X as X. symmetry. exact X.
Qed.

(** ** C91 *)
Definition level_start (ws num pad mip : Z) : Z := fold_right Z.add 0 (map (fun i => Z.shiftr (num * ws) i + pad * num) (zrange 0 mip)).
Lemma level_start_S ws num pad k : 0 <= k -> level_start ws num pad (k + 1) = level_start ws num pad k + Z.shiftr (num * ws) k + pad * num.
Proof.
  intros K. unfold level_start, zrange. replace (Z.to_nat (k + 1 - 0)) with (S (Z.to_nat (k - 0))) by lia. rewrite seq_S, !map_app, fold_right_app. cbn [map fold_right].
  rewrite Nat.add_0_l. replace (0 + Z.of_nat (Z.to_nat (k - 0))) with k by lia.
  generalize (map (fun i => Z.shiftr (num * ws) i + pad * num) (map (fun j => 0 + Z.of_nat j) (seq 0 (Z.to_nat (k - 0))))). intros l.
  induction l as [|y l IH]; cbn [fold_right]; lia.
Qed.
Lemma index_eq w ws num mip pad i : 0 <= mip -> get_wt_index w ws num mip pad = Ok i ->
  i = level_start ws num pad mip + w * (Z.shiftr ws mip + pad) /\ 0 <= i + ws - 1 < MAX_WT_SAMPLES.
Proof.
  intros M. unfold get_wt_index. cbv zeta.
  assert (E : forall n b, fold_left (fun ix i => ix + Z.shiftr (num * ws) (Z.of_nat i) + pad * num) (seq 0 n) b = level_start ws num pad (Z.of_nat n) + b).
  { induction n as [|n IH]; intros b; [reflexivity|]. rewrite seq_S, fold_left_app, IH. cbn [fold_left]. rewrite Nat.add_0_l. replace (Z.of_nat (S n)) with (Z.of_nat n + 1) by lia. rewrite level_start_S by lia. lia. }
  rewrite E, Z2Nat.id by lia. set (v := level_start ws num pad mip + _). destruct (Z.ltb_spec (v + ws - 1) 0); [discriminate|]. destruct (Z.ltb_spec (v + ws - 1) MAX_WT_SAMPLES); [|discriminate].
  intros X. injection X as <-. split; [reflexivity|lia].
Qed.
Lemma level_bound ws num i : 0 <= ws -> 0 <= num -> 0 <= i -> num * Z.shiftr ws i <= Z.shiftr (num * ws) i < num * Z.shiftr ws i + num \/ num = 0.
Proof.
  intros W N I. destruct (Z.eq_dec num 0) as [|NZ]; [now right|left]. rewrite !Z.shiftr_div_pow2 by lia. assert (0 < 2 ^ i) by (apply Z.pow_pos_nonneg; lia).
  assert (D := Z.div_mod ws (2 ^ i) ltac:(lia)). assert (M := Z.mod_pos_bound ws (2 ^ i) ltac:(lia)).
  split; [apply Z.div_le_lower_bound; nia|]. apply Z.div_lt_upper_bound; [lia|]. set (q := ws / 2 ^ i) in *. set (r := ws mod 2 ^ i) in *. set (e := 2 ^ i) in *. clearbody q r e. nia.
Qed.
Lemma start_mono ws num pad k : 0 <= ws -> 0 <= num -> 0 <= pad -> forall n, 0 <= k -> level_start ws num pad (k + 1) <= level_start ws num pad (k + 1 + Z.of_nat n).
Proof.
  intros W N P n K. induction n as [|n IH]; [rewrite Z.add_0_r; lia|]. replace (k + 1 + Z.of_nat (S n)) with (k + 1 + Z.of_nat n + 1) by lia. rewrite (level_start_S ws num pad (k + 1 + Z.of_nat n)) by lia.
  assert (0 <= Z.shiftr (num * ws) (k + 1 + Z.of_nat n)) by (apply Z.shiftr_nonneg; nia). assert (0 <= pad * num) by (apply Z.mul_nonneg_nonneg; assumption). lia.
Qed.
(* different (level, table, sample) triples never share a slot, whatever the sizes and padding; every slot lies in the storage *)
Theorem C91_no_overlap : forall ws num pad m w s i m' w' s' i', 0 <= ws -> 0 <= pad -> 0 <= m -> 0 <= m' ->
  0 <= w < num -> 0 <= s < Z.shiftr ws m + pad -> 0 <= w' < num -> 0 <= s' < Z.shiftr ws m' + pad ->
  get_wt_index w ws num m pad = Ok i -> get_wt_index w' ws num m' pad = Ok i' -> i + s = i' + s' -> m = m' /\ w = w' /\ s = s'.
Proof.
  intros ws num pad m w s i m' w' s' i' WS P M M' W HS W' HS' E E' X. apply index_eq in E; [|exact M]. apply index_eq in E'; [|exact M']. destruct E as [-> _], E' as [-> _].
  assert (IN : forall m w s, 0 <= m -> 0 <= w < num -> 0 <= s < Z.shiftr ws m + pad -> level_start ws num pad m <= level_start ws num pad m + w * (Z.shiftr ws m + pad) + s < level_start ws num pad (m + 1)).
  { intros m0 w0 s0 M0 W0 S0. rewrite level_start_S by lia. destruct (level_bound ws num m0 WS ltac:(lia) M0) as [B|B]; [|lia]. set (z := Z.shiftr ws m0) in *. set (y := Z.shiftr (num * ws) m0) in *. clearbody z y. nia. }
  assert (A := IN m w s M W HS). assert (A' := IN m' w' s' M' W' HS').
  assert (m = m').
  { destruct (Z.lt_trichotomy m m') as [C|[C|C]]; [exfalso|exact C|exfalso].
    - assert (Y := start_mono ws num pad m WS ltac:(lia) P (Z.to_nat (m' - m - 1)) M). replace (m + 1 + Z.of_nat (Z.to_nat (m' - m - 1))) with m' in Y by lia. lia.
    - assert (Y := start_mono ws num pad m' WS ltac:(lia) P (Z.to_nat (m - m' - 1)) M'). replace (m' + 1 + Z.of_nat (Z.to_nat (m - m' - 1))) with m in Y by lia. lia. }
  subst m'. split; [reflexivity|]. set (z := Z.shiftr ws m + pad) in *. clear IN A A'. assert (w = w') by (clearbody z; nia). subst w'. lia.
Qed.
Print Assumptions C91_no_overlap.
Lemma size_step fuel : forall size ts tc, wt_size_from fuel size ts tc = size + wt_size_from fuel 0 ts tc.
Proof. induction fuel as [|f IH]; intros size ts tc; cbn [wt_size_from]; [lia|]. destruct (0 <? ts); [|lia]. rewrite IH, (IH (0 + _)). lia. Qed.
Lemma size_bound num : forall fuel ws m, 0 <= num -> 0 <= m < Z.of_nat fuel -> 0 < Z.shiftr ws m -> 0 <= ws ->
  fold_right Z.add 0 (map (fun i => (num + 3) * (Z.shiftr ws i + 12)) (zrange 0 (m + 1))) <= wt_size_from fuel 0 ws (num + 3).
Proof.
  induction fuel as [|f IH]; intros ws m N M S0 W; [lia|]. cbn [wt_size_from].
  assert (0 < ws). { destruct (Z.eq_dec ws 0) as [->|]; [rewrite Z.shiftr_0_l in S0; lia|lia]. }
  destruct (Z.ltb_spec 0 ws); [|lia]. rewrite size_step.
  assert (ZR : zrange 0 (m + 1) = 0 :: map (fun i => i + 1) (zrange 0 m)).
  { unfold zrange. replace (Z.to_nat (m + 1 - 0)) with (S (Z.to_nat (m - 0))) by lia. cbn [seq map]. f_equal. rewrite <- seq_shift, !map_map. apply map_ext. intros; lia. }
  rewrite ZR. cbn [map fold_right]. rewrite Z.shiftr_0_r, map_map.
  destruct (Z.eq_dec m 0) as [->|NZ].
  - cbn [zrange Z.sub Z.to_nat Pos.to_nat seq map fold_right]. change (zrange 0 0) with (@nil Z). cbn [map fold_right].
    assert (0 <= wt_size_from f 0 (Z.shiftr ws 1) (num + 3)).
    { clear - N W. assert (0 <= Z.shiftr ws 1) by (apply Z.shiftr_nonneg; lia). generalize dependent (Z.shiftr ws 1). clear W ws. induction f as [|f IH]; intros ws W; cbn [wt_size_from]; [lia|]. destruct (0 <? ws); [|lia].
      rewrite size_step. assert (0 <= Z.shiftr ws 1) by (apply Z.shiftr_nonneg; lia). specialize (IH _ H). nia. }
    lia.
  - assert (B := IH (Z.shiftr ws 1) (m - 1) N ltac:(lia)). replace (m - 1 + 1) with m in B by lia. rewrite Z.shiftr_shiftr in B by lia. replace (1 + (m - 1)) with m in B by lia.
    specialize (B S0 ltac:(apply Z.shiftr_nonneg; lia)).
    replace (map (fun x => (num + 3) * (Z.shiftr ws (x + 1) + 12)) (zrange 0 m)) with (map (fun i => (num + 3) * (Z.shiftr (Z.shiftr ws 1) i + 12)) (zrange 0 m)); [lia|].
    apply map_ext_in. intros a A. unfold zrange in A. apply in_map_iff in A. destruct A as (n & <- & _). rewrite Z.shiftr_shiftr by lia. do 3 f_equal. lia.
Qed.
(* required_wt_size is enough for every level down to one sample per table, with up to 11 samples of padding per table *)
Theorem C91_size_suffices : forall ws num pad m w i, 0 < ws < 2 ^ 63 -> 0 <= pad <= 11 -> 0 <= m -> 0 < Z.shiftr ws m -> 0 <= w < num ->
  get_wt_index w ws num m pad = Ok i -> i + Z.shiftr ws m + pad <= required_wt_size ws num.
Proof.
  intros ws num pad m w i WS P M SM W E. apply index_eq in E; [|exact M]. destruct E as [-> _].
  assert (M63 : m < 64). { destruct (Z_lt_le_dec m 64); [lia|]. rewrite Z.shiftr_div_pow2, Z.div_small in SM; [lia| |lia]. split; [lia|]. apply Z.lt_le_trans with (2 ^ 63); [lia|]. apply Z.pow_le_mono_r; lia. }
  apply Z.le_trans with (fold_right Z.add 0 (map (fun i => (num + 3) * (Z.shiftr ws i + 12)) (zrange 0 (m + 1)))); [|apply size_bound; lia].
  assert (LS : level_start ws num pad (m + 1) <= fold_right Z.add 0 (map (fun i => (num + 3) * (Z.shiftr ws i + 12)) (zrange 0 (m + 1)))).
  { unfold level_start. assert (NN : forall i, In i (zrange 0 (m + 1)) -> 0 <= i) by (unfold zrange; intros i A; apply in_map_iff in A; destruct A as (nn & <- & _); lia).
    induction (zrange 0 (m + 1)) as [|y l IH]; cbn [map fold_right]; [lia|]. assert (I := IH (fun i A => NN i (or_intror A))). assert (Y := NN y (or_introl eq_refl)).
    assert (0 <= Z.shiftr ws y) by (apply Z.shiftr_nonneg; lia). destruct (level_bound ws num y ltac:(lia) ltac:(lia) Y) as [B|B]; [|lia]. set (a := Z.shiftr ws y) in *. set (b := Z.shiftr (num * ws) y) in *. clearbody a b. nia. }
  rewrite level_start_S in LS by lia. destruct (level_bound ws num m ltac:(lia) ltac:(lia) M) as [B|B]; [|lia]. set (a := Z.shiftr ws m) in *. set (b := Z.shiftr (num * ws) m) in *. clearbody a b. nia.
Qed.
Print Assumptions C91_size_suffices.
(* an index is given out exactly when a full-size table would still fit at it, even for coarse levels; size 0 at slot 0 panics *)
Theorem C91_storage : forall w ws num m pad, 0 <= m ->
  get_wt_index w ws num m pad = (let i := level_start ws num pad m + w * (Z.shiftr ws m + pad) in if (0 <? i + ws) && (i + ws <=? MAX_WT_SAMPLES) then Ok i else Panic).
Proof.
  intros w ws num m pad M. cbv zeta. destruct (get_wt_index w ws num m pad) as [i|[]|] eqn:E.
  - apply index_eq in E; [|exact M]. destruct E as [<- H]. replace ((0 <? i + ws) && (i + ws <=? MAX_WT_SAMPLES)) with true by lia. reflexivity.
  - unfold get_wt_index in E. cbv zeta in E. destruct (_ <? 0); [discriminate|]. destruct (_ <? MAX_WT_SAMPLES); discriminate.
  - set (i := level_start ws num pad m + _). destruct ((0 <? i + ws) && (i + ws <=? MAX_WT_SAMPLES)) eqn:C; [exfalso|reflexivity].
    assert (X : get_wt_index w ws num m pad = Ok i); [|congruence]. clear E. unfold get_wt_index. cbv zeta.
    assert (E : forall n b, fold_left (fun ix i => ix + Z.shiftr (num * ws) (Z.of_nat i) + pad * num) (seq 0 n) b = level_start ws num pad (Z.of_nat n) + b).
    { induction n as [|n IH]; intros b; [reflexivity|]. rewrite seq_S, fold_left_app, IH. cbn [fold_left]. rewrite Nat.add_0_l. replace (Z.of_nat (S n)) with (Z.of_nat n + 1) by lia. rewrite level_start_S by lia. lia. }
    rewrite E, Z2Nat.id by lia. fold i. destruct (Z.ltb_spec (i + ws - 1) 0); [lia|]. destruct (Z.ltb_spec (i + ws - 1) MAX_WT_SAMPLES); [reflexivity|lia].
Qed.
Print Assumptions C91_storage.
Example C91_instance : get_wt_index 2 1024 10 3 7 = Ok (10240 + 5120 + 2560 + 210 + 2 * 135) /\ required_wt_size 1024 10 = 13 * (2047 + 11 * 12).
Proof. split; vm_compute; reflexivity. Qed.

(** ** C92 *)
Lemma ctz_pow p k : ctz p = k -> exists q, Zpos p = 2 ^ k * (2 * q + 1) /\ 0 <= k /\ 0 <= q.
Proof.
  revert k. induction p as [p IH|p IH|]; intros k E; cbn [ctz] in E; subst k.
  - exists (Zpos p). lia.
  - destruct (IH _ eq_refl) as (q & Q & K & Q0). exists q. rewrite Z.pow_add_r by lia. change (2 ^ 1) with 2. lia.
  - exists 0. lia.
Qed.
(* exact for powers of two; for every other length the reported exponent is too small: it is the number of trailing zero bits *)
Theorem C92_power_of_two : forall d k, d_len d = 2 ^ k -> 0 <= k < 32 -> num_samples_per_table_po2 d = k.
Proof.
  intros d k E K. unfold num_samples_per_table_po2, cttz32, as_u32. rewrite E. assert (B : 0 < 2 ^ k < 4294967296). { split; [apply Z.pow_pos_nonneg; lia|]. change 4294967296 with (2 ^ 32). apply Z.pow_lt_mono_r; lia. }
  rewrite Z.mod_small by lia. destruct (2 ^ k) as [|p|p] eqn:P; [lia| |lia]. destruct (ctz_pow p _ eq_refl) as (q & Q & C & Q0). set (c := ctz p) in *.
  destruct (Z.eq_dec q 0) as [->|NZ].
  - assert (2 ^ k = 2 ^ c) by lia. apply (Z.pow_inj_r 2); lia.
  - exfalso. rewrite <- P in Q. destruct (Z_le_gt_dec k c).
    + assert (2 ^ k <= 2 ^ c) by (apply Z.pow_le_mono_r; lia). nia.
    + assert (2 ^ k = 2 ^ c * 2 ^ (k - c)) by (rewrite <- Z.pow_add_r by lia; f_equal; lia). assert (2 ^ (k - c) = 2 * 2 ^ (k - c - 1)) by (rewrite <- Z.pow_succ_r by lia; f_equal; lia).
      assert (0 < 2 ^ c) by (apply Z.pow_pos_nonneg; lia). assert (2 * q + 1 = 2 * 2 ^ (k - c - 1)) by nia. lia.
Qed.
Print Assumptions C92_power_of_two.
Theorem C92_other_lengths_refuted : forall d, 0 < d_len d < 2 ^ 32 -> (forall k, 0 <= k -> d_len d <> 2 ^ k) -> num_samples_per_table_po2 d < Z.log2 (d_len d).
Proof.
  intros d L NP. unfold num_samples_per_table_po2, cttz32, as_u32. rewrite Z.mod_small by lia. destruct (d_len d) as [|p|p] eqn:E; [lia| |lia].
  destruct (ctz_pow p _ eq_refl) as (q & Q & C & Q0). set (c := ctz p) in *. assert (q <> 0). { intros ->. apply (NP c C). lia. }
  assert (P : 0 < 2 ^ c) by (apply Z.pow_pos_nonneg; lia). apply Z.log2_lt_pow2 with (b := c) || idtac.
  assert (2 ^ (c + 1) <= Zpos p). { rewrite Z.pow_add_r by lia. change (2 ^ 1) with 2. nia. }
  assert (c + 1 <= Z.log2 (Zpos p)); [|lia]. apply Z.log2_le_pow2; lia.
Qed.
Print Assumptions C92_other_lengths_refuted.
Example C92_instance : num_samples_per_table_po2 {| d_levels := 1; d_tables := 3; d_len := 1024 |} = 10 /\ num_samples_per_table_po2 {| d_levels := 1; d_tables := 3; d_len := 1000 |} = 3.
Proof. split; reflexivity. Qed.
