(* SincProps.v - C90: the interpolation tables. *)
From Coq Require Import Reals Lra.
From Verif Require Import Base Util WtModel WtProps SincModel BlockModel AdsrModel LfoModel DelayModel DelayProps.
Local Open Scope Z_scope.

(* the interpolation kernels: a Blackman-windowed sinc with cutoff c over n samples, centred at 0 *)
Definition kernel (c : R) (n : Z) (x : R) : R :=
  ((42 / 100 + 1 / 2 * cos (2 * PI * x / IZR n) + 8 / 100 * cos (4 * PI * x / IZR n)) * c * sincf (c * x))%R.
Lemma kernel_eq c n x : 0 < n -> windowed_sinc x c n = kernel c n x.
Proof.
  intros N. assert (IZR n <> 0)%R by (apply not_0_IZR; lia). unfold windowed_sinc, kernel, symmetric_blackman. cbv zeta.
  replace (2 * PI * (x - IZR n / 2) / IZR n)%R with (2 * PI * x / IZR n - PI)%R by (field; assumption).
  replace (4 * PI * (x - IZR n / 2) / IZR n)%R with (4 * PI * x / IZR n - 2 * PI)%R by (field; assumption).
  rewrite !cos_minus, cos_PI, sin_PI, cos_2PI, sin_2PI. f_equal. f_equal. lra.
Qed.

Definition V45 (x : Z) : R := windowed_sinc (table_t (x mod 24) (x / 24) SM SN) (455 / 1000) SN.
Definition V85 (x : Z) : R := windowed_sinc (table_t (x mod 12) (x / 12) SM SN) (85 / 100) SN.
Definition V16 (x : Z) : Z := as_i16R (windowed_sinc (table_t (x mod 8) (x / 8) SM SN16) 1 SN16 + 16384)%R.
Lemma upto_zrange n : upto n = zrange 0 n.
Proof. unfold upto, zrange. rewrite Z.sub_0_r. reflexivity. Qed.
Definition inv1 (j i : Z) (s : sinctabs) : Prop :=
  (forall x, s_table s x = if (0 <=? x) && (x mod 24 <? 12) && ((x / 24 <? j) || (x / 24 =? j) && (x mod 24 <? i)) then V45 x else 0%R)
  /\ (forall x, s_1x s x = if (0 <=? x) && ((x / 12 <? j) || (x / 12 =? j) && (x mod 12 <? i)) then V85 x else 0%R) /\ (forall x, s_i16 s x = 0).
Lemma phase1 : exists s, foldM (fun s j => foldM (sinc_step1 j) (upto SN) s) (upto (SM + 1)) sinc_default = Ok s /\ inv1 257 0 s.
Proof.
  rewrite upto_zrange. change 257 with (SM + 1). apply (for_loop (fun s j => foldM (sinc_step1 j) (upto SN) s) (fun j s => inv1 j 0 s) 0 (SM + 1) sinc_default).
  - unfold SM. lia.
  - split; [|split; [|reflexivity]]; intros x; cbn [sinc_default s_table s_1x].
    + destruct ((0 <=? x) && (x mod 24 <? 12) && ((x / 24 <? 0) || (x / 24 =? 0) && (x mod 24 <? 0))) eqn:E; [lia|reflexivity].
    + destruct ((0 <=? x) && ((x / 12 <? 0) || (x / 12 =? 0) && (x mod 12 <? 0))) eqn:E; [lia|reflexivity].
  - intros j s J IJ. unfold SM in J. rewrite upto_zrange.
    destruct (for_loop (sinc_step1 j) (inv1 j) 0 SN s ltac:(unfold SN; lia) IJ) as (s' & E & (A & B & C)).
    { intros i s1 I (A & B & C). unfold SN in I. unfold sinc_step1, aset, SIZE, SIZE1, SM, SN. cbv zeta.
      replace ((0 <=? j * 12 * 2 + i) && (j * 12 * 2 + i <? (256 + 1) * 12 * 2)) with true by lia. cbn [obind].
      replace ((0 <=? j * 12 + i) && (j * 12 + i <? (256 + 1) * 12)) with true by lia. cbn [obind]. eexists. split; [reflexivity|].
      split; [|split; [|exact C]]; intros x; cbn [s_table s_1x].
      - destruct (Z.eqb_spec x (j * 12 * 2 + i)) as [->|NE].
        + assert (D : (j * 12 * 2 + i) / 24 = j) by (symmetry; apply Z.div_unique with (r := i); lia).
          assert (M : (j * 12 * 2 + i) mod 24 = i) by (symmetry; apply Z.mod_unique with (q := j); lia).
          rewrite D, M. replace (_ && _ && _) with true by lia. unfold V45. rewrite D, M. reflexivity.
        + rewrite A. assert (DM := Z.div_mod x 24 ltac:(lia)). assert (MB := Z.mod_pos_bound x 24 ltac:(lia)). set (q := x / 24) in *. set (m := x mod 24) in *. clearbody q m.
          replace ((x / 24 <? j)) with (q <? j) by lia || idtac.
          match goal with |- (if ?a then _ else _) = (if ?b then _ else _) => replace b with a; [reflexivity|] end. clear A B C. lia.
      - destruct (Z.eqb_spec x (j * 12 + i)) as [->|NE].
        + assert (D : (j * 12 + i) / 12 = j) by (symmetry; apply Z.div_unique with (r := i); lia).
          assert (M : (j * 12 + i) mod 12 = i) by (symmetry; apply Z.mod_unique with (q := j); lia).
          rewrite D, M. replace (_ && _) with true by lia. unfold V85. rewrite D, M. reflexivity.
        + rewrite B. assert (DM := Z.div_mod x 12 ltac:(lia)). assert (MB := Z.mod_pos_bound x 12 ltac:(lia)). set (q := x / 12) in *. set (m := x mod 12) in *. clearbody q m.
          match goal with |- (if ?a then _ else _) = (if ?b then _ else _) => replace b with a; [reflexivity|] end. clear A B C. lia. }
    exists s'. split; [exact E|]. unfold SN in A, B. split; [|split; [|exact C]]; intros x.
    + rewrite A. assert (MB := Z.mod_pos_bound x 24 ltac:(lia)). set (q := x / 24) in *. set (m := x mod 24) in *. clearbody q m.
      match goal with |- (if ?a then _ else _) = (if ?b then _ else _) => replace b with a; [reflexivity|] end. clear A B C. lia.
    + rewrite B. assert (MB := Z.mod_pos_bound x 12 ltac:(lia)). set (q := x / 12) in *. set (m := x mod 12) in *. clearbody q m.
      match goal with |- (if ?a then _ else _) = (if ?b then _ else _) => replace b with a; [reflexivity|] end. clear A B C. lia.
Qed.
Definition D45 (x : Z) : R := ((V45 (x + 12) - V45 (x - 12)) / 65536)%R.
Definition inv2 (j i : Z) (s : sinctabs) : Prop :=
  (forall x, s_table s x = if (0 <=? x) && (x / 24 <? 257) && (x mod 24 <? 12) then V45 x
     else if (0 <=? x) && (12 <=? x mod 24) && ((x / 24 <? j) || (x / 24 =? j) && (x mod 24 - 12 <? i)) then D45 x else 0%R)
  /\ (forall x, s_1x s x = if (0 <=? x) && (x / 12 <? 257) then V85 x else 0%R) /\ (forall x, s_i16 s x = 0).
Lemma phase2 s0 : inv1 257 0 s0 -> exists s, foldM (fun s j => foldM (sinc_step2 j) (upto SN) s) (upto SM) s0 = Ok s /\ inv2 256 0 s.
Proof.
  intros (A0 & B0 & C0). rewrite upto_zrange. change (inv2 256 0) with (inv2 SM 0). apply (for_loop (fun s j => foldM (sinc_step2 j) (upto SN) s) (fun j s => inv2 j 0 s) 0 SM s0).
  - unfold SM. lia.
  - split; [|split; [|exact C0]]; intros x.
    + rewrite A0. assert (MB := Z.mod_pos_bound x 24 ltac:(lia)). assert (DM := Z.div_mod x 24 ltac:(lia)). set (q := x / 24) in *. set (m := x mod 24) in *. clearbody q m. clear A0 B0 C0.
      match goal with |- (if ?a then _ else _) = (if ?b then _ else _) => replace b with a by lia end. destruct (_ && _ && _) eqn:E; [reflexivity|].
      match goal with |- _ = (if ?b then _ else _) => replace b with false by lia end. reflexivity.
    + rewrite B0. match goal with |- (if ?a then _ else _) = (if ?b then _ else _) => replace b with a; [reflexivity|] end. assert (MB := Z.mod_pos_bound x 12 ltac:(lia)). clear A0 B0 C0. set (q := x / 12) in *. set (m := x mod 12) in *. clearbody q m. lia.
  - intros j s J IJ. unfold SM in J. rewrite upto_zrange.
    destruct (for_loop (sinc_step2 j) (inv2 j) 0 SN s ltac:(unfold SN; lia) IJ) as (s' & E & (A & B & C)).
    { intros i s1 I (A & B & C). unfold SN in I. unfold sinc_step2, aset, aget, SIZE, SM, SN.
      replace ((0 <=? (j + 1) * 12 * 2 + i) && ((j + 1) * 12 * 2 + i <? (256 + 1) * 12 * 2)) with true by lia. cbn [obind].
      replace ((0 <=? j * 12 * 2 + i) && (j * 12 * 2 + i <? (256 + 1) * 12 * 2)) with true by lia. cbn [obind].
      replace ((0 <=? j * 12 * 2 + 12 + i) && (j * 12 * 2 + 12 + i <? (256 + 1) * 12 * 2)) with true by lia. cbn [obind]. eexists. split; [reflexivity|].
      split; [|split; [exact B|exact C]]. intros x. cbn [s_table].
      destruct (Z.eqb_spec x (j * 12 * 2 + 12 + i)) as [->|NE].
      - assert (D : (j * 12 * 2 + 12 + i) / 24 = j) by (symmetry; apply Z.div_unique with (r := 12 + i); lia).
        assert (M : (j * 12 * 2 + 12 + i) mod 24 = 12 + i) by (symmetry; apply Z.mod_unique with (q := j); lia).
        rewrite D, M. match goal with |- _ = (if ?b then _ else _) => replace b with false by lia end. match goal with |- _ = (if ?b then _ else _) => replace b with true by lia end.
        assert (D1 : ((j + 1) * 12 * 2 + i) / 24 = j + 1) by (symmetry; apply Z.div_unique with (r := i); lia).
        assert (M1 : ((j + 1) * 12 * 2 + i) mod 24 = i) by (symmetry; apply Z.mod_unique with (q := j + 1); lia).
        assert (D2 : (j * 12 * 2 + i) / 24 = j) by (symmetry; apply Z.div_unique with (r := i); lia).
        assert (M2 : (j * 12 * 2 + i) mod 24 = i) by (symmetry; apply Z.mod_unique with (q := j); lia).
        rewrite !A, D1, M1, D2, M2.
        match goal with |- ((if ?a then _ else _) - (if ?b then _ else _)) / _ = _ => idtac end || idtac.
        replace ((0 <=? (j + 1) * 12 * 2 + i) && (j + 1 <? 257) && (i <? 12)) with true by lia. replace ((0 <=? j * 12 * 2 + i) && (j <? 257) && (i <? 12)) with true by lia.
        unfold D45. replace (j * 12 * 2 + 12 + i + 12) with ((j + 1) * 12 * 2 + i) by lia. replace (j * 12 * 2 + 12 + i - 12) with (j * 12 * 2 + i) by lia. reflexivity.
      - rewrite A. assert (DM := Z.div_mod x 24 ltac:(lia)). assert (MB := Z.mod_pos_bound x 24 ltac:(lia)). set (q := x / 24) in *. set (m := x mod 24) in *. clearbody q m. clear A B C.
        destruct ((0 <=? x) && (q <? 257) && (m <? 12)); [reflexivity|].
        match goal with |- (if ?a then _ else _) = (if ?b then _ else _) => replace b with a; [reflexivity|lia] end. }
    exists s'. split; [exact E|]. unfold SN in A. split; [|split; [exact B|exact C]]. intros x. rewrite A.
    assert (MB := Z.mod_pos_bound x 24 ltac:(lia)). set (q := x / 24) in *. set (m := x mod 24) in *. clearbody q m. clear A B C. destruct ((0 <=? x) && (q <? 257) && (m <? 12)); [reflexivity|].
    match goal with |- (if ?a then _ else _) = (if ?b then _ else _) => replace b with a; [reflexivity|lia] end.
Qed.
Definition inv3 (s0 : sinctabs) (j i : Z) (s : sinctabs) : Prop :=
  s_table s = s_table s0 /\ s_1x s = s_1x s0 /\ (forall x, s_i16 s x = if (0 <=? x) && ((x / 8 <? j) || (x / 8 =? j) && (x mod 8 <? i)) then V16 x else 0).
Lemma phase3 s0 : (forall x, s_i16 s0 x = 0) -> exists s, foldM (fun s j => foldM (sinc_step3 j) (upto SN16) s) (upto (SM + 1)) s0 = Ok s /\ inv3 s0 257 0 s.
Proof.
  intros C0. rewrite upto_zrange. change 257 with (SM + 1). apply (for_loop (fun s j => foldM (sinc_step3 j) (upto SN16) s) (fun j s => inv3 s0 j 0 s) 0 (SM + 1) s0).
  - unfold SM. lia.
  - split; [reflexivity|]. split; [reflexivity|]. intros x. rewrite C0. destruct ((0 <=? x) && ((x / 8 <? 0) || (x / 8 =? 0) && (x mod 8 <? 0))) eqn:E; [lia|reflexivity].
  - intros j s J IJ. unfold SM in J. rewrite upto_zrange.
    destruct (for_loop (sinc_step3 j) (inv3 s0 j) 0 SN16 s ltac:(unfold SN16; lia) IJ) as (s' & E & (A & B & C)).
    { intros i s1 I (A & B & C). unfold SN16 in I. unfold sinc_step3, aset, SIZE16, SM. cbv zeta. change SN16 with 8 at 1 2 3.
      replace ((0 <=? j * 8 + i) && (j * 8 + i <? (256 + 1) * 8)) with true by lia. cbn [obind]. eexists. split; [reflexivity|].
      split; [exact A|]. split; [exact B|]. intros x. cbn [s_i16]. change SN16 with 8 at 1.
      destruct (Z.eqb_spec x (j * 8 + i)) as [->|NE].
      - assert (D : (j * 8 + i) / 8 = j) by (symmetry; apply Z.div_unique with (r := i); lia).
        assert (M : (j * 8 + i) mod 8 = i) by (symmetry; apply Z.mod_unique with (q := j); lia).
        rewrite D, M. replace (_ && _) with true by lia. unfold V16. rewrite D, M. reflexivity.
      - rewrite C. assert (DM := Z.div_mod x 8 ltac:(lia)). assert (MB := Z.mod_pos_bound x 8 ltac:(lia)). set (q := x / 8) in *. set (m := x mod 8) in *. clearbody q m. clear A B C.
        match goal with |- (if ?a then _ else _) = (if ?b then _ else _) => replace b with a; [reflexivity|lia] end. }
    exists s'. split; [exact E|]. split; [exact A|]. split; [exact B|]. intros x. rewrite C. unfold SN16. assert (MB := Z.mod_pos_bound x 8 ltac:(lia)). set (q := x / 8) in *. set (m := x mod 8) in *. clearbody q m. clear A B C.
    match goal with |- (if ?a then _ else _) = (if ?b then _ else _) => replace b with a; [reflexivity|lia] end.
Qed.
Lemma obind_chain {A} (m1 : res A) (f2 f3 : A -> res A) s1 s2 s : m1 = Ok s1 -> f2 s1 = Ok s2 -> f3 s2 = Ok s -> obind m1 (fun s => obind (f2 s) f3) = Ok s.
Proof. intros E1 E2 E3. rewrite E1. cbn [obind]. rewrite E2. exact E3. Qed.
Lemma init_run s0 s1 s2 s : foldM (fun s j => foldM (sinc_step1 j) (upto SN) s) (upto (SM + 1)) s0 = Ok s1 -> foldM (fun s j => foldM (sinc_step2 j) (upto SN) s) (upto SM) s1 = Ok s2 ->
  foldM (fun s j => foldM (sinc_step3 j) (upto SN16) s) (upto (SM + 1)) s2 = Ok s -> sinc_init s0 = Ok s.
Proof. intros E1 E2 E3. unfold sinc_init. exact (obind_chain _ (fun s => foldM (fun s j => foldM (sinc_step2 j) (upto SN) s) (upto SM) s) (fun s => foldM (fun s j => foldM (sinc_step3 j) (upto SN16) s) (upto (SM + 1)) s) s1 s2 s E1 E2 E3). Qed.
Lemma init_spec : exists s, sinc_init sinc_default = Ok s /\
  (forall j i, 0 <= j <= 256 -> 0 <= i < 12 -> s_table s (24 * j + i) = kernel (455 / 1000) 12 (5 - IZR i + IZR j / 256)%R) /\
  (forall j i, 0 <= j < 256 -> 0 <= i < 12 -> s_table s (24 * j + 12 + i) = ((s_table s (24 * (j + 1) + i)%Z - s_table s (24 * j + i)%Z) / 65536)%R) /\
  (forall i, 0 <= i < 12 -> s_table s (24 * 256 + 12 + i) = 0%R) /\
  (forall j i, 0 <= j <= 256 -> 0 <= i < 12 -> s_1x s (12 * j + i) = kernel (85 / 100) 12 (5 - IZR i + IZR j / 256)%R) /\
  (forall j i, 0 <= j <= 256 -> 0 <= i < 8 -> s_i16 s (8 * j + i) = as_i16R (kernel 1 8 (3 - IZR i + IZR j / 256) + 16384)%R).
Proof.
  destruct phase1 as (s1 & E1 & I1). destruct (phase2 s1 I1) as (s2 & E2 & (A2 & B2 & C2)). destruct (phase3 s2 C2) as (s & E3 & (A3 & B3 & C3)).
  exists s. split.
  { exact (init_run _ _ _ _ E1 E2 E3). }
  rewrite A3, B3. clear E1 E2 E3 I1 A3 B3 C2.
  assert (DM : forall j i, 0 <= i < 24 -> (24 * j + i) / 24 = j /\ (24 * j + i) mod 24 = i). { intros. split; [symmetry; apply Z.div_unique with (r := i); lia|symmetry; apply Z.mod_unique with (q := j); lia]. }
  assert (V : forall j i, 0 <= j <= 256 -> 0 <= i < 12 -> s_table s2 (24 * j + i) = V45 (24 * j + i)).
  { intros j i J I. rewrite A2. destruct (DM j i ltac:(lia)) as [D M]. rewrite D, M. match goal with |- (if ?b then _ else _) = _ => replace b with true by lia end. reflexivity. }
  assert (TT : forall i j, table_t i j SM SN = (5 - IZR i + IZR j / 256)%R) by (intros; unfold table_t, SM, SN; lra).
  split; [|split; [|split; [|split]]].
  - intros j i J I. rewrite V by assumption. unfold V45. destruct (DM j i ltac:(lia)) as [D M]. rewrite D, M, TT. apply kernel_eq. unfold SN; lia.
  - intros j i J I. rewrite !V by lia. rewrite A2. replace (24 * j + 12 + i) with (24 * j + (12 + i)) by lia. destruct (DM j (12 + i) ltac:(lia)) as [D M]. rewrite D, M.
    match goal with |- (if ?b then _ else _) = _ => replace b with false by lia end. match goal with |- (if ?b then _ else _) = _ => replace b with true by lia end.
    unfold D45. replace (24 * j + (12 + i) + 12) with (24 * (j + 1) + i) by lia. replace (24 * j + (12 + i) - 12) with (24 * j + i) by lia. reflexivity.
  - intros i I. rewrite A2. replace (24 * 256 + 12 + i) with (24 * 256 + (12 + i)) by lia. destruct (DM 256 (12 + i) ltac:(lia)) as [D M]. rewrite D, M.
    match goal with |- (if ?b then _ else _) = _ => replace b with false by lia end. match goal with |- (if ?b then _ else _) = _ => replace b with false by lia end. reflexivity.
  - intros j i J I. rewrite B2. assert (D : (12 * j + i) / 12 = j) by (symmetry; apply Z.div_unique with (r := i); lia). assert (M : (12 * j + i) mod 12 = i) by (symmetry; apply Z.mod_unique with (q := j); lia).
    rewrite D. match goal with |- (if ?b then _ else _) = _ => replace b with true by lia end. unfold V85. rewrite D, M, TT. apply kernel_eq. unfold SN; lia.
  - intros j i J I. rewrite C3. assert (D : (8 * j + i) / 8 = j) by (symmetry; apply Z.div_unique with (r := i); lia). assert (M : (8 * j + i) mod 8 = i) by (symmetry; apply Z.mod_unique with (q := j); lia).
    rewrite D, M. match goal with |- (if ?b then _ else _) = _ => replace b with true by lia end. unfold V16. rewrite D, M. f_equal. f_equal.
    replace (table_t i j SM SN16) with (3 - IZR i + IZR j / 256)%R by (unfold table_t, SM, SN16; lra). apply kernel_eq. unfold SN16; lia.
Qed.
(** ** C90 *)
(* both 12-point tables hold the windowed-sinc kernel at 1/256-sample steps; tap i of row j is the kernel at 5 - i + j/256 *)
Theorem C90_rows : exists s, sinc_init sinc_default = Ok s /\ forall j i, 0 <= j <= 256 -> 0 <= i < 12 ->
  s_table s (24 * j + i) = kernel (455 / 1000) 12 (5 - IZR i + IZR j / 256)%R /\ s_1x s (12 * j + i) = kernel (85 / 100) 12 (5 - IZR i + IZR j / 256)%R.
Proof. destruct init_spec as (s & E & A & _ & _ & B & _). exists s. split; [exact E|]. intros j i J I. split; [now apply A|now apply B]. Qed.
Print Assumptions C90_rows.
(* the second half of each row interpolates linearly to the next row: adding f of the 65536 steps gives the point f/65536 of the way *)
Theorem C90_interpolation : exists s, sinc_init sinc_default = Ok s /\ forall j i f, 0 <= j < 256 -> 0 <= i < 12 ->
  let W := fun x => kernel (455 / 1000) 12 x in let a := (5 - IZR i + IZR j / 256)%R in
  (s_table s (24 * j + i)%Z + f * s_table s (24 * j + 12 + i)%Z = W a + f / 65536 * (W (a + 1 / 256) - W a))%R.
Proof.
  destruct init_spec as (s & E & A & D & _). exists s. split; [exact E|]. intros j i f J I W a. rewrite D, !A by lia. unfold W, a. rewrite plus_IZR.
  replace (5 - IZR i + (IZR j + 1) / 256)%R with (5 - IZR i + IZR j / 256 + 1 / 256)%R by lra. lra.
Qed.
Print Assumptions C90_interpolation.
Lemma sin_abs x : (Rabs (sin x) <= Rabs x)%R.
Proof.
  assert (P : forall y, (0 < y -> sin y <= y /\ - y <= sin y)%R).
  { intros y Y. assert (H := sin_lt_x y Y). split; [lra|]. destruct (Rle_dec y 1) as [L|L].
    - assert (0 <= sin y)%R; [|lra]. apply Rlt_le, sin_gt_0; [exact Y|]. assert (X := PI2_1). lra.
    - assert (B := SIN_bound y). lra. }
  destruct (Rtotal_order x 0) as [L|[->|G]].
  - destruct (P (- x)%R ltac:(lra)) as [A B]. rewrite sin_neg in A, B. rewrite (Rabs_left x) by lra. apply Rabs_le. lra.
  - rewrite sin_0, Rabs_R0. lra.
  - destruct (P x G) as [A B]. rewrite (Rabs_right x) by lra. apply Rabs_le. lra.
Qed.
Lemma sincf_bound x : (Rabs (sincf x) <= 1)%R.
Proof.
  unfold sincf. destruct (Req_EM_T x 0) as [_|N]; [rewrite Rabs_R1; lra|]. assert (PI <> 0)%R by (assert (X := PI_RGT_0); lra). assert (PI * x <> 0)%R by (apply Rmult_integral_contrapositive; auto).
  unfold Rdiv. rewrite Rabs_mult, Rabs_inv. assert (0 < Rabs (PI * x))%R by (now apply Rabs_pos_lt). assert (B := sin_abs (PI * x)).
  apply Rmult_le_reg_r with (Rabs (PI * x)); [assumption|]. rewrite Rmult_assoc, Rinv_l by lra. lra.
Qed.
(* the kernel is even, vanishes at the ends of its support, has its peak at the centre *)
Theorem C90_kernel : forall c n, 0 < n -> (0 <= c <= 1)%R -> (forall x, kernel c n (- x) = kernel c n x) /\ kernel c n (IZR n / 2) = 0%R /\ kernel c n (- (IZR n / 2)) = 0%R
  /\ kernel c n 0 = c /\ forall x, (Rabs (kernel c n x) <= c)%R.
Proof.
  intros c n N C. assert (NZ : IZR n <> 0%R) by (apply not_0_IZR; lia).
  assert (EV : forall x, kernel c n (- x) = kernel c n x).
  { intros x. unfold kernel. replace (2 * PI * - x / IZR n)%R with (- (2 * PI * x / IZR n))%R by (field; assumption). replace (4 * PI * - x / IZR n)%R with (- (4 * PI * x / IZR n))%R by (field; assumption).
    rewrite !cos_neg. f_equal. replace (c * - x)%R with (- (c * x))%R by lra. unfold sincf. set (y := (c * x)%R). clearbody y. destruct (Req_EM_T y 0) as [->|NE].
    - destruct (Req_EM_T (-0) 0); [reflexivity|lra].
    - destruct (Req_EM_T (- y) 0); [lra|]. assert (PI <> 0)%R by (assert (X := PI_RGT_0); lra). replace (PI * - y)%R with (- (PI * y))%R by lra. rewrite sin_neg. field. auto. }
  assert (Z0 : kernel c n (IZR n / 2) = 0%R).
  { unfold kernel. replace (2 * PI * (IZR n / 2) / IZR n)%R with PI by (field; assumption). replace (4 * PI * (IZR n / 2) / IZR n)%R with (2 * PI)%R by (field; assumption). rewrite cos_PI, cos_2PI. lra. }
  split; [exact EV|]. split; [exact Z0|]. split; [now rewrite EV|]. split.
  - unfold kernel. replace (2 * PI * 0 / IZR n)%R with 0%R by (field; assumption). replace (4 * PI * 0 / IZR n)%R with 0%R by (field; assumption). rewrite !Rmult_0_r, cos_0. unfold sincf. destruct (Req_EM_T 0 0); [lra|contradiction].
  - intros x. unfold kernel. rewrite !Rabs_mult. assert (S := sincf_bound (c * x)). rewrite (Rabs_right c) by lra.
    assert (B : (Rabs (42 / 100 + 1 / 2 * cos (2 * PI * x / IZR n) + 8 / 100 * cos (4 * PI * x / IZR n)) <= 1)%R).
    { apply Rabs_le. assert (A := COS_bound (2 * PI * x / IZR n)). assert (A' := COS_bound (4 * PI * x / IZR n)). lra. }
    assert (P1 := Rabs_pos (42 / 100 + 1 / 2 * cos (2 * PI * x / IZR n) + 8 / 100 * cos (4 * PI * x / IZR n))). assert (P2 := Rabs_pos (sincf (c * x))).
    set (u := Rabs (42 / 100 + _ + _)) in *. set (w := Rabs (sincf _)) in *. clearbody u w. assert (u * c <= c)%R by nra. assert (0 <= u * c)%R by nra. nra.
Qed.
Print Assumptions C90_kernel.
(* the 16-bit table should hold the kernel scaled by 16384; every one of its 2056 entries is 16383, 16384 or 16385 *)
Theorem C90_i16_refuted : exists s, sinc_init sinc_default = Ok s /\ forall j i, 0 <= j <= 256 -> 0 <= i < 8 -> 16383 <= s_i16 s (8 * j + i) <= 16385.
Proof.
  destruct init_spec as (s & E & _ & _ & _ & _ & A). exists s. split; [exact E|]. intros j i J I. rewrite A by assumption.
  destruct (C90_kernel 1 8 ltac:(lia) ltac:(lra)) as (_ & _ & _ & _ & B). specialize (B (3 - IZR i + IZR j / 256)%R). set (k := kernel 1 8 _) in *. clearbody k.
  assert (K : (-1 <= k <= 1)%R) by (revert B; unfold Rabs; destruct (Rcase_abs k); lra). unfold as_i16R. destruct (Rle_dec 0 (k + 16384)); [|lra].
  destruct (base_Int_part (k + 16384)) as [L U]. assert (16382 < Int_part (k + 16384) < 16386); [|lia]. split; apply lt_IZR; lra.
Qed.
Print Assumptions C90_i16_refuted.
(* the delay line's accuracy (C46) with the table the synth builds *)
Theorem C90_delay_line : forall ws k v b, 0 <= k < 32 -> (32 <= v <= 262131)%R -> write_blocks ws 0 (dd_bl dd_new) = Ok b ->
  let now := 32 * Z.of_nat (length ws) + k in let W := kernel (85 / 100) 12 in
  exists s c u, sinc_init sinc_default = Ok s /\ dd_read (s_1x s) b ((32 * Z.of_nat (length ws)) mod DLEN) k v
    = Ok (fold_right Rplus 0 (map (fun j => W (c - IZR (u + j)%Z) * samples ws (u + j)%Z) [0; 1; 2; 3; 4; 5; 6; 7; 8; 9; 10; 11]%Z))%R
    /\ (IZR now - (v + 6) - 1 / 256 <= c <= IZR now - (v + 6))%R /\ (IZR u <= c - 5)%R /\ (c - 5 < IZR u + 1)%R.
Proof.
  intros ws k v b K V EB now W. destruct init_spec as (s & E & _ & _ & _ & A & _).
  destruct (C46_delay_accuracy W (s_1x s) ws k v b A K V EB) as (c & u & R). exists s, c, u. split; [exact E|exact R].
Qed.
Print Assumptions C90_delay_line.
Example C90_instance : kernel (85 / 100) 12 0 = (85 / 100)%R /\ kernel 1 8 4 = 0%R.
Proof.
  destruct (C90_kernel (85 / 100) 12 ltac:(lia) ltac:(lra)) as (_ & _ & _ & A & _). destruct (C90_kernel 1 8 ltac:(lia) ltac:(lra)) as (_ & B & _).
  split; [exact A|]. replace 4%R with (IZR 8 / 2)%R by lra. exact B.
Qed.

(** ** C93: window functions *)
Lemma cos_refl m a : cos (2 * IZR m * PI - a) = cos a.
Proof.
  rewrite <- (cos_neg a). replace (2 * IZR m * PI - a)%R with (- a + 2 * IZR m * PI)%R by lra.
  destruct (Z_le_dec 0 m) as [L|L].
  - rewrite <- (Z2Nat.id m L), <- INR_IZR_INZ. apply cos_period.
  - rewrite <- (cos_period (- a + 2 * IZR m * PI) (Z.to_nat (- m))). f_equal. rewrite INR_IZR_INZ, Z2Nat.id, opp_IZR by lia. lra.
Qed.
(* the four windows over 0 <= i <= n-1 are symmetric about the middle and stay between 0 and 1 *)
Theorem C93_windows : forall n i, 2 <= n -> (0 <= i <= IZR n - 1)%R ->
  (blackman (IZR n - 1 - i) n = blackman i n /\ 0 <= blackman i n <= 1)%R /\ (hanning (IZR n - 1 - i) n = hanning i n /\ 0 <= hanning i n <= 1)%R
  /\ (hamming (IZR n - 1 - i) n = hamming i n /\ 8 / 100 <= hamming i n <= 1)%R /\ (blackman_harris (IZR n - 1 - i) n = blackman_harris i n /\ 0 < blackman_harris i n <= 1)%R.
Proof.
  intros n i N I. assert (NN : (1 <= IZR n - 1)%R). { assert (2 <= IZR n)%R by (apply (IZR_le 2); lia). lra. }
  assert (C1 : cos (2 * PI * (IZR n - 1 - i) / (IZR n - 1)) = cos (2 * PI * i / (IZR n - 1))).
  { rewrite <- (cos_refl 1 (2 * PI * i / (IZR n - 1))). f_equal. field. lra. }
  assert (C2 : cos (4 * PI * (IZR n - 1 - i) / (IZR n - 1)) = cos (4 * PI * i / (IZR n - 1))).
  { rewrite <- (cos_refl 2 (4 * PI * i / (IZR n - 1))). f_equal. field. lra. }
  assert (C3 : cos (6 * PI * (IZR n - 1 - i) / (IZR n - 1)) = cos (6 * PI * i / (IZR n - 1))).
  { rewrite <- (cos_refl 3 (6 * PI * i / (IZR n - 1))). f_equal. field. lra. }
  set (a := (2 * PI * i / (IZR n - 1))%R) in *. assert (B := COS_bound a).
  assert (E2 : cos (4 * PI * i / (IZR n - 1)) = (2 * cos a * cos a - 1)%R). { rewrite <- cos_2a_cos. f_equal. unfold a. field. lra. }
  assert (E3 : cos (6 * PI * i / (IZR n - 1)) = (4 * (cos a * cos a * cos a) - 3 * cos a)%R).
  { replace (6 * PI * i / (IZR n - 1))%R with (2 * a + a)%R by (unfold a; field; lra). rewrite cos_plus, cos_2a_cos, sin_2a.
    assert (S2 : (sin a * sin a = 1 - cos a * cos a)%R) by (assert (X := sin2_cos2 a); unfold Rsqr in X; lra).
    replace (2 * sin a * cos a * sin a)%R with (2 * cos a * (sin a * sin a))%R by ring. rewrite S2. ring. }
  unfold blackman, hanning, hamming, blackman_harris. fold a.
  destruct (Rle_dec (IZR n) (IZR n - 1 - i)); [lra|]. destruct (Rle_dec (IZR n) i); [lra|]. rewrite C1, C2, C3, E2, E3. set (c := cos a) in *. clearbody c.
  assert (P1 := Rle_0_sqr (c - 1)). assert (P2 := Rle_0_sqr (c + 1)). assert (P0 := Rle_0_sqr c). unfold Rsqr in *.
  assert (Q1 : (0 <= (1 - c) * (1 + c))%R) by (apply Rmult_le_pos; lra). assert (Q2 : (0 <= (1 - c) * ((1 + c) * (1 + c)))%R) by (apply Rmult_le_pos; [lra|exact (Rle_0_sqr (1 + c))]).
  assert (Q3 : (0 <= (1 + c) * ((1 - c) * (1 - c)))%R) by (apply Rmult_le_pos; [lra|exact (Rle_0_sqr (1 - c))]).
  repeat split; try lra; try nra.
Qed.
Print Assumptions C93_windows.
Theorem C93_symmetric_blackman : forall n i, 0 < n -> symmetric_blackman (- i) n = symmetric_blackman i n /\ symmetric_blackman 0 n = 1%R /\ symmetric_blackman (IZR n / 2) n = 0%R.
Proof.
  intros n i N. assert (NZ : IZR n <> 0%R) by (apply not_0_IZR; lia). unfold symmetric_blackman. cbv zeta.
  assert (T : forall x, (2 * PI * (x - IZR n / 2) / IZR n = 2 * PI * x / IZR n - PI /\ 4 * PI * (x - IZR n / 2) / IZR n = 4 * PI * x / IZR n - 2 * PI)%R) by (intros; split; field; assumption).
  assert (U : forall x, cos (2 * PI * (x - IZR n / 2) / IZR n) = (- cos (2 * PI * x / IZR n))%R /\ cos (4 * PI * (x - IZR n / 2) / IZR n) = cos (4 * PI * x / IZR n)).
  { intros x. destruct (T x) as [-> ->]. rewrite !cos_minus, cos_PI, sin_PI, cos_2PI, sin_2PI. lra. }
  split; [|split].
  - destruct (U (- i)%R) as [-> ->], (U i) as [-> ->]. replace (2 * PI * - i / IZR n)%R with (- (2 * PI * i / IZR n))%R by (field; assumption). replace (4 * PI * - i / IZR n)%R with (- (4 * PI * i / IZR n))%R by (field; assumption). now rewrite !cos_neg.
  - destruct (U 0%R) as [-> ->]. unfold Rdiv. rewrite !Rmult_0_r, !Rmult_0_l, cos_0. lra.
  - replace (IZR n / 2 - IZR n / 2)%R with 0%R by lra. unfold Rdiv. rewrite !Rmult_0_r, !Rmult_0_l, cos_0. lra.
Qed.
Print Assumptions C93_symmetric_blackman.
(* the Blackman-Harris variant is not symmetric: one of its terms divides by n - 1 instead of n *)
Theorem C93_symmetric_blackman_harris_refuted : forall n i, 2 <= n ->
  (symmetric_blackman_harris i n - symmetric_blackman_harris (- i) n = 28256 / 100000 * sin (4 * PI * i / (IZR n - 1)) * sin (2 * PI / (IZR n - 1)))%R.
Proof.
  intros n i N. assert (NN : (1 <= IZR n - 1)%R). { assert (2 <= IZR n)%R by (apply (IZR_le 2); lia). lra. }
  unfold symmetric_blackman_harris. cbv zeta.
  replace (2 * PI * (- i - IZR n / 2) / IZR n)%R with (- (2 * PI * i / IZR n) - PI)%R by (field; lra). replace (2 * PI * (i - IZR n / 2) / IZR n)%R with (2 * PI * i / IZR n - PI)%R by (field; lra).
  replace (6 * PI * (- i - IZR n / 2) / IZR n)%R with (- (6 * PI * i / IZR n) - 3 * PI)%R by (field; lra). replace (6 * PI * (i - IZR n / 2) / IZR n)%R with (6 * PI * i / IZR n - 3 * PI)%R by (field; lra).
  replace (4 * PI * (i - IZR n / 2) / (IZR n - 1))%R with (4 * PI * i / (IZR n - 1) - (2 * PI + 2 * PI / (IZR n - 1)))%R by (field; lra).
  replace (4 * PI * (- i - IZR n / 2) / (IZR n - 1))%R with (- (4 * PI * i / (IZR n - 1)) - (2 * PI + 2 * PI / (IZR n - 1)))%R by (field; lra).
  set (x := (2 * PI * i / IZR n)%R). set (y := (6 * PI * i / IZR n)%R). set (z := (4 * PI * i / (IZR n - 1))%R). set (w := (2 * PI / (IZR n - 1))%R).
  replace (3 * PI)%R with (PI + 2 * PI)%R by lra. rewrite !cos_minus, !cos_plus, !sin_plus, !cos_neg, !sin_neg, cos_PI, sin_PI, cos_2PI, sin_2PI. lra.
Qed.
Print Assumptions C93_symmetric_blackman_harris_refuted.
Example C93_instance : (symmetric_blackman_harris 1 9 <> symmetric_blackman_harris (-1) 9)%R.
Proof.
  assert (X := C93_symmetric_blackman_harris_refuted 9 1%R ltac:(lia)). replace (4 * PI * 1 / (9 - 1))%R with (PI / 2)%R in X by lra. replace (2 * PI / (9 - 1))%R with (PI / 4)%R in X by lra.
  rewrite sin_PI2 in X. assert (0 < sin (PI / 4))%R. { apply sin_gt_0; assert (P := PI_RGT_0); lra. } replace (- (1))%R with (-1)%R in X by lra. lra.
Qed.
