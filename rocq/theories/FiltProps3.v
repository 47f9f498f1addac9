(** Theorems about the comb filter (C136). *)
From Coq Require Import Reals Lra Psatz Lia.
From Flocq Require Import Core.Core.
From Verif Require Import Base Util F32 BlockModel ParamModel ShaperModel FiltModel RampProps ClipProps ShaperProps FiltProps AdsrProps.
Local Open Scope R_scope.

(* ================= specification ================= *)

(** An ideal comb filter: the past is a function of how long ago, newest at 1.  One output sample is a
    twelve-tap interpolation around the delay, the feedback is soft-clipped, the dry signal is mixed in. *)
Definition past := Z -> R.
Definition push (v : R) (h : past) : past := fun j => if (j =? 1)%Z then v else h (j - 1)%Z.
(** twelve taps of [h] centred on the delay d + 1/2 *)
Definition taps (coef : Z -> R) (h : past) (d : Z) : R :=
  sum_f_R0 (fun k => h (d + 6 - Z.of_nat k)%Z * coef (Z.of_nat k)) 11.
Definition ideal_comb (coef : Z -> R) (d : Z) (fb dry wet : R) (h : past) (x : R) : past * R :=
  let r := taps coef h d in (push (softclip arithR (x + fb * r)) h, wet * r + dry * x).

(** the circular buffer of a lane holds the last 2048 samples, and its first twelve again after the end *)
Definition holds (l : comb) (h : past) : Prop :=
  (0 <= m_wp l < 2048)%Z /\ (forall j, (1 <= j <= 2048)%Z -> m_buf l ((m_wp l - j) mod 2048)%Z = h j) /\
  (forall i, (0 <= i < 12)%Z -> m_buf l (2048 + i)%Z = m_buf l i).

(** simd_extract doing its job, and the row multiplied by FIR_IPOL_N << 1 before it is used *)
Definition row24 (se : Z) : res Z := Ok (24 * se)%Z.
Definition got (v : R) : res R := Ok v.

(* ================= lemmas ================= *)

Lemma se_range e : (0 <= comb_se e <= 255)%Z.
Proof. unfold comb_se. change 255%Z with (Z.ones 8). rewrite Z.land_ones by lia. change (2 ^ 8)%Z with 256%Z. pose proof (Z.mod_pos_bound e 256 ltac:(lia)). change (Z.ones 8) with 255%Z. lia. Qed.
Lemma tload_row tab e o : (o = 0 \/ o = 4 \/ o = 8)%Z -> tload tab (24 * comb_se e + o) = Ok (fun j => tab (24 * comb_se e + o + j)%Z).
Proof.
  intros O. pose proof (se_range e) as B. unfold tload, SINC_SIZE. set (s := comb_se e) in *. clearbody s.
  assert (M : ((24 * s + o) mod 4 = 0)%Z) by (replace (24 * s + o)%Z with (o + (6 * s) * 4)%Z by ring; rewrite Z.mod_add by lia; destruct O as [-> | [-> | ->]]; reflexivity).
  rewrite M, (proj2 (Z.leb_le _ _)), (proj2 (Z.ltb_lt _ _)) by lia. reflexivity.
Qed.
Lemma cload_in l p : (0 <= p <= 2056)%Z -> cload l p = Ok (fun j => m_buf l (p + j)%Z).
Proof. intros H. unfold cload, CCELLS. rewrite !(proj2 (Z.leb_le _ _)) by lia. reflexivity. Qed.
Lemma holds_read l h d k : holds l h -> (6 <= d <= 2042)%Z -> (0 <= k < 12)%Z ->
  m_buf l ((m_wp l - d - 6) mod 2048 + k)%Z = h (d + 6 - k)%Z.
Proof.
  intros (W & H & M) D K. rewrite <- H by lia. set (p := ((m_wp l - d - 6) mod 2048)%Z).
  assert (P : (0 <= p < 2048)%Z) by (apply Z.mod_pos_bound; lia).
  assert (E : ((m_wp l - (d + 6 - k)) mod 2048 = (p + k) mod 2048)%Z) by (unfold p; rewrite Zplus_mod_idemp_l; f_equal; ring).
  rewrite E. clearbody p. destruct (Z_lt_ge_dec (p + k) 2048) as [L|L]; [rewrite Z.mod_small by lia; reflexivity|].
  replace (p + k)%Z with (2048 + (p + k - 2048))%Z at 1 by ring. rewrite M by lia. f_equal.
  replace (p + k)%Z with ((p + k - 2048) + 1 * 2048)%Z at 2 by ring. rewrite Z.mod_add, Z.mod_small by lia. reflexivity.
Qed.
Lemma read_ok tab l e : m_active l = true ->
  comb_read row24 tab l e = Ok (sum_f_R0 (fun k => m_buf l ((m_wp l - comb_dt e - 6) mod 2048 + Z.of_nat k)%Z * tab (24 * comb_se e + Z.of_nat k)%Z) 11).
Proof.
  intros A. unfold comb_read. rewrite A. cbv zeta. change CB with 2048%Z. set (p := ((m_wp l - comb_dt e - 6) mod 2048)%Z).
  assert (P : (0 <= p < 2048)%Z) by (apply Z.mod_pos_bound; lia). clearbody p.
  unfold row24. cbn [obind]. rewrite !cload_in by lia. replace (tload tab (24 * comb_se e)) with (tload tab (24 * comb_se e + 0)) by (f_equal; ring).
  rewrite !tload_row by lia. cbn [obind]. unfold dot4. f_equal. cbn [sum_f_R0].
  repeat match goal with |- context [Z.of_nat ?n] => let z := eval vm_compute in (Z.of_nat n) in change (Z.of_nat n) with z end.
  rewrite <- !Z.add_assoc. cbn [Z.add Pos.add Pos.succ]. ring.
Qed.
Lemma write_ok l h d : m_active l = true -> holds l h ->
  exists l', comb_write got l d = Ok l' /\ holds l' (push d h) /\ m_active l' = true /\
    m_c0 l' = m_c0 l /\ m_c1 l' = m_c1 l /\ m_c2 l' = m_c2 l /\ m_c3 l' = m_c3 l /\ m_d0 l' = m_d0 l /\ m_d1 l' = m_d1 l.
Proof.
  intros A (W & H & M). unfold comb_write, got. rewrite A. cbn [obind]. unfold CCELLS, CB.
  rewrite (proj2 (Z.leb_le 0 _)), (proj2 (Z.ltb_lt _ 2060)) by lia. cbn [andb]. eexists. split; [reflexivity|].
  cbn [m_active m_c0 m_c1 m_c2 m_c3 m_d0 m_d1]. split; [|repeat split; exact A || reflexivity].
  assert (L : Z.land (m_wp l + 1) (2048 - 1) = ((m_wp l + 1) mod 2048)%Z) by (change (2048 - 1)%Z with (Z.ones 11); rewrite Z.land_ones by lia; reflexivity).
  split; [cbn [m_wp]; rewrite L; apply Z.mod_pos_bound; lia|]. cbn [m_wp m_buf]. rewrite L. set (w := m_wp l) in *. clearbody w. split.
  - intros j J. rewrite Zminus_mod_idemp_l. unfold push, cset. destruct (Z.eqb_spec j 1) as [->|N].
    + replace (w + 1 - 1)%Z with w by ring. rewrite (Z.mod_small w) by lia.
      destruct (w <? 12)%Z; rewrite Z.eqb_refl; [|reflexivity]. destruct (w =? w + 2048)%Z; reflexivity.
    + replace (w + 1 - j)%Z with (w - (j - 1))%Z by ring. rewrite <- H by lia.
      pose proof (Z.mod_pos_bound (w - (j - 1)) 2048 ltac:(lia)) as B. pose proof (Z.div_mod (w - (j - 1)) 2048 ltac:(lia)) as DM. set (i := ((w - (j - 1)) mod 2048)%Z) in *. set (q := ((w - (j - 1)) / 2048)%Z) in *. clearbody i q.
      assert (NE : (i =? w)%Z = false) by (apply Z.eqb_neq; lia). assert (NE2 : (i =? w + 2048)%Z = false) by (apply Z.eqb_neq; lia).
      destruct (w <? 12)%Z; rewrite ?NE2, NE; reflexivity.
  - intros i I. unfold cset. destruct (Z.ltb_spec w 12) as [L1|L1].
    + destruct (Z.eqb_spec i w) as [->|N].
      * rewrite (proj2 (Z.eqb_eq (2048 + w) (w + 2048))) by lia. rewrite (proj2 (Z.eqb_neq w (w + 2048))) by lia. reflexivity.
      * rewrite (proj2 (Z.eqb_neq (2048 + i) (w + 2048))), (proj2 (Z.eqb_neq (2048 + i) w)), (proj2 (Z.eqb_neq i (w + 2048))) by lia. apply M, I.
    + rewrite (proj2 (Z.eqb_neq (2048 + i) w)), (proj2 (Z.eqb_neq i w)) by lia. apply M, I.
Qed.

(* ================= C136 ================= *)

(** The delay the coefficients ask for: always inside the buffer, for every note, sample rate and
    resonance; the integer part and the table row together are the requested delay to 1/512 sample, and
    the feedback is at most one in size. *)
Theorem C136_delay : forall t pitch sr reso,
  let '(d, r, dry, wet) := comb_coeffs t pitch sr reso in
  12 <= d <= 2036 /\ Rabs r <= 1 /\ dry + wet = 1 /\ 0 <= dry <= 1 /\
  (12 <= 1 / 440 * pitch * sr - 6 <= 2036 -> d = 1 / 440 * pitch * sr - 6).
Proof.
  intros t pitch sr reso. unfold comb_coeffs. cbv zeta. rewrite !clampR. set (z := 1 / 440 * pitch * sr - 6). clearbody z.
  split; [unfold Rmin, Rmax; destruct (Rle_dec z 12); destruct (Rle_dec _ (2048 - 12)); lra|]. split.
  { assert (B : 0 <= Rmin (Rmax reso 0) 1 <= 1) by (unfold Rmin, Rmax; destruct (Rle_dec reso 0); destruct (Rle_dec _ 1); lra).
    destruct t; cbn [reso_factor]; apply Rabs_le; lra. }
  split; [destruct t; cbn [combmix]; lra|]. split; [destruct t; cbn [combmix]; lra|].
  intros [A B]. unfold Rmin, Rmax. destruct (Rle_dec z 12); destruct (Rle_dec _ (2048 - 12)); lra.
Qed.
Print Assumptions C136_delay.

Theorem C136_delay_resolution : forall d, 12 <= d <= 2036 ->
  let e := comb_e d in (12 <= comb_dt e <= 2036)%Z /\ (0 <= comb_se e <= 255)%Z /\
  Rabs (IZR (comb_dt e) + (255 - IZR (comb_se e)) / 256 - d) <= / 512.
Proof.
  intros d D. cbv zeta. unfold comb_e. rewrite cvt_in by (apply Rabs_le; lra). pose proof (near_err (d * 256)) as E. set (e := ZnearestE (d * 256)) in *. clearbody e.
  apply Rabs_le_inv in E.
  assert (B : (12 * 256 <= e <= 2036 * 256)%Z).
  { split.
    - apply Z.lt_succ_r. apply lt_IZR. unfold Z.succ. rewrite plus_IZR. change (12 * 256)%Z with 3072%Z. lra.
    - apply Z.lt_succ_r. apply lt_IZR. unfold Z.succ. rewrite plus_IZR. change (2036 * 256)%Z with 521216%Z. lra. }
  unfold comb_dt. rewrite (Z.mod_small e (2 ^ 32)) by (cbn; lia). pose proof (se_range e) as S. unfold comb_se in *.
  change (Z.land e 255) with (Z.land e (Z.ones 8)) in *. rewrite Z.land_ones in * by lia. change (2 ^ 8)%Z with 256%Z in *.
  pose proof (Z.div_mod e 256 ltac:(lia)) as DM. set (q := (e / 256)%Z) in *. set (m := (e mod 256)%Z) in *. clearbody q m.
  split; [lia|]. split; [lia|]. rewrite minus_IZR. apply (f_equal IZR) in DM. rewrite plus_IZR, mult_IZR in DM. apply Rabs_le. lra.
Qed.
Print Assumptions C136_delay_resolution.

(** What the filter would do if simd_extract worked and the table row were multiplied by 24 before use:
    one step is one step of the ideal comb, for every input, feedback and mix, every delay from 6 to 2042
    samples and every position of the circular buffer. *)
Theorem C136_step_ideal_partial : forall tab l h x, holds l h -> m_active l = true ->
  let c0 := m_c0 l + m_d0 l in let c1 := m_c1 l + m_d1 l in let e := comb_e c0 in
  (6 <= comb_dt e <= 2042)%Z ->
  let '(h', y) := ideal_comb (fun k => tab (24 * comb_se e + k)%Z) (comb_dt e) c1 (m_c2 l) (m_c3 l) h x in
  exists l', comb_step row24 got tab l x = Ok (l', y) /\ holds l' h' /\ m_active l' = true /\
    m_c0 l' = c0 /\ m_c1 l' = c1 /\ m_c2 l' = m_c2 l /\ m_c3 l' = m_c3 l /\ m_d0 l' = m_d0 l /\ m_d1 l' = m_d1 l.
Proof.
  intros tab l h x HL A c0 c1 e D. unfold ideal_comb. cbv zeta. unfold comb_step. cbv zeta. fold c0 c1 e.
  set (l1 := mk_comb _ _ _ _ _ _ _ _ _). assert (H1 : holds l1 h) by exact HL. assert (A1 : m_active l1 = true) by exact A.
  rewrite (read_ok tab l1 e A1). cbn [obind].
  assert (T : sum_f_R0 (fun k => m_buf l1 ((m_wp l1 - comb_dt e - 6) mod 2048 + Z.of_nat k)%Z * tab (24 * comb_se e + Z.of_nat k)%Z) 11
    = taps (fun k => tab (24 * comb_se e + k)%Z) h (comb_dt e)).
  { unfold taps. apply sum_eq. intros k K. rewrite (holds_read l1 h (comb_dt e) (Z.of_nat k) H1 D) by lia. reflexivity. }
  rewrite T. set (r := taps _ _ _). clearbody r. rewrite (Rmult_comm r c1).
  destruct (write_ok l1 h (softclip arithR (x + c1 * r)) A1 H1) as (l' & E & R). exists l'. rewrite E. cbn [obind]. split; [reflexivity|exact R].
Qed.
Print Assumptions C136_step_ideal_partial.

(** a run of the filter, and of the ideal comb whose delay and feedback glide *)
Fixpoint comb_run (row : Z -> res Z) (xf : R -> res R) (tab : Z -> R) (l : comb) (xs : list R) : res (comb * list R) :=
  match xs with [] => Ok (l, []) | x :: r => obind (comb_step row xf tab l x) (fun '(l', y) => obind (comb_run row xf tab l' r) (fun '(l'', ys) => Ok (l'', y :: ys))) end.
Fixpoint ideal_run (tab : Z -> R) (d dd fb dfb dry wet : R) (h : past) (xs : list R) : list R :=
  match xs with [] => [] | x :: r =>
    let d := d + dd in let fb := fb + dfb in
    let '(h', y) := ideal_comb (fun k => tab (24 * comb_se (comb_e d) + k)%Z) (comb_dt (comb_e d)) fb dry wet h x in
    y :: ideal_run tab d dd fb dfb dry wet h' r end.

(** Whole runs of any length, with the delay gliding inside the range the coefficients allow. *)
Theorem C136_run_ideal_partial : forall tab xs l h, holds l h -> m_active l = true ->
  12 <= m_c0 l <= 2036 -> 12 <= m_c0 l + INR (length xs) * m_d0 l <= 2036 ->
  exists l', comb_run row24 got tab l xs = Ok (l', ideal_run tab (m_c0 l) (m_d0 l) (m_c1 l) (m_d1 l) (m_c2 l) (m_c3 l) h xs) /\
    (exists h', holds l' h').
Proof.
  intros tab. induction xs as [|x xs IH]; intros l h HL A K0 K1; [exists l; split; [reflexivity|exists h; exact HL]|].
  cbn [length] in K1. rewrite S_INR in K1. cbn [comb_run ideal_run].
  assert (C : 12 <= m_c0 l + m_d0 l <= 2036).
  { pose proof (pos_INR (length xs)) as N. set (n := INR (length xs)) in *. clearbody n. nra. }
  destruct (C136_delay_resolution _ C) as (D & _ & _).
  pose proof (C136_step_ideal_partial tab l h x HL A ltac:(lia)) as S. cbv zeta in S.
  destruct (ideal_comb _ _ _ _ _ h x) as [h' y]. destruct S as (l1 & E & HL1 & A1 & B0 & B1 & B2 & B3 & B4 & B5).
  rewrite E. cbn [obind]. destruct (IH l1 h' HL1 A1) as (l2 & E2 & R2).
  - rewrite B0. exact C.
  - rewrite B0, B4. lra.
  - exists l2. rewrite E2, B0, B1, B2, B3, B4, B5. cbn [obind]. split; [reflexivity|exact R2].
Qed.
Print Assumptions C136_run_ideal_partial.

(** Memory safety, with no condition on the coefficients at all (a runaway delay included): from a write
    position inside the ring, no access leaves the buffer or the table, the write position stays in the
    ring, and whatever is fed in only values in [-1,1] are ever stored. *)
Theorem C136_memory_safe_partial : forall tab xs l, (0 <= m_wp l < 2048)%Z -> (forall i, Rabs (m_buf l i) <= 1) ->
  exists l' ys, comb_run row24 got tab l xs = Ok (l', ys) /\ (0 <= m_wp l' < 2048)%Z /\ (forall i, Rabs (m_buf l' i) <= 1) /\ length ys = length xs.
Proof.
  intros tab. induction xs as [|x xs IH]; intros l W B; [exists l, []; repeat split; assumption || lia|].
  cbn [comb_run]. unfold comb_step. cbv zeta. set (l1 := mk_comb _ _ _ _ _ _ _ _ _).
  assert (W1 : (0 <= m_wp l1 < 2048)%Z) by exact W. assert (B1 : forall i, Rabs (m_buf l1 i) <= 1) by exact B.
  assert (exists r, comb_read row24 tab l1 (comb_e (m_c0 l + m_d0 l)) = Ok r) as [r ->].
  { destruct (m_active l1) eqn:A; [eexists; apply read_ok, A|]. unfold comb_read. rewrite A. eexists. reflexivity. }
  cbn [obind]. set (d := softclip arithR _). assert (Bd : Rabs d <= 1) by (apply Rabs_le; destruct C53_softclip as (_ & _ & Q & _); apply Q).
  assert (exists l2, comb_write got l1 d = Ok l2 /\ (0 <= m_wp l2 < 2048)%Z /\ (forall i, Rabs (m_buf l2 i) <= 1)) as (l2 & E & W2 & B2).
  { unfold comb_write, got. destruct (m_active l1); [|exists l1; repeat split; assumption || lia]. cbn [obind]. unfold CCELLS, CB.
    rewrite (proj2 (Z.leb_le 0 _)), (proj2 (Z.ltb_lt _ 2060)) by lia. cbn [andb]. eexists. split; [reflexivity|]. cbn [m_wp m_buf]. split.
    - change (2048 - 1)%Z with (Z.ones 11). rewrite Z.land_ones by lia. apply Z.mod_pos_bound. lia.
    - intros i. unfold cset. destruct (m_wp l1 <? 12)%Z; repeat destruct (_ =? _)%Z; apply B1 || exact Bd. }
  rewrite E. cbn [obind]. destruct (IH l2 W2 B2) as (l3 & ys & E3 & W3 & B3 & L3). rewrite E3. cbn [obind]. eexists l3, _. split; [reflexivity|]. cbn [length]. repeat split; try (apply W3 || apply B3). lia.
Qed.
Print Assumptions C136_memory_safe_partial.

(** A lane that is switched off passes only the dry signal and does not touch its buffer - also in the
    code as shipped. *)
Theorem C136_inactive : forall row xf tab l x, m_active l = false ->
  exists l', comb_step row xf tab l x = Ok (l', m_c2 l * x) /\ m_buf l' = m_buf l /\ m_wp l' = m_wp l.
Proof.
  intros row xf tab l x A. unfold comb_step, comb_read, comb_write. cbn [m_active]. rewrite A. cbn [obind m_c2 m_c3].
  eexists. split; [f_equal; f_equal; ring|split; reflexivity].
Qed.
Print Assumptions C136_inactive.

(** FINDING.  As shipped the filter panics on every quad with a voice in it (simd_extract is todo!()),
    and only on those. *)
Theorem C136_extract_refuted : forall tab ls xs, length ls = length xs ->
  (comb_quad simd_extract_shipped simd_extract_shipped tab ls xs = Panic <-> exists l, In l ls /\ m_active l = true).
Proof.
  intros tab. induction ls as [|l ls IH]; intros [|x xs] L; try discriminate L.
  - cbn. split; [discriminate|intros (l & [] & _)].
  - injection L as L. specialize (IH xs L). unfold comb_quad in *. cbn [combine fold_right]. set (acc := fold_right _ _ _) in *. clearbody acc.
    destruct (m_active l) eqn:A.
    + assert (E : comb_step simd_extract_shipped simd_extract_shipped tab l x = Panic).
      { unfold comb_step, comb_read. cbn [m_active]. rewrite A. reflexivity. }
      rewrite E. cbn [obind]. split; [intros _; exists l; split; [left; reflexivity|exact A]|reflexivity].
    + destruct (C136_inactive simd_extract_shipped simd_extract_shipped tab l x A) as (l' & E & _). rewrite E. cbn [obind].
      split.
      * intros H. destruct IH as [I _]. destruct acc; try discriminate H. destruct (I eq_refl) as (q & Q1 & Q2). exists q. split; [right; exact Q1|exact Q2].
      * intros (q & [<-|Q] & Q2); [congruence|]. rewrite (proj2 IH (ex_intro _ q (conj Q Q2))). reflexivity.
Qed.
Print Assumptions C136_extract_refuted.

(** FINDING.  Even with a working simd_extract: the row is extracted before it is multiplied by 24, so a
    playing lane loads from a misaligned address unless the fraction index happens to be a multiple of
    four, and then reads table cells se..se+11 instead of row se. *)
Theorem C136_row_refuted : forall tab l x, m_active l = true -> (0 <= m_wp l < 2048)%Z ->
  let e := comb_e (m_c0 l + m_d0 l) in
  (comb_step (fun se => Ok se) got tab l x = Panic <-> (comb_se e mod 4 <> 0)%Z) /\
  ((comb_se e mod 4 = 0)%Z -> exists l', comb_step (fun se => Ok se) got tab l x
     = Ok (l', m_c3 l * sum_f_R0 (fun k => m_buf l ((m_wp l - comb_dt e - 6) mod 2048 + Z.of_nat k)%Z * tab (comb_se e + Z.of_nat k)%Z) 11 + m_c2 l * x)).
Proof.
  intros tab l x A W e. unfold comb_step. cbv zeta. fold e. set (l1 := mk_comb _ _ _ _ _ _ _ _ _).
  assert (A1 : m_active l1 = true) by exact A. assert (W1 : (0 <= m_wp l1 < 2048)%Z) by exact W.
  pose proof (se_range e) as B.
  destruct (Z.eq_dec (comb_se e mod 4) 0) as [Z4|Z4].
  - assert (E : comb_read (fun se => Ok se) tab l1 e = Ok (sum_f_R0 (fun k => m_buf l1 ((m_wp l1 - comb_dt e - 6) mod 2048 + Z.of_nat k)%Z * tab (comb_se e + Z.of_nat k)%Z) 11)).
    { unfold comb_read. rewrite A1. cbv zeta. change CB with 2048%Z. set (p := ((m_wp l1 - comb_dt e - 6) mod 2048)%Z).
      assert (P : (0 <= p < 2048)%Z) by (apply Z.mod_pos_bound; lia). clearbody p. cbn [obind]. rewrite !cload_in by lia. unfold tload, SINC_SIZE.
      set (s := comb_se e) in *. clearbody s.
      assert (M4 : ((s + 4) mod 4 = 0)%Z) by (replace (s + 4)%Z with (s + 1 * 4)%Z by ring; rewrite Z.mod_add by lia; exact Z4).
      assert (M8 : ((s + 8) mod 4 = 0)%Z) by (replace (s + 8)%Z with (s + 2 * 4)%Z by ring; rewrite Z.mod_add by lia; exact Z4).
      rewrite Z4, M4, M8. rewrite !(proj2 (Z.leb_le _ _)), !(proj2 (Z.ltb_lt _ _)) by lia. cbn [andb Z.eqb obind]. unfold dot4. f_equal. cbn [sum_f_R0].
      repeat match goal with |- context [Z.of_nat ?n] => let z := eval vm_compute in (Z.of_nat n) in change (Z.of_nat n) with z end.
      rewrite <- !Z.add_assoc. cbn [Z.add Pos.add Pos.succ]. rewrite ?Z.add_0_r. ring. }
    rewrite E. cbn [obind]. change (m_buf l) with (m_buf l1). change (m_wp l) with (m_wp l1). set (r := sum_f_R0 _ _). clearbody r. unfold comb_write, got. rewrite A1. cbn [obind]. unfold CCELLS.
    rewrite (proj2 (Z.leb_le 0 _)), (proj2 (Z.ltb_lt _ 2060)) by lia. cbn [andb obind]. split; [split; [discriminate|intros N; destruct (N Z4)]|]. intros _. eexists. reflexivity.
  - split; [|intros N; destruct (Z4 N)]. split; [intros _; exact Z4|]. intros _. unfold comb_read. rewrite A1. cbv zeta. cbn [obind].
    rewrite cload_in by (pose proof (Z.mod_pos_bound (m_wp l1 - comb_dt e - 6) CB ltac:(unfold CB; lia)); unfold CB in *; lia). cbn [obind]. unfold tload. rewrite (proj2 (Z.eqb_neq _ _) Z4), andb_false_r. reflexivity.
Qed.
Print Assumptions C136_row_refuted.

(** A freshly cleared lane meets the hypotheses, and an impulse through it comes back after the delay. *)
Example C136_ex : let l := mk_comb true 5 (fun _ => 0) 100 (1/2) (1/2) (1/2) (1/64) 0 in
  holds l (fun _ => 0) /\ 12 <= m_c0 l <= 2036 /\ 12 <= m_c0 l + INR 64 * m_d0 l <= 2036 /\ (forall i, Rabs (m_buf l i) <= 1).
Proof.
  cbv zeta. unfold holds. cbn [m_wp m_buf m_c0 m_d0]. repeat split; try lia; try lra; replace (INR 64) with 64 by (rewrite INR_IZR_INZ; reflexivity); try lra.
  intros _. rewrite Rabs_R0. lra.
Qed.
