(* DelayProps.v - C46: the dual delay. *)
From Coq Require Import Reals Lra.
From Verif Require Import Base Util F32 BlockModel BlockProofs BlockProps RampProps ClipProps MathModel ParamModel AdsrModel LfoModel TableProps DelayModel.
Local Open Scope Z_scope.

Lemma landD x : Z.land x (DLEN - 1) = x mod DLEN. Proof. exact (Z.land_ones x 18 ltac:(lia)). Qed.
Lemma foldM_app {A S} (f : S -> A -> res S) l1 l2 s : foldM f (l1 ++ l2) s = obind (foldM f l1 s) (foldM f l2).
Proof. revert s. induction l1 as [|x l IH]; intros s; cbn; [reflexivity|]. destruct (f s x); cbn; auto. Qed.
(* a loop of checked writes to a block of cells *)
Lemma write_loop (idx : Z -> Z) (val : dbuf -> Z -> R) (b : dbuf) (p : Z) (n : nat) : 0 <= p -> p + Z.of_nat n <= DCELLS ->
  (forall k, 0 <= k < Z.of_nat n -> idx k = p + k) ->
  (forall b1 k, 0 <= k < Z.of_nat n -> (forall i, ~ (p <= i < p + Z.of_nat n) -> b1 i = b i) -> val b1 k = val b k) ->
  exists b', foldM (fun b k => bset b (idx k) (val b k)) (map Z.of_nat (seq 0 n)) b = Ok b' /\
    forall i, b' i = if (p <=? i) && (i <? p + Z.of_nat n) then val b (i - p) else b i.
Proof.
  intros P0 PN HI HV.
  enough (G : forall m, (m <= n)%nat -> exists b', foldM (fun b k => bset b (idx k) (val b k)) (map Z.of_nat (seq 0 m)) b = Ok b' /\
    forall i, b' i = if (p <=? i) && (i <? p + Z.of_nat m) then val b (i - p) else b i) by (apply G; lia).
  induction m as [|m IH]; intros M.
  - exists b. split; [reflexivity|]. intros i. destruct ((p <=? i) && (i <? p + Z.of_nat 0)) eqn:E; [lia|reflexivity].
  - destruct IH as (b1 & E1 & E2); [lia|]. rewrite seq_S, map_app, foldM_app, E1. cbn [obind map foldM]. rewrite Nat.add_0_l.
    rewrite HI by lia. unfold bset. replace ((0 <=? p + Z.of_nat m) && (p + Z.of_nat m <? DCELLS)) with true by lia. cbn [obind].
    eexists. split; [reflexivity|]. intros i. cbn beta. rewrite HV; [|lia|].
    + destruct (Z.eqb_spec i (p + Z.of_nat m)) as [->|NE].
      * replace ((p <=? p + Z.of_nat m) && (p + Z.of_nat m <? p + Z.of_nat (S m))) with true by lia. f_equal. lia.
      * rewrite E2. destruct ((p <=? i) && (i <? p + Z.of_nat m)) eqn:A, ((p <=? i) && (i <? p + Z.of_nat (S m))) eqn:B; auto; lia.
    + intros i0 Hi. rewrite E2. destruct ((p <=? i0) && (i0 <? p + Z.of_nat m)) eqn:A; [lia|reflexivity].
Qed.

(* ---------- the buffer holds the last 2^18 samples ---------- *)
(* samples written so far: h t is the sample of time t, t < 0 before the start *)
Definition holds (n : Z) (h : Z -> R) (b : dbuf) : Prop :=
  (forall t, 32 * n - DLEN <= t < 32 * n -> b (t mod DLEN) = h t) /\ (forall j, 0 <= j < 12 -> b (DLEN + j) = b j).
Definition append (h : Z -> R) (n : Z) (w : Z -> R) : Z -> R := fun t => if (32 * n <=? t) && (t <? 32 * n + 32) then w (t - 32 * n) else h t.
Lemma wpos_shape n : 0 <= n -> let w := (32 * n) mod DLEN in 0 <= w <= DLEN - 32 /\ w mod 32 = 0.
Proof.
  intros N w. assert (w = 32 * (n mod 8192)) by (unfold w, DLEN; change 262144 with (32 * 8192); apply Z.mul_mod_distr_l; lia).
  assert (0 <= n mod 8192 < 8192) by (apply Z.mod_pos_bound; lia). unfold DLEN in *. split; [lia|]. rewrite H, Z.mul_comm. apply Z.mod_mul. lia.
Qed.
Lemma write_spec b wpos w : 0 <= wpos <= DLEN - 32 -> exists b1, dd_write b wpos w = Ok b1 /\
  (forall i, 0 <= i < DLEN -> b1 i = if (wpos <=? i) && (i <? wpos + 32) then w (i - wpos) else b i) /\
  (forall j, 0 <= j < 12 -> b1 (DLEN + j) = if wpos =? 0 then w j else b (DLEN + j)).
Proof.
  intros W. unfold dd_write.
  assert (A : exists b0, (if DLEN <=? wpos + 32 then foldM (fun b k => bset b (Z.land (wpos + k) (DLEN - 1)) (w k)) (map Z.of_nat (seq 0 32)) b
      else if (0 <=? wpos) && (wpos + 32 <=? DCELLS) then Ok (fun i => if (wpos <=? i) && (i <? wpos + 32) then w (i - wpos) else b i) else Panic) = Ok b0
      /\ forall i, b0 i = if (wpos <=? i) && (i <? wpos + 32) then w (i - wpos) else b i).
  { destruct (Z.leb_spec DLEN (wpos + 32)).
    - apply (write_loop (fun k => Z.land (wpos + k) (DLEN - 1)) (fun _ k => w k) b wpos 32); unfold DCELLS, FIRN, DLEN in *; try lia; auto.
      intros k K. change (262144 - 1) with (DLEN - 1). rewrite landD. unfold DLEN. apply Z.mod_small. lia.
    - replace ((0 <=? wpos) && (wpos + 32 <=? DCELLS)) with true by (unfold DCELLS, FIRN; lia). eauto. }
  destruct A as (b0 & A0 & A1). destruct (Z.eqb_spec wpos 0) as [->|NZ].
  - destruct (write_loop (fun k => k + DLEN) (fun b k => b k) b0 DLEN 12) as (b1 & B0 & B1); unfold DCELLS, FIRN, DLEN in *; try lia; auto.
    { intros. apply H0. lia. }
    exists b1. split; [etransitivity; [apply (f_equal (fun m => obind m _)); exact A0|exact B0]|]. split.
    + intros i I. rewrite B1. destruct ((262144 <=? i) && (i <? 262144 + Z.of_nat 12)) eqn:E; [lia|]. apply A1.
    + intros j J. rewrite B1. destruct ((262144 <=? 262144 + j) && (262144 + j <? 262144 + Z.of_nat 12)) eqn:E; [|lia].
      rewrite A1. replace (262144 + j - 262144) with j by lia. destruct ((0 <=? j) && (j <? 0 + 32)) eqn:E2; [|lia]. f_equal. lia.
  - exists b0. split; [etransitivity; [apply (f_equal (fun m => obind m _)); exact A0|reflexivity]|]. split; [intros i _; apply A1|].
    intros j J. rewrite A1. destruct ((wpos <=? DLEN + j) && (DLEN + j <? wpos + 32)) eqn:E; [unfold DLEN in *; lia|reflexivity].
Qed.
Lemma write_holds n h b w : 0 <= n -> holds n h b -> exists b1, dd_write b ((32 * n) mod DLEN) w = Ok b1 /\ holds (n + 1) (append h n w) b1.
Proof.
  intros N (H1 & H2). destruct (wpos_shape n N) as [W1 W2]. set (wp := (32 * n) mod DLEN) in *.
  destruct (write_spec b wp w W1) as (b1 & E & B1 & B2). exists b1. split; [exact E|]. split.
  - intros t T. assert (TM : 0 <= t mod DLEN < DLEN) by (apply Z.mod_pos_bound; unfold DLEN; lia). rewrite B1 by exact TM. unfold append.
    assert (DN : 32 * n = DLEN * ((32 * n) / DLEN) + wp) by (apply Z.div_mod; unfold DLEN; lia).
    destruct ((32 * n <=? t) && (t <? 32 * n + 32)) eqn:C.
    + assert (TW : t mod DLEN = wp + (t - 32 * n)). { symmetry. apply Zdiv.Zmod_unique with (q := (32 * n) / DLEN); lia. }
      rewrite TW. replace ((wp <=? wp + (t - 32 * n)) && (wp + (t - 32 * n) <? wp + 32)) with true by lia. f_equal. lia.
    + assert (T2 : 32 * n - DLEN + 32 <= t < 32 * n) by lia.
      destruct ((wp <=? t mod DLEN) && (t mod DLEN <? wp + 32)) eqn:X; [exfalso|apply H1; lia].
      assert (DT := Z.div_mod t DLEN ltac:(unfold DLEN; lia)). set (q1 := t / DLEN) in *. set (q2 := (32 * n) / DLEN) in *. set (r := t mod DLEN) in *. clearbody q1 q2 r wp. unfold DLEN in *. lia.
  - intros j J. rewrite B2 by exact J. rewrite B1 by (unfold DLEN; lia). destruct (Z.eqb_spec wp 0) as [E0|N0].
    + rewrite E0. replace ((0 <=? j) && (j <? 0 + 32)) with true by lia. f_equal. lia.
    + assert (wp >= 32). { assert (Z.modulo wp 32 = 0) by exact W2. clear - W1 N0 H. assert (D := Z.div_mod wp 32 ltac:(lia)). lia. }
      replace ((wp <=? j) && (j <? wp + 32)) with false by lia. apply H2. exact J.
Qed.

(** ** C46 *)
(* Whatever blocks have been written, in whatever number: reading sample k of the next block with delay setting v succeeds and
   is the sum of the 12 consecutive samples ending dt + 1 samples before now, dt = v truncated and kept within 32..2^18-13,
   weighted with row `row` of the interpolation table. *)
Fixpoint write_blocks (ws : list (Z -> R)) (n : Z) (b : dbuf) : res dbuf :=
  match ws with [] => Ok b | w :: r => obind (dd_write b ((32 * n) mod DLEN) w) (write_blocks r (n + 1)) end.
(* the samples of a list of blocks in order; 0 before the first and after the last *)
Definition samples (ws : list (Z -> R)) (t : Z) : R := if t <? 0 then 0%R else match nth_error ws (Z.to_nat (t / 32)) with Some w => w (t mod 32) | None => 0%R end.
Lemma write_blocks_holds ws : forall n h b, 0 <= n -> holds n h b -> exists b', write_blocks ws n b = Ok b' /\
  holds (n + Z.of_nat (length ws)) (fun t => if t <? 32 * n then h t else if t <? 32 * (n + Z.of_nat (length ws)) then samples ws (t - 32 * n) else h t) b'.
Proof.
  induction ws as [|w ws IH]; intros n h b N H.
  - exists b. split; [reflexivity|]. cbn [length]. rewrite Z.add_0_r. destruct H as [H1 H2]. split; [|exact H2]. intros t T. rewrite H1 by lia. destruct (t <? 32 * n); reflexivity.
  - destruct (write_holds n h b w N H) as (b1 & E1 & H1). destruct (IH (n + 1) _ b1 ltac:(lia) H1) as (b' & E2 & (K1 & K2)). exists b'.
    split; [cbn [write_blocks]; rewrite E1; exact E2|]. cbn [length]. replace (n + Z.of_nat (S (length ws))) with (n + 1 + Z.of_nat (length ws)) by lia.
    split; [|exact K2]. intros t T. rewrite K1 by lia. unfold append.
    destruct (Z.ltb_spec t (32 * (n + 1))).
    + destruct (Z.ltb_spec t (32 * n)).
      * destruct ((32 * n <=? t) && (t <? 32 * n + 32)) eqn:C; [lia|reflexivity].
      * replace ((32 * n <=? t) && (t <? 32 * n + 32)) with true by lia. destruct (Z.ltb_spec t (32 * (n + 1 + Z.of_nat (length ws)))); [|lia].
        unfold samples. destruct (Z.ltb_spec (t - 32 * n) 0); [lia|]. rewrite Z.div_small, Z.mod_small by lia. reflexivity.
    + destruct (Z.ltb_spec t (32 * n)); [lia|]. destruct (Z.ltb_spec t (32 * (n + 1 + Z.of_nat (length ws)))); [|lia].
      unfold samples. destruct (Z.ltb_spec (t - 32 * (n + 1)) 0); [lia|]. destruct (Z.ltb_spec (t - 32 * n) 0); [lia|].
      replace (t - 32 * n) with (t - 32 * (n + 1) + 1 * 32) by lia. rewrite Z.div_add, Z.mod_add by lia.
      assert (0 <= (t - 32 * (n + 1)) / 32) by (apply Z.div_pos; lia). replace (Z.to_nat ((t - 32 * (n + 1)) / 32 + 1)) with (S (Z.to_nat ((t - 32 * (n + 1)) / 32))) by lia. reflexivity.
Qed.
Lemma new_holds : holds 0 (samples []) (dd_bl dd_new).
Proof. split; [|reflexivity]. intros t T. cbn. unfold samples. destruct (t <? 0); [reflexivity|]. destruct (Z.to_nat _); reflexivity. Qed.
Lemma dtime_range v : 32 <= dd_dtime v <= DLEN - 13.
Proof. unfold dd_dtime, FIRN, DLEN. lia. Qed.
(* the weighted sum of the 12 samples from time u on, with table row `row` *)
Definition tap12 (tab : Z -> R) (row : Z) (h : Z -> R) (u : Z) : R :=
  fold_right Rplus 0%R (map (fun j => tab (12 * row + j)%Z * h (u + j)%Z)%R [0; 1; 2; 3; 4; 5; 6; 7; 8; 9; 10; 11]).
Definition dd_row (v : R) : Z := Z.max 0 (Z.min 255 (as_i32R (256 * (IZR (dd_dtime v + 1) - v))%R)).
Lemma ring_at (b : dbuf) rp j : (forall j, 0 <= j < 12 -> b (DLEN + j) = b j) -> 0 <= rp < DLEN -> 0 <= j < 12 -> b ((rp + j) mod DLEN) = b (rp + j).
Proof.
  intros H R1 J. destruct (Z.ltb_spec (rp + j) DLEN) as [L|L]; [now rewrite Z.mod_small by lia|].
  replace ((rp + j) mod DLEN) with (rp + j - DLEN) by (apply Z.mod_unique with (q := 1); unfold DLEN in *; lia).
  rewrite <- H by (unfold DLEN in *; lia). f_equal. lia.
Qed.
Lemma read_holds tab n h b k v : 0 <= n -> 0 <= k < 32 -> holds n h b ->
  dd_read tab b ((32 * n) mod DLEN) k v = Ok (tap12 tab (dd_row v) h (32 * n + k - dd_dtime v - 12)).
Proof.
  intros N K (H1 & H2). assert (DT := dtime_range v). destruct (wpos_shape n N) as [W1 W2]. set (wp := (32 * n) mod DLEN) in *.
  unfold dd_read. cbv zeta. unfold dd_rp, dd_sinc. rewrite landD. set (rp := (wp - dd_dtime v + k - FIRN) mod DLEN).
  assert (R1 : 0 <= rp < DLEN) by (apply Z.mod_pos_bound; unfold DLEN; lia).
  assert (ROW : FIRN * limit_range_i (as_i32R (IZR FIRM * (IZR (dd_dtime v + 1) - v))%R) 0 (FIRM - 1) = 12 * dd_row v).
  { unfold limit_range_i, dd_row, FIRN, FIRM. change (256 - 1) with 255. clear. set (q := as_i32R _). clearbody q. lia. }
  rewrite ROW. assert (RR : 0 <= dd_row v <= 255) by (unfold dd_row; lia).
  replace ((0 <=? rp) && (rp + 12 <=? DCELLS) && (0 <=? 12 * dd_row v) && (12 * dd_row v + 12 <=? (FIRM + 1) * FIRN)) with true
    by (unfold DCELLS, FIRM, FIRN, DLEN in *; lia).
  assert (TAP : forall j, 0 <= j < 12 -> b (rp + j) = h (32 * n + k - dd_dtime v - 12 + j)).
  { intros j J. set (u := 32 * n + k - dd_dtime v - 12 + j). assert (U : 32 * n - DLEN <= u < 32 * n) by (unfold u, DLEN in *; lia).
    rewrite <- H1 by exact U.
    assert (UM : u mod DLEN = (rp + j) mod DLEN).
    { unfold u, rp, wp, FIRN. rewrite Zplus_mod_idemp_l. replace ((32 * n) mod DLEN - dd_dtime v + k - 12 + j) with ((32 * n) mod DLEN + (- dd_dtime v + k - 12 + j)) by lia.
      rewrite Zplus_mod_idemp_l. f_equal. lia. }
    rewrite UM. symmetry. apply (ring_at b rp j H2 R1 J). }
  f_equal. unfold v_sum, tap12. cbn [ar_add arithR map fold_right].
  assert (A8 : forall x j, x + 8 + j = x + (8 + j)) by (intros; lia). assert (A4 : forall x j, x + 4 + j = x + (4 + j)) by (intros; lia).
  rewrite !A8, !A4. cbn [Z.add Pos.add Pos.succ Pos.add_carry]. clear - TAP. clearbody rp. rewrite !TAP by lia. rewrite !Z.add_0_r. ring.
Qed.
Theorem C46_read : forall ws tab k v, 0 <= k < 32 -> exists b, write_blocks ws 0 (dd_bl dd_new) = Ok b /\
  dd_read tab b ((32 * Z.of_nat (length ws)) mod DLEN) k v
  = Ok (tap12 tab (dd_row v) (samples ws) (32 * Z.of_nat (length ws) + k - dd_dtime v - 12)).
Proof.
  intros ws tab k v K. destruct (write_blocks_holds ws 0 (samples []) (dd_bl dd_new) ltac:(lia) new_holds) as (b & E & H). exists b. split; [exact E|].
  rewrite Z.add_0_l in H. erewrite read_holds; [|lia|exact K|exact H]. f_equal. assert (DT := dtime_range v). unfold tap12. f_equal.
  apply map_ext_in. intros j J. f_equal. assert (0 <= j < 12) by (cbn in J; lia). clear J. set (u := _ - 12 + j).
  assert (u < 32 * Z.of_nat (length ws)) by (unfold u; lia). rewrite Z.mul_0_r, Z.sub_0_r. destruct (Z.ltb_spec u 0).
  - unfold samples. destruct (Z.ltb_spec u 0); [reflexivity|lia].
  - destruct (Z.ltb_spec u (32 * Z.of_nat (length ws))); [reflexivity|lia].
Qed.
(* The requested delay is honoured to 1/256 of a sample: if the interpolation row r is the window function W shifted by r/256
   (tab(12 r + j) = W(5 - j + r/256), as the table is built), the output is the samples weighted by their distance to a point
   that lies v + 6 samples back, at most 1/256 late, for every delay v between 32 and 2^18 - 13. *)
Theorem C46_delay_accuracy : forall (W : R -> R) tab ws k v b, (forall r j, 0 <= r <= 256 -> 0 <= j < 12 -> tab (12 * r + j) = W (5 - IZR j + IZR r / 256)%R) ->
  0 <= k < 32 -> (32 <= v <= 262131)%R -> write_blocks ws 0 (dd_bl dd_new) = Ok b ->
  let now := 32 * Z.of_nat (length ws) + k in
  exists c u, dd_read tab b ((32 * Z.of_nat (length ws)) mod DLEN) k v
    = Ok (fold_right Rplus 0 (map (fun j => W (c - IZR (u + j)%Z) * samples ws (u + j)%Z) [0; 1; 2; 3; 4; 5; 6; 7; 8; 9; 10; 11]%Z))%R
    /\ (IZR now - (v + 6) - 1 / 256 <= c <= IZR now - (v + 6))%R /\ (IZR u <= c - 5)%R /\ (c - 5 < IZR u + 1)%R.
Proof.
  intros W tab ws k v b HT K V EB now. destruct (C46_read ws tab k v K) as (b' & EB' & E). rewrite EB in EB'. injection EB' as <-.
  destruct (split_real v) as (iv & fr & I0 & F & EV); [lra|].
  assert (I1 : 32 <= iv <= 262131). { split; [assert (31 < iv); [|lia]|]. - apply lt_IZR. lra. - apply le_IZR. lra. }
  assert (DT : dd_dtime v = iv). { unfold dd_dtime, as_i32R. rewrite EV, truncR_pos by (lia || lra). unfold i32_min, i32_max, DLEN, FIRN. lia. }
  assert (F2 : (0 < 1 - fr <= 1)%R) by lra.
  destruct (split_real (256 * (1 - fr))) as (ro & ff & RO & FF & ER); [lra|].
  assert (RO2 : ro <= 256). { apply le_IZR. lra. }
  assert (ROW : dd_row v = Z.min 255 ro). { unfold dd_row, as_i32R. rewrite DT, plus_IZR, EV. replace (256 * (IZR iv + 1 - (IZR iv + fr)))%R with (IZR ro + ff)%R by lra. rewrite truncR_pos by (lia || lra). unfold i32_min, i32_max. lia. }
  set (r := Z.min 255 ro) in *. set (u := now - iv - 12). exists (IZR u + 5 + IZR r / 256)%R, u. split.
  - rewrite E. f_equal. unfold tap12. rewrite DT, ROW. f_equal. apply map_ext_in. intros j J. assert (0 <= j < 12) by (cbn in J; lia).
    rewrite HT by lia. fold now. replace (now - iv - 12 + j) with (u + j) by (unfold u; lia). f_equal. f_equal. rewrite plus_IZR. lra.
  - unfold u. rewrite !minus_IZR, EV. assert (B : (IZR r <= 256 * (1 - fr) <= IZR r + 1)%R).
    { unfold r. destruct (Z.min_spec 255 ro) as [[A ->]|[A ->]]; [assert (ro = 256) by lia; subst ro; lra|lra]. }
    assert (B2 : (0 <= IZR r <= 255)%R) by (split; apply IZR_le; lia).
    lra.
Qed.

(* ---------- one whole block ---------- *)
Lemma fill_writes m p n f : 0 <= n -> writes p n f m (fill m p n f).
Proof.
  intros N. split.
  - intros i I. unfold fill. replace ((p <=? p + i) && (p + i <? p + n)) with true by lia. f_equal. lia.
  - intros a A. unfold fill. destruct ((p <=? a) && (a <? p + n)) eqn:E; [lia|reflexivity].
Qed.
Lemma reads_ok tab n h b t p m : 0 <= n -> holds n h b -> exists m', dd_reads tab b ((32 * n) mod DLEN) t p m = Ok m' /\
  writes p 32 (fun k => tap12 tab (dd_row (t k)) h (32 * n + k - dd_dtime (t k) - 12)) m m'.
Proof.
  intros N H. unfold dd_reads.
  enough (G : forall q, (q <= 32)%nat -> exists m', foldM (fun m k => obind (dd_read tab b ((32 * n) mod DLEN) k (t k)) (fun x => Ok (fill m (p + k) 1 (fun _ => x)))) (map Z.of_nat (seq 0 q)) m = Ok m' /\
    writes p (Z.of_nat q) (fun k => tap12 tab (dd_row (t k)) h (32 * n + k - dd_dtime (t k) - 12)) m m') by (apply (G 32%nat); lia).
  induction q as [|q IH]; intros Q.
  - exists m. split; [reflexivity|]. split; [intros; lia|reflexivity].
  - destruct IH as (m1 & E & W1 & W2); [lia|]. rewrite seq_S, map_app, foldM_app, E. cbn [obind map foldM]. rewrite Nat.add_0_l.
    rewrite (read_holds tab n h b) by (assumption || lia). cbn [obind]. eexists. split; [reflexivity|].
    destruct (fill_writes m1 (p + Z.of_nat q) 1 (fun _ => tap12 tab (dd_row (t (Z.of_nat q))) h (32 * n + Z.of_nat q - dd_dtime (t (Z.of_nat q)) - 12)) ltac:(lia)) as [F1 F2].
    split.
    + intros i I. destruct (Z.eq_dec i (Z.of_nat q)) as [->|NE]; [assert (F0 := F1 0 ltac:(lia)); rewrite Z.add_0_r in F0; exact F0|]. rewrite F2 by lia. apply W1. lia.
    + intros a A. rewrite F2 by lia. apply W2. lia.
Qed.

(* the filters: two functions of the two 32-sample channels, acting in place on the scratch blocks and nowhere else *)
Definition filters (filt : mem R -> mem R) (FL FR : (Z -> R) -> (Z -> R) -> Z -> R) : Prop := forall m xl xr,
  (forall k, 0 <= k < 32 -> m (SCL + k) = xl k) -> (forall k, 0 <= k < 32 -> m (SCR + k) = xr k) ->
  writes2 SCL SCR 32 (FL xl xr) (FR xl xr) m (filt m).
(* after n blocks the effect has stored the signals hl and hr; the ramps have the block sizes they were created with *)
Definition dd_state (n : Z) (hl hr : Z -> R) (d : ddelay) : Prop :=
  holds n hl (dd_bl d) /\ holds n hr (dd_br d) /\ dd_wpos d = (32 * n) mod DLEN
  /\ ps_bs4_inv (dd_fb d) = (4 / 32)%R /\ ps_bs4_inv (dd_pan d) = (4 / 32)%R /\ ps_bs4_inv (dd_mix d) = (4 / 32)%R /\ ps_bs4_inv (dd_width d) = (4 / 64)%R.
(* gain of a ramp at sample k, as the block operations apply it (see C41: the ramp restarts every 8 samples) *)
Definition gain (s : lipolps R) (bs : R) (k : Z) : R := ramp (ps_current s) (ps_target s) bs (k mod 8).
Lemma use_gain s bs : bs <> 0%R -> ps_bs4_inv s = (4 / bs)%R -> all_blocks_use arithR s (gain s bs).
Proof. intros B E. eapply blocks_use_ext; [|apply blocks_use_gain8]. intros i I. cbn beta. now apply gain8_exact. Qed.
Lemma holds_ext n h h' b : (forall t, 32 * n - DLEN <= t < 32 * n -> h t = h' t) -> holds n h b -> holds n h' b.
Proof. intros E (H1 & H2). split; [|exact H2]. intros t T. rewrite H1, E by exact T. reflexivity. Qed.
Lemma append_ext h n w w' t : (forall k, 0 <= k < 32 -> w k = w' k) -> append h n w t = append h n w' t.
Proof. intros E. unfold append. destruct ((32 * n <=? t) && (t <? 32 * n + 32)) eqn:C; [apply E; lia|reflexivity]. Qed.
Lemma trix32 (s : lipolps R) m l r dl dr : ps_bs4_inv s = (4 / 32)%R -> four_apart l r dl dr 8 -> 
  writes2 dl dr 32 (fun i => pan_l (ramp (ps_current s) (ps_target s) 32 i) (m (l + i)) (m (r + i)))
   (fun i => pan_r (ramp (ps_current s) (ps_target s) 32 i) (m (l + i)) (m (r + i))) m (ps_trixpan_blocks arithR s m l r dl dr 8).
Proof.
  intros E A. assert (W := C42_trixpan_blocks s 32 m l r dl dr 8 ltac:(lia) ltac:(lia) A).
  replace (ps_set_blocksize arithR s 32) with s in W; [exact W|]. destruct s as [a b c d e]. unfold ps_set_blocksize. cbn [ps_target ps_current ps_coef ps_coef_m1 ps_bs4_inv] in *.
  f_equal. rewrite E. unfold lit. cbn [ar_div ar_lit arithR]. field.
Qed.
Ltac ap := unfold apart, clear_of, SCL, SCR, WETL, WETR, MID, SIDE, INL, INR_; match goal with K : 0 <= ?k < _ |- _ => clear - K; lia | _ => clear; lia end.
Ltac il := match goal with K : 0 <= ?k < _ |- _ => clear - K; lia | _ => clear; lia end.
Theorem C89_block : forall tab filt FL FR tl tr d m n hl hr, 0 <= n -> filters filt FL FR -> dd_state n hl hr d ->
  let inl k := m (INL + k) in let inr k := m (INR_ + k) in
  (* the delayed signals, clipped and filtered *)
  let xl k := softclip arithR (tap12 tab (dd_row (tl k)) hl (32 * n + k - dd_dtime (tl k) - 12)) in
  let xr k := softclip arithR (tap12 tab (dd_row (tr k)) hr (32 * n + k - dd_dtime (tr k) - 12)) in
  let yl := FL xl xr in let yr := FR xl xr in
  let pan k := ramp (ps_current (dd_pan d)) (ps_target (dd_pan d)) 32 k in
  let fb k := gain (dd_fb d) 32 k in let mix k := gain (dd_mix d) 32 k in let width k := gain (dd_width d) 64 k in
  exists d' m', dd_process tab filt tl tr d m = Ok (d', m')
  (* what is stored: the panned input plus feedback from the own and from the other channel *)
  /\ dd_state (n + 1) (append hl n (fun k => pan_l (pan k) (inl k) (inr k) + fb k * yl k + fb k * yr k)%R)
                      (append hr n (fun k => pan_r (pan k) (inl k) (inr k) + fb k * yr k + fb k * yl k)%R) d'
  /\ dd_fb d' = dd_fb d /\ dd_cf d' = dd_cf d /\ dd_pan d' = dd_pan d /\ dd_mix d' = dd_mix d /\ dd_width d' = dd_width d
  (* what comes out: the input faded into the delayed signal with its side part scaled *)
  /\ forall k, 0 <= k < 32 ->
     let mid := ((yl k + yr k) / 2)%R in let side := (width k * ((yl k - yr k) / 2))%R in
     m' (INL + k) = ((1 - mix k) * inl k + mix k * (mid + side))%R /\ m' (INR_ + k) = ((1 - mix k) * inr k + mix k * (mid - side))%R.
Proof.
  intros tab filt FL FR tl tr d m n hl hr N HF (HL & HR & HW & B1 & B2 & B3 & B4) inl inr xl xr yl yr pan fb mix width.
  unfold dd_process. cbv zeta. rewrite HW.
  set (z1 := fill m SCL 32 _). set (z2 := fill z1 SCR 32 _). set (z3 := fill z2 WETL 32 _). set (m0 := fill z3 WETR 32 _).
  destruct (fill_writes m SCL 32 (fun _ => 0%R) ltac:(il)) as [_ Z1]. fold z1 in Z1.
  destruct (fill_writes z1 SCR 32 (fun _ => 0%R) ltac:(il)) as [_ Z2]. fold z2 in Z2.
  destruct (fill_writes z2 WETL 32 (fun _ => 0%R) ltac:(il)) as [_ Z3]. fold z3 in Z3.
  destruct (fill_writes z3 WETR 32 (fun _ => 0%R) ltac:(il)) as [_ Z4]. fold m0 in Z4. clearbody z1 z2 z3 m0.
  destruct (reads_ok tab n hl (dd_bl d) tl SCL m0 N HL) as (m1 & E1 & R1 & R1o). rewrite E1. cbn [obind].
  destruct (reads_ok tab n hr (dd_br d) tr SCR m1 N HR) as (m2 & E2 & R2 & R2o). rewrite E2. cbn [obind].
  destruct (C53_softclip_block R arithR m2 SCL 8 ltac:(il) eq_refl) as [S1 S1o]. set (m3 := softclip_block arithR m2 SCL 8) in *. clearbody m3.
  destruct (C53_softclip_block R arithR m3 SCR 8 ltac:(il) eq_refl) as [S2 S2o]. set (m4 := softclip_block arithR m3 SCR 8) in *. clearbody m4.
  assert (P1 : forall k, 0 <= k < 32 -> m4 (SCL + k) = xl k).
  { intros k K. rewrite S2o by ap. rewrite S1 by il. rewrite R2o by ap. rewrite R1 by il. reflexivity. }
  assert (P2 : forall k, 0 <= k < 32 -> m4 (SCR + k) = xr k).
  { intros k K. rewrite S2 by il. rewrite S1o by ap. rewrite R2 by il. reflexivity. }
  destruct (HF m4 xl xr P1 P2) as (F1 & F2 & Fo). set (m5 := filt m4) in *. clearbody m5. fold yl in F1. fold yr in F2.
  assert (I5 : forall k, 0 <= k < 64 -> m5 (INL + k) = m (INL + k)).
  { intros k K. rewrite Fo, S2o, S1o, R2o, R1o, Z4, Z3, Z2, Z1 by ap. reflexivity. }
  assert (FA : four_apart INL INR_ WETL WETR 8) by (unfold four_apart, apart, INL, INR_, WETL, WETR; lia).
  destruct (trix32 (dd_pan d) m5 INL INR_ WETL WETR B2 FA) as (T1 & T2 & To). set (m6 := ps_trixpan_blocks arithR (dd_pan d) m5 INL INR_ WETL WETR 8) in *. clearbody m6.
  assert (GF : all_blocks_use arithR (dd_fb d) fb) by (apply use_gain; [lra|exact B1]).
  assert (GM : all_blocks_use arithR (dd_mix d) mix) by (apply use_gain; [lra|exact B3]).
  assert (GW : all_blocks_use arithR (dd_width d) width) by (apply use_gain; [lra|exact B4]).
  destruct (GF m6 8 ltac:(il) eq_refl) as (_ & _ & _ & _ & _ & _ & _ & _ & _ & M1 & _).
  destruct (M1 SCL SCR WETL WETR ltac:(ap) ltac:(ap) ltac:(ap) ltac:(ap) ltac:(ap)) as [_ (A1 & A2 & Ao)]. clear M1.
  set (m7 := ps_mac_2_blocks_to arithR (dd_fb d) m6 SCL SCR WETL WETR 8) in *. clearbody m7.
  destruct (GF m7 8 ltac:(il) eq_refl) as (_ & _ & _ & _ & _ & _ & _ & _ & _ & M2 & _).
  destruct (M2 SCL SCR WETR WETL ltac:(ap) ltac:(ap) ltac:(ap) ltac:(ap) ltac:(ap)) as [_ (A3 & A4 & Ao2)]. clear M2.
  set (m8 := ps_mac_2_blocks_to arithR (dd_fb d) m7 SCL SCR WETR WETL 8) in *. clearbody m8. cbn [ar_add ar_mul arithR] in A1, A2, A3, A4.
  change (4 * 8) with 32 in *.
  (* the scratch blocks from here on *)
  assert (Y8 : forall k, 0 <= k < 32 -> m8 (SCL + k) = yl k /\ m8 (SCR + k) = yr k).
  { intros k K. rewrite !Ao2, !Ao, !To by ap. now rewrite F1, F2 by il. }
  assert (I8 : forall k, 0 <= k < 64 -> m8 (INL + k) = m (INL + k)).
  { intros k K. rewrite Ao2, Ao, To by ap. now apply I5. }
  assert (W8 : forall k, 0 <= k < 32 -> m8 (WETL + k) = (pan_l (pan k) (inl k) (inr k) + fb k * yl k + fb k * yr k)%R
     /\ m8 (WETR + k) = (pan_r (pan k) (inl k) (inr k) + fb k * yr k + fb k * yl k)%R).
  { intros k K. rewrite A4, A3, A1, A2 by il. rewrite !Ao by ap. rewrite T1, T2 by il. rewrite !To by ap. rewrite F1, F2 by il.
    rewrite (I5 k) by il. replace (m5 (INR_ + k)) with (m (INR_ + k)) by (replace (INR_ + k) with (INL + (32 + k)) by ap; symmetry; apply I5; il). unfold pan, inl, inr. split; ring. }
  destruct (write_holds n hl (dd_bl d) (fun k => m8 (WETL + k)) N HL) as (bl & EL & KL). rewrite EL. cbn [obind].
  destruct (write_holds n hr (dd_br d) (fun k => m8 (WETR + k)) N HR) as (br & ER & KR). rewrite ER. cbn [obind].
  set (z5 := fill m8 MID 32 _). set (m9 := fill z5 SIDE 32 _).
  destruct (fill_writes m8 MID 32 (fun _ => 0%R) ltac:(il)) as [_ Z5]. fold z5 in Z5.
  destruct (fill_writes z5 SIDE 32 (fun _ => 0%R) ltac:(il)) as [_ Z6]. fold m9 in Z6. clearbody z5 m9.
  pose proof (encode_gen arithR m9 SCL SCR MID SIDE 8 ltac:(il)) as G1. cbv zeta in G1. change (4 * cdiv 8 4) with 8 in G1.
  destruct (G1 ltac:(ap) ltac:(ap) ltac:(ap) ltac:(ap) ltac:(ap)) as (N1 & N2 & No). clear G1. set (m10 := encode_mid_side arithR m9 SCL SCR MID SIDE 8) in *. clearbody m10.
  destruct (GW m10 8 ltac:(il) eq_refl) as (_ & MU & _). destruct (MU SIDE) as [U1 Uo]. clear MU. set (m11 := ps_multiply_block arithR (dd_width d) m10 SIDE 8) in *. clearbody m11.
  pose proof (decode_gen arithR m11 MID SIDE SCL SCR 8 ltac:(il)) as G2. cbv zeta in G2. change (4 * cdiv 8 4) with 8 in G2.
  destruct (G2 ltac:(ap) ltac:(ap) ltac:(ap) ltac:(ap) ltac:(ap)) as (D1 & D2 & Do). clear G2. set (m12 := decode_mid_side arithR m11 MID SIDE SCL SCR 8) in *. clearbody m12.
  destruct (GM m12 8 ltac:(il) eq_refl) as (_ & _ & _ & _ & _ & _ & _ & _ & _ & _ & FD).
  destruct (FD INL SCL INR_ SCR INL INR_ ltac:(ap) ltac:(ap) ltac:(ap) ltac:(ap) ltac:(ap) ltac:(ap) ltac:(ap) ltac:(ap) ltac:(ap)) as (O1 & O2 & _). clear FD.
  set (m13 := ps_fade_2_blocks_to arithR (dd_mix d) m12 INL SCL INR_ SCR INL INR_ 8) in *. clearbody m13. cbn [ar_add ar_mul ar_sub ar_lit arithR] in *. change (4 * 8) with 32 in *.
  do 2 eexists. split; [reflexivity|]. cbn [dd_fb dd_cf dd_pan dd_mix dd_width dd_bl dd_br dd_wpos]. split; [|do 5 (split; [reflexivity|])].
  - split; [|split; [|split; [|cbn [dd_fb dd_pan dd_mix dd_width]; auto]]].
    + eapply holds_ext; [|exact KL]. intros t _. apply append_ext. intros k K. apply W8. exact K.
    + eapply holds_ext; [|exact KR]. intros t _. apply append_ext. intros k K. apply W8. exact K.
    + cbn [dd_wpos]. unfold dd_advance. rewrite landD, Zplus_mod_idemp_l. f_equal. lia.
  - intros k K. assert (YL : m12 (SCL + k) = ((yl k + yr k) / 2 + width k * ((yl k - yr k) / 2))%R /\ m12 (SCR + k) = ((yl k + yr k) / 2 - width k * ((yl k - yr k) / 2))%R).
    { rewrite D1, D2 by il. rewrite !Uo by ap. rewrite U1, N1, N2 by il. rewrite !Z6, !Z5 by ap. destruct (Y8 k K) as [-> ->]. unfold width. split; lra. }
    destruct YL as [Y1 Y2]. cbv zeta. rewrite O1, O2, Y1, Y2 by il. rewrite !Do, !Uo, !No, !Z6, !Z5 by ap.
    rewrite (I8 k) by il. replace (m8 (INR_ + k)) with (m (INR_ + k)) by (replace (INR_ + k) with (INL + (32 + k)) by ap; symmetry; apply I8; il). unfold mix, inl, inr. split; lra.
Qed.
Print Assumptions C89_block.

(* Any number of blocks with any inputs, delay times, filters and ramp settings: no access outside a buffer, no panic. A ramp
   setting only changes targets and current values (set_target_smoothed, instantize). *)
Record dd_block := { bk_tab : Z -> R; bk_filt : mem R -> mem R; bk_tl : Z -> R; bk_tr : Z -> R; bk_mem : mem R; bk_set : lipolps R -> lipolps R }.
Definition dd_set (f : lipolps R -> lipolps R) (d : ddelay) : ddelay :=
  {| dd_fb := f (dd_fb d); dd_cf := f (dd_cf d); dd_pan := f (dd_pan d); dd_mix := f (dd_mix d); dd_width := f (dd_width d); dd_bl := dd_bl d; dd_br := dd_br d; dd_wpos := dd_wpos d |}.
Definition block_ok (b : dd_block) : Prop := (exists FL FR, filters (bk_filt b) FL FR) /\ forall s, ps_bs4_inv (bk_set b s) = ps_bs4_inv s.
Definition dd_run (bs : list dd_block) (d : ddelay) : res ddelay :=
  foldM (fun d b => obind (dd_process (bk_tab b) (bk_filt b) (bk_tl b) (bk_tr b) (dd_set (bk_set b) d) (bk_mem b)) (fun '(d', _) => Ok d')) bs d.
Lemma new_state : dd_state 0 (samples []) (samples []) dd_new.
Proof. split; [exact new_holds|]. split; [exact new_holds|]. split; [reflexivity|]. cbn. unfold lit. cbn. repeat split; lra. Qed.
Theorem C46_in_bounds : forall bs, (forall b, In b bs -> block_ok b) -> exists d, dd_run bs dd_new = Ok d.
Proof.
  intros bs H. enough (G : forall n hl hr d, 0 <= n -> dd_state n hl hr d -> exists d', dd_run bs d = Ok d') by (exact (G 0 _ _ _ ltac:(lia) new_state)).
  induction bs as [|b bs IH]; intros n hl hr d N ST; [exists d; reflexivity|]. unfold dd_run. cbn [foldM].
  destruct (H b (or_introl eq_refl)) as ((FL & FR & F) & K).
  assert (ST2 : dd_state n hl hr (dd_set (bk_set b) d)).
  { destruct ST as (S1 & S2 & S3 & S4 & S5 & S6 & S7). unfold dd_state, dd_set. cbn [dd_fb dd_pan dd_mix dd_width dd_bl dd_br dd_wpos]. rewrite !K. auto 10. }
  destruct (C89_block (bk_tab b) (bk_filt b) FL FR (bk_tl b) (bk_tr b) _ (bk_mem b) n hl hr N F ST2) as (d' & m' & E & ST3 & _).
  rewrite E. cbn [obind]. eapply (IH ltac:(intros; apply H; now right) (n + 1)); [lia|exact ST3].
Qed.
Print Assumptions C46_read.
Print Assumptions C46_delay_accuracy.
Print Assumptions C46_in_bounds.
(* non-vacuity: identity filters and the real ramp update are allowed; a read really returns an old sample *)
Example C46_instance : block_ok {| bk_tab := fun _ => 0%R; bk_filt := fun m => m; bk_tl := fun _ => 100%R; bk_tr := fun k => IZR k; bk_mem := fun _ => 1%R;
   bk_set := fun s => ps_set_target_smoothed arithR s 1%R |}
  /\ tap12 (fun i => if i =? 12 * 256 + 5 then 1%R else 0%R) 256 (samples (repeat (fun k => IZR k) 10)) (320 + 7 - 100 - 12) = 28%R.
Proof.
  split.
  - split; [|reflexivity]. exists (fun xl _ => xl), (fun _ xr => xr). intros m xl xr H1 H2. cbn. split; [exact H1|split; [exact H2|reflexivity]].
  - unfold tap12. cbn [map fold_right]. assert (S5 : samples (repeat (fun k => IZR k) 10) (320 + 7 - 100 - 12 + 5) = 28%R) by reflexivity. rewrite S5. cbn [Z.eqb Z.mul Pos.mul Z.add Pos.add Pos.succ Pos.eqb]. lra.
Qed.

(** ** C89 *)
(* the crossfeed setting has no effect whatsoever: the other channel is fed with the feedback gain *)
Theorem C89_crossfeed_ignored_refuted : forall tab filt tl tr d m cf,
  dd_process tab filt tl tr {| dd_fb := dd_fb d; dd_cf := cf; dd_pan := dd_pan d; dd_mix := dd_mix d; dd_width := dd_width d; dd_bl := dd_bl d; dd_br := dd_br d; dd_wpos := dd_wpos d |} m
  = obind (dd_process tab filt tl tr d m) (fun '(d', m') =>
     Ok ({| dd_fb := dd_fb d'; dd_cf := cf; dd_pan := dd_pan d'; dd_mix := dd_mix d'; dd_width := dd_width d'; dd_bl := dd_bl d'; dd_br := dd_br d'; dd_wpos := dd_wpos d' |}, m')).
Proof.
  intros. unfold dd_process. cbn [dd_fb dd_cf dd_pan dd_mix dd_width dd_bl dd_br dd_wpos]. cbv zeta.
  destruct (dd_reads tab (dd_bl d) (dd_wpos d) tl SCL _); cbn [obind]; [|reflexivity..].
  destruct (dd_reads tab (dd_br d) (dd_wpos d) tr SCR _); cbn [obind]; [|reflexivity..].
  destruct (dd_write (dd_bl d) _ _); cbn [obind]; [|reflexivity..]. destruct (dd_write (dd_br d) _ _); reflexivity.
Qed.
Print Assumptions C89_crossfeed_ignored_refuted.
(* fully dry (mix settled at 0): the block comes out as it went in *)
Theorem C89_dry : forall tab filt FL FR tl tr d m n hl hr, 0 <= n -> filters filt FL FR -> dd_state n hl hr d ->
  ps_current (dd_mix d) = 0%R -> ps_target (dd_mix d) = 0%R ->
  exists d' m', dd_process tab filt tl tr d m = Ok (d', m') /\ forall k, 0 <= k < 32 -> m' (INL + k) = m (INL + k) /\ m' (INR_ + k) = m (INR_ + k).
Proof.
  intros tab filt FL FR tl tr d m n hl hr N F ST C T. destruct (C89_block tab filt FL FR tl tr d m n hl hr N F ST) as (d' & m' & E & _ & _ & _ & _ & _ & _ & O).
  exists d', m'. split; [exact E|]. intros k K. destruct (O k K) as [-> ->]. unfold gain, ramp. rewrite C, T. split; lra.
Qed.
Print Assumptions C89_dry.
(* fully wet with settled mix 1, width 1 (0 dB): the filtered delayed signal of each channel comes out on that channel *)
Theorem C89_wet : forall tab filt FL FR tl tr d m n hl hr, 0 <= n -> filters filt FL FR -> dd_state n hl hr d ->
  ps_current (dd_mix d) = 1%R -> ps_target (dd_mix d) = 1%R -> ps_current (dd_width d) = 1%R -> ps_target (dd_width d) = 1%R ->
  let xl k := softclip arithR (tap12 tab (dd_row (tl k)) hl (32 * n + k - dd_dtime (tl k) - 12)) in
  let xr k := softclip arithR (tap12 tab (dd_row (tr k)) hr (32 * n + k - dd_dtime (tr k) - 12)) in
  exists d' m', dd_process tab filt tl tr d m = Ok (d', m') /\ forall k, 0 <= k < 32 -> m' (INL + k) = FL xl xr k /\ m' (INR_ + k) = FR xl xr k.
Proof.
  intros tab filt FL FR tl tr d m n hl hr N F ST C T CW TW xl xr. destruct (C89_block tab filt FL FR tl tr d m n hl hr N F ST) as (d' & m' & E & _ & _ & _ & _ & _ & _ & O).
  exists d', m'. split; [exact E|]. intros k K. destruct (O k K) as [-> ->]. unfold gain, ramp. rewrite C, T, CW, TW. fold xl xr. split; lra.
Qed.
Print Assumptions C89_wet.
(* the modulation of the delay time: the phase stays within (-1/2, 1/2] while the rate is at most 1, and the modulation within
   100 times the depth increment *)
Theorem C89_modulation : forall inc rates s, (0 <= inc)%R -> (forall r, In r rates -> 0 <= r <= 1)%R -> (-1/2 < dl_phase s <= 1/2)%R -> (Rabs (dl_val s) <= 100 * inc)%R ->
  let s' := fold_left (fun s r => dd_lfo s r inc) rates s in (-1/2 < dl_phase s' <= 1/2)%R /\ (Rabs (dl_val s') <= 100 * inc)%R.
Proof.
  intros inc rates. induction rates as [|r rates IH]; intros s I HR P V; [split; assumption|]. cbn [fold_left].
  apply IH; [exact I|intros; apply HR; now right| |].
  - assert (HR0 := HR r (or_introl eq_refl)). unfold dd_lfo. destruct (Rlt_dec (1 / 2) (dl_phase s + r)); cbn; lra.
  - unfold dd_lfo. set (pd := if Rlt_dec _ _ then _ else _). destruct pd as [p dir]. cbn [dl_val]. revert V. unfold Rabs. destruct dir; repeat destruct (Rcase_abs _); lra.
Qed.
Print Assumptions C89_modulation.
Example C89_instance : dd_state 0 (samples []) (samples []) dd_new /\ filters (fun m => m) (fun xl _ => xl) (fun _ xr => xr)
  /\ (-1/2 < dl_phase (dd_lfo {| dl_phase := 2/5; dl_val := 3; dl_dir := true |} (1/5) 1) <= 1/2)%R.
Proof.
  split; [exact new_state|]. split; [intros m xl xr H1 H2; split; [exact H1|split; [exact H2|reflexivity]]|].
  unfold dd_lfo. cbn [dl_phase]. destruct (Rlt_dec (1 / 2) (2 / 5 + 1 / 5)); cbn; lra.
Qed.
