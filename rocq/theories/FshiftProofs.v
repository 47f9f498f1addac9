(* FshiftProofs.v - lemmas for C213-C218: what the frequency shifter computes, block after block. *)
From Coq Require Import Reals Lra Psatz Lia.
From Coquelicot Require Rcomplements.
From Flocq Require Import Core.Core.
From Verif Require Import Base Util BlockModel RampProps LagModel LagProps MathModel ParamModel LfoModel TableProps UnitModel DelayModel DelayProps QfModel HalfModel HalfProps HalfProps2 ChorusModel ChorusProps FastProps FlangerProps OscProps RotaryModel RotaryProps FshiftModel.
Local Open Scope R_scope.

(** ** specification *)
(* a quantity that changes at every sample by w: its value at sample t (the first change comes before sample 0) *)
Fixpoint ang (f0 : R) (w : nat -> R) (t : nat) : R := match t with O => f0 + w O | Datatypes.S t' => ang f0 w t' + w t end.
Definition pang (f0 : R) (w : nat -> R) (t : nat) : R := match t with O => f0 | Datatypes.S t' => ang f0 w t' end.
(* the smoothed delay time: 0.996 of the previous value plus 0.0001 of the target *)
Fixpoint lagv (v0 : R) (T : nat -> R) (t : nat) : R := match t with O => v0 * (996 / 1000) + T O * (1 / 10000) | Datatypes.S t' => lagv v0 T t' * (996 / 1000) + T t * (1 / 10000) end.
Definition plag (v0 : R) (T : nat -> R) (t : nat) : R := match t with O => v0 | Datatypes.S t' => lagv v0 T t' end.
(* the value of a sequence for the block before block n *)
Definition prev (g0 : R) (G : nat -> R) (n : nat) : R := match n with O => g0 | Datatypes.S m => G m end.
(* block of a sample *)
Definition per (W : nat -> R) (t : nat) : R := W (t / 32)%nat.
(* the line h heard at time t with delay v: twelve samples and one row of the table *)
Definition fs_row (v : R) : Z := limit_range_i (256 * as_i32R (IZR (fs_dtime v + 1) - v)) 0 255.
Definition fread (tab : Z -> R) (h : Z -> R) (t : Z) (v : R) : R := rtap tab (12 * fs_row v) h (t - fs_dtime v).
(* the waveshaper *)
Definition shaped (ws : Z -> R) (x : R) : R := match lookup_waveshape ws x with Ok y => y | _ => 0 end.
(* products of the delayed signal with the first oscillator *)
Definition psin (x a : nat -> R) (t : nat) : R := x t * sin (a t).
Definition pcos (x a : nat -> R) (t : nat) : R := x t * - cos (a t).
(* the wet signal of one channel: x the delayed signal, a and b the angles of its two oscillators *)
Definition wetf (A B : list R) (x a b : nat -> R) (t : nat) : R :=
  2 * (lowpass A B (psin x a) t * sin (b t) + lowpass A B (pcos x a) t * - cos (b t)).
(* the mix after the updates of n blocks *)
Fixpoint mixat (m0 : lipolps R) (M : nat -> R) (n : nat) : lipolps R := match n with O => m0 | Datatypes.S m => ps_set_target_smoothed arithR (mixat m0 M m) (M m) end.
(* the feedback gain of sample t *)
Definition fbv (g0 : R) (G : nat -> R) (t : nat) : R := glide (prev g0 G (t / 32)) (G (t / 32)%nat) (Datatypes.S (t mod 32)).

(** ** small lemmas *)
Lemma ang_pang f0 w t : ang f0 w t = pang f0 w t + w t.
Proof. destruct t; reflexivity. Qed.
Lemma lagv_plag v0 T t : lagv v0 T t = plag v0 T t * (996 / 1000) + T t * (1 / 10000).
Proof. destruct t; reflexivity. Qed.
Lemma per_block W n j : (j < 32)%nat -> per W (32 * n + j) = W n.
Proof. intros J. unfold per. f_equal. symmetry. apply (Nat.div_unique _ _ _ j); lia. Qed.
Lemma ang_block f0 W n : forall j, (j < 32)%nat -> ang f0 (per W) (32 * n + j) = pang f0 (per W) (32 * n) + INR (Datatypes.S j) * W n.
Proof.
  induction j as [|j IH]; intros J; rewrite ang_pang.
  - rewrite per_block by lia. rewrite Nat.add_0_r. cbn [INR]. ring.
  - rewrite per_block by lia. rewrite Nat.add_succ_r. cbn [pang]. rewrite IH by lia. rewrite (S_INR (Datatypes.S j)). ring.
Qed.
Lemma pang_block f0 W n : pang f0 (per W) (32 * (n + 1)) = pang f0 (per W) (32 * n) + INR 32 * W n.
Proof. replace (32 * (n + 1))%nat with (Datatypes.S (32 * n + 31)) by lia. cbn [pang]. apply ang_block. lia. Qed.
Lemma pang_block_next f0 W n : pang f0 (per W) (32 * (n + 1)) = ang f0 (per W) (32 * n + 31).
Proof. replace (32 * (n + 1))%nat with (Datatypes.S (32 * n + 31)) by lia. reflexivity. Qed.
Lemma lag_block v0 T n l : l_lp l = 1 / 10000 -> l_lpinv l = 996 / 1000 -> l_target l = T n -> l_v l = plag v0 (per T) (32 * n) ->
  forall j, (j < 32)%nat -> let x := Nat.iter (Datatypes.S j) lag_process l in l_v x = lagv v0 (per T) (32 * n + j) /\ l_lp x = 1 / 10000 /\ l_lpinv x = 996 / 1000 /\ l_target x = T n /\ l_first x = l_first l.
Proof.
  intros A B C D. induction j as [|j IH]; intros J; cbv zeta.
  - change (Nat.iter 1 lag_process l) with (lag_process l). unfold lag_process. cbn [l_v l_lp l_lpinv l_target l_first]. rewrite lagv_plag, per_block, Nat.add_0_r, A, B, C, D by lia. auto.
  - specialize (IH ltac:(lia)). cbv zeta in IH. change (Nat.iter (Datatypes.S (Datatypes.S j)) lag_process l) with (lag_process (Nat.iter (Datatypes.S j) lag_process l)). 
    set (y := Nat.iter (Datatypes.S j) lag_process l) in *. clearbody y. destruct IH as (I1 & I2 & I3 & I4 & I5). unfold lag_process. cbn [l_v l_lp l_lpinv l_target l_first]. rewrite lagv_plag, per_block, Nat.add_succ_r by lia. cbn [plag]. rewrite I1, I2, I3, I4, I5. auto.
Qed.
Lemma wshape_ok ws x : lookup_waveshape ws x = Ok (shaped ws x).
Proof.
  unfold shaped. assert (E : exists y, lookup_waveshape ws x = Ok y); [|destruct E as (y & ->); reflexivity]. unfold lookup_waveshape. cbv zeta.
  destruct (Z.ltb_spec 1021 (as_i32R (x * 32 + 512))); [eauto|]. destruct (Z.ltb_spec (as_i32R (x * 32 + 512)) 1); [eauto|]. unfold tlookup. cbv zeta.
  unfold i32 at 1. unfold i32_min, i32_max. replace ((-2147483648 <=? as_i32R (x * 32 + 512) + 1) && (as_i32R (x * 32 + 512) + 1 <=? 2147483647))%Z with true by lia. cbn [obind]. eauto.
Qed.
Lemma fdtime_range v : (44 <= fs_dtime v <= DLEN - 13)%Z.
Proof. unfold fs_dtime, DLEN. lia. Qed.
Lemma frow_range v : (0 <= fs_row v <= 255)%Z.
Proof. unfold fs_row, limit_range_i. lia. Qed.
Lemma fsinc_ok v : Rabs v <= 8000000 -> fs_sinc (fs_dtime v) v = Ok (12 * fs_row v)%Z.
Proof.
  intros H. apply Rcomplements.Rabs_le_between in H. pose proof (fdtime_range v) as D. unfold fs_sinc, fs_row. set (dt := fs_dtime v) in *. set (y := IZR (dt + 1) - v).
  assert (Y : -8000000 <= y <= 8300000). { unfold y. rewrite plus_IZR. assert (44 <= IZR dt <= 262131) by (split; apply IZR_le; unfold DLEN in D; lia). lra. }
  assert (E : (-8000001 <= as_i32R y <= 8300001)%Z).
  { destruct (truncR_spec y) as [S1 S2]. assert (-8000001 <= MathModel.truncR y <= 8300001)%Z.
    { destruct (Rle_or_lt 0 y) as [P|P].
      - destruct (S1 P) as [A B]. split; [apply le_IZR|apply le_IZR]; lra.
      - destruct (S2 (Rlt_le _ _ P)) as [A B]. split; apply le_IZR; lra. }
    unfold as_i32R. change (ParamModel.truncR y) with (MathModel.truncR y). unfold i32_min, i32_max. lia. }
  unfold i32, i32_min, i32_max. replace ((-2147483648 <=? 256 * as_i32R y) && (256 * as_i32R y <=? 2147483647))%Z with true by lia. reflexivity.
Qed.
Lemma fread_keeps tab n k h b v : (0 <= n)%Z -> (0 <= k < 32)%Z -> Rabs v <= 8000000 -> keeps (32 * n) h b -> fs_read tab b ((32 * n) mod DLEN) k v = Ok (fread tab h (32 * n + k) v).
Proof.
  intros N K V H. unfold fs_read. cbv zeta. rewrite (fsinc_ok v V). cbn [obind]. pose proof (fdtime_range v) as D. pose proof (frow_range v) as S0. set (row := fs_row v) in *. set (dt := fs_dtime v) in *.
  assert (G : forall i, (0 <= i <= 11)%Z -> rget b (Z.land ((32 * n) mod DLEN - dt + k - i) (DLEN - 1)) = Ok (h (32 * n + k - dt - i)%Z)).
  { intros i I. rewrite landD. unfold rget. pose proof (Z.mod_pos_bound ((32 * n) mod DLEN - dt + k - i) DLEN ltac:(unfold DLEN; lia)) as M.
    replace (0 <=? ((32 * n) mod DLEN - dt + k - i) mod DLEN)%Z with true by lia. replace (((32 * n) mod DLEN - dt + k - i) mod DLEN <? DLEN)%Z with true by lia. cbn [andb]. f_equal.
    replace ((32 * n) mod DLEN - dt + k - i)%Z with ((32 * n) mod DLEN + (k - dt - i))%Z by lia. rewrite Zplus_mod_idemp_l. replace (32 * n + (k - dt - i))%Z with (32 * n + k - dt - i)%Z by lia. apply H. unfold DLEN in *. lia. }
  assert (T : forall i, (0 <= i <= 11)%Z -> sget tab (12 * row + 12 - i) = Ok (tab (12 * row + 12 - i)%Z)).
  { intros i I. unfold sget. replace (0 <=? 12 * row + 12 - i)%Z with true by lia. replace (12 * row + 12 - i <? 3084)%Z with true by lia. reflexivity. }
  cbn [foldM]. rewrite !G, !T by lia. cbn [obind]. f_equal. unfold fread. fold dt row. unfold rtap. cbn [map fold_right]. ring.
Qed.
Lemma fread_past tab h h' n t v : (32 * n <= t < 32 * n + 32)%Z -> (forall u, (32 * n - DLEN <= u < 32 * n)%Z -> h u = h' u) -> fread tab h t v = fread tab h' t v.
Proof. intros T H. unfold fread, rtap. f_equal. apply map_ext_in. intros i Hi. f_equal. apply H. assert (0 <= i < 12)%Z by (cbn in Hi; lia). pose proof (fdtime_range v). unfold DLEN in *. lia. Qed.

(** ** filters: only the samples so far matter *)
Lemma ap_below a x y n : (forall k, (k <= n)%nat -> x k = y k) -> ap a x n = ap a y n.
Proof.
  revert n. assert (K : forall n, (forall k, (k <= n)%nat -> x k = y k) -> ap a x n = ap a y n /\ ap a x (Nat.pred n) = ap a y (Nat.pred n)).
  { induction n as [|n IH]; intros E; [cbn; rewrite E by lia; auto|]. destruct IH as [I1 I2]; [intros; apply E; lia|]. cbn [Nat.pred]. split; [|exact I1]. destruct n as [|n]; cbn [ap]; [now rewrite E by lia|]. cbn [Nat.pred] in I2. rewrite I2, !E by lia. reflexivity. }
  intros n E. now apply K.
Qed.
Lemma cascade_below cs : forall x y n, (forall k, (k <= n)%nat -> x k = y k) -> cascade cs x n = cascade cs y n.
Proof. unfold cascade. induction cs as [|c cs IH]; intros x y n E; [cbn; apply E; lia|]. cbn [fold_left]. apply IH. intros k K. apply ap_below. intros; apply E; lia. Qed.
Lemma lowpass_below a b x y n : (forall k, (k <= n)%nat -> x k = y k) -> lowpass a b x n = lowpass a b y n.
Proof.
  intros E. unfold lowpass. rewrite (cascade_below a x y n E). do 2 f_equal. destruct n as [|n]; [reflexivity|]. cbn [delay1]. apply cascade_below. intros; apply E; lia.
Qed.
Lemma ap4_below c X Y n : (forall k, (k <= n)%nat -> X k = Y k) -> ap4 c X n = ap4 c Y n.
Proof. intros E. unfold ap4. f_equal; apply ap_below; intros k K; now rewrite E. Qed.
Lemma inv_below X Y n s : (forall k, (k < n)%nat -> X k = Y k) -> inv n X s -> inv n Y s.
Proof.
  intros E (A & B & C & D). assert (K : forall (P Q : nat -> q4 R) m, (1 <= m)%nat -> (forall k, (k < n)%nat -> P k = Q k) -> back P n m = back Q n m).
  { intros P Q m M F. unfold back. destruct (Nat.leb_spec m n); [apply F; lia|reflexivity]. }
  unfold inv. rewrite A, B, C, D. repeat split; apply K; try lia; auto; intros k Hk; apply ap4_below; intros; apply E; lia.
Qed.
Lemma invs_below : forall st X Y n, (forall k, (k < n)%nat -> X k = Y k) -> invs n X st -> invs n Y st.
Proof.
  induction st as [|s st IH]; intros X Y n E H; [exact I|]. destruct H as [H1 H2]. split; [now apply (inv_below X)|]. apply (IH (ap4 (va s) X)); [|exact H2]. intros k K. apply ap4_below. intros; apply E; lia.
Qed.
Lemma casc4_below cs : forall X Y n, (forall k, (k <= n)%nat -> X k = Y k) -> casc4 cs X n = casc4 cs Y n.
Proof. unfold casc4. induction cs as [|c cs IH]; intros X Y n E; [cbn; apply E; lia|]. cbn [fold_left]. apply IH. intros k K. apply ap4_below. intros; apply E; lia. Qed.
(* the filter after n samples of a stereo signal *)
Definition heard (a b : list R) (L Rr : nat -> R) (n : nat) (h : half) : Prop :=
  reached a b (stereo L Rr) n h /\ h_old h = old_at (casc4 (map va (store_coefficients a b)) (stereo L Rr)) n.
Lemma heard_below a b L Rr L' Rr' n h : (forall k, (k < n)%nat -> L k = L' k /\ Rr k = Rr' k) -> heard a b L Rr n h -> heard a b L' Rr' n h.
Proof.
  intros E ((H1 & H2) & H3). assert (X : forall k, (k < n)%nat -> stereo L Rr k = stereo L' Rr' k) by (intros k K; destruct (E k K) as [E1 E2]; unfold stereo; now rewrite E1, E2).
  split; [split; [now apply (invs_below _ (stereo L Rr))|exact H2]|]. rewrite H3. destruct n as [|n]; [reflexivity|]. cbn [old_at]. rewrite (casc4_below _ (stereo L Rr) (stereo L' Rr') n) by (intros k K; apply X; lia). reflexivity.
Qed.
Lemma heard_rest a b L Rr : heard a b L Rr 0 (at_rest a b).
Proof. split; [apply rest_reached|reflexivity]. Qed.
Lemma heard_block a b L Rr n h : length a = length b -> heard a b L Rr n h ->
  exists h', process_block h (cut L n 32) (cut Rr n 32) = Ok (h', cut (lowpass a b L) n 32, cut (lowpass a b Rr) n 32) /\ heard a b L Rr (n + 32) h'.
Proof.
  intros E (H1 & H2). destruct (feed_process a b L Rr [32%nat] E) with (n := n) (h := h) as (h' & F & G1 & G2); auto.
  { constructor; [|constructor]. split; [reflexivity|lia]. }
  cbn [total fold_right] in *. change (32 + 0)%nat with 32%nat in *. exists h'. split; [|split; assumption].
  cbn [feed] in F. destruct (process_block h (cut L n 32) (cut Rr n 32)) as [((h1, l1), r1)| |]; [|discriminate|discriminate]. cbn [obind] in F. rewrite !app_nil_r in F. exact F.
Qed.

(** ** the first loop of a block *)
Definition isat (q : quadrosc) (phi : R) : Prop := qo_r q = sin phi /\ qo_i q = - cos phi.
Definition turns_by (q : quadrosc) (w : R) : Prop := qo_dr q = cos w /\ qo_di q = sin w.
Lemma osc_step q phi w : isat q phi -> turns_by q w -> isat (qo_process q) (phi + w) /\ turns_by (qo_process q) w.
Proof. intros (A & B) (C & D). destruct (qo_step_unit q w phi A B C D) as (E & F & G & H). repeat split; assumption. Qed.
Lemma pres_spec tab n hl hr : (0 <= n)%Z -> forall m k s fl wl fr wr, (0 <= k)%Z -> (k + Z.of_nat m <= 32)%Z -> fs_wpos s = ((32 * n) mod DLEN)%Z -> keeps (32 * n) hl (fs_bl s) -> keeps (32 * n) hr (fs_br s) ->
  isat (fs_o1l s) fl -> turns_by (fs_o1l s) wl -> isat (fs_o1r s) fr -> turns_by (fs_o1r s) wr ->
  (forall j, (j < m)%nat -> Rabs (l_v (Nat.iter (Datatypes.S j) lag_process (fs_time s))) <= 8000000) ->
  exists a c, isat a (fl + INR m * wl) /\ isat c (fr + INR m * wr) /\
  fs_pres tab m k s = Ok (mk_fs (fs_fr s) (fs_fi s) (fs_mix s) (fs_fb s) (Nat.iter m lag_process (fs_time s)) (fs_bl s) (fs_br s) (fs_wpos s) a (fs_o2l s) c (fs_o2r s),
    map (fun j => let v := l_v (Nat.iter (Datatypes.S j) lag_process (fs_time s)) in let xl := fread tab hl (32 * n + k + Z.of_nat j) v in let xr := fread tab hr (32 * n + k + Z.of_nat j) v in
      ((xl * sin (fl + INR (Datatypes.S j) * wl), xr * sin (fr + INR (Datatypes.S j) * wr)), (xl * - cos (fl + INR (Datatypes.S j) * wl), xr * - cos (fr + INR (Datatypes.S j) * wr)))) (seq 0 m)).
Proof.
  intros N. induction m as [|m IH]; intros k s fl wl fr wr K1 K2 W Hl Hr A B C D V.
  - exists (fs_o1l s), (fs_o1r s). cbn [INR Nat.iter nat_rect fs_pres seq map]. rewrite !Rmult_0_l, !Rplus_0_r. split; [exact A|]. split; [exact C|]. destruct s; reflexivity.
  - destruct (osc_step _ _ _ A B) as (A1 & B1). destruct (osc_step _ _ _ C D) as (C1 & D1).
    cbn [fs_pres]. unfold fs_pre at 1. rewrite W, !(fread_keeps tab n k) with (h := hl) by (lia || assumption || (apply (V 0%nat); lia)). rewrite (fread_keeps tab n k hr) by (lia || assumption || (apply (V 0%nat); lia)). cbn [obind]. cbv zeta.
    match goal with |- context [fs_pres tab m (k + 1) ?s1] => destruct (IH (k + 1)%Z s1 (fl + wl) wl (fr + wr) wr) as (a & c & Ha & Hc & E) end; cbn [fs_wpos fs_bl fs_br fs_o1l fs_o1r fs_time]; auto; try lia.
    { intros j J. rewrite iter_in. apply V. lia. }
    rewrite E. cbn [obind fs_fr fs_fi fs_mix fs_fb fs_time fs_bl fs_br fs_wpos fs_o2l fs_o2r]. exists a, c. rewrite S_INR.
    split; [replace (fl + (INR m + 1) * wl) with (fl + wl + INR m * wl) by ring; exact Ha|]. split; [replace (fr + (INR m + 1) * wr) with (fr + wr + INR m * wr) by ring; exact Hc|].
    do 2 f_equal; [f_equal; apply iter_in|]. cbn [seq map]. rewrite Z.add_0_r. f_equal.
    + destruct A1 as (-> & ->). destruct C1 as (-> & ->). cbn [INR]. rewrite !Rmult_1_l. reflexivity.
    + rewrite <- seq_shift, map_map. apply map_ext. intros j. rewrite iter_in. replace (32 * n + k + Z.of_nat (Datatypes.S j))%Z with (32 * n + (k + 1) + Z.of_nat j)%Z by lia.
      replace (fl + INR (Datatypes.S (Datatypes.S j)) * wl) with (fl + wl + INR (Datatypes.S j) * wl) by (rewrite (S_INR (Datatypes.S j)); ring). replace (fr + INR (Datatypes.S (Datatypes.S j)) * wr) with (fr + wr + INR (Datatypes.S j) * wr) by (rewrite (S_INR (Datatypes.S j)); ring). reflexivity.
Qed.
(** ** the second loop *)
Lemma posts_spec ws n hl hr : (0 <= n)%Z -> forall xs rrs iis k s fl wl fr wr, length rrs = length xs -> length iis = length xs -> (0 <= k)%Z -> (k + Z.of_nat (length xs) <= 32)%Z ->
  fs_wpos s = ((32 * n) mod DLEN)%Z -> keeps (32 * n + k) hl (fs_bl s) -> keeps (32 * n + k) hr (fs_br s) ->
  isat (fs_o2l s) fl -> turns_by (fs_o2l s) wl -> isat (fs_o2r s) fr -> turns_by (fs_o2r s) wr ->
  let wetl j := 2 * (fst (nth j rrs (0, 0)) * sin (fl + INR (Datatypes.S j) * wl) + fst (nth j iis (0, 0)) * - cos (fl + INR (Datatypes.S j) * wl)) in
  let wetr j := 2 * (snd (nth j rrs (0, 0)) * sin (fr + INR (Datatypes.S j) * wr) + snd (nth j iis (0, 0)) * - cos (fr + INR (Datatypes.S j) * wr)) in
  let fb j := p_v (times (Datatypes.S j) lipol_process (fs_fb s)) in
  (forall j, (j < length xs)%nat -> hl (32 * n + k + Z.of_nat j)%Z = fst (nth j xs (0, 0)) + shaped ws (wetl j * fb j) /\ hr (32 * n + k + Z.of_nat j)%Z = snd (nth j xs (0, 0)) + shaped ws (wetr j * fb j)) ->
  exists bl br b d, keeps (32 * n + k + Z.of_nat (length xs)) hl bl /\ keeps (32 * n + k + Z.of_nat (length xs)) hr br /\ isat b (fl + INR (length xs) * wl) /\ isat d (fr + INR (length xs) * wr) /\
  fs_posts ws k xs rrs iis s = Ok (mk_fs (fs_fr s) (fs_fi s) (fs_mix s) (times (length xs) lipol_process (fs_fb s)) (fs_time s) bl br (fs_wpos s) (fs_o1l s) b (fs_o1r s) d,
    map (fun j => (wetl j, wetr j)) (seq 0 (length xs))).
Proof.
  intros N. induction xs as [|x xs IH]; intros rrs iis k s fl wl fr wr L1 L2 K1 K2 W Hl Hr A B C D wetl wetr fb V.
  - destruct rrs; [|discriminate]. destruct iis; [|discriminate]. cbn [length fs_posts times seq map INR]. exists (fs_bl s), (fs_br s), (fs_o2l s), (fs_o2r s). rewrite !Z.add_0_r, !Rmult_0_l, !Rplus_0_r. split; [exact Hl|]. split; [exact Hr|]. split; [exact A|]. split; [exact C|]. destruct s; reflexivity.
  - destruct rrs as [|rr rrs]; [discriminate|]. destruct iis as [|ii iis]; [discriminate|]. cbn [length] in *. destruct (osc_step _ _ _ A B) as (A1 & B1). destruct (osc_step _ _ _ C D) as (C1 & D1).
    destruct (V 0%nat ltac:(lia)) as (V1 & V2). rewrite Z.add_0_r in V1, V2. cbn [nth] in V1, V2.
    destruct (keeps_set n k hl (fs_bl s) N ltac:(lia) Hl) as (bl1 & El & Kl). destruct (keeps_set n k hr (fs_br s) N ltac:(lia) Hr) as (br1 & Er & Kr).
    cbn [fs_posts]. unfold fs_post at 1. cbv zeta. rewrite !wshape_ok. cbn [obind].
    assert (Q1 : 2 * (fst rr * qo_r (qo_process (fs_o2l s)) + fst ii * qo_i (qo_process (fs_o2l s))) = wetl 0%nat) by (unfold wetl; cbn [nth INR]; rewrite Rmult_1_l, (proj1 A1), (proj2 A1); reflexivity).
    assert (Q2 : 2 * (snd rr * qo_r (qo_process (fs_o2r s)) + snd ii * qo_i (qo_process (fs_o2r s))) = wetr 0%nat) by (unfold wetr; cbn [nth INR]; rewrite Rmult_1_l, (proj1 C1), (proj2 C1); reflexivity).
    rewrite Q1, Q2. change (lipol_process (fs_fb s)) with (times 1 lipol_process (fs_fb s)). fold (fb 0%nat). rewrite <- V1, <- V2, W, El. cbn [obind]. rewrite Er. cbn [obind].
    match goal with |- context [fs_posts ws (k + 1) xs rrs iis ?s1] => destruct (IH rrs iis (k + 1)%Z s1 (fl + wl) wl (fr + wr) wr) as (bl & br & b & d & G1 & G2 & G3 & G4 & E) end; cbn [fs_wpos fs_bl fs_br fs_o2l fs_o2r fs_fb]; auto; try lia.
    { now rewrite Z.add_assoc. } { now rewrite Z.add_assoc. }
    { intros j J. destruct (V (Datatypes.S j) ltac:(lia)) as (U1 & U2). replace (32 * n + (k + 1) + Z.of_nat j)%Z with (32 * n + k + Z.of_nat (Datatypes.S j))%Z by lia. rewrite U1, U2. cbn [nth]. unfold wetl, wetr, fb. cbn [nth].
      change (times 1 lipol_process (fs_fb s)) with (lipol_process (fs_fb s)). rewrite times_in.
      replace (fl + wl + INR (Datatypes.S j) * wl) with (fl + INR (Datatypes.S (Datatypes.S j)) * wl) by (rewrite (S_INR (Datatypes.S j)); ring). replace (fr + wr + INR (Datatypes.S j) * wr) with (fr + INR (Datatypes.S (Datatypes.S j)) * wr) by (rewrite (S_INR (Datatypes.S j)); ring). auto. }
    rewrite E. cbn [obind fs_fr fs_fi fs_mix fs_time fs_wpos fs_o1l fs_o1r fs_fb]. exists bl, br, b, d. rewrite S_INR.
    replace (32 * n + k + Z.of_nat (Datatypes.S (length xs)))%Z with (32 * n + (k + 1) + Z.of_nat (length xs))%Z by lia. split; [exact G1|]. split; [exact G2|].
    split; [replace (fl + (INR (length xs) + 1) * wl) with (fl + wl + INR (length xs) * wl) by ring; exact G3|]. split; [replace (fr + (INR (length xs) + 1) * wr) with (fr + wr + INR (length xs) * wr) by ring; exact G4|].
    change (times 1 lipol_process (fs_fb s)) with (lipol_process (fs_fb s)). rewrite !times_in. do 2 f_equal. cbn [seq map]. f_equal. rewrite <- seq_shift, map_map. apply map_ext. intros j. unfold wetl, wetr. cbn [nth].
    replace (fl + wl + INR (Datatypes.S j) * wl) with (fl + INR (Datatypes.S (Datatypes.S j)) * wl) by (rewrite (S_INR (Datatypes.S j)); ring). replace (fr + wr + INR (Datatypes.S j) * wr) with (fr + INR (Datatypes.S (Datatypes.S j)) * wr) by (rewrite (S_INR (Datatypes.S j)); ring). reflexivity.
Qed.
