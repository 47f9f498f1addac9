(* FshiftProps2.v - C214-C218: the frequency shifter, continued. *)
From Coq Require Import Reals Lra Psatz Lia.
From Coquelicot Require Rcomplements.
From Flocq Require Import Core.Core.
From Verif Require Import Base Util BlockModel RampProps LagModel LagProps MathModel ParamModel LfoModel TableProps UnitModel DelayModel DelayProps QfModel HalfModel HalfProps HalfProps2 FastProps ChorusModel ChorusProps FlangerProps OscProps RotaryModel RotaryProps FshiftModel FshiftProofs FshiftProofs2 FshiftProps.
Local Open Scope R_scope.

(** ** specification *)
Definition unit (q : quadrosc) : Prop := qo_r q * qo_r q + qo_i q * qo_i q = 1.
(* the cosine of the angle between two oscillators *)
Definition agree (q r : quadrosc) : R := qo_r q * qo_r r + qo_i q * qo_i r.
Definition all_unit (s : fshift) : Prop := unit (fs_o1l s) /\ unit (fs_o2l s) /\ unit (fs_o1r s) /\ unit (fs_o2r s).
Definition lag_fine (l : lag) : Prop := Rabs (l_v l) <= 8000000 /\ l_lp l = 1 / 10000 /\ l_lpinv l = 996 / 1000.
Definition cells (M : R) (s : fshift) : Prop := forall i, Rabs (fs_bl s i) <= M /\ Rabs (fs_br s i) <= M.
Definition timely (sr : R) (h : list (fspar * list (R * R))) : Prop := Forall (fun b => Rabs (fs_target sr (fst b)) <= 8000000) h.
Definition limited (M : R) (h : list (fspar * list (R * R))) : Prop := Forall (fun b => Forall (fun x => Rabs (fst x) <= M /\ Rabs (snd x) <= M) (snd b)) h.

(** ** oscillators *)
Lemma unit_rate q w : unit q -> qo_set_rate q w = Ok (mk_qo (qo_r q) (qo_i q) (cos w) (sin w)).
Proof. intros U. unfold qo_set_rate. rewrite U. destruct (Req_EM_T 1 0); [lra|]. rewrite sqrt_1. do 2 f_equal; field. Qed.
Lemma unit_step q w : unit q -> turns_by q w -> unit (qo_process q) /\ turns_by (qo_process q) w.
Proof.
  intros U (D1 & D2). split; [|split; assumption]. unfold unit, qo_process in *. cbn [qo_r qo_i]. rewrite D1, D2. pose proof (sin2_cos2 w) as T. unfold Rsqr in T.
  transitivity ((sin w * sin w + cos w * cos w) * (qo_r q * qo_r q + qo_i q * qo_i q)); [ring|rewrite T, U; ring].
Qed.
Lemma agree_step q r w : turns_by q w -> turns_by r w -> agree (qo_process q) (qo_process r) = agree q r.
Proof.
  intros (A & B) (C & D). unfold agree, qo_process. cbn [qo_r qo_i]. rewrite A, B, C, D. pose proof (sin2_cos2 w) as T. unfold Rsqr in T.
  transitivity ((sin w * sin w + cos w * cos w) * (qo_r q * qo_r r + qo_i q * qo_i r)); [ring|rewrite T; ring].
Qed.
Lemma unit_iter q w m : unit q -> turns_by q w -> unit (Nat.iter m qo_process q) /\ turns_by (Nat.iter m qo_process q) w.
Proof. intros U T. induction m as [|m (I1 & I2)]; [auto|]. change (Nat.iter (Datatypes.S m) qo_process q) with (qo_process (Nat.iter m qo_process q)). now apply unit_step. Qed.
Lemma agree_iter q r w m : unit q -> unit r -> turns_by q w -> turns_by r w -> agree (Nat.iter m qo_process q) (Nat.iter m qo_process r) = agree q r.
Proof.
  intros U V T1 T2. induction m as [|m IH]; [reflexivity|]. change (Nat.iter (Datatypes.S m) qo_process q) with (qo_process (Nat.iter m qo_process q)). change (Nat.iter (Datatypes.S m) qo_process r) with (qo_process (Nat.iter m qo_process r)).
  rewrite (agree_step _ _ w); [exact IH| |]; apply unit_iter; assumption.
Qed.
Lemma agree_range q r : unit q -> unit r -> -1 <= agree q r <= 1.
Proof.
  unfold unit, agree. intros U V. set (a := qo_r q) in *. set (b := qo_i q) in *. set (c := qo_r r) in *. set (d := qo_i r) in *.
  pose proof (Rle_0_sqr (a - c)). pose proof (Rle_0_sqr (b - d)). pose proof (Rle_0_sqr (a + c)). pose proof (Rle_0_sqr (b + d)). unfold Rsqr in *. lra.
Qed.
(* locking: the right oscillator is moved towards the left one and brought back to length 1 *)
Definition m2 (d : R) : R := 1 - 2 * (1 / 100) * (99 / 100) * (1 - d).
Lemma lock_rate q r w : unit q -> unit r -> exists r', qo_set_rate (fs_lock q r) w = Ok r' /\ unit r' /\ turns_by r' w /\ agree q r' = (1 / 100 + 99 / 100 * agree q r) / sqrt (m2 (agree q r)).
Proof.
  intros U V. pose proof (agree_range q r U V) as G. assert (M : qo_r (fs_lock q r) * qo_r (fs_lock q r) + qo_i (fs_lock q r) * qo_i (fs_lock q r) = m2 (agree q r)).
  { unfold fs_lock, m2. cbn [qo_r qo_i]. unfold unit, agree in *. set (a := qo_r q) in *. set (b := qo_i q) in *. set (c := qo_r r) in *. set (d := qo_i r) in *.
    transitivity (1 / 100 * (1 / 100) * (a * a + b * b) + 99 / 100 * (99 / 100) * (c * c + d * d) + 2 * (1 / 100) * (99 / 100) * (a * c + b * d)); [field|]. rewrite U, V. field. }
  set (d := agree q r) in *. assert (P : 0 < m2 d) by (unfold m2; lra). destruct (qo_set_rate (fs_lock q r) w) as [r'| |] eqn:E.
  - destruct (qo_rate_norm _ _ _ E) as (N1 & N2 & N3). exists r'. split; [reflexivity|]. split; [exact N1|]. split; [split; assumption|].
    unfold qo_set_rate in E. rewrite M in E. destruct (Req_EM_T (m2 d) 0) as [Z0|_]; [lra|]. assert (Er : r' = mk_qo (qo_r (fs_lock q r) * (1 / sqrt (m2 d))) (qo_i (fs_lock q r) * (1 / sqrt (m2 d))) (cos w) (sin w)) by congruence. rewrite Er.
    assert (SP : 0 < sqrt (m2 d)) by (apply sqrt_lt_R0; exact P). unfold agree at 1. cbn [qo_r qo_i]. unfold fs_lock. cbn [qo_r qo_i]. unfold d, unit, agree in *.
    transitivity ((1 / 100 * (qo_r q * qo_r q + qo_i q * qo_i q) + 99 / 100 * (qo_r q * qo_r r + qo_i q * qo_i r)) / sqrt (m2 (qo_r q * qo_r r + qo_i q * qo_i r))); [field; lra|]. rewrite U. field. lra.
  - unfold qo_set_rate in E. rewrite M in E. destruct (Req_EM_T (m2 d) 0); [lra|discriminate].
  - unfold qo_set_rate in E. rewrite M in E. destruct (Req_EM_T (m2 d) 0); [lra|discriminate].
Qed.
Lemma lock_closer d : -1 <= d <= 1 -> d <= (1 / 100 + 99 / 100 * d) / sqrt (m2 d) <= 1 /\ (0 <= d -> 1 - ((1 / 100 + 99 / 100 * d) / sqrt (m2 d)) * ((1 / 100 + 99 / 100 * d) / sqrt (m2 d)) <= 9801 / 9802 * (1 - d * d)).
Proof.
  intros D. assert (P : 0 < m2 d) by (unfold m2; lra). assert (SP : 0 < sqrt (m2 d)) by (apply sqrt_lt_R0; exact P). pose proof (sqrt_sqrt (m2 d) ltac:(lra)) as SS. set (r := sqrt (m2 d)) in *. set (z := 1 / 100 + 99 / 100 * d).
  assert (E : r * r = z * z + 99 / 100 * (99 / 100) * (1 - d * d)) by (rewrite SS; unfold m2, z; field). assert (D2 : 0 <= 1 - d * d) by nra.
  assert (ZR : z <= r) by nra. assert (Q : z / r * (z / r) = z * z / (r * r)) by (field; lra).
  split; [split|].
  - apply Rcomplements.Rle_div_r; [exact SP|]. assert (F : z * z - d * d * (r * r) = 1 / 100 * (1 - d * d) * (1 / 100 + 2 * (99 / 100) * d)) by (rewrite SS; unfold z, m2; field).
    destruct (Rle_or_lt 0 d) as [D0|D0].
    + assert (0 <= z * z - d * r * (d * r)). { replace (d * r * (d * r)) with (d * d * (r * r)) by ring. rewrite F. apply Rmult_le_pos; [|lra]. apply Rmult_le_pos; lra. } assert (0 <= z) by (unfold z; lra). assert (0 <= d * r) by (apply Rmult_le_pos; lra). nra.
    + destruct (Rle_or_lt 0 z) as [Z0|Z0]; [assert (d * r < 0) by nra; lra|].
      assert (z * z - d * r * (d * r) <= 0). { replace (d * r * (d * r)) with (d * d * (r * r)) by ring. rewrite F. assert (1 / 100 + 2 * (99 / 100) * d <= 0) by (unfold z in Z0; lra). assert (0 <= 1 / 100 * (1 - d * d)) by lra. nra. }
      assert (d * r < 0) by nra. nra.
  - apply Rcomplements.Rle_div_l; lra.
  - intros D0. rewrite Q. assert (M1 : 9802 / 10000 <= r * r) by (rewrite SS; unfold m2; lra). replace (1 - z * z / (r * r)) with ((r * r - z * z) / (r * r)) by (field; lra). apply Rcomplements.Rle_div_l; [lra|]. replace (r * r - z * z) with (9801 / 10000 * (1 - d * d)) by lra. nra.
Qed.
(** ** update *)
Lemma lag_new_fine sr p l : lag_fine l \/ (l_first l = true /\ l_lp l = 1 / 10000 /\ l_lpinv l = 996 / 1000) -> Rabs (fs_target sr p) <= 8000000 -> let l' := lag_new_value l (fs_target sr p) in lag_fine l' /\ Rabs (l_target l') <= 8000000.
Proof.
  intros H T. cbv zeta. unfold lag_new_value, lag_fine. destruct (l_first l) eqn:F; cbn [l_v l_lp l_lpinv l_target]; destruct H as [(A & B & C)|(A & B & C)]; auto; try discriminate.
Qed.
Lemma lag_step_fine l : lag_fine l -> Rabs (l_target l) <= 8000000 -> lag_fine (lag_process l) /\ Rabs (l_target (lag_process l)) <= 8000000.
Proof.
  intros (A & B & C) T. unfold lag_fine, lag_process. cbn [l_v l_lp l_lpinv l_target]. rewrite B, C. repeat split; auto. apply Rcomplements.Rabs_le_between in A. apply Rcomplements.Rabs_le_between in T. apply Rabs_le. lra.
Qed.
Lemma lag_iter_fine l m : lag_fine l -> Rabs (l_target l) <= 8000000 -> lag_fine (Nat.iter m lag_process l) /\ Rabs (l_target (Nat.iter m lag_process l)) <= 8000000.
Proof. intros A B. induction m as [|m (I1 & I2)]; [auto|]. change (Nat.iter (Datatypes.S m) lag_process l) with (lag_process (Nat.iter m lag_process l)). now apply lag_step_fine. Qed.
Lemma update_fine sr p s : all_unit s -> exists a b c d,
  fs_update sr p s = Ok (mk_fs (fs_fr s) (fs_fi s) (ps_set_target_smoothed arithR (fs_mix s) (fp_mix p)) (lipol_new_value (fs_fb s) (fp_gain p)) (lag_new_value (fs_time s) (fs_target sr p)) (fs_bl s) (fs_br s) (fs_wpos s) a b c d) /\
  unit a /\ unit b /\ unit c /\ unit d /\ turns_by a (fs_rate1 (fs_omega sr p)) /\ turns_by b (fs_rate2 (fs_omega sr p)) /\ turns_by c (fs_rate1 (fs_omega_r sr p)) /\ turns_by d (fs_rate2 (fs_omega_r sr p)) /\
  (fs_locked p = true -> agree a c = (1 / 100 + 99 / 100 * agree (fs_o1l s) (fs_o1r s)) / sqrt (m2 (agree (fs_o1l s) (fs_o1r s))) /\ agree b d = (1 / 100 + 99 / 100 * agree (fs_o2l s) (fs_o2r s)) / sqrt (m2 (agree (fs_o2l s) (fs_o2r s)))).
Proof.
  intros (U1 & U2 & U3 & U4). unfold fs_update. cbv zeta. rewrite (unit_rate _ _ U1). cbn [obind]. rewrite (unit_rate _ _ U2). cbn [obind].
  set (a := mk_qo (qo_r (fs_o1l s)) (qo_i (fs_o1l s)) _ _). set (b := mk_qo (qo_r (fs_o2l s)) (qo_i (fs_o2l s)) _ _).
  assert (Ua : unit a) by exact U1. assert (Ub : unit b) by exact U2.
  destruct (fs_locked p) eqn:L.
  - destruct (lock_rate a (fs_o1r s) (fs_rate1 (fs_omega_r sr p)) Ua U3) as (c & Ec & Uc & Tc & Gc). destruct (lock_rate b (fs_o2r s) (fs_rate2 (fs_omega_r sr p)) Ub U4) as (d & Ed & Ud & Td & Gd). rewrite Ec. cbn [obind]. rewrite Ed. cbn [obind].
    exists a, b, c, d. split; [reflexivity|]. split; [exact Ua|]. split; [exact Ub|]. split; [exact Uc|]. split; [exact Ud|]. split; [split; reflexivity|]. split; [split; reflexivity|]. split; [exact Tc|]. split; [exact Td|]. intros _. split; [exact Gc|exact Gd].
  - rewrite (unit_rate _ _ U3). cbn [obind]. rewrite (unit_rate _ _ U4). cbn [obind]. do 4 eexists. split; [reflexivity|]. split; [exact Ua|]. split; [exact Ub|]. split; [exact U3|]. split; [exact U4|]. repeat (split; [split; reflexivity|]). discriminate.
Qed.
(** ** the two loops never fail *)
Lemma land_range x : ((0 <=? Z.land x (DLEN - 1)) && (Z.land x (DLEN - 1) <? DLEN))%Z = true.
Proof. rewrite landD. pose proof (Z.mod_pos_bound x DLEN ltac:(unfold DLEN; lia)). lia. Qed.
Lemma read_fine tab b wpos k v : Rabs v <= 8000000 -> exists x, fs_read tab b wpos k v = Ok x /\ ((forall i, b i = 0) -> x = 0).
Proof.
  intros V. unfold fs_read. cbv zeta. rewrite (fsinc_ok v V). cbn [obind]. pose proof (frow_range v) as S0. set (row := fs_row v) in *.
  assert (T : forall i, (0 <= i <= 11)%Z -> sget tab (12 * row + 12 - i) = Ok (tab (12 * row + 12 - i)%Z)) by (intros i I; unfold sget; replace (0 <=? 12 * row + 12 - i)%Z with true by lia; replace (12 * row + 12 - i <? 3084)%Z with true by lia; reflexivity).
  cbn [foldM]. unfold rget. rewrite !land_range, !T by lia. cbn [obind]. eexists. split; [reflexivity|]. intros Z0. rewrite !Z0. ring.
Qed.
Lemma pres_fine tab : forall m k s, lag_fine (fs_time s) -> Rabs (l_target (fs_time s)) <= 8000000 -> exists ys,
  fs_pres tab m k s = Ok (mk_fs (fs_fr s) (fs_fi s) (fs_mix s) (fs_fb s) (Nat.iter m lag_process (fs_time s)) (fs_bl s) (fs_br s) (fs_wpos s) (Nat.iter m qo_process (fs_o1l s)) (fs_o2l s) (Nat.iter m qo_process (fs_o1r s)) (fs_o2r s), ys) /\ length ys = m /\
  ((forall i, fs_bl s i = 0 /\ fs_br s i = 0) -> ys = repeat ((0, 0), (0, 0)) m).
Proof.
  induction m as [|m IH]; intros k s L T.
  - exists []. cbn [fs_pres Nat.iter nat_rect repeat length]. split; [destruct s; reflexivity|auto].
  - destruct (lag_step_fine _ L T) as (L1 & T1). destruct (read_fine tab (fs_bl s) (fs_wpos s) k (l_v (lag_process (fs_time s))) (proj1 L1)) as (xl & El & Zl). destruct (read_fine tab (fs_br s) (fs_wpos s) k (l_v (lag_process (fs_time s))) (proj1 L1)) as (xr & Er & Zr).
    cbn [fs_pres]. unfold fs_pre at 1. cbv zeta. rewrite El. cbn [obind]. rewrite Er. cbn [obind].
    match goal with |- context [fs_pres tab m (k + 1) ?s1] => destruct (IH (k + 1)%Z s1) as (ys & E & Ly & Zy) end; cbn [fs_time]; auto. rewrite E. cbn [obind fs_fr fs_fi fs_mix fs_fb fs_time fs_bl fs_br fs_wpos fs_o1l fs_o2l fs_o1r fs_o2r].
    eexists. split; [rewrite !iter_in; reflexivity|]. split; [cbn [length]; now rewrite Ly|]. intros Z0. rewrite (Zy Z0), Zl, Zr by (intros i; apply (Z0 i)). cbn [repeat]. rewrite !Rmult_0_l. reflexivity.
Qed.
Lemma posts_fine ws M : forall xs rrs iis k s, cells M s -> (forall i, (0 <= i < 1024)%Z -> -1 <= ws i <= 1) -> Forall (fun x => Rabs (fst x) <= M - 1 /\ Rabs (snd x) <= M - 1) xs -> exists m bl br ys,
  fs_posts ws k xs rrs iis s = Ok (mk_fs (fs_fr s) (fs_fi s) (fs_mix s) (Nat.iter m lipol_process (fs_fb s)) (fs_time s) bl br (fs_wpos s) (fs_o1l s) (Nat.iter m qo_process (fs_o2l s)) (fs_o1r s) (Nat.iter m qo_process (fs_o2r s)), ys) /\
  (forall i, Rabs (bl i) <= M /\ Rabs (br i) <= M).
Proof.
  assert (ZERO : forall s : fshift, exists m bl br (ys : list (R * R)), (Ok (s, @nil (R * R)) : res (fshift * list (R * R))) = Ok (mk_fs (fs_fr s) (fs_fi s) (fs_mix s) (Nat.iter m lipol_process (fs_fb s)) (fs_time s) bl br (fs_wpos s) (fs_o1l s) (Nat.iter m qo_process (fs_o2l s)) (fs_o1r s) (Nat.iter m qo_process (fs_o2r s)), ys) /\ bl = fs_bl s /\ br = fs_br s).
  { intros s. exists 0%nat, (fs_bl s), (fs_br s), []. cbn [Nat.iter nat_rect]. split; [destruct s; reflexivity|auto]. }
  induction xs as [|x xs IH]; intros rrs iis k s C WS F.
  - destruct (ZERO s) as (m & bl & br & ys & E & -> & ->). exists m, (fs_bl s), (fs_br s), ys. split; [exact E|exact C].
  - destruct rrs as [|rr rrs]; [destruct (ZERO s) as (m & bl & br & ys & E & -> & ->); exists m, (fs_bl s), (fs_br s), ys; split; [exact E|exact C]|].
    destruct iis as [|ii iis]; [destruct (ZERO s) as (m & bl & br & ys & E & -> & ->); exists m, (fs_bl s), (fs_br s), ys; split; [exact E|exact C]|].
    inversion F as [|? ? (F1 & F2) F3]; subst. assert (SH : forall y, -1 <= shaped ws y <= 1) by (intros y; unfold shaped; destruct (C85_waveshape ws y) as (_ & _ & _ & W); destruct (W WS) as (v & -> & V); exact V).
    cbn [fs_posts]. unfold fs_post at 1. cbv zeta. rewrite !wshape_ok. cbn [obind]. unfold rset. rewrite !land_range. cbn [obind].
    match goal with |- context [fs_posts ws (k + 1) xs rrs iis ?s1] => destruct (IH rrs iis (k + 1)%Z s1) as (m & bl & br & ys & E & B) end; auto.
    { intros i. cbn [fs_bl fs_br]. destruct (C i) as (C1 & C2). split.
      - destruct (i =? _)%Z; [|exact C1]. match goal with |- context [shaped ws ?y] => pose proof (SH y) as Hs; set (z := shaped ws y) in * end. apply Rcomplements.Rabs_le_between in F1. apply Rabs_le. lra.
      - destruct (i =? _)%Z; [|exact C2]. match goal with |- context [shaped ws ?y] => pose proof (SH y) as Hs; set (z := shaped ws y) in * end. apply Rcomplements.Rabs_le_between in F2. apply Rabs_le. lra. }
    rewrite E. cbn [obind fs_fr fs_fi fs_mix fs_fb fs_time fs_bl fs_br fs_wpos fs_o1l fs_o2l fs_o1r fs_o2r]. exists (Datatypes.S m), bl, br. eexists. rewrite !iter_in. split; [reflexivity|exact B].
Qed.
Lemma filter_fine h l r : (length l <= 256)%nat -> exists h' ls rs, process_block h l r = Ok (h', ls, rs).
Proof.
  intros L. unfold process_block, scratch_buffer. rewrite (proj2 (Z.ltb_ge _ _)) by lia. cbn [obind]. destruct (process_filters _ _) as (st, o). destruct (combine_out _ _ _ o) as ((a, b), c). do 3 eexists. reflexivity.
Qed.
Definition fine (M : R) (s : fshift) : Prop := all_unit s /\ lag_fine (fs_time s) /\ cells M s.
Lemma process_fine tab ws sr p xs s M : fine M s -> Rabs (fs_target sr p) <= 8000000 -> (forall i, (0 <= i < 1024)%Z -> -1 <= ws i <= 1) -> Forall (fun x => Rabs (fst x) <= M - 1 /\ Rabs (snd x) <= M - 1) xs ->
  exists s' ys, fs_process tab ws sr p s xs = Ok (s', ys) /\ fine M s' /\
    (fs_locked p = true -> agree (fs_o1l s') (fs_o1r s') = (1 / 100 + 99 / 100 * agree (fs_o1l s) (fs_o1r s)) / sqrt (m2 (agree (fs_o1l s) (fs_o1r s))) /\ agree (fs_o2l s') (fs_o2r s') = (1 / 100 + 99 / 100 * agree (fs_o2l s) (fs_o2r s)) / sqrt (m2 (agree (fs_o2l s) (fs_o2r s)))).
Proof.
  intros (U & L & C) T WS F. destruct (update_fine sr p s U) as (a & b & c & d & E & Ua & Ub & Uc & Ud & Ta & Tb & Tc & Td & G). unfold fs_process. rewrite E. cbn [obind]. clear E.
  destruct (lag_new_fine sr p (fs_time s) (or_introl L) T) as (L1 & T1). cbv zeta in L1, T1.
  match goal with |- context [fs_pres tab 32 0 ?s1] => destruct (pres_fine tab 32 0 s1) as (prods & E & LP & _) end; auto. rewrite E. clear E. cbn [obind fs_fr fs_fi fs_mix fs_fb fs_time fs_bl fs_br fs_wpos fs_o1l fs_o2l fs_o1r fs_o2r].
  match goal with |- context [process_block (fs_fr s) ?l ?r] => destruct (filter_fine (fs_fr s) l r) as (h1 & l1 & r1 & E1); [rewrite map_length, LP; lia|] end. rewrite E1. clear E1. cbn [obind].
  match goal with |- context [process_block (fs_fi s) ?l ?r] => destruct (filter_fine (fs_fi s) l r) as (h2 & l2 & r2 & E2); [rewrite map_length, LP; lia|] end. rewrite E2. clear E2. cbn [obind].
  match goal with |- context [fs_posts ws 0 xs ?rs ?is ?s1] => destruct (posts_fine ws M xs rs is 0 s1) as (m & bl & br & ys & E & B) end; auto. rewrite E. clear E. cbn [obind fs_fr fs_fi fs_mix fs_fb fs_time fs_bl fs_br fs_wpos fs_o1l fs_o2l fs_o1r fs_o2r].
  eexists. eexists. split; [reflexivity|]. cbn [fs_o1l fs_o1r fs_o2l fs_o2r]. split.
  - split; [|split; [exact (proj1 (lag_iter_fine _ 32 L1 T1))|exact B]]. repeat split; cbn [fs_o1l fs_o1r fs_o2l fs_o2r]; (eapply unit_iter; eassumption).
  - intros Lk. destruct (G Lk) as (G1 & G2). unfold fs_omega_r in Tc, Td. rewrite Lk in Tc, Td. rewrite (agree_iter a c _ 32 Ua Uc Ta Tc), (agree_iter b d _ m Ub Ud Tb Td). auto.
Qed.
Lemma run_fine tab ws sr M : (forall i, (0 <= i < 1024)%Z -> -1 <= ws i <= 1) -> forall h s, fine M s -> timely sr h -> limited (M - 1) h -> exists s' yss, fs_run tab ws sr h s = Ok (s', yss) /\ length yss = length h /\ fine M s'.
Proof.
  intros WS. induction h as [|(p, xs) h IH]; intros s Fs T L; [exists s, []; auto|]. inversion T; subst. inversion L; subst. cbn [fst snd] in *.
  destruct (process_fine tab ws sr p xs s M Fs) as (s1 & ys & E & F1 & _); auto. destruct (IH s1 F1) as (s2 & yss & E2 & L2 & F2); auto.
  cbn [fs_run]. rewrite E. cbn [obind]. rewrite E2. cbn [obind]. do 2 eexists. split; [reflexivity|]. split; [cbn [length]; now rewrite L2|exact F2].
Qed.
Lemma default_unit : unit qo_default. Proof. unfold unit, qo_default. cbn [qo_r qo_i]. ring. Qed.
Lemma init_fine sr p s M : 0 <= M -> all_unit s -> Rabs (fs_target sr p) <= 8000000 -> lag_fine (fs_time s) \/ (l_first (fs_time s) = true /\ l_lp (fs_time s) = 1 / 10000 /\ l_lpinv (fs_time s) = 996 / 1000) ->
  exists s', fs_init sr p s = Ok s' /\ fine M s' /\ (forall i, fs_bl s' i = 0 /\ fs_br s' i = 0) /\ fs_fr s' = half_reset (fs_fr s) /\ fs_fi s' = half_reset (fs_fi s).
Proof.
  intros M0 U T L. unfold fs_init. match goal with |- context [fs_update sr p ?s1] => destruct (update_fine sr p s1 U) as (a & b & c & d & -> & Ua & Ub & Uc & Ud & _) end.
  cbn [fs_fr fs_fi fs_mix fs_fb fs_time fs_bl fs_br fs_wpos fs_o1l fs_o2l fs_o1r fs_o2r]. eexists. split; [reflexivity|]. cbn [fs_bl fs_br fs_fr fs_fi]. split; [|auto].
  split; [repeat split; assumption|]. split; [exact (proj1 (lag_new_fine sr p _ L T))|]. intros i. cbn [fs_bl fs_br]. rewrite Rabs_R0. auto.
Qed.
Lemma new_fine sr p M : 0 <= M -> Rabs (fs_target sr p) <= 8000000 -> exists s, fs_new sr p = Ok s /\ fine M s.
Proof.
  intros M0 T. unfold fs_new. rewrite half6. cbn [obind]. match goal with |- context [fs_init sr p ?s1] => destruct (init_fine sr p s1 M M0) as (s & E & F & _) end; auto.
  - cbn. repeat split; apply default_unit.
  - right. cbn. repeat split; lra.
  - exists s. auto.
Qed.
(** ** C214 safety *)
Theorem C214_safe : forall tab ws sr p0 h M, 0 <= M -> (forall i, (0 <= i < 1024)%Z -> -1 <= ws i <= 1) -> Rabs (fs_target sr p0) <= 8000000 -> timely sr h -> limited M h ->
  exists s0 s yss, fs_new sr p0 = Ok s0 /\ fs_run tab ws sr h s0 = Ok (s, yss) /\ length yss = length h /\ (forall i, Rabs (fs_bl s i) <= M + 1 /\ Rabs (fs_br s i) <= M + 1).
Proof.
  intros tab ws sr p0 h M M0 WS T0 T L. destruct (new_fine sr p0 (M + 1) ltac:(lra) T0) as (s0 & E0 & F0). destruct (run_fine tab ws sr (M + 1) WS h s0 F0 T) as (s & yss & E & Ly & (_ & _ & C)).
  { replace (M + 1 - 1) with M by ring. exact L. }
  exists s0, s, yss. auto.
Qed.
(* a delay time far beyond the line overflows the table's row number *)
Theorem C214_huge_time_panics : forall tab b wpos k v, 9000000 <= v <= 2000000000 -> fs_read tab b wpos k v = Panic.
Proof.
  intros tab b wpos k v V. unfold fs_read. cbv zeta. unfold fs_sinc. pose proof (fdtime_range v) as D. set (dt := fs_dtime v) in *. set (y := IZR (dt + 1) - v).
  assert (Y : -2000000000 <= y <= -8700000). { unfold y. rewrite plus_IZR. assert (44 <= IZR dt <= 262131) by (split; apply IZR_le; unfold DLEN in D; lia). lra. }
  assert (E : (as_i32R y <= -8700000)%Z).
  { destruct (truncR_spec y) as [_ S2]. destruct S2 as [A B]; [lra|]. assert (MathModel.truncR y < -8699999)%Z by (apply lt_IZR; lra). unfold as_i32R. change (ParamModel.truncR y) with (MathModel.truncR y). unfold i32_min, i32_max. lia. }
  unfold i32, i32_min. replace (-2147483648 <=? 256 * as_i32R y)%Z with false by lia. reflexivity.
Qed.
(** ** C217 locking *)
Theorem C217_lock : forall tab ws sr p0 h1 h2 M, 0 <= M -> (forall i, (0 <= i < 1024)%Z -> -1 <= ws i <= 1) -> Rabs (fs_target sr p0) <= 8000000 -> timely sr (h1 ++ h2) -> limited M (h1 ++ h2) -> Forall (fun b => fs_locked (fst b) = true) h2 ->
  exists s0 s1 y1 s2 y2, fs_new sr p0 = Ok s0 /\ fs_run tab ws sr h1 s0 = Ok (s1, y1) /\ fs_run tab ws sr h2 s1 = Ok (s2, y2) /\
    forall l r, (l, r) = (fs_o1l, fs_o1r) \/ (l, r) = (fs_o2l, fs_o2r) -> agree (l s1) (r s1) <= agree (l s2) (r s2) <= 1 /\
      (0 <= agree (l s1) (r s1) -> 1 - agree (l s2) (r s2) * agree (l s2) (r s2) <= (9801 / 9802) ^ length h2 * (1 - agree (l s1) (r s1) * agree (l s1) (r s1))).
Proof.
  intros tab ws sr p0 h1 h2 M M0 WS T0 T L K. apply Forall_app in T. destruct T as (Ta & Tb). apply Forall_app in L. destruct L as (La & Lb).
  destruct (new_fine sr p0 (M + 1) ltac:(lra) T0) as (s0 & E0 & F0). assert (Q : M + 1 - 1 = M) by ring. destruct (run_fine tab ws sr (M + 1) WS h1 s0 F0 Ta) as (s1 & y1 & E1 & _ & F1); [rewrite Q; exact La|].
  exists s0, s1, y1. clear F0 La Ta T0. revert s1 E1 F1. assert (X : forall s1, fine (M + 1) s1 -> exists s2 y2, fs_run tab ws sr h2 s1 = Ok (s2, y2) /\ forall l r, (l, r) = (fs_o1l, fs_o1r) \/ (l, r) = (fs_o2l, fs_o2r) -> agree (l s1) (r s1) <= agree (l s2) (r s2) <= 1 /\
      (0 <= agree (l s1) (r s1) -> 1 - agree (l s2) (r s2) * agree (l s2) (r s2) <= (9801 / 9802) ^ length h2 * (1 - agree (l s1) (r s1) * agree (l s1) (r s1)))).
  { induction h2 as [|(p, xs) h2 IH]; intros s1 F1.
    - exists s1, []. split; [reflexivity|]. destruct F1 as ((U1 & U2 & U3 & U4) & _). intros l r [E|E]; pose proof (f_equal fst E) as X1; pose proof (f_equal snd E) as X2; cbn [fst snd] in X1, X2; subst l r.
      + pose proof (agree_range _ _ U1 U3). split; [lra|]. intros _. cbn [length pow]. lra.
      + pose proof (agree_range _ _ U2 U4). split; [lra|]. intros _. cbn [length pow]. lra.
    - inversion Tb; subst. inversion Lb; subst. inversion K; subst. cbn [fst snd] in *. destruct (process_fine tab ws sr p xs s1 (M + 1) F1) as (s' & ys & E & F' & G); auto; [rewrite Q; assumption|].
      destruct (G ltac:(assumption)) as (G1 & G2). destruct (IH ltac:(assumption) ltac:(assumption) ltac:(assumption) s' F') as (s2 & y2 & E2 & H). exists s2. eexists. cbn [fs_run]. rewrite E. cbn [obind]. rewrite E2. cbn [obind]. split; [reflexivity|].
      destruct F1 as ((U1 & U2 & U3 & U4) & _).
      assert (CORE : forall d d' d2, -1 <= d <= 1 -> d' = (1 / 100 + 99 / 100 * d) / sqrt (m2 d) -> d' <= d2 <= 1 /\ (0 <= d' -> 1 - d2 * d2 <= (9801 / 9802) ^ length h2 * (1 - d' * d')) -> d <= d2 <= 1 /\ (0 <= d -> 1 - d2 * d2 <= (9801 / 9802) ^ Datatypes.S (length h2) * (1 - d * d))).
      { intros d d' d2 D Ed (HA & HB). destruct (lock_closer d D) as (LC1 & LC2). rewrite <- Ed in LC1, LC2. split; [lra|]. intros D0. specialize (LC2 D0). eapply Rle_trans; [apply HB; lra|]. cbn [pow]. assert (0 <= (9801 / 9802) ^ length h2) by (apply pow_le; lra).
        replace (9801 / 9802 * (9801 / 9802) ^ length h2 * (1 - d * d)) with ((9801 / 9802) ^ length h2 * (9801 / 9802 * (1 - d * d))) by ring. apply Rmult_le_compat_l; assumption. }
      intros l r [El|El]; pose proof (f_equal fst El) as X1; pose proof (f_equal snd El) as X2; cbn [fst snd] in X1, X2; subst l r; cbn [length].
      + apply (CORE _ (agree (fs_o1l s') (fs_o1r s'))); [apply agree_range; assumption|exact G1|]. apply (H fs_o1l fs_o1r). auto.
      + apply (CORE _ (agree (fs_o2l s') (fs_o2r s'))); [apply agree_range; assumption|exact G2|]. apply (H fs_o2l fs_o2r). auto. }
  intros s1 E1 F1. destruct (X s1 F1) as (s2 & y2 & E2 & H). exists s2, y2. auto.
Qed.
(* exactly out of phase the right oscillator is never turned round: the target is a fixed point of the lock *)
Theorem C217_opposite_refuted : forall tab ws sr p xs s M, fine M s -> Rabs (fs_target sr p) <= 8000000 -> (forall i, (0 <= i < 1024)%Z -> -1 <= ws i <= 1) -> Forall (fun x => Rabs (fst x) <= M - 1 /\ Rabs (snd x) <= M - 1) xs ->
  fs_locked p = true -> agree (fs_o1l s) (fs_o1r s) = -1 -> exists s' ys, fs_process tab ws sr p s xs = Ok (s', ys) /\ fine M s' /\ agree (fs_o1l s') (fs_o1r s') = -1.
Proof.
  intros tab ws sr p xs s M F T WS X K A. destruct (process_fine tab ws sr p xs s M F T WS X) as (s' & ys & E & F' & G). exists s', ys. split; [exact E|]. split; [exact F'|]. destruct (G K) as (-> & _). rewrite A.
  replace (m2 (-1)) with (98 / 100 * (98 / 100)) by (unfold m2; field). rewrite sqrt_square by lra. field.
Qed.
(* settings, blocks and an out-of-phase state that meet the hypotheses *)
Definition ex_par : fspar := mk_fp 0 (1 / 2) false 0 1 1 false 1.
Definition ex_ws : Z -> R := fun i => (IZR i - 512) / 512.
Lemma ex_time : Rabs (fs_target 48000 ex_par) <= 8000000.
Proof. unfold fs_target, sync, ex_par. cbn [fp_sync fp_pitch]. rewrite Rabs_right; lra. Qed.
Lemma ex_locked : fs_locked ex_par = true.
Proof. unfold fs_locked, ex_par. cbn [fp_rmult]. destruct (Rlt_dec _ _) as [H|H]; [reflexivity|]. exfalso. apply H. replace (1 - 1) with 0 by ring. rewrite Rabs_R0. lra. Qed.
Lemma ex_table : forall i, (0 <= i < 1024)%Z -> -1 <= ex_ws i <= 1.
Proof. intros i I. unfold ex_ws. assert (0 <= IZR i <= 1024) by (split; apply IZR_le; lia). lra. Qed.
Example C214_ex : Rabs (fs_target 48000 ex_par) <= 8000000 /\ timely 48000 [(ex_par, repeat (1, 0) 32)] /\ limited 1 [(ex_par, repeat (1, 0) 32)] /\ (forall i, (0 <= i < 1024)%Z -> -1 <= ex_ws i <= 1).
Proof.
  split; [exact ex_time|]. split; [apply Forall_cons; [exact ex_time|apply Forall_nil]|]. split; [|exact ex_table]. apply Forall_cons; [|apply Forall_nil]. apply Forall_forall. intros x Hx. cbn [snd] in Hx. apply repeat_spec in Hx. subst x. cbn [fst snd]. rewrite Rabs_R0, Rabs_R1. lra.
Qed.
Example C217_ex : fs_locked ex_par = true /\ exists s, fine 2 s /\ agree (fs_o1l s) (fs_o1r s) = -1.
Proof.
  split; [exact ex_locked|]. destruct (new_fine 48000 ex_par 2 ltac:(lra) ex_time) as (s & _ & ((U1 & U2 & U3 & U4) & L & C)).
  exists (mk_fs (fs_fr s) (fs_fi s) (fs_mix s) (fs_fb s) (fs_time s) (fs_bl s) (fs_br s) (fs_wpos s) (mk_qo 0 (- (1)) 1 0) (fs_o2l s) (mk_qo 0 1 1 0) (fs_o2r s)). split; [|unfold agree; cbn [fs_o1l fs_o1r qo_r qo_i]; ring].
  split; [|split; [exact L|exact C]]. repeat split; try assumption; unfold unit; cbn [fs_o1l fs_o1r qo_r qo_i]; ring.
Qed.
Print Assumptions C214_safe.
Print Assumptions C214_huge_time_panics.
Print Assumptions C217_lock.
Print Assumptions C217_opposite_refuted.
