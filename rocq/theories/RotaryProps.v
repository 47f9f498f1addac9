(* RotaryProps.v - C208-C212: the rotary speaker. *)
From Coq Require Import Reals Lra Psatz.
From Coquelicot Require Rcomplements.
From Verif Require Import Base Util LagModel LagProps MathModel ParamModel LfoModel BiquadModel BiquadProofs BiquadProps2 UnitModel DelayModel DelayProps FlangerProps OscProps RotaryModel.
Local Open Scope R_scope.

(** ** specification *)
(* a straight line from a to b over the 32 samples of a block *)
Definition glide (a b : R) (k : nat) : R := a + INR k / 32 * (b - a).
(* where the ramp starts: at its target if this is its first, else at the previous one *)
Definition from (l : lipol) (x : R) : R := if p_first l then x else p_new l.
(* the horn's mouth is at angle phi on a circle of radius 1; the two microphones stand at (-1, -2) and (1, -2) *)
Definition mouth (phi : R) : R * R := (sin phi, - cos phi).
Definition mic_l : R * R := (-1, -2).
Definition mic_r : R * R := (1, -2).
Definition dist (a b : R * R) : R := sqrt ((fst a - fst b) * (fst a - fst b) + (snd a - snd b) * (snd a - snd b)).
(* the cosine of the angle between where the horn points (outwards) and the direction of the microphone *)
Definition facing (a m : R * R) : R := (fst a * (fst m - fst a) + snd a * (snd m - snd a)) / dist a m.
Definition level (p : ropar) (c : R) : R := 1 - rp_amp p * (6 / 10) * (1 - c).
Definition travel (sr : R) (p : ropar) (d : R) : R := sr * (18 / 10000) * rp_doppler p * d.
(* what a microphone hears of the line h at time t with delay v: 12 samples weighted by 12 entries of the table *)
Definition rtap (tab : Z -> R) (si : Z) (h : Z -> R) (u : Z) : R :=
  fold_right Rplus 0 (map (fun i => h (u - i)%Z * tab (si + 12 - i)%Z) [0; 1; 2; 3; 4; 5; 6; 7; 8; 9; 10; 11]%Z).
Definition rread (tab : Z -> R) (h : Z -> R) (t : Z) (v : R) : R := rtap tab (ro_sinc (dd_dtime v) v) h (t - dd_dtime v).
Definition lows (s : rotary) (xs : list (R * R)) : list R := snd (mono_loop (ro_xo s) (map ro_in xs)).
Definition subs (s : rotary) (xs : list (R * R)) : list R := snd (mono_loop (ro_lb s) (lows s xs)).
Definition upper (s : rotary) (xs : list (R * R)) (k : nat) : R := ro_in (nth k xs (0, 0)) - nth k (lows s xs) 0.
(* the line holds the last 2^18 samples before time t *)
Definition keeps (t : Z) (h : Z -> R) (b : dbuf) : Prop := forall u, (t - DLEN <= u < t)%Z -> b (u mod DLEN)%Z = h u.
Definition ro_at (n : Z) (h : Z -> R) (phi psi : R) (s : rotary) : Prop :=
  ro_wpos s = ((32 * n) mod DLEN)%Z /\ keeps (32 * n) h (ro_buf s) /\
  (qo_r (ro_lfo s) = sin phi /\ qo_i (ro_lfo s) = - cos phi) /\ (qo_r (ro_lf s) = sin psi /\ qo_i (ro_lf s) = - cos psi) /\
  p_bsinv (ro_dl s) = 1 / 32 /\ p_bsinv (ro_dr s) = 1 / 32 /\ p_bsinv (ro_hl s) = 1 / 32 /\ p_bsinv (ro_hr s) = 1 / 32.
(* the horn's turn per block *)
Definition turn (sr : R) (p : ropar) : R := ro_x sr p * 32.

(** ** ramps *)
Lemma times_in {A} (f : A -> A) i a : times i f (f a) = times (Datatypes.S i) f a.
Proof. induction i as [|i IH]; [reflexivity|]. cbn [times] in *. now rewrite IH. Qed.
Lemma glides l x k : p_bsinv l = 1 / 32 -> p_v (times k lipol_process (lipol_new_value l x)) = glide (from l x) x k.
Proof. intros B. destruct (lipol_times k (lipol_new_value l x)) as (V & _). cbv zeta in V. rewrite V. unfold lipol_new_value, glide, from. cbn [p_v p_dv]. rewrite B. field. Qed.
(** ** the line *)
Lemma sinc_range dt v : (0 <= ro_sinc dt v <= 3060)%Z.
Proof.
  unfold ro_sinc. set (y := limit_range_R _ 0 255). assert (Y : 0 <= y <= 255) by (unfold y, limit_range_R, Rmin, Rmax; destruct (Rle_dec _ 0); destruct (Rle_dec _ 255); lra).
  clearbody y. destruct (floor_ex (12 * y)) as (k & K & F); [lra|]. assert (IZR k <= 3060) by lra. assert (k <= 3060)%Z by (apply le_IZR; exact H). rewrite (as_i32R_is _ k) by (unfold i32_max; lia || exact F). lia.
Qed.
Lemma read_keeps tab n k h b v : (0 <= n)%Z -> (0 <= k < 32)%Z -> keeps (32 * n + k + 1) h b -> ro_read tab b ((32 * n) mod DLEN) k v = Ok (rread tab h (32 * n + k) v).
Proof.
  intros N K H. unfold ro_read. cbv zeta. pose proof (dtime_range v) as D. pose proof (sinc_range (dd_dtime v) v) as S0. set (si := ro_sinc (dd_dtime v) v) in *. set (dt := dd_dtime v) in *.
  assert (G : forall i, (0 <= i <= 11)%Z -> rget b (Z.land ((32 * n) mod DLEN - dt + k - i) (DLEN - 1)) = Ok (h (32 * n + k - dt - i)%Z)).
  { intros i I. rewrite landD. unfold rget. pose proof (Z.mod_pos_bound ((32 * n) mod DLEN - dt + k - i) DLEN ltac:(unfold DLEN; lia)) as M.
    replace (0 <=? ((32 * n) mod DLEN - dt + k - i) mod DLEN)%Z with true by lia. replace (((32 * n) mod DLEN - dt + k - i) mod DLEN <? DLEN)%Z with true by lia. cbn [andb]. f_equal.
    replace ((32 * n) mod DLEN - dt + k - i)%Z with ((32 * n) mod DLEN + (k - dt - i))%Z by lia. rewrite Zplus_mod_idemp_l. replace (32 * n + (k - dt - i))%Z with (32 * n + k - dt - i)%Z by lia. apply H. unfold DLEN in *. lia. }
  assert (T : forall i, (0 <= i <= 11)%Z -> sget tab (si + 12 - i) = Ok (tab (si + 12 - i)%Z)).
  { intros i I. unfold sget. replace (0 <=? si + 12 - i)%Z with true by lia. replace (si + 12 - i <? 3084)%Z with true by lia. reflexivity. }
  cbn [foldM]. rewrite !G, !T by lia. cbn [obind]. f_equal. unfold rread. fold dt si. unfold rtap. cbn [map fold_right]. ring.
Qed.
Lemma keeps_set n k h b : (0 <= n)%Z -> (0 <= k < 32)%Z -> keeps (32 * n + k) h b ->
  exists b', rset b (Z.land ((32 * n) mod DLEN + k) (DLEN - 1)) (h (32 * n + k)%Z) = Ok b' /\ keeps (32 * n + k + 1) h b'.
Proof.
  intros N K H. rewrite landD. unfold rset. pose proof (Z.mod_pos_bound ((32 * n) mod DLEN + k) DLEN ltac:(unfold DLEN; lia)) as M.
  replace (0 <=? ((32 * n) mod DLEN + k) mod DLEN)%Z with true by lia. replace (((32 * n) mod DLEN + k) mod DLEN <? DLEN)%Z with true by lia. cbn [andb].
  eexists. split; [reflexivity|]. intros u U. rewrite Zplus_mod_idemp_l. destruct (Z.eqb_spec (u mod DLEN) ((32 * n + k) mod DLEN)) as [E|E].
  - f_equal. assert (Q : exists q, (u - (32 * n + k) = q * DLEN)%Z). { assert (DL : (DLEN <> 0)%Z) by (unfold DLEN; lia). pose proof (Z.div_mod u DLEN DL). pose proof (Z.div_mod (32 * n + k) DLEN DL). exists (u / DLEN - (32 * n + k) / DLEN)%Z. rewrite E in H0. lia. }
    destruct Q as (q & Q). unfold DLEN in *. lia.
  - apply H. assert (u <> 32 * n + k)%Z by (intros ->; now apply E). assert (u <> 32 * n + k - DLEN)%Z; [|lia]. intros ->. apply E. replace (32 * n + k - DLEN)%Z with (32 * n + k + -1 * DLEN)%Z by lia. rewrite Z.mod_add by (unfold DLEN; lia). reflexivity.
Qed.
Lemma samples_spec tab n h : (0 <= n)%Z -> forall us k s, (0 <= k)%Z -> (k + Z.of_nat (length us) <= 32)%Z -> ro_wpos s = ((32 * n) mod DLEN)%Z -> keeps (32 * n + k) h (ro_buf s) ->
  (forall j, (j < length us)%nat -> h (32 * n + k + Z.of_nat j)%Z = nth j us 0) ->
  exists b, ro_samples tab k us s = Ok (mk_ro b (ro_wpos s) (ro_xo s) (ro_lb s) (ro_lfo s) (ro_lf s) (times (length us) lipol_process (ro_dl s)) (times (length us) lipol_process (ro_dr s)) (ro_hl s) (ro_hr s),
    map (fun j => (rread tab h (32 * n + k + Z.of_nat j) (p_v (times j lipol_process (ro_dl s))), rread tab h (32 * n + k + Z.of_nat j) (p_v (times j lipol_process (ro_dr s))))) (seq 0 (length us))) /\
    keeps (32 * n + k + Z.of_nat (length us)) h b.
Proof.
  intros N. induction us as [|u us IH]; intros k s K1 K2 W H V.
  - exists (ro_buf s). cbn [ro_samples length times seq map]. split; [destruct s; reflexivity|]. now rewrite Z.add_0_r.
  - cbn [length] in *. destruct (keeps_set n k h (ro_buf s) N ltac:(lia) H) as (b1 & E & H1). pose proof (V 0%nat ltac:(lia)) as V0. rewrite Z.add_0_r in V0. cbn [nth] in V0. rewrite V0 in E.
    cbn [ro_samples]. unfold ro_sample. rewrite W, E. cbn [obind]. rewrite !(read_keeps tab n k h b1) by (lia || exact H1). cbn [obind].
    match goal with |- context [ro_samples tab (k + 1) us ?s1] => destruct (IH (k + 1)%Z s1) as (b & E2 & H2) end; cbn [ro_wpos ro_buf]; try lia; try reflexivity.
    + now rewrite Z.add_assoc.
    + intros j J. replace (32 * n + (k + 1) + Z.of_nat j)%Z with (32 * n + k + Z.of_nat (Datatypes.S j))%Z by lia. rewrite V by lia. reflexivity.
    + exists b. rewrite E2. cbn [obind ro_wpos ro_xo ro_lb ro_lfo ro_lf ro_dl ro_dr ro_hl ro_hr]. rewrite !times_in. split; [|replace (32 * n + k + Z.of_nat (Datatypes.S (length us)))%Z with (32 * n + (k + 1) + Z.of_nat (length us))%Z by lia; exact H2].
      do 2 f_equal. cbn [seq map]. rewrite Z.add_0_r. cbn [times]. f_equal. rewrite <- seq_shift, map_map. apply map_ext. intros j. rewrite !times_in. replace (32 * n + (k + 1) + Z.of_nat j)%Z with (32 * n + k + Z.of_nat (Datatypes.S j))%Z by lia. reflexivity.
Qed.
Lemma posts_spec : forall la lb lc s w psi, length la = length lc -> length lb = length lc -> qo_r (ro_lf s) = sin psi -> qo_i (ro_lf s) = - cos psi -> qo_dr (ro_lf s) = cos w -> qo_di (ro_lf s) = sin w ->
  let m := length lc in
  exists q, qo_r q = sin (psi + INR m * w) /\ qo_i q = - cos (psi + INR m * w) /\
  ro_posts la lb lc s = (mk_ro (ro_buf s) (ro_wpos s) (ro_xo s) (ro_lb s) (ro_lfo s) q (ro_dl s) (ro_dr s) (times m lipol_process (ro_hl s)) (times m lipol_process (ro_hr s)),
   map (fun j => let bass := nth j lb 0 + (nth j la 0 - nth j lb 0) * (sin (psi + INR j * w) * (6 / 10) + 3 / 10) in
      (p_v (times j lipol_process (ro_hl s)) * fst (nth j lc (0, 0)) + bass, p_v (times j lipol_process (ro_hr s)) * snd (nth j lc (0, 0)) + bass)) (seq 0 m)).
Proof.
  induction la as [|a la IH]; intros lb lc s w psi L1 L2 A B C D.
  - destruct lc; [|discriminate]. destruct lb; [|discriminate]. cbv zeta. cbn [length times seq map ro_posts INR]. exists (ro_lf s). rewrite Rmult_0_l, Rplus_0_r. repeat split; auto. destruct s; reflexivity.
  - destruct lc as [|c lc]; [discriminate|]. destruct lb as [|b lb]; [discriminate|]. cbn [length] in *. cbn [ro_posts]. unfold ro_post at 1. destruct (qo_step_unit _ _ _ A B C D) as (A1 & B1 & C1 & D1).
    match goal with |- context [ro_posts la lb lc ?s1] => destruct (IH lb lc s1 w (psi + w)) as (q & Q1 & Q2 & E) end; cbn [ro_lf]; auto; try lia. cbv zeta in *. cbn [ro_buf ro_wpos ro_xo ro_lb ro_lfo ro_lf ro_dl ro_dr ro_hl ro_hr] in E.
    exists q. replace (psi + INR (Datatypes.S (length lc)) * w) with (psi + w + INR (length lc) * w) by (rewrite S_INR; ring). split; [exact Q1|]. split; [exact Q2|].
    rewrite E. rewrite !times_in. f_equal. cbn [seq map nth times INR]. rewrite A, Rmult_0_l, Rplus_0_r. f_equal. rewrite <- seq_shift, map_map. apply map_ext. intros j. rewrite !times_in. cbn [nth].
    replace (psi + w + INR j * w) with (psi + INR (Datatypes.S j) * w) by (rewrite S_INR; ring). reflexivity.
Qed.

(** ** one block *)
Lemma geom_spec phi : ro_geom (sin phi) (- cos phi) = (dist (mouth phi) mic_l, dist (mouth phi) mic_r, facing (mouth phi) mic_l, facing (mouth phi) mic_r).
Proof.
  unfold ro_geom, facing, dist, mouth, mic_l, mic_r. cbn [fst snd].
  replace ((-2 - - cos phi) * (-2 - - cos phi) + (-1 - sin phi) * (-1 - sin phi)) with ((sin phi - -1) * (sin phi - -1) + (- cos phi - -2) * (- cos phi - -2)) by ring.
  replace ((-2 - - cos phi) * (-2 - - cos phi) + (1 - sin phi) * (1 - sin phi)) with ((sin phi - 1) * (sin phi - 1) + (- cos phi - -2) * (- cos phi - -2)) by ring.
  replace ((-1 - sin phi) * sin phi + (-2 - - cos phi) * - cos phi) with (sin phi * (-1 - sin phi) + - cos phi * (-2 - - cos phi)) by ring.
  replace ((1 - sin phi) * sin phi + (-2 - - cos phi) * - cos phi) with (sin phi * (1 - sin phi) + - cos phi * (-2 - - cos phi)) by ring. reflexivity.
Qed.
Definition dist_l phi := dist (mouth phi) mic_l.
Definition dist_r phi := dist (mouth phi) mic_r.
Definition horn (tab : Z -> R) (h : Z -> R) (t : Z) (k : nat) (hl dl : lipol) (lv tr : R) : R :=
  glide (from hl lv) lv k * rread tab h t (glide (from dl tr) tr k).
Lemma nth_map_seq {A} (f : nat -> A) d k m : (k < m)%nat -> nth k (map f (seq 0 m)) d = f k.
Proof. intros K. rewrite (nth_indep _ d (f 0%nat)) by (rewrite map_length, seq_length; exact K). rewrite map_nth, seq_nth by exact K. reflexivity. Qed.
Lemma nth_ups : forall ins ls k, (k < length ins)%nat -> length ls = length ins -> nth k (map (fun '(u, l) => u - l) (combine ins ls)) 0 = nth k ins 0 - nth k ls 0.
Proof. induction ins as [|u ins IH]; intros [|l ls] k K L; cbn in K, L; try lia. destruct k as [|k]; [reflexivity|]. cbn [combine map nth]. apply IH; lia. Qed.
Lemma keeps_ext t h h' b : (forall u, (t - DLEN <= u < t)%Z -> h u = h' u) -> keeps t h b -> keeps t h' b.
Proof. intros E H u U. rewrite <- E by exact U. now apply H. Qed.
Lemma rread_ext tab h h' n t v : (32 * n <= t < 32 * n + 32)%Z -> (forall u, (32 * n - DLEN <= u < 32 * n)%Z -> h u = h' u) -> rread tab h t v = rread tab h' t v.
Proof.
  intros T H. unfold rread, rtap. f_equal. apply map_ext_in. intros i Hi. f_equal. apply H. assert (0 <= i < 12)%Z by (cbn in Hi; lia). pose proof (dtime_range v). unfold DLEN in *. lia.
Qed.
Definition block_out (tab : Z -> R) (sr : R) (p : ropar) (s : rotary) (n : Z) (h : Z -> R) (phi psi : R) (xs : list (R * R)) (k : nat) : R * R :=
  let sub := nth k (subs s xs) 0 in let low := nth k (lows s xs) 0 in
  let bass := sub + (low - sub) * (sin (psi + INR k * (7 / 10 * turn sr p)) * (6 / 10) + 3 / 10) in
  (horn tab h (32 * n + Z.of_nat k) k (ro_hl s) (ro_dl s) (level p (facing (mouth phi) mic_l)) (travel sr p (dist_l phi)) + bass,
   horn tab h (32 * n + Z.of_nat k) k (ro_hr s) (ro_dr s) (level p (facing (mouth phi) mic_r)) (travel sr p (dist_r phi)) + bass).
Lemma block_spec tab sr p s xs n h phi psi : (0 <= n)%Z -> length xs = 32%nat -> ro_at n h phi psi s ->
  exists s', ro_process tab sr p s xs = Ok (s', map (block_out tab sr p s n h phi psi xs) (seq 0 32)) /\
    ro_at (n + 1) (append h n (fun k => upper s xs (Z.to_nat k))) (phi + turn sr p) (psi + 32 * (7 / 10 * turn sr p)) s' /\
    ro_xo s' = flush_left (fst (mono_loop (ro_xo s) (map ro_in xs))) /\ ro_lb s' = flush_left (fst (mono_loop (ro_lb s) (lows s xs))) /\
    p_new (ro_dl s') = travel sr p (dist_l phi) /\ p_new (ro_dr s') = travel sr p (dist_r phi) /\ p_new (ro_hl s') = level p (facing (mouth phi) mic_l) /\ p_new (ro_hr s') = level p (facing (mouth phi) mic_r) /\
    p_first (ro_dl s') = false /\ p_first (ro_dr s') = false /\ p_first (ro_hl s') = false /\ p_first (ro_hr s') = false.
Proof.
  intros N L (W & H & (A1 & A2) & (B1 & B2) & D1 & D2 & D3 & D4).
  unfold ro_process, ro_set_lfos. rewrite (qo_rate_unit _ _ _ A1 A2). cbn [obind]. rewrite (qo_rate_unit _ _ _ B1 B2). cbn [obind]. cbv zeta.
  unfold ro_targets. cbn [ro_lfo qo_r qo_i]. rewrite geom_spec. cbn [ro_buf ro_wpos ro_xo ro_lb ro_lf ro_dl ro_dr ro_hl ro_hr].
  unfold process_block_mono. unfold subs, lows. destruct (mono_loop (ro_xo s) (map ro_in xs)) as (xo1, ls) eqn:EX. cbn [fst snd].
  assert (LL : length ls = 32%nat) by (pose proof (mono_len (map ro_in xs) (ro_xo s)) as M; rewrite EX, map_length, L in M; exact M).
  assert (LU : length (map (fun '(u, l) => u - l) (combine (map ro_in xs) ls)) = 32%nat) by (rewrite map_length, combine_length, map_length; lia).
  set (ups := map (fun '(u, l) => u - l) (combine (map ro_in xs) ls)) in *. set (h' := append h n (fun k => upper s xs (Z.to_nat k))).
  match goal with |- context [ro_samples tab 0 ups ?s1] => destruct (samples_spec tab n h' N ups 0 s1) as (b & E & K2) end; cbn [ro_wpos ro_buf]; try lia; try exact W.
  { rewrite Z.add_0_r. apply (keeps_ext _ h); [|exact H]. intros u U. unfold h', append. replace (32 * n <=? u)%Z with false by lia. reflexivity. }
  { intros j J. unfold h', append. replace ((32 * n <=? 32 * n + 0 + Z.of_nat j) && (32 * n + 0 + Z.of_nat j <? 32 * n + 32))%Z with true by lia. replace (Z.to_nat (32 * n + 0 + Z.of_nat j - 32 * n)) with j by lia.
    unfold upper, lows. rewrite EX. cbn [snd]. unfold ups. rewrite nth_ups by (rewrite map_length; lia). rewrite (nth_indep (map ro_in xs) 0 (ro_in (0, 0))) by (rewrite map_length; lia). rewrite map_nth. reflexivity. }
  rewrite E. cbn [obind ro_wpos ro_xo ro_lb ro_lfo ro_lf ro_dl ro_dr ro_hl ro_hr]. rewrite LU in *.
  destruct (mono_loop (ro_lb s) ls) as (lb1, ss) eqn:EL. cbn [fst snd]. assert (LS : length ss = 32%nat) by (pose proof (mono_len ls (ro_lb s)) as M; rewrite EL in M; cbn [snd] in M; lia).
  match goal with |- context [ro_posts ls ss ?hs ?s1] => destruct (posts_spec ls ss hs s1 (7 / 10 * ro_x sr p * 32) psi) as (q & Q1 & Q2 & EP) end; try reflexivity; try (rewrite map_length, seq_length; assumption).
  cbv zeta in *. rewrite map_length, seq_length in *. rewrite EP. cbn [ro_buf ro_wpos ro_xo ro_lb ro_lfo ro_lf ro_dl ro_dr ro_hl ro_hr].
  eexists. split; [|split].
  - do 2 f_equal. apply map_ext_in. intros k Hk. apply in_seq in Hk. assert (Kk : (k < 32)%nat) by lia. unfold block_out, subs, lows. cbv zeta. rewrite EX. cbn [snd]. rewrite EL. cbn [snd].
    rewrite (nth_map_seq _ (0, 0) k 32 Kk). cbn [fst snd]. rewrite !glides by assumption. unfold horn. rewrite Z.add_0_r.
    assert (R1 : forall v, rread tab h' (32 * n + Z.of_nat k) v = rread tab h (32 * n + Z.of_nat k) v).
    { intros v. apply (rread_ext tab h' h n); [lia|]. intros u U. unfold h', append. replace (32 * n <=? u)%Z with false by lia. reflexivity. }
    rewrite !R1. replace (7 / 10 * ro_x sr p * 32) with (7 / 10 * turn sr p) by (unfold turn; ring).
    assert (LV : forall c, 1 - rp_amp p * (6 / 10) + rp_amp p * (6 / 10) * c = level p c) by (intros; unfold level; ring). rewrite !LV. unfold dist_l, dist_r, travel. reflexivity.
  - unfold ro_at. cbn [ro_buf ro_wpos ro_xo ro_lb ro_lfo ro_lf ro_dl ro_dr ro_hl ro_hr].
    destruct (qo_step_unit (mk_qo (sin phi) (- cos phi) (cos (ro_x sr p * 32)) (sin (ro_x sr p * 32))) (ro_x sr p * 32) phi) as (P1 & P2 & _); try reflexivity.
    split; [rewrite landD, W, Zplus_mod_idemp_l; f_equal; lia|]. split; [replace (32 * (n + 1))%Z with (32 * n + 0 + Z.of_nat 32)%Z by lia; exact K2|]. split; [split; assumption|].
    split. { replace (psi + 32 * (7 / 10 * turn sr p)) with (psi + INR 32 * (7 / 10 * ro_x sr p * 32)); [split; assumption|]. unfold turn. rewrite INR_IZR_INZ. change (Z.of_nat 32) with 32%Z. ring. }
    repeat split; rewrite (proj1 (proj2 (proj2 (proj2 (lipol_times _ _))))); assumption.
  - cbn [ro_xo ro_lb ro_dl ro_dr ro_hl ro_hr]. split; [reflexivity|]. split; [reflexivity|].
    assert (NW : forall l x, p_new (times 32 lipol_process (lipol_new_value l x)) = x /\ p_first (times 32 lipol_process (lipol_new_value l x)) = false).
    { intros l x. destruct (lipol_times 32 (lipol_new_value l x)) as (_ & X & _ & _ & Y). cbv zeta in X, Y. rewrite X, Y. split; reflexivity. }
    rewrite !(proj1 (NW _ _)), !(proj2 (NW _ _)). unfold travel, level, dist_l, dist_r. repeat split; ring.
Qed.

(** ** any history of blocks *)
Definition blocks (h : list (ropar * list (R * R))) : Prop := Forall (fun b => length (snd b) = 32%nat) h.
Definition turns (sr : R) (h : list (ropar * list (R * R))) : R := fold_right Rplus 0 (map (fun b => turn sr (fst b)) h).
Lemma run_spec tab sr : forall hs n h phi psi s, (0 <= n)%Z -> blocks hs -> ro_at n h phi psi s -> (forall t, (t < 0)%Z -> h t = 0) ->
  exists s' yss h', ro_run tab sr hs s = Ok (s', yss) /\ length yss = length hs /\ ro_at (n + Z.of_nat (length hs)) h' (phi + turns sr hs) (psi + 32 * (7 / 10) * turns sr hs) s' /\ (forall t, (t < 0)%Z -> h' t = 0).
Proof.
  induction hs as [|(p, xs) hs IH]; intros n h phi psi s N F A Z0.
  - exists s, [], h. cbn [ro_run length]. unfold turns. cbn [map fold_right]. rewrite Z.add_0_r, Rmult_0_r, !Rplus_0_r. auto.
  - inversion F as [|? ? L Fh]; subst. cbn [snd] in L. destruct (block_spec tab sr p s xs n h phi psi N L A) as (s1 & E1 & A1 & _).
    destruct (IH (n + 1)%Z _ _ _ s1 ltac:(lia) Fh A1) as (s2 & yss & h2 & E2 & L2 & A2 & Z2).
    { intros t T. unfold append. replace (32 * n <=? t)%Z with false by lia. cbn [andb]. now apply Z0. }
    exists s2. eexists. exists h2. cbn [ro_run]. rewrite E1. cbn [obind]. rewrite E2. cbn [obind length]. split; [reflexivity|]. split; [cbn [length]; now rewrite L2|]. split; [|exact Z2].
    replace (n + Z.of_nat (Datatypes.S (length hs)))%Z with (n + 1 + Z.of_nat (length hs))%Z by lia. unfold turns in *. cbn [map fold_right fst].
    replace (phi + (turn sr p + fold_right Rplus 0 (map (fun b => turn sr (fst b)) hs))) with (phi + turn sr p + fold_right Rplus 0 (map (fun b => turn sr (fst b)) hs)) by ring.
    replace (psi + 32 * (7 / 10) * (turn sr p + fold_right Rplus 0 (map (fun b => turn sr (fst b)) hs))) with (psi + 32 * (7 / 10 * turn sr p) + 32 * (7 / 10) * fold_right Rplus 0 (map (fun b => turn sr (fst b)) hs)) by ring. exact A2.
Qed.
Lemma init_at om : ro_at 0 (fun _ => 0) 0 0 (ro_init om ro_new).
Proof.
  unfold ro_at, ro_init, ro_new. cbn [ro_wpos ro_buf ro_lfo ro_lf ro_dl ro_dr ro_hl ro_hr]. unfold qo_default, lipol_new, lipol_set_blocksize. cbn [qo_r qo_i p_bsinv]. rewrite sin_0, cos_0.
  repeat split; try reflexivity; try lra; rewrite INR_IZR_INZ; reflexivity.
Qed.

(** ** C208 the horn *)
(* after any history of blocks the horn has turned by the sum of the blocks' turns: 2 pi 2^rate / (sample rate) per sample *)
Theorem C208_turns : forall tab sr om h, blocks h -> exists s yss, ro_run tab sr h (ro_init om ro_new) = Ok (s, yss) /\
  (qo_r (ro_lfo s), qo_i (ro_lfo s)) = mouth (turns sr h).
Proof.
  intros tab sr om h F. destruct (run_spec tab sr h 0 _ 0 0 _ ltac:(lia) F (init_at om) ltac:(reflexivity)) as (s & yss & h' & E & _ & (_ & _ & (A & B) & _) & _).
  exists s, yss. split; [exact E|]. rewrite A, B, Rplus_0_l. reflexivity.
Qed.
Theorem C208_rate : forall sr p, 0 < sr -> turn sr p = 2 * PI * Rpower 2 (rp_rate p * rp_ratio p) * (32 / sr).
Proof. intros. unfold turn, ro_x. field. lra. Qed.
(* the horn is never at a microphone: its distance is within root 5 minus 1 and root 5 plus 1, so no block divides by zero *)
Lemma sqrt5 : sqrt 5 * sqrt 5 = 5 /\ 2 < sqrt 5 < 3.
Proof. assert (S : sqrt 5 * sqrt 5 = 5) by (apply sqrt_sqrt; lra). pose proof (sqrt_pos 5). split; [exact S|]. split; nra. Qed.
Theorem C208_distance : forall phi m, m = mic_l \/ m = mic_r -> sqrt 5 - 1 <= dist (mouth phi) m <= sqrt 5 + 1.
Proof.
  intros phi m M. destruct sqrt5 as (S5 & B5). pose proof (sin2_cos2 phi) as T. unfold Rsqr in T. unfold dist, mouth. cbn [fst snd].
  set (a := sin phi) in *. set (c := cos phi) in *. assert (Q : exists e, (e = 1 \/ e = -1) /\ (a - fst m) * (a - fst m) + (- c - snd m) * (- c - snd m) = 6 + (2 * e * a - 4 * c) /\ fst m = - e /\ snd m = -2).
  { destruct M as [-> | ->]; [exists 1|exists (-1)]; unfold mic_l, mic_r; cbn [fst snd]; (split; [auto|]); (split; [|split; lra]); nra. }
  destruct Q as (e & He & Q & _). rewrite Q. assert (E2 : e * e = 1) by (destruct He as [-> | ->]; ring).
  assert (CS : (2 * e * a - 4 * c) * (2 * e * a - 4 * c) <= (2 * sqrt 5) * (2 * sqrt 5)).
  { replace (2 * sqrt 5 * (2 * sqrt 5)) with (4 * (sqrt 5 * sqrt 5)) by ring. rewrite S5. assert (X : 0 <= (2 * e * c + a * 4 ) * (2 * e * c + a * 4)) by apply Rle_0_sqr. nra. }
  assert (CA : Rabs (2 * e * a - 4 * c) <= 2 * sqrt 5). { apply sq_le_abs; [lra|exact CS]. } apply Rcomplements.Rabs_le_between in CA.
  split.
  - apply Rsqr_incr_0_var; [|apply sqrt_pos]. unfold Rsqr. rewrite sqrt_sqrt; nra.
  - apply Rsqr_incr_0_var; [|lra]. unfold Rsqr. rewrite sqrt_sqrt; nra.
Qed.
(* how loud: one when the horn faces the microphone, 1 - 1.2 times the setting when it faces away, never outside *)
Theorem C208_level : forall p phi m, m = mic_l \/ m = mic_r -> 0 <= rp_amp p -> 1 - 12 / 10 * rp_amp p <= level p (facing (mouth phi) m) <= 1.
Proof.
  intros p phi m M Am. pose proof (C208_distance phi m M) as D. destruct sqrt5 as (S5 & B5). set (d := dist (mouth phi) m) in *. assert (D0 : 0 < d) by lra.
  assert (F : -1 <= facing (mouth phi) m <= 1).
  { unfold facing. fold d. set (x := fst (mouth phi) * (fst m - fst (mouth phi)) + snd (mouth phi) * (snd m - snd (mouth phi))).
    assert (DD : d * d = (fst (mouth phi) - fst m) * (fst (mouth phi) - fst m) + (snd (mouth phi) - snd m) * (snd (mouth phi) - snd m)).
    { unfold d, dist. apply sqrt_sqrt. assert (0 <= (fst (mouth phi) - fst m) * (fst (mouth phi) - fst m)) by apply Rle_0_sqr. assert (0 <= (snd (mouth phi) - snd m) * (snd (mouth phi) - snd m)) by apply Rle_0_sqr. lra. }
    assert (X : x * x <= d * d).
    { rewrite DD. unfold x, mouth. cbn [fst snd]. pose proof (sin2_cos2 phi) as T. unfold Rsqr in T. set (a := sin phi) in *. set (c := - cos phi). set (u := fst m). set (v := snd m).
      assert (T2 : a * a + c * c = 1) by (unfold c; lra).
      assert (I : (a * (u - a) + c * (v - c)) * (a * (u - a) + c * (v - c)) + (a * (v - c) - c * (u - a)) * (a * (v - c) - c * (u - a)) = (a * a + c * c) * ((a - u) * (a - u) + (c - v) * (c - v))) by ring.
      rewrite T2 in I. assert (0 <= (a * (v - c) - c * (u - a)) * (a * (v - c) - c * (u - a))) by apply Rle_0_sqr. lra. }
    assert (XA : Rabs x <= d) by (apply sq_le_abs; [lra|exact X]). apply Rcomplements.Rabs_le_between in XA.
    split; [apply Rcomplements.Rle_div_r; lra|apply Rcomplements.Rle_div_l; lra]. }
  unfold level. split; nra.
Qed.
Theorem C208_level_attained : exists phi phi', forall p, level p (facing (mouth phi) mic_l) = 1 - 12 / 10 * rp_amp p /\ level p (facing (mouth phi') mic_l) = 1.
Proof.
  destruct sqrt5 as (S5 & B5). assert (Y : -1 <= / sqrt 5 <= 1). { split; [assert (0 < / sqrt 5) by (apply Rinv_0_lt_compat; lra); lra|]. rewrite <- Rinv_1. apply Rinv_le_contravar; lra. }
  assert (C : cos (asin (/ sqrt 5)) = 2 * / sqrt 5).
  { rewrite cos_asin by exact Y. unfold Rsqr. replace (1 - / sqrt 5 * / sqrt 5) with (2 * / sqrt 5 * (2 * / sqrt 5)).
    - apply sqrt_square. apply Rmult_le_pos; [lra|]. left. apply Rinv_0_lt_compat. lra.
    - rewrite <- Rinv_mult. replace (2 * / sqrt 5 * (2 * / sqrt 5)) with (4 * (/ sqrt 5 * / sqrt 5)) by ring. rewrite <- Rinv_mult. rewrite S5. lra. }
  set (q := / sqrt 5) in *. assert (QS : q * sqrt 5 = 1) by (unfold q; field; lra). assert (Q0 : 0 < q) by (unfold q; apply Rinv_0_lt_compat; lra).
  exists (PI - asin q), (- asin q). intros p.
  assert (M1 : mouth (PI - asin q) = (q, 2 * q)). { unfold mouth. rewrite sin_minus, cos_minus, sin_PI, cos_PI, sin_asin, C by exact Y. f_equal; ring. }
  assert (M2 : mouth (- asin q) = (- q, - (2 * q))). { unfold mouth. rewrite sin_neg, cos_neg, sin_asin, C by exact Y. f_equal; ring. }
  assert (Q5 : q * q * 5 = 1) by (rewrite <- S5; replace (q * q * (sqrt 5 * sqrt 5)) with ((q * sqrt 5) * (q * sqrt 5)) by ring; rewrite QS; ring).
  assert (D1 : dist (q, 2 * q) mic_l = sqrt 5 + 1). { unfold dist, mic_l. cbn [fst snd]. replace ((q - -1) * (q - -1) + (2 * q - -2) * (2 * q - -2)) with ((sqrt 5 + 1) * (sqrt 5 + 1)); [apply sqrt_square; lra|]. replace (q * 10) with (q * 2 * (sqrt 5 * sqrt 5)) by (rewrite S5; ring). replace ((q - -1) * (q - -1) + (2 * q - -2) * (2 * q - -2)) with (q * q * 5 + 2 * q * 5 + 5) by ring. rewrite Q5. replace (2 * q * 5) with (2 * (q * sqrt 5) * sqrt 5) by (rewrite <- S5 at 3; ring). rewrite QS. rewrite <- S5 at 4. ring. }
  assert (D2 : dist (- q, - (2 * q)) mic_l = sqrt 5 - 1). { unfold dist, mic_l. cbn [fst snd]. replace ((- q - -1) * (- q - -1) + (- (2 * q) - -2) * (- (2 * q) - -2)) with ((sqrt 5 - 1) * (sqrt 5 - 1)); [apply sqrt_square; lra|]. replace ((- q - -1) * (- q - -1) + (- (2 * q) - -2) * (- (2 * q) - -2)) with (q * q * 5 - 2 * q * 5 + 5) by ring. rewrite Q5. replace (2 * q * 5) with (2 * (q * sqrt 5) * sqrt 5) by (rewrite <- S5 at 3; ring). rewrite QS. rewrite <- S5 at 4. ring. }
  rewrite M1, M2. unfold level, facing. rewrite D1, D2. unfold mic_l. cbn [fst snd].
  replace (q * (-1 - q) + 2 * q * (-2 - 2 * q)) with (- (q * 5) - q * q * 5) by ring. replace (- q * (-1 - - q) + - (2 * q) * (-2 - - (2 * q))) with (q * 5 - q * q * 5) by ring. rewrite Q5.
  replace (q * 5) with (sqrt 5) by (rewrite <- S5 at 2; replace (q * (sqrt 5 * sqrt 5)) with (q * sqrt 5 * sqrt 5) by ring; rewrite QS; ring).
  split; field; lra.
Qed.
(* REFUTED tempo sync: the ratio multiplies the exponent, so doubling the tempo halves a horn rate of 1/2 turn per second instead of doubling it, and leaves a rate of one alone *)
Theorem C208_tempo_sync_refuted : forall sr d a r, 0 < sr -> turn sr (mk_rp (-1) 2 d a r) = turn sr (mk_rp (-1) 1 d a r) / 2 /\ turn sr (mk_rp 0 2 d a r) = turn sr (mk_rp 0 1 d a r).
Proof.
  intros sr d a r S. rewrite !C208_rate by exact S. cbn [rp_rate rp_ratio]. replace (-1 * 2) with (- (1) + - (1)) by ring. replace (-1 * 1) with (- (1)) by ring. rewrite Rpower_plus, Rpower_Ropp, Rpower_1 by lra. rewrite !Rmult_0_l. split; field; lra.
Qed.
Example C208_nonvacuous : blocks [(mk_rp 1 1 (1 / 4) (1 / 2) (1 / 2), repeat (1, -1) 32)] /\ level (mk_rp 1 1 (1 / 4) 1 (1 / 2)) (-1) = - (2 / 10).
Proof. split; [repeat constructor|]. unfold level. cbn [rp_amp]. lra. Qed.
Print Assumptions C208_turns. Print Assumptions C208_rate. Print Assumptions C208_distance. Print Assumptions C208_level. Print Assumptions C208_level_attained. Print Assumptions C208_tempo_sync_refuted.

(** ** C209 the delay line and what is heard *)
(* for every history of 32-sample blocks and settings: no access outside a buffer; the next block's sample k is, per side, the horn's level times
   the line heard at the horn's travel time, both on a straight line from the previous block's value, plus the bass *)
Theorem C209_blocks : forall tab sr om h, blocks h -> exists s yss hist, ro_run tab sr h (ro_init om ro_new) = Ok (s, yss) /\ length yss = length h /\ (forall t, (t < 0)%Z -> hist t = 0) /\
  keeps (32 * Z.of_nat (length h)) hist (ro_buf s) /\
  forall p xs, length xs = 32%nat -> exists s' ys, ro_process tab sr p s xs = Ok (s', ys) /\ length ys = 32%nat /\
   (forall k, (k < 32)%nat -> exists bass,
     nth k ys (0, 0) = (horn tab hist (32 * Z.of_nat (length h) + Z.of_nat k) k (ro_hl s) (ro_dl s) (level p (facing (mouth (turns sr h)) mic_l)) (travel sr p (dist_l (turns sr h))) + bass,
                        horn tab hist (32 * Z.of_nat (length h) + Z.of_nat k) k (ro_hr s) (ro_dr s) (level p (facing (mouth (turns sr h)) mic_r)) (travel sr p (dist_r (turns sr h))) + bass)) /\
   keeps (32 * Z.of_nat (length h) + 32) (append hist (Z.of_nat (length h)) (fun k => upper s xs (Z.to_nat k))) (ro_buf s').
Proof.
  intros tab sr om h F. destruct (run_spec tab sr h 0 _ 0 0 _ ltac:(lia) F (init_at om) ltac:(reflexivity)) as (s & yss & hist & E & L & A & Z0). rewrite !Rplus_0_l, Z.add_0_l in A.
  exists s, yss, hist. split; [exact E|]. split; [exact L|]. split; [exact Z0|]. split; [apply A|]. intros p xs LX.
  destruct (block_spec tab sr p s xs _ hist _ _ (Nat2Z.is_nonneg _) LX A) as (s' & E' & A' & _). exists s'. eexists. split; [exact E'|]. split; [now rewrite map_length, seq_length|]. split.
  - intros k K. rewrite nth_map_seq by exact K. unfold block_out. cbv zeta. eexists. reflexivity.
  - replace (32 * Z.of_nat (length h) + 32)%Z with (32 * (Z.of_nat (length h) + 1))%Z by lia. apply A'.
Qed.
(* what is heard was written before the block, and is never older than the line; a travel time below a block is heard as one block *)
Theorem C209_past_only : forall tab h h' n t v, (32 * n <= t < 32 * n + 32)%Z -> (forall u, (32 * n - DLEN <= u < 32 * n)%Z -> h u = h' u) -> rread tab h t v = rread tab h' t v.
Proof. exact rread_ext. Qed.
Theorem C209_short_delays : forall tab h t v, v < 33 -> exists si, rread tab h t v = rtap tab si h (t - 32).
Proof.
  intros tab h t v V. exists (ro_sinc 32 v). unfold rread. replace (dd_dtime v) with 32%Z; [reflexivity|]. unfold dd_dtime. destruct (Rlt_dec v 0) as [N|P].
  - assert (as_i32R v <= 0)%Z; [|unfold DLEN, FIRN; lia]. unfold as_i32R. assert (ParamModel.truncR v <= 0)%Z; [|unfold i32_min; lia]. change (ParamModel.truncR v) with (MathModel.truncR v). destruct (FastProps.truncR_spec v) as (_ & S2). specialize (S2 ltac:(lra)).
    assert (MathModel.truncR v < 1)%Z; [|lia]. apply lt_IZR. lra.
  - destruct (floor_ex v) as (k & K & I); [lra|]. assert (IZR k < 33) by lra. assert (k < 33)%Z by (apply lt_IZR; exact H). rewrite (as_i32R_is v k) by (unfold i32_max; lia || exact I). unfold DLEN, FIRN. lia.
Qed.
Example C209_nonvacuous : blocks [(mk_rp 1 1 1 1 1, repeat (1, -1) 32); (mk_rp 9 1 0 1 1, repeat (1, 1) 32)] /\ length (repeat (1, -1) 32) = 32%nat.
Proof. split; [repeat constructor|reflexivity]. Qed.
Print Assumptions C209_blocks. Print Assumptions C209_past_only. Print Assumptions C209_short_delays.

(** ** C210 the bass rotor *)
(* the bass part of every sample: the lowest band as it is, the band between 200 and 800 Hz at a level between -0.3 and 0.9 *)
Theorem C210_bass : forall tab sr om h p xs, blocks h -> length xs = 32%nat -> exists s yss s' ys, ro_run tab sr h (ro_init om ro_new) = Ok (s, yss) /\ ro_process tab sr p s xs = Ok (s', ys) /\
  forall k, (k < 32)%nat -> exists hl hr, let g := 3 / 10 + 6 / 10 * sin (22.4 * turns sr h + INR k * (7 / 10 * turn sr p)) in
    nth k ys (0, 0) = (hl + (nth k (subs s xs) 0 * (1 - g) + nth k (lows s xs) 0 * g), hr + (nth k (subs s xs) 0 * (1 - g) + nth k (lows s xs) 0 * g)) /\ - (3 / 10) <= g <= 9 / 10.
Proof.
  intros tab sr om h p xs F LX. destruct (run_spec tab sr h 0 _ 0 0 _ ltac:(lia) F (init_at om) ltac:(reflexivity)) as (s & yss & hist & E & L & A & Z0). rewrite !Rplus_0_l, Z.add_0_l in A.
  destruct (block_spec tab sr p s xs _ hist _ _ (Nat2Z.is_nonneg _) LX A) as (s' & E' & A' & _). exists s, yss, s'. eexists. split; [exact E|]. split; [exact E'|]. intros k K. rewrite nth_map_seq by exact K. unfold block_out. cbv zeta.
  replace (22.4 * turns sr h) with (32 * (7 / 10) * turns sr h) by lra. do 2 eexists. split; [f_equal; f_equal; ring|].
  match goal with |- context [sin ?x] => pose proof (SIN_bound x) end. lra.
Qed.
(* REFUTED: it is meant to turn at 0.7 of the horn's speed, but its turn per block is made at every sample: it turns 22.4 times as fast as
   the horn while sound is processed, and 0.7 times as fast while the effect is bypassed *)
Theorem C210_bass_speed_refuted : forall tab sr om h, blocks h -> exists s yss, ro_run tab sr h (ro_init om ro_new) = Ok (s, yss) /\
  (qo_r (ro_lf s), qo_i (ro_lf s)) = mouth (22.4 * turns sr h) /\
  forall p, exists s', ro_control sr p s = Ok s' /\ (qo_r (ro_lfo s'), qo_i (ro_lfo s')) = mouth (turns sr h + turn sr p) /\ (qo_r (ro_lf s'), qo_i (ro_lf s')) = mouth (22.4 * turns sr h + 0.7 * turn sr p).
Proof.
  intros tab sr om h F. destruct (run_spec tab sr h 0 _ 0 0 _ ltac:(lia) F (init_at om) ltac:(reflexivity)) as (s & yss & hist & E & L & A & Z0). rewrite !Rplus_0_l, Z.add_0_l in A.
  exists s, yss. split; [exact E|]. destruct A as (_ & _ & (A1 & A2) & (B1 & B2) & _). replace (22.4 * turns sr h) with (32 * (7 / 10) * turns sr h) by lra. split; [rewrite B1, B2; reflexivity|].
  intros p. unfold ro_control, ro_set_lfos. rewrite (qo_rate_unit _ _ _ A1 A2). cbn [obind]. rewrite (qo_rate_unit _ _ _ B1 B2). cbn [obind ro_lfo ro_lf]. eexists. split; [reflexivity|]. cbn [ro_lfo ro_lf].
  destruct (qo_step_unit (mk_qo (sin (turns sr h)) (- cos (turns sr h)) (cos (ro_x sr p * 32)) (sin (ro_x sr p * 32))) (ro_x sr p * 32) (turns sr h)) as (P1 & P2 & _); try reflexivity.
  destruct (qo_step_unit (mk_qo (sin (32 * (7 / 10) * turns sr h)) (- cos (32 * (7 / 10) * turns sr h)) (cos (7 / 10 * ro_x sr p * 32)) (sin (7 / 10 * ro_x sr p * 32))) (7 / 10 * ro_x sr p * 32) (32 * (7 / 10) * turns sr h)) as (P3 & P4 & _); try reflexivity.
  rewrite P1, P2, P3, P4. replace (0.7 * turn sr p) with (7 / 10 * ro_x sr p * 32) by (unfold turn; lra). split; reflexivity.
Qed.
Example C210_nonvacuous : blocks (repeat (mk_rp 1 1 (1 / 4) (1 / 2) (1 / 2), repeat (1, 1) 32) 100).
Proof. unfold blocks. apply Forall_forall. intros b Hb. apply repeat_spec in Hb. subst b. reflexivity. Qed.
Print Assumptions C210_bass. Print Assumptions C210_bass_speed_refuted.

(** ** C211 the horn's delay is read between samples *)
(* REFUTED: the table has 256 rows of 12 weights; the row number is multiplied by 12 before it is made an integer, so reading starts anywhere in a row.
   With a table every row of which is the same pure delay (one weight 1 at place 6), a travel time of dt + 1 - k/3072 should be heard at one
   and the same sample for all k; it is heard at one of 12 samples, depending on k mod 12 *)
Definition pure (j : Z) : R := if (j mod 12 =? 6)%Z then 1 else 0.
Lemma sinc_at dt k : (1 <= k <= 3060)%Z -> ro_sinc dt (IZR (dt + 1) - IZR k / 3072) = k.
Proof.
  intros K. unfold ro_sinc. replace (256 * (IZR (dt + 1) - (IZR (dt + 1) - IZR k / 3072))) with (IZR k / 12) by field. assert (B : 1 <= IZR k <= 3060) by (split; apply IZR_le; lia).
  unfold limit_range_R. rewrite Rmax_left, Rmin_left by (rewrite ?Rmax_left; lra). apply as_i32R_is; [unfold i32_max; lia|]. split; lra.
Qed.
Lemma dtime_at dt k : (32 <= dt <= DLEN - 13)%Z -> (1 <= k <= 3060)%Z -> dd_dtime (IZR (dt + 1) - IZR k / 3072) = dt.
Proof.
  intros D K. assert (B : 1 <= IZR k <= 3060) by (split; apply IZR_le; lia). unfold dd_dtime. rewrite (as_i32R_is _ dt); [unfold FIRN in *; lia|unfold DLEN, i32_max in *; lia|]. rewrite plus_IZR. lra.
Qed.
Theorem C211_rows_refuted : forall h t dt k, (32 <= dt <= DLEN - 13)%Z -> (1 <= k <= 3060)%Z ->
  rread pure h t (IZR (dt + 1) - IZR k / 3072) = h (t - dt - (k - 6) mod 12)%Z.
Proof.
  intros h t dt k D K. unfold rread. rewrite (dtime_at dt k D K), (sinc_at dt k K). set (u := (t - dt)%Z). clearbody u. clear D. pose proof (Z.div_mod k 12 ltac:(lia)) as DM. pose proof (Z.mod_pos_bound k 12 ltac:(lia)) as MB.
  set (q := (k / 12)%Z) in *. set (r := (k mod 12)%Z) in *. clearbody q r. subst k. clear K.
  assert (M : forall c, ((12 * q + c) mod 12 = c mod 12)%Z) by (intros c; rewrite Z.add_comm, Z.mul_comm; apply Z.mod_add; lia).
  assert (C : (r = 0 \/ r = 1 \/ r = 2 \/ r = 3 \/ r = 4 \/ r = 5 \/ r = 6 \/ r = 7 \/ r = 8 \/ r = 9 \/ r = 10 \/ r = 11)%Z) by lia.
  assert (P : forall c, pure (12 * q + r + 12 - c)%Z = pure (r + 12 - c)%Z) by (intros c; unfold pure; replace (12 * q + r + 12 - c)%Z with (12 * q + (r + 12 - c))%Z by lia; now rewrite M).
  replace ((12 * q + r - 6) mod 12)%Z with ((r - 6) mod 12)%Z by (replace (12 * q + r - 6)%Z with (12 * q + (r - 6))%Z by lia; now rewrite M).
  unfold rtap. cbn [map fold_right]. rewrite !P. clear M P. unfold pure.
  repeat (destruct C as [->|C]); try subst r; cbn [Z.add Z.sub Z.opp Z.pos_sub Pos.add Pos.succ Pos.pred_double]; repeat match goal with |- context [Z.modulo ?a 12] => let v := eval vm_compute in (Z.modulo a 12) in change (Z.modulo a 12) with v end;
    repeat match goal with |- context [Z.eqb ?a 6] => let v := eval vm_compute in (Z.eqb a 6) in change (Z.eqb a 6) with v end; cbv iota; rewrite ?Rmult_0_r, ?Rmult_1_r, ?Rplus_0_l, ?Rplus_0_r; reflexivity.
Qed.
(* so two travel times 1/3072 of a sample apart are heard 11 samples apart *)
Corollary C211_jump_refuted : forall h t dt q, (32 <= dt <= DLEN - 13)%Z -> (1 <= q <= 254)%Z ->
  rread pure h t (IZR (dt + 1) - IZR (12 * q + 6) / 3072) = h (t - dt)%Z /\ rread pure h t (IZR (dt + 1) - IZR (12 * q + 5) / 3072) = h (t - dt - 11)%Z.
Proof.
  intros h t dt q D Q. rewrite !C211_rows_refuted by (exact D || lia). split; f_equal.
  - replace (12 * q + 6 - 6)%Z with (0 + q * 12)%Z by lia. rewrite Z.mod_add by lia. change (0 mod 12)%Z with 0%Z. lia.
  - replace (12 * q + 5 - 6)%Z with (-1 + q * 12)%Z by lia. rewrite Z.mod_add by lia. reflexivity.
Qed.
Example C211_nonvacuous : (32 <= 100 <= DLEN - 13)%Z /\ (1 <= 1000 <= 3060)%Z /\ pure 18 = 1 /\ pure 17 = 0.
Proof. unfold DLEN, pure. cbn. repeat split; lia || reflexivity. Qed.
Print Assumptions C211_rows_refuted. Print Assumptions C211_jump_refuted.

(** ** C212 suspending and the return level *)
(* REFUTED: suspend makes both filters new, and only init gives them their frequencies; a filter that was never given any is silent. So after a
   suspend the bass is gone for good: over every later history both its bands are zero and the horn gets the whole input *)
Definition mute (q : biquad) : Prop := coefs q = mk_c5 0 0 0 0 0 /\ settled q /\ q_r0l q = 0 /\ q_r1l q = 0.
Lemma mute_new : mute bq_new. Proof. unfold mute, settled, bq_new, coefs. cbn. repeat split. Qed.
Lemma mute_step q x : mute q -> mute (fst (step_left (coeff_process q) x)) /\ snd (step_left (coeff_process q) x) = 0.
Proof.
  intros (C & S0 & A & B). rewrite (step_settled q x S0), C. cbn [k_a1 k_a2 k_b0 k_b1 k_b2 fst snd]. rewrite A, B. split; [|ring].
  unfold mute. split; [exact C|]. split; [exact S0|]. unfold set_left. cbn [q_r0l q_r1l]. split; ring.
Qed.
Lemma mute_loop : forall xs q, mute q -> mute (fst (mono_loop q xs)) /\ snd (mono_loop q xs) = repeat 0 (length xs).
Proof.
  induction xs as [|x xs IH]; intros q M; [split; [exact M|reflexivity]|]. rewrite mono_cons. cbv zeta. destruct (mute_step q x M) as (M1 & Y). destruct (IH _ M1) as (M2 & Y2). cbn [fst snd length repeat]. rewrite Y, Y2. split; [exact M2|reflexivity].
Qed.
Lemma mute_flush q : mute q -> mute (flush_left q).
Proof.
  intros (C & S0 & A & B). unfold flush_left, mute. split; [exact C|]. split; [exact S0|]. unfold set_left. cbn [q_r0l q_r1l]. rewrite A, B. unfold flush_denormal. rewrite Rabs_R0. split; destruct (Rlt_dec _ _); reflexivity.
Qed.
Definition lost (s : rotary) : Prop := mute (ro_xo s) /\ mute (ro_lb s).
Lemma lost_bands s xs : lost s -> lows s xs = repeat 0 (length xs) /\ subs s xs = repeat 0 (length xs).
Proof.
  intros (A & B). unfold subs, lows. destruct (mute_loop (map ro_in xs) (ro_xo s) A) as (_ & ->). rewrite map_length. destruct (mute_loop (repeat 0 (length xs)) (ro_lb s) B) as (_ & ->). now rewrite repeat_length.
Qed.
Lemma nth_zero m k : nth k (repeat 0 m) 0 = 0.
Proof. revert k. induction m as [|m IH]; intros [|k]; cbn; auto. Qed.
Theorem C212_suspend_loses_bass_refuted : forall tab sr om h1 h2, blocks h1 -> blocks h2 -> exists s1 yss1 s2 yss2 hist, ro_run tab sr h1 (ro_init om ro_new) = Ok (s1, yss1) /\ ro_run tab sr h2 (ro_suspend s1) = Ok (s2, yss2) /\
  keeps (32 * Z.of_nat (length h2)) hist (ro_buf s2) /\
  forall p xs, length xs = 32%nat -> exists s' ys, ro_process tab sr p s2 xs = Ok (s', ys) /\ lows s2 xs = repeat 0 32 /\
    (forall k, (k < 32)%nat -> upper s2 xs k = ro_in (nth k xs (0, 0)) /\ exists hl dl hr dr lv lv' tr tr', nth k ys (0, 0) =
      (horn tab hist (32 * Z.of_nat (length h2) + Z.of_nat k) k hl dl lv tr, horn tab hist (32 * Z.of_nat (length h2) + Z.of_nat k) k hr dr lv' tr')).
Proof.
  intros tab sr om h1 h2 F1 F2. destruct (run_spec tab sr h1 0 _ 0 0 _ ltac:(lia) F1 (init_at om) ltac:(reflexivity)) as (s1 & yss1 & hist1 & E1 & _ & A1 & _). rewrite !Rplus_0_l, Z.add_0_l in A1.
  assert (A2 : ro_at 0 (fun _ => 0) (turns sr h1) (32 * (7 / 10) * turns sr h1) (ro_suspend s1)).
  { destruct A1 as (_ & _ & A). unfold ro_at, ro_suspend. cbn [ro_wpos ro_buf ro_lfo ro_lf ro_dl ro_dr ro_hl ro_hr]. split; [reflexivity|]. split; [intros u U; reflexivity|]. exact A. }
  assert (I : forall hs n h phi psi s, (0 <= n)%Z -> blocks hs -> ro_at n h phi psi s -> lost s -> exists s' yss h' phi' psi', ro_run tab sr hs s = Ok (s', yss) /\ ro_at (n + Z.of_nat (length hs)) h' phi' psi' s' /\ lost s').
  { clear. induction hs as [|(p, xs) hs IH]; intros n h phi psi s N F A L.
    - exists s, [], h, phi, psi. cbn [ro_run length]. rewrite Z.add_0_r. auto.
    - inversion F as [|? ? LX Fh]; subst. cbn [snd] in LX. destruct (block_spec tab sr p s xs n h phi psi N LX A) as (s1 & E1 & A1 & X1 & X2 & _).
      destruct (IH (n + 1)%Z _ _ _ s1 ltac:(lia) Fh A1) as (s2 & yss & h2 & phi2 & psi2 & E2 & A2 & L2).
      { destruct L as (La & Lb). split; [rewrite X1|rewrite X2]; apply mute_flush; apply mute_loop; assumption. }
      exists s2. eexists. exists h2, phi2, psi2. cbn [ro_run]. rewrite E1. cbn [obind]. rewrite E2. cbn [obind length]. split; [reflexivity|]. split; [|exact L2].
      replace (n + Z.of_nat (Datatypes.S (length hs)))%Z with (n + 1 + Z.of_nat (length hs))%Z by lia. exact A2. }
  destruct (I h2 0%Z _ _ _ _ ltac:(lia) F2 A2) as (s2 & yss2 & hist & phi & psi & E2 & A & L); [split; exact mute_new|]. rewrite Z.add_0_l in A.
  exists s1, yss1, s2, yss2, hist. split; [exact E1|]. split; [exact E2|]. split; [apply A|]. intros p xs LX. destruct (lost_bands s2 xs L) as (B1 & B2). rewrite LX in B1, B2.
  destruct (block_spec tab sr p s2 xs _ hist phi psi (Nat2Z.is_nonneg _) LX A) as (s' & E' & _). exists s'. eexists. split; [exact E'|]. split; [exact B1|]. intros k K. split.
  - unfold upper. rewrite B1, nth_zero. ring.
  - rewrite nth_map_seq by exact K. unfold block_out. cbv zeta. rewrite B1, B2, !nth_zero. rewrite Rminus_0_r, Rmult_0_l, !Rplus_0_r. repeat eexists.
Qed.
(* REFUTED: the return level is not used *)
Theorem C212_return_level_refuted : forall tab sr rate ratio d a r r' s xs, ro_process tab sr (mk_rp rate ratio d a r) s xs = ro_process tab sr (mk_rp rate ratio d a r') s xs.
Proof. reflexivity. Qed.
(* while an init gives the filters their frequencies: 440 Hz times 2^0.862496 and 2^-1.14 *)
Theorem C212_init_tunes : forall n2p srinv s, n2p (12 * (862496 / 1000000)) = Rpower 2 (862496 / 1000000) -> n2p (12 * - (114 / 100)) = Rpower 2 (- (114 / 100)) ->
  let s1 := ro_init (calc_omega n2p srinv) s in
  coefs (ro_xo s1) = coefs (set_coef (design_lp2b (2 * PI * (440 * Rpower 2 (862496 / 1000000)) * srinv) (707 / 1000)) bq_new) /\
  coefs (ro_lb s1) = coefs (set_coef (design_lp2b (2 * PI * (440 * Rpower 2 (- (114 / 100))) * srinv) (707 / 1000)) bq_new) /\ settled (ro_xo s1) /\ settled (ro_lb s1).
Proof.
  intros n2p srinv s H1 H2. unfold ro_init. cbn [ro_xo ro_lb]. unfold calc_omega. rewrite H1, H2. replace (2 * PI * 440 * Rpower 2 (862496 / 1000000) * srinv) with (2 * PI * (440 * Rpower 2 (862496 / 1000000)) * srinv) by ring.
  replace (2 * PI * 440 * Rpower 2 (- (114 / 100)) * srinv) with (2 * PI * (440 * Rpower 2 (- (114 / 100))) * srinv) by ring. repeat split.
Qed.
Example C212_nonvacuous : blocks [(mk_rp 1 1 (1 / 4) (1 / 2) (1 / 2), repeat (1, 1) 32)] /\ exists n2p, n2p (12 * (862496 / 1000000)) = Rpower 2 (862496 / 1000000) /\ n2p (12 * - (114 / 100)) = Rpower 2 (- (114 / 100)).
Proof. split; [repeat constructor|]. exists (fun x => Rpower 2 (x / 12)). split; f_equal; field. Qed.
Print Assumptions C212_suspend_loses_bass_refuted. Print Assumptions C212_return_level_refuted. Print Assumptions C212_init_tunes.
