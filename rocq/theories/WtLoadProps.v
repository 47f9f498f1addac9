(* WtLoadProps.v - C50: loading a wavetable from a WAV file. *)
From Coq Require Import String.
From Verif Require Import Base Util WavModel WavSpec WavClient WavBytes WavHeader WavRW WavMore WavMore2 WavMore3 WavMore4 WtModel WtProps.
Local Open Scope Z_scope.

(** ** Specification *)
(* the two formats the loader supports *)
Definition loadable (sp : wav_spec) : Prop := sample_fmt sp = Int /\ bits_per_sample sp = 16 \/ sample_fmt sp = Float /\ bits_per_sample sp = 32.
(* the frame length a file's metadata declares; clm wins over cue, cue over srge, srge over smpl *)
Inductive declared (ss : surge_spec) : Z -> Prop :=
| by_clm n : ss_clm ss = Some n -> declared ss n
| by_cue n : ss_clm ss = None -> ss_cue ss = Some n -> declared ss n
| by_srge n v : ss_clm ss = None -> ss_cue ss = None -> ss_srge ss = Some (n, v) -> declared ss n
| by_smpl n : ss_clm ss = None -> ss_cue ss = None -> ss_srge ss = None -> ss_smpl ss = Some n -> declared ss n.
Definition undeclared (ss : surge_spec) : Prop := ss_clm ss = None /\ ss_cue ss = None /\ ss_srge ss = None /\ ss_smpl ss = None.
Definition has_loop_chunk (ss : surge_spec) : Prop := ss_clm ss <> None \/ ss_srge ss <> None \/ ss_smpl ss <> None.
(* w is a wavetable of k tables of length L holding the samples vs frame by frame, of the kind of format f *)
Definition holds (f : sample_format) (w : wavetable) (k L : Z) (vs : list Z) : Prop :=
  exists d x, w = (match f with Float => WtFloat d x | Int => WtPcm d x end) /\ d_tables d = k /\ d_len d = L /\ d_levels d = required_mipmap_levels L
  /\ forall t s, 0 <= t < k -> 0 <= s < L -> nth_error vs (Z.to_nat (t * L + s)) = Some (x 0 t s).
(* the window length used when nothing is declared: the largest of 1024, 512, ..., 8 that fits four times, else 8 *)
Definition window (N w : Z) : Prop := exists e, 3 <= e <= 10 /\ w = 2 ^ e /\ (4 * w <= N \/ e = 3) /\ (e = 10 \/ N < 8 * w).

(** ** The reader part *)
Section Load.
Variables (fm : Z -> Z -> Z) (hf : Z -> Z).
Definition load_samples (sp : wav_spec) (d : wtdim) (xs : list Z) : outcome wt_err wavetable :=
  match sample_fmt sp with
  | Float => obind (lift (wt_new 0 fm hf d xs)) (fun x => Ok (WtFloat d x))
  | Int => obind (lift (wt_new 0 sat_mul16 hr16 d xs)) (fun x => Ok (WtPcm d x))
  end.
Definition ty_of (sp : wav_spec) : sample_type := match sample_fmt sp with Float => TF32 | Int => TI16 end.
Lemma loadable_facts sp : loadable sp -> supported_bits (bits_per_sample sp) /\ (sample_fmt sp = Float -> bits_per_sample sp = 32) /\ can_read sp (ty_of sp).
Proof. unfold loadable, supported_bits, can_read, ty_of. intros [[F B]|[F B]]; rewrite F, B; cbn; repeat split; try lia; try reflexivity; try discriminate. Qed.
Lemma unwrap_ok xs : unwrap_all (map (fun v => Some (Ok v)) xs) = Ok xs.
Proof. induction xs as [|x xs IH]; [reflexivity|]. cbn [map unwrap_all]. rewrite IH. reflexivity. Qed.
Lemma no_panic_ok xs : any_panic (map (fun v => Some (Ok v)) xs) = false.
Proof. induction xs as [|x xs IH]; [reflexivity|]. exact IH. Qed.
Lemma any_panic_app a b : any_panic (a ++ b) = any_panic a || any_panic b.
Proof. unfold any_panic. apply existsb_app. Qed.

(* once the reader is back at the start of samples vs *)
Lemma tail_good sp d r2 hdr vs trail : loadable sp -> samples_fit sp vs -> rgood r2 sp hdr vs trail 0 ->
  (let '(items2, _) := take_items (ty_of sp) (Z.to_nat (r_num r2 - r_read r2)) r2 in obind (unwrap_all items2) (fun xs => load_samples sp d xs)) = load_samples sp d vs.
Proof.
  intros LD SF G. destruct (loadable_facts sp LD) as (Hb & Hf & Hc). pose proof G as [_ _ Hn Hr _]. rewrite Hn, Hr.
  replace (Z.to_nat (Z.of_nat (length vs) - Z.of_nat 0)) with (length vs) by lia.
  destruct (take_items_good r2 sp hdr vs trail 0 (length vs) _ G Hb Hf Hc SF ltac:(lia)) as (r' & E & _). rewrite E. cbn [skipn]. rewrite firstn_all, unwrap_ok. reflexivity.
Qed.
Lemma from_reader_unfold sp r items r1 r2 : loadable sp -> r_spec r = sp ->
  take_items (ty_of sp) (Z.to_nat (r_num r - r_read r)) r = (items, r1) -> any_panic items = false -> r_seek 0 r1 = Ok r2 ->
  wt_from_reader fm hf r = obind (wt_plan (r_surge r) (r_num r - r_read r)) (fun '(_, d) => if negb (channels sp =? 1) then Panic else
    let '(items2, _) := take_items (ty_of sp) (Z.to_nat (r_num r2 - r_read r2)) r2 in obind (unwrap_all items2) (fun xs => load_samples sp d xs)).
Proof.
  intros LD RS T AP SK. unfold wt_from_reader. rewrite RS. cbv zeta. change (match sample_fmt sp with Float => TF32 | Int => TI16 end) with (ty_of sp). rewrite T, AP, SK.
  destruct (wt_plan (r_surge r) (r_num r - r_read r)) as [[b d]|e|]; [|reflexivity|reflexivity]. cbn [obind]. destruct (negb (channels sp =? 1)); [reflexivity|].
  unfold load_samples. destruct LD as [[F B]|[F B]]; rewrite F, B; reflexivity.
Qed.
Lemma from_reader_good sp r hdr vs trail : loadable sp -> 1 <= channels sp -> samples_fit sp vs -> Z.of_nat (length vs) < 2 ^ 32 -> rgood r sp hdr vs trail 0 ->
  wt_from_reader fm hf r = obind (wt_plan (r_surge r) (Z.of_nat (length vs))) (fun '(_, d) => if negb (channels sp =? 1) then Panic else load_samples sp d vs).
Proof.
  intros LD CH SF LN G. destruct (loadable_facts sp LD) as (Hb & Hf & Hc). pose proof G as [Hx _ Hn Hr _].
  destruct (take_items_good r sp hdr vs trail 0 (length vs) _ G Hb Hf Hc SF ltac:(lia)) as (r1 & E1 & G1). cbn [skipn] in E1. rewrite firstn_all in E1.
  destruct (r_seek_good r1 sp hdr vs trail _ 0 G1 Hb CH ltac:(lia) ltac:(lia) LN) as (r2 & E2 & G2). change (Z.to_nat (0 * channels sp)) with O in G2.
  assert (NR : r_num r - r_read r = Z.of_nat (length vs)) by lia.
  rewrite (from_reader_unfold sp r (map (fun v => Some (Ok v)) vs) r1 r2 LD); [|unfold r_spec; now rewrite Hx|rewrite NR, Nat2Z.id; exact E1|apply no_panic_ok|exact E2].
  rewrite NR. destruct (wt_plan (r_surge r) (Z.of_nat (length vs))) as [[b d]|e|]; cbn [obind]; try reflexivity.
  destruct (negb (channels sp =? 1)); [reflexivity|]. exact (tail_good sp d r2 hdr vs trail LD SF G2).
Qed.

End Load.

(** ** The plan *)
Lemma declared_loop ss L : declared ss L -> get_loop_len ss = if L =? 0 then Err DoesNotUnderstandFile
  else Ok ((match ss_smpl ss with Some _ => true | None => false end || match ss_clm ss with Some _ => true | None => false end || match ss_srge ss with Some _ => true | None => false end), L).
Proof.
  intros D. unfold get_loop_len. destruct ss as [sx clm uh srge srgo cue smpl]. cbn [ss_clm ss_cue ss_srge ss_smpl] in *.
  destruct D as [n E|n E1 E2|n v E1 E2 E3|n E1 E2 E3 E4]; cbn [ss_clm ss_cue ss_srge ss_smpl] in *; subst; reflexivity.
Qed.
Lemma undeclared_loop ss : undeclared ss -> get_loop_len ss = Ok (false, -1).
Proof. intros (A & B & C & D). unfold get_loop_len. rewrite A, B, C, D. reflexivity. Qed.
Lemma shift_of_pow e : 1 <= e <= 12 -> shift_of (2 ^ e) = e.
Proof. intros E. assert (e = 1 \/ e = 2 \/ e = 3 \/ e = 4 \/ e = 5 \/ e = 6 \/ e = 7 \/ e = 8 \/ e = 9 \/ e = 10 \/ e = 11 \/ e = 12) by lia. intuition subst; reflexivity. Qed.
Lemma shift_of_other L : (forall e, 1 <= e <= 12 -> L <> 2 ^ e) -> shift_of L = 0.
Proof.
  intros H. unfold shift_of. destruct L as [|p|p]; try reflexivity.
  assert (forall e, 1 <= e <= 12 -> Zpos p <> 2 ^ e) by exact H. clear H. rename H0 into H.
  assert (H1 := H 1 ltac:(lia)); assert (H2 := H 2 ltac:(lia)); assert (H3 := H 3 ltac:(lia)); assert (H4 := H 4 ltac:(lia)); assert (H5 := H 5 ltac:(lia)); assert (H6 := H 6 ltac:(lia)).
  assert (H7 := H 7 ltac:(lia)); assert (H8 := H 8 ltac:(lia)); assert (H9 := H 9 ltac:(lia)); assert (H10 := H 10 ltac:(lia)); assert (H11 := H 11 ltac:(lia)); assert (H12 := H 12 ltac:(lia)).
  clear H. do 13 (destruct p as [p|p|]; try reflexivity; try (exfalso; cbn in *; congruence)).
Qed.
Lemma shrink_spec N : 0 <= N -> forall fuel e, 3 <= e <= 10 -> e < Z.of_nat fuel + 3 -> (e = 10 \/ N < 8 * 2 ^ e) -> exists w, shrink_window fuel (2 ^ e) N = Ok w /\ window N w.
Proof.
  intros N0. induction fuel as [|f IH]; intros e E F H; [lia|]. cbn [shrink_window].
  assert (P : 8 <= 2 ^ e <= 1024). { split; [change 8 with (2 ^ 3)|change 1024 with (2 ^ 10)]; apply Z.pow_le_mono_r; lia. }
  replace (in_signedb 32 (2 ^ e * 4)) with true by (unfold in_signedb; cbn; lia). cbn [negb].
  assert (P8 : 8 < 2 ^ e <-> 3 < e). { split; intros X; [|apply (Z.pow_lt_mono_r 2 3 e); lia]. destruct (Z.eq_dec e 3) as [->|]; [|lia]. change (2 ^ 3) with 8 in X. lia. }
  destruct (Z.ltb_spec N (2 ^ e * 4)), (Z.ltb_spec 8 (2 ^ e)); cbn [andb].
  - assert (PE : 2 ^ e = 2 * 2 ^ (e - 1)) by (rewrite <- Z.pow_succ_r by lia; f_equal; lia).
    rewrite Z.quot_div_nonneg by lia. replace (2 ^ e / 2) with (2 ^ (e - 1)) by (rewrite PE; symmetry; rewrite Z.mul_comm; apply Z.div_mul; lia).
    apply IH; [lia|lia|]. right. lia.
  - exists (2 ^ e). split; [reflexivity|]. exists e. repeat split; try lia.
  - exists (2 ^ e). split; [reflexivity|]. exists e. repeat split; try lia.
  - exists (2 ^ e). split; [reflexivity|]. exists e. repeat split; try lia.
Qed.
Lemma window_unique N w w' : window N w -> window N w' -> w = w'.
Proof.
  intros (e & E & -> & A & B) (e' & E' & -> & A' & B'). f_equal.
  assert (M : forall a b, a <= b -> 2 ^ a <= 2 ^ b) by (intros; apply Z.pow_le_mono_r; lia).
  destruct (Z.lt_trichotomy e e') as [C|[C|C]]; [exfalso|exact C|exfalso].
  - assert (X := M (e + 1) e' ltac:(lia)). rewrite Z.pow_add_r in X by lia. lia.
  - assert (X := M (e' + 1) e ltac:(lia)). rewrite Z.pow_add_r in X by lia. lia.
Qed.

Lemma as_i32_small x : 0 <= x < 2 ^ 31 -> as_i32 x = x.
Proof. intros H. unfold as_i32, as_signed. cbn. rewrite Z.mod_small by lia. destruct (Z.ltb_spec x 2147483648); lia. Qed.
Lemma as_i32_neg x : 2 ^ 31 <= x < 2 ^ 32 -> as_i32 x = x - 2 ^ 32.
Proof. intros H. unfold as_i32, as_signed. cbn. rewrite Z.mod_small by lia. destruct (Z.ltb_spec x 2147483648); lia. Qed.
Lemma load_ok fm hf sp d vs : loadable sp -> 3 <= d_tables d <= 2 ^ 20 -> 0 < d_len d <= 4096 -> d_levels d = required_mipmap_levels (d_len d) ->
  Z.of_nat (length vs) = d_tables d * d_len d -> exists w, load_samples fm hf sp d vs = Ok w /\ holds (sample_fmt sp) w (d_tables d) (d_len d) vs.
Proof.
  intros LD T L LV N. destruct (C49_level_count (d_len d)) as (A & _). rewrite <- LV in A.
  assert (SD : small_dim d) by (unfold small_dim; lia).
  assert (SZ : d_levels d * d_tables d * d_len d <= isize_max). { unfold isize_max. assert (d_levels d * d_tables d <= 16 * 2 ^ 20) by nia. assert (0 <= d_levels d * d_tables d) by nia. nia. }
  unfold load_samples, holds. destruct (sample_fmt sp).
  - destruct (C48_layout Z 0 fm hf d vs SD ltac:(lia) ltac:(lia) ltac:(lia) SZ N) as (x & E & H). rewrite E. cbn [lift obind]. eexists. split; [reflexivity|]. exists d, x. auto.
  - destruct (C48_layout Z 0 sat_mul16 hr16 d vs SD ltac:(lia) ltac:(lia) ltac:(lia) SZ N) as (x & E & H). rewrite E. cbn [lift obind]. eexists. split; [reflexivity|]. exists d, x. auto.
Qed.
Lemma load_panic fm hf sp d vs : Z.of_nat (length vs) <> d_tables d * d_len d \/ d_tables d < 3 -> load_samples fm hf sp d vs = Panic.
Proof. intros H. unfold load_samples. destruct (sample_fmt sp); rewrite C48_wrong_count by exact H; reflexivity. Qed.

Lemma plan_frames ss e N : declared ss (2 ^ e) -> has_loop_chunk ss -> 1 <= e <= 12 -> 0 <= N < 2 ^ 32 ->
  (N / 2 ^ e < 3 -> wt_plan ss N = Err (InsufficientFrames (N / 2 ^ e) (2 ^ e))) /\
  (3 <= N / 2 ^ e -> exists d, wt_plan ss N = Ok (false, d) /\ d_len d = 2 ^ e /\ d_levels d = required_mipmap_levels (2 ^ e)
     /\ (N = d_tables d * 2 ^ e <-> N mod 2 ^ e = 0 /\ N / 2 ^ e <= 512) /\ d_tables d <= 512).
Proof.
  intros D HL E N0. unfold wt_plan. rewrite (declared_loop ss _ D).
  assert (P : 2 <= 2 ^ e <= 4096). { split; [change 2 with (2 ^ 1) at 1|change 4096 with (2 ^ 12)]; apply Z.pow_le_mono_r; lia. }
  destruct (Z.eqb_spec (2 ^ e) 0); [lia|]. replace (_ || _ || _) with true by (unfold has_loop_chunk in HL; destruct (ss_clm ss), (ss_srge ss), (ss_smpl ss); try reflexivity; intuition congruence).
  cbn [obind]. unfold usize_of_i32. rewrite (Z.mod_small (2 ^ e)) by lia. destruct (Z.eqb_spec (2 ^ e) 0); [lia|]. cbv zeta. rewrite (shift_of_pow e E).
  assert (DM := Z.div_mod N (2 ^ e) ltac:(lia)). assert (MB := Z.mod_pos_bound N (2 ^ e) ltac:(lia)). assert (Q0 : 0 <= N / 2 ^ e) by (apply Z.div_pos; lia).
  assert (QB : N / 2 ^ e < 2 ^ 31). { apply Z.div_lt_upper_bound; [lia|]. nia. }
  rewrite (as_i32_small (N / 2 ^ e)) by lia. destruct (Z.eqb_spec (2 ^ e) (-1)); [lia|]. destruct (Z.eqb_spec e 0); [lia|]. cbn [negb andb orb]. split; intros C.
  - destruct (Z.ltb_spec (N / 2 ^ e) 3); [|lia]. reflexivity.
  - destruct (Z.ltb_spec (N / 2 ^ e) 3); [lia|]. eexists. split; [reflexivity|]. cbn [d_len d_levels d_tables]. split; [reflexivity|]. split; [reflexivity|].
    rewrite Z.shiftr_div_pow2 by lia. unfold MAX_SUBTABLES, MAX_WT_SAMPLES. set (L := 2 ^ e) in *. split; [|lia].
    destruct (Z_lt_le_dec N (2 ^ 31)) as [S1|S1].
    + rewrite as_i32_small by lia. destruct (Z_le_gt_dec N 2097152) as [S2|S2].
      * rewrite (Z.min_l N) by lia. rewrite Z.mod_small by lia. set (q := N / L) in *. set (r := N mod L) in *. clearbody q r L.
        destruct (Z_le_gt_dec q 512); [rewrite Z.min_r by lia|rewrite Z.min_l by lia]; split; intros; nia.
      * rewrite (Z.min_r N) by lia. set (t := Z.min 512 _). assert (t <= 512) by lia. clearbody t. set (q := N / L) in *. set (r := N mod L) in *. clearbody q r L. split; intros; nia.
    + rewrite as_i32_neg by lia. set (t := Z.min 512 _). assert (t <= 512) by lia. clearbody t. set (q := N / L) in *. set (r := N mod L) in *. clearbody q r L. split; intros; nia.
Qed.
Lemma plan_zero ss N : declared ss 0 -> wt_plan ss N = Err DoesNotUnderstandFile.
Proof. intros D. unfold wt_plan. rewrite (declared_loop ss _ D). reflexivity. Qed.
Lemma plan_bad_len ss L N : declared ss L -> L <> 0 -> L <> -1 -> in_signed 32 L -> ~ has_loop_chunk ss \/ (forall e, 1 <= e <= 12 -> L <> 2 ^ e) ->
  wt_plan ss N = Err (InsufficientFrames (as_i32 (N / usize_of_i32 L)) L).
Proof.
  intros D L0 L1 LR B. unfold wt_plan. rewrite (declared_loop ss _ D). destruct (Z.eqb_spec L 0); [lia|]. cbn [obind].
  assert (U : usize_of_i32 L <> 0). { unfold usize_of_i32. unfold in_signed in LR. cbn in LR. change (2 ^ 64) with 18446744073709551616. intros X. apply Z.mod_divide in X; [|lia]. destruct X as (q & X). destruct (Z.eq_dec q 0); nia. }
  destruct (Z.eqb_spec (usize_of_i32 L) 0); [lia|]. cbv zeta. destruct (Z.eqb_spec L (-1)); [lia|]. cbn [negb andb].
  set (ld := (_ || _ || _)). assert (S0 : (if ld then shift_of L else 0) = 0).
  { destruct ld eqn:E; [|reflexivity]. destruct B as [B|B]; [|now apply shift_of_other]. exfalso. apply B. unfold ld in E. unfold has_loop_chunk.
    destruct (ss_smpl ss); [right; right; discriminate|]. destruct (ss_clm ss); [left; discriminate|]. destruct (ss_srge ss); [right; left; discriminate|]. discriminate. }
  rewrite S0. reflexivity.
Qed.
(* nothing usable declared, no srgo chunk *)
Lemma plan_window ss N : undeclared ss \/ declared ss (-1) -> ss_srgo ss = None -> 0 <= N < 2 ^ 31 ->
  exists w, window (Z.min N MAX_WT_SAMPLES) w /\ wt_plan ss N = Ok (true, {| d_levels := required_mipmap_levels w; d_tables := Z.min N MAX_WT_SAMPLES / w; d_len := w |}).
Proof.
  intros U SO N0. unfold wt_plan. destruct (shrink_spec (Z.min N MAX_WT_SAMPLES)) with (fuel := 32%nat) (e := 10) as (w & E & W); [unfold MAX_WT_SAMPLES; lia|lia|lia|now left|].
  exists w. split; [exact W|]. change (2 ^ 10) with 1024 in E.
  assert (WB : 8 <= w <= 1024). { destruct W as (e & B & -> & _). split; [change 8 with (2 ^ 3)|change 1024 with (2 ^ 10)]; apply Z.pow_le_mono_r; lia. }
  set (ld := match get_loop_len ss with Ok (b, _) => b | _ => false end).
  assert (GL : get_loop_len ss = Ok (ld, -1)). { unfold ld. destruct U as [U|U]; [rewrite (undeclared_loop ss U)|rewrite (declared_loop ss _ U)]; reflexivity. }
  rewrite GL. clearbody ld. cbn [obind]. change (usize_of_i32 (-1) =? 0) with false. cbv iota zeta. change (-1 =? -1) with true. cbn [negb andb].
  replace (if ld then shift_of (-1) else 0) with 0 by (destruct ld; reflexivity). change (0 =? 0) with true. rewrite orb_true_r. rewrite as_i32_small by lia. rewrite SO, E. cbv zeta.
  destruct (Z.eqb_spec w 0); [lia|]. destruct (Z.eqb_spec w (-1)); [lia|]. cbn [andb]. unfold usize_of_i32. rewrite (Z.mod_small w) by lia.
  assert (0 <= Z.min N MAX_WT_SAMPLES) by (unfold MAX_WT_SAMPLES; lia). rewrite Z.quot_div_nonneg by lia. rewrite Z.mod_small; [reflexivity|].
  split; [apply Z.div_pos; lia|]. apply Z.div_lt_upper_bound; unfold MAX_WT_SAMPLES in *; lia.
Qed.

(** ** C50 *)
(* a file the reader opens, holding the samples vs of spec sp with metadata ss *)
Definition opens (file : list Z) (sp : wav_spec) (ss : surge_spec) (vs : list Z) : Prop :=
  exists r hdr trail, reader_new (mk_stream file 0) = Ok r /\ rgood r sp hdr vs trail 0 /\ r_surge r = ss.
Definition mono_ok (sp : wav_spec) (vs : list Z) : Prop := loadable sp /\ channels sp = 1 /\ samples_fit sp vs /\ Z.of_nat (length vs) < 2 ^ 31.
Lemma try_from_opens fm hf file sp ss vs : opens file sp ss vs -> loadable sp -> 1 <= channels sp -> samples_fit sp vs -> Z.of_nat (length vs) < 2 ^ 32 ->
  wt_try_from fm hf file = obind (wt_plan ss (Z.of_nat (length vs))) (fun '(_, d) => if negb (channels sp =? 1) then Panic else load_samples fm hf sp d vs).
Proof.
  intros (r & hdr & trail & R & G & S) LD CH SF LN. unfold wt_try_from. rewrite R, (from_reader_good fm hf sp r hdr vs trail LD CH SF LN G), S. reflexivity.
Qed.
(* declared frame length L = 2^e (e in 1..12): the samples become k = N/L tables of L samples if L divides N and 3 <= k <= 512;
   fewer than three frames are an error; anything else is a panic *)
Theorem C50_declared_frames : forall fm hf file sp ss vs e, opens file sp ss vs -> mono_ok sp vs -> declared ss (2 ^ e) -> has_loop_chunk ss -> 1 <= e <= 12 ->
  let N := Z.of_nat (length vs) in let L := 2 ^ e in
  (N mod L = 0 -> 3 <= N / L <= 512 -> exists w, wt_try_from fm hf file = Ok w /\ holds (sample_fmt sp) w (N / L) L vs)
  /\ (N / L < 3 -> wt_try_from fm hf file = Err (InsufficientFrames (N / L) L)).
Proof.
  intros fm hf file sp ss vs e O (LD & CH & SF & LN) D HL E N L. rewrite (try_from_opens fm hf file sp ss vs O LD ltac:(lia) SF ltac:(lia)).
  destruct (plan_frames ss e N D HL E ltac:(unfold N; lia)) as [P1 P2]. fold L in P1, P2. fold N. rewrite CH. change (negb (1 =? 1)) with false. cbv iota. split.
  - intros M K. destruct (P2 ltac:(lia)) as (d & EP & DL & DV & DT & _). rewrite EP. cbn [obind].
    assert (NT : N = d_tables d * L) by tauto. assert (LP : 0 < L <= 4096). { unfold L. split; [apply Z.pow_pos_nonneg; lia|]. change 4096 with (2 ^ 12). apply Z.pow_le_mono_r; lia. }
    assert (NL : N / L = d_tables d) by (rewrite NT; apply Z.div_mul; lia). rewrite NL in *. rewrite <- DL in *. apply load_ok; try lia. exact LD.
  - intros K. rewrite (P1 K). reflexivity.
Qed.
Print Assumptions C50_declared_frames.
(* without a declared length (or -1) and without srgo: fixed windows; loads iff the sample count is a multiple of the window, at
   least three windows and at most 2097152 samples *)
Theorem C50_plain_sample : forall fm hf file sp ss vs, opens file sp ss vs -> mono_ok sp vs -> undeclared ss -> ss_srgo ss = None ->
  let N := Z.of_nat (length vs) in exists w, window N w /\
  (N mod w = 0 -> 3 <= N / w -> N <= 2097152 -> exists t, wt_try_from fm hf file = Ok t /\ holds (sample_fmt sp) t (N / w) w vs).
Proof.
  intros fm hf file sp ss vs O (LD & CH & SF & LN) U SO N. destruct (plan_window ss N (or_introl U) SO ltac:(unfold N; lia)) as (w & W & EP).
  assert (WB : 8 <= w <= 1024). { destruct W as (e & B & -> & _). split; [change 8 with (2 ^ 3)|change 1024 with (2 ^ 10)]; apply Z.pow_le_mono_r; lia. }
  assert (WN : window N w). { destruct W as (e & B & EW & A & C). exists e. unfold MAX_WT_SAMPLES in *. split; [lia|]. split; [exact EW|]. split; [lia|]. destruct C as [C|C]; [now left|]. destruct (Z.eq_dec e 10); [now left|right].
    assert (8 * w <= 8192) by lia. lia. }
  exists w. split; [exact WN|]. intros M K NB. rewrite (try_from_opens fm hf file sp ss vs O LD ltac:(lia) SF ltac:(lia)). fold N. rewrite EP, CH. change (negb (1 =? 1)) with false. cbn [obind].
  unfold MAX_WT_SAMPLES. rewrite Z.min_l by lia. assert (DM := Z.div_mod N w ltac:(lia)).
  assert (N / w <= 2 ^ 20). { apply Z.div_le_upper_bound; nia. }
  apply (load_ok fm hf sp {| d_levels := _; d_tables := N / w; d_len := w |} vs LD); cbn [d_tables d_len d_levels]; try lia.
Qed.
Print Assumptions C50_plain_sample.
(* lengths the loader reports as errors *)
Theorem C50_rejected : forall fm hf file sp ss vs L, opens file sp ss vs -> mono_ok sp vs -> declared ss L -> in_signed 32 L -> L <> -1 ->
  (L = 0 -> wt_try_from fm hf file = Err DoesNotUnderstandFile)
  /\ (L <> 0 -> (forall e, 1 <= e <= 12 -> L <> 2 ^ e) -> exists n, wt_try_from fm hf file = Err (InsufficientFrames n L)).
Proof.
  intros fm hf file sp ss vs L O (LD & CH & SF & LN) D LR L1. rewrite (try_from_opens fm hf file sp ss vs O LD ltac:(lia) SF ltac:(lia)). split.
  - intros ->. rewrite (plan_zero ss _ D). reflexivity.
  - intros L0 NP. rewrite (plan_bad_len ss L _ D L0 L1 LR (or_intror NP)). cbn [obind]. eauto.
Qed.
Print Assumptions C50_rejected.
(* the frame length of cue markers is never used: a file with cue markers only is always refused *)
Theorem C50_cue_only_refuted : forall fm hf file sp ss vs L, opens file sp ss vs -> mono_ok sp vs -> ss_cue ss = Some L -> ss_clm ss = None -> ss_srge ss = None -> ss_smpl ss = None ->
  in_signed 32 L -> L <> -1 -> exists e, wt_try_from fm hf file = Err e.
Proof.
  intros fm hf file sp ss vs L O (LD & CH & SF & LN) C C1 C2 C3 LR L1. rewrite (try_from_opens fm hf file sp ss vs O LD ltac:(lia) SF ltac:(lia)).
  assert (D : declared ss L) by (now apply by_cue). destruct (Z.eq_dec L 0) as [->|L0]; [rewrite (plan_zero ss _ D); cbn; eauto|].
  rewrite (plan_bad_len ss L _ D L0 L1 LR); [cbn; eauto|]. left. intros [H|[H|H]]; congruence.
Qed.
Print Assumptions C50_cue_only_refuted.
(* panics on files the reader accepts *)
Theorem C50_frame_count_refuted : forall fm hf file sp ss vs e, opens file sp ss vs -> mono_ok sp vs -> declared ss (2 ^ e) -> has_loop_chunk ss -> 1 <= e <= 12 ->
  3 <= Z.of_nat (length vs) / 2 ^ e -> Z.of_nat (length vs) mod 2 ^ e <> 0 \/ 512 < Z.of_nat (length vs) / 2 ^ e -> wt_try_from fm hf file = Panic.
Proof.
  intros fm hf file sp ss vs e O (LD & CH & SF & LN) D HL E K B. rewrite (try_from_opens fm hf file sp ss vs O LD ltac:(lia) SF ltac:(lia)).
  destruct (plan_frames ss e (Z.of_nat (length vs)) D HL E ltac:(lia)) as [_ P2]. destruct (P2 K) as (d & EP & DL & _ & DT & _). rewrite EP, CH. change (negb (1 =? 1)) with false. cbn [obind].
  apply load_panic. left. rewrite DL. intros X. destruct DT as [DT _]. specialize (DT X). lia.
Qed.
Print Assumptions C50_frame_count_refuted.
Theorem C50_plain_length_refuted : forall fm hf file sp ss vs w, opens file sp ss vs -> mono_ok sp vs -> undeclared ss -> ss_srgo ss = None ->
  let N := Z.of_nat (length vs) in window N w -> N mod w <> 0 \/ N / w < 3 \/ 2097152 < N -> wt_try_from fm hf file = Panic.
Proof.
  intros fm hf file sp ss vs w O (LD & CH & SF & LN) U SO N W B. rewrite (try_from_opens fm hf file sp ss vs O LD ltac:(lia) SF ltac:(lia)). fold N.
  destruct (plan_window ss N (or_introl U) SO ltac:(unfold N; lia)) as (w' & W' & EP). rewrite EP, CH. change (negb (1 =? 1)) with false. cbn [obind].
  assert (WB : 8 <= w <= 1024). { destruct W as (e & B' & -> & _). split; [change 8 with (2 ^ 3)|change 1024 with (2 ^ 10)]; apply Z.pow_le_mono_r; lia. }
  assert (WB' : 8 <= w' <= 1024). { destruct W' as (e & B' & -> & _). split; [change 8 with (2 ^ 3)|change 1024 with (2 ^ 10)]; apply Z.pow_le_mono_r; lia. }
  apply load_panic. cbn [d_tables d_len]. fold N. unfold MAX_WT_SAMPLES in *. assert (DM := Z.div_mod N w ltac:(lia)). assert (MB := Z.mod_pos_bound N w ltac:(lia)).
  destruct (Z_le_gt_dec N 2097152) as [S|S].
  - rewrite Z.min_l in * by lia. assert (w' = w) by (eapply window_unique; eassumption). subst w'. set (q := N / w) in *. set (m := N mod w) in *. clearbody q m N. destruct B as [B|[B|B]]; [left; nia|now right|lia].
  - left. rewrite Z.min_r by lia. assert (Z.div 2097152 w' * w' <= 2097152) by (rewrite Z.mul_comm; apply Z.mul_div_le; lia). lia.
Qed.
Print Assumptions C50_plain_length_refuted.
Theorem C50_stereo_refuted : forall fm hf file sp ss vs, opens file sp ss vs -> loadable sp -> 2 <= channels sp -> samples_fit sp vs -> Z.of_nat (length vs) < 2 ^ 31 ->
  undeclared ss -> ss_srgo ss = None -> wt_try_from fm hf file = Panic.
Proof.
  intros fm hf file sp ss vs O LD CH SF LN U SO. rewrite (try_from_opens fm hf file sp ss vs O LD ltac:(lia) SF ltac:(lia)).
  destruct (plan_window ss (Z.of_nat (length vs)) (or_introl U) SO ltac:(lia)) as (w & W & EP). rewrite EP. cbn [obind]. destruct (Z.eqb_spec (channels sp) 1); [lia|]. reflexivity.
Qed.
Print Assumptions C50_stereo_refuted.
Theorem C50_srgo_without_srge_refuted : forall fm hf file sp ss vs v, opens file sp ss vs -> mono_ok sp vs -> undeclared ss -> ss_srgo ss = Some v -> wt_try_from fm hf file = Panic.
Proof.
  intros fm hf file sp ss vs v O (LD & CH & SF & LN) U SO. rewrite (try_from_opens fm hf file sp ss vs O LD ltac:(lia) SF ltac:(lia)).
  assert (P : wt_plan ss (Z.of_nat (length vs)) = Panic); [|rewrite P; reflexivity].
  unfold wt_plan. rewrite (undeclared_loop ss U). cbn [obind]. change (usize_of_i32 (-1) =? 0) with false. cbv iota zeta. change (-1 =? -1) with true. cbn [negb andb orb].
  destruct U as (_ & _ & U & _). rewrite SO, U. destruct (shrink_window 32 0 _) as [w|[]|] eqn:E; try reflexivity.
  assert (w = 0); [|subst; reflexivity]. revert E. cbn [shrink_window]. change (negb (in_signedb 32 (0 * 4))) with false. cbv iota. change (8 <? 0) with false. rewrite andb_false_r. congruence.
Qed.
Print Assumptions C50_srgo_without_srge_refuted.
(* a file the reader rejects is a panic too, not an error *)
Theorem C50_unreadable_refuted : forall fm hf file, (forall r, reader_new (mk_stream file 0) <> Ok r) -> wt_try_from fm hf file = Panic.
Proof. intros fm hf file H. unfold wt_try_from. destruct (reader_new (mk_stream file 0)) as [r| |]; [now destruct (H r)|reflexivity|reflexivity]. Qed.
Print Assumptions C50_unreadable_refuted.
(* file names: only .wav files (and unopenable .wt files) do not panic *)
Theorem C50_file_name_refuted : forall A (ext : option string) (op : bool) (load : outcome wt_err A),
  ext <> Some "wav"%string -> ext <> Some "wt"%string \/ op = true -> wt_try_filename ext op load = Panic.
Proof.
  intros A [e|] op load H1 H2; [|reflexivity]. unfold wt_try_filename. destruct (String.eqb_spec e "wt").
  - subst e. destruct H2 as [H2| ->]; [congruence|reflexivity].
  - destruct (String.eqb_spec e "wav"); [congruence|reflexivity].
Qed.
Print Assumptions C50_file_name_refuted.

(** ** Concrete files meet the hypotheses *)
(* a plain WAV file: no metadata *)
Lemma plain_opens sp vs trail : valid_spec sp -> fits_wav sp (length vs) -> whole_frames sp (length vs) ->
  opens (wav_file sp vs ++ trail) sp (acc_fmt sp) vs /\ undeclared (acc_fmt sp) /\ ss_srgo (acc_fmt sp) = None.
Proof.
  intros V F W. destruct (reader_new_file sp vs trail V F W) as (hdr & _ & _ & E). split; [|repeat split].
  eexists. exists hdr, trail. split; [exact E|]. split; [apply rgood_init|reflexivity].
Qed.
Definition ascii_srge := [115; 114; 103; 101].
Definition srge_chunk (version len : Z) : list Z := chunk ascii_srge (le 4 version ++ le 4 len).
Definition with_srge (x : Z * Z) (acc : surge_spec) : surge_spec := mk_surge (ss_specx acc) (ss_clm acc) (ss_uhwt acc) (Some x) (ss_srgo acc) (ss_cue acc) (ss_smpl acc).
Lemma step_srge f acc ver len pre post : in_signed 32 ver -> in_signed 32 len ->
  run (read_until_data (S f) acc) (at_ pre (srge_chunk ver len ++ post)) = run (read_until_data f (with_srge (len, ver) acc)) (at_ (pre ++ srge_chunk ver len) post).
Proof.
  intros V L. cbn [read_until_data]. rewrite run_bind. unfold srge_chunk, chunk. rewrite <- !app_assoc.
  rewrite app_length, !le_length. rewrite run_chunk_header by (try reflexivity; cbn; lia).
  change (kind_of_tag ascii_srge) with KSrge. cbn [fst snd]. rewrite run_bind. unfold read_srge_chunk. rewrite run_bind, run_i32 by exact V. rewrite run_bind, run_i32 by exact L.
  change (Z.of_nat (4 + 4)) with 8. unfold skip_rest. change (8 <? 8) with false. cbv iota. cbn [run]. change (8 - 8) with 0.
  rewrite (skip_bytes_at 0 _ [] post) by reflexivity. rewrite app_nil_r. cbn [run]. rewrite <- !app_assoc. reflexivity.
Qed.
Lemma srge_opens riff ver len sp vs : valid_spec sp -> fits_wav sp (length vs) -> whole_frames sp (length vs) -> 0 <= riff < 2 ^ 32 -> in_signed 32 ver -> in_signed 32 len ->
  opens (wav_mid riff sp (srge_chunk ver len) vs) sp (with_srge (len, ver) (acc_fmt sp)) vs /\ declared (with_srge (len, ver) (acc_fmt sp)) len /\ has_loop_chunk (with_srge (len, ver) (acc_fmt sp)).
Proof.
  intros V F W R HV HL. destruct (reader_new_mid riff sp (srge_chunk ver len) vs (with_srge (len, ver) (acc_fmt sp)) V F W R eq_refl) as (r & E & _ & _ & S & hdr & G).
  { intros. now apply step_srge. }
  split; [exists r, hdr, []; auto|]. split; [eapply by_srge; reflexivity|]. right. left. discriminate.
Qed.
(* a 16-bit mono file whose srge chunk says 64 samples per frame, with any 192 samples *)
Definition sp_mono16 : wav_spec := {| channels := 1; sample_rate := 44100; bits_per_sample := 16; sample_fmt := Int |}.
Lemma mono16_valid : valid_spec sp_mono16.
Proof. unfold valid_spec, sp_mono16, supported_bits. cbn. repeat split; try lia; try discriminate. Qed.
Example C50_srge_file : forall fm hf vs, length vs = 192%nat -> Forall (in_signed 16) vs ->
  exists w, wt_try_from fm hf (wav_mid 0 sp_mono16 (srge_chunk 1 64) vs) = Ok w /\ holds Int w 3 64 vs.
Proof.
  intros fm hf vs L F. assert (V := mono16_valid).
  destruct (srge_opens 0 1 64 sp_mono16 vs V) as (O & D & H).
  - unfold fits_wav. rewrite L. cbn. lia. - unfold whole_frames. apply Z.mod_1_r. - lia. - unfold in_signed; cbn; lia. - unfold in_signed; cbn; lia.
  - change 64 with (2 ^ 6) in D at 2.
    assert (M : mono_ok sp_mono16 vs). { split; [left; split; reflexivity|]. split; [reflexivity|]. split; [exact F|]. rewrite L. cbn. lia. }
    destruct (C50_declared_frames fm hf _ _ _ vs 6 O M D H ltac:(lia)) as (A & _). rewrite L in A. apply A; reflexivity || (split; vm_compute; congruence).
Qed.
Example C50_plain_file : forall fm hf vs, length vs = 1000%nat -> Forall (in_signed 16) vs -> wt_try_from fm hf (wav_file sp_mono16 vs ++ []) = Panic.
Proof.
  intros fm hf vs L F. assert (V := mono16_valid). destruct (plain_opens sp_mono16 vs [] V) as (O & U & SO).
  - unfold fits_wav. rewrite L. cbn. lia. - unfold whole_frames. apply Z.mod_1_r.
  - eapply (C50_plain_length_refuted fm hf _ _ _ vs 128 O); auto.
    + split; [left; split; reflexivity|]. split; [reflexivity|]. split; [exact F|]. rewrite L. cbn. lia.
    + rewrite L. exists 7. vm_compute. repeat split; try congruence; try (left; congruence). right. reflexivity.
    + left. rewrite L. vm_compute. congruence.
Qed.

(** ** Truncated files *)
Lemma eof_items sp t : forall n r,
  supported_bits (bits_per_sample sp) -> (sample_fmt sp = Float -> bits_per_sample sp = 32) -> can_read sp t ->
  r_specx r = mk_specx sp (bps_of sp) -> r_bps r = bps_of sp -> r_read r + Z.of_nat n <= r_num r -> avail (r_stream r) = [] ->
  exists r', take_items t n r = (repeat (Some (Err IoError)) n, r') /\ r_read r' = r_read r + Z.of_nat n /\ r_num r' = r_num r /\ r_specx r' = r_specx r /\ r_bps r' = r_bps r /\ r_stream r' = r_stream r.
Proof.
  induction n as [|n IH]; intros r Hb Hf Hcr Hx Hbp Hn Hav.
  - exists r. repeat split; auto. lia.
  - pose proof Hcr as [Hm Hw]. cbn [take_items]. unfold iter_next at 1. destruct (Z.ltb_spec (r_read r) (r_num r)); [|lia].
    unfold r_spec. rewrite Hx, Hbp. cbn [sx_spec]. pose proof (bps_range sp Hb) as BR.
    destruct (sample_read_shape t (sample_fmt sp) (bits_per_sample sp) Hb Hm Hw Hf) as (k & Ek). unfold bps_of in BR |- *. rewrite Ek. cbn [run]. unfold read_into. rewrite Hav.
    destruct (Nat.ltb_spec (@length Z []) (Z.to_nat (bits_per_sample sp / 8))) as [_|X]; [|cbn [length] in X; lia].
    set (r1 := mk_reader _ _ _ _ _ _).
    assert (S1 : r_stream r1 = r_stream r). { cbn [r1 r_stream length]. rewrite Z.add_0_r. now destruct (r_stream r). }
    destruct (IH r1) as (r' & E & A1 & A2 & A3 & A4 & A5); auto.
    + cbn [r1 r_read r_num]. lia.
    + now rewrite S1.
    + rewrite E. exists r'. cbn [repeat]. split; [reflexivity|]. split; [rewrite A1; cbn [r1 r_read]; lia|]. split; [exact A2|]. split; [rewrite A3; exact (eq_sym Hx) || reflexivity|]. split; [rewrite A4; exact (eq_sym Hbp) || reflexivity|]. now rewrite A5.
Qed.
Lemma decode16 : forall m l, length l = (2 * m)%nat -> byte_list l -> exists ws, length ws = m /\ enc_all 16 ws = l /\ Forall (in_signed 16) ws.
Proof.
  induction m as [|m IH]; intros l L B.
  - destruct l; [|discriminate]. exists []. auto.
  - destruct l as [|a [|b l]]; try (cbn in L; lia). inversion B as [|? ? Ba B1]. subst. inversion B1 as [|? ? Bb B2]. subst.
    destruct (IH l ltac:(cbn in L; lia) B2) as (ws & W1 & W2 & W3). exists (as_i16 (a + 256 * b) :: ws). split; [cbn; lia|]. split.
    + unfold enc_all in *. cbn [flat_map]. rewrite W2. unfold enc. change (16 =? 8) with false. cbv iota. change (Z.to_nat (16 / 8)) with 2%nat. 
      unfold as_i16, as_signed. cbn [le]. change (2 ^ 16) with 65536. change (2 ^ (16 - 1)) with 32768. rewrite (Z.mod_small (a + 256 * b) 65536) by lia.
      cbn [app]. f_equal; [|f_equal].
      * destruct (Z.ltb_spec (a + 256 * b) 32768).
        -- symmetry. apply Z.mod_unique with (q := b); lia.
        -- symmetry. apply Z.mod_unique with (q := b - 256); lia.
      * destruct (Z.ltb_spec (a + 256 * b) 32768).
        -- replace ((a + 256 * b) / 256) with b by (apply Z.div_unique with (r := a); lia). apply Z.mod_small; lia.
        -- replace ((a + 256 * b - 65536) / 256) with (b - 256) by (apply Z.div_unique with (r := a); lia). symmetry. apply Z.mod_unique with (q := -1); lia.
    + constructor; [|exact W3]. apply as_signed_range. lia.
Qed.
Lemma le_bytes : forall n v, byte_list (le n v).
Proof. induction n as [|n IH]; intros v; [constructor|]. cbn [le]. constructor; [apply Z.mod_pos_bound; lia|apply IH]. Qed.
Lemma bytes_app a b : byte_list a -> byte_list b -> byte_list (a ++ b).
Proof. unfold byte_list. intros. apply Forall_app. auto. Qed.
Lemma header_bytes sp a b : byte_list (wav_header sp a b).
Proof.
  assert (KG : forall c, byte_list (ks_guid c)) by (intros c; unfold ks_guid; repeat (apply bytes_app; [apply le_bytes|]); repeat constructor; lia).
  assert (FC : byte_list (fmt_common sp)) by (unfold fmt_common; repeat apply bytes_app; apply le_bytes).
  unfold wav_header, chunk, fmt_body. destruct (wants_extensible sp); repeat apply bytes_app; try apply le_bytes; try exact FC; try apply KG; repeat constructor; lia.
Qed.
(* A 16-bit mono file that lost its last m samples (at most the 22 that fit in the header's length) is not refused: it is loaded
   exactly like a complete file whose first m samples are the last 2m bytes of the header. *)
Theorem C50_truncated_refuted : forall fm hf sp vs m, valid_spec sp -> fits_wav sp (length vs) -> sample_fmt sp = Int -> bits_per_sample sp = 16 -> channels sp = 1 ->
  samples_fit sp vs -> (m <= length vs)%nat -> 2 * Z.of_nat m <= header_len sp ->
  exists hdr ws, wav_file sp vs = hdr ++ enc_all 16 vs /\ length ws = m /\ (exists hdr0, hdr = hdr0 ++ enc_all 16 ws) /\ samples_fit sp ws /\
    wt_try_from fm hf (hdr ++ enc_all 16 (firstn (length vs - m) vs)) = wt_try_from fm hf (wav_file sp (ws ++ firstn (length vs - m) vs)).
Proof.
  intros fm hf sp vs m V FW F B C SF ML HM. assert (Hb := proj1 (proj2 (proj2 V))).
  assert (BP : bps_of sp = 2) by (unfold bps_of; rewrite B; reflexivity). assert (WF := wav_file_header sp vs Hb). cbv zeta in WF. fold (bps_of sp) in WF. rewrite BP, B in WF.
  set (n := Z.of_nat (length vs) * 2) in *. set (hdr := wav_header sp (header_len sp - 8 + n) n) in *.
  assert (HL : Z.of_nat (length hdr) = header_len sp) by apply wav_header_length.
  assert (HR : 44 <= header_len sp <= 68) by (unfold header_len; destruct (wants_extensible sp); lia).
  unfold fits_wav in FW. fold (bps_of sp) in FW. rewrite BP in FW. change (2 ^ 32) with 4294967296 in FW.
  set (c := (length hdr - 2 * m)%nat).
  destruct (decode16 m (skipn c hdr)) as (ws & W1 & W2 & W3); [rewrite skipn_length; unfold c; lia|apply byte_skipn, header_bytes|].
  set (us := firstn (length vs - m) vs). assert (UL : length us = (length vs - m)%nat) by (unfold us; rewrite firstn_length; lia).
  exists hdr, ws. split; [exact WF|]. split; [exact W1|]. split; [exists (firstn c hdr); rewrite W2; symmetry; apply firstn_skipn|].
  assert (WSF : samples_fit sp ws). { unfold samples_fit. rewrite F, B. exact W3. } split; [exact WSF|].
  assert (USF : samples_fit sp us). { unfold samples_fit in *. rewrite Forall_forall in *. intros x Hx. apply SF. rewrite <- (firstn_skipn (length vs - m) vs). apply in_or_app. now left. }
  assert (ASF : samples_fit sp (ws ++ us)) by (apply Forall_app; auto).
  assert (LD : loadable sp) by (left; auto). destruct (loadable_facts sp LD) as (_ & Hf & Hc).
  (* the complete file *)
  assert (AL : length (ws ++ us) = length vs) by (rewrite app_length; lia).
  destruct (plain_opens sp (ws ++ us) [] V) as (O & U & SO); [unfold fits_wav; fold (bps_of sp); rewrite BP, AL; change (2 ^ 32) with 4294967296; lia|unfold whole_frames; rewrite C; apply Z.mod_1_r|].
  rewrite app_nil_r in O. rewrite (try_from_opens fm hf _ sp _ _ O LD ltac:(lia) ASF ltac:(rewrite AL; change (2 ^ 32) with 4294967296; lia)).
  (* the truncated file *)
  unfold wt_try_from. unfold hdr. rewrite reader_new_header; fold hdr; [|exact V|lia|lia|lia|rewrite BP; unfold n; apply Z_mod_mult|rewrite C; apply Z.mod_1_r].
  assert (NN : n / bps_of sp = Z.of_nat (length vs)) by (rewrite BP; unfold n; apply Z.div_mul; lia). rewrite NN.
  set (r := mk_reader _ _ _ _ _ _).
  assert (RC : rcut r sp hdr us [] (Z.of_nat (length vs)) 0). { split; try reflexivity. cbn [r r_stream]. unfold at_. rewrite B, app_nil_r, Z.add_0_r. reflexivity. }
  destruct (take_items_cut sp hdr us [] (Z.of_nat (length vs)) (ty_of sp) (length us) r 0 RC Hb Hf Hc USF ltac:(lia) ltac:(lia)) as (r1 & E1 & RC1).
  destruct RC1 as [X1 X2 X3 X4 X5]. rewrite Nat.add_0_l in X4, X5.
  destruct (eof_items sp (ty_of sp) m r1 Hb Hf Hc X1 X2 ltac:(lia)) as (r2 & E2 & Y1 & Y2 & Y3 & Y4 & Y5).
  { rewrite X5. rewrite avail_skipn by (cbn [spos]; lia). cbn [sdata spos]. apply skipn_all2. rewrite !app_length. cbn [length]. assert (EL := enc_all_length (bits_per_sample sp) us Hb). fold (bps_of sp) in EL. rewrite BP in EL |- *. lia. }
  assert (TI : take_items (ty_of sp) (Z.to_nat (r_num r - r_read r)) r = (map (fun v => Some (Ok v)) us ++ repeat (Some (Err IoError)) m, r2)).
  { replace (Z.to_nat (r_num r - r_read r)) with (length us + m)%nat by (cbn [r r_num r_read]; lia). rewrite take_items_app, E1. cbn [fst snd skipn]. rewrite E2. cbn [fst snd]. rewrite firstn_all. reflexivity. }
  assert (SK : exists r3, r_seek 0 r2 = Ok r3 /\ rgood r3 sp (firstn c hdr) (ws ++ us) [] 0).
  { unfold r_seek, r_spec. rewrite Y3, X1. cbn [sx_spec]. fold (bps_of sp). rewrite BP, C. change (u32_max <? 0 * 1) with false. cbv iota.
    unfold seek_current. rewrite Y5, X5. cbn [spos sdata]. rewrite Y1, X4, BP.
    assert (P : Z.of_nat (length hdr) + Z.of_nat (length us) * 2 + (0 * 1 - (Z.of_nat (length us) + Z.of_nat m)) * 2 = Z.of_nat c) by (unfold c; lia). rewrite P.
    destruct (Z.ltb_spec (Z.of_nat c) 0); [lia|]. cbn [obind]. eexists. split; [reflexivity|]. split; cbn [r_specx r_bps r_num r_read r_stream].
    - rewrite BP; reflexivity. - exact (eq_trans Y4 X2). - rewrite Y2, X3, AL. reflexivity. - reflexivity.
    - rewrite B, app_nil_r, enc_all_app, W2, !app_nil_r. rewrite app_assoc, firstn_skipn. f_equal. rewrite firstn_length. unfold c. lia. }
  destruct SK as (r3 & SK & G3).
  rewrite (from_reader_unfold fm hf sp r (map (fun v => Some (Ok v)) us ++ repeat (Some (Err IoError)) m) r2 r3 LD); [|reflexivity|exact TI| |exact SK].
  2: { rewrite any_panic_app, no_panic_ok. clear. induction m; [reflexivity|exact IHm]. }
  assert (NR : r_num r - r_read r = Z.of_nat (length (ws ++ us))) by (cbn [r r_num r_read]; lia). rewrite NR. change (r_surge r) with (acc_fmt sp).
  destruct (wt_plan (acc_fmt sp) (Z.of_nat (length (ws ++ us)))) as [[b d]|e|]; cbn [obind]; try reflexivity.
  destruct (negb (channels sp =? 1)); [reflexivity|]. exact (tail_good fm hf sp d r3 _ _ _ LD ASF G3).
Qed.
Print Assumptions C50_truncated_refuted.
Example C50_truncated_instance : valid_spec sp_mono16 /\ fits_wav sp_mono16 1024 /\ 2 * Z.of_nat 5 <= header_len sp_mono16 /\ channels sp_mono16 = 1.
Proof. split; [exact mono16_valid|]. split; [unfold fits_wav; cbn; lia|]. split; [vm_compute; congruence|reflexivity]. Qed.
