(** Theorems about the Huovilainen ladder (C264-C266). *)
From Coq Require Import Reals Lra Psatz Lia List.
From Flocq Require Import Core.Core.
From Coquelicot Require Import Coquelicot.
From Verif Require Import Base Util F32 BlockModel MathModel LadderModel RampProps ClipProps FastProps FastProps2 FiltProps LadderProps.
Import ListNotations.
Local Open Scope R_scope.

(* ================= C264: coefficients ================= *)

(** For every note, resonance (any number) and the sample rates of a synth (oversampled twice): Fc is the cutoff over twice the oversampled
    rate and lies in (0, 0.15]; the resonance lies in [0, 0.9925] and is the knob's value when that is at most 0.93; the tuning factor
    g = tune / 40000 is in [0, 1]; the feedback factor is between 0 and 4.8. *)
Theorem C264_coefficients : forall gc n2p sr reso, 50 / 3 <= sr ->
  let c := hu_coeff gc n2p sr (2 * sr) reso in
  5 <= hu_cut c <= 3 / 10 * (2 * sr) /\ hu_fc c = hu_cut c / (2 * (2 * sr)) /\ 0 < hu_fc c <= 15 / 100 /\
  0 <= hu_res c <= 9925 / 10000 /\ (0 <= reso <= 93 / 100 -> hu_res c = reso) /\
  0 <= hu_tune (hu_fc c) <= 40000 /\ 0 <= hu_resquad (hu_fc c) (hu_res c) <= 48 / 10 /\
  hu_gc c = match gc with Some g => g | None => 0 end.
Proof.
  intros gc n2p sr reso H c.
  assert (F : 5 <= hu_cut c <= 3 / 10 * (2 * sr)). { pose proof (ladder_freq_range n2p (2 * sr) ltac:(lra)) as Q. unfold c, hu_coeff. cbv zeta. cbn [hu_cut]. lra. }
  assert (E : hu_fc c = hu_cut c / (2 * (2 * sr))). { unfold c, hu_coeff. cbv zeta. cbn [hu_cut hu_fc]. field. lra. }
  assert (FC : 0 < hu_fc c <= 15 / 100). { rewrite E. split; [apply Rdiv_lt_0_compat; lra|]. apply Rcomplements.Rle_div_l; lra. }
  assert (RS : 0 <= hu_res c <= 9925 / 10000 /\ (0 <= reso <= 93 / 100 -> hu_res c = reso)).
  { set (co := Rmax (hu_cut c - sr * (33333 / 100000)) 0 * (1 / 10) * (1 / (2 * sr))).
    assert (C0 : 0 <= co <= 14 / 1000).
    { unfold co. set (m := Rmax _ _). assert (M : 0 <= m <= 267 / 1000 * sr). { unfold m. split; [apply Rmax_r|apply Rmax_lub; lra]. } clearbody m. split.
      - assert (I0 : 0 < 1 / (2 * sr)) by (apply Rdiv_lt_0_compat; lra). apply Rmult_le_pos; [apply Rmult_le_pos; lra|lra].
      - replace (m * (1 / 10) * (1 / (2 * sr))) with (m * (1 / 10) / (2 * sr)) by (field; lra). apply Rcomplements.Rle_div_l; lra. }
    set (gt := match gc with Some _ => 5 / 100 | None => 0 end). assert (G : 0 <= gt <= 5 / 100) by (unfold gt; destruct gc; lra).
    assert (ER : hu_res c = Rmin (Rmax (Rmin (Rmax reso 0) (9925 / 10000)) 0) (994 / 1000 - co - gt)). { unfold c, hu_coeff. cbv zeta. cbn [hu_res hu_cut]. rewrite !limR. reflexivity. }
    rewrite ER. clearbody co gt. split; [unfold Rmin, Rmax; repeat destruct (Rle_dec _ _); lra|]. intros K. rewrite (Rmax_left reso) by lra. rewrite (Rmin_left reso) by lra. rewrite Rmax_left by lra. apply Rmin_left. lra. }
  destruct RS as [RS1 RS2]. split; [exact F|]. split; [exact E|]. split; [exact FC|]. split; [exact RS1|]. split; [exact RS2|].
  set (fc := hu_fc c) in *. set (r := hu_res c) in *. clearbody fc r.
  split; [|split; [|reflexivity]].
  - unfold hu_tune. cbv zeta. set (w := -2 * PI * _). assert (W : w <= 0).
    { unfold w. pose proof PI_RGT_0. assert (0 <= fc * (1 / 2) * (1873 / 1000 * (fc * (fc * fc)) + (4995 / 10000 * (fc * fc) + (-649 / 1000 * fc + 9988 / 10000)))).
      { apply Rmult_le_pos; [lra|]. assert (0 <= fc * fc) by nra. assert (0 <= fc * (fc * fc)) by nra. lra. }
      nra. }
    destruct C74_fastexp as (P & _). specialize (P w).
    assert (U : fastexp w <= 1).
    { unfold fastexp. apply Rcomplements.Rle_div_l; [exact (exp_den_pos w)|]. assert (0 <= w * w) by nra. assert (w * (w * w) <= 0) by nra. ring_simplify. replace (w ^ 3) with (w * (w * w)) by ring. lra. }
    lra.
  - unfold hu_resquad. cbv zeta. assert (0 <= fc * fc <= 225 / 10000) by nra. set (a := -39364 / 10000 * (fc * fc) + (18409 / 10000 * fc + 9968 / 10000)). assert (A : 0 <= a <= 12 / 10) by (unfold a; nra). clearbody a. nra.
Qed.
Print Assumptions C264_coefficients.

Lemma pass_move x s : hs_d (hu_pass x s) = hs_d s /\ hu_cut (hs_c (hu_pass x s)) = hu_cut (hs_c s) + 1 / 4 * hu_cut (hs_d s) /\
  hu_res (hs_c (hu_pass x s)) = hu_res (hs_c s) + 1 / 4 * hu_res (hs_d s) /\ hu_fc (hs_c (hu_pass x s)) = hu_fc (hs_c s) + 1 / 4 * hu_fc (hs_d s) /\
  hu_gc (hs_c (hu_pass x s)) = hu_gc (hs_c s) + 1 / 4 * hu_gc (hs_d s).
Proof. unfold hu_pass. cbv zeta. cbn [hs_d hs_c hu_fc hu_res hu_gc hu_cut hu_move]. repeat split; field. Qed.
Theorem C264_glide : forall s x, let s' := fst (hu_process s x) in
  hs_d s' = hs_d s /\ hu_cut (hs_c s') = hu_cut (hs_c s) + hu_cut (hs_d s) /\ hu_res (hs_c s') = hu_res (hs_c s) + hu_res (hs_d s) /\
  hu_fc (hs_c s') = hu_fc (hs_c s) + hu_fc (hs_d s) /\ hu_gc (hs_c s') = hu_gc (hs_c s) + hu_gc (hs_d s).
Proof.
  intros s x s'. unfold s', hu_process. cbv zeta. cbn [fst].
  destruct (pass_move x s) as (A1 & A2 & A3 & A4 & A5). set (p1 := hu_pass x s) in *. clearbody p1.
  destruct (pass_move 0 p1) as (B1 & B2 & B3 & B4 & B5). set (p2 := hu_pass 0 p1) in *. clearbody p2.
  destruct (pass_move 0 p2) as (D1 & D2 & D3 & D4 & D5). set (p3 := hu_pass 0 p2) in *. clearbody p3.
  destruct (pass_move 0 p3) as (E1 & E2 & E3 & E4 & E5). set (p4 := hu_pass 0 p3) in *. clearbody p4.
  assert (P2 : hs_d p2 = hs_d s) by congruence. assert (P3 : hs_d p3 = hs_d s) by congruence. rewrite P3 in *. rewrite P2 in *. rewrite A1 in *. split; [congruence|]. repeat split; lra.
Qed.
Print Assumptions C264_glide.

(** Specification of one pass of the ladder: four one-pole stages in a row; each stage moves by [tune] times the difference of the saturated
    new output of the stage before (the input for the first) and its own saturated old output.  The fed back value is the mean of the
    last stage's old and older values (half a sample of delay). *)
Definition T (v : R) : R := fasttanh_clamped (v * (25 / 1000000)).
Record ladder := mk_l { y0 : R; y1 : R; y2 : R; y3 : R; older3 : R; fed : R }.
Definition ladder_step (tune k gc input : R) (l : ladder) : ladder :=
  let x := input - k * (fed l - gc * input) in
  let a := y0 l + tune * (T x - T (y0 l)) in
  let b := y1 l + tune * (T a - T (y1 l)) in
  let c := y2 l + tune * (T b - T (y2 l)) in
  let d := y3 l + tune * (T c - T (y3 l)) in
  mk_l a b c d (y3 l) (1 / 2 * (d + y3 l)).
(* the registers hold this ladder *)
Definition holds (r : hureg) (l : ladder) : Prop :=
  h_d0 r = y0 l /\ h_d1 r = y1 l /\ h_d2 r = y2 l /\ h_d3 r = y3 l /\ h_d4 r = y3 l /\ h_d5 r = fed l /\
  h_t0 r = T (y0 l) /\ h_t1 r = T (y1 l) /\ h_t2 r = T (y2 l).
Definition empty : ladder := mk_l 0 0 0 0 0 0.
Definition hu_clear (c d : huc) : hustate := mk_hus c d (mk_hr 0 0 0 0 0 0 0 0 0 0 0 0 0).
Lemma T_0 : T 0 = 0.
Proof. unfold T. destruct C74_fasttanh as (_ & _ & _ & O & _). specialize (O 0). rewrite Ropp_0 in O. rewrite Rmult_0_l. lra. Qed.

(** Each pass is one step of that ladder, with the tuning and feedback factors of the coefficients before the glide's quarter step and the
    gain compensation after it; a cleared filter holds the empty ladder. *)
Theorem C264_pass : forall st l input, holds (hs_r st) l ->
  holds (hs_r (hu_pass input st)) (ladder_step (hu_tune (hu_fc (hs_c st))) (hu_resquad (hu_fc (hs_c st)) (hu_res (hs_c st))) (hu_gc (hs_c st) + hu_gc (hs_d st) / 4) input l).
Proof.
  intros [c d r] l input (H0 & H1 & H2 & H3 & H4 & H5 & T0 & T1 & T2). unfold hu_pass, ladder_step, holds. cbv zeta. cbn [hs_c hs_d hs_r h_d0 h_d1 h_d2 h_d3 h_d4 h_d5 h_t0 h_t1 h_t2 y0 y1 y2 y3 older3 fed hu_gc hu_move] in *.
  rewrite H0, H1, H2, H3, H4, H5, T0, T1, T2. replace (hu_gc c + 1 / 2 * (1 / 2) * hu_gc d) with (hu_gc c + hu_gc d / 4) by field. unfold hu_thermal, T. repeat split; reflexivity.
Qed.
Print Assumptions C264_pass.
Theorem C264_cleared : forall c d, holds (hs_r (hu_clear c d)) empty.
Proof. intros c d. unfold holds, hu_clear, empty. cbn [hs_r h_d0 h_d1 h_d2 h_d3 h_d4 h_d5 h_t0 h_t1 h_t2 y0 y1 y2 y3 fed]. rewrite T_0. repeat split. Qed.
Print Assumptions C264_cleared.

(* ================= C265: bounded ================= *)

Lemma fasttanh_lip x y : x <= y -> fasttanh y - fasttanh x <= y - x.
Proof.
  intros H. assert (M : x - fasttanh x <= y - fasttanh y); [|lra].
  set (D := fun c : R => 135135 + c * c * (62370 + c * c * (3150 + 28 * (c * c)))).
  apply (mono_of_derive (fun c => c - fasttanh c) (fun c => 1 - W7 (c * c) / (D c * D c))); [| |exact H].
  - intros c. apply (is_derive_minus (V := R_NormedModule) (fun c => c) fasttanh c 1 (W7 (c * c) / (D c * D c))); [apply is_derive_Reals, derivable_pt_lim_id|exact (fasttanh_derive c)].
  - intros c _. assert (P : 0 < D c) by (apply tanh_den_pos; nra). assert (PP : 0 < D c * D c) by (apply Rmult_lt_0_compat; exact P).
    assert (Q : W7 (c * c) <= D c * D c); [|assert (W7 (c * c) / (D c * D c) <= 1) by (apply Rcomplements.Rle_div_l; lra); lra].
    unfold W7, D. set (u := c * c). assert (U : 0 <= u) by (unfold u; nra). clearbody u.
    assert (U2 : 0 <= u * u) by nra. assert (U3 : 0 <= u * u * u) by nra. assert (U4 : 0 <= u * u * u * u) by nra. assert (U5 : 0 <= u * u * u * u * u) by nra. assert (U6 : 0 <= u * u * u * u * u * u) by nra.
    replace ((135135 + u * (62370 + u * (3150 + 28 * u))) * (135135 + u * (62370 + u * (3150 + 28 * u)))) with
      (18261468225 + 2 * 135135 * 62370 * u + (62370 * 62370 + 2 * 135135 * 3150) * (u * u) + (2 * 135135 * 28 + 2 * 62370 * 3150) * (u * u * u) + (3150 * 3150 + 2 * 62370 * 28) * (u * u * u * u) + 2 * 3150 * 28 * (u * u * u * u * u) + 28 * 28 * (u * u * u * u * u * u)) by ring.
    lra.
Qed.
Lemma T_mono x y : x <= y -> T x <= T y.
Proof. intros H. unfold T. destruct C74_fasttanh as (_ & _ & _ & _ & M & _). apply M. lra. Qed.
Lemma T_odd x : T (- x) = - T x.
Proof. unfold T. destruct C74_fasttanh as (_ & _ & _ & O & _). replace (- x * (25 / 1000000)) with (- (x * (25 / 1000000))) by ring. apply O. Qed.
Lemma T_slope x y : x <= y -> -200000 <= x -> y <= 200000 -> T y - T x <= (y - x) / 40000.
Proof.
  intros H Hx Hy. unfold T. destruct C74_fasttanh as (_ & _ & _ & _ & _ & _ & E). rewrite !E by lra. eapply Rle_trans; [apply fasttanh_lip; lra|]. lra.
Qed.
Lemma T_cap x : T x <= T 200000.
Proof.
  destruct (Rle_dec x 200000) as [L|L]; [apply T_mono; exact L|]. right. unfold T, fasttanh_clamped. rewrite !sminR, !smaxR. f_equal.
  rewrite (Rmax_right (-5) (x * (25 / 1000000))) by lra. rewrite (Rmax_right (-5) (200000 * (25 / 1000000))) by lra. rewrite !Rmin_left by lra. reflexivity.
Qed.
(* a stage fed with something whose saturation is within that of B stays within B *)
Lemma stage_within tune y t B : 0 <= tune <= 40000 -> 0 <= B <= 200000 -> Rabs y <= B -> - T B <= t <= T B -> Rabs (y + tune * (t - T y)) <= B.
Proof.
  intros Ht HB Hy Hx. apply Rcomplements.Rabs_le_between in Hy. apply Rcomplements.Rabs_le_between.
  pose proof (T_slope y B ltac:(lra) ltac:(lra) ltac:(lra)) as S1. pose proof (T_slope (- B) y ltac:(lra) ltac:(lra) ltac:(lra)) as S2. rewrite T_odd in S2.
  assert (M1 := T_mono y B ltac:(lra)). assert (M2 := T_mono (- B) y ltac:(lra)). rewrite T_odd in M2.
  split.
  - assert (tune * (T y + T B) <= 40000 * ((y + B) / 40000)) by (apply Rmult_le_compat; lra). assert (tune * (- T B) <= tune * t) by (apply Rmult_le_compat_l; lra). lra.
  - assert (tune * (T B - T y) <= 40000 * ((B - y) / 40000)) by (apply Rmult_le_compat; lra). assert (tune * t <= tune * T B) by (apply Rmult_le_compat_l; lra). lra.
Qed.
Definition lwithin (B : R) (l : ladder) : Prop := Rabs (y0 l) <= B /\ Rabs (y1 l) <= B /\ Rabs (y2 l) <= B /\ Rabs (y3 l) <= B /\ Rabs (fed l) <= B.
Lemma T_range x B : Rabs x <= B -> - T B <= T x <= T B.
Proof. intros H. apply Rcomplements.Rabs_le_between in H. rewrite <- T_odd. split; apply T_mono; lra. Qed.
Lemma ladder_within tune k gc input l B : 0 <= tune <= 40000 -> 0 <= B <= 200000 -> lwithin B l ->
  - T B <= T (input - k * (fed l - gc * input)) <= T B -> lwithin B (ladder_step tune k gc input l).
Proof.
  intros Ht HB (H0 & H1 & H2 & H3 & H5) Hx. unfold ladder_step. cbv zeta. set (x := input - _) in *. clearbody x.
  assert (A := stage_within tune (y0 l) (T x) B Ht HB H0 Hx). set (a := y0 l + _) in *. clearbody a.
  assert (Bb := stage_within tune (y1 l) (T a) B Ht HB H1 (T_range _ _ A)). set (b := y1 l + _) in *. clearbody b.
  assert (C := stage_within tune (y2 l) (T b) B Ht HB H2 (T_range _ _ Bb)). set (c := y2 l + _) in *. clearbody c.
  assert (D := stage_within tune (y3 l) (T c) B Ht HB H3 (T_range _ _ C)). set (d := y3 l + _) in *. clearbody d.
  unfold lwithin. cbn [y0 y1 y2 y3 fed]. repeat (apply conj; [assumption|]). apply Rcomplements.Rabs_le_between in D, H3. apply Rcomplements.Rabs_le_between. lra.
Qed.

(* runs: the tuning stays in range while the glide moves Fc from inside [0, 0.15] to inside it *)
Definition fc_ok (fc : R) : Prop := 0 <= fc <= 15 / 100.
Lemma tune_ok fc : fc_ok fc -> 0 <= hu_tune fc <= 40000.
Proof.
  intros FC. unfold fc_ok in FC. unfold hu_tune. cbv zeta. set (w := -2 * PI * _). assert (W : w <= 0).
  { unfold w. pose proof PI_RGT_0. assert (0 <= fc * (1 / 2) * (1873 / 1000 * (fc * (fc * fc)) + (4995 / 10000 * (fc * fc) + (-649 / 1000 * fc + 9988 / 10000)))).
    { apply Rmult_le_pos; [lra|]. assert (0 <= fc * fc) by nra. assert (0 <= fc * (fc * fc)) by nra. lra. }
    nra. }
  destruct C74_fastexp as (P & _). specialize (P w).
  assert (U : fastexp w <= 1).
  { unfold fastexp. apply Rcomplements.Rle_div_l; [exact (exp_den_pos w)|]. assert (0 <= w * w) by nra. assert (w * (w * w) <= 0) by nra. ring_simplify. replace (w ^ 3) with (w * (w * w)) by ring. lra. }
  lra.
Qed.
Definition filter_within (B : R) (s : hustate) : Prop := exists l, holds (hs_r s) l /\ lwithin B l.
Lemma pass_within B input s : 0 <= B <= 200000 -> fc_ok (hu_fc (hs_c s)) -> 
  (B = 200000 \/ (hu_res (hs_c s) = 0 /\ Rabs input <= B)) -> filter_within B s -> filter_within B (hu_pass input s).
Proof.
  intros HB Hf Hx (l & H & W). eexists. split; [apply C264_pass; exact H|]. apply ladder_within; [apply tune_ok; exact Hf|exact HB|exact W|].
  destruct Hx as [-> | [Hr Hi]].
  - split; [|apply T_cap]. set (x := input - _). replace x with (- - x) by ring. rewrite T_odd. apply Ropp_le_contravar, T_cap.
  - apply T_range. unfold hu_resquad. rewrite Hr. replace (input - _) with input by ring. exact Hi.
Qed.
Lemma pass_coeffs input s : hs_d (hu_pass input s) = hs_d s /\ hu_fc (hs_c (hu_pass input s)) = hu_fc (hs_c s) + 1 / 4 * hu_fc (hs_d s) /\ hu_res (hs_c (hu_pass input s)) = hu_res (hs_c s) + 1 / 4 * hu_res (hs_d s).
Proof. unfold hu_pass. cbv zeta. cbn [hs_d hs_c hu_fc hu_res hu_move]. repeat split; field. Qed.
Lemma run_within B : 0 <= B <= 200000 -> forall xs s, fc_ok (hu_fc (hs_c s)) -> fc_ok (hu_fc (hs_c s) + INR (length xs) * hu_fc (hs_d s)) ->
  (B = 200000 \/ (hu_res (hs_c s) = 0 /\ hu_res (hs_d s) = 0 /\ Forall (fun x => Rabs x <= B) xs)) -> filter_within B s ->
  let r := ladder_run hu_process s xs in filter_within B (fst r) /\ length (snd r) = length xs /\ Forall (fun y => Rabs y <= 246 / 100 * B) (snd r).
Proof.
  intros HB xs. induction xs as [|x t IH]; intros s H1 H2 Hx Hw r; unfold r; cbn [ladder_run]; [split; [exact Hw|split; [reflexivity|constructor]]|].
  assert (N : 1 <= INR (length (x :: t))) by (cbn [length]; rewrite S_INR; pose proof (pos_INR (length t)); lra).
  assert (Q : forall u, 0 <= u <= 1 -> fc_ok (hu_fc (hs_c s) + u * hu_fc (hs_d s))).
  { intros u Hu. unfold fc_ok in *. set (n := INR (length (x :: t))) in *. set (c := hu_fc (hs_c s)) in *. set (d := hu_fc (hs_d s)) in *. clearbody c d n.
    assert (I : 0 < / n <= 1) by (split; [apply Rinv_0_lt_compat; lra|rewrite <- Rinv_1; apply Rinv_le_contravar; lra]).
    set (w := u * / n). assert (W : 0 <= w <= 1) by (unfold w; nra). replace (c + u * d) with ((1 - w) * c + w * (c + n * d)) by (unfold w; field; lra). nra. }
  assert (Z : forall i s', (B = 200000 \/ (hu_res (hs_c s) = 0 /\ hu_res (hs_d s) = 0 /\ Rabs i <= B)) -> (exists u, 0 <= u <= 3 / 4 /\ hu_fc (hs_c s') = hu_fc (hs_c s) + u * hu_fc (hs_d s) /\ hu_res (hs_c s') = hu_res (hs_c s) + u * hu_res (hs_d s)) -> hs_d s' = hs_d s -> filter_within B s' ->
     filter_within B (hu_pass i s')).
  { intros i s' Hi (u & U1 & U2 & U3) Hd W. apply pass_within; [exact HB|rewrite U2; apply Q; lra| |exact W]. destruct Hi as [Hi|(R1 & R2 & R3)]; [left; exact Hi|right]. split; [rewrite U3, R1, R2; ring|exact R3]. }
  assert (Hi0 : forall i, i = x \/ i = 0 -> (B = 200000 \/ (hu_res (hs_c s) = 0 /\ hu_res (hs_d s) = 0 /\ Rabs i <= B))).
  { intros i Hi. destruct Hx as [Hx|(R1 & R2 & R3)]; [left; exact Hx|right]. split; [exact R1|]. split; [exact R2|]. inversion R3; subst. destruct Hi as [-> | ->]; [assumption|rewrite Rabs_R0; lra]. }
  destruct (C264_glide s x) as (G1 & _ & G3 & G2 & _). destruct (hu_process s x) as [s' y] eqn:E. cbn [fst] in G1, G2, G3.
  assert (P : filter_within B s' /\ Rabs y <= 246 / 100 * B).
  { unfold hu_process in E. cbv zeta in E. assert (E1 := f_equal fst E). assert (E2 := f_equal snd E). cbn [fst snd] in E1, E2.
    destruct (pass_coeffs x s) as (D1 & F1 & K1). set (p1 := hu_pass x s) in *. assert (W1 : filter_within B p1) by (apply Z; [apply Hi0; left; reflexivity|exists 0; split; [lra|split; ring]|reflexivity|exact Hw]).
    destruct (pass_coeffs 0 p1) as (D2 & F2 & K2). set (p2 := hu_pass 0 p1) in *. assert (W2 : filter_within B p2) by (apply Z; [apply Hi0; right; reflexivity|exists (1 / 4); split; [lra|split; assumption]|exact D1|exact W1]).
    rewrite F1, D1 in F2. rewrite K1, D1 in K2.
    destruct (pass_coeffs 0 p2) as (D3 & F3 & K3). set (p3 := hu_pass 0 p2) in *. assert (W3 : filter_within B p3) by (apply Z; [apply Hi0; right; reflexivity|exists (1 / 2); split; [lra|split; lra]|congruence|exact W2]).
    rewrite F2, D2, D1 in F3. rewrite K2, D2, D1 in K3.
    set (p4 := hu_pass 0 p3) in *. assert (W4 : filter_within B p4) by (apply Z; [apply Hi0; right; reflexivity|exists (3 / 4); split; [lra|split; lra]|congruence|exact W3]).
    rewrite <- E1, <- E2. split; [exact W4|].
    assert (X : forall p, filter_within B p -> Rabs (h_d5 (hs_r p)) <= B) by (intros p (l & Hh & Wl); destruct Hh as (_ & _ & _ & _ & _ & -> & _); apply Wl).
    apply ladder_out_bounded; apply X; assumption. }
  destruct P as [P1 P2]. destruct (IH s') as (I1 & I2 & I3).
  - rewrite G2. replace (hu_fc (hs_d s)) with (1 * hu_fc (hs_d s)) by ring. apply Q. lra.
  - rewrite G2, G1. cbn [length] in H2. rewrite S_INR in H2. replace (hu_fc (hs_c s) + hu_fc (hs_d s) + INR (length t) * hu_fc (hs_d s)) with (hu_fc (hs_c s) + (INR (length t) + 1) * hu_fc (hs_d s)) by ring. exact H2.
  - destruct Hx as [Hx|(R1 & R2 & R3)]; [left; exact Hx|right]. rewrite G3, G1, R1, R2. split; [ring|]. split; [reflexivity|]. inversion R3; assumption.
  - exact P1.
  - destruct (ladder_run hu_process s' t) as [s2 ys]. cbn [fst snd] in *. split; [exact I1|]. split; [cbn; congruence|constructor; assumption].
Qed.
Lemma clear_within c d B : 0 <= B -> filter_within B (hu_clear c d).
Proof. intros H. exists empty. split; [apply C264_cleared|]. unfold lwithin, empty. cbn [y0 y1 y2 y3 fed]. rewrite Rabs_R0. repeat split; exact H. Qed.

(** For every input signal (any size), resonance and gain compensation (any numbers, gliding), from a cleared filter, the output stays
    within 492000: no stage ever leaves [-200000, 200000], where the saturation is flat. *)
Theorem C265_bounded : forall c d xs, fc_ok (hu_fc c) -> fc_ok (hu_fc c + INR (length xs) * hu_fc d) ->
  length (snd (ladder_run hu_process (hu_clear c d) xs)) = length xs /\ Forall (fun y => Rabs y <= 492000) (snd (ladder_run hu_process (hu_clear c d) xs)).
Proof.
  intros c d xs H1 H2. destruct (run_within 200000 ltac:(lra) xs (hu_clear c d) H1 H2 (or_introl eq_refl) (clear_within c d 200000 ltac:(lra))) as (_ & L & F).
  split; [exact L|]. eapply Forall_impl; [|exact F]. intros y Hy. cbv beta in Hy. lra.
Qed.
Print Assumptions C265_bounded.
(** With the resonance at 0 the filter does not overshoot: when the input stays within B, so does every stage; the output stays within
    2.46 B (the output stage's gain). *)
Theorem C265_no_overshoot : forall c d xs B, fc_ok (hu_fc c) -> fc_ok (hu_fc c + INR (length xs) * hu_fc d) -> hu_res c = 0 -> hu_res d = 0 ->
  0 <= B <= 200000 -> Forall (fun x => Rabs x <= B) xs ->
  Forall (fun y => Rabs y <= 246 / 100 * B) (snd (ladder_run hu_process (hu_clear c d) xs)) /\
  filter_within B (fst (ladder_run hu_process (hu_clear c d) xs)).
Proof.
  intros c d xs B H1 H2 Hr Hd HB Hx. destruct (run_within B HB xs (hu_clear c d) H1 H2 (or_intror (conj Hr (conj Hd Hx))) (clear_within c d B ltac:(lra))) as (W & _ & F).
  split; assumption.
Qed.
Print Assumptions C265_no_overshoot.
Example C265_ex : fc_ok (hu_fc (hu_coeff None 55 48000 96000 0)) /\ hu_res (hu_coeff None 55 48000 96000 0) = 0.
Proof.
  pose proof (C264_coefficients None 55 48000 0 ltac:(lra)) as (_ & _ & F & _ & R & _). cbv zeta in *. replace (2 * 48000) with 96000 in * by ring. split; [unfold fc_ok; lra|apply R; lra].
Qed.

(* ================= C266: polarity and silence ================= *)

Definition hr_neg (r : hureg) : hureg := mk_hr (- h_s0 r) (- h_s1 r) (- h_s2 r) (- h_s3 r) (- h_t0 r) (- h_t1 r) (- h_t2 r) (- h_d0 r) (- h_d1 r) (- h_d2 r) (- h_d3 r) (- h_d4 r) (- h_d5 r).
Definition hu_neg (s : hustate) : hustate := mk_hus (hs_c s) (hs_d s) (hr_neg (hs_r s)).
Lemma hu_pass_neg i s : hu_pass (- i) (hu_neg s) = hu_neg (hu_pass i s).
Proof.
  assert (O : forall x, fasttanh_clamped (- x) = - fasttanh_clamped x) by (destruct C74_fasttanh as (_ & _ & _ & O & _); exact O).
  destruct s as [c d r]. unfold hu_pass, hu_neg, hr_neg. cbn [hs_c hs_d hs_r h_d0 h_d1 h_d2 h_d3 h_d4 h_d5 h_t0 h_t1 h_t2 h_s0 h_s1 h_s2 h_s3]. cbv zeta. f_equal.
  set (tune := hu_tune _). set (k := hu_resquad _ _). set (g := hu_gc _).
  replace (- i - k * (- h_d5 r - g * - i)) with (- (i - k * (h_d5 r - g * i))) by ring. set (x := i - _).
  replace (- x * hu_thermal) with (- (x * hu_thermal)) by ring. rewrite O. 
  replace (- h_d0 r + tune * (- fasttanh_clamped (x * hu_thermal) - - h_t0 r)) with (- (h_d0 r + tune * (fasttanh_clamped (x * hu_thermal) - h_t0 r))) by ring. set (a := h_d0 r + _).
  replace (- a * hu_thermal) with (- (a * hu_thermal)) by ring. rewrite O.
  replace (- h_d1 r + tune * (- fasttanh_clamped (a * hu_thermal) - - h_t1 r)) with (- (h_d1 r + tune * (fasttanh_clamped (a * hu_thermal) - h_t1 r))) by ring. set (b := h_d1 r + _).
  replace (- b * hu_thermal) with (- (b * hu_thermal)) by ring. rewrite O.
  replace (- h_d2 r + tune * (- fasttanh_clamped (b * hu_thermal) - - h_t2 r)) with (- (h_d2 r + tune * (fasttanh_clamped (b * hu_thermal) - h_t2 r))) by ring. set (e := h_d2 r + _).
  replace (- e * hu_thermal) with (- (e * hu_thermal)) by ring. replace (- h_d3 r * hu_thermal) with (- (h_d3 r * hu_thermal)) by ring. rewrite !O. f_equal; ring.
Qed.
Lemma hu_process_neg s x : hu_process (hu_neg s) (- x) = (hu_neg (fst (hu_process s x)), - snd (hu_process s x)).
Proof.
  unfold hu_process. cbv zeta. cbn [fst snd]. assert (Z : forall q, hu_pass 0 (hu_neg q) = hu_neg (hu_pass 0 q)) by (intros q; rewrite <- hu_pass_neg, Ropp_0; reflexivity).
  rewrite !hu_pass_neg, !Z. f_equal. unfold hu_neg, hr_neg. cbn [hs_r h_d5]. unfold ladder_out. ring.
Qed.
Theorem C266_polarity : forall xs s, ladder_run hu_process (hu_neg s) (map Ropp xs) = (hu_neg (fst (ladder_run hu_process s xs)), map Ropp (snd (ladder_run hu_process s xs))).
Proof.
  intros xs. induction xs as [|x t IH]; intros s; [reflexivity|]. cbn [ladder_run map]. rewrite hu_process_neg. destruct (hu_process s x) as [s' y]. cbn [fst snd]. rewrite IH.
  destruct (ladder_run hu_process s' t) as [s2 ys]. reflexivity.
Qed.
Print Assumptions C266_polarity.
Theorem C266_silence : forall c d n, snd (ladder_run hu_process (hu_clear c d) (repeat 0 n)) = repeat 0 n.
Proof.
  intros c d n. assert (Tz : fasttanh_clamped 0 = 0) by (pose proof T_0 as Q; unfold T in Q; rewrite Rmult_0_l in Q; exact Q).
  assert (P : forall c d, exists c', hu_pass 0 (hu_clear c d) = hu_clear c' d).
  { intros c1 d1. unfold hu_pass, hu_clear. cbn [hs_c hs_d hs_r h_d0 h_d1 h_d2 h_d3 h_d4 h_d5 h_t0 h_t1 h_t2]. cbv zeta. eexists. f_equal. 
    set (k := hu_resquad _ _). set (g := hu_gc _). set (tune := hu_tune _). replace (0 - k * (0 - g * 0)) with 0 by ring. repeat (rewrite ?Rmult_0_l, ?Rmult_0_r, ?Tz, ?Rminus_0_r, ?Rplus_0_r). reflexivity. }
  revert c. induction n as [|n IH]; intros c; [reflexivity|]. cbn [repeat ladder_run].
  assert (Q : exists c', hu_process (hu_clear c d) 0 = (hu_clear c' d, 0)).
  { unfold hu_process. destruct (P c d) as [c1 E1]. cbv zeta. rewrite E1. destruct (P c1 d) as [c2 E2]. rewrite E2. destruct (P c2 d) as [c3 E3]. rewrite E3. destruct (P c3 d) as [c4 E4]. rewrite E4. exists c4. f_equal. unfold hu_clear, ladder_out. cbn [hs_r h_d5]. ring. }
  destruct Q as [c' ->]. specialize (IH c'). destruct (ladder_run hu_process (hu_clear c' d) (repeat 0 n)) as [s2 ys]. cbn [snd] in *. f_equal. exact IH.
Qed.
Print Assumptions C266_silence.
