(* VocProps3.v - C227-C230: what the vocoder's output depends on. *)
From Coq Require Import Reals Lra Psatz Lia.
From Verif Require Import Base Util BlockModel RampProps LagModel BiquadProofs VocModel VocProofs VocProps VocProps2.
Local Open Scope R_scope.

(** ** C227 *)
(* a times one history's carrier plus c times another's *)
Definition mix (a c : R) (x y : R * R) : R * R := (a * fst x + c * fst y, a * snd x + c * snd y).
Definition mixes (a c : R) (xs ys : list (R * R)) : list (R * R) := map (fun '(x, y) => mix a c x y) (combine xs ys).
Definition mix_svf (a c : R) (s t : svf1) : svf1 := mk_sv (a * v_l1 s + c * v_l1 t) (a * v_b1 s + c * v_b1 t) (a * v_l2 s + c * v_l2 t) (a * v_b2 s + c * v_b2 t) (v_f1 s) (v_f2 s) (v_q s).
Definition mix_band (a c : R) (b d : vband) : vband := mk_vb (vb_m b) (mix_svf a c (vb_l b) (vb_l d)) (mix_svf a c (vb_r b) (vb_r d)) (vb_e b).
Definition alike (b d : vband) : Prop := vb_m b = vb_m d /\ vb_e b = vb_e d /\ cf (vb_l b) = cf (vb_l d) /\ cf (vb_r b) = cf (vb_r d).
Lemma mix_bpf a c s t x y : cf s = cf t -> sv_bpf (mix_svf a c s t) (a * x + c * y) = (mix_svf a c (fst (sv_bpf s x)) (fst (sv_bpf t y)), a * snd (sv_bpf s x) + c * snd (sv_bpf t y)).
Proof.
  destruct s as [s1 s2 s3 s4 sf sg sq], t as [t1 t2 t3 t4 tf tg tq]. unfold cf. cbn [v_f1 v_f2 v_q]. intros E. assert (sf = tf /\ sg = tg /\ sq = tq) as (<- & <- & <-) by (repeat split; congruence). unfold sv_bpf, mix_svf. cbv zeta. cbn [v_l1 v_b1 v_l2 v_b2 v_f1 v_f2 v_q fst snd]. f_equal; [f_equal|]; ring.
Qed.
Lemma mix_step sq a c rate gate b d m l l' r r' : alike b d -> let u := vb_step sq rate gate b m l r in let v := vb_step sq rate gate d m l' r' in
  vb_step sq rate gate (mix_band a c b d) m (a * l + c * l') (a * r + c * r') = (mix_band a c (fst u) (fst v), mix a c (snd u) (snd v)) /\ alike (fst u) (fst v).
Proof.
  intros (A1 & A2 & A3 & A4). unfold vb_step, mix_band. cbn [vb_m vb_l vb_r vb_e]. rewrite <- A1, <- A2. destruct (sv_bpf (vb_m b) m) as [sm y]. cbv zeta. set (e := vb_e b * (1 - rate) + rate * (if Rle_dec gate (Rmin (y * y) 6) then Rmin (y * y) 6 else 0)). set (w := sq e).
  replace ((a * l + c * l') * w) with (a * (l * w) + c * (l' * w)) by ring. replace ((a * r + c * r') * w) with (a * (r * w) + c * (r' * w)) by ring. rewrite (mix_bpf a c _ _ (l * w) (l' * w) A3), (mix_bpf a c _ _ (r * w) (r' * w) A4).
  pose proof (bpf_cf (vb_l b) (l * w)) as C1. pose proof (bpf_cf (vb_l d) (l' * w)) as C2. pose proof (bpf_cf (vb_r b) (r * w)) as C3. pose proof (bpf_cf (vb_r d) (r' * w)) as C4.
  destruct (sv_bpf (vb_l b) (l * w)), (sv_bpf (vb_l d) (l' * w)), (sv_bpf (vb_r b) (r * w)), (sv_bpf (vb_r d) (r' * w)). cbn [fst snd vb_m vb_l vb_r vb_e] in *. split; [reflexivity|]. unfold alike. cbn [vb_m vb_l vb_r vb_e]. repeat split; congruence.
Qed.
Definition mix_bands (a c : R) (bs ds : list vband) : list vband := map (fun '(b, d) => mix_band a c b d) (combine bs ds).
Lemma mix_steps sq a c rate gate m l l' r r' : forall n bs ds, Forall2 alike bs ds -> let u := vb_steps sq rate gate n bs m l r in let v := vb_steps sq rate gate n ds m l' r' in
  vb_steps sq rate gate n (mix_bands a c bs ds) m (a * l + c * l') (a * r + c * r') = (mix_bands a c (fst u) (fst v), mix a c (snd u) (snd v)) /\ Forall2 alike (fst u) (fst v).
Proof.
  assert (Z : mix a c (0, 0) (0, 0) = (0, 0)) by (unfold mix; cbn [fst snd]; f_equal; ring).
  induction n as [|n IH]; intros bs ds H; [cbn [vb_steps fst snd]; rewrite Z; auto|]. destruct H as [|b d bs ds A H]; [cbn [vb_steps fst snd mix_bands combine map]; rewrite Z; split; [reflexivity|constructor]|].
  specialize (IH bs ds H). destruct (mix_step sq a c rate gate b d m l l' r r' A) as (E & A'). cbv zeta in *. unfold mix_bands. cbn [combine map vb_steps]. fold (mix_bands a c bs ds). rewrite E. destruct IH as (E2 & A2). rewrite E2.
  destruct (vb_step sq rate gate b m l r) as [b1 y1], (vb_step sq rate gate d m l' r') as [d1 z1], (vb_steps sq rate gate n bs m l r) as [t1 y2], (vb_steps sq rate gate n ds m l' r') as [t2 z2]. cbn [fst snd] in *. split; [|constructor; assumption]. cbn [combine map mix_bands]. f_equal. unfold mix. cbn [fst snd]. f_equal; ring.
Qed.
Definition alike_voc (s t : vocoder) : Prop := Forall2 alike (vo_bands s) (vo_bands t) /\ vo_gain s = vo_gain t /\ vo_bi s = vo_bi t /\ vo_active s = vo_active t.
Definition mix_voc (a c : R) (s t : vocoder) : vocoder := mk_voc (mix_bands a c (vo_bands s) (vo_bands t)) (vo_gain s) (vo_bi s) (vo_active s).
Section Run.
Context (sq dbl : R -> R) (srinv : R).
Lemma mix_sample a c p s t m x y s1 o1 : alike_voc s t -> voc_sample sq dbl p s m x = Ok (s1, o1) -> exists t1 o2, voc_sample sq dbl p t m y = Ok (t1, o2) /\ voc_sample sq dbl p (mix_voc a c s t) m (mix a c x y) = Ok (mix_voc a c s1 t1, mix a c o1 o2) /\ alike_voc s1 t1.
Proof.
  intros (F & G & B & A). unfold voc_sample. rewrite <- A. cbn [mix_voc vo_active vo_bands vo_gain vo_bi]. destruct (vo_active s <=? N_VOCODER_BANDS)%Z; [|discriminate].
  set (n := (4 * Z.to_nat (Z.shiftr (vo_active s) 2))%nat). pose proof (mix_steps sq a c (voc_rate p) (voc_gate dbl p) m (fst x) (fst y) (snd x) (snd y) n _ _ F) as (E & F'). cbv zeta in *. change (fst (mix a c x y)) with (a * fst x + c * fst y). change (snd (mix a c x y)) with (a * snd x + c * snd y). rewrite E.
  destruct (vb_steps sq (voc_rate p) (voc_gate dbl p) n (vo_bands s) m (fst x) (snd x)) as [u1 w1]. destruct (vb_steps sq (voc_rate p) (voc_gate dbl p) n (vo_bands t) m (fst y) (snd y)) as [u2 w2]. cbn [fst snd] in *. intros H. assert (E1 : s1 = mk_voc u1 (vo_gain s) (vo_bi s) (vo_active s)) by congruence. assert (E2 : o1 = (fst w1 * 4, snd w1 * 4)) by congruence. subst s1 o1.
  eexists _, _. split; [reflexivity|]. split; [|split; [exact F'|auto]]. unfold mix_voc, mix. cbn [vo_active vo_bands vo_gain vo_bi fst snd]. do 2 f_equal. f_equal; ring.
Qed.
Lemma mix_samples a c p : forall ms xs ys s t s1 o1, length xs = length ys -> alike_voc s t -> voc_samples sq dbl p s ms xs = Ok (s1, o1) -> exists t1 o2, voc_samples sq dbl p t ms ys = Ok (t1, o2) /\ voc_samples sq dbl p (mix_voc a c s t) ms (mixes a c xs ys) = Ok (mix_voc a c s1 t1, mixes a c o1 o2) /\ alike_voc s1 t1 /\ length o1 = length o2.
Proof.
  induction ms as [|m ms IH]; intros xs ys s t s1 o1 L A E; cbn [voc_samples] in *; [exists t, []; assert (s1 = s /\ o1 = []) as (-> & ->) by (split; congruence); auto|].
  destruct xs as [|x xs], ys as [|y ys]; try discriminate L; [exists t, []; assert (s1 = s /\ o1 = []) as (-> & ->) by (split; congruence); auto|].
  destruct (voc_sample sq dbl p s m x) as [[s2 w]| |] eqn:Es; cbn [obind fst snd] in E; [|discriminate|discriminate]. destruct (mix_sample a c p s t m x y s2 w A Es) as (t2 & w2 & E2 & E3 & A2). unfold mixes. cbn [combine map]. rewrite E2, E3. cbn [obind fst snd]. fold (mixes a c xs ys).
  destruct (voc_samples sq dbl p s2 ms xs) as [[s3 o3]| |] eqn:Er; cbn [obind fst snd] in E; [|discriminate|discriminate]. destruct (IH xs ys s2 t2 s3 o3 ltac:(now injection L) A2 Er) as (t3 & o4 & E4 & E5 & A3 & L3). rewrite E4, E5. cbn [obind fst snd]. assert (s1 = s3 /\ o1 = w :: o3) as (-> & ->) by (split; congruence). exists t3, (w2 :: o4). cbn [length]. auto.
Qed.
Lemma mix_tune a c qf sp sep : forall n fb mb dhz mdhz bs ds bs1, Forall2 alike bs ds -> voc_tune srinv n fb mb dhz mdhz qf sp sep bs = Ok bs1 -> exists ds1, voc_tune srinv n fb mb dhz mdhz qf sp sep ds = Ok ds1 /\ Forall2 alike bs1 ds1 /\ voc_tune srinv n fb mb dhz mdhz qf sp sep (mix_bands a c bs ds) = Ok (mix_bands a c bs1 ds1).
Proof.
  induction n as [|n IH]; intros fb mb dhz mdhz bs ds bs1 F E; cbn [voc_tune] in *; [assert (bs1 = bs) as -> by congruence; exists ds; auto|]. destruct F as [|b d bs ds A F]; [discriminate|]. cbv zeta in *.
  destruct (voc_tune srinv n (fb * dhz) (mb * mdhz) dhz mdhz qf sp sep bs) as [bs2| |] eqn:E2; cbn [obind] in E; [|discriminate|discriminate]. destruct (IH _ _ _ _ _ _ _ F E2) as (ds2 & E3 & F2 & E4). rewrite E3. cbn [obind]. eexists. split; [reflexivity|]. unfold mix_bands. cbn [combine map]. fold (mix_bands a c bs ds). rewrite E4. cbn [obind].
  match type of E with Ok (?h :: _) = _ => assert (X : bs1 = h :: bs2) by congruence end. rewrite X. destruct A as (A1 & A2 & A3 & A4). split.
  { constructor; [|exact F2]. unfold alike. cbn [vb_m vb_l vb_r vb_e]. rewrite A1, A2. repeat split; try reflexivity. }
  destruct sep; reflexivity.
Qed.
Lemma mix_update a c p s t s1 : alike_voc s t -> voc_update srinv p s = Ok s1 -> exists t1, voc_update srinv p t = Ok t1 /\ alike_voc s1 t1 /\ voc_update srinv p (mix_voc a c s t) = Ok (mix_voc a c s1 t1).
Proof.
  intros (F & G & B & A). unfold voc_update. destruct (as_float (vp_lo p)) as [lo| |]; cbn [obind]; [|discriminate|discriminate]. destruct (as_float (vp_hi p)) as [hi| |]; cbn [obind]; [|discriminate|discriminate]. destruct (as_float (vp_center p)) as [cc| |]; cbn [obind]; [|discriminate|discriminate]. destruct (as_float (vp_expand p)) as [x| |]; cbn [obind]; [|discriminate|discriminate]. cbv zeta.
  match goal with |- context [voc_tune srinv ?k ?fb ?mb ?d ?md ?qf ?sp ?sep (vo_bands s)] => destruct (voc_tune srinv k fb mb d md qf sp sep (vo_bands s)) as [bs1| |] eqn:E; cbn [obind]; [|discriminate|discriminate]; destruct (mix_tune a c qf sp sep k fb mb d md _ _ _ F E) as (ds1 & E1 & F1 & E2) end.
  intros H. match type of H with Ok ?v = _ => assert (X : s1 = v) by congruence end. subst s1. rewrite E1. cbn [obind]. eexists. split; [reflexivity|]. split; [split; [exact F1|cbn; auto]|]. unfold mix_voc. cbn [vo_bands vo_gain vo_bi vo_active]. rewrite E2. reflexivity.
Qed.
Lemma mix_process a c p side s t xs ys s1 o1 : length xs = length ys -> alike_voc s t -> voc_process sq dbl srinv p s side xs = Ok (s1, o1) -> exists t1 o2, voc_process sq dbl srinv p t side ys = Ok (t1, o2) /\ voc_process sq dbl srinv p (mix_voc a c s t) side (mixes a c xs ys) = Ok (mix_voc a c s1 t1, mixes a c o1 o2) /\ alike_voc s1 t1 /\ length o1 = length o2.
Proof.
  intros L A. pose proof A as (F & G & B & Ac). unfold voc_process. cbv zeta. cbn [mix_voc vo_bands vo_gain vo_bi vo_active]. rewrite <- G, <- B, <- Ac.
  set (bi := Z.land (vo_bi s + 1) 63). set (s0 := mk_voc (vo_bands s) (vo_gain s) bi (vo_active s)). set (t0 := mk_voc (vo_bands t) (vo_gain s) bi (vo_active s)).
  change (mk_voc (mix_bands a c (vo_bands s) (vo_bands t)) (vo_gain s) bi (vo_active s)) with (mix_voc a c s0 t0). assert (A0 : alike_voc s0 t0) by (repeat split; auto).
  assert (U : forall s2, (if (bi =? 0)%Z then voc_update srinv p s0 else Ok s0) = Ok s2 -> exists t2, (if (bi =? 0)%Z then voc_update srinv p t0 else Ok t0) = Ok t2 /\ alike_voc s2 t2 /\ (if (bi =? 0)%Z then voc_update srinv p (mix_voc a c s0 t0) else Ok (mix_voc a c s0 t0)) = Ok (mix_voc a c s2 t2)).
  { intros s2. destruct (bi =? 0)%Z; [apply mix_update; exact A0|]. intros X. assert (s2 = s0) as -> by congruence. exists t0. auto. }
  destruct (bi =? 0)%Z.
  - destruct (voc_update srinv p s0) as [s2| |]; cbn [obind]; [|discriminate|discriminate]. destruct (U s2 eq_refl) as (t2 & E2 & (F2 & G2 & B2 & C2) & E3). rewrite E2, E3. cbn [obind mix_voc vo_bands vo_gain vo_bi vo_active]. rewrite <- G2, <- B2, <- C2. intros E.
    set (g := ps_set_target_smoothed arithR (vo_gain s2) (dbl (voc_db p))) in *. eapply (mix_samples a c p _ xs ys (mk_voc (vo_bands s2) g (vo_bi s2) (vo_active s2)) (mk_voc (vo_bands t2) g (vo_bi s2) (vo_active s2))); [exact L|repeat split; auto|exact E].
  - cbn [obind]. intros E. set (g := ps_set_target_smoothed arithR (vo_gain s0) (dbl (voc_db p))) in *. destruct A0 as (F2 & G2 & B2 & C2). eapply (mix_samples a c p _ xs ys (mk_voc (vo_bands s0) g (vo_bi s0) (vo_active s0)) (mk_voc (vo_bands t0) g (vo_bi s0) (vo_active s0))); [exact L|repeat split; auto|exact E].
Qed.
Definition with_first (h : list (vpar * list (R * R) * (list (R * R) * list (R * R)))) := map (fun '(p, side, (xs, _)) => (p, side, xs)) h.
Definition with_second (h : list (vpar * list (R * R) * (list (R * R) * list (R * R)))) := map (fun '(p, side, (_, ys)) => (p, side, ys)) h.
Definition with_mix (a c : R) (h : list (vpar * list (R * R) * (list (R * R) * list (R * R)))) := map (fun '(p, side, (xs, ys)) => (p, side, mixes a c xs ys)) h.
Definition same_lengths (h : list (vpar * list (R * R) * (list (R * R) * list (R * R)))) : Prop := Forall (fun '(_, _, (xs, ys)) => length xs = length ys) h.
Lemma mix_run a c : forall h s t s1 o1, same_lengths h -> alike_voc s t -> voc_run sq dbl srinv (with_first h) s = Ok (s1, o1) -> exists t1 o2, voc_run sq dbl srinv (with_second h) t = Ok (t1, o2) /\ voc_run sq dbl srinv (with_mix a c h) (mix_voc a c s t) = Ok (mix_voc a c s1 t1, map (fun '(u, v) => mixes a c u v) (combine o1 o2)).
Proof.
  induction h as [|((p, side), (xs, ys)) h IH]; intros s t s1 o1 L A E; cbn [with_first with_second with_mix map voc_run] in *; [exists t, []; assert (s1 = s /\ o1 = []) as (-> & ->) by (split; congruence); auto|]. inversion L as [|? ? L1 L2]; subst.
  destruct (voc_process sq dbl srinv p s side xs) as [[s2 w]| |] eqn:Es; cbn [obind fst snd] in E; [|discriminate|discriminate]. destruct (mix_process a c p side s t xs ys s2 w L1 A Es) as (t2 & w2 & E2 & E3 & A2 & _). rewrite E2, E3. cbn [obind fst snd].
  fold (with_first h) in E. destruct (voc_run sq dbl srinv (with_first h) s2) as [[s3 o3]| |] eqn:Er; cbn [obind fst snd] in E; [|discriminate|discriminate]. destruct (IH s2 t2 s3 o3 L2 A2 Er) as (t3 & o4 & E4 & E5). fold (with_second h) (with_mix a c h). rewrite E4, E5. cbn [obind fst snd]. assert (s1 = s3 /\ o1 = w :: o3) as (-> & ->) by (split; congruence). exists t3, (w2 :: o4). auto.
Qed.
Definition fresh (s : vocoder) : Prop := exists p, voc_init srinv p voc_new = Ok s.
Lemma tune_silent sep qf sp : forall n fb mb dhz mdhz bs bs1, (forall b, In b bs -> regs (vb_m b) = (0, 0, 0, 0) /\ regs (vb_l b) = (0, 0, 0, 0) /\ regs (vb_r b) = (0, 0, 0, 0) /\ vb_e b = 0) -> voc_tune srinv n fb mb dhz mdhz qf sp sep bs = Ok bs1 ->
  forall b, In b bs1 -> regs (vb_m b) = (0, 0, 0, 0) /\ regs (vb_l b) = (0, 0, 0, 0) /\ regs (vb_r b) = (0, 0, 0, 0) /\ vb_e b = 0.
Proof.
  induction n as [|n IH]; intros fb mb dhz mdhz bs bs1 H E; cbn [voc_tune] in E; [assert (bs1 = bs) as -> by congruence; exact H|]. destruct bs as [|b bs]; [discriminate|]. cbv zeta in E. destruct (voc_tune srinv n (fb * dhz) (mb * mdhz) dhz mdhz qf sp sep bs) as [bs2| |] eqn:E2; cbn [obind] in E; [|discriminate|discriminate].
  match type of E with Ok (?h :: _) = _ => assert (X : bs1 = h :: bs2) by congruence end. rewrite X. intros b' [<-|Hb]; [|eapply IH; [|exact E2|exact Hb]; intros; apply H; now right]. destruct (H b (or_introl eq_refl)) as (R1 & R2 & R3 & R4). cbn [vb_m vb_l vb_r vb_e]. unfold regs in *. destruct sep; cbn [sv_copy_coeff sv_set_coeff v_l1 v_b1 v_l2 v_b2]; auto.
Qed.
Lemma fresh_silent s : fresh s -> forall b, In b (vo_bands s) -> regs (vb_m b) = (0, 0, 0, 0) /\ regs (vb_l b) = (0, 0, 0, 0) /\ regs (vb_r b) = (0, 0, 0, 0) /\ vb_e b = 0.
Proof.
  intros (p & E). unfold voc_init, voc_update in E. destruct (as_float (vp_lo p)) as [lo| |]; cbn [obind] in E; [|discriminate|discriminate]. destruct (as_float (vp_hi p)) as [hi| |]; cbn [obind] in E; [|discriminate|discriminate]. destruct (as_float (vp_center p)) as [cc| |]; cbn [obind] in E; [|discriminate|discriminate]. destruct (as_float (vp_expand p)) as [x| |]; cbn [obind] in E; [|discriminate|discriminate]. cbv zeta in E.
  match type of E with context [voc_tune srinv ?k ?fb ?mb ?d ?md ?qf ?sp ?sep (vo_bands voc_new)] => destruct (voc_tune srinv k fb mb d md qf sp sep (vo_bands voc_new)) as [bs1| |] eqn:E1; cbn [obind] in E; [|discriminate|discriminate] end. match type of E with Ok ?v = _ => assert (X : s = v) by congruence end. rewrite X. cbn [vo_bands].
  eapply tune_silent; [|exact E1]. intros b Hb. cbn [voc_new vo_bands] in Hb. apply repeat_spec in Hb. subst b. auto.
Qed.
Lemma mix_zero a c s : regs s = (0, 0, 0, 0) -> mix_svf a c s s = s.
Proof. destruct s as [s1 s2 s3 s4 sf sg sk]. unfold regs. cbn [v_l1 v_b1 v_l2 v_b2]. intros E. assert (s1 = 0 /\ s2 = 0 /\ s3 = 0 /\ s4 = 0) as (-> & -> & -> & ->) by (repeat split; congruence). unfold mix_svf. cbn [v_l1 v_b1 v_l2 v_b2 v_f1 v_f2 v_q]. f_equal; ring. Qed.
(* On a fresh vocoder, with the same settings and side chain throughout: the response to a mixture of two carriers is the mixture of the responses. *)
Theorem C227_linear_in_carrier : forall a c h s s1 o1, fresh s -> same_lengths h -> voc_run sq dbl srinv (with_first h) s = Ok (s1, o1) ->
  exists s2 o2 s3, voc_run sq dbl srinv (with_second h) s = Ok (s2, o2) /\ voc_run sq dbl srinv (with_mix a c h) s = Ok (s3, map (fun '(u, v) => mixes a c u v) (combine o1 o2)).
Proof.
  intros a c h s s1 o1 Fr L E. assert (A : alike_voc s s). { repeat split; auto. induction (vo_bands s); constructor; [repeat split|assumption]. } destruct (mix_run a c h s s s1 o1 L A E) as (t1 & o2 & E1 & E2). exists t1, o2. eexists. split; [exact E1|].
  assert (M : mix_voc a c s s = s). { pose proof (fresh_silent s Fr) as Z. destruct s as [bs g i n]. unfold mix_voc. cbn [vo_bands vo_gain vo_bi vo_active] in *. f_equal. clear - Z. unfold mix_bands. induction bs as [|b bs IH]; [reflexivity|]. cbn [combine map]. rewrite IH by (intros; apply Z; now right). f_equal. destruct (Z b (or_introl eq_refl)) as (_ & R2 & R3 & _). destruct b as [bm bl br be]. unfold mix_band. cbn [vb_m vb_l vb_r vb_e] in *. now rewrite !mix_zero. }
  rewrite M in E2. exact E2.
Qed.
(* inverting the side chain *)
Definition neg_svf (s : svf1) : svf1 := mk_sv (- v_l1 s) (- v_b1 s) (- v_l2 s) (- v_b2 s) (v_f1 s) (v_f2 s) (v_q s).
Definition neg_band (b : vband) : vband := mk_vb (neg_svf (vb_m b)) (vb_l b) (vb_r b) (vb_e b).
Definition neg_voc (s : vocoder) : vocoder := mk_voc (map neg_band (vo_bands s)) (vo_gain s) (vo_bi s) (vo_active s).
Definition inverted (side : list (R * R)) : list (R * R) := map (fun x => (- fst x, - snd x)) side.
Lemma neg_bpf s x : sv_bpf (neg_svf s) (- x) = (neg_svf (fst (sv_bpf s x)), - snd (sv_bpf s x)).
Proof. unfold sv_bpf, neg_svf. cbv zeta. cbn [v_l1 v_b1 v_l2 v_b2 v_f1 v_f2 v_q fst snd]. f_equal; [f_equal|]; ring. Qed.
Lemma neg_step rate gate b m l r : vb_step sq rate gate (neg_band b) (- m) l r = (neg_band (fst (vb_step sq rate gate b m l r)), snd (vb_step sq rate gate b m l r)).
Proof.
  unfold vb_step, neg_band. cbn [vb_m vb_l vb_r vb_e]. rewrite neg_bpf. destruct (sv_bpf (vb_m b) m) as [sm y]. cbn [fst snd]. cbv zeta. replace (- y * - y) with (y * y) by ring. destruct (sv_bpf (vb_l b) _), (sv_bpf (vb_r b) _). reflexivity.
Qed.
Lemma neg_steps rate gate m l r : forall n bs, vb_steps sq rate gate n (map neg_band bs) (- m) l r = (map neg_band (fst (vb_steps sq rate gate n bs m l r)), snd (vb_steps sq rate gate n bs m l r)).
Proof.
  induction n as [|n IH]; intros [|b bs]; try reflexivity. cbn [map vb_steps]. rewrite neg_step, IH. destruct (vb_step sq rate gate b m l r), (vb_steps sq rate gate n bs m l r). reflexivity.
Qed.
Lemma neg_samples p : forall ms xs s, voc_samples sq dbl p (neg_voc s) (map Ropp ms) xs = obind (voc_samples sq dbl p s ms xs) (fun a => Ok (neg_voc (fst a), snd a)).
Proof.
  induction ms as [|m ms IH]; intros xs s; [reflexivity|]. destruct xs as [|x xs]; [reflexivity|]. cbn [map voc_samples]. unfold voc_sample. cbn [neg_voc vo_active vo_bands vo_gain vo_bi]. destruct (vo_active s <=? N_VOCODER_BANDS)%Z; [|reflexivity]. rewrite neg_steps.
  destruct (vb_steps sq (voc_rate p) (voc_gate dbl p) (4 * Z.to_nat (Z.shiftr (vo_active s) 2)) (vo_bands s) m (fst x) (snd x)) as [bs y]. cbn [obind fst snd]. specialize (IH xs (mk_voc bs (vo_gain s) (vo_bi s) (vo_active s))). unfold neg_voc in IH at 1. cbn [vo_active vo_bands vo_gain vo_bi] in IH. rewrite IH. destruct (voc_samples sq dbl p _ ms xs) as [[s2 o]| |]; reflexivity.
Qed.
Lemma neg_tune qf sp sep : forall n fb mb dhz mdhz bs, voc_tune srinv n fb mb dhz mdhz qf sp sep (map neg_band bs) = obind (voc_tune srinv n fb mb dhz mdhz qf sp sep bs) (fun bs => Ok (map neg_band bs)).
Proof.
  induction n as [|n IH]; intros fb mb dhz mdhz [|b bs]; try reflexivity. cbn [map voc_tune]. cbv zeta. rewrite IH. destruct (voc_tune srinv n (fb * dhz) (mb * mdhz) dhz mdhz qf sp sep bs); cbn [obind]; [|reflexivity|reflexivity]. cbn [map]. do 2 f_equal. unfold neg_band. cbn [vb_m vb_l vb_r vb_e]. destruct sep; reflexivity.
Qed.
Lemma neg_update p s : voc_update srinv p (neg_voc s) = obind (voc_update srinv p s) (fun s => Ok (neg_voc s)).
Proof.
  unfold voc_update. destruct (as_float (vp_lo p)) as [lo| |]; cbn [obind]; [|reflexivity|reflexivity]. destruct (as_float (vp_hi p)) as [hi| |]; cbn [obind]; [|reflexivity|reflexivity]. destruct (as_float (vp_center p)) as [cc| |]; cbn [obind]; [|reflexivity|reflexivity]. destruct (as_float (vp_expand p)) as [x| |]; cbn [obind]; [|reflexivity|reflexivity]. cbv zeta. cbn [neg_voc vo_bands vo_gain vo_bi vo_active]. rewrite neg_tune.
  match goal with |- context [voc_tune srinv ?k ?fb ?mb ?d ?md ?qf ?sp ?sep (vo_bands s)] => destruct (voc_tune srinv k fb mb d md qf sp sep (vo_bands s)) end; reflexivity.
Qed.
Lemma neg_modulator g side : voc_modulator g (inverted side) = map Ropp (voc_modulator g side).
Proof.
  unfold voc_modulator, inverted. rewrite map_length, map_map. generalize (seq 0 (length side)). induction side as [|x side IH]; intros [|k l]; try reflexivity. cbn [map combine]. rewrite IH. f_equal. cbn [fst snd]. ring.
Qed.
Lemma neg_process p s side xs : voc_process sq dbl srinv p (neg_voc s) (inverted side) xs = obind (voc_process sq dbl srinv p s side xs) (fun a => Ok (neg_voc (fst a), snd a)).
Proof.
  unfold voc_process. cbv zeta. cbn [neg_voc vo_bands vo_gain vo_bi vo_active]. set (bi := Z.land (vo_bi s + 1) 63). set (s0 := mk_voc (vo_bands s) (vo_gain s) bi (vo_active s)). change (mk_voc (map neg_band (vo_bands s)) (vo_gain s) bi (vo_active s)) with (neg_voc s0).
  destruct (bi =? 0)%Z; [rewrite neg_update; destruct (voc_update srinv p s0) as [s1| |]; cbn [obind]; [|reflexivity|reflexivity]|cbn [obind]; set (s1 := s0)]; cbn [neg_voc vo_bands vo_gain vo_bi vo_active]; rewrite neg_modulator, <- neg_samples; reflexivity.
Qed.
Theorem C227_side_chain_polarity : forall h s s1 o, fresh s -> voc_run sq dbl srinv h s = Ok (s1, o) -> exists s2, voc_run sq dbl srinv (map (fun '(p, side, xs) => (p, inverted side, xs)) h) s = Ok (s2, o).
Proof.
  intros h s s1 o Fr. assert (N : neg_voc s = s). { pose proof (fresh_silent s Fr) as Z. destruct s as [bs g i n]. unfold neg_voc. cbn [vo_bands vo_gain vo_bi vo_active] in *. f_equal. clear - Z. induction bs as [|b bs IH]; [reflexivity|]. cbn [map]. rewrite IH by (intros; apply Z; now right). f_equal. destruct (Z b (or_introl eq_refl)) as (R1 & _). destruct b as [[m1 m2 m3 m4 mf mg mq] bl br be]. unfold regs in R1. cbn [vb_m v_l1 v_b1 v_l2 v_b2] in R1. assert (m1 = 0 /\ m2 = 0 /\ m3 = 0 /\ m4 = 0) as (-> & -> & -> & ->) by (repeat split; congruence). unfold neg_band, neg_svf. cbn. now rewrite Ropp_0. }
  enough (G : voc_run sq dbl srinv h s = Ok (s1, o) -> exists s2, voc_run sq dbl srinv (map (fun '(p, side, xs) => (p, inverted side, xs)) h) (neg_voc s) = Ok (s2, o)) by (rewrite N in G; exact G). clear Fr N. revert s s1 o. induction h as [|((p, side), xs) h IH]; intros s s1 o E; cbn [map voc_run] in *; [assert (o = []) as -> by congruence; eexists; reflexivity|]. rewrite neg_process.
  destruct (voc_process sq dbl srinv p s side xs) as [[s2 w]| |]; cbn [obind fst snd] in *; [|discriminate|discriminate]. destruct (voc_run sq dbl srinv h s2) as [[s3 o3]| |] eqn:Er; cbn [obind fst snd] in E; [|discriminate|discriminate]. destruct (IH s2 s3 o3 Er) as (s4 & E4). rewrite E4. cbn [obind fst snd]. exists s4. congruence.
Qed.

(** ** C229 the gate *)
Definition muted (b : vband) : Prop := regs (vb_l b) = (0, 0, 0, 0) /\ regs (vb_r b) = (0, 0, 0, 0) /\ vb_e b = 0.
Lemma zero_bpf s : regs s = (0, 0, 0, 0) -> regs (fst (sv_bpf s 0)) = (0, 0, 0, 0) /\ snd (sv_bpf s 0) = 0.
Proof. destruct s as [s1 s2 s3 s4 sf sg sk]. unfold regs. cbn [v_l1 v_b1 v_l2 v_b2]. intros E. assert (s1 = 0 /\ s2 = 0 /\ s3 = 0 /\ s4 = 0) as (-> & -> & -> & ->) by (repeat split; congruence). unfold sv_bpf. cbv zeta. cbn [v_l1 v_b1 v_l2 v_b2 v_f1 v_f2 v_q fst snd]. split; [repeat f_equal; ring|ring]. Qed.
Lemma muted_steps rate gate m l r (Q : vband -> Prop) : sq 0 = 0 -> (forall b, Q b -> muted b -> let y := snd (sv_bpf (vb_m b) m) in (if Rle_dec gate (Rmin (y * y) 6) then Rmin (y * y) 6 else 0) = 0) -> (forall b, Q b -> Q (fst (vb_step sq rate gate b m l r))) ->
  forall n bs, Forall (fun b => muted b /\ Q b) bs -> Forall (fun b => muted b /\ Q b) (fst (vb_steps sq rate gate n bs m l r)) /\ snd (vb_steps sq rate gate n bs m l r) = (0, 0).
Proof.
  intros S0 HG HQ. induction n as [|n IH]; intros bs H; [auto|]. destruct bs as [|b bs]; [auto|]. inversion H as [|? ? HB H']; subst. clear H. rename H' into H. destruct HB as (M & Qb). cbn [vb_steps]. specialize (HQ b Qb). specialize (HG b Qb M). cbv zeta in HG. destruct M as (M1 & M2 & M3).
  unfold vb_step in *. destruct (sv_bpf (vb_m b) m) as [sm y]. cbn [snd] in HG. cbv zeta in *. rewrite HG, M3 in *. replace (0 * (1 - rate) + rate * 0) with 0 in * by ring. rewrite S0, !Rmult_0_r in *. destruct (zero_bpf _ M1) as (A1 & A2). destruct (zero_bpf _ M2) as (A3 & A4). destruct (sv_bpf (vb_l b) 0) as [sl yl]. destruct (sv_bpf (vb_r b) 0) as [sr yr]. cbn [fst snd] in *. subst yl yr.
  destruct (IH bs H) as (I1 & I2). destruct (vb_steps sq rate gate n bs m l r) as [t z]. cbn [fst snd] in *. subst z. cbn [fst snd]. rewrite Rplus_0_l. split; [|reflexivity]. constructor; [|exact I1]. split; [|exact HQ]. unfold muted. cbn. auto.
Qed.
Lemma muted_samples p (Q : vband -> Prop) (T : R -> Prop) : sq 0 = 0 ->
  (forall b m l r, T m -> Q b -> let y := snd (sv_bpf (vb_m b) m) in (if Rle_dec (voc_gate dbl p) (Rmin (y * y) 6) then Rmin (y * y) 6 else 0) = 0 /\ Q (fst (vb_step sq (voc_rate p) (voc_gate dbl p) b m l r))) ->
  forall ms xs s s1 o, Forall T ms -> Forall (fun b => muted b /\ Q b) (vo_bands s) -> voc_samples sq dbl p s ms xs = Ok (s1, o) -> Forall (fun b => muted b /\ Q b) (vo_bands s1) /\ Forall (fun y => y = (0, 0)) o.
Proof.
  intros S0 HQ. induction ms as [|m ms IH]; intros xs s s1 o HT H E; cbn [voc_samples] in E; [assert (s1 = s /\ o = []) as (-> & ->) by (split; congruence); auto|]. destruct xs as [|x xs]; [assert (s1 = s /\ o = []) as (-> & ->) by (split; congruence); auto|]. inversion HT as [|? ? T1 T2]; subst.
  unfold voc_sample in E. destruct (vo_active s <=? N_VOCODER_BANDS)%Z; [|discriminate]. destruct (muted_steps (voc_rate p) (voc_gate dbl p) m (fst x) (snd x) Q S0) with (n := (4 * Z.to_nat (Z.shiftr (vo_active s) 2))%nat) (bs := vo_bands s) as (F1 & F2); [intros b Qb _; apply (HQ b m 0 0 T1 Qb)|intros b Qb; apply (HQ b m (fst x) (snd x) T1 Qb)|exact H|].
  destruct (vb_steps sq (voc_rate p) (voc_gate dbl p) (4 * Z.to_nat (Z.shiftr (vo_active s) 2)) (vo_bands s) m (fst x) (snd x)) as [bs y]. cbn [fst snd] in *. subst y. cbn [obind fst snd] in E. destruct (voc_samples sq dbl p (mk_voc bs (vo_gain s) (vo_bi s) (vo_active s)) ms xs) as [[s2 o2]| |] eqn:Er; cbn [obind fst snd] in E; [|discriminate|discriminate].
  destruct (IH xs (mk_voc bs (vo_gain s) (vo_bi s) (vo_active s)) s2 o2 T2 F1 Er) as (G1 & G2). assert (s1 = s2 /\ o = (0 * 4, 0 * 4) :: o2) as (-> & ->) by (split; congruence). split; [exact G1|]. constructor; [f_equal; ring|exact G2].
Qed.
Lemma tune_keeps (Q : vband -> Prop) qf sp sep : (forall b b', Q b -> regs (vb_m b') = regs (vb_m b) -> regs (vb_l b') = regs (vb_l b) -> regs (vb_r b') = regs (vb_r b) -> vb_e b' = vb_e b -> Q b') -> forall n fb mb dhz mdhz bs bs1, Forall Q bs -> voc_tune srinv n fb mb dhz mdhz qf sp sep bs = Ok bs1 -> Forall Q bs1.
Proof.
  intros HQ. induction n as [|n IH]; intros fb mb dhz mdhz bs bs1 H E; cbn [voc_tune] in E; [assert (bs1 = bs) as -> by congruence; exact H|]. destruct H as [|b bs Qb H]; [discriminate|]. cbv zeta in E. destruct (voc_tune srinv n (fb * dhz) (mb * mdhz) dhz mdhz qf sp sep bs) as [bs2| |] eqn:E2; cbn [obind] in E; [|discriminate|discriminate].
  match type of E with Ok (?h :: _) = _ => assert (X : bs1 = h :: bs2) by congruence end. rewrite X. constructor; [|eapply IH; eassumption]. apply (HQ b); [exact Qb|destruct sep; reflexivity|reflexivity|reflexivity|reflexivity].
Qed.
Lemma update_keeps (Q : vband -> Prop) p s s1 : (forall b b', Q b -> regs (vb_m b') = regs (vb_m b) -> regs (vb_l b') = regs (vb_l b) -> regs (vb_r b') = regs (vb_r b) -> vb_e b' = vb_e b -> Q b') -> Forall Q (vo_bands s) -> voc_update srinv p s = Ok s1 -> Forall Q (vo_bands s1).
Proof.
  intros HQ H. unfold voc_update. destruct (as_float (vp_lo p)) as [lo| |]; cbn [obind]; [|discriminate|discriminate]. destruct (as_float (vp_hi p)) as [hi| |]; cbn [obind]; [|discriminate|discriminate]. destruct (as_float (vp_center p)) as [cc| |]; cbn [obind]; [|discriminate|discriminate]. destruct (as_float (vp_expand p)) as [x| |]; cbn [obind]; [|discriminate|discriminate]. cbv zeta.
  match goal with |- context [voc_tune srinv ?k ?fb ?mb ?d ?md ?qf ?sp ?sep (vo_bands s)] => destruct (voc_tune srinv k fb mb d md qf sp sep (vo_bands s)) as [bs1| |] eqn:E1; cbn [obind]; [|discriminate|discriminate]; pose proof (tune_keeps Q qf sp sep HQ k fb mb d md _ _ H E1) as G end. intros E. match type of E with Ok ?v = _ => assert (X : s1 = v) by congruence end. rewrite X. exact G.
Qed.
Lemma muted_run (Q : vband -> Prop) (ok : vpar * list (R * R) * list (R * R) -> Prop) : sq 0 = 0 ->
  (forall b b', Q b -> regs (vb_m b') = regs (vb_m b) -> Q b') ->
  (forall p side xs, ok (p, side, xs) -> exists T : R -> Prop, (forall g, Forall T (voc_modulator g side)) /\ forall b m l r, T m -> Q b -> let y := snd (sv_bpf (vb_m b) m) in (if Rle_dec (voc_gate dbl p) (Rmin (y * y) 6) then Rmin (y * y) 6 else 0) = 0 /\ Q (fst (vb_step sq (voc_rate p) (voc_gate dbl p) b m l r))) ->
  forall h s s1 o, Forall ok h -> Forall (fun b => muted b /\ Q b) (vo_bands s) -> voc_run sq dbl srinv h s = Ok (s1, o) -> Forall (Forall (fun y => y = (0, 0))) o.
Proof.
  intros S0 HQ HT. induction h as [|((p, side), xs) h IH]; intros s s1 o Hh Hs E; cbn [voc_run] in E; [assert (o = []) as -> by congruence; constructor|]. inversion Hh as [|? ? H1 H2]; subst. destruct (HT p side xs H1) as (T & T1 & T2).
  destruct (voc_process sq dbl srinv p s side xs) as [[s2 w]| |] eqn:Ep; cbn [obind fst snd] in E; [|discriminate|discriminate]. destruct (voc_run sq dbl srinv h s2) as [[s3 o3]| |] eqn:Er; cbn [obind fst snd] in E; [|discriminate|discriminate]. assert (o = w :: o3) as -> by congruence.
  assert (KQ : forall b b', muted b /\ Q b -> regs (vb_m b') = regs (vb_m b) -> regs (vb_l b') = regs (vb_l b) -> regs (vb_r b') = regs (vb_r b) -> vb_e b' = vb_e b -> muted b' /\ Q b'). { intros b b' ((M1 & M2 & M3) & Qb) R1 R2 R3 R4. split; [unfold muted; rewrite R2, R3, R4; auto|eapply HQ; eassumption]. }
  assert (G : Forall (fun b => muted b /\ Q b) (vo_bands s2) /\ Forall (fun y => y = (0, 0)) w).
  { unfold voc_process in Ep. cbv zeta in Ep. set (s0 := mk_voc (vo_bands s) (vo_gain s) (Z.land (vo_bi s + 1) 63) (vo_active s)) in *. destruct (Z.land (vo_bi s + 1) 63 =? 0)%Z.
    - destruct (voc_update srinv p s0) as [s4| |] eqn:Eu; cbn [obind] in Ep; [|discriminate|discriminate]. eapply muted_samples; [exact S0|exact T2|apply T1| |exact Ep]. cbn [vo_bands]. eapply update_keeps; [exact KQ| |exact Eu]. exact Hs.
    - cbn [obind] in Ep. eapply muted_samples; [exact S0|exact T2|apply T1| |exact Ep]. exact Hs. }
  destruct G as (G1 & G2). constructor; [exact G2|]. eapply IH; eassumption.
Qed.
(* a silent side chain lets nothing through a fresh vocoder, whatever carrier and settings *)
Theorem C229_silent_side_chain : forall h s s1 o, sq 0 = 0 -> fresh s -> Forall (fun '(_, side, _) => Forall (fun x => x = (0, 0)) side) h -> voc_run sq dbl srinv h s = Ok (s1, o) -> Forall (Forall (fun y => y = (0, 0))) o.
Proof.
  intros h s s1 o S0 Fr Hh. apply (muted_run (fun b => regs (vb_m b) = (0, 0, 0, 0)) (fun '(_, side, _) => Forall (fun x => x = (0, 0)) side) S0).
  - intros b b' H E. now rewrite E.
  - intros p side xs Hs. exists (fun m => m = 0). split.
    + intros g. unfold voc_modulator. apply Forall_forall. intros m Hm. apply in_map_iff in Hm. destruct Hm as ((k, y) & <- & Hy). apply in_combine_r in Hy. rewrite Forall_forall in Hs. rewrite (Hs y Hy). cbn [fst snd]. ring.
    + intros b m l r -> Rb. destruct (zero_bpf _ Rb) as (A & B). cbv zeta. rewrite B. replace (0 * 0) with 0 by ring. rewrite Rmin_left by lra. split; [destruct (Rle_dec _ 0); reflexivity|]. unfold vb_step. destruct (sv_bpf (vb_m b) 0) as [sm y]. cbv zeta. destruct (sv_bpf (vb_l b) _), (sv_bpf (vb_r b) _). exact A.
  - exact Hh.
  - apply Forall_forall. intros b Hb. destruct (fresh_silent s Fr b Hb) as (R1 & R2 & R3 & R4). repeat split; assumption.
Qed.
(* The gate compares the limited square with the squared level, so once GateLevel + Gain + 24 is above the limit's level (about 7.8 dB) no side
   chain, however loud, ever opens it. *)
Theorem C229_gate_never_opens_refuted : forall h s s1 o, sq 0 = 0 -> fresh s -> Forall (fun '(p, _, _) => 6 < dbl (vp_gate p + (vp_gain p + 24)) * dbl (vp_gate p + (vp_gain p + 24))) h -> voc_run sq dbl srinv h s = Ok (s1, o) -> Forall (Forall (fun y => y = (0, 0))) o.
Proof.
  intros h s s1 o S0 Fr Hh. apply (muted_run (fun b => True) (fun '(p, _, _) => 6 < dbl (vp_gate p + (vp_gain p + 24)) * dbl (vp_gate p + (vp_gain p + 24))) S0).
  - auto.
  - intros p side xs Hs. exists (fun _ => True). split; [intros g; apply Forall_forall; auto|]. intros b m l r _ _. cbv zeta. split; [|exact I]. unfold voc_gate, voc_db. cbv zeta. match goal with |- (if ?c then _ else _) = _ => destruct c as [X|X]; [|reflexivity] end. pose proof (Rmin_r (snd (sv_bpf (vb_m b) m) * snd (sv_bpf (vb_m b) m)) 6). lra.
  - exact Hh.
  - apply Forall_forall. intros b Hb. destruct (fresh_silent s Fr b Hb) as (R1 & R2 & R3 & R4). repeat split; assumption.
Qed.

(** ** C228 *)
(* histories with the same side chain and carrier, Gain, GateLevel and Rate in every block, and the same tuning in blocks 64, 128, ... *)
Fixpoint agree_at (j : nat) (h h' : list (vpar * list (R * R) * list (R * R))) : Prop :=
  match h, h' with
  | [], [] => True
  | (p, side, xs) :: r, (p', side', xs') :: r' => side = side' /\ xs = xs' /\ vp_gain p = vp_gain p' /\ vp_gate p = vp_gate p' /\ vp_rate p = vp_rate p' /\ ((j mod 64 = 0)%nat -> same_tuning p p') /\ agree_at (Datatypes.S j) r r'
  | _, _ => False
  end.
Lemma samples_params p p' : vp_gain p = vp_gain p' -> vp_gate p = vp_gate p' -> vp_rate p = vp_rate p' -> forall ms xs s, voc_samples sq dbl p s ms xs = voc_samples sq dbl p' s ms xs.
Proof.
  intros G1 G2 G3. assert (R1 : voc_rate p = voc_rate p') by (unfold voc_rate; now rewrite G3). assert (R2 : voc_gate dbl p = voc_gate dbl p') by (unfold voc_gate, voc_db; now rewrite G1, G2).
  induction ms as [|m ms IH]; intros [|x xs] s; try reflexivity. cbn [voc_samples]. unfold voc_sample. rewrite R1, R2. destruct (vo_active s <=? N_VOCODER_BANDS)%Z; [|reflexivity]. destruct (vb_steps sq _ _ _ _ m _ _) as [bs y]. cbn [obind fst snd]. now rewrite IH.
Qed.
Lemma samples_bi p : forall ms xs s s1 o, voc_samples sq dbl p s ms xs = Ok (s1, o) -> vo_bi s1 = vo_bi s.
Proof.
  induction ms as [|m ms IH]; intros xs s s1 o E; cbn [voc_samples] in E; [congruence|]. destruct xs as [|x xs]; [congruence|]. unfold voc_sample in E. destruct (vo_active s <=? N_VOCODER_BANDS)%Z; [|discriminate]. destruct (vb_steps sq _ _ _ _ m _ _) as [bs y]. cbn [obind fst snd] in E. destruct (voc_samples sq dbl p (mk_voc bs (vo_gain s) (vo_bi s) (vo_active s)) ms xs) as [[s2 o2]| |] eqn:Er; cbn [obind fst snd] in E; [|discriminate|discriminate]. apply IH in Er. assert (s1 = s2) as -> by congruence. exact Er.
Qed.
Lemma update_bi p s s1 : voc_update srinv p s = Ok s1 -> vo_bi s1 = vo_bi s.
Proof.
  unfold voc_update. destruct (as_float (vp_lo p)) as [lo| |]; cbn [obind]; [|discriminate|discriminate]. destruct (as_float (vp_hi p)) as [hi| |]; cbn [obind]; [|discriminate|discriminate]. destruct (as_float (vp_center p)) as [cc| |]; cbn [obind]; [|discriminate|discriminate]. destruct (as_float (vp_expand p)) as [x| |]; cbn [obind]; [|discriminate|discriminate]. cbv zeta.
  match goal with |- context [voc_tune srinv ?k ?fb ?mb ?d ?md ?qf ?sp ?sep (vo_bands s)] => destruct (voc_tune srinv k fb mb d md qf sp sep (vo_bands s)); cbn [obind]; [|discriminate|discriminate] end. intros E. match type of E with Ok ?v = _ => assert (X : s1 = v) by congruence end. rewrite X. reflexivity.
Qed.
Theorem C228_every_64th_block : forall h h' s, fresh s -> agree_at 1 h h' -> voc_run sq dbl srinv h s = voc_run sq dbl srinv h' s.
Proof.
  intros h h' s (p0 & E0). assert (B0 : (vo_bi s + 1 = Z.of_nat 1 mod 64)%Z \/ (Z.of_nat 1 mod 64 = 0 /\ vo_bi s = 63)%Z) by (apply update_bi in E0; rewrite E0; left; reflexivity). assert (B : Z.land (vo_bi s + 1) 63 = (Z.of_nat 1 mod 64)%Z) by (apply update_bi in E0; rewrite E0; reflexivity). clear B0 E0. revert B. generalize 1%nat as j. revert h' s.
  assert (L63 : forall z, Z.land z 63 = (z mod 64)%Z) by (intros z; change 63%Z with (Z.ones 6); now rewrite Z.land_ones by lia).
  induction h as [|((p, side), xs) h IH]; intros [|((p', side'), xs') h'] s j B A; cbn [agree_at] in A; try contradiction; [reflexivity|]. destruct A as (<- & <- & G1 & G2 & G3 & T & A). cbn [voc_run].
  assert (E : voc_process sq dbl srinv p s side xs = voc_process sq dbl srinv p' s side xs).
  { unfold voc_process. cbv zeta. unfold voc_db. rewrite G1. set (s0 := mk_voc _ _ _ _). destruct (Z.land (vo_bi s + 1) 63 =? 0)%Z eqn:Eb.
    - apply Z.eqb_eq in Eb. rewrite B in Eb. assert (J : (j mod 64 = 0)%nat) by (apply Nat2Z.inj; rewrite Nat2Z.inj_mod; exact Eb). rewrite (update_same srinv p p') by (now apply T). destruct (voc_update srinv p' s0); cbn [obind]; [|reflexivity|reflexivity]. now apply samples_params.
    - cbn [obind]. now apply samples_params. }
  rewrite E. destruct (voc_process sq dbl srinv p' s side xs) as [[s1 w]| |] eqn:Ep; cbn [obind fst snd]; [|reflexivity|reflexivity]. rewrite (IH h' s1 (Datatypes.S j)); [reflexivity| |exact A].
  assert (B1 : vo_bi s1 = Z.land (vo_bi s + 1) 63).
  { unfold voc_process in Ep. cbv zeta in Ep. set (s0 := mk_voc _ _ _ _) in Ep. destruct (Z.land (vo_bi s + 1) 63 =? 0)%Z.
    - destruct (voc_update srinv p' s0) as [s2| |] eqn:Eu; cbn [obind] in Ep; [|discriminate|discriminate]. apply samples_bi in Ep. apply update_bi in Eu. rewrite Ep. cbn [vo_bi]. rewrite Eu. reflexivity.
    - cbn [obind] in Ep. apply samples_bi in Ep. exact Ep. }
  rewrite B1, B, L63, Nat2Z.inj_succ. rewrite Z.add_mod_idemp_l by lia. f_equal.
Qed.
(* the unvoiced threshold and the return level change nothing *)
Theorem C228_unused_refuted : forall p u v s side xs, voc_process sq dbl srinv (mk_vp (vp_gain p) (vp_gate p) (vp_rate p) u (vp_quality p) (vp_nbands p) (vp_lo p) (vp_hi p) (vp_expand p) (vp_center p) v) s side xs = voc_process sq dbl srinv p s side xs.
Proof.
  intros p u v s side xs. unfold voc_process. cbv zeta. set (q := mk_vp _ _ _ _ _ _ _ _ _ _ _). rewrite (update_same srinv q p) by (repeat split). match goal with |- obind ?z _ = obind ?z _ => destruct z end; cbn [obind]; [|reflexivity|reflexivity]. apply samples_params; reflexivity.
Qed.

(** ** C230 suspend *)
(* suspend clears nothing: every filter memory, envelope, the level and the block counter stay *)
Theorem C230_suspend_clears_nothing_refuted : forall p s s', voc_suspend srinv p s = Ok s' -> length (vo_bands s) = 20%nat -> (vp_nbands p < 24)%Z ->
  vo_gain s' = vo_gain s /\ vo_bi s' = vo_bi s /\ forall i, let b := nth i (vo_bands s) vb_new in let b' := nth i (vo_bands s') vb_new in regs (vb_m b') = regs (vb_m b) /\ regs (vb_l b') = regs (vb_l b) /\ regs (vb_r b') = regs (vb_r b) /\ vb_e b' = vb_e b.
Proof.
  intros p s s' E L N. unfold voc_suspend, voc_init in E. assert (F : exists lo hi c x, vp_lo p = PFloat lo /\ vp_hi p = PFloat hi /\ vp_center p = PFloat c /\ vp_expand p = PFloat x).
  { unfold voc_update in E. destruct (vp_lo p) as [lo|]; [|discriminate]. destruct (vp_hi p) as [hi|]; [|discriminate]. destruct (vp_center p) as [c|]; [|discriminate]. destruct (vp_expand p) as [x|]; [|discriminate]. exists lo, hi, c, x. auto. }
  destruct F as (lo & hi & c & x & E1 & E2 & E3 & E4). destruct (C224_placement srinv p s lo hi c x L N E1 E2 E3 E4) as (bs & E' & _ & U1 & T). assert (X : s' = mk_voc bs (vo_gain s) (vo_bi s) (vp_nbands p - Z.rem (vp_nbands p) 4)) by congruence. rewrite X. cbn [vo_gain vo_bi vo_bands]. repeat (split; [reflexivity|]). intros i. cbv zeta.
  destruct (Nat.lt_ge_cases i (Z.to_nat (vp_nbands p - Z.rem (vp_nbands p) 4))) as [Hi|Hi]; [|rewrite U1 by exact Hi; auto]. specialize (T i Hi). cbv zeta in T. destruct T as (_ & _ & _ & R1 & R2 & R3 & R4). auto.
Qed.
(* and with the settings it was tuned with, suspend changes nothing at all: a vocoder that has run goes on exactly as if it had not been suspended *)
Theorem C230_suspend_is_nothing_refuted : forall p s0 h X s ys S, 0 <= S -> (forall e, 0 <= e <= 6 -> 0 <= sq e <= S) -> in_range p -> voc_init srinv p voc_new = Ok s0 -> 0 <= X -> Forall (block_ok p X) h -> voc_run sq dbl srinv h s0 = Ok (s, ys) -> voc_suspend srinv p s = Ok s.
Proof.
  intros p s0 h X s ys S HS Hsq Hp E0 HX Hh Er. assert (G : map cfs (vo_bands s) = map cfs (vo_bands s0) /\ vo_active s = vo_active s0).
  { assert (K : forall p ms xs s s1 o, voc_samples sq dbl p s ms xs = Ok (s1, o) -> map cfs (vo_bands s1) = map cfs (vo_bands s) /\ vo_active s1 = vo_active s).
    { clear. intros p. induction ms as [|m ms IH]; intros xs s s1 o E; cbn [voc_samples] in E; [assert (s1 = s) as -> by congruence; auto|]. destruct xs as [|x xs]; [assert (s1 = s) as -> by congruence; auto|]. unfold voc_sample in E. destruct (vo_active s <=? N_VOCODER_BANDS)%Z; [|discriminate]. pose proof (steps_cfs sq (voc_rate p) (voc_gate dbl p) (4 * Z.to_nat (Z.shiftr (vo_active s) 2)) (vo_bands s) m (fst x) (snd x)) as MC. destruct (vb_steps sq _ _ _ _ m _ _) as [bs y]. cbn [obind fst snd] in *. destruct (voc_samples sq dbl p (mk_voc bs (vo_gain s) (vo_bi s) (vo_active s)) ms xs) as [[s2 o2]| |] eqn:Er; cbn [obind fst snd] in E; [|discriminate|discriminate]. destruct (IH _ _ _ _ Er) as (A & B). cbn [vo_bands vo_active] in *. assert (s1 = s2) as -> by congruence. split; [now rewrite A|exact B]. }
    assert (M : forall h s s1 o, Forall (block_ok p X) h -> map cfs (vo_bands s) = map cfs (vo_bands s0) /\ vo_active s = vo_active s0 -> voc_run sq dbl srinv h s = Ok (s1, o) -> map cfs (vo_bands s1) = map cfs (vo_bands s0) /\ vo_active s1 = vo_active s0).
    { clear - K Hp E0. induction h as [|((q, side), xs) h IH]; intros s s1 o Hh Hs E; cbn [voc_run] in E; [assert (s1 = s) as -> by congruence; exact Hs|]. inversion Hh as [|? ? Hq Hh']; subst. destruct Hq as (Q1 & Q2 & Q3). destruct (voc_process sq dbl srinv q s side xs) as [[s2 w]| |] eqn:Ep; cbn [obind fst snd] in E; [|discriminate|discriminate]. destruct (voc_run sq dbl srinv h s2) as [[s3 o3]| |] eqn:Er; cbn [obind fst snd] in E; [|discriminate|discriminate]. assert (s1 = s3) as -> by congruence. apply (IH s2 s3 o3 Hh'); [|exact Er].
      unfold voc_process in Ep. cbv zeta in Ep. set (s4 := mk_voc (vo_bands s) (vo_gain s) (Z.land (vo_bi s + 1) 63) (vo_active s)) in *. destruct Hs as (H1 & H2). destruct (Z.land (vo_bi s + 1) 63 =? 0)%Z.
      - rewrite (update_same srinv q p _ Q1), (retune srinv p voc_new s0 s4 Hp eq_refl E0 H1 H2) in Ep. cbn [obind] in Ep. apply K in Ep. cbn [vo_bands vo_active] in Ep. destruct Ep as (A & B). split; [now rewrite A|now rewrite B].
      - cbn [obind] in Ep. apply K in Ep. cbn [vo_bands vo_active] in Ep. destruct Ep as (A & B). split; [now rewrite A|now rewrite B]. }
    apply (M h s0 s ys Hh); auto. }
  destruct G as (G1 & G2). exact (retune srinv p voc_new s0 s Hp eq_refl E0 G1 G2).
Qed.
End Run.
Example C227_ex : exists s, fresh (1 / 44100) s /\ same_lengths [(p_ex, [(1, 1)], ([(1, 0)], [(0, 1)]))] /\ agree_at 1 [(p_ex, [(1, 1)], [(1, 0)])] [(mk_vp 0 (-96) 0 7 1 4 (PFloat 0) (PFloat 0) (PInt 3) (PFloat 0) 0, [(1, 1)], [(1, 0)])].
Proof.
  destruct (C225_init_succeeds (1 / 44100) p_ex voc_new (proj1 C225_ex) eq_refl) as (s & E & _). exists s. split; [exists p_ex; exact E|]. split; [repeat constructor|]. cbn [agree_at p_ex vp_gain vp_gate vp_rate]. do 5 (split; [reflexivity|]). split; [intros X; exfalso; discriminate X|exact I].
Qed.
Print Assumptions C227_linear_in_carrier.
Print Assumptions C227_side_chain_polarity.
Print Assumptions C228_every_64th_block.
Print Assumptions C228_unused_refuted.
Print Assumptions C229_silent_side_chain.
Print Assumptions C229_gate_never_opens_refuted.
Print Assumptions C230_suspend_clears_nothing_refuted.
Print Assumptions C230_suspend_is_nothing_refuted.
