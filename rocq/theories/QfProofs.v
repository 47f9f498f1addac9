(** Proofs about the quad filter chain (QfModel.v). *)
From Coq Require Import Reals Lra Psatz.
From Verif Require Import Base Util F32 BlockModel QfModel.
Local Open Scope R_scope.

Section Lift.
Context {U : Type}.
(** a lane-wise filter (shaper) on quads: the same function on each lane *)
Definition lift_filter (f : U -> R -> U * R) (u : q4 U) (x : q4 R) : q4 U * q4 R :=
  (Q4 (fst (f (l0 u) (l0 x))) (fst (f (l1 u) (l1 x))) (fst (f (l2 u) (l2 x))) (fst (f (l3 u) (l3 x))),
   Q4 (snd (f (l0 u) (l0 x))) (snd (f (l1 u) (l1 x))) (snd (f (l2 u) (l2 x))) (snd (f (l3 u) (l3 x)))).
Definition lift_fbq (g : fbq R U) : fbq (q4 R) (q4 U) :=
  {| fu1ptr := option_map lift_filter (fu1ptr g); fu2ptr := option_map lift_filter (fu2ptr g);
     wsptr := option_map zip4 (wsptr g) |}.
Fixpoint quads {X} (a b c d : list X) : list (q4 X) :=
  match a, b, c, d with x :: a, y :: b, z :: c, w :: d => Q4 x y z w :: quads a b c d | _, _, _, _ => [] end.
(** four single-lane chains side by side *)
Definition quad_chain (a b c d : chain R bool U) : chain (q4 R) (q4 bool) (q4 U) :=
  let q {X} (f : chain R bool U -> X) := Q4 (f a) (f b) (f c) (f d) in
  mk_chain (q c_u0) (q c_u1) (q c_u2) (q c_u3) (q c_active) (q c_gain) (q c_feedback) (q c_mix1) (q c_mix2) (q c_drive)
    (q c_dgain) (q c_dfeedback) (q c_dmix1) (q c_dmix2) (q c_ddrive) (q c_wslpf) (q c_fbl) (q c_fbr)
    (quads (c_dl a) (c_dl b) (c_dl c) (c_dl d)) (quads (c_dr a) (c_dr b) (c_dr c) (c_dr d))
    (q c_outl) (q c_outr) (q c_doutl) (q c_doutr) (q c_out2l) (q c_out2r) (q c_dout2l) (q c_dout2r).

Fixpoint zip5 (z a b c d : list R) : list R :=
  match z, a, b, c, d with
  | z0 :: z, x :: a, y :: b, v :: c, w :: d => (z0 + ((x + v) + (y + w))) :: zip5 z a b c d
  | _, _, _, _, _ => [] end.

Lemma setn_length {X} (l : list X) k v : length (setn l k v) = length l.
Proof. revert k. induction l as [|x l IH]; intros [|k]; cbn; auto. Qed.
Lemma setn_nth {X} (l : list X) k v j d : nth j (setn l k v) d = if (j =? k)%nat && (k <? length l)%nat then v else nth j l d.
Proof.
  revert k j. induction l as [|x l IH]; intros k j.
  - destruct k, j; cbn; rewrite ?andb_false_r; reflexivity.
  - destruct k as [|k], j as [|j]; cbn; try reflexivity. rewrite IH. reflexivity.
Qed.
Lemma quads_nth (a b c d : list R) k : length b = length a -> length c = length a -> length d = length a ->
  nth k (quads a b c d) (Q4 0 0 0 0) = Q4 (nth k a 0) (nth k b 0) (nth k c 0) (nth k d 0).
Proof.
  revert b c d k. induction a as [|x a IH]; intros [|y b] [|z c] [|w d] k H1 H2 H3; try discriminate; cbn in *.
  - destruct k; reflexivity.
  - destruct k as [|k]; [reflexivity|]. apply IH; lia.
Qed.
Lemma zip5_length z a b c d : length a = length z -> length b = length z -> length c = length z -> length d = length z -> length (zip5 z a b c d) = length z.
Proof. revert a b c d. induction z as [|x z IH]; intros [|? a] [|? b] [|? c] [|? d] H1 H2 H3 H4; try discriminate; cbn in *; auto. Qed.
Lemma zip5_nth z a b c d k : length a = length z -> length b = length z -> length c = length z -> length d = length z ->
  nth k (zip5 z a b c d) 0 = nth k z 0 + ((nth k a 0 + nth k c 0) + (nth k b 0 + nth k d 0)).
Proof.
  revert a b c d k. induction z as [|z0 z IH]; intros [|x a] [|y b] [|v c] [|w d] k H1 H2 H3 H4; try discriminate; cbn in *.
  - destruct k; ring.
  - destruct k as [|k]; [reflexivity|]. apply IH; lia.
Qed.
Lemma setn_zip5 z a b c d k xa xb xc xd : length a = length z -> length b = length z -> length c = length z -> length d = length z ->
  setn (zip5 z a b c d) k (nth k (zip5 z a b c d) 0 + ((xa + xc) + (xb + xd))) =
  zip5 z (setn a k (nth k a 0 + xa)) (setn b k (nth k b 0 + xb)) (setn c k (nth k c 0 + xc)) (setn d k (nth k d 0 + xd)).
Proof.
  revert a b c d k. induction z as [|z0 z IH]; intros [|x a] [|y b] [|v c] [|w d] k H1 H2 H3 H4; try discriminate; cbn in *.
  - destruct k; reflexivity.
  - destruct k as [|k]; cbn.
    + f_equal. ring.
    + f_equal. apply IH; lia.
Qed.

Definition comb (zl zr : list R) (a b c d : qst R R bool U) : qst (q4 R) R (q4 bool) (q4 U) :=
  mk_qst (quad_chain (q_c a) (q_c b) (q_c c) (q_c d)) (zip5 zl (q_l a) (q_l b) (q_l c) (q_l d)) (zip5 zr (q_r a) (q_r b) (q_r c) (q_r d)).
Definition lens (n : nat) (nb : nat) (s : qst R R bool U) : Prop :=
  length (c_dl (q_c s)) = n /\ length (c_dr (q_c s)) = n /\ length (q_l s) = nb /\ length (q_r s) = nb.

Definition g_flags {V W} (g : fbq V W) := (is_some (fu1ptr g), is_some (wsptr g), is_some (fu2ptr g)).
Definition sample1 (cfg : fbconfig) (g : fbq R U) (s : qst R R bool U) (k : nat) : res (qst R R bool U) :=
  do_sample ops1 0 0 cfg (is_some (fu1ptr g)) (is_some (wsptr g)) (is_some (fu2ptr g)) g false s k.
Definition sample4 (cfg : fbconfig) (g : fbq (q4 R) (q4 U)) (s : qst (q4 R) R (q4 bool) (q4 U)) (k : nat) :=
  do_sample ops4 (Q4 0 0 0 0) 0 cfg (is_some (fu1ptr g)) (is_some (wsptr g)) (is_some (fu2ptr g)) g false s k.
End Lift.

Ltac qcbv := cbv -[Rplus Rminus Rmult Rinv Rdiv IZR softclip setn nth and1 sum4 zip5 quads R Rlt_dec arithR].
Ltac qcbv_in H := cbv -[Rplus Rminus Rmult Rinv Rdiv IZR softclip setn nth and1 sum4 zip5 quads R Rlt_dec arithR] in H.
Ltac dpair := repeat match goal with |- context [match ?f ?a ?b with pair _ _ => _ end] => destruct (f a b) end.
Ltac dstate s := destruct s as [[? ? ? ? ? ? ? ? ? ? ? ? ? ? ? ? ? ? ? ? ? ? ? ? ? ? ? ?] ? ?].


Lemma split2 {X Y Z W} (f : X -> Y -> Z * W) : exists f1 f2, f = fun x y => (f1 x y, f2 x y).
Proof.
  exists (fun x y => fst (f x y)), (fun x y => snd (f x y)). apply FunctionalExtensionality.functional_extensionality. intros x.
  apply FunctionalExtensionality.functional_extensionality. intros y. apply surjective_pairing.
Qed.
Ltac dfilter f := let f1 := fresh f in let f2 := fresh f in destruct (split2 f) as (f1 & f2 & ->).
Ltac dg g := let fa := fresh "fa" in let fb := fresh "fb" in let ws := fresh "ws" in
  destruct g as [[fa|] [fb|] [ws|]]; try dfilter fa; try dfilter fb.

Lemma sample1_ok {U} cfg (g : fbq R U) s k : exists s', sample1 cfg g s k = Ok s'.
Proof. dstate s. dg g; destruct cfg; qcbv; eexists; reflexivity. Qed.

Lemma ok_inj {E X} (x y : X) : (Ok x : outcome E X) = Ok y -> x = y.
Proof. congruence. Qed.
Lemma sample_lens {U} n nb cfg (g : fbq R U) s k s' : sample1 cfg g s k = Ok s' -> lens n nb s -> lens n nb s'.
Proof.
  dstate s. dg g; destruct cfg; intros H; qcbv_in H; apply ok_inj in H; subst s'; unfold lens; cbn [QfModel.q_c QfModel.q_l QfModel.q_r QfModel.c_dl QfModel.c_dr]; rewrite ?setn_length; trivial.
Qed.

Lemma sample_comb {U} n nb cfg (g : fbq R U) zl zr a b c d k a' b' c' d' :
  length zl = nb -> length zr = nb -> lens n nb a -> lens n nb b -> lens n nb c -> lens n nb d ->
  sample1 cfg g a k = Ok a' -> sample1 cfg g b k = Ok b' -> sample1 cfg g c k = Ok c' -> sample1 cfg g d k = Ok d' ->
  sample4 cfg (lift_fbq g) (comb zl zr a b c d) k = Ok (comb zl zr a' b' c' d').
Proof.
  intros Hl Hr Ha Hb Hc Hd. dstate a. dstate b. dstate c. dstate d.
  unfold lens in *. cbn [QfModel.q_c QfModel.q_l QfModel.q_r QfModel.c_dl QfModel.c_dr] in *.
  destruct Ha as (A1 & A2 & A3 & A4), Hb as (B1 & B2 & B3 & B4), Hc as (C1 & C2 & C3 & C4), Hd as (D1 & D2 & D3 & D4).
  rewrite <- Hl in A3, B3, C3, D3. rewrite <- Hr in A4, B4, C4, D4.
  rewrite <- A1 in B1, C1, D1. rewrite <- A2 in B2, C2, D2.
  pose proof (fun k x y z w => setn_zip5 _ _ _ _ _ k x y z w A3 B3 C3 D3) as ZL.
  pose proof (fun k x y z w => setn_zip5 _ _ _ _ _ k x y z w A4 B4 C4 D4) as ZR.
  pose proof (fun k => quads_nth _ _ _ _ k B1 C1 D1) as QL. pose proof (fun k => quads_nth _ _ _ _ k B2 C2 D2) as QR.
  clear - ZL ZR QL QR.
  dg g; destruct cfg; intros Ea Eb Ec Ed; qcbv_in Ea; qcbv_in Eb; qcbv_in Ec; qcbv_in Ed;
    apply ok_inj in Ea; apply ok_inj in Eb; apply ok_inj in Ec; apply ok_inj in Ed; subst a' b' c' d'; qcbv;
    rewrite QL, ?QR; qcbv; unfold sum4; cbn [l0 l1 l2 l3]; rewrite ZL, ZR; reflexivity.
Qed.

(** the block loops *)
Definition loop1 {U} cfg (g : fbq R U) := do_loop (sample1 cfg g).
Lemma loop_comb {U} N nb cfg (g : fbq R U) zl zr : forall n k a b c d,
  length zl = nb -> length zr = nb -> lens N nb a -> lens N nb b -> lens N nb c -> lens N nb d ->
  exists a' b' c' d', loop1 cfg g n k a = Ok a' /\ loop1 cfg g n k b = Ok b' /\ loop1 cfg g n k c = Ok c' /\ loop1 cfg g n k d = Ok d' /\
   lens N nb a' /\ lens N nb b' /\ lens N nb c' /\ lens N nb d' /\
   do_loop (sample4 cfg (lift_fbq g)) n k (comb zl zr a b c d) = Ok (comb zl zr a' b' c' d').
Proof.
  induction n as [|n IH]; intros k a b c d Hl Hr Ha Hb Hc Hd.
  - exists a, b, c, d. repeat split; auto; try apply Ha; try apply Hb; try apply Hc; try apply Hd.
  - destruct (sample1_ok cfg g a k) as [a1 Ea]. destruct (sample1_ok cfg g b k) as [b1 Eb]. destruct (sample1_ok cfg g c k) as [c1 Ec]. destruct (sample1_ok cfg g d k) as [d1 Ed].
    pose proof (sample_comb N nb cfg g zl zr a b c d k a1 b1 c1 d1 Hl Hr Ha Hb Hc Hd Ea Eb Ec Ed) as E4.
    destruct (IH (S k) a1 b1 c1 d1 Hl Hr (sample_lens _ _ _ _ _ _ _ Ea Ha) (sample_lens _ _ _ _ _ _ _ Eb Hb) (sample_lens _ _ _ _ _ _ _ Ec Hc) (sample_lens _ _ _ _ _ _ _ Ed Hd))
      as (a' & b' & c' & d' & Fa & Fb & Fc & Fd & La & Lb & Lc & Ld & F4).
    exists a', b', c', d'. unfold loop1 in *. cbn [do_loop]. rewrite Ea, Eb, Ec, Ed, E4. cbn [obind]. auto 12.
Qed.
Lemma loop1_ok {U} cfg (g : fbq R U) : forall n k s, exists s', loop1 cfg g n k s = Ok s'.
Proof.
  induction n as [|n IH]; intros k s; [exists s; reflexivity|]. destruct (sample1_ok cfg g s k) as [s1 E]. destruct (IH (S k) s1) as [s' E'].
  exists s'. unfold loop1 in *. cbn [do_loop]. rewrite E. exact E'.
Qed.
(** last sample first: the loop splits at any point *)
Lemma loop1_S {U} cfg (g : fbq R U) : forall n k s, loop1 cfg g (S n) k s = obind (loop1 cfg g n k s) (fun s' => sample1 cfg g s' (k + n)).
Proof.
  induction n as [|n IH]; intros k s.
  - unfold loop1. cbn [do_loop obind]. rewrite Nat.add_0_r. destruct (sample1 cfg g s k); reflexivity.
  - unfold loop1 in *. change (do_loop (sample1 cfg g) (S (S n)) k s) with (obind (sample1 cfg g s k) (fun s => do_loop (sample1 cfg g) (S n) (S k) s)).
    change (do_loop (sample1 cfg g) (S n) k s) with (obind (sample1 cfg g s k) (fun s => do_loop (sample1 cfg g) n (S k) s)).
    destruct (sample1 cfg g s k) as [s1|e|]; cbn [obind]; try reflexivity. rewrite IH. replace (S k + n)%nat with (k + S n)%nat by lia. reflexivity.
Qed.

(** which ramps a configuration advances *)
Definition mix1_moves {U} (cfg : fbconfig) (g : fbq R U) : bool :=
  match cfg with Serial1 | Serial2 | Serial3 | Wide => is_some (fu1ptr g) || is_some (wsptr g) | _ => true end.
Definition mix2_moves {U} (cfg : fbconfig) (g : fbq R U) : bool :=
  match cfg with Wide => is_some (fu2ptr g) | _ => true end.
Definition b2r (b : bool) : R := if b then 1 else 0.

(** the part of the chain no sample changes *)
Definition same_static {U} (c c' : chain R bool U) : Prop :=
  c_dgain c' = c_dgain c /\ c_dfeedback c' = c_dfeedback c /\ c_dmix1 c' = c_dmix1 c /\ c_dmix2 c' = c_dmix2 c /\ c_ddrive c' = c_ddrive c /\
  c_doutl c' = c_doutl c /\ c_doutr c' = c_doutr c /\ c_dout2l c' = c_dout2l c /\ c_dout2r c' = c_dout2r c /\
  c_active c' = c_active c /\ c_dl c' = c_dl c /\ c_dr c' = c_dr c.
Definition ramped {U} cfg (g : fbq R U) (n : R) (c c' : chain R bool U) : Prop :=
  c_gain c' = c_gain c + n * c_dgain c /\
  c_feedback c' = c_feedback c + n * (b2r (match cfg with Serial1 => false | _ => true end) * c_dfeedback c) /\
  c_mix1 c' = c_mix1 c + n * (b2r (mix1_moves cfg g) * c_dmix1 c) /\
  c_mix2 c' = c_mix2 c + n * (b2r (mix2_moves cfg g) * c_dmix2 c) /\
  c_drive c' = c_drive c + n * (b2r (is_some (wsptr g)) * c_ddrive c) /\
  c_outl c' = c_outl c + n * ((if two_outputs cfg then 2 else 1) * c_doutl c) /\
  c_outr c' = c_outr c + n * c_doutr c /\
  c_out2l c' = c_out2l c + n * (b2r (two_outputs cfg) * c_dout2l c) /\
  c_out2r c' = c_out2r c + n * (b2r (two_outputs cfg) * c_dout2r c).

Lemma sample_ramps {U} cfg (g : fbq R U) s k s' : sample1 cfg g s k = Ok s' -> same_static (q_c s) (q_c s') /\ ramped cfg g 1 (q_c s) (q_c s').
Proof.
  dstate s. dg g; destruct cfg; intros H; qcbv_in H; apply ok_inj in H; subst s';
   unfold same_static, ramped; cbn; split; repeat split; ring.
Qed.
Lemma loop_ramps {U} cfg (g : fbq R U) : forall n k s s', loop1 cfg g n k s = Ok s' -> same_static (q_c s) (q_c s') /\ ramped cfg g (INR n) (q_c s) (q_c s').
Proof.
  induction n as [|n IH]; intros k s s' H.
  - unfold loop1 in H. cbn in H. apply ok_inj in H. subst s'. unfold same_static, ramped. cbn [INR]. split; repeat split; ring.
  - unfold loop1 in *. cbn [do_loop] in H. destruct (sample1_ok cfg g s k) as [s1 E]. rewrite E in H. cbn [obind] in H.
    apply sample_ramps in E. apply IH in H. rewrite S_INR. generalize (INR n) H. clear - E. intros m H.
    destruct E as [S1 R1]. destruct H as [S2 R2]. unfold same_static, ramped in *.
    destruct S1 as (e1 & e2 & e3 & e4 & e5 & e6 & e7 & e8 & e9 & e10 & e11 & e12). rewrite e1, e2, e3, e4, e5, e6, e7, e8, e9 in R2. rewrite e1, e2, e3, e4, e5, e6, e7, e8, e9, e10, e11, e12 in S2.
    split; [exact S2|]. clear S2.
    destruct R1 as (r1 & r2 & r3 & r4 & r5 & r6 & r7 & r8 & r9). destruct R2 as (t1 & t2 & t3 & t4 & t5 & t6 & t7 & t8 & t9).
    rewrite t1, t2, t3, t4, t5, t6, t7, t8, t9, r1, r2, r3, r4, r5, r6, r7, r8, r9. repeat split; ring.
Qed.

(** ** output buffers *)
Lemma setn_id {X} (l : list X) k d : setn l k (nth k l d) = l.
Proof. revert k. induction l as [|x l IH]; intros [|k]; cbn; auto. f_equal. apply IH. Qed.

Lemma loop_out {U} cfg (g : fbq R U) (Inv : nat -> qst R R bool U -> Prop) (Q : nat -> R -> R -> Prop) :
  (forall k s s', Inv k s -> sample1 cfg g s k = Ok s' -> Inv (S k) s' /\
     exists xl xr, Q k xl xr /\ q_l s' = setn (q_l s) k (nth k (q_l s) 0 + xl) /\ q_r s' = setn (q_r s) k (nth k (q_r s) 0 + xr)) ->
  forall s n s', Inv O s -> loop1 cfg g n 0 s = Ok s' -> Inv n s' /\ length (q_l s') = length (q_l s) /\ length (q_r s') = length (q_r s) /\
   forall j, (j < length (q_l s))%nat -> (j < length (q_r s))%nat ->
     if (j <? n)%nat then exists xl xr, Q j xl xr /\ nth j (q_l s') 0 = nth j (q_l s) 0 + xl /\ nth j (q_r s') 0 = nth j (q_r s) 0 + xr
     else nth j (q_l s') 0 = nth j (q_l s) 0 /\ nth j (q_r s') 0 = nth j (q_r s) 0.
Proof.
  intros ST s. induction n as [|n IH]; intros s' I0 H.
  - unfold loop1 in H. cbn in H. apply ok_inj in H. subst s'. repeat split; auto.
  - rewrite loop1_S in H. destruct (loop1_ok cfg g n 0 s) as [s1 E]. rewrite E in H. cbn [obind] in H. cbn [Nat.add] in H.
    destruct (IH s1 I0 E) as (In & L1 & L2 & J). destruct (ST n s1 s' In H) as (Is & xl & xr & HQ & E1 & E2).
    split; [exact Is|]. rewrite E1, E2, !setn_length. split; [exact L1|]. split; [exact L2|].
    intros j H1 H2. specialize (J j H1 H2). rewrite !setn_nth, L1, L2.
    destruct (Nat.eqb_spec j n) as [->|N].
    + rewrite Nat.ltb_irrefl in J. destruct J as [J1 J2]. rewrite (proj2 (Nat.ltb_lt n (S n))) by lia. rewrite (proj2 (Nat.ltb_lt _ _) H1), (proj2 (Nat.ltb_lt _ _) H2). cbn [andb].
      exists xl, xr. rewrite J1, J2. auto.
    + cbn [andb]. destruct (Nat.ltb_spec j n) as [A|A].
      * rewrite (proj2 (Nat.ltb_lt j (S n))) by lia. exact J.
      * rewrite (proj2 (Nat.ltb_ge j (S n))) by lia. exact J.
Qed.

Lemma inactive_sample {U} cfg (g : fbq R U) s k s' : c_active (q_c s) = false -> sample1 cfg g s k = Ok s' -> q_l s' = q_l s /\ q_r s' = q_r s.
Proof.
  dstate s. cbn [QfModel.q_c QfModel.c_active]. intros ->. dg g; destruct cfg; intros H; qcbv_in H; apply ok_inj in H; subst s'; cbn [QfModel.q_l QfModel.q_r];
   unfold and1; rewrite ?Rmult_0_l, ?Rplus_0_r, !setn_id; auto.
Qed.
Lemma inactive_loop {U} cfg (g : fbq R U) : forall n k s s', c_active (q_c s) = false -> loop1 cfg g n k s = Ok s' -> q_l s' = q_l s /\ q_r s' = q_r s.
Proof.
  induction n as [|n IH]; intros k s s' A H.
  - unfold loop1 in H. cbn in H. apply ok_inj in H. subst s'. auto.
  - unfold loop1 in *. cbn [do_loop] in H. destruct (sample1_ok cfg g s k) as [s1 E]. rewrite E in H. cbn [obind] in H.
    destruct (inactive_sample _ _ _ _ _ A E) as [<- <-]. apply (IH (S k)); [|exact H]. apply sample_ramps in E. destruct E as [E _]. unfold same_static in E. destruct E as (_ & _ & _ & _ & _ & _ & _ & _ & _ & E & _). congruence.
Qed.

(** the signal a configuration sends to its two output buses when both filters and the shaper are off *)
Definition mixdown (cfg : fbconfig) (m1 m2 x y : R) : R * R :=
  match cfg with
  | Serial1 | Serial2 => (x + m2 * y, 0)
  | Serial3 => (x, 0)
  | Dual1 | Dual2 => (m1 * x + m2 * y, 0)
  | Ring => (((1 - m1) * y + m1 * x) * ((1 - m2) * x + m2 * y), 0)
  | Stereo => (m1 * x, m2 * y)
  | Wide => (x, y)
  end.

Lemma softclip_0 : softclip arithR 0 = 0.
Proof.
  unfold softclip, smax, smin, lit. cbn [ar_lt ar_mul ar_add ar_lit arithR].
  destruct (Rlt_dec 0 (3 / 2)) as [a|a]; [|exfalso; lra]. destruct (Rlt_dec (-3 / 2) 0) as [b|b]; [|exfalso; lra]. ring.
Qed.
Lemma softclip_range x : -1 <= softclip arithR x <= 1.
Proof.
  unfold softclip, smax, smin, lit. cbn [ar_lt ar_mul ar_add ar_lit arithR].
  match goal with |- context [?y * (-4 / 27)] => assert (B : -3/2 <= y <= 3/2); [|set (z := y) in *] end.
  { destruct (Rlt_dec x (3 / 2)); destruct (Rlt_dec (-3 / 2) _); lra. }
  clearbody z. clear x.
  assert (0 <= 1 - (z * (-4 / 27) * (z * z) + z)).
  { replace (1 - (z * (-4 / 27) * (z * z) + z)) with (4 / 27 * ((z - 3 / 2) * (z - 3 / 2) * (z + 3))) by field. pose proof (Rle_0_sqr (z - 3 / 2)) as Q. unfold Rsqr in Q. apply Rmult_le_pos; [lra|]. apply Rmult_le_pos; lra. }
  assert (0 <= 1 + (z * (-4 / 27) * (z * z) + z)).
  { replace (1 + (z * (-4 / 27) * (z * z) + z)) with (4 / 27 * ((z + 3 / 2) * (z + 3 / 2) * (3 - z))) by field. pose proof (Rle_0_sqr (z + 3 / 2)) as Q. unfold Rsqr in Q. apply Rmult_le_pos; [lra|]. apply Rmult_le_pos; lra. }
  lra.
Qed.

Definition no_units {U} : fbq R U := {| fu1ptr := None; fu2ptr := None; wsptr := None |}.
Lemma bypass_sample {U} cfg (s : qst R R bool U) k s' : c_feedback (q_c s) = 0 -> c_dfeedback (q_c s) = 0 -> sample1 cfg no_units s k = Ok s' ->
  let c := q_c s in let c' := q_c s' in
  let '(a, b) := mixdown cfg (c_mix1 c') (c_mix2 c') (nth k (c_dl c) 0) (nth k (c_dr c) 0) in
  let A := and1 (c_active c) (a * c_gain c') in let B := and1 (c_active c) (b * c_gain c') in
  q_l s' = setn (q_l s) k (nth k (q_l s) 0 + (A * c_outl c' + B * c_out2l c')) /\ q_r s' = setn (q_r s) k (nth k (q_r s) 0 + (A * c_outr c' + B * c_out2r c')).
Proof.
  dstate s. cbn [QfModel.q_c QfModel.c_feedback QfModel.c_dfeedback]. intros -> ->. destruct cfg; intros H; qcbv_in H; apply ok_inj in H; subst s'; 
   cbn [QfModel.q_c QfModel.q_l QfModel.q_r QfModel.c_mix1 QfModel.c_mix2 QfModel.c_gain QfModel.c_active QfModel.c_outl QfModel.c_outr QfModel.c_out2l QfModel.c_out2r QfModel.c_dl QfModel.c_dr mixdown];
   cbv zeta; replace (0 + 0) with 0 by ring; rewrite ?Rmult_0_l, ?softclip_0, ?Rplus_0_r; unfold and1; destruct c_active;
   split; f_equal; ring.
Qed.

(** ** boundedness for saturating units *)
Definition saturating {U} (F : R) (g : fbq R U) : Prop :=
  (forall f, fu1ptr g = Some f -> forall u x, Rabs (snd (f u x)) <= F) /\
  (forall f, fu2ptr g = Some f -> forall u x, Rabs (snd (f u x)) <= F) /\
  (forall f, wsptr g = Some f -> forall x d, Rabs (f x d) <= F).
Lemma conv_bd X m a b : 0 <= m <= 1 -> Rabs a <= X -> Rabs b <= X -> Rabs (a * (1 - m) + b * m) <= X.
Proof.
  intros Hm Ha Hb. eapply Rle_trans; [apply Rabs_triang|]. rewrite !Rabs_mult, (Rabs_pos_eq m), (Rabs_pos_eq (1 - m)) by lra.
  assert (Rabs a * (1 - m) <= X * (1 - m)) by (apply Rmult_le_compat_r; lra). assert (Rabs b * m <= X * m) by (apply Rmult_le_compat_r; lra). lra.
Qed.
Lemma conv_bd' X m a b : 0 <= m <= 1 -> Rabs a <= X -> Rabs b <= X -> Rabs ((1 - m) * a + b * m) <= X.
Proof. intros. rewrite (Rmult_comm (1 - m)). apply conv_bd; assumption. Qed.
Lemma sum_bd X m m' a b : 0 <= m <= 1 -> 0 <= m' <= 1 -> Rabs a <= X -> Rabs b <= X -> Rabs (a * m + b * m') <= 2 * X.
Proof.
  intros Hm Hm' Ha Hb. eapply Rle_trans; [apply Rabs_triang|]. rewrite !Rabs_mult, (Rabs_pos_eq m), (Rabs_pos_eq m') by lra.
  pose proof (Rabs_pos a). pose proof (Rabs_pos b).
  assert (Rabs a * m <= X * 1) by (apply Rmult_le_compat; lra). assert (Rabs b * m' <= X * 1) by (apply Rmult_le_compat; lra). lra.
Qed.
Lemma one_bd X m a : 0 <= m <= 1 -> Rabs a <= X -> Rabs (a * m) <= X.
Proof. intros Hm Ha. rewrite Rabs_mult, (Rabs_pos_eq m) by lra. pose proof (Rabs_pos a). assert (Rabs a * m <= X * 1) by (apply Rmult_le_compat; lra). lra. Qed.
Lemma prod_bd X Y a b : Rabs a <= X -> Rabs b <= Y -> Rabs (a * b) <= X * Y.
Proof. intros. rewrite Rabs_mult. apply Rmult_le_compat; auto using Rabs_pos. Qed.
Lemma add_bd X Y a b : Rabs a <= X -> Rabs b <= Y -> Rabs (a + b) <= X + Y.
Proof. intros. eapply Rle_trans; [apply Rabs_triang|]. lra. Qed.
Lemma and1_bd X m a : 0 <= X -> Rabs a <= X -> Rabs (and1 m a) <= X.
Proof. intros. unfold and1. destruct m; [assumption|]. rewrite Rabs_R0. assumption. Qed.
Lemma clip_bd D x z : Rabs x <= D -> Rabs (x + softclip arithR z) <= D + 1.
Proof. intros. apply add_bd; [assumption|]. apply Rabs_le. apply softclip_range. Qed.
Lemma weaken X Y a : Rabs a <= X -> X <= Y -> Rabs a <= Y. Proof. lra. Qed.

Definition qbound (D F G : R) : R := (D + F + 2) * (D + F + 2) * G.
Ltac inner D F := first
  [ assumption
  | solve [match goal with H : forall u x, Rabs (_ u x) <= F |- _ => apply (weaken F); [apply H|lra] end]
  | solve [apply (weaken (D + 1)); [apply clip_bd; match goal with H : forall k, Rabs (nth k _ 0) <= D |- _ => apply H end|lra]]
  | solve [apply (weaken D); [match goal with H : forall k, Rabs (nth k _ 0) <= D |- _ => apply H end|lra]]
  | apply conv_bd; [assumption|inner D F|inner D F]
  | apply conv_bd'; [assumption|inner D F|inner D F]
  | apply one_bd; [assumption|inner D F]
  | solve [apply (weaken ((D + F + 1) + D)); [apply add_bd; inner D F|lra]] ].
Ltac outer D F B := first
  [ solve [apply (weaken F); [match goal with H : forall u x, Rabs (_ u x) <= F |- _ => apply H end|unfold B; lra]]
  | solve [apply (weaken (D + F + 1)); [inner D F|unfold B; nra]]
  | solve [apply (weaken (2 * (D + F + 1))); [apply sum_bd; [assumption|assumption|inner D F|inner D F]|unfold B; nra]]
  | solve [apply (weaken (2 * D + F + 1)); [apply conv_bd; [assumption|inner D F|inner D F]|unfold B; nra]]
  | solve [apply (weaken ((D + F + 1) * (D + F + 1))); [apply prod_bd; inner D F|unfold B; nra]] ].

Lemma bounded_sample {U} cfg (g : fbq R U) s k s' D F G P :
  0 <= D -> 0 <= F -> 0 <= G -> 0 <= P -> saturating F g ->
  (forall k, Rabs (nth k (c_dl (q_c s)) 0) <= D) -> (forall k, Rabs (nth k (c_dr (q_c s)) 0) <= D) ->
  sample1 cfg g s k = Ok s' ->
  let c' := q_c s' in Rabs (c_gain c') <= G -> 0 <= c_mix1 c' <= 1 -> 0 <= c_mix2 c' <= 1 ->
  Rabs (c_outl c') <= P -> Rabs (c_outr c') <= P -> Rabs (c_out2l c') <= P -> Rabs (c_out2r c') <= P ->
  exists xl xr, Rabs xl <= 2 * (qbound D F G * P) /\ Rabs xr <= 2 * (qbound D F G * P) /\
    q_l s' = setn (q_l s) k (nth k (q_l s) 0 + xl) /\ q_r s' = setn (q_r s) k (nth k (q_r s) 0 + xr).
Proof.
  dstate s. cbn [QfModel.q_c QfModel.c_dl QfModel.c_dr]. intros HD HF HG HP (S1 & S2 & S3) HDL HDR.
  unfold qbound. set (B := (D + F + 2) * (D + F + 2)). assert (HB : 0 <= B) by (unfold B; nra). assert (HBG : 0 <= B * G * P) by (apply Rmult_le_pos; [apply Rmult_le_pos|]; assumption).
  assert (ONE : forall x m gg o, Rabs x <= B -> Rabs gg <= G -> Rabs o <= P -> Rabs (and1 m (x * gg) * o) <= B * G * P).
  { intros. apply prod_bd; [|assumption]. apply and1_bd; [apply Rmult_le_pos; assumption|]. apply prod_bd; assumption. }
  assert (TWO : forall x m gg o y p, Rabs x <= B -> Rabs gg <= G -> Rabs o <= P -> Rabs y <= B -> Rabs p <= P -> Rabs (and1 m (x * gg) * o + and1 m (y * gg) * p) <= 2 * (B * G * P)).
  { intros. replace (2 * (B * G * P)) with (B * G * P + B * G * P) by ring. apply add_bd; apply ONE; assumption. }
  assert (ONE' : forall x m gg o, Rabs x <= B -> Rabs gg <= G -> Rabs o <= P -> Rabs (and1 m (x * gg) * o) <= 2 * (B * G * P)).
  { intros. apply (weaken (B * G * P)); [apply ONE; assumption|lra]. }
  dg g; cbn [fu1ptr fu2ptr wsptr] in S1, S2, S3; 
    try specialize (S1 _ eq_refl); try specialize (S2 _ eq_refl); try specialize (S3 _ eq_refl); cbn [snd] in *;
    destruct cfg; intros H; qcbv_in H; apply ok_inj in H; subst s'; 
    cbn [QfModel.q_c QfModel.q_l QfModel.q_r QfModel.c_mix1 QfModel.c_mix2 QfModel.c_gain QfModel.c_outl QfModel.c_outr QfModel.c_out2l QfModel.c_out2r];
    intros Hg Hm1 Hm2 Hol Hor Ho2l Ho2r; do 2 eexists; (split; [|split; [|split; reflexivity]]);
    first [apply ONE'; [outer D F B|assumption|assumption] | apply TWO; [outer D F B|assumption|assumption|outer D F B|assumption]].
Qed.
