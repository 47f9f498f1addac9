(** C184: the ring modulator's sample and the oscillator shapes in closed form. *)
From Coq Require Import Reals Lra.
From Verif Require Import Base Util MathModel QfModel HalfModel HalfProps RingModel RingProps FastProps FastProps2.
Local Open Scope R_scope.

(** sign of a number off zero *)
Definition sgn (s : R) : R := if Rlt_dec 0 s then 1 else -1.
(** the nine shapes of the sine oscillator, by what they look like, away from the axes *)
Definition wave (k : Z) (s c : R) : R :=
  let up := if Rlt_dec 0 s then 1 else 0 in               (* first half of the cycle *)
  let rising := if Rlt_dec 0 (s * c) then 1 else 0 in     (* first and third quarter *)
  match k with
  | 0%Z => s                                  (* the sine *)
  | 1%Z => 2 * (up * s) - 1                   (* rectified, stretched to -1..1 *)
  | 2%Z => (1 - rising) * s                   (* second and fourth quarter only *)
  | 3%Z => rising * s                         (* first and third quarter only *)
  | 4%Z => sgn s * (1 - Rabs c)               (* inverted arcs *)
  | 5%Z => 2 * (up * (1 - Rabs c)) - 1        (* one inverted arc, stretched *)
  | 6%Z => up * (2 * s * c)                   (* a whole cycle in the first half *)
  | 7%Z => sgn s * (2 * Rabs (s * c))         (* two humps up, two down *)
  | 8%Z => rising * (sgn s * (2 * Rabs (s * c)))
  | _ => s
  end.
Theorem C184_shapes : forall k s c, (0 <= k <= 8)%Z -> s <> 0 -> c <> 0 -> sine_shape s c k = wave k s c.
Proof.
  intros k s c Hk Hs Hc. unfold wave, sine_shape, sgn.
  destruct (quadrant_cases s c) as [(Q & A1 & A2)|[(Q & A1 & A2)|[(Q & A1 & A2)|(Q & A1 & A2)]]]; rewrite Q; cbn [Z.eqb Z.leb Pos.eqb Z.compare Pos.compare Pos.compare_cont orb].
  - assert (P : 0 < s * c) by nra. destruct (Rlt_dec 0 s); [|lra]. destruct (Rlt_dec 0 (s * c)); [|lra]. rewrite (Rabs_right c), (Rabs_right (s * c)) by lra.
    assert (C : In k (map Z.of_nat (seq 0 9))) by (apply in_map_iff; exists (Z.to_nat k); split; [lia|apply in_seq; lia]). cbn in C. repeat (destruct C as [<-|C]; [lra|]). destruct C.
  - assert (P : s * c < 0) by nra. destruct (Rlt_dec 0 s); [|lra]. destruct (Rlt_dec 0 (s * c)); [lra|]. rewrite (Rabs_left c), (Rabs_left (s * c)) by lra.
    assert (C : In k (map Z.of_nat (seq 0 9))) by (apply in_map_iff; exists (Z.to_nat k); split; [lia|apply in_seq; lia]). cbn in C. repeat (destruct C as [<-|C]; [lra|]). destruct C.
  - assert (P : 0 < s * c) by nra. destruct (Rlt_dec 0 s); [lra|]. destruct (Rlt_dec 0 (s * c)); [|lra]. rewrite (Rabs_left c), (Rabs_right (s * c)) by lra.
    assert (C : In k (map Z.of_nat (seq 0 9))) by (apply in_map_iff; exists (Z.to_nat k); split; [lia|apply in_seq; lia]). cbn in C. repeat (destruct C as [<-|C]; [lra|]). destruct C.
  - assert (P : s * c < 0) by nra. destruct (Rlt_dec 0 s); [lra|]. destruct (Rlt_dec 0 (s * c)); [lra|]. rewrite (Rabs_right c), (Rabs_left (s * c)) by lra.
    assert (C : In k (map Z.of_nat (seq 0 9))) by (apply in_map_iff; exists (Z.to_nat k); split; [lia|apply in_seq; lia]). cbn in C. repeat (destruct C as [<-|C]; [lra|]). destruct C.
Qed.
Print Assumptions C184_shapes.
(** the carrier of shape 0 is, to 0.00002, the sine half a turn ahead: minus the sine of the phase *)
Theorem C184_carrier : forall phase, 0 <= phase <= 1 -> Rabs (carrier 0 phase - - sin (2 * PI * phase)) <= 2 / 100000.
Proof.
  intros p H. unfold carrier, sine_shape. pose proof PI_RGT_0. destruct (C183_sine_cosine (2 * PI * (p - 1 / 2)) ltac:(split; nra)) as [A _].
  replace (sin (2 * PI * (p - 1 / 2))) with (- sin (2 * PI * p)) in A; [exact A|].
  replace (2 * PI * (p - 1 / 2)) with (2 * PI * p - PI) by field. rewrite sin_minus, sin_PI, cos_PI. ring.
Qed.
Print Assumptions C184_carrier.
(** the sample: every voice's carrier ring-modulates both inputs; each output is the pan-weighted sum, mixed with its dry input,
    scaled and shaped; every voice's phase moves on *)
Definition cubic (x : R) : R := (3 * x - x ^ 3) / 2.
Theorem C184_sample : forall shape fb lin mix g vs l r,
  let product v := ring fb lin l (carrier shape (rv_phase v)) + ring fb lin r (carrier shape (rv_phase v)) in
  let sum pan := fold_right Rplus 0 (map (fun v => product v * pan v) vs) in
  snd (ring_sample shape fb lin mix g vs (l, r)) = (cubic (g * (mix * sum rv_pan_l + (1 - mix) * l)), cubic (g * (mix * sum rv_pan_r + (1 - mix) * r)))
  /\ map rv_phase (fst (ring_sample shape fb lin mix g vs (l, r))) = map (fun v => advance (rv_phase v) (rv_dphase v)) vs
  /\ map rv_dphase (fst (ring_sample shape fb lin mix g vs (l, r))) = map rv_dphase vs
  /\ map rv_pan_l (fst (ring_sample shape fb lin mix g vs (l, r))) = map rv_pan_l vs /\ map rv_pan_r (fst (ring_sample shape fb lin mix g vs (l, r))) = map rv_pan_r vs.
Proof.
  intros shape fb lin mix g vs l r product sum. rewrite ring_sample_eq. cbn [fst snd].
  assert (S : forall pan, wet pan shape fb lin l r vs = sum pan). { intros pan. unfold wet, sum, product. clear. induction vs as [|v vs IH]; [reflexivity|]. cbn [fold_right map]. rewrite IH. reflexivity. }
  assert (C : forall x, shape_out x = cubic x) by (intros; unfold shape_out, cubic; field). rewrite !S, !C.
  split; [reflexivity|]. rewrite !map_map. repeat split.
Qed.
Print Assumptions C184_sample.
Example C184_nonvacuous : wave 7 (3 / 5) (- 4 / 5) = 24 / 25 /\ sine_shape (3 / 5) (- 4 / 5) 7 = 24 / 25.
Proof. rewrite C184_shapes by (lia || lra). unfold wave, sgn. destruct (Rlt_dec 0 (3 / 5)); [|lra]. rewrite Rabs_left by lra. lra. Qed.
