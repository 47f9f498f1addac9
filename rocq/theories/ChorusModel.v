(* ChorusModel.v - surgefx-chorus: four modulated delay voices. No proofs here.
   Samples, times and gains are exact reals. Blocks are lists of 32 pairs (N = BLOCK_SIZE): the block operations are taken sample by
   sample, as proved in BlockProps/RampProps for blocks in separate, aligned places (gain8 is what a ramp applies to sample i). The delay
   buffer and its reads and writes are those of DelayModel (same size, padding and code). *)
From Coq Require Import Reals.
From Verif Require Import Base Util BlockModel RampProps LagModel MathModel DelayModel BiquadModel.
Local Open Scope R_scope.

(* chorus.rs:5-31 *)
Record chorus := mk_ch { c_fb : lipolps R; c_mix : lipolps R; c_width : lipolps R; c_time : list lag; c_pan : list (R * R); c_phase : list R;
  c_buf : dbuf; c_wpos : Z; c_lp : biquad; c_hp : biquad }.
(* what update() reads (update.rs:38-85): gain = amp_to_linear(Feedback), rate = envelope_rate_linear(-Rate), pitch = n2p(12 Time),
   depth, mix, width = db_to_linear(Width), the two filters' frequencies, whether Rate and Time are tempo-synced, and the tempo ratio *)
Record chpar := mk_cp { cp_gain : R; cp_rate : R; cp_pitch : R; cp_depth : R; cp_mix : R; cp_width : R; cp_hp : R; cp_lp : R; cp_rate_sync : bool; cp_time_sync : bool; cp_ratio : R }.
(* constants.rs:2 *)
Definition CH_DEPTH : Z := 4.
(* init.rs:21-29 *)
Definition ch_x (i : Z) : R := IZR i / IZR (CH_DEPTH - 1).
Definition ch_pan (i : Z) : R * R :=
  let x := 2 * ch_x i - 1 in
  (sqrt (1 / 2 - 1 / 2 * x) * (1 / sqrt (IZR CH_DEPTH)), sqrt (1 / 2 + 1 / 2 * x) * (1 / sqrt (IZR CH_DEPTH))).
Definition four : list Z := [0; 1; 2; 3]%Z.
(* new.rs:27-60: mix and feedback get the block size, width does not *)
Definition ch_new : chorus :=
  mk_ch (ps_new_with_blocksize arithR 32) (ps_new_with_blocksize arithR 32) (ps_default arithR) (map (fun _ => lag_default) four) (map (fun _ => (0, 0)) four) (map (fun _ => 0) four)
    (fun _ => 0) 0 bq_new bq_new.
(* surge-macros/src/lib.rs:182-195 *)
Definition sync (b : bool) (r : R) : R := if b then r else 1.
(* update.rs:5-31 initial_update *)
Definition ch_initial_update (p : chpar) (s : chorus) : chorus :=
  mk_ch (ps_set_target (c_fb s) (1 / 2 * cp_gain p)) (ps_set_target (c_mix s) (cp_mix p)) (ps_set_target (c_width s) (cp_width p)) (c_time s) (c_pan s) (c_phase s) (c_buf s) (c_wpos s)
    (set_coef (design_lp2b (cp_lp p) (707 / 1000)) (c_lp s)) (set_coef (design_hp (cp_hp p) (707 / 1000)) (set_coef (design_hp (cp_hp p) (707 / 1000)) (c_hp s))).
(* init.rs:5-38 *)
Definition ch_init (p : chpar) (s : chorus) : chorus :=
  ch_initial_update p
    (mk_ch (c_fb s) (c_mix s) (c_width s) (map (fun l => lag_set_rate l (1 / 1000)) (c_time s)) (map ch_pan four) (map ch_x four) (fun _ => 0) 0 (c_lp s) (c_hp s)).
(* update.rs:46-69 *)
Definition ch_wrap (x : R) : R := if Rlt_dec 1 x then x - 1 else x.
Definition ch_tri (x : R) : R := 2 * Rabs (2 * x - 1) - 1.
Definition ch_target (sr : R) (p : chpar) (x : R) : R := sr * (cp_pitch p * (1 / sync (cp_time_sync p) (cp_ratio p))) * (1 + ch_tri x * cp_depth p).
Definition ch_advance (p : chpar) (x : R) : R := ch_wrap (x + cp_rate p * sync (cp_time_sync p) (cp_ratio p)).
Fixpoint ch_times (sr : R) (p : chpar) (ls : list lag) (xs : list R) : list lag :=
  match ls, xs with l :: ls', x :: xs' => lag_new_value l (ch_target sr p x) :: ch_times sr p ls' xs' | _, _ => [] end.
(* update.rs:36-85 *)
Definition ch_update (sr : R) (p : chpar) (s : chorus) : chorus :=
  let ph := map (ch_advance p) (c_phase s) in
  mk_ch (ps_set_target_smoothed arithR (c_fb s) (1 / 2 * cp_gain p)) (ps_set_target_smoothed arithR (c_mix s) (cp_mix p)) (ps_set_target_smoothed arithR (c_width s) (cp_width p))
    (ch_times sr p (c_time s) ph) (c_pan s) ph (c_buf s) (c_wpos s)
    (set_coef (design_lp2b (cp_lp p) (707 / 1000)) (c_lp s)) (set_coef (design_hp (cp_hp p) (707 / 1000)) (c_hp s)).
(* block.rs:5-70: the voices of sample k; the lanes are summed per voice here, the code sums them after the voices (equal over the reals) *)
Fixpoint ch_voices (tab : Z -> R) (b : dbuf) (wpos k : Z) (ls : list lag) (ps : list (R * R)) : res (list lag * (R * R)) :=
  match ls, ps with
  | l :: ls', q :: ps' =>
      let l1 := lag_process l in
      obind (dd_read tab b wpos k (l_v l1)) (fun y =>
      obind (ch_voices tab b wpos k ls' ps') (fun '(ls1, (a, c)) => Ok (l1 :: ls1, (y * fst q + a, y * snd q + c))))
  | _, _ => Ok ([], (0, 0))
  end.
(* process.rs:17-19 *)
Fixpoint ch_reads (tab : Z -> R) (b : dbuf) (wpos : Z) (n : nat) (k : Z) (ps : list (R * R)) (ls : list lag) : res (list lag * list (R * R)) :=
  match n with
  | O => Ok (ls, [])
  | Datatypes.S n' => obind (ch_voices tab b wpos k ls ps) (fun '(ls1, y) => obind (ch_reads tab b wpos n' (k + 1) ps ls1) (fun '(ls2, ys) => Ok (ls2, y :: ys)))
  end.
(* process.rs:33-63: add_block, multiply_block by the feedback ramp, hardclip_block, then the two inputs accumulated *)
Definition ch_feed (g : lipolps R) (k : Z) (x w : R * R) : R := limit_range_R (gain8 arithR g k * (fst w + snd w)) (-1) 1 + fst x + snd x.
(* process.rs:67-83: mid/side, the side scaled *)
Definition ch_widen (g : lipolps R) (k : Z) (w : R * R) : R * R :=
  let m := (fst w + snd w) * (1 / 2) in let s := (fst w - snd w) * (1 / 2) * gain8 arithR g k in (m + s, m - s).
(* process.rs:102-109 *)
Definition ch_fade (g : lipolps R) (k : Z) (x y : R * R) : R * R :=
  let m := gain8 arithR g k in (fst x * (1 - m) + fst y * m, snd x * (1 - m) + snd y * m).
Definition zip {A B C : Type} (f : Z -> A -> B -> C) (xs : list A) (ys : list B) : list C :=
  map (fun '(k, (x, y)) => f (Z.of_nat k) x y) (combine (seq 0 (length xs)) (combine xs ys)).
(* process.rs:5-115, set_buffer.rs:5-30 *)
Definition ch_process (tab : Z -> R) (sr : R) (p : chpar) (s0 : chorus) (xs : list (R * R)) : res (chorus * list (R * R)) :=
  let s := ch_update sr p s0 in
  obind (ch_reads tab (c_buf s) (c_wpos s) 32 0 (c_pan s) (c_time s)) (fun '(ls, vs) =>
  let '(lp, vs1, _) := process_block_stereo (c_lp s) vs None in
  let '(hp, vs2, _) := process_block_stereo (c_hp s) vs1 None in
  let fbs := zip (ch_feed (c_fb s)) xs vs2 in
  obind (dd_write (c_buf s) (c_wpos s) (fun k => nth (Z.to_nat k) fbs 0)) (fun b =>
  let wet := zip (fun k (_ : R * R) w => ch_widen (c_width s) k w) xs vs2 in
  Ok (mk_ch (c_fb s) (c_mix s) (c_width s) ls (c_pan s) (c_phase s) b (dd_advance (c_wpos s)) lp hp, zip (ch_fade (c_mix s)) xs wet))).
(* a history of blocks *)
Fixpoint ch_run (tab : Z -> R) (sr : R) (h : list (chpar * list (R * R))) (s : chorus) : res (chorus * list (list (R * R))) :=
  match h with
  | [] => Ok (s, [])
  | (p, xs) :: r => obind (ch_process tab sr p s xs) (fun '(s1, ys) => obind (ch_run tab sr r s1) (fun '(s2, yss) => Ok (s2, ys :: yss)))
  end.
