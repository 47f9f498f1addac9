(* StepModel.v - surge-stepseq: the StepSequencer.
   f32 is IEEE binary32 (F32.v). Random draws (rand's thread_rng) are explicit arguments: gen_range(lo..hi)
   panics on an empty range and otherwise may return any value of [lo, hi).
   usize/u64 are Z. Indexing a fixed array out of range is a panic. *)
From Verif Require Import Base Util F32.
From Flocq Require Import IEEE754.BinarySingleNaN.

(* surge-stepseq/src/stepsequencer.rs:87 *)
Definition N_STEPS : Z := 16.

(* surge-stepseq/src/stepsequencer.rs:40-76 *)
Record stepseq := mk_seq {
  q_steps : list f32; q_probs : list f32; q_loop_start : Z; q_loop_end : Z; q_shuffle : f32;
  q_trigmask : Z; q_mute : Z; q_cur : Z }.

(* surge-stepseq/src/stepsequencer.rs:89-103 *)
Definition seq_default : stepseq := mk_seq (repeat f0 16) (repeat f1 16) 0 15 f0 0 0 0.
(* surge-stepseq/src/stepsequencer.rs:118-124 *)
Definition new_from_sequence (steps : list f32) : stepseq := mk_seq steps (repeat f1 16) 0 15 f0 0 0 0.

Definition set_steps (q : stepseq) l := mk_seq l (q_probs q) (q_loop_start q) (q_loop_end q) (q_shuffle q) (q_trigmask q) (q_mute q) (q_cur q).
Definition set_probs (q : stepseq) l := mk_seq (q_steps q) l (q_loop_start q) (q_loop_end q) (q_shuffle q) (q_trigmask q) (q_mute q) (q_cur q).
Definition set_mute (q : stepseq) m := mk_seq (q_steps q) (q_probs q) (q_loop_start q) (q_loop_end q) (q_shuffle q) (q_trigmask q) m (q_cur q).
Definition set_cur (q : stepseq) c := mk_seq (q_steps q) (q_probs q) (q_loop_start q) (q_loop_end q) (q_shuffle q) (q_trigmask q) (q_mute q) c.
(* surge-stepseq/src/stepsequencer.rs:142-145 *)
Definition set_loop (q : stepseq) s e := mk_seq (q_steps q) (q_probs q) s e (q_shuffle q) (q_trigmask q) (q_mute q) (q_cur q).
(* surge-stepseq/src/stepsequencer.rs:170-172 *)
Definition set_shuffle (q : stepseq) v := mk_seq (q_steps q) (q_probs q) (q_loop_start q) (q_loop_end q) v (q_trigmask q) (q_mute q) (q_cur q).
(* surge-stepseq/src/stepsequencer.rs:184-186 *)
Definition set_trigmask (q : stepseq) v := mk_seq (q_steps q) (q_probs q) (q_loop_start q) (q_loop_end q) (q_shuffle q) v (q_mute q) (q_cur q).
(* surge-stepseq/src/stepsequencer.rs:194-196 *)
Definition seq_reset (q : stepseq) := set_cur q 0.

(* surge-stepseq/src/stepsequencer.rs:126-130 *)
Definition set_step (q : stepseq) (index : Z) (value : f32) : res stepseq :=
  if index <? N_STEPS then obind (zset (q_steps q) index value) (fun l => Ok (set_steps q l)) else Ok q.
(* surge-stepseq/src/stepsequencer.rs:132-138 *)
Definition step (q : stepseq) (index : Z) : res f32 :=
  if index <? N_STEPS then zget (q_steps q) index else Ok f0.
(* surge-stepseq/src/probability.rs:7-12 *)
Definition set_probability (q : stepseq) (index : Z) (p : f32) : res stepseq :=
  if index <? N_STEPS then obind (zset (q_probs q) index p) (fun l => Ok (set_probs q l)) else Ok q.
(* surge-stepseq/src/probability.rs:25-32 *)
Definition get_probability (q : stepseq) (index : Z) : res f32 :=
  if index <? N_STEPS then zget (q_probs q) index else Ok f0.
(* surge-stepseq/src/probability.rs:16-21 *)
Definition set_probabilities (q : stepseq) (ps : list f32) : stepseq :=
  let len := Nat.min (length ps) 16 in
  set_probs q (firstn len ps ++ skipn len (q_probs q)).

(* ---- mute.rs; `1 << step` on u64 panics for step >= 64 (debug profile) ---- *)
Definition bit64 (step : Z) : res Z := if (0 <=? step) && (step <? 64) then Ok (Z.shiftl 1 step) else Panic.
Definition not64 (x : Z) : Z := Z.lxor x (Z.ones 64).
(* surge-stepseq/src/mute.rs:15-17 *)
Definition mute_step (q : stepseq) (step : Z) : res stepseq :=
  obind (bit64 step) (fun b => Ok (set_mute q (Z.lor (q_mute q) b))).
(* surge-stepseq/src/mute.rs:20-22 *)
Definition unmute_step (q : stepseq) (step : Z) : res stepseq :=
  obind (bit64 step) (fun b => Ok (set_mute q (Z.land (q_mute q) (not64 b)))).
(* surge-stepseq/src/mute.rs:25-27 *)
Definition mute_all (q : stepseq) : stepseq := set_mute q (Z.shiftr (Z.ones 64) (64 - N_STEPS)).
(* surge-stepseq/src/mute.rs:30-32 *)
Definition unmute_all (q : stepseq) : stepseq := set_mute q 0.
(* surge-stepseq/src/mute.rs:44-46 *)
Definition mute_group (q : stepseq) (mask : Z) : stepseq := set_mute q (Z.lor (q_mute q) mask).
(* surge-stepseq/src/mute.rs:58-60 *)
Definition unmute_group (q : stepseq) (mask : Z) : stepseq := set_mute q (Z.land (q_mute q) (not64 mask)).
(* surge-stepseq/src/mute.rs:65-67 *)
Definition is_step_muted (q : stepseq) (step : Z) : res bool :=
  obind (bit64 step) (fun b => Ok (negb (Z.land (q_mute q) b =? 0))).

(* ---- rand::Rng::gen_range(lo..hi) on f32: the draw `off` is admissible, or the call panics ---- *)
(* rand 0.8 also refuses a range whose width overflows *)
Definition gen_range_nonempty (lo hi : f32) : bool := fltb lo hi && is_finite (fsub hi lo).
Definition in_gen_range (lo hi off : f32) : bool := fleb lo off && fltb off hi.

(* surge-stepseq/src/next.rs:23-25 - `while w > loop_end { w -= len }`; None: still running when the fuel is spent.
   The length is `(loop_end - loop_start + 1) as f32`, a usize subtraction that panics when loop_end < loop_start. *)
Definition loop_len (q : stepseq) : res f32 :=
  if q_loop_end q <? q_loop_start q then Panic else Ok (fofZ (q_loop_end q - q_loop_start q + 1)).
Fixpoint wrap_down (q : stepseq) (fuel : nat) (w : f32) : res (option f32) :=
  match fuel with
  | O => Ok None
  | S k => if fltb (fofZ (q_loop_end q)) w then obind (loop_len q) (fun n => wrap_down q k (fsub w n)) else Ok (Some w)
  end.
(* surge-stepseq/src/next.rs:27-29 *)
Fixpoint wrap_up (q : stepseq) (fuel : nat) (w : f32) : res (option f32) :=
  match fuel with
  | O => Ok None
  | S k => if fltb w (fofZ (q_loop_start q)) then obind (loop_len q) (fun n => wrap_up q k (fadd w n)) else Ok (Some w)
  end.

Definition shuffle_amount (q : stepseq) : f32 := fmul (q_shuffle q) (fpow 1 (-1)).
(* surge-stepseq/src/next.rs:5-39. `off` is the value drawn at line 14. Some (q', v): the sequencer after the call
   and the returned value; None: the loops have not ended within `fuel` iterations each. *)
Definition next_step (fuel : nat) (q : stepseq) (off : f32) : res (option (stepseq * f32)) :=
  obind (zget (q_steps q) (q_cur q)) (fun st =>
  let a := shuffle_amount q in
  if gen_range_nonempty (fopp a) a then
    let next := fadd (fadd (fofZ ((q_cur q + 1) mod N_STEPS)) off) (fofZ (q_loop_start q)) in
    obind (wrap_down q fuel next) (fun r1 =>
    match r1 with None => Ok None | Some w1 =>
    obind (wrap_up q fuel w1) (fun r2 =>
    match r2 with None => Ok None | Some w2 =>
    obind (bit64 (as_u64_f w2)) (fun b =>
    let q' := if Z.land (q_trigmask q) b =? 0 then set_cur q ((q_cur q + 1) mod N_STEPS) else set_cur q (as_usize_f w2) in
    Ok (Some (q', st))) end) end)
  else Panic).

(* ---- probability.rs ---- *)
(* rand's gen_bool(p): panics unless 0 <= p <= 1; p = 1 is always true; otherwise a u64 draw v is compared with
   trunc(p * 2^64) (Bernoulli::new / sample, rand 0.8). `p as f64` is exact, and so is the scaling by 2^64. *)
Definition scale64 (p : f32) : Z :=
  match p with
  | B754_finite _ m e _ => if 0 <=? e + 64 then Z.pos m * 2 ^ (e + 64) else Z.pos m / 2 ^ (- (e + 64))
  | _ => 0
  end.
Definition gen_bool (p : f32) (v : Z) : res bool :=
  if fleb f0 p && fltb p f1 then Ok (v <? scale64 p)
  else if feqb p f1 then Ok true else Panic.
(* surge-stepseq/src/probability.rs:74-81, with the u64 drawn *)
Definition trigger_probability (q : stepseq) (step : Z) (v : Z) : res bool :=
  obind (get_probability q step) (fun p => gen_bool p v).

(* ---- random.rs:34-45; `us` are the sixteen gen::<f32>() draws, `ds` the draws from -range..range ---- *)
Definition mutate_one (rate range : f32) (x u d : f32) : res f32 :=
  if fltb u rate then
    if gen_range_nonempty (fopp range) range then Ok (fmin (fmax (fadd x d) f0) f1) else Panic
  else Ok x.
Fixpoint mutate_all (rate range : f32) (xs us ds : list f32) : res (list f32) :=
  match xs, us, ds with
  | x :: xs', u :: us', d :: ds' =>
      obind (mutate_one rate range x u d) (fun y => obind (mutate_all rate range xs' us' ds') (fun ys => Ok (y :: ys)))
  | _, _, _ => Ok xs
  end.
Definition mutate_sequence (q : stepseq) (rate range : f32) (us ds : list f32) : res stepseq :=
  obind (mutate_all rate range (q_steps q) us ds) (fun l => Ok (set_steps q l)).

(* ---- swing.rs:38-49 ---- *)
Definition swing_steps (q : stepseq) (amount : f32) : Z := as_i32_f (fround (fmul amount (fofZ (q_loop_end q - q_loop_start q + 1)))).
Definition swing_one (k : Z) (x : f32) : f32 := fmin (fmax (fadd x (fdiv (fofZ k) (fofZ 16))) f0) f1.
(* (loop_start..=loop_end).step_by(2) *)
Definition swing_indices (q : stepseq) : list Z :=
  map (fun j => q_loop_start q + 2 * Z.of_nat j) (seq 0 (Z.to_nat ((q_loop_end q - q_loop_start q) / 2 + 1))).
Definition apply_swing (q : stepseq) (amount : f32) : res stepseq :=
  if q_loop_end q <? q_loop_start q then Panic else
  let k := swing_steps q amount in
  obind (foldM (fun l i => obind (zget l i) (fun x => zset l i (swing_one k x))) (swing_indices q) (q_steps q)) (fun l =>
  Ok (set_steps q l)).

(* ---- persist.rs: the file is its text, a list of ASCII codes. f32's Display and FromStr are arguments. ---- *)
Fixpoint digits (base : Z) (fuel : nat) (n : Z) : list Z :=
  match fuel with
  | O => []
  | S k => (if n <? base then [] else digits base k (n / base)) ++
           [let d := n mod base in if d <? 10 then 48 + d else 55 + d]
  end.
(* Display of usize, {:X} of u64 *)
Definition show_dec (n : Z) : list Z := digits 10 64 n.
Definition show_hex (n : Z) : list Z := digits 16 64 n.
Definition digit_of (base c : Z) : option Z :=
  let d := if (48 <=? c) && (c <=? 57) then Some (c - 48)
           else if (65 <=? c) && (c <=? 90) then Some (c - 55)
           else if (97 <=? c) && (c <=? 122) then Some (c - 87) else None in
  match d with Some x => if x <? base then Some x else None | None => None end.
Fixpoint parse_digits (base limit acc : Z) (l : list Z) : option Z :=
  match l with
  | [] => Some acc
  | c :: r => match digit_of base c with
              | Some d => let a := acc * base + d in if a <=? limit then parse_digits base limit a r else None
              | None => None
              end
  end.
(* str::parse::<usize>() / u64::from_str_radix: an optional '+', then at least one digit, no overflow *)
Definition parse_uint (base limit : Z) (l : list Z) : option Z :=
  match l with
  | [] => None
  | c :: r => if c =? 43 then match r with [] => None | _ => parse_digits base limit 0 r end else parse_digits base limit 0 l
  end.
Definition usize_max : Z := 18446744073709551615.

(* str::split_ascii_whitespace *)
Definition is_space (c : Z) : bool := (c =? 32) || (c =? 9) || (c =? 10) || (c =? 12) || (c =? 13).
Fixpoint tokens (l : list Z) (cur : list Z) : list (list Z) :=
  match l with
  | [] => match cur with [] => [] | _ => [rev cur] end
  | c :: r => if is_space c then match cur with [] => tokens r [] | _ => rev cur :: tokens r [] end
              else tokens r (c :: cur)
  end.
Definition split_ws (l : list Z) : list (list Z) := tokens l [].

(* surge-stepseq/src/persist.rs:32-46 *)
Definition save_sequence (show : f32 -> list Z) (q : stepseq) : list Z :=
  flat_map (fun x => show x ++ [32]) (q_steps q) ++
  show_dec (q_loop_start q) ++ [32] ++ show_dec (q_loop_end q) ++ [32] ++ show (q_shuffle q) ++ [32] ++ show_hex (q_trigmask q).

(* surge-stepseq/src/persist.rs:51-84 *)
Fixpoint load_steps (parse : list Z -> option f32) (steps : list f32) (ts : list (list Z)) : list f32 * list (list Z) :=
  match steps with
  | [] => ([], ts)
  | s :: r => match ts with
              | [] => let (r', ts') := load_steps parse r [] in (s :: r', ts')
              | t :: ts1 => let (r', ts') := load_steps parse r ts1 in
                            ((match parse t with Some v => v | None => f0 end) :: r', ts')
              end
  end.
Definition or_zero (o : option Z) : Z := match o with Some v => v | None => 0 end.
Definition load_sequence (parse : list Z -> option f32) (q : stepseq) (text : list Z) : stepseq :=
  let (steps, ts0) := load_steps parse (q_steps q) (split_ws text) in
  let (ls, ts1) := match ts0 with [] => (q_loop_start q, []) | t :: r => (or_zero (parse_uint 10 usize_max t), r) end in
  let (le, ts2) := match ts1 with [] => (q_loop_end q, []) | t :: r => (or_zero (parse_uint 10 usize_max t), r) end in
  let (sh, ts3) := match ts2 with [] => (q_shuffle q, []) | t :: r => (match parse t with Some v => v | None => f0 end, r) end in
  let tm := match ts3 with [] => q_trigmask q | t :: _ => or_zero (parse_uint 16 usize_max t) end in
  mk_seq steps (q_probs q) ls le sh tm (q_mute q) (q_cur q).
