(* TuneModel.v - surge-tuning: the Scala readers, retuning, keyboard mapping and the pitch tables.
   Tones, tables and note numbers are real numbers (the code's f32/f64 rounding is not modelled; powf and log2 are the real
   functions); all integer control flow, indices and panics are kept. i32 overflow of note numbers near 2^31 is not modelled. *)
From Coq Require Import Reals.
From Verif Require Import Base Util BlockModel.
Local Open Scope Z_scope.

(** ** text *)
(* BufRead::read_line repeated until it returns 0: the text cut after every newline (byte 10); no piece is empty *)
Fixpoint split_lines (t : list Z) : list (list Z) :=
  match t with
  | [] => []
  | c :: r => if c =? 10 then [c] :: split_lines r
              else match split_lines r with [] => [[c]] | l :: ls => (c :: l) :: ls end
  end.
(* str::parse::<i32>/<usize>: optional sign ('-' only if signed), at least one digit, nothing else, in range; no trimming *)
Fixpoint digits (acc : Z) (l : list Z) : option Z :=
  match l with
  | [] => Some acc
  | c :: r => if (48 <=? c) && (c <=? 57) then digits (10 * acc + (c - 48)) r else None
  end.
Definition parse_digits (l : list Z) : option Z := match l with [] => None | _ => digits 0 l end.
Definition ranged (lo hi : Z) (x : option Z) : option Z :=
  match x with Some v => if (lo <=? v) && (v <=? hi) then Some v else None | None => None end.
Definition parse_i32 (l : list Z) : option Z :=
  match l with
  | 43 :: r => ranged (-2147483648) 2147483647 (parse_digits r)
  | 45 :: r => ranged (-2147483648) 2147483647 (option_map Z.opp (parse_digits r))
  | _ => ranged (-2147483648) 2147483647 (parse_digits l)
  end.
Definition parse_usize (l : list Z) : option Z :=
  match l with
  | 43 :: r => ranged 0 18446744073709551615 (parse_digits r)
  | _ => ranged 0 18446744073709551615 (parse_digits l)
  end.
Definition unwrap {X} (x : option X) : res X := match x with Some v => Ok v | None => Panic end.
(* str::find(char) for an ASCII char *)
Fixpoint find_from (c i : Z) (l : list Z) : option Z :=
  match l with [] => None | x :: r => if x =? c then Some i else find_from c (i + 1) r end.
Definition find_char (c : Z) (l : list Z) : option Z := find_from c 0 l.

(* surge-tuning/src/tone.rs:26-33, the fields that matter for tuning: cents and val *)
Record tone := { tn_cents : R; tn_val : R }.
(* scale.rs:51-58, without name and raw_text *)
Record scale := { sc_desc : list Z; sc_count : Z; sc_tones : list tone }.
Definition scale_default : scale := {| sc_desc := []; sc_count := 0; sc_tones := [] |}.
Inductive sclpos := ReadHeader | ReadCount | ReadNote.
Definition sclpos_next (s : sclpos) : sclpos := match s with ReadHeader => ReadCount | _ => ReadNote end.
Record sclst := { ss_pos : sclpos; ss_line : list Z; ss_scale : scale }.

Section Readers.
(* str::parse::<f32> (any function: its grammar is not modelled) and f32::log2 *)
Context (parse_f32 : list Z -> option R) (log2f : R -> R).

(* scale.rs:141-170 one ReadNote line *)
Definition read_tone (line : list Z) : res tone :=
  obind (match find_char 46 line with
         | Some _ => unwrap (parse_f32 line)
         | None =>
             obind (match find_char 47 line with
                    | Some p =>
                        obind (unwrap (parse_i32 (firstn (Z.to_nat p) line))) (fun n =>
                        (* line[slash_pos..] still begins with the slash *)
                        obind (unwrap (parse_i32 (skipn (Z.to_nat p) line))) (fun d => Ok (IZR n / IZR d)%R))
                    | None => obind (unwrap (parse_i32 line)) (fun n => Ok (IZR n / 1)%R)
                    end) (fun q => Ok (1200 * log2f q)%R)
         end) (fun c => Ok {| tn_cents := c; tn_val := (c / 1200 + 1)%R |}).
(* scale.rs:116-176: one iteration; `line` is never cleared and read_line appends to it *)
Definition scale_step (s : sclst) (piece : list Z) : res sclst :=
  let line := ss_line s ++ piece in
  match line with
  | [] => Panic (* bytes[0]; unreachable: pieces are not empty *)
  | b :: _ =>
      if b =? 33 then Ok {| ss_pos := ss_pos s; ss_line := line; ss_scale := ss_scale s |} else
      obind (unwrap (parse_i32 line)) (fun _ =>
      obind (unwrap (parse_f32 line)) (fun _ =>
      obind (match ss_pos s with
             | ReadHeader => Ok {| sc_desc := line; sc_count := sc_count (ss_scale s); sc_tones := sc_tones (ss_scale s) |}
             | ReadCount => obind (unwrap (parse_usize line)) (fun n => Ok {| sc_desc := sc_desc (ss_scale s); sc_count := n; sc_tones := sc_tones (ss_scale s) |})
             | ReadNote => obind (read_tone line) (fun t => Ok {| sc_desc := sc_desc (ss_scale s); sc_count := sc_count (ss_scale s); sc_tones := sc_tones (ss_scale s) ++ [t] |})
             end) (fun sc => Ok {| ss_pos := sclpos_next (ss_pos s); ss_line := line; ss_scale := sc |})))
  end.
(* scale.rs:106-181 Scale::from for UTF-8 text (other bytes: read_line(..).unwrap() panics) *)
Definition scale_from (text : list Z) : res scale :=
  obind (foldM scale_step (split_lines text) {| ss_pos := ReadHeader; ss_line := []; ss_scale := scale_default |}) (fun s => Ok (ss_scale s)).

(* keyboard_mapping.rs:6-19, without is_valid (never read), raw_text, name *)
Record mapping := { km_standard : bool; km_count : Z; km_first : Z; km_last : Z; km_middle : Z; km_ref : Z; km_freq : R; km_degrees : Z; km_keys : list Z }.
(* keyboard_mapping.rs:42-59 default (also init, 21-40) *)
Definition mapping_default : mapping :=
  {| km_standard := true; km_count := 12; km_first := 0; km_last := 127; km_middle := 60; km_ref := 60; km_freq := (8.175798915 * 32)%R; km_degrees := 12;
     km_keys := [0; 1; 2; 3; 4; 5; 6; 7; 8; 9; 10; 11] |}.
Inductive kmpos := MapSize | FirstMidi | LastMidi | Middle | Reference | Freq | Degree | Keys.
Definition kmpos_next (s : kmpos) : kmpos :=
  match s with MapSize => FirstMidi | FirstMidi => LastMidi | LastMidi => Middle | Middle => Reference | Reference => Freq | Freq => Degree | Degree => Keys | Keys => Keys end.
Record kmst := { ks_pos : kmpos; ks_line : list Z; ks_map : mapping }.
(* keyboard_mapping.rs:143-195 *)
Definition mapping_step (s : kmst) (piece : list Z) : res kmst :=
  let line0 := ks_line s ++ piece in
  let m := ks_map s in
  match line0 with
  | [] => Panic
  | b :: _ =>
      if b =? 33 then Ok {| ks_pos := ks_pos s; ks_line := line0; ks_map := m |} else
      let line := if bytes_eqb line0 [120] then [45; 49] else line0 in
      obind (unwrap (parse_i32 line)) (fun i =>
      obind (unwrap (parse_f32 line)) (fun v =>
      let m' := match ks_pos s with
        | MapSize => {| km_standard := km_standard m; km_count := i; km_first := km_first m; km_last := km_last m; km_middle := km_middle m; km_ref := km_ref m; km_freq := km_freq m; km_degrees := km_degrees m; km_keys := km_keys m |}
        | FirstMidi => {| km_standard := km_standard m; km_count := km_count m; km_first := i; km_last := km_last m; km_middle := km_middle m; km_ref := km_ref m; km_freq := km_freq m; km_degrees := km_degrees m; km_keys := km_keys m |}
        | LastMidi => {| km_standard := km_standard m; km_count := km_count m; km_first := km_first m; km_last := i; km_middle := km_middle m; km_ref := km_ref m; km_freq := km_freq m; km_degrees := km_degrees m; km_keys := km_keys m |}
        | Middle => {| km_standard := km_standard m; km_count := km_count m; km_first := km_first m; km_last := km_last m; km_middle := i; km_ref := km_ref m; km_freq := km_freq m; km_degrees := km_degrees m; km_keys := km_keys m |}
        | Reference => {| km_standard := km_standard m; km_count := km_count m; km_first := km_first m; km_last := km_last m; km_middle := km_middle m; km_ref := i; km_freq := km_freq m; km_degrees := km_degrees m; km_keys := km_keys m |}
        | Freq => {| km_standard := km_standard m; km_count := km_count m; km_first := km_first m; km_last := km_last m; km_middle := km_middle m; km_ref := km_ref m; km_freq := v; km_degrees := km_degrees m; km_keys := km_keys m |}
        | Degree => {| km_standard := km_standard m; km_count := km_count m; km_first := km_first m; km_last := km_last m; km_middle := km_middle m; km_ref := km_ref m; km_freq := km_freq m; km_degrees := i; km_keys := km_keys m |}
        | Keys => {| km_standard := km_standard m; km_count := km_count m; km_first := km_first m; km_last := km_last m; km_middle := km_middle m; km_ref := km_ref m; km_freq := km_freq m; km_degrees := km_degrees m; km_keys := km_keys m ++ [i] |}
        end in
      Ok {| ks_pos := kmpos_next (ks_pos s); ks_line := line; ks_map := m' |}))
  end.
(* keyboard_mapping.rs:104-198: is_standard_mapping = false, keys cleared *)
Definition mapping_blank : mapping :=
  {| km_standard := false; km_count := 12; km_first := 0; km_last := 127; km_middle := 60; km_ref := 60; km_freq := (8.175798915 * 32)%R; km_degrees := 12; km_keys := [] |}.
Definition mapping_from (text : list Z) : res mapping :=
  obind (foldM mapping_step (split_lines text) {| ks_pos := MapSize; ks_line := []; ks_map := mapping_blank |}) (fun s => Ok (ks_map s)).
End Readers.

(** ** retuning *)
(* scale.rs:183-191 is_valid *)
Definition scale_valid (s : scale) : bool := negb (sc_count s =? 0).
(* `x as usize` indexing with an i32 x: a negative x is out of bounds *)
Definition tone_val (s : scale) (i : Z) : res R := obind (zget (sc_tones s) i) (fun t => Ok (tn_val t)).
(* retune.rs:45-56 the two while loops on (scale_position_of_tuning_note, tshift); fuel |p|+1 is enough when count >= 1
   (every iteration moves p by count toward [0,count]) *)
Fixpoint wind_up (fuel : nat) (n : Z) (dt : R) (p : Z) (tshift : R) : Z * R :=
  match fuel with
  | O => (p, tshift)
  | S f => if p <? 0 then wind_up f n dt (p + n) (tshift + dt)%R else (p, tshift)
  end.
Fixpoint wind_down (fuel : nat) (n : Z) (dt : R) (p : Z) (tshift : R) : Z * R :=
  match fuel with
  | O => (p, tshift)
  | S f => if n <? p then wind_down f n dt (p - n) (tshift - dt)%R else (p, tshift)
  end.
(* retune.rs:39-63 tuning_center_pitch_offset *)
Definition center_offset (s : scale) (pos : Z) : res R :=
  if pos =? 0 then Ok 0%R else
  obind (tone_val s (sc_count s - 1)) (fun last =>
  let dt := (last - 1)%R in
  let fuel := S (Z.to_nat (Z.abs pos)) in
  let (p1, t1) := wind_up fuel (sc_count s) dt pos 0%R in
  let (p2, t2) := wind_down fuel (sc_count s) dt p1 t1 in
  if p2 =? 0 then Ok (- t2)%R else obind (tone_val s (p2 - 1)) (fun v => Ok (v - 1 - t2)%R)).
(* retune.rs:97-160: rounds and this_round of one key, then the sign correction; None if the key is unmapped.
   Rust's / and % truncate toward zero; % by a zero mapping count cannot happen (count == 0 takes the first branch) *)
Definition key_degree (m : mapping) (n : Z) (dist : Z) : res (option (Z * Z)) :=
  obind (if km_standard m || (km_count m =? 0) then Ok (false, Z.quot (dist - 1) n, Z.rem (dist - 1) n)
         else
           let mk0 := Z.rem dist (km_count m) in
           let mk := if mk0 <? 0 then mk0 + km_count m else mk0 in
           obind (zget (km_keys m) mk) (fun cm =>
           let disable := cm <? 0 in
           let push := if disable then 0 else mk - cm in
           Ok (disable, Z.quot (dist - push - 1) n, Z.rem (dist - push - 1) n))) (fun drt =>
  let '(disable, rounds, this_round) := drt in
  let (rounds', this') := if this_round <? 0 then (rounds - 1, this_round + n) else (rounds, this_round) in
  if disable then Ok None else Ok (Some (rounds', this'))).
(* retune.rs:148,152-156: the pitch of one key. scale.tones[scale.count-1] is also indexed for `_mul` *)
Definition key_pitch (s : scale) (m : mapping) (off : R) (idx : Z) : res R :=
  if idx =? 256 + km_ref m then Ok 1%R else
  obind (key_degree m (sc_count s) (idx - (256 + km_middle m))) (fun kd =>
  obind (tone_val s (sc_count s - 1)) (fun last =>
  match kd with
  | None => Ok 0%R
  | Some (rounds, this) => obind (tone_val s this) (fun v => Ok (v + IZR rounds * (last - 1) - off)%R)
  end)).

(* tuner.rs:3-11, tables.rs:5-13: the tuner; tables are lists of 512 *)
Record tuner := { tu_pitch : R; tu_std : bool; tu_map : mapping; tu_scale : scale; tu_table : list R; tu_inv : list R;
                  tu_table0 : list R; tu_inv0 : list R }.
(* for (idx, pitch) in pitches.iter_mut().enumerate() *)
Definition idxs : list Z := map Z.of_nat (seq 0 512).
Fixpoint mapM {X Y} (f : X -> res Y) (l : list X) : res (list Y) :=
  match l with [] => Ok [] | x :: r => obind (f x) (fun y => obind (mapM f r) (fun ys => Ok (y :: ys))) end.
Definition log2R (x : R) : R := (ln x / ln 2)%R.
Definition exp2R (x : R) : R := Rpower 2 x.
(* retune.rs:14-213 retune_to_scale: the returned bool and the new tuner. table_note_omega is a function of table_pitch and
   is modelled separately (note_omega). pitches[pos_pitch0] panics outside 0..511 *)
Definition retune_to_scale (t : tuner) (s : scale) : res (bool * tuner) :=
  if negb (scale_valid s) then Ok (false, t) else
  let m := tu_map t in
  let pitch_mod := (log2R (tu_pitch t) - 1)%R in
  obind (if 0 <? km_count m then zget (km_keys m) (km_ref m - km_middle m) else Ok (km_ref m - km_middle m)) (fun pos =>
  obind (center_offset s pos) (fun off =>
  if negb ((0 <=? 256 + km_ref m) && (256 + km_ref m <? 512)) then Panic else
  obind (mapM (key_pitch s m off) idxs) (fun pitches =>
  let tab := map (fun p => exp2R (p + pitch_mod)%R) pitches in
  Ok (true, {| tu_pitch := tu_pitch t; tu_std := false; tu_map := m; tu_scale := s; tu_table := tab; tu_inv := map (fun x => (1 / x)%R) tab;
               tu_table0 := tu_table0 t; tu_inv0 := tu_inv0 t |})))).
(* tables.rs:34-66 init: equal temperament *)
Definition std_table : list R := map (fun i => exp2R ((IZR i - 256) * (1 / 12))%R) idxs.
(* retune.rs:3-9 retune_to_standard_tuning = tuner.rs:44-54 init: tuning, mapping, scale and tables reset; current_tuning.pitch is kept *)
Definition tuner_init (t : tuner) : tuner :=
  {| tu_pitch := tu_pitch t; tu_std := true; tu_map := mapping_default; tu_scale := scale_default; tu_table := std_table; tu_inv := map (fun x => (1 / x)%R) std_table;
     tu_table0 := std_table; tu_inv0 := map (fun x => (1 / x)%R) std_table |}.
(* tuner.rs:15-23 new: the tables are zeros until init *)
Definition zeros512 : list R := map (fun _ => 0%R) idxs.
Definition tuner_new : tuner :=
  {| tu_pitch := 32%R; tu_std := true; tu_map := mapping_default; tu_scale := scale_default; tu_table := zeros512; tu_inv := zeros512; tu_table0 := zeros512; tu_inv0 := zeros512 |}.
(* remap.rs:11-53 remap_to_keyboard; scale.rs:193-198 even_temperament_12_note_scale reads a text that begins with '!' *)
Definition remap_to_keyboard (even12 : res scale) (t : tuner) (m : mapping) : res tuner :=
  let p := if km_standard m then 32%R else (km_freq m / 8.175798915)%R in
  let t1 := {| tu_pitch := p; tu_std := tu_std t; tu_map := m; tu_scale := tu_scale t; tu_table := tu_table t; tu_inv := tu_inv t; tu_table0 := tu_table0 t; tu_inv0 := tu_inv0 t |} in
  if km_standard m && tu_std t1 then Ok (tuner_init t1)
  else if negb (km_standard m) && negb (scale_valid (tu_scale t1)) then
    obind even12 (fun s => obind (retune_to_scale t1 s) (fun r => Ok (snd r)))
  else obind (retune_to_scale t1 (tu_scale t1)) (fun r => Ok (snd r)).

(** ** lookup *)
(* `f as i64` of a real *)
Definition as_i64R (x : R) : Z :=
  let tr := if Rle_dec 0 x then Int_part x else (- Int_part (- x))%Z in
  Z.max (-9223372036854775808) (Z.min 9223372036854775807 tr).
(* tuner.rs:76-101 n2p, 103-127 n2pinv: the same lookup in another table *)
Definition lookup (table : list R) (x0 : R) : res R :=
  let x := (x0 + 256)%R in
  let e := as_i64R x in
  let lerpx := (x - IZR e)%R in
  let e' := if 510 <? e then 510 else e in
  obind (zget table (e' mod 512)) (fun a => obind (zget table ((e' + 1) mod 512)) (fun b => lerp arithR lerpx a b)).
Definition n2p (t : tuner) (ignore : bool) (x : R) : res R := lookup (if ignore then tu_table0 t else tu_table t) x.
Definition n2pinv (t : tuner) (ignore : bool) (x : R) : res R := lookup (if ignore then tu_inv0 t else tu_inv t) x.
(* tuner.rs:129-164 note_to_omega: here the index is also clamped from below *)
Definition lookup_clamped (table : list R) (x0 : R) : res R :=
  let x := (x0 + 256)%R in
  let e := as_i64R x in
  let lerpx := (x - IZR e)%R in
  let e' := if 510 <? e then 510 else if e <? 0 then 0 else e in
  obind (zget table (e' mod 512)) (fun a => obind (zget table ((e' + 1) mod 512)) (fun b => lerp arithR lerpx a b)).
(* tuner.rs:58-74 n2p_tuningctr, n2pinv_tuningctr: tuning_traits.rs:53-55 scale_constant_pitch_inv = 1/pitch *)
Definition n2p_tuningctr (t : tuner) (x : R) : res R := obind (n2p t false (x + IZR (km_ref (tu_map t)))%R) (fun v => Ok (v * (1 / tu_pitch t))%R).
Definition n2pinv_tuningctr (t : tuner) (x : R) : res R := obind (n2pinv t false (x + IZR (km_ref (tu_map t)))%R) (fun v => Ok (v * (1 / tu_pitch t))%R).
(* retune.rs:196-210 and tables.rs:46-64: the sine/cosine pair of one table entry; mind = minimum of two f64 *)
Definition note_omega (concert_a sr_inv tp : R) : R * R :=
  let arg := (2 * PI * Rmin 0.5 (concert_a * tp * sr_inv))%R in (sin arg, cos arg).
(* tuner.rs:176-189 current_scale_count: i8 *)
Definition current_scale_count (t : tuner) : res Z :=
  let v := sc_count (tu_scale t) in if Z.land v 127 =? v then Ok v else Panic.
