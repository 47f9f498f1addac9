(* WtModel.v - surge-wavetable: storage layout, mip levels, loading from a WAV reader.
   usize arithmetic is checked at 2^64 (debug profile); the three-dimensional array is a total map with explicit extents,
   an access outside is a Panic (ndarray). Console output is ignored. Allocation is assumed to succeed. *)
From Coq Require Import String.
From Verif Require Import Base Util WavModel.
Local Open Scope Z_scope.

(* surge-constants/src/lib.rs:96-116 *)
Definition MAX_WT_SIZE : Z := 4096.
Definition MAX_SUBTABLES : Z := 512.
Definition MAX_WT_SAMPLES : Z := 2097152.
Definition MAX_LEVELS : Z := 16.
Definition usize_max : Z := 2 ^ 64 - 1.
Definition isize_max : Z := 2 ^ 63 - 1.

(* dim.rs:20-30 required_mipmap_levels; at most 15 steps *)
Fixpoint levels_from (fuel : nat) (levels table_len : Z) : Z :=
  match fuel with
  | O => levels
  | S f => if (2 ^ levels <? table_len) && (levels <? MAX_LEVELS) then levels_from f (levels + 1) table_len else levels
  end.
Definition required_mipmap_levels (table_len : Z) : Z := levels_from 16 1 table_len.

(* calc.rs:45-61 required_wt_size: WAVETABLE_SAMPLE_PADDING = 3, FIR_OFFSET_I16 + FIR_IPOL_I16_N = 12; usize overflow is not
   modelled (sizes are far below). The loop halves table_size, so 64 steps suffice. *)
Fixpoint wt_size_from (fuel : nat) (size table_size table_count : Z) : Z :=
  match fuel with
  | O => size
  | S f => if 0 <? table_size then wt_size_from f (size + table_count * (table_size + 4 + 8)) (Z.shiftr table_size 1) table_count else size
  end.
Definition required_wt_size (table_size table_count : Z) : Z := wt_size_from 64 0 table_size (table_count + 3).

(* calc.rs:63-94 get_wt_index; pad is 0 for NO_PADDING *)
Definition get_wt_index (wave_idx wave_size num_waves mip_map pad : Z) : res Z :=
  let index := wave_idx * (Z.shiftr wave_size mip_map + pad) in
  let offset := num_waves * wave_size in
  let index := fold_left (fun ix i => ix + Z.shiftr offset (Z.of_nat i) + pad * num_waves) (seq 0 (Z.to_nat mip_map)) index in
  if index + wave_size - 1 <? 0 then Panic
  else if index + wave_size - 1 <? MAX_WT_SAMPLES then Ok index else Panic.

(* dim.rs:3-8 *)
Record wtdim := { d_levels : Z; d_tables : Z; d_len : Z }.

Section Table.
Context {T : Type} (zero : T) (smul : T -> T -> T) (hr : Z -> T).   (* hr: HRFILTER, 64 taps *)
Definition a3d : Type := Z -> Z -> Z -> T.
Definition a3_in (d : wtdim) (l t s : Z) : bool := (0 <=? l) && (l <? d_levels d) && (0 <=? t) && (t <? d_tables d) && (0 <=? s) && (s <? d_len d).
Definition a3_get (d : wtdim) (x : a3d) (l t s : Z) : res T := if a3_in d l t s then Ok (x l t s) else Panic.
Definition a3_set (d : wtdim) (x : a3d) (l t s : Z) (v : T) : res a3d :=
  if a3_in d l t s then Ok (fun l' t' s' => if (l' =? l) && (t' =? t) && (s' =? s) then v else x l' t' s') else Panic.

(* init.rs:9-61 populate_base_mipmap_level *)
Definition pb_step (d : wtdim) (st : a3d * Z * Z) (v : T) : res (a3d * Z * Z) :=
  let '(x, ct, cs) := st in
  obind (a3_set d x 0 ct cs v) (fun x =>
  let cs := cs + 1 in Ok (if cs =? d_len d then (x, ct + 1, 0) else (x, ct, cs))).
Definition populate_base (d : wtdim) (x : a3d) (samples : list T) : res a3d :=
  if negb (Z.of_nat (length samples) =? d_tables d * d_len d) then Panic
  else obind (foldM (pb_step d) samples (x, 0, 0)) (fun '(x, _, _) => Ok x).

(* mipmap.rs:66-82, one filter tap. `>>` on usize sizes; the i32 arithmetic is exact for lengths below 2^30 (asserted here by
   the range test) *)
Definition mip_src (d : wtdim) (level table sample a : Z) : res (Z * Z) :=
  let parent := Z.shiftr (d_len d) (level - 1) in
  let src := 2 * sample + a - 31 in
  if negb (parent <? 2 ^ 30) || negb (src <? 2 ^ 30) || negb (table <? 2 ^ 30) then Panic
  else if parent =? 0 then Panic
  else Ok (Z.max 0 (table + Z.quot src parent), Z.land src (parent - 1)).
Definition mip_tap (d : wtdim) (level table sample : Z) (x : a3d) (a : Z) : res a3d :=
  obind (mip_src d level table sample a) (fun '(st, ss) =>
  if st <? d_tables d then obind (a3_get d x (level - 1) st ss) (fun pv => a3_set d x level table sample (smul (hr a) pv)) else Ok x).
Definition zrange (a b : Z) : list Z := map (fun k => a + Z.of_nat k) (seq 0 (Z.to_nat (b - a))).
(* mipmap.rs:45-86 populate_mipmaps: shifts by more than 63 overflow *)
Definition populate_mipmaps (d : wtdim) (x : a3d) : res a3d :=
  foldM (fun x level => if 63 <? level then Panic else
    foldM (fun x table => foldM (fun x sample => foldM (mip_tap d level table sample) (zrange 0 64) x)
      (zrange 0 (Z.shiftr (d_len d) level)) x) (zrange 0 (d_tables d)) x) (zrange 1 (d_levels d)) x.

(* init.rs:63-87 data_3d_from_samples, new: at least three tables, then the array (ndarray refuses more than isize::MAX cells) *)
Definition wt_new (d : wtdim) (samples : list T) : res a3d :=
  if d_tables d <? 3 then Panic
  else if isize_max <? d_levels d * d_tables d * d_len d then Panic
  else obind (populate_base d (fun _ _ _ => zero) samples) (populate_mipmaps d).
End Table.

(* mipmap.rs:10-21 the i16 filter; imports.rs:17-21 saturating multiplication *)
Definition hr_i16 : list Z :=
  [1; 33; -8; -48; 31; 72; -74; -92; 143; 95; -240; -66; 364; -14; -505; 168; 642; -416; -748; 779; 782; -1279; -687; 1951;
   375; -2874; 331; 4293; -1957; -7315; 7773; 31275; 31275; 7773; -7315; -1957; 4293; 331; -2874; 375; 1951; -687; -1279; 782;
   779; -748; -416; 642; 168; -505; -14; 364; -66; -240; 95; 143; -92; -74; 72; 31; -48; -8; 33; 1].
Definition hr16 (a : Z) : Z := nth (Z.to_nat a) hr_i16 0.
Definition sat_mul16 (x y : Z) : Z := Z.max (-32768) (Z.min 32767 (x * y)).

(* base.rs:65-68 num_samples_per_table_po2, surge-math/src/scan.rs:3-6 bitscan_reverse = cttz: counts trailing zeros *)
Fixpoint ctz (p : positive) : Z := match p with xO q => 1 + ctz q | _ => 0 end.
Definition cttz32 (x : Z) : Z := match as_u32 x with Zpos p => ctz p | _ => 32 end.
Definition num_samples_per_table_po2 (d : wtdim) : Z := cttz32 (d_len d).
(* base.rs:50-63, 70-73: the other properties return the header's fields *)

(* error.rs *)
Inductive wt_err := DoesNotUnderstandFile | CouldNotSeekToStart | InsufficientFrames (loops len : Z) | UnsupportedFormat (bits ch : Z).
(* try_from_wavfile.rs:3-27 get_loop_len *)
Definition get_loop_len (ss : surge_spec) : outcome wt_err (bool * Z) :=
  let isS {A} (o : option A) := match o with Some _ => true | None => false end in
  let loop_data := isS (ss_smpl ss) || isS (ss_clm ss) || isS (ss_srge ss) in
  let loop_len := match ss_clm ss, ss_cue ss, ss_srge ss, ss_smpl ss with
    | Some n, _, _, _ => n | None, Some n, _, _ => n | None, None, Some (n, _), _ => n | None, None, None, Some n => n | _, _, _, _ => -1 end in
  if loop_len =? 0 then Err DoesNotUnderstandFile else Ok (loop_data, loop_len).
(* `x as usize` of an i32 *)
Definition usize_of_i32 (x : Z) : Z := x mod 2 ^ 64.
(* 74-88 *)
Definition shift_of (n : Z) : Z :=
  match n with 4096 => 12 | 2048 => 11 | 1024 => 10 | 512 => 9 | 256 => 8 | 128 => 7 | 64 => 6 | 32 => 5 | 16 => 4 | 8 => 3 | 4 => 2 | 2 => 1 | _ => 0 end.
(* 125-127: the window is halved until four windows fit or it is at most 8; window * 4 is a checked i32 product *)
Fixpoint shrink_window (fuel : nat) (window sample_length : Z) : res Z :=
  match fuel with
  | O => Ok window
  | S f => if negb (in_signedb 32 (window * 4)) then Panic
           else if (sample_length <? window * 4) && (8 <? window) then shrink_window f (Z.quot window 2) sample_length else Ok window
  end.
(* 50-141: number and length of tables; the flag says: no usable loop data, take fixed windows *)
Definition wt_plan (ss : surge_spec) (datasamples : Z) : outcome wt_err (bool * wtdim) :=
  obind (get_loop_len ss) (fun '(loop_data, loop_len) =>
  if usize_of_i32 loop_len =? 0 then Panic else
  let loop_count := datasamples / usize_of_i32 loop_len in
  let sh := if loop_data then shift_of loop_len else 0 in
  let is_sample := negb loop_data || (sh =? 0) in
  if negb (loop_len =? -1) && ((sh =? 0) || (as_i32 loop_count <? 3)) then Err (InsufficientFrames (as_i32 loop_count) loop_len)
  else
    let sample_length := Z.min (as_i32 datasamples) MAX_WT_SAMPLES in
    if is_sample then
      let srge_len := match ss_srge ss with Some (n, _) => n | None => 0 end in
      let w0 := match ss_srgo ss with Some _ => srge_len | None => 1024 end in
      match shrink_window 32 w0 sample_length with
      | Ok w => if w =? 0 then Panic
                else if (w =? -1) && (sample_length =? - 2 ^ 31) then Panic
                else let len := usize_of_i32 w in
                  Ok (true, {| d_levels := required_mipmap_levels len; d_tables := usize_of_i32 (Z.quot sample_length w); d_len := len |})
      | _ => Panic
      end
    else
      let len := 2 ^ sh in
      Ok (false, {| d_levels := required_mipmap_levels len; d_tables := Z.min MAX_SUBTABLES (usize_of_i32 (Z.shiftr sample_length sh)); d_len := len |})).

Inductive wavetable := WtFloat (d : wtdim) (x : Z -> Z -> Z -> Z) | WtPcm (d : wtdim) (x : Z -> Z -> Z -> Z).
(* all items as values; r.unwrap() panics on any error *)
Fixpoint unwrap_all (l : list (option (outcome werr Z))) : outcome wt_err (list Z) :=
  match l with
  | [] => Ok []
  | Some (Ok x) :: r => obind (unwrap_all r) (fun xs => Ok (x :: xs))
  | _ => Panic
  end.
Definition any_panic (l : list (option (outcome werr Z))) : bool := existsb (fun o => match o with Some Panic => true | _ => false end) l.
Definition lift {A} (x : res A) : outcome wt_err A := match x with Ok a => Ok a | _ => Panic end.
(* try_from_wavfile.rs:31-178 from an opened reader r on. Float samples are bit patterns; fmulb is f32 multiplication on them and
   hf the f32 filter (mipmap.rs:23-42). *)
Definition wt_from_reader (fmulb : Z -> Z -> Z) (hf : Z -> Z) (r : wav_reader) : outcome wt_err wavetable :=
  let fmt := sample_fmt (r_spec r) in let bits := bits_per_sample (r_spec r) in
  let ty := match fmt with Float => TF32 | Int => TI16 end in
  let datasamples := r_num r - r_read r in
  let '(items, r1) := take_items ty (Z.to_nat datasamples) r in
  if any_panic items then Panic else
  match r_seek 0 r1 with
  | Err _ => Err CouldNotSeekToStart
  | Panic => Panic
  | Ok r2 =>
    obind (wt_plan (r_surge r) datasamples) (fun '(_, d) =>
    if negb (channels (r_spec r) =? 1) then Panic else
    match fmt, bits =? 16, bits =? 32 with
    | Int, true, _ | Float, _, true =>
        let '(items2, _) := take_items ty (Z.to_nat (r_num r2 - r_read r2)) r2 in
        obind (unwrap_all items2) (fun xs =>
        match fmt with
        | Float => obind (lift (wt_new 0 fmulb hf d xs)) (fun x => Ok (WtFloat d x))
        | Int => obind (lift (wt_new 0 sat_mul16 hr16 d xs)) (fun x => Ok (WtPcm d x))
        end)
    | _, _, _ => Err (UnsupportedFormat bits 1)
    end)
  end.
(* the whole call on a file's bytes: a file the reader rejects is a panic! (33-36) *)
Definition wt_try_from (fmulb : Z -> Z -> Z) (hf : Z -> Z) (file : list Z) : outcome wt_err wavetable :=
  match reader_new (mk_stream file 0) with Ok r => wt_from_reader fmulb hf r | _ => Panic end.
(* table.rs:46-65 TryFrom<WaveTableFilename>, calc.rs:24-31, try_from_datafile.rs:7-18: ext is the file name's extension;
   load is what opening and converting the .wav does; a .wt file that opens ends in todo!() *)
Definition wt_try_filename {A} (ext : option string) (opens : bool) (load : outcome wt_err A) : outcome (option wt_err) A :=
  match ext with
  | Some e => if String.eqb e "wt" then (if opens then Panic else Err None)
              else if String.eqb e "wav" then (match load with Ok a => Ok a | Err x => Err (Some x) | Panic => Panic end) else Panic
  | None => Panic
  end.
