(* WavModel.v - model of crate surge-hound: src/lib.rs, src/write.rs, src/read.rs.
   No proofs here. All line numbers refer to /repo/surge-hound/src. *)
From Coq Require Import String.
From Verif Require Import Base.
Open Scope Z_scope.

(* ------------------------------------------------------------------ *)
(** * Errors, formats, specs *)

(* lib.rs `enum Error` : IoError carries no information in the model;
   [Fuel] is not an error of the code: it is the model's out-of-fuel marker and is proved
   unreachable (WavProofs, read_until_data never returns it). *)
Inductive werr : Type :=
| IoError
| FormatError (msg : string)
| TooWide
| UnfinishedSample
| Unsupported
| InvalidSampleFormat
| Fuel.

(* lib.rs 293-304 `enum SampleFormat` *)
Inductive sample_format := Float | Int.
Definition sf_eqb (a b : sample_format) : bool :=
  match a, b with Float, Float | Int, Int => true | _, _ => false end.

(* lib.rs 306-324 `struct WavSpec` *)
Record wav_spec := mk_spec {
  channels : Z;          (* u16 *)
  sample_rate : Z;       (* u32 *)
  bits_per_sample : Z;   (* u16 *)
  sample_fmt : sample_format }.

(* The four implementors of trait Sample (lib.rs 176-291). A value of type i8/i16/i32 is a Z in
   range; a value of type f32 is its IEEE bit pattern (a u32), so NaNs are distinguished. *)
Inductive sample_type := TI8 | TI16 | TI32 | TF32.

(* the values a Rust variable of the type can hold *)
Definition type_okb (t : sample_type) (v : Z) : bool :=
  match t with
  | TI8 => in_signedb 8 v
  | TI16 => in_signedb 16 v
  | TI32 => in_signedb 32 v
  | TF32 => (0 <=? v) && (v <? 2 ^ 32)
  end.

(* ------------------------------------------------------------------ *)
(** * Streams: io::Cursor<Vec<u8>> / a regular file *)

Record stream := mk_stream { sdata : list Z; spos : Z }.

(* bytes from the current position to the end *)
Definition avail (s : stream) : list Z :=
  if Z.of_nat (length (sdata s)) <=? spos s then []
  else skipn (Z.to_nat (spos s)) (sdata s).

(* io::Write::write_all at the current position: overwrite, extend, zero-fill a gap *)
Definition write_at (d : list Z) (p : nat) (bs : list Z) : list Z :=
  firstn p d ++ repeat 0 (p - length d) ++ bs ++ skipn (p + length bs) d.
Definition write_all (bs : list Z) (s : stream) : stream :=
  mk_stream (write_at (sdata s) (Z.to_nat (spos s)) bs) (spos s + Z.of_nat (length bs)).

(* io::Seek: SeekFrom::Start(p), SeekFrom::Current(off) (a negative target is an error) *)
Definition seek_start (p : Z) (s : stream) : stream := mk_stream (sdata s) p.
Definition seek_current (off : Z) (s : stream) : outcome werr stream :=
  if spos s + off <? 0 then Err IoError else Ok (mk_stream (sdata s) (spos s + off)).

(* ------------------------------------------------------------------ *)
(** * Readers as programs over io::Read, so that they can be run on any reader
      (a plain stream, or a BufReader). *)

Inductive prog (A : Type) : Type :=
| PRet (a : A)
| PErr (e : werr)
| PPanic
| PRead (n : nat) (k : list Z -> prog A)   (* read.rs 73-84 read_into of an n-byte buffer, then `?` *)
| PSkip (n : Z) (k : prog A)               (* read.rs 87-104 skip_bytes(n), then `?` *)
| PTry (n : nat) (k : prog A).             (* read_into whose Result is discarded (read.rs 432) *)
Arguments PRet {A} a.
Arguments PErr {A} e.
Arguments PPanic {A}.
Arguments PRead {A} n k.
Arguments PSkip {A} n k.
Arguments PTry {A} n k.

Fixpoint pbind {A B} (m : prog A) (f : A -> prog B) : prog B :=
  match m with
  | PRet a => f a
  | PErr e => PErr e
  | PPanic => PPanic
  | PRead n k => PRead n (fun bs => pbind (k bs) f)
  | PSkip n k => PSkip n (pbind k f)
  | PTry n k => PTry n (pbind k f)
  end.
Notation "x <- m ;; k" := (pbind m (fun x => k)) (at level 61, m at next level, right associativity).

(* read.rs 73-84: fill n bytes or fail, having consumed what was there *)
Definition read_into (n : nat) (s : stream) : outcome werr (list Z) * stream :=
  let r := avail s in
  if (length r <? n)%nat
  then (Err IoError, mk_stream (sdata s) (spos s + Z.of_nat (length r)))
  else (Ok (firstn n r), mk_stream (sdata s) (spos s + Z.of_nat n)).

(* read.rs 87-104: discard n bytes or fail, having consumed what was there.
   The 1024-byte chunking is not visible on a stream whose reads are not short. *)
Definition skip_bytes (n : Z) (s : stream) : outcome werr unit * stream :=
  let r := Z.of_nat (length (avail s)) in
  if r <? n then (Err IoError, mk_stream (sdata s) (spos s + r))
  else (Ok tt, mk_stream (sdata s) (spos s + n)).

Fixpoint run {A} (m : prog A) (s : stream) : outcome werr A * stream :=
  match m with
  | PRet a => (Ok a, s)
  | PErr e => (Err e, s)
  | PPanic => (Panic, s)
  | PRead n k => match read_into n s with
                 | (Ok bs, s') => run (k bs) s'
                 | (Err e, s') => (Err e, s')
                 | (Panic, s') => (Panic, s')
                 end
  | PSkip n k => match skip_bytes n s with
                 | (Ok _, s') => run k s'
                 | (Err e, s') => (Err e, s')
                 | (Panic, s') => (Panic, s')
                 end
  | PTry n k => run k (snd (read_into n s))
  end.

(* read.rs 122-178: the little-endian readers *)
Definition nthb (n : nat) (bs : list Z) : Z := nth n bs 0.
(* read.rs 124-129 *)
Definition read_u8 : prog Z := PRead 1 (fun b => PRet (nthb 0 b)).
(* read.rs 136-140 *)
Definition read_le_u16 : prog Z :=
  PRead 2 (fun b => PRet (Z.lor (Z.shiftl (nthb 1 b) 8) (nthb 0 b))).
(* read.rs 131-134 *)
Definition read_le_i16 : prog Z := x <- read_le_u16 ;; PRet (as_i16 x).
(* read.rs 156-160 *)
Definition read_le_u24 : prog Z :=
  PRead 3 (fun b => PRet (Z.lor (Z.lor (Z.shiftl (nthb 2 b) 16) (Z.shiftl (nthb 1 b) 8)) (nthb 0 b))).
(* read.rs 143-153: sign extension of bit 23 *)
Definition read_le_i24 : prog Z :=
  x <- read_le_u24 ;;
  PRet (if Z.land x (Z.shiftl 1 23) =? 0 then as_i32 x else as_i32 (Z.lor x 0xff000000)).
(* read.rs 168-173 *)
Definition read_le_u32 : prog Z :=
  PRead 4 (fun b => PRet (Z.lor (Z.lor (Z.lor (Z.shiftl (nthb 3 b) 24) (Z.shiftl (nthb 2 b) 16))
                                       (Z.shiftl (nthb 1 b) 8)) (nthb 0 b))).
(* read.rs 163-165 *)
Definition read_le_i32 : prog Z := x <- read_le_u32 ;; PRet (as_i32 x).
(* read.rs 176-178; f32::from_bits is the identity on bit patterns *)
Definition read_le_f32 : prog Z := read_le_u32.

(* ------------------------------------------------------------------ *)
(** * Sample encoding: lib.rs and WriteExt *)

(* write.rs 70-75 *)
Definition le_u16 (x : Z) : list Z := [as_u8 (Z.land x 255); as_u8 (Z.shiftr x 8)].
(* write.rs 83-89 *)
Definition le_u24 (x : Z) : list Z :=
  [Z.land x 255; Z.land (Z.shiftr x 8) 255; Z.land (Z.shiftr x 16) 255].
(* write.rs 97-104 *)
Definition le_u32 (x : Z) : list Z :=
  [Z.land x 255; Z.land (Z.shiftr x 8) 255; Z.land (Z.shiftr x 16) 255; Z.land (Z.shiftr x 24) 255].
(* write.rs 65-67, 78-80, 92-94: signed variants cast to the unsigned type first *)
Definition le_i16 (x : Z) : list Z := le_u16 (as_u16 x).
Definition le_i24 (x : Z) : list Z := le_u24 (as_u32 x).
Definition le_i32 (x : Z) : list Z := le_u32 (as_u32 x).

(* lib.rs 102-104 *)
Definition signed_from_u8 (x : Z) : Z := as_i8 (x - 128).
(* lib.rs 107-109 *)
Definition u8_from_signed (x : Z) : Z := as_u8 (x + 128).

(* lib.rs 123-130 *)
Definition narrow_to_i8 (x : Z) : outcome werr Z :=
  if (x <? -128) || (127 <? x) then Err TooWide else Ok (as_i8 x).
(* lib.rs 142-149 *)
Definition narrow_to_i16 (x : Z) : outcome werr Z :=
  if (x <? -32768) || (32767 <? x) then Err TooWide else Ok (as_i16 x).
(* lib.rs 161-167 *)
Definition narrow_to_i24 (x : Z) : outcome werr Z :=
  if (x <? - (Z.shiftl 1 23)) || (Z.shiftl 1 23 - 1 <? x) then Err TooWide else Ok x.

(* lib.rs 177-185, 207-215, 237-245, 269-274: `Sample::write` - the bytes handed to the writer *)
Definition sample_write (t : sample_type) (v bits : Z) : outcome werr (list Z) :=
  match t with
  | TI8 =>
      if bits =? 8 then Ok [u8_from_signed v]
      else if bits =? 16 then Ok (le_i16 v)
      else if bits =? 24 then Ok (le_i24 v)
      else if bits =? 32 then Ok (le_i32 v)
      else Err Unsupported
  | TI16 =>
      if bits =? 8 then obind (narrow_to_i8 v) (fun x => Ok [u8_from_signed x])
      else if bits =? 16 then Ok (le_i16 v)
      else if bits =? 24 then Ok (le_i24 v)
      else if bits =? 32 then Ok (le_i32 v)
      else Err Unsupported
  | TI32 =>
      if bits =? 8 then obind (narrow_to_i8 v) (fun x => Ok [u8_from_signed x])
      else if bits =? 16 then obind (narrow_to_i16 v) (fun x => Ok (le_i16 x))
      else if bits =? 24 then obind (narrow_to_i24 v) (fun x => Ok (le_i24 x))
      else if bits =? 32 then Ok (le_i32 v)
      else Err Unsupported
  | TF32 =>
      if bits =? 32 then Ok (le_u32 v) else Err Unsupported
  end.

(* lib.rs 187-190, 217-220, 247-250, 276-278: `as_i16` (panics for f32) *)
Definition sample_as_i16 (t : sample_type) (v : Z) : outcome werr Z :=
  match t with
  | TI8 => Ok v
  | TI16 => Ok v
  | TI32 => Ok (as_i16 v)
  | TF32 => Panic
  end.

(* lib.rs 192-203, 222-233, 252-265, 280-290: `Sample::read` *)
Definition sample_read (t : sample_type) (fmt : sample_format) (bytes bits : Z) : prog Z :=
  match t with
  | TI8 =>
      if negb (sf_eqb fmt Int) then PErr InvalidSampleFormat
      else if (bytes =? 1) && (bits =? 8) then x <- read_u8 ;; PRet (signed_from_u8 x)
      else if 1 <? bytes then PErr TooWide
      else PErr Unsupported
  | TI16 =>
      if negb (sf_eqb fmt Int) then PErr InvalidSampleFormat
      else if (bytes =? 1) && (bits =? 8) then x <- read_u8 ;; PRet (signed_from_u8 x)
      else if (bytes =? 2) && (bits =? 16) then read_le_i16
      else if 2 <? bytes then PErr TooWide
      else PErr Unsupported
  | TI32 =>
      if negb (sf_eqb fmt Int) then PErr InvalidSampleFormat
      else if (bytes =? 1) && (bits =? 8) then x <- read_u8 ;; PRet (signed_from_u8 x)
      else if (bytes =? 2) && (bits =? 16) then read_le_i16
      else if (bytes =? 3) && (bits =? 24) then read_le_i24
      else if (bytes =? 4) && (bits =? 32) then read_le_i32
      else if 4 <? bytes then PErr TooWide
      else PErr Unsupported
  | TF32 =>
      if negb (sf_eqb fmt Float) then PErr InvalidSampleFormat
      else if (bytes =? 4) && (bits =? 32) then read_le_f32
      else if 4 <? bytes then PErr TooWide
      else PErr Unsupported
  end.

(* ------------------------------------------------------------------ *)
(** * WavWriter: write.rs *)

(* write.rs 136-166 *)
Record wav_writer := mk_writer {
  w_spec : wav_spec;
  w_bps : Z;              (* bytes_per_sample: u16 *)
  w_stream : stream;      (* writer: W *)
  w_bytes : Z;            (* data_bytes_written: u32 *)
  w_final : bool;         (* finalized *)
  w_buf : list Z;         (* sample_writer_buffer *)
  w_off : Z }.            (* data_len_offset: u32 *)

Definition set_stream (w : wav_writer) (s : stream) : wav_writer :=
  mk_writer (w_spec w) (w_bps w) s (w_bytes w) (w_final w) (w_buf w) (w_off w).
Definition set_bytes (w : wav_writer) (n : Z) : wav_writer :=
  mk_writer (w_spec w) (w_bps w) (w_stream w) n (w_final w) (w_buf w) (w_off w).
Definition set_buf (w : wav_writer) (b : list Z) : wav_writer :=
  mk_writer (w_spec w) (w_bps w) (w_stream w) (w_bytes w) (w_final w) b (w_off w).
Definition set_final (w : wav_writer) : wav_writer :=
  mk_writer (w_spec w) (w_bps w) (w_stream w) (w_bytes w) true (w_buf w) (w_off w).

(* lib.rs KSDATAFORMAT_SUBTYPE_PCM / KSDATAFORMAT_SUBTYPE_IEEE_FLOAT (lib.rs 423-428) *)
Definition guid_pcm : list Z :=
  [0x01; 0; 0; 0; 0; 0; 0x10; 0; 0x80; 0; 0; 0xaa; 0; 0x38; 0x9b; 0x71].
Definition guid_float : list Z :=
  [0x03; 0; 0; 0; 0; 0; 0x10; 0; 0x80; 0; 0; 0xaa; 0; 0x38; 0x9b; 0x71].

Definition tag_RIFF : list Z := [82; 73; 70; 70].
Definition tag_WAVE : list Z := [87; 65; 86; 69].
Definition tag_fmt : list Z := [102; 109; 116; 32].
Definition tag_data : list Z := [100; 97; 116; 97].
Definition tag_fact : list Z := [102; 97; 99; 116].
Definition tag_clm : list Z := [99; 108; 109; 32].
Definition tag_uhWT : list Z := [117; 104; 87; 84].
Definition tag_srge : list Z := [115; 114; 103; 101].
Definition tag_srgo : list Z := [115; 114; 103; 111].
Definition tag_cue : list Z := [99; 117; 101; 32].
Definition tag_smpl : list Z := [115; 109; 112; 108].

(* write.rs 114-116: OR of `1u32 << c` for c in 0..channels; a shift by 32 or more panics
   (checked profile) *)
Definition channel_mask (ch : Z) : outcome werr Z :=
  if 32 <? ch then Panic
  else Ok (fold_left (fun a c => Z.lor a (Z.shiftl 1 (Z.of_nat c))) (seq 0 (Z.to_nat ch)) 0).

(* write.rs 168-171, 190-194 `FmtKind` *)
Definition is_extensible (sp : wav_spec) : bool := (2 <? channels sp) || (16 <? bits_per_sample sp).

(* write.rs 267-285: checked u32 multiplications, division by sample_rate *)
Definition write_waveformat (sp : wav_spec) (bps : Z) : outcome werr (list Z) :=
  if u32_max <? sample_rate sp * bps then Panic
  else if u32_max <? sample_rate sp * bps * channels sp then Panic
  else if sample_rate sp =? 0 then Panic
  else
    let bytes_per_sec := sample_rate sp * bps * channels sp in
    Ok (le_u16 (channels sp) ++ le_u32 (sample_rate sp) ++ le_u32 bytes_per_sec
        ++ le_u16 (as_u16 (bytes_per_sec / sample_rate sp))).

(* write.rs 288-324 *)
Definition write_pcmwaveformat (sp : wav_spec) (bps : Z) : outcome werr (list Z) :=
  let tag := match sample_fmt sp with
             | Int => Ok (le_u16 1)
             | Float => if bits_per_sample sp =? 32 then Ok (le_u16 3) else Panic
             end in
  obind tag (fun t =>
  obind (write_waveformat sp bps) (fun wf =>
  Ok (le_u32 16 ++ t ++ wf ++ le_u16 (bits_per_sample sp)))).

(* write.rs 327-371 *)
Definition write_waveformatextensible (sp : wav_spec) (bps : Z) : outcome werr (list Z) :=
  obind (write_waveformat sp bps) (fun wf =>
  if u16_max <? bps * 8 then Panic else
  obind (channel_mask (channels sp)) (fun cm =>
  let guid := match sample_fmt sp with
              | Int => Ok guid_pcm
              | Float => if bits_per_sample sp =? 32 then Ok guid_float else Panic
              end in
  obind guid (fun g =>
  Ok (le_u32 40 ++ le_u16 0xfffe ++ wf ++ le_u16 (bps * 8) ++ le_u16 22
      ++ le_u16 (bits_per_sample sp) ++ le_u32 cm ++ g)))).

(* write.rs 225-261: the header bytes (44 or 68 of them) *)
Definition header_bytes (sp : wav_spec) (bps : Z) : outcome werr (list Z) :=
  obind (if is_extensible sp then write_waveformatextensible sp bps else write_pcmwaveformat sp bps)
        (fun f => Ok (tag_RIFF ++ le_u32 0 ++ tag_WAVE ++ tag_fmt ++ f ++ tag_data ++ le_u32 0)).

(* write.rs 434-454. The header fields are overwritten first; the frame check comes last.
   u32 additions are checked; `/ bytes_per_sample` and `% channels` panic on 0. *)
Definition update_header (w : wav_writer) : outcome werr unit * wav_writer :=
  let header_size := w_off w + 4 - 8 in
  if u32_max <? w_bytes w + header_size then (Panic, w)
  else
    let s1 := write_all (le_u32 (w_bytes w + header_size)) (seek_start 4 (w_stream w)) in
    let s2 := write_all (le_u32 (w_bytes w)) (seek_start (w_off w) s1) in
    let w' := set_stream w s2 in
    if w_bps w =? 0 then (Panic, w')
    else if channels (w_spec w) =? 0 then (Panic, w')
    else if negb ((w_bytes w / w_bps w) mod channels (w_spec w) =? 0)
         then (Err UnfinishedSample, w')
         else (Ok tt, w').

(* write.rs 533-540: Drop - update the header unless finalized, ignoring its Result.
   Returns the stream left behind and whether drop panicked. *)
Definition writer_drop (w : wav_writer) : outcome werr unit * stream :=
  if w_final w then (Ok tt, w_stream w)
  else match update_header w with
       | (Panic, w') => (Panic, w_stream w')
       | (_, w') => (Ok tt, w_stream w')
       end.

(* write.rs 185-222. Second component: the stream as left behind (after the drop of the partly
   built writer when `new` fails or panics). *)
Definition writer_new (s : stream) (sp : wav_spec) : outcome werr wav_writer * stream :=
  if u16_max <? bits_per_sample sp + 7 then (Panic, s)
  else
    let bps := (bits_per_sample sp + 7) / 8 in
    let w := mk_writer sp bps s 0 false [] (if is_extensible sp then 64 else 40) in
    let b := bits_per_sample sp in
    if negb ((b =? 8) || (b =? 16) || (b =? 24) || (b =? 32))
    then match writer_drop w with
         | (Panic, s') => (Panic, s')
         | (_, s') => (Err Unsupported, s')
         end
    else match header_bytes sp bps with
         | Ok h => let s' := write_all h s in (Ok (set_stream w s'), s')
         | Err e => (Err e, snd (writer_drop w))
         | Panic => (Panic, snd (writer_drop w))
         end.

(* write.rs 379-383 *)
Definition write_sample (t : sample_type) (v : Z) (w : wav_writer) : outcome werr unit * wav_writer :=
  match sample_write t v (bits_per_sample (w_spec w)) with
  | Err e => (Err e, w)
  | Panic => (Panic, w)
  | Ok bs =>
      let w' := set_stream w (write_all bs (w_stream w)) in
      if u32_max <? w_bytes w + w_bps w then (Panic, w')
      else (Ok tt, set_bytes w' (w_bytes w + w_bps w))
  end.

(* write.rs 473-479. NB: an error of update_header returns before the position is restored.
   Flushing the underlying writer has no effect on an unbuffered stream. *)
Definition flush (w : wav_writer) : outcome werr unit * wav_writer :=
  let current_pos := spos (w_stream w) in
  match update_header w with
  | (Ok _, w') => (Ok tt, set_stream w' (seek_start current_pos (w_stream w')))
  | (Err e, w') => (Err e, w')
  | (Panic, w') => (Panic, w')
  end.

(* write.rs 486-495: consumes the writer; afterwards Drop runs with finalized = true.
   Result and the stream left behind. *)
Definition finalize (w : wav_writer) : outcome werr unit * stream :=
  match update_header (set_final w) with
  | (r, w') => (r, snd (writer_drop w'))
  end.

(* write.rs 512-527 *)
Definition w_duration (w : wav_writer) : outcome werr Z :=
  let d := w_bps w * channels (w_spec w) in
  if d =? 0 then Panic else Ok (w_bytes w / d).
Definition w_len (w : wav_writer) : outcome werr Z :=
  if w_bps w =? 0 then Panic else Ok (w_bytes w / w_bps w).
Definition w_is_empty (w : wav_writer) : bool := w_bytes w =? 0.

(* ------------------------------------------------------------------ *)
(** * SampleWriter16: write.rs 400-432, 684-772 *)

(* The borrowed writer, the length of the borrowed slice (the first sw_len bytes of the
   writer's buffer) and the index. *)
Record sample_writer16 := mk_sw16 { sw_w : wav_writer; sw_len : Z; sw_idx : Z }.

(* write.rs 400-432. [garbage] is the uninitialised memory of the freshly allocated buffer. *)
Definition get_i16_writer (w : wav_writer) (num_samples : Z) (garbage : list Z)
  : outcome werr sample_writer16 :=
  if negb (sf_eqb (sample_fmt (w_spec w)) Int) then Panic
  else if negb (bits_per_sample (w_spec w) =? 16) then Panic
  else
    let num_bytes := num_samples * 2 in
    let w' := if Z.of_nat (length (w_buf w)) <? num_bytes then set_buf w garbage else w in
    Ok (mk_sw16 w' num_bytes 0).

(* assignment buffer[i] = x *)
Definition list_set (i : nat) (x : Z) (l : list Z) : list Z :=
  firstn i l ++ x :: skipn (S i) l.

(* write.rs 698-710 *)
Definition sw16_write (t : sample_type) (v : Z) (sw : sample_writer16) : outcome werr sample_writer16 :=
  if sw_len sw <? 2 then Panic                       (* `buffer.len() - 2` underflows *)
  else if sw_len sw - 2 <? sw_idx sw then Panic      (* assert! *)
  else obind (sample_as_i16 t v) (fun x =>
    let s := as_u16 x in
    let i := Z.to_nat (sw_idx sw) in
    let b := list_set (S i) (as_u8 (Z.shiftr s 8)) (list_set i (as_u8 s) (w_buf (sw_w sw))) in
    if u32_max <? sw_idx sw + 2 then Panic
    else Ok (mk_sw16 (set_buf (sw_w sw) b) (sw_len sw) (sw_idx sw + 2))).

(* write.rs 763-771: consumes the sample writer, gives back the parent *)
Definition sw16_flush (sw : sample_writer16) : outcome werr wav_writer :=
  if negb (sw_idx sw =? sw_len sw) then Panic
  else
    let w := sw_w sw in
    let bs := firstn (Z.to_nat (sw_len sw)) (w_buf w) in
    if u32_max <? w_bytes w + as_u32 (sw_len sw) then Panic
    else Ok (set_bytes (set_stream w (write_all bs (w_stream w))) (w_bytes w + as_u32 (sw_len sw))).

(* ------------------------------------------------------------------ *)
(** * Header parsing: read.rs *)

(* read.rs 196-311 *)
Record spec_ex := mk_specx { sx_spec : wav_spec; sx_bps : Z }.
Record surge_spec := mk_surge {
  ss_specx : option spec_ex;
  ss_clm : option Z;            (* ClmSpec.len *)
  ss_uhwt : option Z;           (* UhwtSpec.len *)
  ss_srge : option (Z * Z);     (* SrgeSpec (len, version) *)
  ss_srgo : option (Z * Z);     (* SrgoSpec (len, version) *)
  ss_cue : option Z;            (* CueSpec.len *)
  ss_smpl : option Z }.         (* SmplSpec.len *)
Definition surge_default : surge_spec := mk_surge None None None None None None None.

(* read.rs 182-193 *)
Inductive chunk_kind := KFmt | KClm | KUhwt | KSrge | KSrgo | KCue | KSmpl | KFact | KData | KUnknown.

(* read.rs 341-361 *)
Definition read_wave_header : prog Z :=
  PRead 4 (fun t1 =>
  if negb (bytes_eqb t1 tag_RIFF) then PErr (FormatError "no RIFF tag found")
  else (file_len <- read_le_u32 ;;
  PRead 4 (fun t2 =>
  if negb (bytes_eqb t2 tag_WAVE) then PErr (FormatError "no WAVE tag found")
  else PRet (file_len + 8)))).

(* read.rs 458-469 *)
Definition kind_of_tag (t : list Z) : chunk_kind :=
  if bytes_eqb t tag_fmt then KFmt
  else if bytes_eqb t tag_fact then KFact
  else if bytes_eqb t tag_data then KData
  else if bytes_eqb t tag_clm then KClm
  else if bytes_eqb t tag_uhWT then KUhwt
  else if bytes_eqb t tag_srge then KSrge
  else if bytes_eqb t tag_srgo then KSrgo
  else if bytes_eqb t tag_cue then KCue
  else if bytes_eqb t tag_smpl then KSmpl
  else KUnknown.

(* read.rs 453-472 *)
Definition read_chunk_header : prog (chunk_kind * Z) :=
  PRead 4 (fun t => len <- read_le_u32 ;; PRet (kind_of_tag t, len)).

(* read.rs 729-772 *)
Definition read_wave_format_pcm (chunk_len : Z) (sp : wav_spec) : prog spec_ex :=
  let fin := PRet (mk_specx sp (bits_per_sample sp / 8)) in
  let b := bits_per_sample sp in
  let ex (k : prog spec_ex) : prog spec_ex :=
    _cb <- read_le_u16 ;;
    (if (b =? 8) || (b =? 16) || (b =? 24) then k
     else PErr (FormatError "bits per sample is not 8 or 16")) in
  if chunk_len =? 16 then fin
  else if chunk_len =? 18 then ex fin
  else if chunk_len =? 40 then ex (PSkip 22 fin)
  else PErr (FormatError "unexpected fmt chunk size").

(* read.rs 774-811 *)
Definition read_wave_format_ieee_float (chunk_len : Z) (sp : wav_spec) : prog spec_ex :=
  let fin :=
    if negb (bits_per_sample sp =? 32) then PErr (FormatError "bits per sample is not 32")
    else PRet (mk_specx (mk_spec (channels sp) (sample_rate sp) (bits_per_sample sp) Float)
                        (bits_per_sample sp / 8)) in
  if negb (chunk_len =? 18) && negb (chunk_len =? 16)
  then PErr (FormatError "unexpected fmt chunk size")
  else if chunk_len =? 18 then
    cb <- read_le_u16 ;;
    (if negb (cb =? 0) then PErr (FormatError "unexpected WAVEFORMATEX size") else fin)
  else fin.

(* read.rs 813-869. Bytes of the chunk beyond 40 are not skipped. *)
Definition read_wave_format_extensible (chunk_len : Z) (sp : wav_spec) : prog spec_ex :=
  if chunk_len <? 40 then PErr (FormatError "unexpected fmt chunk size")
  else
    cb <- read_le_u16 ;;
    (if negb (cb =? 22) then PErr (FormatError "unexpected WAVEFORMATEXTENSIBLE size")
     else
       valid <- read_le_u16 ;;
       _mask <- read_le_u32 ;;
       PRead 16 (fun sub =>
       let ret f := PRet (mk_specx (mk_spec (channels sp) (sample_rate sp) valid f)
                                   (bits_per_sample sp / 8)) in
       if bytes_eqb sub guid_pcm then ret Int
       else if bytes_eqb sub guid_float then ret Float
       else PErr Unsupported)).

(* read.rs 475-568 *)
Definition read_fmt_chunk (chunk_len : Z) : prog spec_ex :=
  if chunk_len <? 16 then PErr (FormatError "invalid fmt chunk size")
  else
    format_tag <- read_le_u16 ;;
    n_channels <- read_le_u16 ;;
    n_samples_per_sec <- read_le_u32 ;;
    n_bytes_per_sec <- read_le_u32 ;;
    block_align <- read_le_u16 ;;
    bits <- read_le_u16 ;;
    (if n_channels =? 0 then PErr (FormatError "file contains zero channels")
     else
       let m8 := block_align / n_channels * 8 in              (* checked_mul, u16 *)
       let mr := block_align * n_samples_per_sec in           (* checked_mul, u32 *)
       if negb ((m8 <=? u16_max) && (bits =? m8)) || negb ((mr <=? u32_max) && (n_bytes_per_sec =? mr))
       then PErr (FormatError "inconsistent fmt chunk")
       else if negb (bits mod 8 =? 0) then PErr (FormatError "bits per sample is not a multiple of 8")
       else if bits =? 0 then PErr (FormatError "bits per sample is 0")
       else
         let sp := mk_spec n_channels n_samples_per_sec bits Int in
         if format_tag =? 1 then read_wave_format_pcm chunk_len sp
         else if format_tag =? 3 then read_wave_format_ieee_float chunk_len sp
         else if format_tag =? 0xfffe then read_wave_format_extensible chunk_len sp
         else PErr Unsupported).

(* `reader.skip_bytes((chunk_len - parsed) as usize)?` with checked u32 subtraction *)
Definition skip_rest {A} (chunk_len parsed : Z) (k : prog A) : prog A :=
  if chunk_len <? parsed then PPanic else PSkip (chunk_len - parsed) k.

(* read.rs 571-595 *)
Definition read_clm_chunk (chunk_len : Z) : prog Z :=
  _p <- read_le_u24 ;;
  c1 <- read_u8 ;; c2 <- read_u8 ;; c3 <- read_u8 ;; c4 <- read_u8 ;;
  skip_rest chunk_len 7
    (if (c1 =? 50) && (c2 =? 48) && (c3 =? 52) && (c4 =? 56) then PRet 2048
     else PErr (FormatError "invalid clm prefix")).

(* read.rs 598-601: nothing is read *)
Definition read_uhwt_chunk : Z := 2048.

(* read.rs 604-609 and 612-617 *)
Definition read_srge_chunk (chunk_len : Z) : prog (Z * Z) :=
  version <- read_le_i32 ;;
  len <- read_le_i32 ;;
  skip_rest chunk_len 8 (PRet (len, version)).

(* read.rs 629-642: the positions (6th field of each 24-byte cue record) *)
Fixpoint read_cues (n : nat) (acc : list Z) : prog (list Z) :=
  match n with
  | O => PRet (rev acc)
  | S n' =>
      _0 <- read_le_i32 ;; _1 <- read_le_i32 ;; _2 <- read_le_i32 ;;
      _3 <- read_le_i32 ;; _4 <- read_le_i32 ;;
      d <- read_le_i32 ;;
      read_cues n' (d :: acc)
  end.

(* checked i32 subtraction *)
Definition sub_i32 (a b : Z) : outcome werr Z :=
  if in_signedb 32 (a - b) then Ok (a - b) else Panic.

(* read.rs 644-658: [d] starts at the sentinel -1 *)
Fixpoint cue_scan (prev : Z) (starts : list Z) (d : Z) (regular : bool) : outcome werr (Z * bool) :=
  match starts with
  | [] => Ok (d, regular)
  | x :: rest =>
      obind (sub_i32 x prev) (fun delta =>
      if d =? -1 then cue_scan x rest delta regular
      else if negb (d =? delta) then cue_scan x rest d false
      else cue_scan x rest d regular)
  end.
Definition cue_regular (starts : list Z) : outcome werr (Z * bool) :=
  match starts with
  | [] => Ok (-1, true)
  | x :: rest => cue_scan x rest (-1) true
  end.

(* read.rs 620-669. `parsed` (u32) is 4 + 24 per cue; if it overflowed it would exceed chunk_len
   anyway, which is the same panic. *)
Definition read_cue_chunk (chunk_len : Z) : prog Z :=
  num_cues <- read_le_i32 ;;
  let n := Z.to_nat num_cues in
  starts <- read_cues n [] ;;
  match cue_regular starts with
  | Panic => PPanic
  | Err e => PErr e
  | Ok (d, regular) =>
      skip_rest chunk_len (4 + 24 * Z.of_nat n)
        (if regular then PRet d else PErr (FormatError "invalid CUE chunk"))
  end.

(* read.rs 672-727 *)
Definition read_smpl_chunk (chunk_len : Z) : prog Z :=
  _0 <- read_le_u32 ;; _1 <- read_le_u32 ;; _2 <- read_le_u32 ;; _3 <- read_le_u32 ;;
  _4 <- read_le_u32 ;; _5 <- read_le_u32 ;; _6 <- read_le_u32 ;;
  nloops <- read_le_u32 ;;
  _8 <- read_le_u32 ;;
  if nloops =? 0 then skip_rest chunk_len 36 (PRet 2048)
  else if 1 <? nloops then PErr (FormatError "SMPL chunk, nloops > 1, not supported")
  else
    _l0 <- read_le_i32 ;; _l1 <- read_le_i32 ;;
    l2 <- read_le_i32 ;; l3 <- read_le_i32 ;;
    _l4 <- read_le_i32 ;; _l5 <- read_le_i32 ;;
    match obind (sub_i32 l3 l2) (fun d => if in_signedb 32 (d + 1) then Ok (d + 1) else Panic) with
    | Panic => PPanic
    | Err e => PErr e
    | Ok len => skip_rest chunk_len 60 (PRet (if len =? 0 then 2048 else len))
    end.

(* read.rs 368-447. Every iteration that does not return reads an 8-byte chunk header, so fuel
   larger than the number of bytes is never exhausted. The accumulated spec starts as
   Some(default), hence "missing fmt chunk" is never returned. *)
Fixpoint read_until_data (fuel : nat) (acc : surge_spec) : prog (surge_spec * Z) :=
  match fuel with
  | O => PErr Fuel
  | S f =>
      h <- read_chunk_header ;;
      let len := snd h in
      match fst h with
      | KFmt => x <- read_fmt_chunk len ;;
          read_until_data f (mk_surge (Some x) (ss_clm acc) (ss_uhwt acc) (ss_srge acc) (ss_srgo acc) (ss_cue acc) (ss_smpl acc))
      | KClm => x <- read_clm_chunk len ;;
          read_until_data f (mk_surge (ss_specx acc) (Some x) (ss_uhwt acc) (ss_srge acc) (ss_srgo acc) (ss_cue acc) (ss_smpl acc))
      | KUhwt =>
          read_until_data f (mk_surge (ss_specx acc) (ss_clm acc) (Some read_uhwt_chunk) (ss_srge acc) (ss_srgo acc) (ss_cue acc) (ss_smpl acc))
      | KSrge => x <- read_srge_chunk len ;;
          read_until_data f (mk_surge (ss_specx acc) (ss_clm acc) (ss_uhwt acc) (Some x) (ss_srgo acc) (ss_cue acc) (ss_smpl acc))
      | KSrgo => x <- read_srge_chunk len ;;
          read_until_data f (mk_surge (ss_specx acc) (ss_clm acc) (ss_uhwt acc) (ss_srge acc) (Some x) (ss_cue acc) (ss_smpl acc))
      | KCue => x <- read_cue_chunk len ;;
          read_until_data f (mk_surge (ss_specx acc) (ss_clm acc) (ss_uhwt acc) (ss_srge acc) (ss_srgo acc) (Some x) (ss_smpl acc))
      | KSmpl => x <- read_smpl_chunk len ;;
          read_until_data f (mk_surge (ss_specx acc) (ss_clm acc) (ss_uhwt acc) (ss_srge acc) (ss_srgo acc) (ss_cue acc) (Some x))
      | KFact => PTry 4 (read_until_data f acc)
      | KData => PRet (acc, len)
      | KUnknown => PSkip len (read_until_data f acc)
      end
  end.

(* the two calls at the start of WavReader::new (read.rs 876-877) and read_append (write.rs 547-550) *)
Definition read_headers (fuel : nat) : prog (surge_spec * Z) :=
  _len <- read_wave_header ;; read_until_data fuel surge_default.

(* ------------------------------------------------------------------ *)
(** * WavReader: read.rs 875-1035 *)

(* read.rs 282-303 *)
Record wav_reader := mk_reader {
  r_surge : surge_spec;
  r_specx : spec_ex;        (* surge_spec.specx.unwrap(), known to be Some after `new` *)
  r_bps : Z;
  r_num : Z;                (* num_samples: u32 *)
  r_read : Z;               (* samples_read: u32 *)
  r_stream : stream }.

(* read.rs 879-893 / write.rs 557-562,580-582: the data length checks *)
Definition check_data_len (x : spec_ex) (data_len : Z) : outcome werr Z :=
  if sx_bps x =? 0 then Panic
  else
    let num_samples := data_len / sx_bps x in
    if negb (num_samples * sx_bps x =? data_len)
    then Err (FormatError "data chunk length is not a multiple of sample size")
    else if channels (sx_spec x) =? 0 then Panic
    else if negb (num_samples mod channels (sx_spec x) =? 0)
    then Err (FormatError "invalid data chunk length")
    else Ok num_samples.

Definition stream_fuel (s : stream) : nat := S (length (sdata s)).

(* read.rs 875-907 *)
Definition reader_new (s : stream) : outcome werr wav_reader :=
  match run (read_headers (stream_fuel s)) s with
  | (Err e, _) => Err e
  | (Panic, _) => Panic
  | (Ok (ss, data_len), s') =>
      match ss_specx ss with
      | None => Panic                                   (* specx.unwrap() *)
      | Some x => obind (check_data_len x data_len) (fun n =>
                  Ok (mk_reader ss x (sx_bps x) n 0 s'))
      end
  end.

(* read.rs 910-912, 949-965 *)
Definition r_spec (r : wav_reader) : wav_spec := sx_spec (r_specx r).
Definition r_len (r : wav_reader) : Z := r_num r.
Definition r_duration (r : wav_reader) : Z := r_num r / channels (r_spec r).

(* read.rs 1016-1030 *)
Definition iter_next (t : sample_type) (r : wav_reader) : option (outcome werr Z) * wav_reader :=
  if r_read r <? r_num r then
    match run (sample_read t (sample_fmt (r_spec r)) (r_bps r) (bits_per_sample (r_spec r))) (r_stream r) with
    | (o, s') => (Some o, mk_reader (r_surge r) (r_specx r) (r_bps r) (r_num r) (r_read r + 1) s')
    end
  else (None, r).

(* read.rs 1032-1035: checked u32 subtraction *)
Definition iter_size_hint (r : wav_reader) : outcome werr Z :=
  if r_num r <? r_read r then Panic else Ok (r_num r - r_read r).

(* read.rs 991-1001: NB uses the valid bits / 8, not the container size; u32 product is checked *)
Definition r_seek (time : Z) (r : wav_reader) : outcome werr wav_reader :=
  let bps := bits_per_sample (r_spec r) / 8 in
  let sample_position := time * channels (r_spec r) in
  if u32_max <? sample_position then Panic
  else
    let offset_bytes := (sample_position - r_read r) * bps in
    obind (seek_current offset_bytes (r_stream r)) (fun s' =>
    Ok (mk_reader (r_surge r) (r_specx r) (r_bps r) (r_num r) sample_position s')).

(* Collecting the next n items of the iterator *)
Fixpoint take_items (t : sample_type) (n : nat) (r : wav_reader)
  : list (option (outcome werr Z)) * wav_reader :=
  match n with
  | O => ([], r)
  | S n' => let (o, r') := iter_next t r in
            let (os, r'') := take_items t n' r' in (o :: os, r'')
  end.

(* ------------------------------------------------------------------ *)
(** * Append: write.rs 546-664 *)

(* write.rs 546-585, after the headers were read: [pos] is the reader position *)
Definition append_checks (ss : surge_spec) (data_len pos : Z) : outcome werr (spec_ex * Z * Z) :=
  if as_u32 pos <? 4 then Panic                             (* `as u32 - 4` underflow *)
  else
    match ss_specx ss with
    | None => Panic
    | Some x =>
        if sx_bps x =? 0 then Panic
        else
          let num_samples := data_len / sx_bps x in
          if negb (num_samples * sx_bps x =? data_len)
          then Err (FormatError "data chunk length is not a multiple of sample size")
          else
            let b := bits_per_sample (sx_spec x) in
            if negb (((sx_bps x =? 1) && (b =? 8)) || ((sx_bps x =? 2) && (b =? 16))
                     || ((sx_bps x =? 3) && (b =? 24)) || ((sx_bps x =? 4) && (b =? 32)))
            then Err Unsupported
            else if channels (sx_spec x) =? 0 then Panic
            else if negb (num_samples mod channels (sx_spec x) =? 0)
            then Err (FormatError "invalid data chunk length")
            else Ok (x, data_len, as_u32 pos - 4)
    end.

(* write.rs 546-585 on a plain stream *)
Definition read_append (s : stream) : outcome werr (spec_ex * Z * Z) * stream :=
  match run (read_headers (stream_fuel s)) s with
  | (Err e, s') => (Err e, s')
  | (Panic, s') => (Panic, s')
  | (Ok (ss, data_len), s') => (append_checks ss data_len (spos s'), s')
  end.

(* write.rs 625-633, 653-663: the writer built from the append information *)
Definition append_writer (info : spec_ex * Z * Z) (s : stream) : wav_writer :=
  let '(x, data_len, off) := info in
  mk_writer (sx_spec x) (sx_bps x) s data_len false [] off.

(* write.rs 650-664 *)
Definition new_append (s : stream) : outcome werr wav_writer :=
  match read_append s with
  | (Err e, _) => Err e
  | (Panic, _) => Panic
  | (Ok (x, data_len, off), s') =>
      obind (seek_current data_len s') (fun s'' => Ok (append_writer (x, data_len, off) s''))
  end.

(* ------------------------------------------------------------------ *)
(** * std::io::BufReader over a file, as used by WavWriter::append (write.rs 611-634) *)

(* inner file; the filled part of the buffer not yet consumed; capacity *)
Record bufreader := mk_buf { b_inner : stream; b_rest : list Z; b_cap : nat }.

(* BufReader::read into a buffer of m bytes: bypass if the buffer is empty and m >= capacity,
   otherwise refill if empty and copy out *)
Definition buf_read (m : nat) (b : bufreader) : list Z * bufreader :=
  match b_rest b with
  | [] =>
      let want := if (b_cap b <=? m)%nat then m else b_cap b in
      let got := firstn want (avail (b_inner b)) in
      let inner := mk_stream (sdata (b_inner b)) (spos (b_inner b) + Z.of_nat (length got)) in
      if (b_cap b <=? m)%nat then (got, mk_buf inner [] (b_cap b))
      else (firstn m got, mk_buf inner (skipn m got) (b_cap b))
  | rest => (firstn m rest, mk_buf (b_inner b) (skipn m rest) (b_cap b))
  end.

(* read.rs 73-84 over a BufReader; fuel n suffices since each round makes progress *)
Fixpoint buf_read_into (fuel n : nat) (b : bufreader) : outcome werr (list Z) * bufreader :=
  match n with
  | O => (Ok [], b)
  | _ =>
      match fuel with
      | O => (Err Fuel, b)
      | S f =>
          match buf_read n b with
          | ([], b') => (Err IoError, b')
          | (got, b') =>
              match buf_read_into f (n - length got) b' with
              | (Ok more, b'') => (Ok (got ++ more), b'')
              | (o, b'') => (o, b'')
              end
          end
      end
  end.

(* read.rs 87-104 over a BufReader: rounds of at most 1024 bytes *)
Fixpoint buf_skip (fuel : nat) (n : Z) (b : bufreader) : outcome werr unit * bufreader :=
  if n <=? 0 then (Ok tt, b)
  else
    match fuel with
    | O => (Err Fuel, b)
    | S f =>
        match buf_read (Z.to_nat (Z.min n 1024)) b with
        | ([], b') => (Err IoError, b')
        | (got, b') => buf_skip f (n - Z.of_nat (length got)) b'
        end
    end.

Definition buf_fuel (b : bufreader) : nat := S (length (sdata (b_inner b)) + length (b_rest b)).

Fixpoint run_buf {A} (m : prog A) (b : bufreader) : outcome werr A * bufreader :=
  match m with
  | PRet a => (Ok a, b)
  | PErr e => (Err e, b)
  | PPanic => (Panic, b)
  | PRead n k => match buf_read_into n n b with
                 | (Ok bs, b') => run_buf (k bs) b'
                 | (Err e, b') => (Err e, b')
                 | (Panic, b') => (Panic, b')
                 end
  | PSkip n k => match buf_skip (buf_fuel b) n b with
                 | (Ok _, b') => run_buf k b'
                 | (Err e, b') => (Err e, b')
                 | (Panic, b') => (Panic, b')
                 end
  | PTry n k => run_buf k (snd (buf_read_into n n b))
  end.

(* BufReader::seek(SeekFrom::Current(off)): seeks the inner file by off minus the number of
   unconsumed buffered bytes, and discards the buffer *)
Definition buf_seek_current (off : Z) (b : bufreader) : outcome werr bufreader :=
  obind (seek_current (off - Z.of_nat (length (b_rest b))) (b_inner b)) (fun s =>
  Ok (mk_buf s [] (b_cap b))).

(* write.rs 611-634 WavWriter::append on a file with content [d]; [cap] is the BufReader capacity
   (8192 in std). The BufWriter wrapped around the file afterwards is transparent. *)
Definition append_file (cap : nat) (d : list Z) : outcome werr wav_writer :=
  let b0 := mk_buf (mk_stream d 0) [] cap in
  match run_buf (read_headers (S (length d))) b0 with
  | (Err e, _) => Err e
  | (Panic, _) => Panic
  | (Ok (ss, data_len), b1) =>
      obind (buf_seek_current 0 b1) (fun b2 =>
      obind (append_checks ss data_len (spos (b_inner b2))) (fun info =>
      obind (seek_current data_len (b_inner b2)) (fun s =>
      Ok (append_writer info s))))
  end.

(* ------------------------------------------------------------------ *)
(** * A client: a sequence of API calls on one writer (not code of the repository) *)

Inductive wop := OSample (t : sample_type) (v : Z) | OFlush.

(* the outcomes of the calls, and the writer afterwards; a panic ends the session *)
Fixpoint run_ops (ops : list wop) (w : wav_writer) : list (outcome werr unit) * wav_writer :=
  match ops with
  | [] => ([], w)
  | o :: rest =>
      let (r, w') := match o with OSample t v => write_sample t v w | OFlush => flush w end in
      match r with
      | Panic => ([Panic], w')
      | _ => let (rs, w'') := run_ops rest w' in (r :: rs, w'')
      end
  end.
