(* WavSpec.v - what a WAV file is, independently of the code in surge-hound.
   Only plain arithmetic on byte lists; nothing here is used by WavModel.v except the record types
   wav_spec / sample_type that name the API's arguments. *)
From Verif Require Import Base WavModel.

(* n-byte little-endian two's complement image of v *)
Fixpoint le (n : nat) (v : Z) : list Z :=
  match n with O => [] | S k => v mod 256 :: le k (v / 256) end.

(* the bytes of one stored sample: 8-bit samples are stored with an offset of 128, all others as
   little-endian two's complement (a float is its bit pattern) *)
Definition enc (bits v : Z) : list Z :=
  if bits =? 8 then [v + 128] else le (Z.to_nat (bits / 8)) v.
Definition enc_all (bits : Z) (vs : list Z) : list Z := flat_map (enc bits) vs.

(* the sample types that may be used with a sample format *)
Definition type_matches (t : sample_type) (f : sample_format) : bool :=
  match t, f with
  | TF32, Float => true
  | TI8, Int | TI16, Int | TI32, Int => true
  | _, _ => false
  end.
Definition type_width (t : sample_type) : Z :=
  match t with TI8 => 8 | TI16 => 16 | TI32 => 32 | TF32 => 32 end.

(* v is a value representable in the stored format *)
Definition fits (f : sample_format) (bits v : Z) : Prop :=
  match f with Int => in_signed bits v | Float => 0 <= v < 2 ^ 32 end.

Definition supported_bits (b : Z) : Prop := b = 8 \/ b = 16 \/ b = 24 \/ b = 32.

(* the machine ranges of the fields of a WavSpec *)
Definition spec_in_range (sp : wav_spec) : Prop :=
  0 <= channels sp <= 65535 /\ 0 <= sample_rate sp <= 4294967295 /\ 0 <= bits_per_sample sp <= 65535.

(* specs that have a WAV representation the library supports *)
Definition valid_spec (sp : wav_spec) : Prop :=
  1 <= channels sp <= 32 /\ 1 <= sample_rate sp /\ supported_bits (bits_per_sample sp) /\
  (sample_fmt sp = Float -> bits_per_sample sp = 32) /\
  sample_rate sp * (bits_per_sample sp / 8) * channels sp < 2 ^ 32.

(* The canonical file image. *)
Definition ascii_RIFF := [82; 73; 70; 70].
Definition ascii_WAVE := [87; 65; 86; 69].
Definition ascii_fmt_ := [102; 109; 116; 32].
Definition ascii_data := [100; 97; 116; 97].
(* GUID xxxxxxxx-0000-0010-8000-00aa00389b71 in file order *)
Definition ks_guid (first : Z) := le 4 first ++ [0; 0; 0x10; 0; 0x80; 0; 0; 0xaa; 0; 0x38; 0x9b; 0x71].

Definition block_align (sp : wav_spec) : Z := channels sp * (bits_per_sample sp / 8).
(* fields common to all fmt chunks *)
Definition fmt_common (sp : wav_spec) : list Z :=
  le 2 (channels sp) ++ le 4 (sample_rate sp) ++ le 4 (sample_rate sp * block_align sp)
  ++ le 2 (block_align sp) ++ le 2 (bits_per_sample sp).
(* basic PCM for at most 2 channels of at most 16 bits; WAVEFORMATEXTENSIBLE otherwise *)
Definition wants_extensible (sp : wav_spec) : bool :=
  (2 <? channels sp) || (16 <? bits_per_sample sp).
Definition fmt_body (sp : wav_spec) : list Z :=
  if wants_extensible sp then
    le 2 0xfffe ++ fmt_common sp ++ le 2 22 ++ le 2 (bits_per_sample sp)
    ++ le 4 (2 ^ channels sp - 1)
    ++ ks_guid (match sample_fmt sp with Int => 1 | Float => 3 end)
  else le 2 1 ++ fmt_common sp.

(* a RIFF chunk: 4-byte tag, 32-bit length, payload *)
Definition chunk (tag payload : list Z) : list Z := tag ++ le 4 (Z.of_nat (length payload)) ++ payload.

(* the complete file holding the samples vs *)
Definition wav_file (sp : wav_spec) (vs : list Z) : list Z :=
  let body := ascii_WAVE ++ chunk ascii_fmt_ (fmt_body sp)
              ++ chunk ascii_data (enc_all (bits_per_sample sp) vs) in
  chunk ascii_RIFF body.

(* frames are complete *)
Definition whole_frames (sp : wav_spec) (n : nat) : Prop := Z.of_nat n mod channels sp = 0.
(* the file fits the 32-bit size fields *)
Definition fits_wav (sp : wav_spec) (n : nat) : Prop :=
  Z.of_nat n * (bits_per_sample sp / 8) + 60 < 2 ^ 32.

(* bytes per stored sample *)
Definition bps_of (sp : wav_spec) : Z := bits_per_sample sp / 8.

(* a sample of type t and value v may be written to / read from a file with spec sp *)
Definition sample_ok (sp : wav_spec) (t : sample_type) (v : Z) : Prop :=
  type_okb t v = true /\ type_matches t (sample_fmt sp) = true
  /\ fits (sample_fmt sp) (bits_per_sample sp) v.

(* the samples a sequence of calls writes, and when all its calls are admissible: every sample fits,
   and flush is only called at frame boundaries ([n] samples were written before) *)
Fixpoint ops_samples (ops : list wop) : list Z :=
  match ops with
  | [] => []
  | OSample _ v :: r => v :: ops_samples r
  | OFlush :: r => ops_samples r
  end.
Fixpoint ops_ok (sp : wav_spec) (n : nat) (ops : list wop) : Prop :=
  match ops with
  | [] => True
  | OSample t v :: r => sample_ok sp t v /\ ops_ok sp (S n) r
  | OFlush :: r => whole_frames sp n /\ ops_ok sp n r
  end.

(* samples of the file may be read as type t *)
Definition can_read (sp : wav_spec) (t : sample_type) : Prop :=
  type_matches t (sample_fmt sp) = true /\ bits_per_sample sp <= type_width t.

Definition samples_fit (sp : wav_spec) (vs : list Z) : Prop :=
  Forall (fits (sample_fmt sp) (bits_per_sample sp)) vs.

(* a list of bytes *)
Definition byte_list (l : list Z) : Prop := Forall (fun x => 0 <= x < 256) l.

(* the position of a rewound stream *)
Definition rewound (s : stream) : stream := mk_stream (sdata s) 0.

(* A chunk tag the reader gives no meaning to *)
Definition known_tags : list (list Z) :=
  [ascii_fmt_; ascii_data; [102; 97; 99; 116] (* fact *); [99; 108; 109; 32] (* clm  *);
   [117; 104; 87; 84] (* uhWT *); [115; 114; 103; 101] (* srge *); [115; 114; 103; 111] (* srgo *);
   [99; 117; 101; 32] (* cue  *); [115; 109; 112; 108] (* smpl *)].
Definition unknown_chunk (c : list Z * list Z) : Prop :=
  length (fst c) = 4%nat /\ ~ In (fst c) known_tags /\ Z.of_nat (length (snd c)) < 2 ^ 32.
Definition chunks (cs : list (list Z * list Z)) : list Z := flat_map (fun c => chunk (fst c) (snd c)) cs.

(* a RIFF/WAVE file with extra chunks before and after the fmt chunk, and trailing bytes *)
Definition wav_with (riff : Z) (cs1 : list (list Z * list Z)) (sp : wav_spec)
    (cs2 : list (list Z * list Z)) (vs : list Z) (trail : list Z) : list Z :=
  ascii_RIFF ++ le 4 riff ++ ascii_WAVE ++ chunks cs1 ++ chunk ascii_fmt_ (fmt_body sp) ++ chunks cs2
  ++ chunk ascii_data (enc_all (bits_per_sample sp) vs) ++ trail.

(* what an iterator positioned at sample k of vs must deliver *)
Definition items_from (k : nat) (vs : list Z) (n : nat) : list (option (outcome werr Z)) :=
  map (fun i => option_map (fun v => Ok v) (nth_error vs i)) (seq k n).
