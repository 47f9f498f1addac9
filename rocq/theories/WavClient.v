(* WavClient.v - specification-side vocabulary for the WAV theorems: clients that make sequences of
   API calls, and plain descriptions of files. No proofs; nothing here is used by WavModel.v. *)
From Coq Require Import String.
From Verif Require Import Base WavModel WavSpec.

Definition op_fits (b : Z) (o : wop) : bool :=
  match o with OSample _ v => in_signedb b v | OFlush => true end.
Definition op_int (o : wop) : Prop :=
  match o with OSample t v => type_okb t v = true /\ type_matches t Int = true | OFlush => True end.


(* a client filling the block writer: all writes, then flush *)
Fixpoint sw16_run (tvs : list (sample_type * Z)) (sw : sample_writer16) : outcome werr sample_writer16 :=
  match tvs with
  | [] => Ok sw
  | (t, v) :: r => obind (sw16_write t v sw) (sw16_run r)
  end.
Definition block_write (w : wav_writer) (n : Z) (garbage : list Z) (tvs : list (sample_type * Z))
  : outcome werr wav_writer :=
  obind (get_i16_writer w n garbage) (fun sw => obind (sw16_run tvs sw) sw16_flush).


Definition int_typed (tv : sample_type * Z) : Prop := fst tv <> TF32 /\ type_okb (fst tv) (snd tv) = true.


Definition low16 (tvs : list (sample_type * Z)) : list Z := map (fun tv => as_i16 (snd tv)) tvs.


Definition in_stream (s : stream) : Prop := 0 <= spos s <= Z.of_nat (length (sdata s)).


(* everything except the scratch buffer *)
Definition same_writer (a b : wav_writer) : Prop := set_buf a [] = set_buf b [].


(** ** Clients (sequences of API calls; not code of the repository) *)

(* open for append, make the calls, finalize; the bytes of the file afterwards *)
Definition append_session (d : list Z) (ops : list wop) : option (list Z) :=
  match new_append (mk_stream d 0) with
  | Ok w => match finalize (snd (run_ops ops w)) with (Ok _, s) => Some (sdata s) | _ => None end
  | _ => None
  end.
Definition create_session (sp : wav_spec) (ops : list wop) : option (list Z) :=
  match writer_new (mk_stream [] 0) sp with
  | (Ok w, _) => match finalize (snd (run_ops ops w)) with (Ok _, s) => Some (sdata s) | _ => None end
  | _ => None
  end.
Definition append_sessions (d : option (list Z)) (ss : list (list wop)) : option (list Z) :=
  fold_left (fun o ops => match o with Some d => append_session d ops | None => None end) ss d.


(* each session writes whole frames *)
Fixpoint sessions_ok (sp : wav_spec) (n : nat) (ss : list (list wop)) : Prop :=
  match ss with
  | [] => True
  | ops :: r => ops_ok sp n ops /\ whole_frames sp (length (ops_samples ops))
                /\ sessions_ok sp (n + length (ops_samples ops)) r
  end.
Definition sessions_samples (ss : list (list wop)) : list Z := flat_map ops_samples ss.


Inductive rop := RNext | RSeek (time : Z).
(* the observations: the item for a next call, the success for a seek *)
Inductive robs := ObsItem (o : option (outcome werr Z)) | ObsSeek (o : outcome werr unit).
Fixpoint run_rops (t : sample_type) (ops : list rop) (r : wav_reader) : list robs :=
  match ops with
  | [] => []
  | RNext :: rest => let (o, r') := iter_next t r in ObsItem o :: run_rops t rest r'
  | RSeek time :: rest =>
      match r_seek time r with
      | Ok r' => ObsSeek (Ok tt) :: run_rops t rest r'
      | Err e => [ObsSeek (Err e)]
      | Panic => [ObsSeek Panic]
      end
  end.
(* the specification: a cursor k into the list of samples; c is the number of channels *)
Fixpoint cursor_obs (c : Z) (vs : list Z) (k : nat) (ops : list rop) : list robs :=
  match ops with
  | [] => []
  | RNext :: rest =>
      match nth_error vs k with
      | Some v => ObsItem (Some (Ok v)) :: cursor_obs c vs (S k) rest
      | None => ObsItem None :: cursor_obs c vs k rest
      end
  | RSeek time :: rest => ObsSeek (Ok tt) :: cursor_obs c vs (Z.to_nat (time * c)) rest
  end.
Definition rop_ok (c : Z) (n : nat) (o : rop) : Prop :=
  match o with RNext => True | RSeek t => 0 <= t /\ t * c <= Z.of_nat n end.


Definition slice4 (d : list Z) (p : nat) : list Z := firstn 4 (skipn p d).
Definition surge_tags : list (list Z) :=
  [[99; 108; 109; 32] (* clm  *); [115; 114; 103; 101] (* srge *); [115; 114; 103; 111] (* srgo *);
   [99; 117; 101; 32] (* cue  *); [115; 109; 112; 108] (* smpl *)].
Definition no_surge_tags (d : list Z) : Prop := forall p, ~ In (slice4 d p) surge_tags.


Fixpoint deltas (prev : Z) (l : list Z) : list Z :=
  match l with [] => [] | x :: r => (x - prev) :: deltas x r end.

Definition evenly (ds : list Z) : Prop := forall a b, In a ds -> In b ds -> a = b.


(* a 24-byte cue record whose last field is the position *)
Definition cue_record (junk : list Z) (start : Z) : list Z := junk ++ le 4 start.
Definition cue_payload (recs : list (list Z * Z)) : list Z :=
  le 4 (Z.of_nat (length recs)) ++ flat_map (fun r => cue_record (fst r) (snd r)) recs.

(* a file with one more chunk between fmt and data *)
Definition wav_mid (riff : Z) (sp : wav_spec) (mid : list Z) (vs : list Z) : list Z :=
  ascii_RIFF ++ le 4 riff ++ ascii_WAVE ++ chunk ascii_fmt_ (fmt_body sp) ++ mid
  ++ chunk ascii_data (enc_all (bits_per_sample sp) vs).
Definition ascii_cue_ := [99; 117; 101; 32].
Definition ascii_uhWT := [117; 104; 87; 84].
Definition ascii_fact := [102; 97; 99; 116].

(* The RIFF rule: a chunk of odd length is followed by one padding byte *)
Definition padded_chunk (tag payload : list Z) : list Z :=
  chunk tag payload ++ (if Nat.odd (length payload) then [0] else []).
