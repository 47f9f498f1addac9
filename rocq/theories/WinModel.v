(* WinModel.v - the window oscillator of surgeosc-window. No proofs here. Integers as in the debug profile (overflow panics), reals without rounding.
   Modelled: the number of sub oscillators (init.rs), table, window and mipmap choice (access.rs, subosc.rs), the increment of a note
   (process.rs), the window and wave positions of one sample (process_block.rs), where a wave sample is read from (access.rs) and the
   conversion at the end of a block (process.rs:94-138).
   Not modelled: the FM path, the products of sinc taps, random start phases. *)
From Coq Require Import Reals ZArith List Lia.
From Verif Require Import Base Util MathModel.
Import ListNotations.
Local Open Scope Z_scope.

Definition lim_i (x lo hi : Z) : Z := Z.max lo (Z.min x hi).
(* process_cfg.rs:1, init.rs:9-12 *)
Definition NUM_SUBOSCS : Z := 2.
Definition win_subs (uni_count : Z) : Z := lim_i uni_count 1 (NUM_SUBOSCS - 1).
(* checked u32 *)
Definition u32c (z : Z) : res Z := if (0 <=? z) && (z <? 2 ^ 32) then Ok z else Panic.

(** ** Choices *)
(* access.rs:5-14; the cast to i32 is taken to be in range *)
Definition win_table (n : Z) (morph : R) : Z := lim_i (truncR (IZR n * morph)) 0 (n - 1).
(* access.rs:16-24: ((size as u32) << 16) - 1, for the wave and for the window *)
Definition win_mask (size : Z) : res Z := u32c (as_u32 (Z.shiftl size 16) - 1).
(* access.rs:26-29 *)
Definition win_window (w : Z) : Z := lim_i w 0 8.
(* subosc.rs:31-64: the mipmap level for a word `b` (3 ratio for the window, 3 ratio formant >> 16 for the wave) and a table of `size` cells *)
Definition win_mip (b size : Z) : res Z :=
  if bitscan_reverse size =? 0 then Panic (* usize underflow *) else Ok (lim_i (bitscan_reverse b - 17) 0 (bitscan_reverse size - 1)).
(* base.rs: a table has `levels` mipmap levels of `tables` tables; subosc.rs:74-88: index_axis panics out of range *)
Definition win_address (levels tables mip id : Z) : res (Z * Z) :=
  if (0 <=? mip) && (mip <? levels) && (0 <=? id) && (id <? tables) then Ok (mip, id) else Panic.
(* subosc.rs:52-88 for the window: the level and table chosen for an increment *)
Definition win_window_address (levels tables size ratio w : Z) : res (Z * Z) :=
  obind (u32c (3 * ratio)) (fun b => obind (win_mip b size) (fun mip => win_address levels tables mip (win_window w))).

(** ** Increments *)
(* process.rs:46-51; f = n2p of the note, size = the window's length; the cast is taken to be in range *)
Definition win_ratio (f sr_inv : R) (size : Z) : Z := truncR (8.1757989150 * 32768 * f * IZR size * sr_inv)%R.
(* formant.rs:5-24; t = n2p_tuningctr(formant); the po2 sizes are those of the window and the wave table *)
Definition win_formant_mul (t : R) (win_po2 wave_po2 : Z) : res Z :=
  if win_po2 <? wave_po2 then Panic (* usize underflow of t0 - t1 *)
  else Ok (Z.max (Z.shiftr (truncR (65536 * t)%R) (win_po2 - wave_po2)) 1).

(** ** One sample *)
(* pos, formant_mul, table of a sub oscillator *)
Record win_sub := { s_pos : Z; s_fmul : Z; s_table : Z }.
(* process_block.rs:16-36: the new state; fmul and table are the block's *)
Definition win_step (ratio fmul table mask_win : Z) (s : win_sub) : res win_sub :=
  obind (u32c (s_pos s + ratio)) (fun pos =>
  if Z.land pos (Z.lxor mask_win (2 ^ 32 - 1)) =? 0 then Ok {| s_pos := pos; s_fmul := s_fmul s; s_table := s_table s |}
  else Ok {| s_pos := Z.land pos mask_win; s_fmul := fmul; s_table := table |}).
(* process_block.rs:38-44: cell and sub-cell position of the window and of the wave *)
Definition win_cell (pos mip : Z) : Z * Z := (Z.shiftr pos (16 + mip), Z.land (Z.shiftr pos (8 + mip)) 255).
Definition win_fpos (mask : Z) (s : win_sub) : Z := Z.land (big_mul_r16 (s_fmul s) (s_pos s)) mask.
(* subosc.rs:103-109: the positions of n samples *)
Fixpoint win_run (n : nat) (ratio fmul table mask_win : Z) (s : win_sub) : res (win_sub * list win_sub) :=
  match n with
  | O => Ok (s, [])
  | Datatypes.S n => obind (win_step ratio fmul table mask_win s) (fun s' =>
                     obind (win_run n ratio fmul table mask_win s') (fun r => Ok (fst r, s' :: snd r)))
  end.
(* init.rs:29: the start of a single sub oscillator *)
Definition win_start (size : Z) : win_sub := {| s_pos := as_u32 (Z.shiftl size 16); s_fmul := 0; s_table := 0 |}.
(* access.rs:40-42: `*wave_adr as *const __m128i` - the first SAMPLE of the table, sign extended, is the base address; 16 bytes per step *)
Definition win_read_address (table_address first_sample m_pos : Z) : Z := first_sample + 16 * m_pos.

(** ** The end of a block *)
(* process.rs:98-136: each round reads the four lanes at the START of the buffer, converts them and stores them at i .. i+3;
   conv is the conversion of one lane (its bits as an integer, to float, scaled) *)
Section Convert.
Context {T : Type} (conv : T -> T).
Fixpoint store4 (l : list T) (i : nat) (x : list T) : list T :=
  match i, l, x with
  | O, _ :: l, y :: x => y :: store4 l O x
  | O, l, [] => l
  | Datatypes.S i, a :: l, x => a :: store4 l i x
  | _, [], _ => []
  end.
Definition win_conv_round (l : list T) (i : nat) : list T := store4 l i (map conv (firstn 4 l)).
Definition win_convert (l : list T) : list T := fold_left win_conv_round (map (fun k => (4 * k)%nat) (seq 0 16)) l.
End Convert.
