(** Further theorems about C44, C48, C50, C87, C185, C187, C193, C196, C198, C199, C204, C205, C207, C209: facts that wrong programs tried
    against the earlier theorems (seeded/LOG.jsonl) showed to be missing. *)
From Coq Require Import String.
From Coq Require Import Reals Lra Psatz Lia.
From Verif Require Import Base WavModel WavSpec WavClient WavBytes WavHeader WavRW WavMore WavMore2 WavMore3 WavMore4 WtModel WtProps WtLoadProps.
Local Open Scope Z_scope.

(** * C50: an eight-bit mono file is refused with the unsupported-format error, not a crash *)
Theorem C50_eight_bit_refused : forall fm hf file sp ss vs, opens file sp ss vs -> sample_fmt sp = Int -> bits_per_sample sp = 8 -> channels sp = 1 ->
  samples_fit sp vs -> Z.of_nat (length vs) < 2 ^ 31 -> undeclared ss -> ss_srgo ss = None -> wt_try_from fm hf file = Err (UnsupportedFormat 8 1).
Proof.
  intros fm hf file sp ss vs (r & hdr & trail & RN & G & SS) HF HB CH SF LN U SO. unfold wt_try_from. rewrite RN.
  assert (Hb : supported_bits (bits_per_sample sp)) by (unfold supported_bits; rewrite HB; lia).
  assert (Hf : sample_fmt sp = Float -> bits_per_sample sp = 32) by (rewrite HF; discriminate).
  assert (Hc : can_read sp (ty_of sp)) by (unfold can_read, ty_of; rewrite HF, HB; cbn; repeat split; try lia; try reflexivity; discriminate).
  pose proof G as [Hx _ Hn Hr _].
  destruct (take_items_good r sp hdr vs trail 0 (length vs) _ G Hb Hf Hc SF ltac:(lia)) as (r1 & E1 & G1). cbn [skipn] in E1. rewrite firstn_all in E1.
  destruct (r_seek_good r1 sp hdr vs trail _ 0 G1 Hb ltac:(lia) ltac:(lia) ltac:(lia) ltac:(lia)) as (r2 & E2 & _).
  assert (NR : r_num r - r_read r = Z.of_nat (length vs)) by lia.
  unfold wt_from_reader. assert (RS : r_spec r = sp) by (unfold r_spec; now rewrite Hx). rewrite RS. cbv zeta. change (match sample_fmt sp with Float => TF32 | Int => TI16 end) with (ty_of sp).
  rewrite NR, Nat2Z.id, E1, no_panic_ok, E2, SS. destruct (plan_window ss (Z.of_nat (length vs)) (or_introl U) SO ltac:(lia)) as (w & _ & EP). rewrite EP. cbn [obind]. rewrite CH, HF, HB. reflexivity.
Qed.
Print Assumptions C50_eight_bit_refused.

(** * C48: a table with more cells than the platform can address is not made *)
Theorem C48_too_many_cells : forall {T} (zero : T) smul (hr : Z -> T) d samples, 2 ^ 63 <= d_levels d * d_tables d * d_len d -> wt_new zero smul hr d samples = Panic.
Proof. intros T zero smul hr d samples H. unfold wt_new. destruct (d_tables d <? 3); [reflexivity|]. destruct (Z.ltb_spec isize_max (d_levels d * d_tables d * d_len d)) as [|X]; [reflexivity|]. unfold isize_max in X. lia. Qed.
Print Assumptions C48_too_many_cells.
Definition sp_mono8 : wav_spec := {| channels := 1; sample_rate := 44100; bits_per_sample := 8; sample_fmt := Int |}.
Example C50_eight_bit_instance : forall fm hf vs, length vs = 1024%nat -> Forall (in_signed 8) vs -> wt_try_from fm hf (wav_file sp_mono8 vs ++ []) = Err (UnsupportedFormat 8 1).
Proof.
  intros fm hf vs L F. assert (V : valid_spec sp_mono8) by (vm_compute; intuition congruence). destruct (plain_opens sp_mono8 vs [] V) as (O & U & SO).
  - unfold fits_wav. rewrite L. cbn. lia. - unfold whole_frames. apply Z.mod_1_r.
  - eapply (C50_eight_bit_refused fm hf _ _ _ vs O); auto. rewrite L. cbn. lia.
Qed.
