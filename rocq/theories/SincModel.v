(* SincModel.v - the interpolation tables of surge-tables/src/sinc.rs and the window functions behind them, over exact reals:
   f64 and f32 rounding, and the f32 representation of the decimal constants, are not modelled. *)
From Coq Require Import Reals Lra.
From Verif Require Import Base Util.
Local Open Scope Z_scope.

(* surge-constants: FIR_IPOL_N, FIR_IPOL_I16_N, FIR_IPOL_M *)
Definition SN : Z := 12.
Definition SN16 : Z := 8.
Definition SM : Z := 256.

(* surge-math/src/window.rs:11-19 *)
Definition blackman (i : R) (n : Z) : R := (42 / 100 - 1 / 2 * cos (2 * PI * i / (IZR n - 1)) + 8 / 100 * cos (4 * PI * i / (IZR n - 1)))%R.
(* window.rs:21-30 *)
Definition symmetric_blackman (i : R) (n : Z) : R :=
  let i := (i - IZR n / 2)%R in (42 / 100 - 1 / 2 * cos (2 * PI * i / IZR n) + 8 / 100 * cos (4 * PI * i / IZR n))%R.
(* window.rs:32-41 *)
Definition blackman_harris (i : R) (n : Z) : R :=
  (35875 / 100000 - 48829 / 100000 * cos (2 * PI * i / (IZR n - 1)) + 14128 / 100000 * cos (4 * PI * i / (IZR n - 1)) - 1168 / 100000 * cos (6 * PI * i / (IZR n - 1)))%R.
(* window.rs:43-53: the second term divides by n - 1 *)
Definition symmetric_blackman_harris (i : R) (n : Z) : R :=
  let i := (i - IZR n / 2)%R in
  (35875 / 100000 - 48829 / 100000 * cos (2 * PI * i / IZR n) + 14128 / 100000 * cos (4 * PI * i / (IZR n - 1)) - 1168 / 100000 * cos (6 * PI * i / IZR n))%R.
(* window.rs:55-67 *)
Definition hamming (i : R) (n : Z) : R := if Rle_dec (IZR n) i then 0%R else (54 / 100 - 46 / 100 * cos (2 * PI * i / (IZR n - 1)))%R.
(* window.rs:69-81 *)
Definition hanning (i : R) (n : Z) : R := if Rle_dec (IZR n) i then 0%R else (1 / 2 * (1 - cos (2 * PI * i / (IZR n - 1))))%R.
(* surge-math/src/sinc.rs:3-10 *)
Definition sincf (x : R) : R := if Req_EM_T x 0 then 1%R else (sin (PI * x) / (PI * x))%R.

(* sinc.rs:30-36 get_table_t, 38-42 windowed_sinc *)
Definition table_t (i j rows cols : Z) : R := (- IZR i + IZR cols / 2 + IZR j / IZR rows - 1)%R.
Definition windowed_sinc (t cutoff : R) (len : Z) : R := (symmetric_blackman t len * cutoff * sincf (cutoff * t))%R.

(* a fixed-size array: an index outside is a panic *)
Definition arr (T : Type) : Type := Z -> T.
Definition aset {T} (size : Z) (a : arr T) (k : Z) (v : T) : res (arr T) := if (0 <=? k) && (k <? size) then Ok (fun x => if x =? k then v else a x) else Panic.
Definition aget {T} (size : Z) (a : arr T) (k : Z) : res T := if (0 <=? k) && (k <? size) then Ok (a k) else Panic.
Definition upto (n : Z) : list Z := map Z.of_nat (seq 0 (Z.to_nat n)).
(* `x as f32 as i16`: truncation towards zero, saturating *)
Definition as_i16R (x : R) : Z := Z.max (-32768) (Z.min 32767 (if Rle_dec 0 x then Int_part x else - Int_part (- x)%R)).

Record sinctabs := { s_table : arr R; s_1x : arr R; s_i16 : arr Z }.
Definition SIZE1 : Z := (SM + 1) * SN.
Definition SIZE16 : Z := (SM + 1) * SN16.
Definition SIZE : Z := (SM + 1) * SN * 2.
(* sinc.rs:17-25 *)
Definition sinc_default : sinctabs := {| s_table := fun _ => 0%R; s_1x := fun _ => 0%R; s_i16 := fun _ => 0 |}.
(* sinc.rs:47-57 *)
Definition sinc_step1 (j : Z) (s : sinctabs) (i : Z) : res sinctabs :=
  let t := table_t i j SM SN in
  obind (aset SIZE (s_table s) (j * SN * 2 + i) (windowed_sinc t (455 / 1000) SN)) (fun a =>
  obind (aset SIZE1 (s_1x s) (j * SN + i) (windowed_sinc t (85 / 100) SN)) (fun b => Ok {| s_table := a; s_1x := b; s_i16 := s_i16 s |})).
(* 59-66 *)
Definition sinc_step2 (j : Z) (s : sinctabs) (i : Z) : res sinctabs :=
  obind (aget SIZE (s_table s) ((j + 1) * SN * 2 + i)) (fun x => obind (aget SIZE (s_table s) (j * SN * 2 + i)) (fun y =>
  obind (aset SIZE (s_table s) (j * SN * 2 + SN + i) ((x - y) / 65536)%R) (fun a => Ok {| s_table := a; s_1x := s_1x s; s_i16 := s_i16 s |}))).
(* 68-75 *)
Definition sinc_step3 (j : Z) (s : sinctabs) (i : Z) : res sinctabs :=
  let v := windowed_sinc (table_t i j SM SN16) 1 SN16 in
  obind (aset SIZE16 (s_i16 s) (j * SN16 + i) (as_i16R (v + 16384)%R)) (fun c => Ok {| s_table := s_table s; s_1x := s_1x s; s_i16 := c |}).
Definition sinc_init (s : sinctabs) : res sinctabs :=
  obind (foldM (fun s j => foldM (sinc_step1 j) (upto SN) s) (upto (SM + 1)) s) (fun s =>
  obind (foldM (fun s j => foldM (sinc_step2 j) (upto SN) s) (upto SM) s) (fun s =>
  foldM (fun s j => foldM (sinc_step3 j) (upto SN16) s) (upto (SM + 1)) s)).
