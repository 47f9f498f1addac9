(* LagModel.v - the parameter smoothers of surge-lag and surge-lipol (scalar ones).
   The Rust types are generic in `T: Num + From<f32>`; here T is the real numbers, i.e. rounding is not modelled. *)
From Coq Require Import Reals.
From Verif Require Import Base.
Local Open Scope R_scope.

(* surge-lag/src/lag.rs:18-41 (get_target_value: 138-140 is the projection l_target) *)
Record lag := { l_v : R; l_target : R; l_first : bool; l_lp : R; l_lpinv : R }.

(* lag.rs:51-62 Default *)
Definition lag_default : lag := {| l_v := 0; l_target := 0; l_first := true; l_lp := 4 / 1000; l_lpinv := 1 - 4 / 1000 |}.
(* lag.rs:72-77 Lag::new: only lp is replaced, the rest comes from Default *)
Definition lag_new (lp : R) : lag :=
  {| l_v := 0; l_target := 0; l_first := true; l_lp := lp; l_lpinv := l_lpinv lag_default |}.
(* lag.rs:82-85 *)
Definition lag_set_rate (s : lag) (lp : R) : lag :=
  {| l_v := l_v s; l_target := l_target s; l_first := l_first s; l_lp := lp; l_lpinv := 1 - lp |}.
(* lag.rs:93-101 (FIRST_RUN_CHECKS is the constant true, lag.rs:6) *)
Definition lag_new_value (s : lag) (x : R) : lag :=
  if l_first s
  then {| l_v := x; l_target := x; l_first := false; l_lp := l_lp s; l_lpinv := l_lpinv s |}
  else {| l_v := l_v s; l_target := x; l_first := l_first s; l_lp := l_lp s; l_lpinv := l_lpinv s |}.
(* lag.rs:110-118 *)
Definition lag_start_value (s : lag) (x : R) : lag :=
  {| l_v := x; l_target := x; l_first := false; l_lp := l_lp s; l_lpinv := l_lpinv s |}.
(* lag.rs:123-125 *)
Definition lag_instantize (s : lag) : lag :=
  {| l_v := l_target s; l_target := l_target s; l_first := l_first s; l_lp := l_lp s; l_lpinv := l_lpinv s |}.
(* lag.rs:131-134 *)
Definition lag_process (s : lag) : lag :=
  {| l_v := l_v s * l_lpinv s + l_target s * l_lp s; l_target := l_target s; l_first := l_first s; l_lp := l_lp s; l_lpinv := l_lpinv s |}.

(* surge-lag/src/vlag.rs:58-155: v[0] and target_v[0] (element 1 is never read); constants VLAG_D_LP, VLAG_D_LPINV *)
Record vlag := { vl_v : R; vl_target : R }.
(* vlag.rs:83-88, 104-109 *)
Definition vlag_new : vlag := {| vl_v := 0; vl_target := 0 |}.
Definition VLAG_LP : R := 4 / 1000.
Definition VLAG_LPINV : R := 1 - VLAG_LP.
(* vlag.rs:127-129 *)
Definition vlag_process (s : vlag) : vlag := {| vl_v := vl_v s * VLAG_LPINV + vl_target s * VLAG_LP; vl_target := vl_target s |}.
(* vlag.rs:135-137 *)
Definition vlag_new_value (s : vlag) (f : R) : vlag := {| vl_v := vl_v s; vl_target := f |}.
(* vlag.rs:143-145 *)
Definition vlag_instantize (s : vlag) : vlag := {| vl_v := vl_target s; vl_target := vl_target s |}.
(* vlag.rs:151-154 *)
Definition vlag_start_value (s : vlag) (f : R) : vlag := {| vl_v := f; vl_target := f |}.

(* surge-lipol/src/lipol.rs:13-39 *)
Record lipol := { p_v : R; p_new : R; p_dv : R; p_bsinv : R; p_first : bool }.
(* lipol.rs:66-68 set_blocksize: 1.0 / n as f32 *)
Definition lipol_set_blocksize (s : lipol) (n : nat) : lipol :=
  {| p_v := p_v s; p_new := p_new s; p_dv := p_dv s; p_bsinv := 1 / INR n; p_first := p_first s |}.
(* lipol.rs:52-62 new *)
Definition lipol_new (n : nat) : lipol :=
  lipol_set_blocksize {| p_v := 0; p_new := 0; p_dv := 0; p_bsinv := 0; p_first := true |} n.
(* lipol.rs:74-77 *)
Definition lipol_instantize (s : lipol) : lipol :=
  {| p_v := p_new s; p_new := p_new s; p_dv := 0; p_bsinv := p_bsinv s; p_first := p_first s |}.
(* lipol.rs:82-84 *)
Definition lipol_process (s : lipol) : lipol :=
  {| p_v := p_v s + p_dv s; p_new := p_new s; p_dv := p_dv s; p_bsinv := p_bsinv s; p_first := p_first s |}.
(* lipol.rs:95-104 *)
Definition lipol_reset (s : lipol) (n : nat) : lipol :=
  lipol_set_blocksize {| p_v := 0; p_new := 0; p_dv := 0; p_bsinv := 0; p_first := true |} n.
(* lipol.rs:109-122 *)
Definition lipol_new_value (s : lipol) (x : R) : lipol :=
  let v := if p_first s then x else p_new s in
  {| p_v := v; p_new := x; p_dv := (x - v) * p_bsinv s; p_bsinv := p_bsinv s; p_first := false |}.
