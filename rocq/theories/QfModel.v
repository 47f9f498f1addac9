(** The quad filter chain: crate surge-qfunit (the eight filter-block configurations, processing four
    voices at once) and the part of crate surge-voice that loads a voice's gain, mix, feedback and pan
    ramps into one lane of the chain and reads the lane back.

    Conventions.
    - A __m128 is an abstract type [V] with lane-wise operations (record [vops]); it is instantiated
      with four-lane quads ([ops4]) and with a single lane ([ops1]), in both cases over exact reals.
    - The filter functions (fu1ptr, fu2ptr) are arbitrary functions on an arbitrary per-unit state [U]
      (coefficients, registers, delay buffer, comb position); the waveshaper is an arbitrary function of
      (input, drive): its WaveshaperState holds only the read-only tables
      (surge-qfunit/src/waveshaper.rs:62-66).
    - Option::unwrap on None is [Panic]; so is a failed assert! in debug builds ([dbg] = true).
    Definitions only; theorems in QfProps.v. *)
From Coq Require Import Reals.
From Verif Require Import Base Util F32 BlockModel.
Local Open Scope Z_scope.

(** surge-constants/src/lib.rs BLOCK_SIZE_OS *)
Definition qf_block : nat := 64.

Record vops (V T M : Type) := {
  vo_add : V -> V -> V; vo_sub : V -> V -> V; vo_mul : V -> V -> V;
  vo_one : V; vo_half : V;          (* _mm_set1_ps(1.0), _mm_set1_ps(0.5) *)
  vo_clip : V -> V;                 (* softclip_ps *)
  vo_and : M -> V -> V;             (* _mm_and_ps with the activity mask *)
  vo_sum : V -> T;                  (* sum_ps_to_ss, surge-math/src/utility.rs:26-31 *)
  vo_sadd : T -> T -> T;            (* _mm_add_ss *)
  vo_reasonable : T -> bool         (* x < 32.0 && x > -32.0 *)
}.
Arguments vo_add {V T M}. Arguments vo_sub {V T M}. Arguments vo_mul {V T M}. Arguments vo_one {V T M}. Arguments vo_half {V T M}.
Arguments vo_clip {V T M}. Arguments vo_and {V T M}. Arguments vo_sum {V T M}. Arguments vo_sadd {V T M}. Arguments vo_reasonable {V T M}.

Section Chain.
Context {V T M U : Type} (OP : vops V T M) (v0 : V) (t0 : T).
Notation "x ⊕ y" := (vo_add OP x y) (at level 50, left associativity).
Notation "x ⊖ y" := (vo_sub OP x y) (at level 50, left associativity).
Notation "x ⊗ y" := (vo_mul OP x y) (at level 40, left associativity).

(** surge-qfunit/src/qf_chain_state.rs:24-65; the mask is unit_state[0].active
    (surge-qfunit/src/qf_unit_state.rs:17-18), kept beside the unit states *)
Record chain := mk_chain {
  c_u0 : U; c_u1 : U; c_u2 : U; c_u3 : U; c_active : M;
  c_gain : V; c_feedback : V; c_mix1 : V; c_mix2 : V; c_drive : V;
  c_dgain : V; c_dfeedback : V; c_dmix1 : V; c_dmix2 : V; c_ddrive : V;
  c_wslpf : V; c_fbl : V; c_fbr : V;
  c_dl : list V; c_dr : list V;
  c_outl : V; c_outr : V; c_doutl : V; c_doutr : V;
  c_out2l : V; c_out2r : V; c_dout2l : V; c_dout2r : V }.

Definition put_unit (i : Z) (u : U) (c : chain) : chain :=
  let '(mk_chain a b cc d m g f x y r dg df dx dy dr w l rr il ir o p q s o2 p2 q2 s2) := c in
  mk_chain (if i =? 0 then u else a) (if i =? 1 then u else b) (if i =? 2 then u else cc) (if i =? 3 then u else d)
    m g f x y r dg df dx dy dr w l rr il ir o p q s o2 p2 q2 s2.
Definition get_unit (i : Z) (c : chain) : U :=
  if i =? 0 then c_u0 c else if i =? 1 then c_u1 c else if i =? 2 then c_u2 c else c_u3 c.
(** replace gain, feedback, mix1, mix2, drive, ws_lpf and the two feedback lines *)
Definition put_dyn (g f x y r w l rr : V) (c : chain) : chain :=
  let '(mk_chain a b cc d m _ _ _ _ _ dg df dx dy dr _ _ _ il ir o p q s o2 p2 q2 s2) := c in
  mk_chain a b cc d m g f x y r dg df dx dy dr w l rr il ir o p q s o2 p2 q2 s2.
Definition put_out (o p o2 p2 : V) (c : chain) : chain :=
  let '(mk_chain a b cc d m g f x y r dg df dx dy dr w l rr il ir _ _ q s _ _ q2 s2) := c in
  mk_chain a b cc d m g f x y r dg df dx dy dr w l rr il ir o p q s o2 p2 q2 s2.
Definition put_gain (v : V) c := put_dyn v (c_feedback c) (c_mix1 c) (c_mix2 c) (c_drive c) (c_wslpf c) (c_fbl c) (c_fbr c) c.
Definition put_feedback (v : V) c := put_dyn (c_gain c) v (c_mix1 c) (c_mix2 c) (c_drive c) (c_wslpf c) (c_fbl c) (c_fbr c) c.
Definition put_mix1 (v : V) c := put_dyn (c_gain c) (c_feedback c) v (c_mix2 c) (c_drive c) (c_wslpf c) (c_fbl c) (c_fbr c) c.
Definition put_mix2 (v : V) c := put_dyn (c_gain c) (c_feedback c) (c_mix1 c) v (c_drive c) (c_wslpf c) (c_fbl c) (c_fbr c) c.
Definition put_drive (v : V) c := put_dyn (c_gain c) (c_feedback c) (c_mix1 c) (c_mix2 c) v (c_wslpf c) (c_fbl c) (c_fbr c) c.
Definition put_wslpf (v : V) c := put_dyn (c_gain c) (c_feedback c) (c_mix1 c) (c_mix2 c) (c_drive c) v (c_fbl c) (c_fbr c) c.
Definition put_fbl (v : V) c := put_dyn (c_gain c) (c_feedback c) (c_mix1 c) (c_mix2 c) (c_drive c) (c_wslpf c) v (c_fbr c) c.
Definition put_fbr (v : V) c := put_dyn (c_gain c) (c_feedback c) (c_mix1 c) (c_mix2 c) (c_drive c) (c_wslpf c) (c_fbl c) v c.

(** surge-qfunit/src/dispatch.rs:9-13 *)
Record fbq := { fu1ptr : option (U -> V -> U * V); fu2ptr : option (U -> V -> U * V); wsptr : option (V -> V -> V) }.

(** the chain, the two output buffers *)
Record qst := mk_qst { q_c : chain; q_l : list T; q_r : list T }.
Definition upd (f : chain -> chain) (s : qst) : qst := mk_qst (f (q_c s)) (q_l s) (q_r s).

(** Vec/slice store at index k; reads are nth *)
Fixpoint setn {X} (l : list X) (k : nat) (v : X) : list X :=
  match l, k with [], _ => [] | _ :: t, O => v :: t | h :: t, S k => h :: setn t k v end.

(** surge-qfunit/src/write_outputs.rs:9-24 (qfc_write_outputs) *)
Definition write_outputs (s : qst) (x : V) (k : nat) : qst :=
  let c := put_out (c_outl (q_c s) ⊕ c_doutl (q_c s)) (c_outr (q_c s) ⊕ c_doutr (q_c s)) (c_out2l (q_c s)) (c_out2r (q_c s)) (q_c s) in
  let new_l := x ⊗ c_outl c in
  let new_r := x ⊗ c_outr c in
  mk_qst c (setn (q_l s) k (vo_sadd OP (nth k (q_l s) t0) (vo_sum OP new_l)))
           (setn (q_r s) k (vo_sadd OP (nth k (q_r s) t0) (vo_sum OP new_r))).

(** surge-qfunit/src/write_outputs.rs:32-51 (qfc_write_outputs_dual); dout_l is added twice *)
Definition write_outputs_dual (s : qst) (x y : V) (k : nat) : qst :=
  let c0 := q_c s in
  let outl := c_outl c0 ⊕ c_doutl c0 in
  let outl := outl ⊕ c_doutl c0 in
  let c := put_out outl (c_outr c0 ⊕ c_doutr c0) (c_out2l c0 ⊕ c_dout2l c0) (c_out2r c0 ⊕ c_dout2r c0) c0 in
  let new_l := (x ⊗ c_outl c) ⊕ (y ⊗ c_out2l c) in
  let new_r := (x ⊗ c_outr c) ⊕ (y ⊗ c_out2r c) in
  mk_qst c (setn (q_l s) k (vo_sadd OP (nth k (q_l s) t0) (vo_sum OP new_l)))
           (setn (q_r s) k (vo_sadd OP (nth k (q_r s) t0) (vo_sum OP new_r))).

(** surge-qfunit/src/macros.rs:3-9, on out_l[k] and then out_r[k] *)
Definition assert_reasonable (dbg : bool) (s : qst) (k : nat) : res qst :=
  if dbg && negb (vo_reasonable OP (nth k (q_l s) t0) && vo_reasonable OP (nth k (q_r s) t0)) then Panic else Ok s.

(** `if ACTIVE { let f = ptr.unwrap(); x = f(&mut qfcs.unit_state[i], x); }` *)
Definition filt (active : bool) (ptr : option (U -> V -> U * V)) (i : Z) (s : qst) (x : V) : res (qst * V) :=
  if active then match ptr with None => Panic | Some f =>
    let (u, x') := f (get_unit i (q_c s)) x in Ok (upd (put_unit i u) s, x') end
  else Ok (s, x).
(** `if WAVESHAPER_ACTIVE { ws_lpf = hb_c*(ws_lpf + x); drive += d_drive; x = ws(ws_lpf, drive); }` *)
Definition shape_lpf (active : bool) (ptr : option (V -> V -> V)) (s : qst) (x : V) : res (qst * V) :=
  if active then match ptr with None => Panic | Some f =>
    let s := upd (put_wslpf (vo_half OP ⊗ (c_wslpf (q_c s) ⊕ x))) s in
    let s := upd (put_drive (c_drive (q_c s) ⊕ c_ddrive (q_c s))) s in
    Ok (s, f (c_wslpf (q_c s)) (c_drive (q_c s))) end
  else Ok (s, x).
(** the stereo variant without the low-pass: do_stereo.rs:52-66, do_wide.rs:45-52 *)
Definition shape2 (active : bool) (ptr : option (V -> V -> V)) (s : qst) (x y : V) : res (qst * (V * V)) :=
  if active then match ptr with None => Panic | Some f =>
    let s := upd (put_drive (c_drive (q_c s) ⊕ c_ddrive (q_c s))) s in
    Ok (s, (f x (c_drive (q_c s)), f y (c_drive (q_c s)))) end
  else Ok (s, (x, y)).
Definition glide_mix1 (s : qst) : qst := upd (put_mix1 (c_mix1 (q_c s) ⊕ c_dmix1 (q_c s))) s.
Definition glide_mix2 (s : qst) : qst := upd (put_mix2 (c_mix2 (q_c s) ⊕ c_dmix2 (q_c s))) s.
Definition glide_gain (s : qst) : qst := upd (put_gain (c_gain (q_c s) ⊕ c_dgain (q_c s))) s.
Definition glide_feedback (s : qst) : qst := upd (put_feedback (c_feedback (q_c s) ⊕ c_dfeedback (q_c s))) s.
Definition masked_gain (s : qst) (x : V) : V := vo_and OP (c_active (q_c s)) (x ⊗ c_gain (q_c s)).
(** `if A || WS { mix1 += d_mix1; x = input*(1-mix1) + x*mix1 }` *)
Definition blend1 (on : bool) (s : qst) (input x : V) : qst * V :=
  if on then let s := glide_mix1 s in (s, (input ⊗ (vo_one OP ⊖ c_mix1 (q_c s))) ⊕ (x ⊗ c_mix1 (q_c s))) else (s, x).

Section Loop.
Variables (fa ws fb : bool) (g : fbq) (dbg : bool).

(** surge-qfunit/src/do_serial1.rs:23-92, one iteration *)
Definition do_serial1 (s : qst) (k : nat) : res qst :=
  let input := nth k (c_dl (q_c s)) v0 in
  let y := nth k (c_dr (q_c s)) v0 in
  obind (filt fa (fu1ptr g) 0 s input) (fun '(s, x) =>
  obind (shape_lpf ws (wsptr g) s x) (fun '(s, x) =>
  let '(s, x) := blend1 (fa || ws) s input x in
  let y := x ⊕ y in
  obind (filt fb (fu2ptr g) 1 s y) (fun '(s, y) =>
  let s := glide_mix2 s in
  let x := (x ⊗ (vo_one OP ⊖ c_mix2 (q_c s))) ⊕ (y ⊗ c_mix2 (q_c s)) in
  let s := glide_gain s in
  Ok (write_outputs s (masked_gain s x) k)))).

(** surge-qfunit/src/do_serial2.rs:22-106 *)
Definition do_serial2 (s : qst) (k : nat) : res qst :=
  let s := glide_feedback s in
  let input := nth k (c_dl (q_c s)) v0 ⊕ vo_clip OP (c_feedback (q_c s) ⊗ c_fbl (q_c s)) in
  let y := nth k (c_dr (q_c s)) v0 in
  obind (filt fa (fu1ptr g) 0 s input) (fun '(s, x) =>
  obind (shape_lpf ws (wsptr g) s x) (fun '(s, x) =>
  let '(s, x) := blend1 (fa || ws) s input x in
  let y := x ⊕ y in
  obind (filt fb (fu2ptr g) 1 s y) (fun '(s, y) =>
  let s := glide_mix2 s in
  let x := (x ⊗ (vo_one OP ⊖ c_mix2 (q_c s))) ⊕ (y ⊗ c_mix2 (q_c s)) in
  let s := glide_gain s in
  let out := masked_gain s x in
  let s := upd (put_fbl out) s in
  Ok (write_outputs s out k)))).

(** surge-qfunit/src/do_serial3.rs:25-116 *)
Definition do_serial3 (s : qst) (k : nat) : res qst :=
  let s := glide_feedback s in
  let input := nth k (c_dl (q_c s)) v0 ⊕ vo_clip OP (c_feedback (q_c s) ⊗ c_fbl (q_c s)) in
  let y := nth k (c_dr (q_c s)) v0 in
  obind (filt fa (fu1ptr g) 0 s input) (fun '(s, x) =>
  obind (shape_lpf ws (wsptr g) s x) (fun '(s, x) =>
  let '(s, x) := blend1 (fa || ws) s input x in
  let s := glide_gain s in
  let x := masked_gain s x in
  let s := write_outputs s x k in
  let y := x ⊕ y in
  obind (filt fb (fu2ptr g) 1 s y) (fun '(s, y) =>
  let s := glide_mix2 s in
  Ok (upd (put_fbl y) s)))).

(** the common start of dual, ring and stereo: do_dual1.rs:23-42, do_dual2.rs:23-40,
    do_ring.rs:24-43, do_stereo.rs:21-40 *)
Definition feed2 (s : qst) (k : nat) : qst * (V * V) :=
  let s := glide_feedback s in
  let f := vo_clip OP (c_feedback (q_c s) ⊗ c_fbl (q_c s)) in
  (s, (nth k (c_dl (q_c s)) v0 ⊕ f, nth k (c_dr (q_c s)) v0 ⊕ f)).

(** surge-qfunit/src/do_dual1.rs:21-87 *)
Definition do_dual1 (s : qst) (k : nat) : res qst :=
  let '(s, (x, y)) := feed2 s k in
  obind (filt fa (fu1ptr g) 0 s x) (fun '(s, x) =>
  obind (filt fb (fu2ptr g) 1 s y) (fun '(s, y) =>
  let s := glide_mix2 (glide_mix1 s) in
  let x := (x ⊗ c_mix1 (q_c s)) ⊕ (y ⊗ c_mix2 (q_c s)) in
  obind (shape_lpf ws (wsptr g) s x) (fun '(s, x) =>
  let s := glide_gain s in
  let out := masked_gain s x in
  let s := upd (put_fbl out) s in
  Ok (write_outputs s out k)))).

(** surge-qfunit/src/do_dual2.rs:21-92 *)
Definition do_dual2 (s : qst) (k : nat) : res qst :=
  let '(s, (x, y)) := feed2 s k in
  obind (filt fa (fu1ptr g) 0 s x) (fun '(s, x) =>
  obind (shape_lpf ws (wsptr g) s x) (fun '(s, x) =>
  obind (filt fb (fu2ptr g) 1 s y) (fun '(s, y) =>
  let s := glide_mix2 (glide_mix1 s) in
  let x := (x ⊗ c_mix1 (q_c s)) ⊕ (y ⊗ c_mix2 (q_c s)) in
  let s := glide_gain s in
  let out := masked_gain s x in
  let s := upd (put_fbl out) s in
  Ok (write_outputs s out k)))).

(** surge-qfunit/src/do_ring.rs:22-82 *)
Definition do_ring (s : qst) (k : nat) : res qst :=
  let '(s, (x, y)) := feed2 s k in
  obind (filt fa (fu1ptr g) 0 s x) (fun '(s, x) =>
  obind (filt fb (fu2ptr g) 1 s y) (fun '(s, y) =>
  let s := glide_mix2 (glide_mix1 s) in
  let m1 := c_mix1 (q_c s) in let m2 := c_mix2 (q_c s) in
  let x := (((vo_one OP ⊖ m1) ⊗ y) ⊕ (x ⊗ m1)) ⊗ (((vo_one OP ⊖ m2) ⊗ x) ⊕ (y ⊗ m2)) in
  obind (shape_lpf ws (wsptr g) s x) (fun '(s, x) =>
  let s := glide_gain s in
  let out := masked_gain s x in
  let s := upd (put_fbl out) s in
  Ok (write_outputs s out k)))).

(** surge-qfunit/src/do_stereo.rs:19-83 *)
Definition do_stereo (s : qst) (k : nat) : res qst :=
  let '(s, (x, y)) := feed2 s k in
  obind (filt fa (fu1ptr g) 0 s x) (fun '(s, x) =>
  obind (filt fb (fu2ptr g) 1 s y) (fun '(s, y) =>
  obind (shape2 ws (wsptr g) s x y) (fun '(s, (x, y)) =>
  let s := glide_mix2 (glide_mix1 s) in
  let x := x ⊗ c_mix1 (q_c s) in
  let y := y ⊗ c_mix2 (q_c s) in
  let s := glide_gain s in
  let x := masked_gain s x in
  let y := masked_gain s y in
  let s := upd (put_fbl (x ⊕ y)) s in
  let s := write_outputs_dual s x y k in
  assert_reasonable dbg s k))).

(** surge-qfunit/src/do_wide.rs:21-100 *)
Definition do_wide (s : qst) (k : nat) : res qst :=
  let s := glide_feedback s in
  let fb_l := c_feedback (q_c s) ⊗ c_fbl (q_c s) in
  let fb_r := c_feedback (q_c s) ⊗ c_fbr (q_c s) in
  let xin := nth k (c_dl (q_c s)) v0 ⊕ vo_clip OP fb_l in
  let yin := nth k (c_dr (q_c s)) v0 ⊕ vo_clip OP fb_r in
  obind (filt fa (fu1ptr g) 0 s xin) (fun '(s, x) =>
  obind (filt fa (fu1ptr g) 2 s yin) (fun '(s, y) =>
  obind (shape2 ws (wsptr g) s x y) (fun '(s, (x, y)) =>
  let '(s, (x, y)) :=
    if fa || ws then
      let s := glide_mix1 s in
      let m := c_mix1 (q_c s) in let om := vo_one OP ⊖ m in
      (s, ((xin ⊗ om) ⊕ (x ⊗ m), (yin ⊗ om) ⊕ (y ⊗ m)))
    else (s, (x, y)) in
  obind (if fb then
      obind (filt fb (fu2ptr g) 1 s x) (fun '(s, z) =>
      obind (filt fb (fu2ptr g) 3 s y) (fun '(s, w) =>
      let s := glide_mix2 s in
      let m := c_mix2 (q_c s) in let om := vo_one OP ⊖ m in
      Ok (s, ((x ⊗ om) ⊕ (z ⊗ m), (y ⊗ om) ⊕ (w ⊗ m)))))
    else Ok (s, (x, y))) (fun '(s, (x, y)) =>
  let s := glide_gain s in
  let x := masked_gain s x in
  let y := masked_gain s y in
  let s := upd (put_fbr y) (upd (put_fbl x) s) in
  let s := write_outputs_dual s x y k in
  assert_reasonable dbg s k)))).
End Loop.

(** surge-types/src/filter.rs FilterBlockConfiguration *)
Inductive fbconfig := Serial1 | Serial2 | Serial3 | Dual1 | Dual2 | Stereo | Ring | Wide.

(** one sample of a configuration with the given const generics *)
Definition do_sample (cfg : fbconfig) (fa ws fb : bool) (g : fbq) (dbg : bool) : qst -> nat -> res qst :=
  match cfg with
  | Serial1 => do_serial1 fa ws fb g | Serial2 => do_serial2 fa ws fb g | Serial3 => do_serial3 fa ws fb g
  | Dual1 => do_dual1 fa ws fb g | Dual2 => do_dual2 fa ws fb g | Ring => do_ring fa ws fb g
  | Stereo => do_stereo fa ws fb g dbg | Wide => do_wide fa ws fb g dbg
  end.
(** `for k in (0..BLOCK_SIZE_OS).step_by(1)`, here from k on for n samples *)
Fixpoint do_loop (f : qst -> nat -> res qst) (n k : nat) (s : qst) : res qst :=
  match n with O => Ok s | S n => obind (f s k) (fun s => do_loop f n (S k) s) end.
Definition is_some {X} (o : option X) : bool := match o with Some _ => true | None => false end.
(** surge-qfunit/src/config.rs:3-48 (get_fn_process_quad): the eight-way match on (a, ws, b) chooses
    exactly the instance with these const generics; here followed by the call *)
Definition process_quad (cfg : fbconfig) (g : fbq) (dbg : bool) (s : qst) : res qst :=
  let a := is_some (fu1ptr g) in let b := is_some (fu2ptr g) in let ws := is_some (wsptr g) in
  do_loop (do_sample cfg a ws b g dbg) qf_block 0 s.
End Chain.
Arguments chain : clear implicits. Arguments fbq : clear implicits. Arguments qst : clear implicits.

(** ** instances over exact reals *)
Definition and1 (m : bool) (x : R) : R := if m then x else 0%R.
Definition ops1 : vops R R bool := {|
  vo_add := Rplus; vo_sub := Rminus; vo_mul := Rmult; vo_one := 1%R; vo_half := (/ 2)%R;
  vo_clip := softclip arithR; vo_and := and1; vo_sum := fun x => x; vo_sadd := Rplus;
  vo_reasonable := fun x => (if Rlt_dec x 32 then true else false) && (if Rlt_dec (-32) x then true else false) |}.
Record q4 (X : Type) := Q4 { l0 : X; l1 : X; l2 : X; l3 : X }.
Arguments Q4 {X}. Arguments l0 {X}. Arguments l1 {X}. Arguments l2 {X}. Arguments l3 {X}.
Definition map4 {X Y} (f : X -> Y) (a : q4 X) : q4 Y := Q4 (f (l0 a)) (f (l1 a)) (f (l2 a)) (f (l3 a)).
Definition zip4 {X Y Z} (f : X -> Y -> Z) (a : q4 X) (b : q4 Y) : q4 Z :=
  Q4 (f (l0 a) (l0 b)) (f (l1 a) (l1 b)) (f (l2 a) (l2 b)) (f (l3 a) (l3 b)).
(** sum_ps_to_ss: a = x + movehl(x,x); a0 + a1 *)
Definition sum4 (x : q4 R) : R := ((l0 x + l2 x) + (l1 x + l3 x))%R.
Definition ops4 : vops (q4 R) R (q4 bool) := {|
  vo_add := zip4 Rplus; vo_sub := zip4 Rminus; vo_mul := zip4 Rmult;
  vo_one := Q4 1 1 1 1; vo_half := Q4 (/ 2) (/ 2) (/ 2) (/ 2);
  vo_clip := map4 (softclip arithR); vo_and := zip4 and1; vo_sum := sum4; vo_sadd := Rplus;
  vo_reasonable := vo_reasonable ops1 |}%R.

(** set1f / get1f, surge-math/src/value_cast.rs:32-40, 64-72 (assert 0 <= i < 4) *)
Definition set1f {X} (v : q4 X) (i : Z) (x : X) : res (q4 X) :=
  if i =? 0 then Ok (Q4 x (l1 v) (l2 v) (l3 v)) else if i =? 1 then Ok (Q4 (l0 v) x (l2 v) (l3 v))
  else if i =? 2 then Ok (Q4 (l0 v) (l1 v) x (l3 v)) else if i =? 3 then Ok (Q4 (l0 v) (l1 v) (l2 v) x) else Panic.
Definition get1f {X} (v : q4 X) (i : Z) : res X :=
  if i =? 0 then Ok (l0 v) else if i =? 1 then Ok (l1 v) else if i =? 2 then Ok (l2 v) else if i =? 3 then Ok (l3 v) else Panic.

(** ** the voice side *)
(** surge-voice/src/filter.rs:4-19, the scalar part of FBP *)
Record fbp := mk_fbp { p_gain : R; p_fb : R; p_mix1 : R; p_mix2 : R; p_outl : R; p_outr : R; p_out2l : R; p_out2r : R;
  p_drive : R; p_wslpf : R; p_fbl : R; p_fbr : R }.

(** surge-voice/src/set_qfb.rs:44-57.  minf is the smaller of the two *)
Definition filter_mix (cfg : fbconfig) (balance : R) : R * R :=
  match cfg with
  | Dual1 | Dual2 | Stereo => ((1 / 2 - 1 / 2 * balance)%R, (1 / 2 + 1 / 2 * balance)%R)
  | _ => (Rmin 1 (1 - balance), Rmin 1 (1 + balance))
  end.
(** BLOCK_SIZE_OS_INV *)
Definition os_inv : R := (1 / 64)%R.

(** surge-voice/src/set_qfb.rs:26-105: the ramps, the remembered lines and the mask of lane e, and
    the new FBP.  The filter units' coefficients and registers (112-170) are the arbitrary unit states
    and not part of this definition; db_to_linear and the envelope are folded into the argument
    [gain], db_to_linear of the drive into [drive]. *)
Definition set_quad {U} (cfg : fbconfig) (gain drive feedback balance : R) (p : fbp) (c : chain (q4 R) (q4 bool) U) (e : Z)
  : res (fbp * chain (q4 R) (q4 bool) U) :=
  let '(fmix1, fmix2) := filter_mix cfg balance in
  obind (set1f (c_gain c) e (p_gain p)) (fun g =>
  obind (set1f (c_dgain c) e ((gain - p_gain p) * os_inv)%R) (fun dg =>
  obind (set1f (c_drive c) e (p_drive p)) (fun r =>
  obind (set1f (c_ddrive c) e ((drive - p_drive p) * os_inv)%R) (fun dr =>
  obind (set1f (c_feedback c) e (p_fb p)) (fun f =>
  obind (set1f (c_dfeedback c) e ((feedback - p_fb p) * os_inv)%R) (fun df =>
  obind (set1f (c_mix1 c) e (p_mix1 p)) (fun x =>
  obind (set1f (c_dmix1 c) e ((fmix1 - p_mix1 p) * os_inv)%R) (fun dx =>
  obind (set1f (c_mix2 c) e (p_mix2 p)) (fun y =>
  obind (set1f (c_dmix2 c) e ((fmix2 - p_mix2 p) * os_inv)%R) (fun dy =>
  obind (set1f (c_wslpf c) e (p_wslpf p)) (fun w =>
  obind (set1f (c_fbl c) e (p_fbl p)) (fun l =>
  obind (set1f (c_fbr c) e (p_fbr p)) (fun rr =>
  obind (set1f (c_active c) e true) (fun m =>
  Ok (mk_fbp gain feedback fmix1 fmix2 (p_outl p) (p_outr p) (p_out2l p) (p_out2r p) drive (p_wslpf p) (p_fbl p) (p_fbr p),
      mk_chain (c_u0 c) (c_u1 c) (c_u2 c) (c_u3 c) m g f x y r dg df dx dy dr w l rr (c_dl c) (c_dr c)
        (c_outl c) (c_outr c) (c_doutl c) (c_doutr c) (c_out2l c) (c_out2r c) (c_dout2l c) (c_dout2r c))
  )))))))))))))).

(** surge-voice/src/calc_pan.rs:17-75.  [chpan] is the sum of the two channel pans, [vol] the volume
    parameter; amp_to_linear (surge-math/src/convert.rs:7-10) is max(x,0)^3. *)
Definition voice_amp (cfg : fbconfig) (vol : R) : R :=
  (let a := 1 / 2 * (Rmax vol 0 * Rmax vol 0 * Rmax vol 0) in
   match cfg with Wide => a * (6666666 / 10000000) | Stereo => a * (13333333 / 10000000) | _ => a end)%R.
Definition limit1 (x : R) : R := Rmax (-1) (Rmin 1 x).
Definition pan_amps (cfg : fbconfig) (pan chpan width vol : R) : (R * R) * (R * R) :=
  let pan1 := limit1 (pan + chpan)%R in
  let amp := voice_amp cfg vol in
  match cfg with
  | Wide | Stereo => let pan1 := (pan1 - width)%R in let pan2 := (pan + width)%R in
      (((amp * megapan_left arithR pan1)%R, (amp * megapan_right arithR pan1)%R),
       ((amp * megapan_left arithR pan2)%R, (amp * megapan_right arithR pan2)%R))
  | _ => (((amp * megapan_left arithR pan1)%R, (amp * megapan_right arithR pan1)%R), (0%R, 0%R))
  end.
Definition two_outputs (cfg : fbconfig) : bool := match cfg with Wide | Stereo => true | _ => false end.
Definition calc_pan {U} (cfg : fbconfig) (pan chpan width vol : R) (p : fbp) (c : chain (q4 R) (q4 bool) U) (e : Z)
  : res (fbp * chain (q4 R) (q4 bool) U) :=
  let '((al, ar), (a2l, a2r)) := pan_amps cfg pan chpan width vol in
  obind (if two_outputs cfg then
      obind (set1f (c_out2l c) e (p_out2l p)) (fun o2l =>
      obind (set1f (c_dout2l c) e ((a2l - p_out2l p) * os_inv)%R) (fun d2l =>
      obind (set1f (c_out2r c) e (p_out2r p)) (fun o2r =>
      obind (set1f (c_dout2r c) e ((a2r - p_out2r p) * os_inv)%R) (fun d2r =>
      Ok ((o2l, d2l), (o2r, d2r), (a2l, a2r))))))
    else Ok ((c_out2l c, c_dout2l c), (c_out2r c, c_dout2r c), (p_out2l p, p_out2r p)))
  (fun '((o2l, d2l), (o2r, d2r), (n2l, n2r)) =>
  obind (set1f (c_outl c) e (p_outl p)) (fun ol =>
  obind (set1f (c_doutl c) e ((al - p_outl p) * os_inv)%R) (fun dl =>
  obind (set1f (c_outr c) e (p_outr p)) (fun orr =>
  obind (set1f (c_doutr c) e ((ar - p_outr p) * os_inv)%R) (fun dr =>
  Ok (mk_fbp (p_gain p) (p_fb p) (p_mix1 p) (p_mix2 p) al ar n2l n2r (p_drive p) (p_wslpf p) (p_fbl p) (p_fbr p),
      mk_chain (c_u0 c) (c_u1 c) (c_u2 c) (c_u3 c) (c_active c) (c_gain c) (c_feedback c) (c_mix1 c) (c_mix2 c) (c_drive c)
        (c_dgain c) (c_dfeedback c) (c_dmix1 c) (c_dmix2 c) (c_ddrive c) (c_wslpf c) (c_fbl c) (c_fbr c) (c_dl c) (c_dr c)
        ol orr dl dr o2l o2r d2l d2r)))))).

(** surge-voice/src/sync_from_qfb.rs:60-72: the remembered lines are read back from lane e *)
Definition sync_lines {U} (p : fbp) (c : chain (q4 R) (q4 bool) U) (e : Z) : res fbp :=
  obind (get1f (c_fbl c) e) (fun l => obind (get1f (c_fbr c) e) (fun r => obind (get1f (c_wslpf c) e) (fun w =>
  Ok (mk_fbp (p_gain p) (p_fb p) (p_mix1 p) (p_mix2 p) (p_outl p) (p_outr p) (p_out2l p) (p_out2r p) (p_drive p) w l r)))).
