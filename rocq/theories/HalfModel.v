(** Half-rate filter (surge-halfrate): two all-pass cascades per channel, four lanes.

    Conventions.
    - A register of four floats is [q4 R] (QfModel.v): lane 0 the left channel's first cascade, lane 1
      the left channel's second, lanes 2 and 3 the right channel's.  Arithmetic is over exact reals; the
      coefficients are the decimal literals (the code rounds them to f32).
    - Buffers are lists of samples; nsamples is their length.  The code reads and writes whole registers,
      so the lists are multiples of four samples (eight when downsampling); other lengths, where the
      code would run past the buffers, are not modelled (the remainder is dropped here).
    - The scratch array has HALFRATE_BLOCK_SIZE = 256 entries; indexing beyond it panics.
    Definitions only; theorems in HalfProps.v. *)
From Coq Require Import Reals.
From Flocq Require Import Core.Core.
From Verif Require Import Base Util QfModel.
Local Open Scope R_scope.

(** the SSE lane moves: _MM_SHUFFLE(w,z,y,x), _mm_movehl_ps, _mm_movelh_ps, _mm_add_ss, _mm_mul_ss *)
Definition lane {X} (v : q4 X) (i : nat) : X := match i with 0%nat => l0 v | 1%nat => l1 v | 2%nat => l2 v | _ => l3 v end.
Definition shuf {X} (a b : q4 X) (w z y x : nat) : q4 X := Q4 (lane a x) (lane a y) (lane b z) (lane b w).
Definition movehl {X} (a b : q4 X) : q4 X := Q4 (l2 b) (l3 b) (l2 a) (l3 a).
Definition movelh {X} (a b : q4 X) : q4 X := Q4 (l0 a) (l1 a) (l0 b) (l1 b).
Definition add_ss (a b : q4 R) : q4 R := Q4 (l0 a + l0 b) (l1 a) (l2 a) (l3 a).
Definition mul_ss (a b : q4 R) : q4 R := Q4 (l0 a * l0 b) (l1 a) (l2 a) (l3 a).
Definition set1 (x : R) : q4 R := Q4 x x x x.
Definition z128 : q4 R := set1 0.
Definition m128_half : q4 R := set1 (1 / 2).

(** one all-pass stage of HalfRateFilterSSE (halfratefilter.rs:30-63): va[j], vx0..2[j], vy0..2[j] *)
Record stage := mk_stage { va : q4 R; vx0 : q4 R; vx1 : q4 R; vx2 : q4 R; vy0 : q4 R; vy1 : q4 R; vy2 : q4 R }.
(** the filter: its m stages (the unused ones up to HALFRATE_MAX_M are never read) and oldout *)
Record half := mk_half { h_stages : list stage; h_old : q4 R }.

(** ** coefficients *)
(** loadstore.rs:57-70 with zeroed stages *)
Definition store_coefficients (a b : list R) : list stage :=
  map (fun '(x, y) => mk_stage (Q4 x y x y) z128 z128 z128 z128 z128 z128) (combine a b).
(** softer.rs:41-196, steep.rs:67-240: the arrays by order; any other order is unreachable!() *)
Definition softer_coefficients (order : Z) : res (list R * list R) :=
  match order with
  | 12%Z => Ok ([1677466677723562 / 10 ^ 17; 13902148819717805 / 10 ^ 17; 3325011117394731 / 10 ^ 16; 53766105314488 / 10 ^ 14; 7214184024215805 / 10 ^ 16; 8821858402078155 / 10 ^ 16],
               [6501319274445962 / 10 ^ 17; 23094129990840923 / 10 ^ 17; 4364942348420355 / 10 ^ 16; 6329609551399348 / 10 ^ 16; 8037808679411123 / 10 ^ 16; 9599687404800694 / 10 ^ 16])
  | 10%Z => Ok ([2366831419883467 / 10 ^ 17; 18989476227180174 / 10 ^ 17; 43157318062118555 / 10 ^ 17; 6632020224193995 / 10 ^ 16; 860015542499582 / 10 ^ 15],
               [9056555904993387 / 10 ^ 17; 3078575723749043 / 10 ^ 16; 5516782402507934 / 10 ^ 16; 7652146863779808 / 10 ^ 16; 9524772837866754 / 10 ^ 16])
  | 8%Z => Ok ([3583278843106211 / 10 ^ 17; 2720401433964576 / 10 ^ 16; 5720571972357003 / 10 ^ 16; 827124761997324 / 10 ^ 15],
              [1340901419430669 / 10 ^ 16; 4243248712718685 / 10 ^ 16; 7062921421386394 / 10 ^ 16; 9415030941737551 / 10 ^ 16])
  | 6%Z => Ok ([6029739095712437 / 10 ^ 17; 4125907203610563 / 10 ^ 16; 7727156537429234 / 10 ^ 16],
              [21597144456092948 / 10 ^ 17; 6043586264658363 / 10 ^ 16; 9238861386532906 / 10 ^ 16])
  | 4%Z => Ok ([7986642623635751 / 10 ^ 17; 5453536510711322 / 10 ^ 16], [28382934487410993 / 10 ^ 17; 8344118914807379 / 10 ^ 16])
  | 2%Z => Ok ([23647102099689224 / 10 ^ 17], [7145421497126001 / 10 ^ 16])
  | _ => Panic
  end.
Definition steep_coefficients (order : Z) : res (list R * list R) :=
  match order with
  | 12%Z => Ok ([36681502163648017 / 10 ^ 18; 2746317593794541 / 10 ^ 16; 5610989697879195 / 10 ^ 16; 769741833862266 / 10 ^ 15; 8922608180038789 / 10 ^ 16; 962094548378084 / 10 ^ 15],
               [13654762463195771 / 10 ^ 17; 42313861743656667 / 10 ^ 17; 6775400499741616 / 10 ^ 16; 839889624849638 / 10 ^ 15; 9315419599631839 / 10 ^ 16; 9878163707328971 / 10 ^ 16])
  | 10%Z => Ok ([51457617441190984 / 10 ^ 18; 35978656070567017 / 10 ^ 17; 6725475931034693 / 10 ^ 16; 8590884928249939 / 10 ^ 16; 9540209867860787 / 10 ^ 16],
               [18621906251989334 / 10 ^ 17; 529951372847964 / 10 ^ 15; 7810257527489514 / 10 ^ 16; 9141815687605308 / 10 ^ 16; 985475023014907 / 10 ^ 15])
  | 8%Z => Ok ([7711507983241622 / 10 ^ 17; 4820706250610472 / 10 ^ 16; 7968204713315797 / 10 ^ 16; 9412514277740471 / 10 ^ 16],
              [2659685265210946 / 10 ^ 16; 6651041532634957 / 10 ^ 16; 8841015085506159 / 10 ^ 16; 9820054141886075 / 10 ^ 16])
  | 6%Z => Ok ([1271414136264853 / 10 ^ 16; 6528245886369117 / 10 ^ 16; 9176942834328115 / 10 ^ 16],
              [40056789819445626 / 10 ^ 17; 8204163891923343 / 10 ^ 16; 9763114515836773 / 10 ^ 16])
  | 4%Z => Ok ([12073211751675449 / 10 ^ 17; 6632020224193995 / 10 ^ 16], [3903621872345006 / 10 ^ 16; 890786832653497 / 10 ^ 15])
  | 2%Z => Ok ([23647102099689224 / 10 ^ 17], [7145421497126001 / 10 ^ 16])
  | _ => Panic
  end.
(** loadstore.rs:18-39 *)
Definition load_coefficients (m : Z) (steep : bool) : res (list stage) :=
  let order := (m * 2)%Z in
  obind (if steep then steep_coefficients order else softer_coefficients order) (fun '(a, b) => Ok (store_coefficients a b)).
(** halfratefilter.rs:103-115 *)
Definition half_reset (h : half) : half :=
  mk_half (map (fun s => mk_stage (va s) z128 z128 z128 z128 z128 z128) (h_stages h)) z128.
(** halfratefilter.rs:90-100; m is a usize *)
Definition half_new (m : Z) (steep : bool) : res half :=
  if (6 <? m)%Z then Panic else
  obind (load_coefficients m steep) (fun st => Ok (half_reset (mk_half st z128))).

(** ** the filters *)
(** process_block.rs:207-229 (the same in process_block_d2.rs, process_block_u2.rs): one sample *)
Definition ap_step (s : stage) (o : q4 R) : stage * q4 R :=
  let tx2 := vx1 s in let tx1 := vx0 s in let tx0 := o in
  let ty2 := vy1 s in let ty1 := vy0 s in
  let ty0 := zip4 Rplus tx2 (zip4 Rmult (zip4 Rminus tx0 ty2) (va s)) in
  (mk_stage (va s) tx0 tx1 tx2 ty0 ty1 ty2, ty0).
(** the loop over k in steps of two, writing back o[k], o[k+1] *)
Fixpoint ap_pairs (s : stage) (o : list (q4 R)) : stage * list (q4 R) :=
  match o with
  | a :: b :: r =>
      let '(s1, y0) := ap_step s a in
      let '(s2, y1) := ap_step s1 b in
      let '(s3, ys) := ap_pairs s2 r in (s3, y0 :: y1 :: ys)
  | _ => (s, o)
  end.
(** process_block.rs:190-257, process_block_d2.rs:86-142, process_block_u2.rs:131-191: stage after stage *)
Fixpoint process_filters (st : list stage) (o : list (q4 R)) : list stage * list (q4 R) :=
  match st with
  | [] => ([], o)
  | s :: r => let '(s', o1) := ap_pairs s o in let '(r', o2) := process_filters r o1 in (s' :: r', o2)
  end.

(** scratch.rs:12-54 *)
Fixpoint scratch4 (l r : list R) : list (q4 R) :=
  match l, r with
  | a0 :: a1 :: a2 :: a3 :: l', b0 :: b1 :: b2 :: b3 :: r' =>
      let L := Q4 a0 a1 a2 a3 in let Rr := Q4 b0 b1 b2 b3 in
      shuf L Rr 0 0 0 0 :: shuf L Rr 1 1 1 1 :: shuf L Rr 2 2 2 2 :: shuf L Rr 3 3 3 3 :: scratch4 l' r'
  | _, _ => []
  end.
Definition scratch_buffer (l r : list R) : res (list (q4 R)) :=
  if (256 <? Z.of_nat (length l))%Z then Panic else Ok (scratch4 l r).
(** process_block_u2.rs:48-104: nsamples is the length of the output *)
Fixpoint work8 (l r : list R) : list (q4 R) :=
  match l, r with
  | a0 :: a1 :: a2 :: a3 :: l', b0 :: b1 :: b2 :: b3 :: r' =>
      let L := Q4 a0 a1 a2 a3 in let Rr := Q4 b0 b1 b2 b3 in
      shuf L Rr 0 0 0 0 :: z128 :: shuf L Rr 1 1 1 1 :: z128 :: shuf L Rr 2 2 2 2 :: z128 :: shuf L Rr 3 3 3 3 :: z128 :: work8 l' r'
  | _, _ => []
  end.
Definition work_buffer (l r : list R) : res (list (q4 R)) :=
  if (256 <? 2 * Z.of_nat (length l))%Z then Panic else Ok (work8 l r).

(** process_block.rs:169-238 and process_block_u2.rs:233-260: the sample loop; fa_r, fb_r and oldout carry over *)
Fixpoint combine_out (fa fb old : q4 R) (o : list (q4 R)) : list R * list R * q4 R :=
  match o with
  | [] => ([], [], old)
  | x :: r =>
      let vl := mul_ss (add_ss x old) m128_half in
      let fa := movehl fa x in
      let fb := movehl fb old in
      let vr := mul_ss (add_ss fa fb) m128_half in
      let old := shuf x x 3 3 1 1 in
      let '(ls, rs, e) := combine_out fa fb old r in
      (l0 vl :: ls, l0 vr :: rs, e)
  end.
(** process_block.rs:20-71: in place *)
Definition process_block (h : half) (l r : list R) : res (half * list R * list R) :=
  obind (scratch_buffer l r) (fun o =>
  let '(st, o) := process_filters (h_stages h) o in
  let '(ls, rs, old) := combine_out z128 z128 (h_old h) o in
  Ok (mk_half st old, ls, rs)).
(** process_block_u2.rs:214-261 *)
Definition upsample_by_two (h : half) (l r : list R) : res (half * list R * list R) :=
  obind (work_buffer l r) (fun o =>
  let '(st, o) := process_filters (h_stages h) o in
  let '(ls, rs, old) := combine_out z128 z128 (h_old h) o in
  Ok (mk_half st old, ls, rs)).

(** process_block_d2.rs:176-254: eight scratch entries to four output samples; a_r, c_r, d_r carry over *)
Fixpoint downsample_apply (ar cr dr : q4 R) (o : list (q4 R)) : list R * list R :=
  match o with
  | o0 :: o1 :: o2 :: o3 :: o4 :: o5 :: o6 :: o7 :: r =>
      let tl := shuf o0 o0 1 1 1 1 in let tr := shuf o0 o0 3 3 3 3 in
      let al := add_ss tl o1 in
      let ar := add_ss (movehl ar o1) tr in
      let tl := shuf o2 o2 1 1 1 1 in let tr := shuf o2 o2 3 3 3 3 in
      let bl := add_ss tl o3 in
      let br := add_ss (movehl ar o3) tr in
      let tl := shuf o4 o4 1 1 1 1 in let tr := shuf o4 o4 3 3 3 3 in
      let cl := add_ss tl o5 in
      let cr := add_ss (movehl cr o5) tr in
      let tl := shuf o6 o6 1 1 1 1 in let tr := shuf o6 o6 3 3 3 3 in
      let dl := add_ss tl o7 in
      let dr := add_ss (movehl dr o7) tr in
      let al := movelh al bl in
      let cl := movelh cl dl in
      let ar := movelh ar br in
      let cr := movelh cr dr in
      let L := zip4 Rmult (shuf al cl 2 0 2 0) m128_half in
      let Rr := zip4 Rmult (shuf ar cr 2 0 2 0) m128_half in
      let '(ls, rs) := downsample_apply ar cr dr r in
      (l0 L :: l1 L :: l2 L :: l3 L :: ls, l0 Rr :: l1 Rr :: l2 Rr :: l3 Rr :: rs)
  | _ => ([], [])
  end.
(** process_block_d2.rs:22-49; oldout is not touched *)
Definition downsample_by_two (h : half) (l r : list R) : res (half * list R * list R) :=
  obind (scratch_buffer l r) (fun o =>
  let '(st, o) := process_filters (h_stages h) o in
  let '(ls, rs) := downsample_apply z128 z128 z128 o in
  Ok (mk_half st (h_old h), ls, rs)).
