(* Util.v - Rust slice indexing: checked get/set on lists by a machine index. *)
From Verif Require Import Base.

(* results of code whose Result error is never produced; only Ok or a panic matter *)
Definition res (A : Type) : Type := outcome unit A.

(* `xs[i]` : panics out of bounds *)
Definition zget {A} (l : list A) (i : Z) : res A :=
  if 0 <=? i then match nth_error l (Z.to_nat i) with Some x => Ok x | None => Panic end else Panic.

Fixpoint upd {A} (l : list A) (i : nat) (x : A) : list A :=
  match l, i with
  | [], _ => []
  | _ :: r, O => x :: r
  | y :: r, S j => y :: upd r j x
  end.

(* `xs[i] = x` : panics out of bounds *)
Definition zset {A} (l : list A) (i : Z) (x : A) : res (list A) :=
  if (0 <=? i) && (i <? Z.of_nat (length l)) then Ok (upd l (Z.to_nat i) x) else Panic.

(* run a fallible body for each element, threading the state (a Rust for loop) *)
Fixpoint foldM {A S} (f : S -> A -> res S) (l : list A) (s : S) : res S :=
  match l with
  | [] => Ok s
  | x :: r => obind (f s x) (fun s' => foldM f r s')
  end.

(* lemmas *)
Lemma upd_length {A} (l : list A) i x : length (upd l i x) = length l.
Proof. revert i; induction l; intros [|i]; cbn; auto. Qed.
Lemma upd_nth_eq {A} (l : list A) i x : (i < length l)%nat -> nth_error (upd l i x) i = Some x.
Proof. revert i; induction l; intros [|i] H; cbn in *; try lia; auto. apply IHl; lia. Qed.
Lemma upd_nth_neq {A} (l : list A) i j x : i <> j -> nth_error (upd l i x) j = nth_error l j.
Proof. revert i j; induction l; intros [|i] [|j] H; cbn; auto; try congruence. Qed.

Lemma zget_ok {A} (l : list A) i : 0 <= i < Z.of_nat (length l) -> exists x, zget l i = Ok x.
Proof.
  intros H. unfold zget. destruct (Z.leb_spec 0 i); [|lia].
  destruct (nth_error l (Z.to_nat i)) eqn:E; [eauto|]. apply nth_error_None in E. lia.
Qed.
Lemma zget_inv {A} (l : list A) i x : zget l i = Ok x -> 0 <= i < Z.of_nat (length l).
Proof.
  unfold zget. destruct (Z.leb_spec 0 i); [|discriminate].
  destruct (nth_error l (Z.to_nat i)) eqn:E; [|discriminate]. intros _.
  assert (nth_error l (Z.to_nat i) <> None) by congruence. apply nth_error_Some in H0. lia.
Qed.
Lemma zset_ok {A} (l : list A) i x : 0 <= i < Z.of_nat (length l) -> zset l i x = Ok (upd l (Z.to_nat i) x).
Proof. intros H. unfold zset. destruct (Z.leb_spec 0 i); [|lia]. destruct (Z.ltb_spec i (Z.of_nat (length l))); [reflexivity|lia]. Qed.
Lemma zset_inv {A} (l : list A) i x l' : zset l i x = Ok l' -> 0 <= i < Z.of_nat (length l) /\ l' = upd l (Z.to_nat i) x.
Proof.
  unfold zset. destruct (Z.leb_spec 0 i); cbn; [|discriminate]. destruct (Z.ltb_spec i (Z.of_nat (length l))); [|discriminate].
  intros E; injection E as <-. split; [lia|reflexivity].
Qed.
Lemma zget_upd_eq {A} (l : list A) i x : 0 <= i < Z.of_nat (length l) -> zget (upd l (Z.to_nat i) x) i = Ok x.
Proof. intros H. unfold zget. destruct (Z.leb_spec 0 i); [|lia]. rewrite upd_nth_eq by lia. reflexivity. Qed.
Lemma zget_upd_neq {A} (l : list A) i j x : 0 <= i -> i <> j -> zget (upd l (Z.to_nat i) x) j = zget l j.
Proof. intros Hi H. unfold zget. destruct (Z.leb_spec 0 j); [|reflexivity]. rewrite upd_nth_neq by lia. reflexivity. Qed.
