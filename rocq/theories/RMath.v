(** Real-number helpers: boolean comparisons, atan2, float-style power and modulo.
    These stand for the numpy / C library primitives the Python code calls; they model no file of
    /repo themselves. *)
From Coq Require Import Reals Lra Lia ZArith Bool.
Local Open Scope R_scope.

Definition Rltb (x y : R) : bool := if Rlt_dec x y then true else false.
Definition Rleb (x y : R) : bool := if Rle_dec x y then true else false.
Definition Reqb (x y : R) : bool := if Req_EM_T x y then true else false.

Lemma Rltb_spec x y : reflect (x < y) (Rltb x y).
Proof. unfold Rltb; destruct (Rlt_dec x y); constructor; assumption. Qed.
Lemma Rleb_spec x y : reflect (x <= y) (Rleb x y).
Proof. unfold Rleb; destruct (Rle_dec x y); constructor; assumption. Qed.
Lemma Reqb_spec x y : reflect (x = y) (Reqb x y).
Proof. unfold Reqb; destruct (Req_EM_T x y); constructor; assumption. Qed.

Lemma Rltb_true x y : Rltb x y = true <-> x < y.
Proof. destruct (Rltb_spec x y); split; intros; try discriminate; tauto. Qed.
Lemma Rltb_false x y : Rltb x y = false <-> y <= x.
Proof. destruct (Rltb_spec x y); split; intros; try discriminate; try lra; tauto. Qed.
Lemma Rleb_true x y : Rleb x y = true <-> x <= y.
Proof. destruct (Rleb_spec x y); split; intros; try discriminate; tauto. Qed.
Lemma Rleb_false x y : Rleb x y = false <-> y < x.
Proof. destruct (Rleb_spec x y); split; intros; try discriminate; try lra; tauto. Qed.
Lemma Reqb_true x y : Reqb x y = true <-> x = y.
Proof. destruct (Reqb_spec x y); split; intros; try discriminate; tauto. Qed.
Lemma Reqb_false x y : Reqb x y = false <-> x <> y.
Proof. destruct (Reqb_spec x y); split; intros; try discriminate; tauto. Qed.

(** C library atan2 without signed zeros: (y,x) -> angle in (-pi,pi]; atan2 0 0 = 0. *)
Definition Ratan2 (y x : R) : R :=
  if Rltb 0 x then atan (y / x)
  else if Rltb x 0 then (if Rltb y 0 then atan (y / x) - PI else atan (y / x) + PI)
  else if Rltb 0 y then PI / 2
  else if Rltb y 0 then - (PI / 2)
  else 0.

(** Python's float modulo for a positive divisor: x - y*floor(x/y). *)
Definition Rfmod (x y : R) : R := x - y * IZR (Int_part (x / y)).

(** True iff the real is an integer. *)
Definition Risint (y : R) : bool := Reqb y (IZR (Int_part y)).

(** C library pow for finite arguments; [None] where pow is not a finite real. *)
Definition Rpowo (x y : R) : option R :=
  if Rltb 0 x then Some (Rpower x y)
  else if Reqb x 0 then
    (if Reqb y 0 then Some 1 else if Rltb 0 y then Some 0 else None)
  else if Risint y then Some (powerRZ x (Int_part y)) else None.
