(** Vocabulary for the statements about rkf45 (Prop_Integ). *)
From Coq Require Import Reals List.
From Verif Require Import RMath Num Base RSpec.
Import ListNotations.
Local Open Scope R_scope.

(** c0 y + c1 A y + c2 A (A y) + ... *)
Fixpoint series (A : vec6 RNum -> vec6 RNum) (c : list R) (y : vec6 RNum) : vec6 RNum :=
  match c with [] => elems 0 0 0 0 0 0 | k :: m => v6add (N:=RNum) (v6scal (N:=RNum) k y) (series A m (A y)) end.
(** what rkf45 puts in front of y, A y, A (A y), ... in the solution it returns and in the one it compares it with *)
Definition rkf_y (h : R) : list R :=
  [1; h * (5612365 / 5610168); h ^ 3 * (116963 / 233757); h ^ 5 * (25999 / 155838); h ^ 7 * (685 / 16404); h ^ 9 / 104].
Definition rkf_z (h : R) : list R := [1; h; h ^ 3 / 2; h ^ 5 / 6; h ^ 7 / 24; h ^ 9 / 120; h ^ 11 / 2080].

(** w1 g(s1) + w2 g(s2) + ... *)
Fixpoint quad (g : R -> vec6 RNum) (q : list (R * R)) : vec6 RNum :=
  match q with [] => elems 0 0 0 0 0 0 | (w, s) :: m => v6add (N:=RNum) (v6scal (N:=RNum) w (g s)) (quad g m) end.
(** the weights and times rkf45 uses in the solution it returns and in the one it compares it with *)
Definition rkf_qy (t h : R) : list (R * R) :=
  [(h * (25 / 216), t); (h * (1408 / 2565), t + 3 / 8 * h); (h * (2197 / 4101), t + 12 / 13 * h); (- h / 5, t + h)].
Definition rkf_qz (t h : R) : list (R * R) :=
  [(h * (16 / 135), t); (h * (6656 / 12825), t + 3 / 8 * h); (h * (28561 / 56430), t + 12 / 13 * h); (- h * (9 / 50), t + h);
   (h * (2 / 55), t + 1 / 2 * h)].
Definition dist6 (u v : vec6 RNum) : R :=
  let 'mk6 a b c d e f := u in let 'mk6 a' b' c' d' e' f' := v in
  sqrt ((a - a') ^ 2 + (b - b') ^ 2 + (c - c') ^ 2 + (d - d') ^ 2 + (e - e') ^ 2 + (f - f') ^ 2).
