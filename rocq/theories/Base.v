(** Python-level plumbing shared by the model: exceptions as values, small vectors, numpy helpers. *)
From Coq Require Import ZArith List Bool.
From Verif Require Import Num.
Import ListNotations.
Local Open Scope num_scope.

(** The exceptions the modelled code can raise. *)
Inductive exn : Type :=
| AssertionError | ValueError | UnboundLocalError | ZeroDivisionError | TypeError | IndexError.

Inductive Res (A : Type) : Type := Ok (a : A) | Err (e : exn).
Arguments Ok {A} a.
Arguments Err {A} e.

Definition bind {A B} (x : Res A) (f : A -> Res B) : Res B :=
  match x with Ok a => f a | Err e => Err e end.
Notation "'do' x <- e ; f" := (bind e (fun x => f))
  (at level 200, x pattern, e at level 100, f at level 200).
Definition is_ok {A} (x : Res A) : bool := match x with Ok _ => true | Err _ => false end.

Section Vec.
Context {N : Num}.

(** Scalar division inside a numba-jitted function: numba's default error model is Python's, so a
    zero divisor raises ZeroDivisionError (array / scalar divisions follow numpy instead). *)
Definition jdiv (x y : car) : Res car := if y =? $0 then Err ZeroDivisionError else Ok (x / y).

Inductive vec3 : Type := mk3 (x0 x1 x2 : car).
Inductive vec5 : Type := mk5 (x0 x1 x2 x3 x4 : car).
Inductive vec6 : Type := mk6 (x0 x1 x2 x3 x4 x5 : car).
(** 3x3 matrix by rows *)
Inductive mat3 : Type := mkm (r0 r1 r2 : vec3).
(** psi of the Q-law: three columns of five entries ("let psi be column major!") *)
Inductive psi_t : Type := mkpsi (c0 c1 c2 : vec5).

Definition v3_0 (v : vec3) := let 'mk3 a _ _ := v in a.
Definition v3_1 (v : vec3) := let 'mk3 _ a _ := v in a.
Definition v3_2 (v : vec3) := let 'mk3 _ _ a := v in a.

Definition v5_0 (v : vec5) := let 'mk5 a _ _ _ _ := v in a.
Definition v5_1 (v : vec5) := let 'mk5 _ a _ _ _ := v in a.
Definition v5_2 (v : vec5) := let 'mk5 _ _ a _ _ := v in a.
Definition v5_3 (v : vec5) := let 'mk5 _ _ _ a _ := v in a.
Definition v5_4 (v : vec5) := let 'mk5 _ _ _ _ a := v in a.

Definition v6_0 (v : vec6) := let 'mk6 a _ _ _ _ _ := v in a.
Definition v6_1 (v : vec6) := let 'mk6 _ a _ _ _ _ := v in a.
Definition v6_2 (v : vec6) := let 'mk6 _ _ a _ _ _ := v in a.
Definition v6_3 (v : vec6) := let 'mk6 _ _ _ a _ _ := v in a.
Definition v6_4 (v : vec6) := let 'mk6 _ _ _ _ a _ := v in a.
Definition v6_5 (v : vec6) := let 'mk6 _ _ _ _ _ a := v in a.

Definition vec3_to_list (v : vec3) : list car := let 'mk3 a b c := v in [a; b; c].
Definition vec5_to_list (v : vec5) : list car := let 'mk5 a b c d e := v in [a; b; c; d; e].
Definition vec6_to_list (v : vec6) : list car := let 'mk6 a b c d e f := v in [a; b; c; d; e; f].
Definition list_to_vec5 (l : list car) : option vec5 :=
  match l with [a; b; c; d; e] => Some (mk5 a b c d e) | _ => None end.
Definition list_to_vec6 (l : list car) : option vec6 :=
  match l with [a; b; c; d; e; f] => Some (mk6 a b c d e f) | _ => None end.

(** numpy array arithmetic on 3-vectors *)
Definition v3add (u v : vec3) : vec3 :=
  let 'mk3 a b c := u in let 'mk3 x y z := v in mk3 (a + x) (b + y) (c + z).
Definition v3sub (u v : vec3) : vec3 :=
  let 'mk3 a b c := u in let 'mk3 x y z := v in mk3 (a - x) (b - y) (c - z).
Definition v3scal (k : car) (v : vec3) : vec3 := let 'mk3 x y z := v in mk3 (k * x) (k * y) (k * z).
Definition v3divs (v : vec3) (k : car) : vec3 := let 'mk3 x y z := v in mk3 (x / k) (y / k) (z / k).
Definition dot3 (u v : vec3) : car :=
  let 'mk3 a b c := u in let 'mk3 x y z := v in a * x + b * y + c * z.
Definition cross3 (u v : vec3) : vec3 :=
  let 'mk3 a b c := u in let 'mk3 x y z := v in mk3 (b * z - c * y) (c * x - a * z) (a * y - b * x).
Definition norm3 (v : vec3) : car := nsqrt (dot3 v v).
Definition v3zero : vec3 := mk3 ($0) ($0) ($0).
Definition matvec (m : mat3) (v : vec3) : vec3 :=
  let 'mkm r0 r1 r2 := m in mk3 (dot3 r0 v) (dot3 r1 v) (dot3 r2 v).
Definition mtrans (m : mat3) : mat3 :=
  let 'mkm (mk3 a b c) (mk3 d e f) (mk3 g h i) := m in mkm (mk3 a d g) (mk3 b e h) (mk3 c f i).

(** numpy array arithmetic on 6-vectors *)
Definition v6add (u v : vec6) : vec6 :=
  let 'mk6 a b c d e f := u in let 'mk6 p q r s t w := v in
  mk6 (a + p) (b + q) (c + r) (d + s) (e + t) (f + w).
Definition v6sub (u v : vec6) : vec6 :=
  let 'mk6 a b c d e f := u in let 'mk6 p q r s t w := v in
  mk6 (a - p) (b - q) (c - r) (d - s) (e - t) (f - w).
Definition v6scal (k : car) (v : vec6) : vec6 :=
  let 'mk6 a b c d e f := v in mk6 (k * a) (k * b) (k * c) (k * d) (k * e) (k * f).
Definition norm6 (v : vec6) : car :=
  let 'mk6 a b c d e f := v in nsqrt (a * a + b * b + c * c + d * d + e * e + f * f).
Definition rpart (s : vec6) : vec3 := let 'mk6 a b c _ _ _ := s in mk3 a b c.   (* state[0:3] *)
Definition vpart (s : vec6) : vec3 := let 'mk6 _ _ _ d e f := s in mk3 d e f.   (* state[3:6] *)
Definition concat33 (r v : vec3) : vec6 :=
  let 'mk3 a b c := r in let 'mk3 d e f := v in mk6 a b c d e f.
Definition slow (s : vec6) : vec5 := let 'mk6 a b c d e _ := s in mk5 a b c d e. (* oe[0:5] *)

(** np.linspace(start, stop, num): num points, the last one exactly [stop] when num > 1. *)
Definition linspace (start stop : car) (num : nat) : list car :=
  match num with
  | O => []
  | S O => [start]
  | S n =>
      let step := (stop - start) / nofZ (Z.of_nat n) in
      map (fun i => start + nofZ (Z.of_nat i) * step) (seq 0 n) ++ [stop]
  end.
End Vec.

Arguments vec3 : clear implicits.
Arguments vec5 : clear implicits.
Arguments vec6 : clear implicits.
Arguments mat3 : clear implicits.
Arguments psi_t : clear implicits.
