(** Vocabulary of C86: node line and periapsis direction of a Cartesian state. *)
From Coq Require Import Reals ZArith.
From Verif Require Import RMath Num Base RSpec.
Local Open Scope R_scope.

(** z axis x angular momentum, and the vector of length e that points to periapsis: v x h / mu - r / |r| *)
Definition node_line (s : vec6 RNum) : vec3 RNum := cross (vec 0 0 1) (momentum s).
Definition to_periapsis (mu : R) (s : vec6 RNum) : vec3 RNum :=
  let 'mk3 a b c := cross (vpart s) (momentum s) in let 'mk3 x y z := rpart s in
  vec (a / mu - x / norm (rpart s)) (b / mu - y / norm (rpart s)) (c / mu - z / norm (rpart s)).
(** A bound state that is not falling straight at the centre. *)
Definition bound_orbit (mu : R) (s : vec6 RNum) : Prop := energy mu s < 0 /\ norm (momentum s) <> 0.
