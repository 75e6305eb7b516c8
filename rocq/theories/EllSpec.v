(** Orbits on which the generated equations have no singularity. *)
From Coq Require Import Reals.
From Verif Require Import RMath Num Base Perturb.
Local Open Scope R_scope.

(** All six elements are finite, the orbit is an ellipse, and it is none of those on which the
    element set breaks down: circular or equatorial for Keplerian elements, f = 0 for equinoctial
    ones (the code divides g by f). *)
Definition proper_ellipse (et : etype) (z : vec6 XNum) : Prop := exists a b c d e l : R,
  z = @mk6 XNum (Fin a) (Fin b) (Fin c) (Fin d) (Fin e) (Fin l) /\ 0 < a /\
  match et with
  | Keplerian => 0 < b < 1 /\ sin c <> 0
  | MeeWithA => b * b + c * c < 1 /\ b <> 0
  end.
