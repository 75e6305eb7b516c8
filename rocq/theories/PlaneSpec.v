(** Vocabulary of C99 and C100: Keplerian runs that leave their orbital plane alone, and what becomes of nan elements. *)
From Coq Require Import Reals ZArith List Bool.
From Verif Require Import RMath Num Base Lyapunov Perturb Qlaw Spec MirrorSpec.
Import ListNotations.
Local Open Scope R_scope.

(** what the bounds put in the place of elements that are not a number *)
Definition lost (o : qlaw XNum) : vec6 XNum := guarded o (@mk6 XNum NaN NaN NaN NaN NaN NaN).
(** the entry is the original one, or it has been lost on the way *)
Definition kept_or (x0 x l : ereal) : Prop := x = x0 \/ x = NaN \/ x = l.
Definition same_plane (o : qlaw XNum) (z0 z : vec6 XNum) : Prop :=
  kept_or (v6_2 z0) (v6_2 z) (v6_2 (lost o)) /\ kept_or (v6_3 z0) (v6_3 z) (v6_3 (lost o)).
(** no weight on inclination, node and argument of periapsis *)
Definition no_plane_weight (w : vec5 XNum) : Prop := v5_2 w = Fin 0 /\ v5_3 w = Fin 0 /\ v5_4 w = Fin 0.
(** the perturbation has no component normal to the orbit *)
Definition pulls_in_orbit (o : qlaw XNum) : Prop := forall f t oe et v, q_ptrb o = Some f -> f t oe et = Ok v -> nought (v3_2 v).
(** the start is inside the bounds for inclination and node *)
Definition plane_in_bounds (o : qlaw XNum) (z : vec6 XNum) : Prop := v6_2 (guarded o z) = v6_2 z /\ v6_3 (guarded o z) = v6_3 z.

(** the six elements as a list *)
Definition entries (z : vec6 XNum) : list ereal := [v6_0 z; v6_1 z; v6_2 z; v6_3 z; v6_4 z; v6_5 z].
Definition nan_at (j : nat) (z : vec6 XNum) : Prop := nth_error (entries z) j = Some NaN.
Definition all_nan : vec6 XNum := @mk6 XNum NaN NaN NaN NaN NaN NaN.
