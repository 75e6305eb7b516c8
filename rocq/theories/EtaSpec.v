(** Vocabulary of C95: what two runs with different effectivity thresholds have in common. *)
From Coq Require Import ZArith List Bool.
From Verif Require Import Num Base Qlaw Spec.
Import ListNotations.

Section Eta.
Context {N : Num}.

(** The value of a threshold argument of solve: a number, or what the given function returns. *)
Definition threshold_at (e : eta_arg N) (t : car) (oe : vec6 N) (mass batt : car) : car :=
  match e with EtaFloat v => v | EtaFun f => f t oe mass batt | EtaOther => nnan end.

(** Two runs went the same way: everything recorded agrees except effectivities and thresholds. *)
Definition same_flight (h1 h2 : hist N) : Prop :=
  h_times h1 = h_times h2 /\ h_states h1 = h_states h2 /\ h_masses h1 = h_masses h2 /\ h_battery h1 = h_battery h2 /\
  h_controls h1 = h_controls h2 /\ h_Qs h1 = h_Qs h2 /\ h_dQdts h1 = h_dQdts h2.

(** They went the same way up to the decision of row [k]: states, times, masses and battery levels up to the start of that
    step, controls before it, and the values of the law up to and including it. *)
Definition same_until (k : nat) (h1 h2 : hist N) : Prop :=
  firstn (S k) (h_times h1) = firstn (S k) (h_times h2) /\ firstn (S k) (h_states h1) = firstn (S k) (h_states h2) /\
  firstn (S k) (h_masses h1) = firstn (S k) (h_masses h2) /\ firstn (S k) (h_battery h1) = firstn (S k) (h_battery h2) /\
  firstn k (h_controls h1) = firstn k (h_controls h2) /\
  firstn (S k) (h_Qs h1) = firstn (S k) (h_Qs h2) /\ firstn (S k) (h_dQdts h1) = firstn (S k) (h_dQdts h2).
(** At row [k] both ask for the same direction, but one thrusts with throttle [a] and the other with [b]. *)
Definition part_at (k : nat) (h1 h2 : hist N) (a b : Z) : Prop :=
  same_until k h1 h2 /\ a <> b /\
  exists alpha beta, nth_error (h_controls h1) k = Some (alpha, beta, a) /\ nth_error (h_controls h2) k = Some (alpha, beta, b).
End Eta.

Section Order.
Context {N : Num}.
(** Threshold [e'] is never the laxer one: whatever is below [e] is below [e']. *)
Definition stricter (e e' : eta_arg N) : Prop := forall t oe mass batt x,
  nltb x (threshold_at e t oe mass batt) = true -> nltb x (threshold_at e' t oe mass batt) = true.
(** A threshold that is never positive. *)
Definition idle (e : eta_arg N) : Prop := forall t oe mass batt, nltb (nofZ 0) (threshold_at e t oe mass batt) = false.
End Order.
