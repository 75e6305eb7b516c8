(** Vocabulary of C85: sums over the recorded steps. *)
From Coq Require Import Reals ZArith List.
From Verif Require Import RMath Num Base Qlaw XSpec.
Local Open Scope R_scope.

Fixpoint total (n : nat) (f : nat -> R) : R := match n with O => 0 | S k => total k f + f k end.
(** The first n steps of a history: times t, masses m and throttles thr, all finite. *)
Definition logged (h : hist XNum) (n : nat) (t m : nat -> R) (thr : nat -> Z) : Prop :=
  (forall k, (k <= n)%nat -> entry (h_times h) k (t k) /\ entry (h_masses h) k (m k)) /\
  (forall k, (k < n)%nat -> throttle h k (thr k)).
(** Time with the thruster on, and velocity change: thrust acceleration tmax/m at the start of each step times its length. *)
Definition burn_time (n : nat) (t : nat -> R) (thr : nat -> Z) : R := total n (fun k => IZR (thr k) * (t (S k) - t k)).
Definition delta_v (tmax : R) (n : nat) (t m : nat -> R) (thr : nat -> Z) : R :=
  total n (fun k => IZR (thr k) * (tmax / m k) * Rabs (t (S k) - t k)).
(** the same with the mass at the end of each step *)
Definition delta_v_end (tmax : R) (n : nat) (t m : nat -> R) (thr : nat -> Z) : R :=
  total n (fun k => IZR (thr k) * (tmax / m (S k)) * Rabs (t (S k) - t k)).
