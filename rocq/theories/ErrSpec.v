(** Vocabulary of the statements about accumulated rounding: the real number a double stands for. *)
From Coq Require Import Reals ZArith List Bool Floats.SpecFloat.
From Verif Require Import Num Base Perturb Qlaw Float64.
Local Open Scope R_scope.

Definition real64 (x : f64) : R :=
  match f_val x with
  | S754_finite s m e => (if s then -1 else 1) * IZR (Zpos m) * powerRZ 2 e
  | _ => 0
  end.
(** half a unit in the last place of 1, and half the smallest positive double *)
Definition u53 : R := powerRZ 2 (-53).
Definition tiny : R := powerRZ 2 (-1075).
(** the number of thrusting steps among the first [k] *)
Definition thrusts {N : Num} (h : hist N) (k : nat) : nat :=
  length (filter (fun c => Z.eqb (snd c) 1) (firstn k (h_controls h))).
