(** The elementary rotation matrices. *)
From Coq Require Import Reals Lra.
From Verif Require Import RMath RLib Num Base Elements RSpec.
Local Open Scope R_scope.

Lemma C80_rotations_lem (phi : R) :
  rotation (rotmat1 (N:=RNum) phi) /\ rotation (rotmat2 (N:=RNum) phi) /\ rotation (rotmat3 (N:=RNum) phi).
Proof.
  pose proof (sin2_cos2 phi) as H. unfold Rsqr in H.
  repeat split; cbn; unfold vec; try f_equal; try nra.
Qed.
Lemma C80_angles_lem (phi theta rho z : R) :
  let c := rho * cos theta in let s := rho * sin theta in
  let c' := rho * cos (theta - phi) in let s' := rho * sin (theta - phi) in
  apply (rotmat1 (N:=RNum) phi) (vec z c s) = vec z c' s' /\
  apply (rotmat2 (N:=RNum) phi) (vec s z c) = vec s' z c' /\
  apply (rotmat3 (N:=RNum) phi) (vec c s z) = vec c' s' z.
Proof.
  intros c s c' s'. unfold c, s, c', s'. rewrite cos_minus, sin_minus. repeat split; cbn; unfold vec; f_equal; ring.
Qed.
