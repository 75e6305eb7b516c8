(** Integrators: C43 - C45 and C78 (real arithmetic). *)
From Coq Require Import Reals Lra ZArith List Bool.
From Verif Require Import RMath RLib Num Base Integrate Eom RSpec IntegProofs FehlSpec FehlProofs.
Import ListNotations.
Local Open Scope R_scope.

(** C43 *)
Theorem C43_rk4_cubic : forall (P : Type) (p : P) (a b c d e g : R * R * R * R) (t h y0 y1 y2 y3 y4 y5 : R),
  let rhs := fun (s : R) (_ : vec6 RNum) (_ : P) =>
     Ok (elems (cubic a s) (cubic b s) (cubic c s) (cubic d s) (cubic e s) (cubic g s)) in
  let I := fun k => quartic k (t + h) - quartic k t in
  rk4 (N:=RNum) rhs t h (elems y0 y1 y2 y3 y4 y5) p =
  Ok (elems (y0 + I a) (y1 + I b) (y2 + I c) (y3 + I d) (y4 + I e) (y5 + I g)).
Proof. exact C43_poly_lem. Qed.
Print Assumptions C43_rk4_cubic.
Theorem C43_quartic_is_the_primitive : forall k s, derivable_pt_lim (quartic k) s (cubic k s).
Proof. exact quartic_primitive. Qed.
Print Assumptions C43_quartic_is_the_primitive.
Theorem C43_rk4_linear : forall (P : Type) (p : P) A (t h : R) y, linear6 A ->
  let A1 := A y in let A2 := A A1 in let A3 := A A2 in let A4 := A A3 in
  let S := v6scal (N:=RNum) in let add := v6add (N:=RNum) in
  rk4 (N:=RNum) (fun (_ : R) v (_ : P) => Ok (A v)) t h y p =
  Ok (add (add (add (add y (S h A1)) (S (h ^ 2 / 2) A2)) (S (h ^ 3 / 6) A3)) (S (h ^ 4 / 24) A4)).
Proof. exact C43_linear_lem. Qed.
Print Assumptions C43_rk4_linear.
(** a rotation in the first two components and a shear in the next two *)
Example C43_example : linear6 (fun v => let 'mk6 a b c d e f := v in @mk6 RNum (- b)%R a d 0 f 0).
Proof. split; [intros [] []|intros k []]; cbn; f_equal; ring. Qed.

(** C44 is false: a constant rate c advances the state by (1 + 6591/16830504) h c, and a zero rate
    or a zero step divides by zero. *)
Theorem C44_constant_rate_refuted : forall (P : Type) (p : P) (c0 c1 c2 c3 c4 c5 y0 y1 y2 y3 y4 y5 t h tol : R),
  let rhs := fun (_ : R) (_ : vec6 RNum) (_ : P) => Ok (elems c0 c1 c2 c3 c4 c5) in
  let y := elems y0 y1 y2 y3 y4 y5 in
  (h <> 0 -> elems c0 c1 c2 c3 c4 c5 <> elems 0 0 0 0 0 0 ->
   exists h', rkf45 (N:=RNum) rhs t h y p tol =
     Ok (v6add (N:=RNum) y (v6scal (N:=RNum) (h * rkf_weight) (elems c0 c1 c2 c3 c4 c5)), h')) /\
  (h = 0 \/ elems c0 c1 c2 c3 c4 c5 = elems 0 0 0 0 0 0 -> rkf45 (N:=RNum) rhs t h y p tol = Err ZeroDivisionError).
Proof. exact C44_lem. Qed.
Print Assumptions C44_constant_rate_refuted.
Theorem C44_weight : rkf_weight = 1 + 2197 * 3 / (4101 * 4104) /\ rkf_weight <> 1.
Proof. exact rkf_weight_1. Qed.
Print Assumptions C44_weight.
Theorem C44_exact_step_refuted : exists tol y h', rkf45 (N:=RNum) (fun (_ : R) (_ : vec6 RNum) (_ : unit) => Ok (elems 1 0 0 0 0 0)) 0 1
  (elems 0 0 0 0 0 0) tt tol = Ok (y, h') /\ v6_0 y <> 0 + 1 * 1.
Proof. exact C44_ex. Qed.
Print Assumptions C44_exact_step_refuted.
Theorem C44_no_constant_rate_is_integrated_exactly : forall (P : Type) (p : P) (c y0 y1 y2 y3 y4 y5 t h tol : R),
  ~ exists h', rkf45 (N:=RNum) (fun (_ : R) (_ : vec6 RNum) (_ : P) => Ok (elems c 0 0 0 0 0)) t h (elems y0 y1 y2 y3 y4 y5) p tol
    = Ok (elems (y0 + h * c) y1 y2 y3 y4 y5, h').
Proof. exact C44_never. Qed.
Print Assumptions C44_no_constant_rate_is_integrated_exactly.
Example C44_example : elems 1 0 0 0 0 0 <> elems 0 0 0 0 0 0.
Proof. intros H. injection H. lra. Qed.

(** C45.  psi and the thrust are evaluated once per step, so all four stages see the same slow rates:
    an rk4 step of the five slow elements is an explicit Euler step. *)
Theorem C45_rk4_step_is_euler_partial : forall (rhs : R -> vec6 RNum -> ode_params RNum -> Res (vec6 RNum)) t h y pr y',
  rhs = eom_kep_gauss (N:=RNum) \/ rhs = eom_mee_with_a_gauss (N:=RNum) ->
  rk4 (N:=RNum) rhs t h y pr = Ok y' ->
  slow y' = euler5 h y (slow_rate (op_psi pr) (add (op_u pr) (op_ptrb pr))).
Proof. exact C45_euler_lem. Qed.
Print Assumptions C45_rk4_step_is_euler_partial.

(** C78.  Every stage increment of rkf45 carries the step length twice (k already contains h and is multiplied by h again),
    so on y' = A y the factor of A^n y in the result is of order h^(2n-1) instead of h^n/n!.  [rkf_y] are the factors in the
    returned solution, [rkf_z] those in the solution it is compared with; the next step follows from their distance. *)
Theorem C78_linear_partial : forall (P : Type) (p : P) A (t h tol : R) y, linear6 A ->
  let y1 := series A (rkf_y h) y in let err := dist6 (series A (rkf_z h) y) y1 in
  let step := rkf45 (N:=RNum) (fun (_ : R) v (_ : P) => Ok (A v)) t h y p tol in
  (0 < err -> 0 < tol -> step = Ok (y1, h * (84 / 100) * Rpower (tol / err) (1 / 4))) /\
  (err = 0 -> step = Err ZeroDivisionError).
Proof. exact C78_linear_lem. Qed.
Print Assumptions C78_linear_partial.
(** Rates that depend on time only are not affected by the stage increments: the result is a quadrature. *)
Theorem C78_time_only_partial : forall (P : Type) (p : P) (g : R -> vec6 RNum) (t h tol : R) y,
  let y1 := v6add (N:=RNum) y (quad g (rkf_qy t h)) in let err := dist6 (v6add (N:=RNum) y (quad g (rkf_qz t h))) y1 in
  let step := rkf45 (N:=RNum) (fun s (_ : vec6 RNum) (_ : P) => Ok (g s)) t h y p tol in
  (0 < err -> 0 < tol -> step = Ok (y1, h * (84 / 100) * Rpower (tol / err) (1 / 4))) /\
  (err = 0 -> step = Err ZeroDivisionError).
Proof. exact C78_time_lem. Qed.
Print Assumptions C78_time_only_partial.
(** The quadrature of the comparison solution is exact for polynomials of degree four, as Fehlberg's fifth-order formula is. *)
Theorem C78_comparison_quadrature : forall t h : R,
  let m n := fold_right (fun ws a => fst ws * snd ws ^ n + a) 0 (rkf_qz t h) in
  m 0%nat = h /\ m 1%nat = ((t + h) ^ 2 - t ^ 2) / 2 /\ m 2%nat = ((t + h) ^ 3 - t ^ 3) / 3 /\
  m 3%nat = ((t + h) ^ 4 - t ^ 4) / 4 /\ m 4%nat = ((t + h) ^ 5 - t ^ 5) / 5.
Proof. exact C78_compared_lem. Qed.
Print Assumptions C78_comparison_quadrature.
(** The fourth-order claim is false: for a linear system with solution [sol] the error of one step is at least h^2/5 for
    every step up to 1/2, every starting time and every tolerance. *)
Theorem C78_order_refuted : exists A y (sol : R -> vec6 RNum), linear6 A /\ sol 0 = y /\
  (forall s, let 'mk6 a b c d e f := A (sol s) in
     derivable_pt_lim (fun x => let 'mk6 k _ _ _ _ _ := sol x in k) s a /\
     derivable_pt_lim (fun x => let 'mk6 _ k _ _ _ _ := sol x in k) s b /\
     derivable_pt_lim (fun x => let 'mk6 _ _ k _ _ _ := sol x in k) s c /\
     derivable_pt_lim (fun x => let 'mk6 _ _ _ k _ _ := sol x in k) s d /\
     derivable_pt_lim (fun x => let 'mk6 _ _ _ _ k _ := sol x in k) s e /\
     derivable_pt_lim (fun x => let 'mk6 _ _ _ _ _ k := sol x in k) s f) /\
  forall (P : Type) (p : P) t h tol, 0 < h <= 1 / 2 -> 0 < tol -> exists y' h',
    rkf45 (N:=RNum) (fun (_ : R) v (_ : P) => Ok (A v)) t h y p tol = Ok (y', h') /\ h ^ 2 / 5 <= dist6 y' (sol h).
Proof. exact C78_order_lem. Qed.
Print Assumptions C78_order_refuted.
(** the hypothesis on the error is met: y' = y in one component, step 1 *)
Example C78_example : 0 < dist6 (series (fun v => v) (rkf_z 1) (elems 1 0 0 0 0 0)) (series (fun v => v) (rkf_y 1) (elems 1 0 0 0 0 0)).
Proof. unfold dist6, series, rkf_y, rkf_z, elems. cbn -[pow]. apply sqrt_lt_R0. lra. Qed.
