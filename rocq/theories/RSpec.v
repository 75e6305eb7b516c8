(** Vocabulary of the statements about real-number formulas: plane geometry, two-body invariants,
    textbook formulas.  Nothing here refers to the modelled functions. *)
From Coq Require Import Reals ZArith List Bool.
From Verif Require Import RMath Num Base.
Import ListNotations.
Local Open Scope R_scope.

Definition vec (x y z : R) : vec3 RNum := @mk3 RNum x y z.
Definition elems (a b c d e f : R) : vec6 RNum := @mk6 RNum a b c d e f.
Definition dot (u v : vec3 RNum) : R := let 'mk3 a b c := u in let 'mk3 x y z := v in a * x + b * y + c * z.
Definition cross (u v : vec3 RNum) : vec3 RNum :=
  let 'mk3 a b c := u in let 'mk3 x y z := v in @mk3 RNum (b * z - c * y) (c * x - a * z) (a * y - b * x).
Definition norm (u : vec3 RNum) : R := sqrt (dot u u).
Definition scale (k : R) (u : vec3 RNum) : vec3 RNum := let 'mk3 x y z := u in @mk3 RNum (k * x) (k * y) (k * z).

(** Vector with coordinates [x] along the node line and [y] in the orbital plane normal to it, and
    the unit normal of that plane. *)
Definition in_plane (i raan x y : R) : vec3 RNum :=
  vec (x * cos raan - y * (sin raan * cos i)) (x * sin raan + y * (cos raan * cos i)) (y * sin i).
Definition plane_normal (i raan : R) : vec3 RNum := vec (sin raan * sin i) (- (cos raan * sin i)) (cos i).

Definition energy (mu : R) (s : vec6 RNum) : R := dot (vpart s) (vpart s) / 2 - mu / norm (rpart s).
Definition momentum (s : vec6 RNum) : vec3 RNum := cross (rpart s) (vpart s).

(** Textbook Cartesian state of Keplerian elements. *)
Definition kep_r (a e i raan om ta : R) : vec3 RNum :=
  let rho := a * (1 - e * e) / (1 + e * cos ta) in
  in_plane i raan (rho * cos (om + ta)) (rho * sin (om + ta)).
Definition kep_v (mu a e i raan om ta : R) : vec3 RNum :=
  let c := sqrt (mu / (a * (1 - e * e))) in
  in_plane i raan (- (c * (sin (om + ta) + e * sin om))) (c * (cos (om + ta) + e * cos om)).

(** Textbook Cartesian state of equinoctial elements (a,f,g,h,k,L). *)
Definition mee_r (a f g h k l : R) : vec3 RNum :=
  let rho := a * (1 - f * f - g * g) / (1 + f * cos l + g * sin l) in
  let s2 := 1 + h * h + k * k in let a2 := h * h - k * k in
  vec (rho / s2 * (cos l + a2 * cos l + 2 * h * k * sin l))
      (rho / s2 * (sin l - a2 * sin l + 2 * h * k * cos l))
      (2 * rho / s2 * (h * sin l - k * cos l)).
Definition mee_v (mu a f g h k l : R) : vec3 RNum :=
  let c := sqrt (mu / (a * (1 - f * f - g * g))) in
  let s2 := 1 + h * h + k * k in let a2 := h * h - k * k in
  vec (- (1 / s2 * c * (sin l + a2 * sin l - 2 * h * k * cos l + g - 2 * f * h * k + a2 * g)))
      (- (1 / s2 * c * (- cos l + a2 * cos l + 2 * h * k * sin l - f + 2 * g * h * k + a2 * f)))
      (2 / s2 * c * (h * cos l + k * sin l + f * h + g * k)).

(** Conversion through Keplerian angles keeps the direction of periapsis: the node line exists, or
    periapsis is on the +x axis, or the orbit is circular. *)
Definition periapsis_kept (f g h k : R) : Prop := h <> 0 \/ k <> 0 \/ (g = 0 /\ 0 <= f).

(** An element with non-zero weight is within tolerance; angles are compared on the circle. *)
Definition within (w gap tol : R) : Prop := w = 0 \/ Rabs gap <= tol.
Definition within_angle (w gap tol : R) : Prop := w = 0 \/ exists k : Z, Rabs (gap - 2 * PI * IZR k) <= tol.
(** [c] is the point of [lo,hi] closest to [x]. *)
Definition closest (lo hi x c : R) : Prop :=
  lo <= c <= hi /\ forall y, lo <= y <= hi -> Rabs (x - c) <= Rabs (x - y).

(** ** Perturbing accelerations *)
Definition add (u v : vec3 RNum) : vec3 RNum := let 'mk3 a b c := u in let 'mk3 x y z := v in @mk3 RNum (a + x) (b + y) (c + z).
Definition sub (u v : vec3 RNum) : vec3 RNum := let 'mk3 a b c := u in let 'mk3 x y z := v in @mk3 RNum (a - x) (b - y) (c - z).
Definition null : vec3 RNum := vec 0 0 0.
(** rows of [m] are orthonormal and right-handed *)
Definition rotation (m : mat3 RNum) : Prop :=
  let 'mkm x y z := m in
  dot x x = 1 /\ dot y y = 1 /\ dot z z = 1 /\ dot x y = 0 /\ dot y z = 0 /\ dot z x = 0 /\ cross x y = z.
Definition apply (m : mat3 RNum) (v : vec3 RNum) : vec3 RNum :=
  let 'mkm x y z := m in vec (dot x v) (dot y v) (dot z v).
(** direct minus indirect attraction of a body at [s] *)
Definition third_body (r s : vec3 RNum) (mu3 : R) : vec3 RNum :=
  scale (- mu3) (add (scale (/ (norm (sub r s)) ^ 3) (sub r s)) (scale (/ (norm s) ^ 3) s)).
(** J2 disturbing potential at a position given in principal axes (acceleration = + gradient) *)
Definition J2_potential (mu J2 Re : R) (r : vec3 RNum) : R :=
  let 'mk3 x y z := r in
  - (mu * J2 * Re ^ 2 / 2) * (3 * z ^ 2 / norm r ^ 5 - 1 / norm r ^ 3).
(** [a] is the gradient of [U] at [r]: directional derivative along every [u] *)
Definition gradient (U : vec3 RNum -> R) (r a : vec3 RNum) : Prop :=
  forall u, derivable_pt_lim (fun t => U (add r (scale t u))) 0 (dot a u).
Definition vsum (l : list (vec3 RNum)) : vec3 RNum := fold_right add null l.

(** ** Plots *)
Definition is_max (l : list R) (m : R) : Prop := In m l /\ forall x, In x l -> x <= m.
Definition is_min (l : list R) (m : R) : Prop := In m l /\ forall x, In x l -> m <= x.

(** ** Linear maps on six components *)
Definition linear6 (A : vec6 RNum -> vec6 RNum) : Prop :=
  (forall u v, A (v6add (N:=RNum) u v) = v6add (N:=RNum) (A u) (A v)) /\
  (forall k u, A (v6scal (N:=RNum) k u) = v6scal (N:=RNum) k (A u)).

(** ** One integration step *)
Definition cubic (c : R * R * R * R) (t : R) : R := let '(c0, c1, c2, c3) := c in c0 + c1 * t + c2 * t ^ 2 + c3 * t ^ 3.
Definition quartic (c : R * R * R * R) (t : R) : R :=
  let '(c0, c1, c2, c3) := c in c0 * t + c1 * t ^ 2 / 2 + c2 * t ^ 3 / 3 + c3 * t ^ 4 / 4.
(** sum of the weights rkf45 gives to its stages *)
Definition rkf_weight : R := 25 / 216 + 1408 / 2565 + 2197 / 4101 - 1 / 5.

(** slow part of psi applied to an acceleration, and an explicit Euler step with it *)
Definition slow_rate (psi : psi_t RNum) (f : vec3 RNum) : vec5 RNum :=
  let 'mkpsi (mk5 a0 a1 a2 a3 a4) (mk5 b0 b1 b2 b3 b4) (mk5 c0 c1 c2 c3 c4) := psi in
  @mk5 RNum (dot (vec a0 b0 c0) f) (dot (vec a1 b1 c1) f) (dot (vec a2 b2 c2) f) (dot (vec a3 b3 c3) f) (dot (vec a4 b4 c4) f).
Definition euler5 (h : R) (y : vec6 RNum) (d : vec5 RNum) : vec5 RNum :=
  let 'mk6 a b c e f _ := y in let 'mk5 p q r s w := d in @mk5 RNum (a + h * p) (b + h * q) (c + h * r) (e + h * s) (f + h * w).

(** ** Control *)
(** unit vector (radial, transverse, normal) of in-plane angle [alpha] and out-of-plane angle [beta] *)
Definition direction (alpha beta : R) : vec3 RNum := vec (cos beta * sin alpha) (cos beta * cos alpha) (sin beta).
Definition dot5R (u v : vec5 RNum) : R :=
  let 'mk5 a0 a1 a2 a3 a4 := u in let 'mk5 b0 b1 b2 b3 b4 := v in
  a0 * b0 + a1 * b1 + a2 * b2 + a3 * b3 + a4 * b4.
