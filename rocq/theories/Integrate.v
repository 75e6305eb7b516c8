(** Model of pyqlaw/_integrate.py.  The right-hand side may raise (it is a jitted function), hence
    the [Res] monad. *)
From Coq Require Import ZArith List Bool.
From Verif Require Import Num Base.
Local Open Scope num_scope.

Section Integrate.
Context {N : Num}.
Context {P : Type}.
Variable rhs : car -> vec6 N -> P -> Res (vec6 N).

(** _integrate.py:8-26 *)
Definition rk4 (t h : car) (y : vec6 N) (p : P) : Res (vec6 N) :=
  do k1 <- rhs t y p;
  do k2 <- rhs (t + dec 5 1 * h) (v6add y (v6scal (h * dec 5 1) k1)) p;
  do k3 <- rhs (t + dec 5 1 * h) (v6add y (v6scal (h * dec 5 1) k2)) p;
  do k4 <- rhs (t + h) (v6add y (v6scal h k3)) p;
  Ok (v6add y (v6scal (h / $6)
        (v6add (v6add (v6add k1 (v6scal ($2) k2)) (v6scal ($2) k3)) k4))).

(** Python float literals written as quotients, e.g. [1932/2197] *)
Definition fr (a b : Z) : car := nofZ a / nofZ b.

(** _integrate.py:29-53.  [tol/np.linalg.norm(...)] is a scalar division in a jitted function. *)
Definition rkf45 (t h : car) (y : vec6 N) (p : P) (tol : car) : Res (vec6 N * car) :=
  do f1 <- rhs t y p;
  let k1 := v6scal h f1 in
  do f2 <- rhs (t + fr 1 4 * h) (v6add y (v6scal (fr 1 4 * h) k1)) p;
  let k2 := v6scal h f2 in
  do f3 <- rhs (t + fr 3 8 * h)
             (v6add (v6add y (v6scal (fr 3 32 * h) k1)) (v6scal (fr 9 32 * h) k2)) p;
  let k3 := v6scal h f3 in
  do f4 <- rhs (t + fr 12 13 * h)
             (v6add (v6sub (v6add y (v6scal (fr 1932 2197 * h) k1))
                           (v6scal (fr 7200 2197 * h) k2))
                    (v6scal (fr 7296 2197 * h) k3)) p;
  let k4 := v6scal h f4 in
  do f5 <- rhs (t + h)
             (v6sub (v6add (v6sub (v6add y (v6scal (fr 439 216 * h) k1))
                                  (v6scal ($8 * h) k2))
                           (v6scal (fr 3680 513 * h) k3))
                    (v6scal (fr 845 4104 * h) k4)) p;
  let k5 := v6scal h f5 in
  do f6 <- rhs (t + fr 1 2 * h)
             (v6sub (v6add (v6sub (v6add (v6sub y (v6scal (fr 8 27 * h) k1))
                                         (v6scal ($2 * h) k2))
                                  (v6scal (fr 3544 2565 * h) k3))
                           (v6scal (fr 1859 4104 * h) k4))
                    (v6scal (fr 11 40 * h) k5)) p;
  let k6 := v6scal h f6 in
  let y_next := v6sub (v6add (v6add (v6add y (v6scal (fr 25 216) k1))
                                    (v6scal (fr 1408 2565) k3))
                             (v6scal (fr 2197 4101) k4))
                      (v6scal (fr 1 5) k5) in
  let z_next := v6add (v6sub (v6add (v6add (v6add y (v6scal (fr 16 135) k1))
                                           (v6scal (fr 6656 12825) k3))
                                    (v6scal (fr 28561 56430) k4))
                             (v6scal (fr 9 50) k5))
                      (v6scal (fr 2 55) k6) in
  do q <- jdiv tol (norm6 (v6sub z_next y_next));
  let h_next := h * dec 84 2 * npow q (fr 1 4) in
  Ok (y_next, h_next).
End Integrate.
