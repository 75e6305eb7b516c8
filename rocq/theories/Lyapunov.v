(** Model of pyqlaw/_lyapunov.py. *)
From Coq Require Import ZArith List Bool.
From Verif Require Import Num Base.
Local Open Scope num_scope.

Section Lyapunov.
Context {N : Num}.

(** What the lambdified control function returns (_symbolic.py:160, 365):
    [[ux,uy,uz], psi, q, dqdoe] *)
Record lyap_out : Type := mklyap {
  lo_u : vec3 N; lo_psi : psi_t N; lo_q : car; lo_dqdoe : vec5 N }.

(** Positional arguments of the lambdified functions (_symbolic.py:159, 364):
    mu, f, oe, oeT, rpmin, m, n, r, b, k, wp, woe.  A target that does not unpack into five values
    raises. *)
Definition lyap_fn : Type :=
  car -> car -> vec6 N -> list car -> car -> car -> car -> car -> car -> car -> car -> vec5 N -> Res lyap_out.
Definition dqdt_fn : Type :=
  car -> car -> vec6 N -> list car -> car -> car -> car -> car -> car -> car -> car -> vec5 N -> Res car.

(** _lyapunov.py:9-16 (jitted).  [u_float/norm] is an array division and never raises; the scalar
    division in beta raises ZeroDivisionError when the in-plane part is exactly zero. *)
Definition u_to_thrust_angles (u_float : vec3 N) : Res (vec3 N * car * car) :=
  let nrm := nsqrt (sq (v3_0 u_float) + sq (v3_1 u_float) + sq (v3_2 u_float)) in
  let u := v3divs u_float nrm in
  let alpha := natan2 (- v3_0 u) (- v3_1 u) in
  do tb <- jdiv (- v3_2 u) (nsqrt (sq (v3_0 u) + sq (v3_1 u)));
  Ok (u, alpha, natan tb).

Definition dot5 (u v : vec5 N) : car :=
  let 'mk5 a0 a1 a2 a3 a4 := u in let 'mk5 b0 b1 b2 b3 b4 := v in
  a0 * b0 + a1 * b1 + a2 * b2 + a3 * b3 + a4 * b4.

(** _lyapunov.py:19-70: (alpha, beta, u, psi, q, dqdt), dqdt = dqdoe @ psi.T @ (f*u) *)
Definition lyapunov_control_angles (fn : lyap_fn) (mu f : car) (oe : vec6 N) (oeT : list car)
  (rpmin m n r b k wp : car) (woe : vec5 N) : Res (car * car * vec3 N * psi_t N * car * car) :=
  do out <- fn mu f oe oeT rpmin m n r b k wp woe;
  do uab <- u_to_thrust_angles (lo_u out);
  let '(u, alpha, beta) := uab in
  let 'mkpsi c0 c1 c2 := lo_psi out in
  let w := mk3 (dot5 (lo_dqdoe out) c0) (dot5 (lo_dqdoe out) c1) (dot5 (lo_dqdoe out) c2) in
  let dqdt := dot3 w (v3scal f u) in
  Ok (alpha, beta, u, lo_psi out, lo_q out, dqdt).
End Lyapunov.
Arguments lyap_out : clear implicits.
Arguments lyap_fn : clear implicits.
Arguments dqdt_fn : clear implicits.
