(** Model of pyqlaw/_eom.py (all jitted: scalar divisions raise on zero). *)
From Coq Require Import ZArith List Bool.
From Verif Require Import Num Base.
Local Open Scope num_scope.

Section Eom.
Context {N : Num}.

(** [ode_params] of _qlaw.py:520: (mu, u, psi[0], psi[1], psi[2], ptrb_RTN) *)
Record ode_params : Type := mkparams {
  op_mu : car; op_u : vec3 N; op_psi : psi_t N; op_ptrb : vec3 N }.

(** np.dot(psi, v) where rows 0-4 of psi are the Q-law's columns transposed and row 5 is [r5] *)
Definition psi_dot (psi : psi_t N) (r5 v : vec3 N) : vec6 N :=
  let 'mkpsi (mk5 a0 a1 a2 a3 a4) (mk5 b0 b1 b2 b3 b4) (mk5 c0 c1 c2 c3 c4) := psi in
  mk6 (dot3 (mk3 a0 b0 c0) v) (dot3 (mk3 a1 b1 c1) v) (dot3 (mk3 a2 b2 c2) v)
      (dot3 (mk3 a3 b3 c3) v) (dot3 (mk3 a4 b4 c4) v) (dot3 r5 v).

(** doe = np.dot(psi, u + ptrb) + [0,0,0,0,0,rate] *)
Definition add_rate (d : vec6 N) (rate : car) : vec6 N :=
  v6add d (mk6 ($0) ($0) ($0) ($0) ($0) rate).

(** _eom.py:9-39 *)
Definition eom_kep_gauss (t : car) (state : vec6 N) (param : ode_params) : Res (vec6 N) :=
  let mu := op_mu param in
  let 'mk6 sma ecc inc ra om ta := state in
  let p := sma * ($1 - sq ecc) in
  let h := nsqrt (sma * mu * ($1 - sq ecc)) in
  do r <- jdiv (sq h) (mu * ($1 + ecc * ncos ta));
  do e0 <- jdiv (p * ncos ta) (ecc * h);
  do e1 <- jdiv (- (p + r) * nsin ta) (ecc * h);
  do rate <- jdiv h (sq r);
  Ok (add_rate (psi_dot (op_psi param) (mk3 e0 e1 ($0)) (v3add (op_u param) (op_ptrb param))) rate).

(** _eom.py:42-72 (not used by QLaw) *)
Definition eom_mee_gauss (t : car) (state : vec6 N) (param : ode_params) : Res (vec6 N) :=
  let mu := op_mu param in
  let 'mk6 p f g h k l := state in
  let sinL := nsin l in
  let cosL := ncos l in
  let w := $1 + f * ncos l + g * nsin l in
  do pmu <- jdiv p mu;
  let sqrt_pmu := nsqrt pmu in
  do iw <- jdiv ($1) w;
  do sw <- jdiv sqrt_pmu w;
  do gw <- jdiv (- g) w;
  do fw <- jdiv f w;
  let c0 := mk5 ($0) (sqrt_pmu * sinL) (- sqrt_pmu * cosL) ($0) ($0) in
  let c1 := mk5 (iw * sqrt_pmu * $2 * p) (sw * ((w + $1) * cosL + f))
                (sw * ((w + $1) * sinL + g)) ($0) ($0) in
  let c2 := mk5 ($0) (gw * sqrt_pmu * (h * sinL - k * cosL)) (fw * sqrt_pmu * (h * sinL - k * cosL))
                (sw * dec 5 1 * ($1 + sq h + sq k) * cosL)
                (sw * dec 5 1 * ($1 + sq h + sq k) * sinL) in
  do wp <- jdiv w p;
  Ok (add_rate (psi_dot (mkpsi c0 c1 c2) (mk3 ($0) ($0) (sw * (h * sinL - k * cosL)))
                        (v3add (op_u param) (op_ptrb param)))
               (nsqrt (mu * p) * sq wp)).

(** _eom.py:75-112.  [r] is computed (and may raise) but not used. *)
Definition eom_mee_with_a_gauss (t : car) (state : vec6 N) (param : ode_params) : Res (vec6 N) :=
  let mu := op_mu param in
  let 'mk6 sma f g h k l := state in
  let ecc := nsqrt (sq f + sq g) in
  let ang_mom := nsqrt (sma * mu * ($1 - sq ecc)) in
  do gf <- jdiv g f;
  let ta := l - natan gf in
  do r <- jdiv (sq ang_mom) (mu * ($1 + ecc * ncos ta));
  let p := sma * ($1 - sq ecc) in
  let sinL := nsin l in
  let cosL := ncos l in
  let w := $1 + f * cosL + g * sinL in
  do pmu <- jdiv p mu;
  let sqrt_pmu := nsqrt pmu in
  do sw <- jdiv sqrt_pmu w;
  do wp <- jdiv w p;
  Ok (add_rate (psi_dot (op_psi param) (mk3 ($0) ($0) (sw * (h * sinL - k * cosL)))
                        (v3add (op_u param) (op_ptrb param)))
               (nsqrt (mu * p) * sq wp)).
End Eom.
Arguments ode_params : clear implicits.
