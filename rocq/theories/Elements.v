(** Model of pyqlaw/_transformations.py and pyqlaw/_elements.py.
    All functions are numba-jitted except [wrap]; scalar divisions therefore raise on zero. *)
From Coq Require Import ZArith List Bool.
From Verif Require Import Num Base.
Import ListNotations.
Local Open Scope num_scope.

Section Elements.
Context {N : Num}.

(** _transformations.py:8-12 *)
Definition rotmat1 (phi : car) : mat3 N :=
  mkm (mk3 ($1) ($0) ($0)) (mk3 ($0) (ncos phi) (nsin phi)) (mk3 ($0) (- nsin phi) (ncos phi)).
(** _transformations.py:14-18 *)
Definition rotmat2 (phi : car) : mat3 N :=
  mkm (mk3 (ncos phi) ($0) (- nsin phi)) (mk3 ($0) ($1) ($0)) (mk3 (nsin phi) ($0) (ncos phi)).
(** _transformations.py:20-24 *)
Definition rotmat3 (phi : car) : mat3 N :=
  mkm (mk3 (ncos phi) (nsin phi) ($0)) (mk3 (- nsin phi) (ncos phi) ($0)) (mk3 ($0) ($0) ($1)).

(** _transformations.py:27-29.  Python parses [(alpha + pi) % 2.0 * pi - pi] as
    [(((alpha + pi) % 2.0) * pi) - pi]. *)
Definition wrap (alpha : car) : car := (nmod (alpha + npi) ($2)) * npi - npi.

(** _elements.py:11-27 *)
Definition get_inclination (state : vec6 N) : Res car :=
  let r := rpart state in
  let v := vpart state in
  let h := cross3 r v in
  do c <- jdiv (v3_2 h) (norm3 h);
  Ok (nacos c).

(** _elements.py:30-50 *)
Definition get_raan (state : vec6 N) : Res car :=
  let r := rpart state in
  let v := vpart state in
  let h := cross3 r v in
  let zdir := mk3 ($0) ($0) ($1) in
  let ndir := cross3 zdir h in
  Ok (natan2 (v3_1 ndir) (v3_0 ndir)).

(** _elements.py:53-74.  [r/la.norm(r)] is an array division (no exception). *)
Definition get_eccentricity (state : vec6 N) (mu : car) : Res (vec3 N) :=
  let r := rpart state in
  let v := vpart state in
  let h := cross3 r v in
  do imu <- jdiv ($1) mu;
  Ok (v3sub (v3scal imu (cross3 v h)) (v3divs r (norm3 r))).

(** _elements.py:77-105 *)
Definition get_omega (state : vec6 N) (mu : car) : Res car :=
  let r := rpart state in
  let v := vpart state in
  let h := cross3 r v in
  let zdir := mk3 ($0) ($0) ($1) in
  let ndir := cross3 zdir h in
  do imu <- jdiv ($1) mu;
  let ecc := v3sub (v3scal imu (cross3 v h)) (v3divs r (norm3 r)) in
  if dec 1 12 <=? nabs (norm3 ndir * norm3 ecc) then
    do c <- jdiv (dot3 ndir ecc) (norm3 ndir * norm3 ecc);
    let omega := nacos c in
    if v3_2 ecc <? $0 then Ok ($2 * npi - omega) else Ok omega
  else Ok (natan2 (v3_1 ecc) (v3_0 ecc)).

(** _elements.py:108-126 *)
Definition get_trueanom (state : vec6 N) (mu : car) : Res car :=
  let r := rpart state in
  let v := vpart state in
  let h := norm3 (cross3 r v) in
  do vr <- jdiv (dot3 v r) (norm3 r);
  do c <- jdiv (sq h) (norm3 r);
  Ok (natan2 (h * vr) (c - mu)).

(** _elements.py:129-148 *)
Definition get_semiMajorAxis (state : vec6 N) (mu : car) : Res car :=
  let r := rpart state in
  let v := vpart state in
  let h := norm3 (cross3 r v) in
  do ev <- get_eccentricity state mu;
  let e := norm3 ev in
  jdiv (sq h) (mu * ($1 - sq e)).

(** _elements.py:151-167 *)
Definition get_period (state : vec6 N) (mu : car) : Res car :=
  do a <- get_semiMajorAxis state mu;
  if a <? $0 then Ok ($(-1))
  else do c <- jdiv (cube a) mu; Ok ($2 * npi * nsqrt c).

(** _elements.py:170-188 *)
Definition sv2kep (state : vec6 N) (mu : car) : Res (vec6 N) :=
  do sma <- get_semiMajorAxis state mu;
  do ev <- get_eccentricity state mu;
  let ecc := norm3 ev in
  do inc <- get_inclination state;
  do raan <- get_raan state;
  do aop <- get_omega state mu;
  do ta <- get_trueanom state mu;
  Ok (mk6 sma ecc inc raan aop ta).

(** _elements.py:191-228 *)
Definition kep2sv (kep : vec6 N) (mu : car) : Res (vec6 N) :=
  let 'mk6 sma ecc inc raan aop ta := kep in
  let h := nsqrt (sma * mu * ($1 - sq ecc)) in
  do c <- jdiv (sq h) (mu * ($1 + ecc * ncos ta));
  let rPF := v3scal c (mk3 (ncos ta) (nsin ta) ($0)) in
  do d <- jdiv mu h;
  let vPF := v3scal d (mk3 (- nsin ta) (ecc + ncos ta) ($0)) in
  let '(r1, v1) := if negb (aop =? $0)
                   then (matvec (rotmat3 (- aop)) rPF, matvec (rotmat3 (- aop)) vPF)
                   else (rPF, vPF) in
  let '(r2, v2) := if negb (inc =? $0)
                   then (matvec (rotmat1 (- inc)) r1, matvec (rotmat1 (- inc)) v1)
                   else (r1, v1) in
  let '(rI, vI) := if negb (raan =? $0)
                   then (matvec (rotmat3 (- raan)) r2, matvec (rotmat3 (- raan)) v2)
                   else (r2, v2) in
  Ok (concat33 rI vI).

(** Python list comprehension / loop over a fallible body *)
Fixpoint mapM {A B} (f : A -> Res B) (l : list A) : Res (list B) :=
  match l with
  | [] => Ok []
  | x :: xs => do y <- f x; do ys <- mapM f xs; Ok (y :: ys)
  end.

(** _elements.py:231-239; the 6 x steps array is the list of its columns. *)
Definition get_orbit_coordinates (oe_kep : vec6 N) (mu : car) (steps : nat) : Res (list (vec6 N)) :=
  let 'mk6 sma ecc inc raan aop _ := oe_kep in
  let tas := linspace ($0) ($2 * npi) steps in
  mapM (fun ta => kep2sv (mk6 sma ecc inc raan aop ta) mu) tas.

(** _elements.py:242-254 *)
Definition kep2mee (oe_kep : vec6 N) : vec6 N :=
  let 'mk6 a e i raan om ta := oe_kep in
  let p := a * ($1 - sq e) in
  let f := e * ncos (raan + om) in
  let g := e * nsin (raan + om) in
  let h := ntan (i / $2) * ncos raan in
  let k := ntan (i / $2) * nsin raan in
  let l := raan + om + ta in
  mk6 p f g h k l.

(** _elements.py:257-269 *)
Definition mee2kep (oe_mee : vec6 N) : Res (vec6 N) :=
  let 'mk6 p f g h k l := oe_mee in
  do a <- jdiv p ($1 - sq f - sq g);
  let e := nsqrt (sq f + sq g) in
  let i := natan2 ($2 * nsqrt (sq h + sq k)) ($1 - sq h - sq k) in
  let raan := natan2 k h in
  let om := natan2 (g * h - f * k) (f * h + g * k) in
  let ta := l - raan - om in
  Ok (mk6 a e i raan om ta).

(** _elements.py:272-277 *)
Definition mee_with_a2mee (m : vec6 N) : vec6 N :=
  let 'mk6 a f g h k l := m in
  let p := a * ($1 - sq f - sq g) in
  mk6 p f g h k l.

(** _elements.py:280-282 *)
Definition mee_with_a2kep (m : vec6 N) : Res (vec6 N) := mee2kep (mee_with_a2mee m).

(** _elements.py:285-291 *)
Definition mee2mee_with_a (m : vec6 N) : Res (vec6 N) :=
  let 'mk6 p f g h k l := m in
  do a <- jdiv p ($1 - sq f - sq g);
  Ok (mk6 a f g h k l).

(** _elements.py:294-306 *)
Definition kep2mee_with_a (oe_kep : vec6 N) : vec6 N :=
  let 'mk6 a e i raan om ta := oe_kep in
  let f := e * ncos (raan + om) in
  let g := e * nsin (raan + om) in
  let h := ntan (i / $2) * ncos raan in
  let k := ntan (i / $2) * nsin raan in
  let l := raan + om + ta in
  mk6 a f g h k l.

(** _elements.py:309-315 *)
Definition mee_with_a2sv (m : vec6 N) (mu : car) : Res (vec6 N) :=
  let 'mk6 a f g h k l := m in
  let mee := mk6 (a * ($1 - sq f - sq g)) f g h k l in
  do kep <- mee2kep mee;
  kep2sv kep mu.

(** _elements.py:318-322 *)
Definition ta2ea (ta ecc : car) : Res car :=
  do c <- jdiv ($1 - ecc) ($1 + ecc);
  Ok ($2 * natan (nsqrt c * ntan (ta / $2))).

(** _elements.py:325-329 *)
Definition mee2ea (mee : vec6 N) : Res car :=
  let ecc := nsqrt (sq (v6_1 mee) + sq (v6_2 mee)) in
  let ta := v6_5 mee - natan2 (v6_2 mee) (v6_1 mee) in
  ta2ea ta ecc.

End Elements.
