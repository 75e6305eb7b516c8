(** Model of pyqlaw/_perturbations.py.  SPICE queries are oracles (record fields). *)
From Coq Require Import ZArith List Bool String.
From Verif Require Import Num Base Elements.
Import ListNotations.
Local Open Scope num_scope.

Section Perturb.
Context {N : Num}.

(** _perturbations.py:10-26 (jitted) *)
Definition perturbation_third_body_battin (r s : vec3 N) (mu_third : car) : Res (vec3 N) :=
  let d := v3sub r s in
  let dnorm := nsqrt (dot3 d d) in
  do q <- jdiv (dot3 r (v3sub r (v3scal ($2) s))) (dot3 s s);
  do c <- jdiv ($3 + $3 * q + sq q) ($1 + cube (nsqrt ($1 + q)));
  let F := q * c in
  do k <- jdiv (- mu_third) (cube dnorm);
  Ok (v3scal k (v3add r (v3scal F s))).

Definition pow5 (x : car) : car := x * x * x * x * x.

(** _perturbations.py:29-51 (jitted) *)
Definition perturbation_J2 (rECI : vec3 N) (T_ECI2PA : mat3 N) (mu J2 Re : car) : Res (vec3 N) :=
  let r := norm3 rECI in
  do coeff <- jdiv ($(-3) * mu * J2 * sq Re) ($2 * pow5 r);
  let rPA := matvec T_ECI2PA rECI in
  let 'mk3 x y z := rPA in
  let a_PA := v3scal coeff (mk3 (($1 - $5 * sq z) * x) (($1 - $5 * sq z) * y) (($3 - $5 * sq z) * z)) in
  Ok (matvec (mtrans T_ECI2PA) a_PA).

(** _perturbations.py:54-65 (plain numpy) *)
Definition perturbation_SRP (r_sun2sc : vec3 N) (AU k_srp : car) : vec3 N :=
  v3divs (v3scal (k_srp * sq AU) r_sun2sc) (cube (norm3 r_sun2sc)).

(** _perturbations.py:68-88 (jitted; array / scalar divisions do not raise) *)
Definition pxformECI2RTN (rECI vECI : vec3 N) : mat3 N :=
  let er := v3divs rECI (norm3 rECI) in
  let h := cross3 rECI vECI in
  let en := v3divs h (norm3 h) in
  let et := cross3 en er in
  mkm er et en.

Inductive etype : Type := Keplerian | MeeWithA.

(** SPICE as an oracle: bodvrd(id,"GM"), spkpos(id, et, frame, "NONE", obs) (km),
    pxform(from, to, et), convrt(1.0,"AU","km"). *)
Record spice : Type := mkspice {
  sp_gm : string -> car;
  sp_pos : string -> car -> string -> string -> vec3 N;
  sp_pxform : string -> string -> car -> mat3 N;
  sp_AU_km : car }.

(** _perturbations.py:91-151: the attributes of SpicePerturbations; the two lists may be None *)
Record ptrb_obj : Type := mkptrb {
  pt_et_ref : car; pt_LU : car; pt_TU : car; pt_obs : string;
  pt_frame : string; pt_frame_PA : string;
  pt_names : option (list string); pt_gms : option (list car);
  pt_J2 : car; pt_Re : car; pt_k_srp : car;
  pt_use_J2 : bool; pt_use_SRP : bool; pt_obs_mu : car }.

(** _perturbations.py:109-151 *)
Definition ptrb_init (sp : spice) (et_ref LU TU : car) (obs frame frame_PA : string)
  (names : option (list string)) (gms : option (list car)) (J2 Re_km P_SRP Cr Am : car)
  (use_J2 use_SRP : bool) : ptrb_obj :=
  let VU := LU / TU in
  let MU_REF := LU * sq VU in
  {| pt_et_ref := et_ref; pt_LU := LU; pt_TU := TU; pt_obs := obs;
     pt_frame := frame; pt_frame_PA := frame_PA; pt_names := names;
     pt_gms := match gms, names with
               | None, Some ns => Some (map (fun ID => sp_gm sp ID / MU_REF) ns)
               | _, _ => gms
               end;
     pt_J2 := J2; pt_Re := Re_km / LU;
     pt_k_srp := P_SRP * Cr * Am / ($1000 * LU / sq TU);
     pt_use_J2 := use_J2; pt_use_SRP := use_SRP;
     pt_obs_mu := sp_gm sp obs / MU_REF |}.

(** the loop of _perturbations.py:177-179; zip stops at the shorter list *)
Fixpoint third_body_loop (sp : spice) (o : ptrb_obj) (et : car) (r : vec3 N)
  (l : list (car * string)) (acc : vec3 N) : Res (vec3 N) :=
  match l with
  | [] => Ok acc
  | (mu3, ID) :: rest =>
      do a <- perturbation_third_body_battin r
                (v3divs (sp_pos sp ID et (pt_frame o) (pt_obs o)) (pt_LU o)) mu3;
      third_body_loop sp o et r rest (v3add acc a)
  end.

(** _perturbations.py:153-195 *)
Definition get_perturbations_RTN (sp : spice) (o : ptrb_obj) (t : car) (oe : vec6 N) (et_ : etype)
  : Res (vec3 N) :=
  do rv <- (match et_ with
            | Keplerian => kep2sv oe (pt_obs_mu o)
            | MeeWithA => mee_with_a2sv oe (pt_obs_mu o)
            end);
  let et := pt_et_ref o + t * pt_TU o in
  do acc1 <- (match pt_gms o, pt_names o with
              | Some gs, Some ns => third_body_loop sp o et (rpart rv) (combine gs ns) v3zero
              | _, _ => Err TypeError       (* zip(None, ...) *)
              end);
  do acc2 <- (if pt_use_J2 o then
                let T := sp_pxform sp (pt_frame o) (pt_frame_PA o) et in
                do a <- perturbation_J2 (rpart rv) T (pt_obs_mu o) (pt_J2 o) (pt_Re o);
                Ok (v3add acc1 a)
              else Ok acc1);
  let acc3 := if pt_use_SRP o then
                let pos_sun := sp_pos sp "10"%string et (pt_frame o) (pt_obs o) in
                let r_sun2sc := v3sub (rpart rv) (v3divs pos_sun (pt_LU o)) in
                v3add acc2 (perturbation_SRP r_sun2sc (sp_AU_km sp / pt_LU o) (pt_k_srp o))
              else acc2 in
  Ok (matvec (pxformECI2RTN (rpart rv) (vpart rv)) acc3).

(** _perturbations.py:165-170: the public method takes the element type as a string *)
Definition get_perturbations_by_name (sp : spice) (o : ptrb_obj) (t : car) (oe : vec6 N) (name : string)
  : Res (vec3 N) :=
  if String.eqb name "keplerian" then get_perturbations_RTN sp o t oe Keplerian
  else if String.eqb name "mee_with_a" then get_perturbations_RTN sp o t oe MeeWithA
  else Err ValueError.
End Perturb.
Arguments spice : clear implicits.
Arguments ptrb_obj : clear implicits.
