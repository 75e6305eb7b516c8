(** Vocabulary of the statements about units (C81): perturbing accelerations in km and seconds. *)
From Coq Require Import Reals List String.
From Verif Require Import RMath Num Base Perturb RSpec ExportSpec.
Import ListNotations.
Local Open Scope R_scope.

Definition name_of (et : etype) : string := match et with Keplerian => "keplerian" | MeeWithA => "mee_with_a" end.
(** elements with the semimajor axis in km, expressed in units of [LU] km *)
Definition in_units (LU : R) (oe : vec6 RNum) : vec6 RNum := let 'mk6 a x y z w l := oe in elems (a / LU) x y z w l.
(** radial, transverse and normal unit vectors *)
Definition rtn (r v : vec3 RNum) : mat3 RNum :=
  let e := scale (/ norm r) r in let n := scale (/ norm (cross r v)) (cross r v) in @mkm RNum e (cross n e) n.
(** radiation pressure of magnitude [p] at one astronomical unit, falling off with the square of the distance *)
Definition sun_pressure (p AU : R) (d : vec3 RNum) : vec3 RNum := scale (p * (AU / norm d) ^ 2) (scale (/ norm d) d).
(** Acceleration of a satellite at [r], [v]: third bodies [ns], the acceleration [j2] and radiation pressure of the sun,
    whose SPICE number is 10. *)
Definition physical (sp : spice RNum) (et : R) (obs frame : string) (ns : list string) (sun : bool) (p : R)
  (r v j2 : vec3 RNum) : vec3 RNum :=
  apply (rtn r v)
    (add (vsum (map (fun ID => third_body r (sp_pos sp ID et frame obs) (sp_gm sp ID)) ns))
    (add j2 (if sun then sun_pressure p (sp_AU_km sp) (sub r (sp_pos sp "10" et frame obs)) else null))).
