(** Vocabulary of C98: the built-in perturbations and the reference plane. *)
From Coq Require Import Reals ZArith String List Bool.
From Verif Require Import RMath Num Base Elements Perturb RSpec ExportSpec Qlaw MirrorSpec FinSpec.
Import ListNotations.
Local Open Scope R_scope.

(** the perturbing bodies move in the reference plane *)
Definition bodies_in_plane (sp : spice XNum) (po : ptrb_obj XNum) : Prop :=
  forall ns ID et, pt_names po = Some ns -> In ID ns -> v3_2 (sp_pos sp ID et (pt_frame po) (pt_obs po)) = Fin 0.
Definition sun_in_plane (sp : spice XNum) (po : ptrb_obj XNum) : Prop :=
  pt_use_SRP po = true -> forall et, v3_2 (sp_pos sp "10"%string et (pt_frame po) (pt_obs po)) = Fin 0.
(** the axis of the oblate body is normal to the reference plane *)
Definition axis_normal (sp : spice XNum) (po : ptrb_obj XNum) : Prop :=
  pt_use_J2 po = true -> forall et, exists a b d e c,
    sp_pxform sp (pt_frame po) (pt_frame_PA po) et = mkm (@mk3 XNum a b (Fin 0)) (@mk3 XNum d e (Fin 0)) (@mk3 XNum (Fin 0) (Fin 0) c).

(** the sky reflected in the reference plane: positions of the bodies and orientation of the central body *)
Definition flip (v : vec3 RNum) : vec3 RNum := let 'mk3 x y z := v in @mk3 RNum x y (- z).
Definition flip_rotation (T : mat3 RNum) : mat3 RNum :=
  let 'mkm (mk3 a b c) (mk3 d e f) (mk3 g h i) := T in
  mkm (@mk3 RNum a b (- c)) (@mk3 RNum d e (- f)) (@mk3 RNum (- g) (- h) i).
Definition flip_sky (sp : spice RNum) : spice RNum :=
  @mkspice RNum (sp_gm sp) (fun ID et fr obs => flip (sp_pos sp ID et fr obs)) (fun fr to_ et => flip_rotation (sp_pxform sp fr to_ et)) (sp_AU_km sp).
(** elements of the reflected orbit, as in C96 *)
Definition flip_elements (et : etype) (oe : vec6 RNum) : vec6 RNum :=
  match et, oe with
  | Keplerian, mk6 a e i ra om ta => @mk6 RNum a e i (ra + PI) (om + PI) ta
  | MeeWithA, mk6 a f g h k l => @mk6 RNum a f g (- h) (- k) l
  end.

(** the same sky and the same settings in finite floats *)
Definition finm (m : mat3 RNum) : mat3 XNum := let 'mkm a b c := m in mkm (fin3 a) (fin3 b) (fin3 c).
Definition float_sky (sp : spice RNum) (spx : spice XNum) : Prop :=
  (forall ID (et : R) fr obs, sp_pos spx ID (Fin et) fr obs = fin3 (sp_pos sp ID et fr obs)) /\
  (forall fr to_ (et : R), sp_pxform spx fr to_ (Fin et) = finm (sp_pxform sp fr to_ et)) /\ sp_AU_km spx = Fin (sp_AU_km sp).
Definition float_settings (po : ptrb_obj RNum) : ptrb_obj XNum :=
  @mkptrb XNum (Fin (pt_et_ref po)) (Fin (pt_LU po)) (Fin (pt_TU po)) (pt_obs po) (pt_frame po) (pt_frame_PA po) (pt_names po) (option_map (map Fin) (pt_gms po))
    (Fin (pt_J2 po)) (Fin (pt_Re po)) (Fin (pt_k_srp po)) (pt_use_J2 po) (pt_use_SRP po) (Fin (pt_obs_mu po)).
(** Cartesian state computed from the elements, as the perturbations do *)
Definition state_of {N : Num} (et : etype) (oe : vec6 N) (mu : @car N) : Res (vec6 N) :=
  match et with Keplerian => kep2sv oe mu | MeeWithA => mee_with_a2sv oe mu end.
(** with radiation pressure on, the satellite is not in the Sun *)
Definition clear_of_sun (sp : spice RNum) (po : ptrb_obj RNum) (t : R) (et : etype) (oe : vec6 RNum) : Prop :=
  pt_use_SRP po = true -> forall s, state_of et oe (pt_obs_mu po) = Ok s ->
    sub (rpart s) (scale (/ pt_LU po) (sp_pos sp "10"%string (pt_et_ref po + t * pt_TU po) (pt_frame po) (pt_obs po))) <> vec 0 0 0.
(** the built-in perturbation object as solve calls it *)
Definition built_in {N : Num} (sp : spice N) (po : ptrb_obj N) : ptrb_fn (N:=N) := fun t oe et => get_perturbations_RTN sp po t oe et.
