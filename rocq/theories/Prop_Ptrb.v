(** Perturbing accelerations: C58 - C62, C81 (real arithmetic; SPICE is an arbitrary oracle). *)
From Coq Require Import Reals Lra ZArith String List Bool.
From Verif Require Import RMath RLib Num Base Elements Perturb RSpec ExportSpec ElemProofs PtrbProofs UnitSpec UnitProofs.
Import ListNotations.
Local Open Scope R_scope.

(** C58 *)
Theorem C58_third_body : forall (r s : vec3 RNum) (mu3 : R), norm s <> 0 -> norm (sub r s) <> 0 ->
  perturbation_third_body_battin (N:=RNum) r s mu3 = Ok (third_body r s mu3).
Proof. exact C58_lem. Qed.
Print Assumptions C58_third_body.
Lemma norm_x (x : R) : 0 <= x -> norm (vec x 0 0) = x.
Proof. intros H. apply sqrt_pos_of; [exact H|]. cbn. ring. Qed.
Lemma norm_mx (x : R) : 0 <= x -> norm (vec (- x) 0 0) = x.
Proof. intros H. apply sqrt_pos_of; [exact H|]. cbn. ring. Qed.
(** a unit body two radii away on the same side pulls outwards, less the pull on the centre: 1 - 1/4 *)
Example C58_example : perturbation_third_body_battin (N:=RNum) (vec 1 0 0) (vec 2 0 0) 1 = Ok (vec (3/4) 0 0).
Proof.
  assert (E : sub (vec 1 0 0) (vec 2 0 0) = vec (- (1)) 0 0) by (unfold sub, vec; cbn; f_equal; ring).
  rewrite C58_third_body.
  - f_equal. unfold third_body. rewrite E, norm_mx, norm_x by lra. unfold scale, add, vec. cbn. f_equal; field.
  - rewrite norm_x; lra.
  - rewrite E, norm_mx; lra.
Qed.

(** C59.  Full statement: for every non-zero position and rotation the acceleration is the gradient
    of the J2 potential.  The code uses 5 z^2 where the gradient has 5 z^2/r^2, so it holds exactly
    on the unit sphere and on the equator of the principal axes. *)
Theorem C59_J2_gradient_partial : forall (r : vec3 RNum) T (mu J2 Re : R), norm r <> 0 -> rotation T ->
  norm r = 1 \/ v3_2 (apply T r) = 0 ->
  exists a, perturbation_J2 (N:=RNum) r T mu J2 Re = Ok a /\
    gradient (fun p => J2_potential mu J2 Re (apply T p)) r a.
Proof. exact C59_partial_lem. Qed.
Print Assumptions C59_J2_gradient_partial.
Theorem C59_J2_gradient_refuted : exists (r : vec3 RNum) T (mu J2 Re : R) a, norm r <> 0 /\ rotation T /\
  perturbation_J2 (N:=RNum) r T mu J2 Re = Ok a /\
  ~ gradient (fun p => J2_potential mu J2 Re (apply T p)) r a.
Proof. exact C59_refuted_lem. Qed.
Print Assumptions C59_J2_gradient_refuted.
Example C59_example : exists a, perturbation_J2 (N:=RNum) (vec 2 0 0) ident 1 (1/1000) 1 = Ok a /\
  gradient (fun p => J2_potential 1 (1/1000) 1 (apply ident p)) (vec 2 0 0) a.
Proof.
  apply C59_J2_gradient_partial; [rewrite norm_x; lra|exact ident_rotation|right; rewrite apply_ident; reflexivity].
Qed.

(** C60 *)
Theorem C60_solar_pressure : forall (r : vec3 RNum) (AU k : R), norm r <> 0 -> 0 <= k ->
  let a := perturbation_SRP (N:=RNum) r AU k in
  norm a = k * (AU / norm r) ^ 2 /\ a = scale (norm a / norm r) r /\ 0 <= norm a / norm r.
Proof. exact C60_lem. Qed.
Print Assumptions C60_solar_pressure.
Example C60_example : norm (perturbation_SRP (N:=RNum) (vec 2 0 0) 6 5) = 45.
Proof. destruct (C60_solar_pressure (vec 2 0 0) 6 5) as [-> _]; rewrite ?norm_x by lra; lra. Qed.

(** C61 *)
Theorem C61_rtn_frame : forall r v : vec3 RNum, norm r <> 0 -> norm (cross r v) <> 0 ->
  let m := pxformECI2RTN (N:=RNum) r v in
  rotation m /\ apply m r = vec (norm r) 0 0 /\ apply m (cross r v) = vec 0 0 (norm (cross r v)) /\
  (exists x y, apply m v = vec x y 0 /\ 0 < y) /\ (forall u, norm (apply m u) = norm u).
Proof. exact C61_lem. Qed.
Print Assumptions C61_rtn_frame.
Example C61_example : norm (vec 2 0 0) <> 0 /\ norm (cross (vec 2 0 0) (vec 1 1 0)) <> 0.
Proof.
  split; [rewrite norm_x; lra|]. replace (norm _) with 2; [lra|]. symmetry.
  apply sqrt_pos_of; [lra|]. cbn. ring.
Qed.

(** C62.  For lists of third bodies (possibly empty). *)
Theorem C62_assembly_partial : forall (sp : spice RNum) (o : ptrb_obj RNum) (t : R) (oe : vec6 RNum) name r v gs ns j2,
  (name = "keplerian"%string /\ kep2sv (N:=RNum) oe (pt_obs_mu o) = Ok (concat33 r v) \/
   name = "mee_with_a"%string /\ mee_with_a2sv (N:=RNum) oe (pt_obs_mu o) = Ok (concat33 r v)) ->
  pt_gms o = Some gs -> pt_names o = Some ns ->
  let et := (pt_et_ref o : R) + t * pt_TU o in
  (forall mu3 ID, In (mu3, ID) (combine gs ns) ->
     norm (body_pos sp o et ID) <> 0 /\ norm (sub r (body_pos sp o et ID)) <> 0) ->
  (pt_use_J2 o = true ->
   perturbation_J2 (N:=RNum) r (sp_pxform sp (pt_frame o) (pt_frame_PA o) et) (pt_obs_mu o) (pt_J2 o) (pt_Re o) = Ok j2) ->
  get_perturbations_by_name (N:=RNum) sp o t oe name =
  Ok (apply (pxformECI2RTN (N:=RNum) r v)
        (add (vsum (map (fun b => third_body r (body_pos sp o et (snd b)) (fst b)) (combine gs ns)))
        (add (if pt_use_J2 o then j2 else null)
             (if pt_use_SRP o then perturbation_SRP (N:=RNum) (sub r (body_pos sp o et "10")) ((sp_AU_km sp : R) / pt_LU o) (pt_k_srp o) else null)))).
Proof. exact C62_lem. Qed.
Print Assumptions C62_assembly_partial.
Theorem C62_unknown_type_rejected : forall {N : Num} (sp : spice N) o t oe name,
  name <> "keplerian"%string -> name <> "mee_with_a"%string ->
  get_perturbations_by_name (N:=N) sp o t oe name = Err ValueError.
Proof. exact @C62_unknown_lem. Qed.
Print Assumptions C62_unknown_type_rejected.
(** Gravitational parameters passed by the caller are used as they are, in the caller's units. *)
Theorem C62_given_constants : forall (sp : spice RNum) (et_ref LU TU : R) obs fr frp ns gs (J2 Re P Cr Am t : R) (oe : vec6 RNum) r v,
  let o := ptrb_init (N:=RNum) sp et_ref LU TU obs fr frp (Some ns) (Some gs) J2 Re P Cr Am false false in
  let pos ID := scale (/ LU) (sp_pos sp ID (et_ref + t * TU) fr obs) in
  kep2sv (N:=RNum) oe (pt_obs_mu o) = Ok (concat33 r v) ->
  (forall mu3 ID, In (mu3, ID) (combine gs ns) -> norm (pos ID) <> 0 /\ norm (sub r (pos ID)) <> 0) ->
  get_perturbations_by_name (N:=RNum) sp o t oe "keplerian" =
  Ok (apply (pxformECI2RTN (N:=RNum) r v) (vsum (map (fun b => third_body r (pos (snd b)) (fst b)) (combine gs ns)))).
Proof. exact C62_given_lem. Qed.
Print Assumptions C62_given_constants.
(** The constructor accepts [third_bodies_names=None] ("no third bodies": it tests for it), but the object cannot be evaluated. *)
Theorem C62_no_third_bodies_refuted : forall {N : Num} (sp : spice N) et_ref LU TU obs fr frp gms J2 Re P Cr Am uj us t oe s,
  let o := ptrb_init sp et_ref LU TU obs fr frp None gms J2 Re P Cr Am uj us in
  kep2sv (N:=N) oe (pt_obs_mu o) = Ok s ->
  get_perturbations_by_name (N:=N) sp o t oe "keplerian" = Err TypeError.
Proof. exact @C62_none_lem. Qed.
Print Assumptions C62_no_third_bodies_refuted.

(** One unit body at (2,0,0), satellite at (1/2,0,0) moving along y: RTN = ECI. *)
Definition demo_spice : spice RNum :=
  @mkspice RNum (fun _ => 1) (fun _ _ _ _ => vec 2 0 0) (fun _ _ _ => ident) 1.
Definition demo_ptrb (names : option (list string)) : ptrb_obj RNum :=
  ptrb_init (N:=RNum) demo_spice 0 1 1 "EARTH" "J2000" "IAU" names None 0 0 0 0 0 false false.
Lemma demo_sv names : kep2sv (N:=RNum) (elems 1 (1/2) 0 0 0 0) (pt_obs_mu (demo_ptrb names)) =
  Ok (concat33 (vec (1/2) 0 0) (vec 0 (sqrt (4/3) * (3/2)) 0)).
Proof.
  replace (pt_obs_mu (demo_ptrb names)) with 1 by (cbn; field). rewrite kep2sv_closed by lra.
  unfold kep_r, kep_v, in_plane, vec. rewrite Rplus_0_l, cos_0, sin_0.
  replace (1 / (1 * (1 - 1 / 2 * (1 / 2)))) with (4 / 3) by field. cbn. f_equal. f_equal; field.
Qed.
Example C62_example : exists a, get_perturbations_by_name (N:=RNum) demo_spice (demo_ptrb (Some ["MOON"%string])) 0
  (elems 1 (1/2) 0 0 0 0) "keplerian" = Ok a.
Proof.
  eexists. eapply C62_assembly_partial.
  - left. split; [reflexivity|apply demo_sv].
  - reflexivity.
  - reflexivity.
  - intros mu3 ID _. unfold body_pos. cbn [sp_pos demo_spice pt_LU demo_ptrb ptrb_init].
    replace (v3divs (N:=RNum) (vec 2 0 0) 1) with (vec 2 0 0) by (unfold vec; cbn; f_equal; field).
    replace (sub (vec (1/2) 0 0) (vec 2 0 0)) with (vec (- (3/2)) 0 0) by (unfold sub, vec; cbn; f_equal; field).
    rewrite norm_x, norm_mx by lra. lra.
  - instantiate (1 := null). discriminate.
Qed.
(** The same body with a gravitational parameter of 7 given by the caller. *)
Example C62_given_example : exists a, get_perturbations_by_name (N:=RNum) demo_spice
  (ptrb_init (N:=RNum) demo_spice 0 1 1 "EARTH" "J2000" "IAU" (Some ["MOON"%string]) (Some [7]) 0 0 0 0 0 false false) 0
  (elems 1 (1/2) 0 0 0 0) "keplerian" = Ok a.
Proof.
  eexists. eapply C62_given_constants.
  - exact (demo_sv None).
  - intros mu3 ID _. cbn [sp_pos demo_spice].
    replace (scale (/ 1) (vec 2 0 0)) with (vec 2 0 0) by (unfold scale, vec; cbn; f_equal; field).
    replace (sub (vec (1/2) 0 0) (vec 2 0 0)) with (vec (- (3/2)) 0 0) by (unfold sub, vec; cbn; f_equal; field).
    rewrite norm_x, norm_mx by lra. lra.
Qed.
Example C62_none_example : get_perturbations_by_name (N:=RNum) demo_spice (demo_ptrb None) 0 (elems 1 (1/2) 0 0 0 0) "keplerian" = Err TypeError.
Proof. eapply C62_no_third_bodies_refuted. apply demo_sv. Qed.

(** C81.  Whatever the units: the result times LU/TU^2 is the acceleration in km/s^2 ([physical], which knows neither LU nor TU)
    of third bodies, oblateness (gradient of the potential) and radiation pressure at the same orbit and instant.
    Missing: with J2, positions outside the equator and at a distance other than one LU (refuted below); equinoctial orbits
    in the reference plane (C50). *)
Theorem C81_units_partial : forall (sp : spice RNum) (et_ref LU TU : R) obs fr frp ns (J2 Re P Cr Am : R) uj us et oe (s : R),
  0 < LU -> 0 < TU -> 0 < sp_gm sp obs -> elliptic et oe -> faithful et oe ->
  let r := rpart (cart_state et (sp_gm sp obs) oe) in let v := vpart (cart_state et (sp_gm sp obs) oe) in
  let pos ID := sp_pos sp ID (et_ref + s) fr obs in let T := sp_pxform sp fr frp (et_ref + s) in
  (forall ID, In ID ns -> norm (pos ID) <> 0 /\ norm (sub r (pos ID)) <> 0) ->
  (us = true -> norm (sub r (pos "10"%string)) <> 0) ->
  (uj = true -> rotation T /\ (v3_2 (apply T r) = 0 \/ norm r = LU)) ->
  forall j2, (if uj then gradient (fun p => J2_potential (sp_gm sp obs) J2 Re (apply T p)) r j2 else j2 = null) ->
  exists u,
    get_perturbations_by_name (N:=RNum) sp (ptrb_init (N:=RNum) sp et_ref LU TU obs fr frp (Some ns) None J2 Re P Cr Am uj us)
      (s / TU) (in_units LU oe) (name_of et) = Ok u /\
    scale (LU / TU ^ 2) u = physical sp (et_ref + s) obs fr ns us (P * Cr * Am / 1000) r v j2.
Proof. exact C81_partial_lem. Qed.
Print Assumptions C81_units_partial.
(** The same orbit, time unit and body: the physical acceleration depends on the length unit. *)
Theorem C81_units_refuted : exists (sp : spice RNum) (J2 Re : R) oe LU LU' u u', 0 < LU /\ 0 < LU' /\ elliptic Keplerian oe /\
  (let run L := get_perturbations_by_name (N:=RNum) sp (ptrb_init (N:=RNum) sp 0 L 1 "399" "J2000" "ITRF93" (Some []) None J2 Re 0 0 0 true false)
      0 (in_units L oe) "keplerian" in run LU = Ok u /\ run LU' = Ok u') /\
  scale (LU / 1 ^ 2) u <> scale (LU' / 1 ^ 2) u'.
Proof. exact C81_refuted_lem. Qed.
Print Assumptions C81_units_refuted.
(** third bodies and radiation pressure, an eccentric orbit, LU = 7, TU = 3 *)
Example C81_example : exists u, get_perturbations_by_name (N:=RNum) demo_spice
  (ptrb_init (N:=RNum) demo_spice 5 7 3 "399" "J2000" "ITRF93" (Some ["301"; "10"]%string) None 1 1 2 3 4 false true)
  (6 / 3) (in_units 7 (elems 1 (1/2) 0 0 0 0)) "keplerian" = Ok u /\
  scale (7 / 3 ^ 2) u = physical demo_spice (5 + 6) "399" "J2000" ["301"; "10"]%string true (2 * 3 * 4 / 1000)
    (vec (1/2) 0 0) (vec 0 (sqrt (4/3) * (3/2)) 0) null.
Proof.
  assert (E : cart_state Keplerian 1 (elems 1 (1/2) 0 0 0 0) = concat33 (vec (1/2) 0 0) (vec 0 (sqrt (4/3) * (3/2)) 0)).
  { unfold elems, cart_state, kep_r, kep_v, in_plane, vec. rewrite Rplus_0_l, cos_0, sin_0.
    replace (1 / (1 * (1 - 1 / 2 * (1 / 2)))) with (4 / 3) by field. cbn. f_equal; field. }
  assert (D : norm (vec 2 0 0) <> 0 /\ norm (sub (vec (1/2) 0 0) (vec 2 0 0)) <> 0).
  { replace (sub (vec (1/2) 0 0) (vec 2 0 0)) with (vec (- (3/2)) 0 0) by (unfold sub, vec; cbn; f_equal; field).
    rewrite norm_x, norm_mx by lra. lra. }
  destruct (C81_units_partial demo_spice 5 7 3 "399" "J2000" "ITRF93" ["301"; "10"]%string 1 1 2 3 4 false true Keplerian
    (elems 1 (1/2) 0 0 0 0) 6) with (j2 := null) as (u & H1 & H2); try (cbn; lra); try exact I; try discriminate; try reflexivity.
  - change (sp_gm demo_spice "399") with 1. rewrite E. destruct (parts (vec (1/2) 0 0) (vec 0 (sqrt (4/3) * (3/2)) 0)) as [-> _]. intros; exact D.
  - change (sp_gm demo_spice "399") with 1. rewrite E. destruct (parts (vec (1/2) 0 0) (vec 0 (sqrt (4/3) * (3/2)) 0)) as [-> _]. intros; apply D.
  - exists u. split; [exact H1|]. rewrite H2. change (sp_gm demo_spice "399") with 1. rewrite E.
    destruct (parts (vec (1/2) 0 0) (vec 0 (sqrt (4/3) * (3/2)) 0)) as [-> ->]. reflexivity.
Qed.
