(** Built-in perturbations and the reference plane: C98. *)
From Coq Require Import Reals Lra ZArith List Bool.
From Verif Require Import RMath Num Base Elements Convergence Lyapunov Perturb RSpec ExportSpec Qlaw Spec MirrorSpec EffRuns FinSpec FinRuns SkySpec SkyProofs SkyFin SkyRuns.
Import ListNotations.
Local Open Scope R_scope.

(** C98.  With the perturbing bodies in the reference plane and the axis of the oblate body normal to it, an equinoctial orbit in the
    plane is not pushed out of it, nan and infinite entries included; *)
Theorem C98_pull_in_plane : forall (sp : spice XNum) po t oe v, bodies_in_plane sp po -> sun_in_plane sp po -> axis_normal sp po -> flat oe ->
  get_perturbations_RTN sp po t oe MeeWithA = Ok v -> nought (v3_2 v).
Proof. exact C98_flat_lem. Qed.
Print Assumptions C98_pull_in_plane.
(** so a perturbed run stays in the plane (C97 for the built-in object). *)
Theorem C98_perturbed_run_in_plane : forall (sp : spice XNum) po (o : qlaw XNum) p ea er fuel a f g rest, built MeeWithA o -> q_problem o = Some p ->
  flat (p_oe0 p) -> p_oeT p = a :: f :: g :: Fin 0 :: Fin 0 :: rest -> ea <> EtaOther (N:=XNum) ->
  q_ptrb o = Some (built_in sp po) -> bodies_in_plane sp po -> sun_in_plane sp po -> axis_normal sp po ->
  forall o' h, solve fuel o ea er = Returns o' \/ (exists e, solve fuel o ea er = Raises e o') -> q_hist o' = Some h ->
    Forall flat (h_states h) /\ Forall level (h_controls h).
Proof. exact C98_run_lem. Qed.
Print Assumptions C98_perturbed_run_in_plane.
(** Under the sky reflected in the reference plane, the reflected orbit feels the reflected acceleration: same radial and transverse
    components, opposite normal one, and the same exception if there is one. *)
Theorem C98_mirrored_sky : forall (sp : spice RNum) (po : ptrb_obj RNum) (t : R) oe et, 0 < pt_obs_mu po -> elliptic et oe ->
  get_perturbations_RTN (N:=RNum) (flip_sky sp) po t (flip_elements et oe) et =
  match get_perturbations_RTN (N:=RNum) sp po t oe et with Ok v => Ok (flip v) | Err e => Err e end.
Proof. exact C98_flip_lem. Qed.
Print Assumptions C98_mirrored_sky.
(** On finite floats the perturbation is the one of the real numbers, of which C58 - C62 and C81 speak. *)
Theorem C98_floats : forall (sp : spice RNum) spx (po : ptrb_obj RNum) (t : R) oe et,
  float_sky sp spx -> pt_LU po <> 0 -> 0 < pt_obs_mu po -> elliptic et oe -> clear_of_sun sp po t et oe ->
  get_perturbations_RTN (N:=XNum) spx (float_settings po) (Fin t) (fin6 oe) et =
  match get_perturbations_RTN (N:=RNum) sp po t oe et with Ok v => Ok (fin3 v) | Err e => Err e end.
Proof. exact C98_fin_lem. Qed.
Print Assumptions C98_floats.
(** So in C96 the mirror image of the built-in perturbation is the built-in perturbation under the mirrored sky. *)
Theorem C98_mirrored_object : forall (sp : spice RNum) spx spm (po : ptrb_obj RNum) (t : R) oe et, float_sky sp spx -> float_sky (flip_sky sp) spm ->
  pt_LU po <> 0 -> 0 < pt_obs_mu po -> elliptic et oe -> clear_of_sun sp po t et oe ->
  ptrb_reflect et (built_in spx (float_settings po)) (Fin t) (reflect et (fin6 oe)) et = built_in spm (float_settings po) (Fin t) (reflect et (fin6 oe)) et.
Proof. exact C98_mirror_lem. Qed.
Print Assumptions C98_mirrored_object.
(** a Moon, a Sun and an oblate planet, and a transfer they pull on *)
Example C98_example : built MeeWithA o_sky /\ q_problem o_sky = Some p_fin /\ flat (p_oe0 p_fin) /\ (exists a f g, p_oeT p_fin = [a; f; g; Fin 0; Fin 0]) /\
  q_ptrb o_sky = Some (built_in sky_x (float_settings earth)) /\
  bodies_in_plane sky_x (float_settings earth) /\ sun_in_plane sky_x (float_settings earth) /\ axis_normal sky_x (float_settings earth) /\
  exists v, built_in sky_x (float_settings earth) (Fin 0) (p_oe0 p_fin) MeeWithA = Ok v.
Proof. exact C98_case. Qed.
Example C98_mirror_example : float_sky sky_r sky_x /\ float_sky (flip_sky sky_r) sky_m /\ elliptic MeeWithA oe_eff /\ clear_of_sun sky_r earth 0 MeeWithA oe_eff /\
  exists v, get_perturbations_RTN (N:=RNum) sky_r earth 0 oe_eff MeeWithA = Ok v.
Proof. split; [exact (proj1 sky_floats)|]. split; [exact (proj2 sky_floats)|]. split; [exact sky_elliptic|]. split; [exact sky_clear|exact sky_pull]. Qed.
