(** The equations of motion against Newton's law: C40 - C42, C45, C68 (real arithmetic).
    [newton cart mu F path t0] (GaussSpec.v): the Cartesian state of [path t] has r' = v and
    v' = - mu r / |r|^3 + F at t0, with F given in the radial, transverse, normal directions. *)
From Coq Require Import Reals Lra ZArith List Bool.
From Verif Require Import RMath RLib Num Base Elements Integrate Eom Lyapunov SymKep SymMee RSpec GaussSpec LawSpec LawRuns GaussProofs GaussRuns.
Import ListNotations.
Local Open Scope R_scope.

(** C40 *)
Theorem C40_keplerian_motion : forall p out oe t u ptrb,
  0 < g_mu p -> kep_state oe -> ask (lyap_keplerian (N:=RNum)) p oe = Ok out ->
  exists d, eom_kep_gauss (N:=RNum) t oe (mkparams (N:=RNum) (g_mu p) u (lo_psi out) ptrb) = Ok d /\
    forall path t0, path t0 = oe -> velocity6 path t0 d ->
      newton (fun x => kep2sv (N:=RNum) x (g_mu p)) (g_mu p) (add u ptrb) path t0.
Proof. exact kep_motion_lem. Qed.
Print Assumptions C40_keplerian_motion.
Example C40_example : exists out d, kep_state oe_kep /\ ask (lyap_keplerian (N:=RNum)) p_kep oe_kep = Ok out /\
  eom_kep_gauss (N:=RNum) 0 oe_kep (mkparams (N:=RNum) 1 (vec 1 2 3) (lo_psi out) null) = Ok d /\
  straight oe_kep d 0 = oe_kep /\ velocity6 (straight oe_kep d) 0 d.
Proof.
  destruct (kep_answers p_kep oe_kep) as [out HO]. exists out.
  destruct (kep_motion_lem p_kep out oe_kep 0 (vec 1 2 3) null) as (d & E & _); [cbn; lra|exact oe_kep_state|exact HO|].
  exists d. split; [exact oe_kep_state|]. split; [exact HO|]. split; [exact E|]. split; [apply straight_0|apply straight_velocity].
Qed.

(** C41.  psi takes the true anomaly from atan(g/f): right for f > 0 only.  For f < 0 the rate of the semimajor
    axis is wrong under every push that changes it in the wrong quadrant; for f = 0 the code raises. *)
Theorem C41_equinoctial_motion_partial : forall p out oe t u ptrb,
  0 < g_mu p -> mee_state oe -> 0 < v6_1 oe -> ask (lyap_mee_with_a (N:=RNum)) p oe = Ok out ->
  exists d, eom_mee_with_a_gauss (N:=RNum) t oe (mkparams (N:=RNum) (g_mu p) u (lo_psi out) ptrb) = Ok d /\
    forall path t0, path t0 = oe -> velocity6 path t0 d -> newton (mee_cart (g_mu p)) (g_mu p) (add u ptrb) path t0.
Proof. exact mee_motion_lem. Qed.
Print Assumptions C41_equinoctial_motion_partial.
Theorem C41_wrong_for_every_negative_f : forall p out oe t u ptrb,
  0 < g_mu p -> mee_state oe -> v6_1 oe < 0 -> ask (lyap_mee_with_a (N:=RNum)) p oe = Ok out ->
  let 'mk6 a f g h k l := oe in let F := add u ptrb in
  (f * sin l - g * cos l) * v3_0 F + (f * cos l + g * sin l) * v3_1 F <> 0 ->
  exists d, eom_mee_with_a_gauss (N:=RNum) t oe (mkparams (N:=RNum) (g_mu p) u (lo_psi out) ptrb) = Ok d /\
    forall path t0, path t0 = oe -> velocity6 path t0 d -> ~ newton (mee_cart (g_mu p)) (g_mu p) F path t0.
Proof. exact mee_wrong_motion_lem. Qed.
Print Assumptions C41_wrong_for_every_negative_f.
Theorem C41_equinoctial_motion_refuted : exists p oe u out d path,
  sound p /\ mee_state oe /\ ask (lyap_mee_with_a (N:=RNum)) p oe = Ok out /\
  eom_mee_with_a_gauss (N:=RNum) 0 oe (mkparams (N:=RNum) (g_mu p) u (lo_psi out) null) = Ok d /\
  path 0 = oe /\ velocity6 path 0 d /\ ~ newton (mee_cart (g_mu p)) (g_mu p) (add u null) path 0.
Proof. exact C41_refuted_lem. Qed.
Print Assumptions C41_equinoctial_motion_refuted.
Theorem C41_raises_at_f_zero : forall t mu a g h k l u P ptrb,
  eom_mee_with_a_gauss (N:=RNum) t (elems a 0 g h k l) (mkparams (N:=RNum) mu u P ptrb) = Err ZeroDivisionError.
Proof. exact eom_mee_f0. Qed.
Print Assumptions C41_raises_at_f_zero.
Example C41_example : mee_state oe_mee /\ 0 < v6_1 oe_mee /\ mee_state oe_left /\ v6_1 oe_left < 0.
Proof. cbn. repeat split; lra. Qed.

(** C42 *)
Theorem C42_keplerian_free_motion : forall p out oe t,
  0 < g_mu p -> kep_state oe -> ask (lyap_keplerian (N:=RNum)) p oe = Ok out ->
  exists d, eom_kep_gauss (N:=RNum) t oe (mkparams (N:=RNum) (g_mu p) null (lo_psi out) null) = Ok d /\
    forall path t0, path t0 = oe -> velocity6 path t0 d ->
      newton (fun x => kep2sv (N:=RNum) x (g_mu p)) (g_mu p) null path t0.
Proof. exact kep_free_lem. Qed.
Print Assumptions C42_keplerian_free_motion.
Theorem C42_equinoctial_free_motion_partial : forall p out oe t,
  0 < g_mu p -> mee_state oe -> v6_1 oe <> 0 -> ask (lyap_mee_with_a (N:=RNum)) p oe = Ok out ->
  exists d, eom_mee_with_a_gauss (N:=RNum) t oe (mkparams (N:=RNum) (g_mu p) null (lo_psi out) null) = Ok d /\
    forall path t0, path t0 = oe -> velocity6 path t0 d -> newton (mee_cart (g_mu p)) (g_mu p) null path t0.
Proof. exact mee_free_lem. Qed.
Print Assumptions C42_equinoctial_free_motion_partial.
(** an ellipse with f = 0 cannot even coast *)
Theorem C42_equinoctial_free_motion_refuted : exists oe, mee_state oe /\
  forall t mu P, eom_mee_with_a_gauss (N:=RNum) t oe (mkparams (N:=RNum) mu null P null) = Err ZeroDivisionError.
Proof. exact C42_refuted_lem. Qed.
Print Assumptions C42_equinoctial_free_motion_refuted.
Example C42_example : kep_state oe_kep /\ mee_state oe_left /\ v6_1 oe_left <> 0.
Proof. split; [exact oe_kep_state|]. cbn. repeat split; lra. Qed.

(** C45 is false: [path] solves the Gauss equations (psi re-evaluated along the way, thrust constant in the rotating
    frame), and one rk4 step from [path 0] is off by at least dt^2. *)
Theorem C45_rk4_fourth_order_refuted : exists p u path,
  (forall t, Rabs t <= 2 / 5 -> exists out d, ask (lyap_mee_with_a (N:=RNum)) p (path t) = Ok out /\
     eom_mee_with_a_gauss (N:=RNum) t (path t) (mkparams (N:=RNum) (g_mu p) u (lo_psi out) null) = Ok d /\ velocity6 path t d) /\
  forall out dt, ask (lyap_mee_with_a (N:=RNum)) p (path 0) = Ok out -> Rabs dt <= 2 / 5 ->
    exists y, rk4 (N:=RNum) (eom_mee_with_a_gauss (N:=RNum)) 0 dt (path 0) (mkparams (N:=RNum) (g_mu p) u (lo_psi out) null) = Ok y /\
      dt ^ 2 <= Rabs (v6_1 y - v6_1 (path dt)).
Proof. exact C45_refuted_lem. Qed.
Print Assumptions C45_rk4_fourth_order_refuted.
(** a step that does not raise, for C45_rk4_step_is_euler_partial (Prop_Integ.v) *)
Example C45_example : exists p u oe out y, ask (lyap_mee_with_a (N:=RNum)) p oe = Ok out /\
  rk4 (N:=RNum) (eom_mee_with_a_gauss (N:=RNum)) 0 (1 / 5) oe (mkparams (N:=RNum) (g_mu p) u (lo_psi out) null) = Ok y.
Proof.
  destruct C45_refuted_lem as (p & u & path & A & B). destruct (A 0) as (out & d & E & _); [rewrite Rabs_R0; lra|].
  destruct (B out (1 / 5) E) as (y & H & _); [rewrite Rabs_pos_eq; lra|]. exists p, u, (path 0), out, y. auto.
Qed.

(** C68: the unused p-based equations are right for every ellipse. *)
Theorem C68_mee_gauss_motion : forall mu (oe : vec6 RNum) t u P ptrb,
  0 < mu -> 0 < v6_0 oe -> v6_1 oe * v6_1 oe + v6_2 oe * v6_2 oe < 1 ->
  exists d, eom_mee_gauss (N:=RNum) t oe (mkparams (N:=RNum) mu u P ptrb) = Ok d /\
    forall path t0, path t0 = oe -> velocity6 path t0 d -> newton (mee_p_cart mu) mu (add u ptrb) path t0.
Proof. exact meep_motion_lem. Qed.
Print Assumptions C68_mee_gauss_motion.
Example C68_example : 0 < v6_0 oe_left /\ v6_1 oe_left * v6_1 oe_left + v6_2 oe_left * v6_2 oe_left < 1.
Proof. cbn. split; lra. Qed.
