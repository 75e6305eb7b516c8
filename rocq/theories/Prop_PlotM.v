(** Properties C69-C71, C79: the figures of pyqlaw/_plot_methods.py. *)
From Coq Require Import Reals ZArith List Bool Lra.
From Verif Require Import RMath Num Base Elements Perturb PlotHelper Qlaw Export PlotMethods Spec RSpec XSpec GaussSpec ExportSpec
  ExportProofs PlotMProofs Sim Runs XRuns ExportRuns TrajSpec TrajProofs TrajRuns.
Import ListNotations.
Local Open Scope R_scope.

(** C69.  After every run the figures can be drawn, and sample k of each curve is (k-th time, k-th recorded value).
    [sample c k x y]: the k-th point handed to matplotlib is (x, y). *)
Theorem C69_battery_curve : forall (N : Num) fuel (o : qlaw N) ea er p o' h, ran fuel o ea er p o' h -> forall TU BU,
  exists c, plot_battery_history p h TU BU = Ok [c; Level (nmul (p_cap_lo p) BU); Level (nmul (p_cap_hi p) BU)] /\
  samples c (length (h_times h)) /\
  forall k t b, nth_error (h_times h) k = Some t -> nth_error (h_battery h) k = Some b -> sample c k (nmul t TU) (nmul b BU).
Proof. exact (fun N fuel o ea er p o' h R TU BU => battery_plot fuel o ea er p o' h R TU BU). Qed.
Print Assumptions C69_battery_curve.
Theorem C69_Q_curves : forall (N : Num) fuel (o : qlaw N) ea er p o' h, ran fuel o ea er p o' h -> forall TU,
  exists cq cd, plot_Q h TU = Ok [cq; cd] /\ samples cq (length (h_controls h)) /\ samples cd (length (h_controls h)) /\
  forall k t q d, nth_error (h_times h) k = Some t -> nth_error (h_Qs h) k = Some q -> nth_error (h_dQdts h) k = Some d ->
    sample cq k (nmul t TU) q /\ sample cd k (nmul t TU) d.
Proof. exact (fun N fuel o ea er p o' h R TU => Q_plot fuel o ea er p o' h R TU). Qed.
Print Assumptions C69_Q_curves.
Theorem C69_control_curves : forall (N : Num) fuel (o : qlaw N) ea er p o' h, ran fuel o ea er p o' h -> forall TU an,
  exists first ca cb ct, plot_controls h TU an = Ok (first ++ [ca; cb; ct]) /\
  (an = true -> exists c, first = [c] /\ samples c (length (h_times h))) /\
  samples ca (length (h_controls h)) /\ samples cb (length (h_controls h)) /\ samples ct (length (h_controls h)) /\
  forall k t al be thr, nth_error (h_times h) k = Some t -> nth_error (h_controls h) k = Some (al, be, thr) ->
    sample ca k (nmul t TU) (ndiv (nmul al (nofZ 180)) npi) /\ sample cb k (nmul t TU) (ndiv (nmul be (nofZ 180)) npi) /\
    sample ct k (nmul t TU) (nmul (nofZ thr) (nofZ 100)).
Proof. exact (fun N fuel o ea er p o' h R TU an => controls_plot fuel o ea er p o' h R TU an). Qed.
Print Assumptions C69_control_curves.
Theorem C69_efficiency_curves_partial : forall (N : Num) fuel (o : qlaw N) ea er p o' h, ran fuel o ea er p o' h -> forall TU,
  (0 < length (h_controls h))%nat -> exists c1 c2 c3 c4, plot_efficiency h TU = Ok [c1; c2; c3; c4] /\
  forall k t ea_k er_k ba br, nth_error (h_times h) k = Some t -> nth_error (h_etas h) k = Some (ea_k, er_k) ->
    nth_error (h_bounds h) k = Some (ba, br) ->
    sample c1 k (nmul t TU) ea_k /\ sample c2 k (nmul t TU) ba /\ sample c3 k (nmul t TU) er_k /\ sample c4 k (nmul t TU) br.
Proof. exact (fun N fuel o ea er p o' h R TU => efficiency_plot fuel o ea er p o' h R TU). Qed.
Print Assumptions C69_efficiency_curves_partial.
Example C69_example : exists o' h, ran 10 o_exit1 no_eta no_eta p_exit1 o' h /\ q_exitcode o' = 1%Z /\ length (h_controls h) = 4%nat.
Proof. exact run_exit1. Qed.
(** A run without steps (for instance tf_max = 0) cannot be given to plot_efficiency. *)
Theorem C69_efficiency_curves_refuted : exists fuel (o : qlaw RNum) ea er p o' h, reachable o /\ ran fuel o ea er p o' h /\
  forall TU, plot_efficiency (N:=RNum) h TU = Err IndexError.
Proof. exact C69_refuted_lem. Qed.
Print Assumptions C69_efficiency_curves_refuted.

(** C70.  Recorded elements against time with the target band; the periapsis overlay is a(1-x) where x is the second
    element ... *)
Theorem C70_element_curves_partial : forall fuel (o : qlaw RNum) ea er p o' h tk (TU : R) pm pp,
  ran fuel o ea er p o' h -> tk = false \/ q_etype o = Keplerian -> (5 <= length (p_oeT p))%nat ->
  exists axes, plot_elements_history (N:=RNum) o' p h tk TU pm pp = Ok axes /\ length axes = 6%nat /\
    (forall j Tj tol, (j < 5)%nat -> nth_error (p_oeT p) j = Some Tj -> nth_error (vec5_to_list (q_tol o)) j = Some tol ->
      exists c rest, nth_error axes j = Some (Band (N:=RNum) (map (fun x => x * TU) (h_times h)) (Tj - tol) (Tj + tol) :: c :: rest) /\
        forall k t st x, nth_error (h_times h) k = Some t -> nth_error (h_states h) k = Some st -> nth_error (vec6_to_list st) j = Some x ->
          sample c k (t * TU) x) /\
    (pp = true -> exists tgt c peri, nth_error axes 0 = Some [tgt; c; peri] /\
      forall k t st, nth_error (h_times h) k = Some t -> nth_error (h_states h) k = Some st ->
        sample peri k (t * TU) (v6_0 st * (1 - v6_1 st))) /\
    (pm = true -> exists c, nth_error axes 5 = Some [c] /\ forall k t m, nth_error (h_times h) k = Some t -> nth_error (h_masses h) k = Some m ->
      sample c k (t * TU) m) /\
    (pm = false -> exists c, nth_error axes 5 = Some [c] /\ forall k t st, nth_error (h_times h) k = Some t -> nth_error (h_states h) k = Some st ->
      exists y, in_degrees (v6_5 st) y /\ sample c k (t * TU) y).
Proof. exact C70_native_lem. Qed.
Print Assumptions C70_element_curves_partial.
(** ... which is the periapsis radius of equinoctial elements only when g = 0 and f >= 0 ... *)
Theorem C70_periapsis_condition_partial : forall a f g, 0 < a -> (a * (1 - f) = a * (1 - sqrt (f * f + g * g)) <-> g = 0 /\ 0 <= f).
Proof. exact peri_native. Qed.
Print Assumptions C70_periapsis_condition_partial.
Theorem C70_periapsis_refuted : exists fuel (o : qlaw RNum) ea er p o' h axes tgt c peri x y,
  reachable o /\ built MeeWithA o /\ ran fuel o ea er p o' h /\ (forall st, In st (h_states h) -> elliptic MeeWithA st) /\
  plot_elements_history (N:=RNum) o' p h false 1 false true = Ok axes /\ nth_error axes 0 = Some [tgt; c; peri] /\
  sample peri 0 x y /\
  (forall a f g hh k l, nth_error (h_states h) 0 = Some (elems a f g hh k l) -> y <> a * (1 - sqrt (f * f + g * g))).
Proof. exact C70_refuted_lem. Qed.
Print Assumptions C70_periapsis_refuted.
(** ... while with to_keplerian=True the curves show Keplerian elements of the recorded orbit (angles in degrees), the
    levels those of the target, and the overlay is the periapsis radius a(1-e). *)
Theorem C70_to_keplerian : forall fuel (o : qlaw RNum) ea er p o' h (TU : R) pm pp T,
  ran fuel o ea er p o' h -> q_etype o = MeeWithA -> 0 < q_mu o ->
  (forall st, In st (h_states h) -> elliptic MeeWithA st) ->
  p_oeT p = firstn 5 (vec6_to_list T) -> v6_5 T = 0 -> elliptic MeeWithA T ->
  exists axes kepT, plot_elements_history (N:=RNum) o' p h true TU pm pp = Ok axes /\ length axes = 6%nat /\
    elliptic Keplerian kepT /\ v6_0 kepT = v6_0 T /\ v6_1 kepT = sqrt (v6_1 T * v6_1 T + v6_2 T * v6_2 T) /\
    (faithful MeeWithA T -> cart_state Keplerian (q_mu o) kepT = cart_state MeeWithA (q_mu o) T) /\
    (forall k t st, nth_error (h_times h) k = Some t -> nth_error (h_states h) k = Some st ->
      exists kep, elliptic Keplerian kep /\ v6_0 kep = v6_0 st /\
        v6_1 kep = sqrt (v6_1 st * v6_1 st + v6_2 st * v6_2 st) /\
        (faithful MeeWithA st -> cart_state Keplerian (q_mu o) kep = cart_state MeeWithA (q_mu o) st) /\
        (forall j x y, (j < 5)%nat -> nth_error (vec6_to_list kep) j = Some x -> nth_error (vec6_to_list kepT) j = Some y ->
           let unit := if Nat.ltb j 2 then 1 else 180 / PI in
           exists c rest, nth_error axes j = Some (Level (N:=RNum) (y * unit) :: c :: rest) /\ sample c k (t * TU) (x * unit)) /\
        (exists c y, nth_error axes 5 = Some [c] /\ sample c k (t * TU) y /\
           (pm = true -> nth_error (h_masses h) k = Some y) /\ (pm = false -> in_degrees (v6_5 kep) y)) /\
        (pp = true -> exists tgt c peri, nth_error axes 0 = Some [tgt; c; peri] /\
           sample peri k (t * TU) (v6_0 kep * (1 - v6_1 kep)))).
Proof. exact C70_keplerian_lem. Qed.
Print Assumptions C70_to_keplerian.
Example C70_example : exists fuel (o : qlaw RNum) ea er p o' h st, reachable o /\ built MeeWithA o /\ 0 < q_mu o /\ ran fuel o ea er p o' h /\
  (forall st, In st (h_states h) -> elliptic MeeWithA st) /\ nth_error (h_states h) 0 = Some st /\ faithful MeeWithA st.
Proof. exact C66_case. Qed.

(** C71 is false: matplotlib's step curves (where='pre') give an interval the value at its right end, so during step k the
    figure shows the control of step k+1, and nothing during the last step. *)
Theorem C71_control_steps_refuted : exists fuel (o : qlaw XNum) ea er p a o' h first ca cb ct k t t' tau,
  regular o p a /\ ran fuel o ea er p o' h /\ 0 < a_ts a /\ plot_controls (N:=XNum) h (Fin 1) false = Ok (first ++ [ca; cb; ct]) /\
  entry (h_times h) k t /\ entry (h_times h) (S k) t' /\ t < tau < t' /\ throttle h k 1 /\ shown ct (Fin tau) = Some (Fin 0).
Proof. exact C71_refuted_lem. Qed.
Print Assumptions C71_control_steps_refuted.
Theorem C71_control_steps_shifted_partial : forall (o : qlaw XNum) p ea er a fuel o' h TU an,
  regular o p a -> ran fuel o ea er p o' h -> 0 < a_ts a -> 0 < TU ->
  exists first ca cb ct, plot_controls (N:=XNum) h (Fin TU) an = Ok (first ++ [ca; cb; ct]) /\
    forall k t t' tau, entry (h_times h) k t -> entry (h_times h) (S k) t' -> t < tau < t' ->
      (forall al be thr, nth_error (h_controls h) (S k) = Some (al, be, thr) ->
         shown ca (Fin (tau * TU)) = Some (ndiv (Num:=XNum) (nmul (Num:=XNum) al (Fin 180)) (Fin PI)) /\
         shown cb (Fin (tau * TU)) = Some (ndiv (Num:=XNum) (nmul (Num:=XNum) be (Fin 180)) (Fin PI)) /\
         shown ct (Fin (tau * TU)) = Some (Fin (IZR thr * 100))) /\
      (S k = length (h_controls h) ->
         shown ca (Fin (tau * TU)) = None /\ shown cb (Fin (tau * TU)) = None /\ shown ct (Fin (tau * TU)) = None).
Proof. exact C71_lem. Qed.
Print Assumptions C71_control_steps_shifted_partial.
(** thrusting, coasting and thrusting again, drawn with TU = 2 *)
Example C71_example : regular (toyX RK4 a_cycle) (probX a_cycle) (parX a_cycle) /\ 0 < a_ts (parX a_cycle) /\ 0 < 2 /\
  exists o2 h2, ran 10 (toyX RK4 a_cycle) noX noX (probX a_cycle) o2 h2 /\ throttle h2 1 1 /\ throttle h2 2 0 /\ throttle h2 5 1.
Proof.
  split; [apply toy_regular|]. split; [cbn; q2r|]. split; [lra|]. destruct run_cycle as (o2 & h2 & H & R & _).
  exists o2, h2. split; [exact H|]. repeat split; eapply rec_c; try exact R; reflexivity.
Qed.

Local Open Scope R_scope.
(** C79.  [P0] and [PT] are closed curves over one revolution of the initial and the target orbit; the transfer is drawn
    through all columns of the Cartesian history [s0 :: rest] (C66) and marked at its first and last.  Missing: equinoctial
    orbits in the reference plane, whose periapsis direction the conversion loses (C50). *)
Theorem C79_figure_2d_partial : forall (o : qlaw RNum) p T0 T1 T2 T3 T4 s0 rest, 0 < q_mu o ->
  elliptic (q_etype o) (p_oe0 p) -> faithful (q_etype o) (p_oe0 p) -> p_oeT p = [T0; T1; T2; T3; T4] ->
  elliptic (q_etype o) (elems T0 T1 T2 T3 T4 0) -> faithful (q_etype o) (elems T0 T1 T2 T3 T4 0) ->
  exists P0 PT,
    revolution (q_etype o) (q_mu o) (p_oe0 p) 200 P0 /\ revolution (q_etype o) (q_mu o) (elems T0 T1 T2 T3 T4 0) 200 PT /\
    plot_trajectory_2d (N:=RNum) o p (s0 :: rest) =
      Ok [draw2 P0; draw2 PT; draw2 (map rpart (s0 :: rest)); dot2 (rpart s0); dot2 (rpart (last rest s0))].
Proof. exact fig2. Qed.
Print Assumptions C79_figure_2d_partial.
Theorem C79_figure_3d_partial : forall (o : qlaw RNum) p T0 T1 T2 T3 T4 s0 rest, 0 < q_mu o ->
  elliptic (q_etype o) (p_oe0 p) -> faithful (q_etype o) (p_oe0 p) -> p_oeT p = [T0; T1; T2; T3; T4] ->
  elliptic (q_etype o) (elems T0 T1 T2 T3 T4 0) -> faithful (q_etype o) (elems T0 T1 T2 T3 T4 0) ->
  forall plot_sphere scale, let cart := s0 :: rest in exists P0 PT calls,
    revolution (q_etype o) (q_mu o) (p_oe0 p) 200 P0 /\ revolution (q_etype o) (q_mu o) (elems T0 T1 T2 T3 T4 0) 200 PT /\
    plot_trajectory_3d (N:=RNum) o p cart plot_sphere scale =
      Ok ([draw3 (map rpart cart); dot3 (rpart s0); dot3 (rpart (last rest s0)); draw3 P0; draw3 PT], calls) /\
    (plot_sphere = false -> calls = []) /\
    (plot_sphere = true -> limits (map v6_0 cart) (map v6_1 cart) (map v6_2 cart) scale calls /\
       (1 <= scale -> forall c, In c cart -> visible calls (rpart c))).
Proof. exact fig3. Qed.
Print Assumptions C79_figure_3d_partial.
(** The limits look only at the transfer: what is far from a transfer inside a cube of half-width rho is cut off, ... *)
Theorem C79_far_points_are_cut_off : forall (xs ys zs : list R) scale calls (rho : R) (q : vec3 RNum), limits xs ys zs scale calls -> 0 <= scale ->
  (forall x, In x xs -> Rabs x <= rho) -> (forall x, In x ys -> Rabs x <= rho) -> (forall x, In x zs -> Rabs x <= rho) ->
  (1 + scale) * rho < Rabs (v3_0 q) \/ (1 + scale) * rho < Rabs (v3_1 q) \/ (1 + scale) * rho < Rabs (v3_2 q) -> ~ visible calls q.
Proof. exact far_hidden. Qed.
Print Assumptions C79_far_points_are_cut_off.
(** ... so "both orbits are in view" is false. *)
Theorem C79_target_in_view_refuted : exists fuel (o : qlaw RNum) ea er p o' h cart tr d0 dT P0 PT calls q,
  reachable o /\ built Keplerian o /\ ran fuel o ea er p o' h /\ get_cartesian_history (N:=RNum) o' h = Ok cart /\
  plot_trajectory_3d (N:=RNum) o' p cart true (51 / 50) = Ok ([tr; d0; dT; P0; draw3 PT], calls) /\
  revolution Keplerian 1 (elems 4 0 0 0 0 0) 200 PT /\ In q PT /\ ~ visible calls q.
Proof. exact C79_refuted_lem. Qed.
Print Assumptions C79_target_in_view_refuted.
Example C79_example : elliptic MeeWithA (elems 1 (1 / 2) (1 / 3) (1 / 5) 0 1) /\ faithful MeeWithA (elems 1 (1 / 2) (1 / 3) (1 / 5) 0 1) /\
  elliptic Keplerian (elems 2 (1 / 2) 1 0 0 0) /\ faithful Keplerian (elems 2 (1 / 2) 1 0 0 0).
Proof. cbn. repeat split; try lra. left. lra. Qed.
