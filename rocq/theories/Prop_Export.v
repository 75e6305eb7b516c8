(** Properties C65-C67 and C72: exported and printed results, and the singular equinoctial start. *)
From Coq Require Import Reals ZArith List Bool Lra.
From Verif Require Import RMath Num Base Elements Convergence Perturb PlotHelper Qlaw Export PlotMethods Spec RSpec XSpec GaussSpec ExportSpec
  ExportProofs ExportRuns SingProofs.
Import ListNotations.
Local Open Scope R_scope.

(** C65.  The exported lists always have the length of the time list, and t0, tf are its ends. *)
Theorem C65_saved_lengths : forall (N : Num) fuel (o : qlaw N) ea er p o' h angles, ran fuel o ea er p o' h ->
  exists d, save_to_dict h angles = Ok d /\ sv_times d = h_times h /\
    length (sv_states d) = length (sv_times d) /\ length (sv_controls d) = length (sv_times d) /\
    nth_error (sv_times d) 0 = Some (sv_t0 d) /\ nth_error (sv_times d) (length (sv_times d) - 1) = Some (sv_tf d).
Proof. exact C65_lengths_lem. Qed.
Print Assumptions C65_saved_lengths.
(** Every control row is a unit vector in RTN with the recorded throttle; a final row (0,1,0) with
    throttle 0 is added. *)
Theorem C65_saved_controls : forall fuel (o : qlaw RNum) ea er p o' h d, ran fuel o ea er p o' h -> save_to_dict (N:=RNum) h false = Ok d ->
  (forall i al be thr, nth_error (h_controls h) i = Some (al, be, thr) ->
     exists ur ut un, nth_error (sv_controls d) i = Some [ur; ut; un; IZR thr] /\ ur * ur + ut * ut + un * un = 1 /\
       ur = cos be * sin al /\ ut = cos be * cos al /\ un = sin be) /\
  nth_error (sv_controls d) (length (h_controls h)) = Some [0; 1; 0; 0].
Proof. exact C65_controls_lem. Qed.
Print Assumptions C65_saved_controls.
(** With save_control_angles, the row is the recorded pair of angles and the throttle; the final row is (0, 0, 0). *)
Theorem C65_saved_angles : forall (N : Num) fuel (o : qlaw N) ea er p o' h d, ran fuel o ea er p o' h -> save_to_dict h true = Ok d ->
  (forall i al be thr, nth_error (h_controls h) i = Some (al, be, thr) -> nth_error (sv_controls d) i = Some [al; be; nofZ thr]) /\
  nth_error (sv_controls d) (length (h_controls h)) = Some [nofZ 0; nofZ 0; nofZ 0].
Proof. exact C65_angles_lem. Qed.
Print Assumptions C65_saved_angles.
(** With equinoctial elements every exported state is the recorded orbit, with its mass ([mee_p_cart]: textbook
    Cartesian state of (p,f,g,h,k,L)) ... *)
Theorem C65_saved_states_equinoctial_partial : forall fuel (o : qlaw RNum) ea er p o' h angles d i st m,
  ran fuel o ea er p o' h -> q_etype o = MeeWithA -> save_to_dict (N:=RNum) h angles = Ok d ->
  nth_error (h_states h) i = Some st -> nth_error (h_masses h) i = Some m -> elliptic MeeWithA st ->
  exists q f g hh k l, nth_error (sv_states d) i = Some [q; f; g; hh; k; l; m] /\
    mee_p_cart (q_mu o) (elems q f g hh k l) = Ok (cart_state MeeWithA (q_mu o) st).
Proof. exact C65_mee_lem. Qed.
Print Assumptions C65_saved_states_equinoctial_partial.
(** ... but Keplerian elements go through the same conversion: the inclination is treated as an eccentricity
    component, so the parameter is wrong on every inclined orbit, and the other five numbers are still Keplerian. *)
Theorem C65_saved_states_keplerian_partial : forall fuel (o : qlaw RNum) ea er p o' h angles d i a e inc raan om ta m,
  ran fuel o ea er p o' h -> q_etype o = Keplerian -> save_to_dict (N:=RNum) h angles = Ok d ->
  nth_error (h_states h) i = Some (elems a e inc raan om ta) -> nth_error (h_masses h) i = Some m ->
  nth_error (sv_states d) i = Some [a * (1 - e * e - inc * inc); e; inc; raan; om; ta; m] /\
  (a <> 0 -> inc <> 0 -> a * (1 - e * e - inc * inc) <> a * (1 - e * e)).
Proof. exact C65_kep_lem. Qed.
Print Assumptions C65_saved_states_keplerian_partial.
Theorem C65_saved_states_refuted : exists fuel (o : qlaw RNum) ea er p o' h d row q f g hh k l m,
  reachable o /\ built Keplerian o /\ ran fuel o ea er p o' h /\ save_to_dict (N:=RNum) h true = Ok d /\
  nth_error (h_states h) 0 = Some (elems 1 0 (1 / 2) 0 0 0) /\ nth_error (sv_states d) 0 = Some row /\ row = [q; f; g; hh; k; l; m] /\
  mee_p_cart (q_mu o) (elems q f g hh k l) <> Ok (cart_state Keplerian (q_mu o) (elems 1 0 (1 / 2) 0 0 0)).
Proof. exact C65_refuted_lem. Qed.
Print Assumptions C65_saved_states_refuted.

(** C66.  One column per recorded time; the column is the Cartesian state of the recorded elements exactly when the
    package's conversion keeps the periapsis direction (always for Keplerian elements). *)
Theorem C66_columns_partial : forall fuel (o : qlaw RNum) ea er p o' h, ran fuel o ea er p o' h -> 0 < q_mu o ->
  (forall st, In st (h_states h) -> elliptic (q_etype o) st) ->
  exists cols, get_cartesian_history (N:=RNum) o' h = Ok cols /\ length cols = length (h_times h) /\
    forall i st, nth_error (h_states h) i = Some st -> exists c, nth_error cols i = Some c /\
      (faithful (q_etype o) st -> c = cart_state (q_etype o) (q_mu o) st) /\
      (~ faithful (q_etype o) st -> c <> cart_state (q_etype o) (q_mu o) st).
Proof. exact C66_columns_lem. Qed.
Print Assumptions C66_columns_partial.
Example C65_C66_example : exists fuel (o : qlaw RNum) ea er p o' h st, reachable o /\ built MeeWithA o /\ 0 < q_mu o /\ ran fuel o ea er p o' h /\
  (forall st, In st (h_states h) -> elliptic MeeWithA st) /\ nth_error (h_states h) 0 = Some st /\ faithful MeeWithA st.
Proof. exact C66_case. Qed.
Theorem C66_columns_refuted : exists fuel (o : qlaw RNum) ea er p o' h cols st c,
  reachable o /\ built MeeWithA o /\ 0 < q_mu o /\ ran fuel o ea er p o' h /\ (forall st, In st (h_states h) -> elliptic MeeWithA st) /\
  get_cartesian_history (N:=RNum) o' h = Ok cols /\
  nth_error (h_states h) 0 = Some st /\ nth_error cols 0 = Some c /\ c <> cart_state MeeWithA (q_mu o) st.
Proof. exact C66_refuted_lem. Qed.
Print Assumptions C66_columns_refuted.
(** Interpolated history: between 0 and 8000 samples whatever the rounding, from the first to the last recorded state. *)
Theorem C66_steps_bounded : forall (N : Num) round (tf : car) n, default_steps (N:=N) round tf = Ok n -> (0 <= n <= 8000)%Z.
Proof. exact C66_steps_any_lem. Qed.
Print Assumptions C66_steps_bounded.
Theorem C66_steps_value : forall round tf, nearest round -> exists n, default_steps (N:=RNum) round tf = Ok n /\
  (Rabs tf < 1 / 200 -> n = 0%Z) /\ (1 / 200 < Rabs tf -> (0 < n)%Z) /\
  (Rabs tf < 80 - 1 / 200 -> Rabs (IZR n - 100 * Rabs tf) <= 1 / 2).
Proof. exact C66_steps_lem. Qed.
Print Assumptions C66_steps_value.
Theorem C66_interpolated : forall fuel (o : qlaw RNum) ea er p o' h (interp1d : interp_fn (N:=RNum)) round steps cart tev,
  ran fuel o ea er p o' h -> (forall xs ys fn, interp1d xs ys = Ok fn -> through xs ys fn) ->
  get_cartesian_history_interp (N:=RNum) interp1d round steps o' h = Ok (cart, tev) ->
  exists n tf, nth_error (h_times h) (length (h_times h) - 1) = Some tf /\
    (match steps with Some k => k = Z.of_nat n | None => default_steps (N:=RNum) round tf = Ok (Z.of_nat n) end) /\
    length cart = n /\ length tev = n /\
    ((2 <= n)%nat -> nth_error tev 0 = Some 0 /\ nth_error tev (n - 1) = Some tf /\
      (forall st, nth_error (h_states h) 0 = Some st -> exists c, nth_error cart 0 = Some c /\ to_cartesian (N:=RNum) o' st = Ok c) /\
      (forall st, nth_error (h_states h) (length (h_times h) - 1) = Some st -> exists c, nth_error cart (n - 1) = Some c /\ to_cartesian (N:=RNum) o' st = Ok c)).
Proof. exact C66_interp_lem. Qed.
Print Assumptions C66_interpolated.
(** A run shorter than 1/200 time units has no samples by default, and drawing it raises. *)
Theorem C66_short_run_cannot_be_drawn : forall fuel (o : qlaw RNum) ea er p o' h (interp1d : interp_fn (N:=RNum)) round cart tev b scale tf,
  ran fuel o ea er p o' h -> nearest round -> nth_error (h_times h) (length (h_times h) - 1) = Some tf -> Rabs tf < 1 / 200 ->
  get_cartesian_history_interp (N:=RNum) interp1d round None o' h = Ok (cart, tev) ->
  cart = [] /\ exists e, plot_trajectory_3d (N:=RNum) o' p cart b scale = Err e.
Proof. exact C66_short_lem. Qed.
Print Assumptions C66_short_run_cannot_be_drawn.

(** C67 is false for every threshold of at least 1: the first coasting step from a circular orbit divides g by f = 0. *)
Theorem C67_circular_start_raises_refuted : exists (o : qlaw XNum) p ea er a h k l,
  built MeeWithA o /\ fresh o /\ q_problem o = Some p /\ p_oe0 p = @mk6 XNum a (Fin 0) (Fin 0) h k l /\ q_nan_thr o = 10%Z /\
  forall fuel, exists o', solve (S fuel) o ea er = Raises ZeroDivisionError o'.
Proof. exact C67_refuted_lem. Qed.
Print Assumptions C67_circular_start_raises_refuted.
(** ... on every such problem, with nothing recorded ... *)
Theorem C67_circular_start_raises_partial : forall (o : qlaw XNum) p ea er T a h k l,
  built MeeWithA o -> q_problem o = Some p -> p_oe0 p = @mk6 XNum a (Fin 0) (Fin 0) h k l ->
  list_to_vec5 (N:=XNum) (p_oeT p) = Some T -> ea <> EtaOther -> q_sundman o = false ->
  nltb (Num:=XNum) (Fin 0) (nabs (Num:=XNum) (p_tf_max p)) = true ->
  forall fuel, (1 <= q_nan_thr o)%Z -> q_ptrb o = None ->
  exists o', solve (S fuel) o ea er = Raises ZeroDivisionError o' /\
    exists hh, q_hist o' = Some hh /\ h_times hh = [Fin 0] /\ h_controls hh = [].
Proof. exact C67_raises_lem. Qed.
Print Assumptions C67_circular_start_raises_partial.
(** ... and true for threshold 0. *)
Theorem C67_circular_start_threshold_zero_partial : forall (o : qlaw XNum) p ea er T a h k l,
  built MeeWithA o -> q_problem o = Some p -> p_oe0 p = @mk6 XNum a (Fin 0) (Fin 0) h k l ->
  list_to_vec5 (N:=XNum) (p_oeT p) = Some T -> ea <> EtaOther -> q_sundman o = false ->
  nltb (Num:=XNum) (Fin 0) (nabs (Num:=XNum) (p_tf_max p)) = true ->
  forall fuel, (q_nan_thr o < 1)%Z -> nltb (Num:=XNum) (p_duty_on p) (Fin 0) = false ->
  nleb (Num:=XNum) (p_batt0 p) (nadd (Num:=XNum) (p_cap_lo p) (dec (N:=XNum) 1 12)) = false ->
  exists o' hh, ran (S fuel) o ea er p o' hh /\ q_exitcode o' = (-3)%Z /\ h_times hh = [Fin 0] /\ h_controls hh = [].
Proof. exact C67_breaks_lem. Qed.
Print Assumptions C67_circular_start_threshold_zero_partial.
Example C67_example : built MeeWithA (o_circle 0) /\ q_problem (o_circle 0) = Some p_circ /\ q_sundman (o_circle 0) = false /\ (q_nan_thr (o_circle 0) < 1)%Z /\
  nltb (Num:=XNum) (Fin 0) (nabs (Num:=XNum) (p_tf_max p_circ)) = true /\ nltb (Num:=XNum) (p_duty_on p_circ) (Fin 0) = false /\
  nleb (Num:=XNum) (p_batt0 p_circ) (nadd (Num:=XNum) (p_cap_lo p_circ) (dec (N:=XNum) 1 12)) = false.
Proof. exact C67_case. Qed.

(** C72.  After convergence the printed errors of weighted elements are within tolerance, except for the two Keplerian
    angles, whose printed error is not reduced to one turn. *)
Theorem C72_printed_errors_partial : forall et fuel (o : qlaw RNum) ea er p o' h,
  q_check o = check_of (N:=RNum) et -> fresh o -> ran fuel o ea er p o' h -> q_exitcode o' = 1%Z ->
  exists rows tf m, pretty_results (N:=RNum) p h = Ok (rows, tf, m) /\ length rows = 5%nat /\
    nth_error (h_times h) (length (h_times h) - 1) = Some tf /\ nth_error (h_masses h) (length (h_masses h) - 1) = Some m /\
    forall i x err w tol T, nth_error rows i = Some (x, err) -> nth_error (vec5_to_list (p_woe p)) i = Some w ->
      nth_error (vec5_to_list (q_tol o)) i = Some tol -> nth_error (p_oeT p) i = Some T -> w <> 0 ->
      err = Rabs (x - T) /\ (et = MeeWithA \/ (i < 3)%nat -> err <= tol) /\ (exists k : Z, Rabs (T - x - 2 * PI * IZR k) <= tol).
Proof. exact C72_lem. Qed.
Print Assumptions C72_printed_errors_partial.
Theorem C72_printed_errors_refuted : exists fuel (o : qlaw RNum) ea er p o' h rows tf m x,
  q_check o = check_of (N:=RNum) Keplerian /\ fresh o /\ ran fuel o ea er p o' h /\ q_exitcode o' = 1%Z /\ v5_3 (p_woe p) = 1 /\ v5_3 (q_tol o) = 1 / 1000 /\
  pretty_results (N:=RNum) p h = Ok (rows, tf, m) /\ nth_error rows 3 = Some (x, 2 * PI).
Proof. exact C72_refuted_lem. Qed.
Print Assumptions C72_printed_errors_refuted.
Example C72_example : exists o' h, fresh o_turn /\ ran 1 o_turn (EtaFloat (N:=RNum) 0) (EtaFloat (N:=RNum) 0) p_turn o' h /\ q_exitcode o' = 1%Z /\
  h_states h = [p_oe0 p_turn; p_oe0 p_turn].
Proof. destruct run_turn as (o' & h & H). exists o', h. split; [split; reflexivity|exact H]. Qed.
