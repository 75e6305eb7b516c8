(** Orbital element conversions, convergence test, clamping: C46 - C57, C80 (real arithmetic). *)
From Coq Require Import Reals Lra ZArith String List Bool.
From Verif Require Import RMath RLib Num Base Elements Eom Convergence Lyapunov Perturb Qlaw Spec RSpec ElemProofs ConvProofs RotProofs.
Import ListNotations.
Local Open Scope R_scope.

(** C46 *)
Theorem C46_kep2sv_orbit : forall mu a e i raan om ta : R, 0 < mu -> 0 < a -> 0 <= e < 1 ->
  exists r v, kep2sv (N:=RNum) (elems a e i raan om ta) mu = Ok (concat33 r v) /\
    norm r = a * (1 - e * e) / (1 + e * cos ta) /\
    dot v v / 2 - mu / norm r = - mu / (2 * a) /\
    cross r v = scale (sqrt (mu * (a * (1 - e * e)))) (plane_normal i raan).
Proof. exact C46_lem. Qed.
Print Assumptions C46_kep2sv_orbit.
(** the zero-angle branches: equatorial orbit with periapsis on the x axis, at periapsis *)
Example C46_example : kep2sv (N:=RNum) (elems 1 (1/2) 0 0 0 0) 1 =
  Ok (concat33 (vec (1/2) 0 0) (vec 0 (sqrt (4/3) * (3/2)) 0)).
Proof.
  rewrite kep2sv_closed by lra. unfold kep_r, kep_v, in_plane, vec. rewrite Rplus_0_l, cos_0, sin_0.
  replace (1 / (1 * (1 - 1 / 2 * (1 / 2)))) with (4 / 3) by field. cbn. f_equal. f_equal; field.
Qed.

(** C47.  The last hypothesis is the code's own test for a usable node line and eccentricity vector. *)
Theorem C47_keplerian_round_trip : forall mu a e i raan om ta : R, 0 < mu -> 0 < a -> 0 < e < 1 -> 0 < i < PI ->
  - PI < raan <= PI -> 0 <= om < 2 * PI -> - PI < ta <= PI ->
  / 10 ^ 12 <= sqrt (mu * (a * (1 - e * e))) * sin i * e ->
  exists s, kep2sv (N:=RNum) (elems a e i raan om ta) mu = Ok s /\
            sv2kep (N:=RNum) s mu = Ok (elems a e i raan om ta).
Proof. exact C47_lem. Qed.
Print Assumptions C47_keplerian_round_trip.
Example C47_example : exists s, kep2sv (N:=RNum) (elems 2 (1/2) (PI/2) (-1) 5 3) 1 = Ok s /\
  sv2kep (N:=RNum) s 1 = Ok (elems 2 (1/2) (PI/2) (-1) 5 3).
Proof.
  pose proof PI2_3_2. apply C47_keplerian_round_trip; try lra. rewrite sin_PI2.
  assert (1 <= sqrt (1 * (2 * (1 - 1 / 2 * (1 / 2))))).
  { rewrite <- sqrt_1 at 1. apply sqrt_le_1; lra. }
  assert (/ 10 ^ 12 <= / 10) by (apply Rinv_le_contravar; [lra|]; simpl; lra). lra.
Qed.

(** C48.  Keplerian to equinoctial and back, for inclined eccentric orbits; and the exact condition
    under which equinoctial to Keplerian and back is the identity. *)
Theorem C48_keplerian_mee_keplerian_partial : forall a e i raan om ta : R, 0 < e < 1 -> 0 < i < PI ->
  exists raan' om' ta', mee2kep (N:=RNum) (kep2mee (N:=RNum) (elems a e i raan om ta)) = Ok (elems a e i raan' om' ta') /\
    same_angle raan' raan /\ same_angle om' om /\ raan' + om' + ta' = raan + om + ta /\
    (- PI < raan <= PI -> raan' = raan) /\ (- PI < om <= PI -> om' = om).
Proof. exact C48_fwd. Qed.
Print Assumptions C48_keplerian_mee_keplerian_partial.
Theorem C48_mee_keplerian_mee_partial : forall p f g h k l : R, f * f + g * g <> 1 ->
  exists kep, mee2kep (N:=RNum) (elems p f g h k l) = Ok kep /\
    (kep2mee (N:=RNum) kep = elems p f g h k l <-> periapsis_kept f g h k).
Proof. exact (fun p f g h k l => C48_back f g h k l p). Qed.
Print Assumptions C48_mee_keplerian_mee_partial.
Theorem C48_mee_with_a_keplerian_partial : forall a f g h k l : R, f * f + g * g <> 1 ->
  exists kep, mee_with_a2kep (N:=RNum) (elems a f g h k l) = Ok kep /\
    (kep2mee_with_a (N:=RNum) kep = elems a f g h k l <-> periapsis_kept f g h k).
Proof. exact (fun a f g h k l => C48_back_a f g h k l a). Qed.
Print Assumptions C48_mee_with_a_keplerian_partial.
Theorem C48_equatorial_refuted : exists p f g h k l : R, 0 < p /\ f * f + g * g < 1 /\
  exists kep, mee2kep (N:=RNum) (elems p f g h k l) = Ok kep /\ kep2mee (N:=RNum) kep <> elems p f g h k l.
Proof. exact C48_refuted_lem. Qed.
Print Assumptions C48_equatorial_refuted.
Example C48_example : periapsis_kept (1/2) (1/3) 0 1 /\ (1/2) * (1/2) + (1/3) * (1/3) <> 1 /\
  periapsis_kept (1/2) 0 0 0 /\ ~ periapsis_kept 0 (1/2) 0 0.
Proof. unfold periapsis_kept. repeat split; try lra. Qed.

(** C49 *)
Theorem C49_mee_to_a_and_back : forall p f g h k l : R, f * f + g * g <> 1 ->
  exists m, mee2mee_with_a (N:=RNum) (elems p f g h k l) = Ok m /\ mee_with_a2mee (N:=RNum) m = elems p f g h k l.
Proof. exact C49_lem1. Qed.
Print Assumptions C49_mee_to_a_and_back.
Theorem C49_a_to_mee_and_back : forall a f g h k l : R, f * f + g * g <> 1 ->
  mee2mee_with_a (N:=RNum) (mee_with_a2mee (N:=RNum) (elems a f g h k l)) = Ok (elems a f g h k l).
Proof. exact C49_lem2. Qed.
Print Assumptions C49_a_to_mee_and_back.
Theorem C49_kep2mee_with_a_composed : forall a e i raan om ta : R, e * e <> 1 ->
  mee2mee_with_a (N:=RNum) (kep2mee (N:=RNum) (elems a e i raan om ta)) = Ok (kep2mee_with_a (N:=RNum) (elems a e i raan om ta)).
Proof. exact C49_lem3. Qed.
Print Assumptions C49_kep2mee_with_a_composed.
Example C49_example : mee2mee_with_a (N:=RNum) (elems (3/4) (1/2) 0 1 0 5) = Ok (elems 1 (1/2) 0 1 0 5).
Proof.
  replace (elems (3/4) (1/2) 0 1 0 5) with (mee_with_a2mee (N:=RNum) (elems 1 (1/2) 0 1 0 5)).
  - apply C49_a_to_mee_and_back. lra.
  - unfold elems. cbn. f_equal. field.
Qed.

(** C50.  The state returned is the textbook one exactly when the periapsis direction survives the
    passage through Keplerian angles. *)
Theorem C50_mee_state_partial : forall a f g h k l mu : R, 0 < mu -> 0 < a -> f * f + g * g < 1 ->
  exists s, mee_with_a2sv (N:=RNum) (elems a f g h k l) mu = Ok s /\
    (periapsis_kept f g h k -> s = concat33 (mee_r a f g h k l) (mee_v mu a f g h k l)) /\
    (~ periapsis_kept f g h k -> s <> concat33 (mee_r a f g h k l) (mee_v mu a f g h k l)).
Proof. exact C50_pos. Qed.
Print Assumptions C50_mee_state_partial.
Theorem C50_equatorial_refuted : exists a f g h k l mu : R, 0 < mu /\ 0 < a /\ f * f + g * g < 1 /\
  mee_with_a2sv (N:=RNum) (elems a f g h k l) mu <> Ok (concat33 (mee_r a f g h k l) (mee_v mu a f g h k l)).
Proof. exact C50_refuted_lem. Qed.
Print Assumptions C50_equatorial_refuted.
Example C50_example : mee_with_a2sv (N:=RNum) (elems 1 (1/2) (1/3) 1 0 0) 1 =
  Ok (concat33 (mee_r 1 (1/2) (1/3) 1 0 0) (mee_v 1 1 (1/2) (1/3) 1 0 0)).
Proof.
  destruct (C50_mee_state_partial 1 (1/2) (1/3) 1 0 0 1) as (s & -> & H & _); try lra.
  rewrite H; [reflexivity|]. left. lra.
Qed.

(** C51 *)
Theorem C51_eccentric_anomaly : forall ta e : R, 0 <= e < 1 -> cos (ta / 2) <> 0 ->
  exists E, ta2ea (N:=RNum) ta e = Ok E /\ - PI < E < PI /\
    cos E = (e + cos ta) / (1 + e * cos ta) /\
    sin E = sqrt (1 - e * e) * sin ta / (1 + e * cos ta).
Proof. exact C51_ta2ea. Qed.
Print Assumptions C51_eccentric_anomaly.
Theorem C51_eccentric_anomaly_mee : forall a e i raan om ta : R, 0 < e < 1 ->
  mee2ea (N:=RNum) (kep2mee_with_a (N:=RNum) (elems a e i raan om ta)) = ta2ea (N:=RNum) ta e /\
  mee2ea (N:=RNum) (kep2mee (N:=RNum) (elems a e i raan om ta)) = ta2ea (N:=RNum) ta e.
Proof. exact C51_mee. Qed.
Print Assumptions C51_eccentric_anomaly_mee.
Example C51_example : 0 <= 1/2 < 1 /\ cos (PI / 2 / 2) <> 0 /\ (1/2 + cos (PI/2)) / (1 + 1/2 * cos (PI/2)) = 1/2.
Proof.
  split; [lra|]. split; [|rewrite cos_PI2; field]. pose proof PI2_3_2. apply Rgt_not_eq, cos_gt_0; lra.
Qed.

(** C52 *)
Theorem C52_vis_viva : forall (mu : R) s, 0 < mu -> norm (rpart s) <> 0 -> norm (momentum s) <> 0 ->
  (energy mu s <> 0 -> get_semiMajorAxis (N:=RNum) s mu = Ok (- mu / (2 * energy mu s))) /\
  (energy mu s = 0 -> get_semiMajorAxis (N:=RNum) s mu = Err ZeroDivisionError).
Proof. exact C52_sma. Qed.
Print Assumptions C52_vis_viva.
Theorem C52_orbital_period : forall (mu : R) s, 0 < mu -> norm (rpart s) <> 0 -> norm (momentum s) <> 0 ->
  (energy mu s < 0 -> exists a, get_semiMajorAxis (N:=RNum) s mu = Ok a /\ 0 < a /\
     get_period (N:=RNum) s mu = Ok (2 * PI * sqrt (a * a * a / mu))) /\
  (0 < energy mu s -> get_period (N:=RNum) s mu = Ok (-1)).
Proof. exact C52_period. Qed.
Print Assumptions C52_orbital_period.
Example C52_example : let s := elems 1 0 0 0 1 0 in let s' := elems 1 0 0 0 2 0 in
  norm (rpart s) = 1 /\ norm (momentum s) = 1 /\ energy 1 s = -1/2 /\ norm (momentum s') = 2 /\ energy 1 s' = 1.
Proof.
  assert (E : norm (rpart (elems 1 0 0 0 1 0)) = 1) by (apply sqrt_pos_of; [lra|]; cbn; ring).
  cbv zeta. unfold energy. change (rpart (elems 1 0 0 0 2 0)) with (rpart (elems 1 0 0 0 1 0)). rewrite E.
  repeat split; try (apply sqrt_pos_of; [lra|]; cbn; ring); cbn; field.
Qed.

(** C53 *)
Theorem C53_orbit_samples : forall (a e i raan om ta mu : R) (steps : nat) d, 0 < mu -> 0 < a -> 0 <= e < 1 ->
  exists cols, get_orbit_coordinates (N:=RNum) (elems a e i raan om ta) mu steps = Ok cols /\
    length cols = steps /\
    (forall s, In s cols -> energy mu s = - mu / (2 * a) /\
                            momentum s = scale (sqrt (mu * (a * (1 - e * e)))) (plane_normal i raan)) /\
    (forall j, (2 <= steps)%nat -> (j < steps)%nat ->
       kep2sv (N:=RNum) (elems a e i raan om (2 * PI * INR j / INR (steps - 1))) mu = Ok (nth j cols d)) /\
    ((1 <= steps)%nat -> norm (rpart (nth 0 cols d)) = a * (1 - e)) /\
    ((2 <= steps)%nat -> nth 0 cols d = nth (steps - 1) cols d).
Proof. exact C53_lem. Qed.
Print Assumptions C53_orbit_samples.
Example C53_example : exists c0 c1 c2, get_orbit_coordinates (N:=RNum) (elems 1 (1/2) 0 0 0 7) 1 3 = Ok [c0; c1; c2] /\ c0 = c2.
Proof.
  destruct (C53_orbit_samples 1 (1/2) 0 0 0 7 1 3 (elems 0 0 0 0 0 0)) as (cols & E & L & _ & _ & _ & X); try lra.
  destruct cols as [|c0 [|c1 [|c2 [|]]]]; try discriminate L. exists c0, c1, c2. split; [exact E|]. apply X. repeat constructor.
Qed.

(** C54 *)
Theorem C54_keplerian_convergence : forall (o0 o1 o2 o3 o4 o5 T0 T1 T2 T3 T4 : R) rest (w0 w1 w2 w3 w4 t0 t1 t2 t3 t4 : R),
  exists b, check_convergence_keplerian (N:=RNum) (elems o0 o1 o2 o3 o4 o5) (T0 :: T1 :: T2 :: T3 :: T4 :: rest)
              (@mk5 RNum w0 w1 w2 w3 w4) (@mk5 RNum t0 t1 t2 t3 t4) = Ok b /\
  (b = true <-> within w0 (T0 - o0) t0 /\ within w1 (T1 - o1) t1 /\ within w2 (T2 - o2) t2 /\
                within_angle w3 (T3 - o3) t3 /\ within_angle w4 (T4 - o4) t4).
Proof. exact (C54_lem Keplerian). Qed.
Print Assumptions C54_keplerian_convergence.
Theorem C54_mee_convergence : forall (o0 o1 o2 o3 o4 o5 T0 T1 T2 T3 T4 : R) rest (w0 w1 w2 w3 w4 t0 t1 t2 t3 t4 : R),
  exists b, check_convergence_mee (N:=RNum) (elems o0 o1 o2 o3 o4 o5) (T0 :: T1 :: T2 :: T3 :: T4 :: rest)
              (@mk5 RNum w0 w1 w2 w3 w4) (@mk5 RNum t0 t1 t2 t3 t4) = Ok b /\
  (b = true <-> within w0 (T0 - o0) t0 /\ within w1 (T1 - o1) t1 /\ within w2 (T2 - o2) t2 /\
                within w3 (T3 - o3) t3 /\ within w4 (T4 - o4) t4).
Proof. exact (C54_lem MeeWithA). Qed.
Print Assumptions C54_mee_convergence.
(** a target right ascension of 0 is met at 2 pi *)
Example C54_example : check_convergence_keplerian (N:=RNum) (elems 1 0 0 (2 * PI) 3 0) [1; 0; 0; 0; 0]
  (@mk5 RNum 1 1 1 1 0) (@mk5 RNum 0 0 0 0 0) = Ok true.
Proof.
  destruct (C54_keplerian_convergence 1 0 0 (2 * PI) 3 0 1 0 0 0 0 [] 1 1 1 1 0 0 0 0 0 0) as (b & E & H).
  etransitivity; [exact E|]. f_equal. apply H. clear E H. unfold within, within_angle.
  repeat split; try (right; rewrite Rminus_eq_0, Rabs_R0; lra); [|left; reflexivity].
  right. exists (-1)%Z. replace (0 - 2 * PI - 2 * PI * -1) with 0 by ring. rewrite Rabs_R0. lra.
Qed.

(** C55 *)
Theorem C55_relaxed_is_weaker : forall mu rpmin k m n r b wp et ig grid tol omin omax thr sun ptrb (rf : R) ear (o : qlaw RNum) p oe,
  init (N:=RNum) mu rpmin k m n r b wp et ig grid tol omin omax thr sun ptrb rf ear = Ok o ->
  le5 (N:=RNum) (@mk5 RNum 0 0 0 0 0) (q_tol o) -> 1 <= rf ->
  q_check o oe (p_oeT p) (p_woe p) (q_tol o) = Ok true ->
  q_check o oe (p_oeT p) (p_woe p) (q_tol_relaxed o) = Ok true.
Proof. exact C55_lem. Qed.
Print Assumptions C55_relaxed_is_weaker.
Example C55_example : exists o, init (N:=RNum) 1 1 1 1 2 2 1 1 "mee_with_a" "rk4" 20 None None None 10 false None 10 0 = Ok o /\
  le5 (N:=RNum) (@mk5 RNum 0 0 0 0 0) (q_tol o).
Proof.
  unfold init. change (nleb (Num:=RNum)) with Rleb. change (nltb (Num:=RNum)) with Rltb.
  change (nofZ (Num:=RNum)) with IZR. rewrite (proj2 (Rleb_true 1 10)), (proj2 (Rltb_true 0 1)) by lra.
  eexists. split; [reflexivity|]. cbn. repeat split; apply Rleb_true; lra.
Qed.

(** C56 *)
Theorem C56_clamping : forall o0 o1 o2 o3 o4 o5 l0 l1 l2 l3 l4 h0 h1 h2 h3 h4 : R,
  l0 <= h0 -> l1 <= h1 -> l2 <= h2 -> l3 <= h3 -> l4 <= h4 ->
  let lo := @mk5 RNum l0 l1 l2 l3 l4 in let hi := @mk5 RNum h0 h1 h2 h3 h4 in
  exists c0 c1 c2 c3 c4, elements_safety (N:=RNum) (elems o0 o1 o2 o3 o4 o5) lo hi = elems c0 c1 c2 c3 c4 o5 /\
    closest l0 h0 o0 c0 /\ closest l1 h1 o1 c1 /\ closest l2 h2 o2 c2 /\ closest l3 h3 o3 c3 /\ closest l4 h4 o4 c4 /\
    elements_safety (N:=RNum) (elems c0 c1 c2 c3 c4 o5) lo hi = elems c0 c1 c2 c3 c4 o5 /\
    (l0 <= o0 <= h0 -> l1 <= o1 <= h1 -> l2 <= o2 <= h2 -> l3 <= o3 <= h3 -> l4 <= o4 <= h4 ->
     elements_safety (N:=RNum) (elems o0 o1 o2 o3 o4 o5) lo hi = elems o0 o1 o2 o3 o4 o5).
Proof. exact C56_lem. Qed.
Print Assumptions C56_clamping.
(** The closest point is unique, so the theorem fixes the result. *)
Example C56_example : (forall lo hi x c c', closest lo hi x c -> closest lo hi x c' -> c = c') /\
  closest 0 1 7 1 /\ closest 0 1 (1/3) (1/3).
Proof.
  split; [exact closest_unique|]. unfold closest.
  split; split; try lra; intros y Hy; unfold Rabs; repeat destruct (Rcase_abs _); lra.
Qed.

(** C57 *)
Theorem C57_wrap_range_partial : forall al : R, - PI <= wrap (N:=RNum) al < PI.
Proof. exact C57_range. Qed.
Print Assumptions C57_wrap_range_partial.
Theorem C57_same_angle_refuted : exists al : R, ~ same_angle (wrap (N:=RNum) al) al.
Proof. exact C57_ex. Qed.
Print Assumptions C57_same_angle_refuted.
(** Not an isolated case: every angle of the branch (-pi, 2-pi) is changed. *)
Theorem C57_wrong_on_interval : forall al : R, - PI < al < 2 - PI -> ~ same_angle (wrap (N:=RNum) al) al.
Proof. exact C57_refuted_lem. Qed.
Print Assumptions C57_wrong_on_interval.

(** C80.  Matrices with orthonormal right-handed rows ... *)
Theorem C80_are_rotations : forall phi : R,
  rotation (rotmat1 (N:=RNum) phi) /\ rotation (rotmat2 (N:=RNum) phi) /\ rotation (rotmat3 (N:=RNum) phi).
Proof. exact C80_rotations_lem. Qed.
Print Assumptions C80_are_rotations.
(** ... that lower by [phi] the angle [theta] of a vector about the axis, measured from y to z, from z to x and from x to y,
    and leave its component [z] along the axis. *)
Theorem C80_angles : forall phi theta rho z : R,
  let c := rho * cos theta in let s := rho * sin theta in
  let c' := rho * cos (theta - phi) in let s' := rho * sin (theta - phi) in
  apply (rotmat1 (N:=RNum) phi) (vec z c s) = vec z c' s' /\
  apply (rotmat2 (N:=RNum) phi) (vec s z c) = vec s' z c' /\
  apply (rotmat3 (N:=RNum) phi) (vec c s z) = vec c' s' z.
Proof. exact C80_angles_lem. Qed.
Print Assumptions C80_angles.
(** a quarter turn about the second axis takes x to z: the angle of x is pi/2, that of z is 0 *)
Example C80_example : apply (rotmat2 (N:=RNum) (PI / 2)) (vec 1 0 0) = vec 0 0 1.
Proof.
  destruct (C80_angles (PI / 2) (PI / 2) 1 0) as (_ & H & _).
  rewrite cos_PI2, sin_PI2, Rminus_eq_0, cos_0, sin_0, Rmult_1_r, Rmult_0_r in H. exact H.
Qed.
