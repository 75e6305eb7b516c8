(** Properties C105-C109: runs in double precision.  [FNum L] is IEEE 754 binary64 with round to nearest even, with an arbitrary
    library [L] of elementary functions; dynamics, control law, perturbations and convergence test are arbitrary. *)
From Coq Require Import ZArith QArith List Bool Floats.SpecFloat.
From Verif Require Import Num Base Perturb Qlaw Spec XSpec Sim XRuns Float64 FloatSpec FloatProofs FloatRun FloatRuns.
Import ListNotations.

(** The operations of the instance are those of the specification of binary64. *)
Theorem C105_double_arithmetic : forall L x y z,
  f_val (nadd (Num:=FNum L) x y) = SFadd 53 1024 (f_val x) (f_val y) /\ f_val (nsub (Num:=FNum L) x y) = SFsub 53 1024 (f_val x) (f_val y) /\
  f_val (nmul (Num:=FNum L) x y) = SFmul 53 1024 (f_val x) (f_val y) /\ f_val (ndiv (Num:=FNum L) x y) = SFdiv 53 1024 (f_val x) (f_val y) /\
  f_val (nsqrt (Num:=FNum L) x) = SFsqrt 53 1024 (f_val x) /\ f_val (nopp (Num:=FNum L) x) = SFopp (f_val x) /\
  f_val (nabs (Num:=FNum L) x) = SFabs (f_val x) /\ f_val (nofZ (Num:=FNum L) z) = binary_normalize 53 1024 z 0 false.
Proof.
  exact (fun L x y z => conj (v_add x y) (conj (v_sub x y) (conj (v_mul x y) (conj (v_div x y)
    (conj (v_sqrt x) (conj (v_opp x) (conj (v_abs x) (v_ofZ z)))))))).
Qed.
Print Assumptions C105_double_arithmetic.

(** C105.  Missing: strictly increasing, which is false. *)
Theorem C105_times_never_decrease_partial : forall L (o : qlaw (FNum L)) (p : problem (FNum L)) ea er fuel o' h k t t',
  forward64 o p -> ran fuel o ea er p o' h ->
  nth_error (h_times h) k = Some t -> nth_error (h_times h) (S k) = Some t' -> fle f0 t /\ fle t t'.
Proof. exact C105_lem. Qed.
Print Assumptions C105_times_never_decrease_partial.
Theorem C105_times_strictly_increase_refuted : exists L (o : qlaw (FNum L)) (p : problem (FNum L)) ea er fuel o' h k t,
  forward64 o p /\ flt f0 (p_t_step p) /\ ran fuel o ea er p o' h /\
  nth_error (h_times h) k = Some t /\ nth_error (h_times h) (S k) = Some t.
Proof. exact C105_refuted_lem. Qed.
Print Assumptions C105_times_strictly_increase_refuted.

(** C106.  Missing: strictly decreasing on every thrusting step, which is false. *)
Theorem C106_mass_never_increases_partial : forall L (o : qlaw (FNum L)) (p : problem (FNum L)) ea er fuel o' h k m m',
  forward64 o p -> fin (p_mass0 p) -> fin (p_mdot p) -> flt f0 (p_mdot p) -> ran fuel o ea er p o' h ->
  nth_error (h_masses h) k = Some m -> nth_error (h_masses h) (S k) = Some m' -> fle m' m.
Proof. exact C106_lem. Qed.
Print Assumptions C106_mass_never_increases_partial.
Theorem C106_thrust_burns_refuted : exists L (o : qlaw (FNum L)) (p : problem (FNum L)) ea er fuel o' h k m,
  forward64 o p /\ flt f0 (p_t_step p) /\ fin (p_mdot p) /\ flt f0 (p_mdot p) /\ ran fuel o ea er p o' h /\
  throttle h k 1 /\ nth_error (h_masses h) k = Some m /\ nth_error (h_masses h) (S k) = Some m.
Proof. exact C106_refuted_lem. Qed.
Print Assumptions C106_thrust_burns_refuted.

(** C107: battery.  Any object and any parameters; then without nan. *)
Theorem C107_battery_within_capacity : forall L (o : qlaw (FNum L)) (p : problem (FNum L)) ea er fuel o' h k b,
  fle (p_cap_lo p) (p_cap_hi p) -> ran fuel o ea er p o' h ->
  nth_error (h_battery h) (S k) = Some b -> isnan b \/ fle (p_cap_lo p) b /\ fle b (p_cap_hi p).
Proof. exact C107_lem. Qed.
Print Assumptions C107_battery_within_capacity.
Theorem C107_battery_is_a_number : forall L (o : qlaw (FNum L)) (p : problem (FNum L)) ea er fuel o' h k b,
  forward64 o p -> q_integ o = RK4 -> fin (p_charge p) -> flt f0 (p_charge p) ->
  fle (p_cap_lo p) (p_cap_hi p) -> ran fuel o ea er p o' h ->
  nth_error (h_battery h) (S k) = Some b -> fle (p_cap_lo p) b /\ fle b (p_cap_hi p).
Proof. exact C107_num_lem. Qed.
Print Assumptions C107_battery_is_a_number.
(** When the tests of lines 409 and 415 lead to the division of line 416, the divisor is positive and the shortened step is
    not negative. *)
Theorem C107_no_division_by_zero : forall L (p : problem (FNum L)) (b dt : @car (FNum L)),
  fin (p_cap_lo p) -> fin (p_discharge p) -> fin b -> fin dt -> fle f0 dt ->
  nleb (Num:=FNum L) b (nadd (Num:=FNum L) (p_cap_lo p) (dec (N:=FNum L) 1 12)) = false ->
  nltb (Num:=FNum L) (nsub (Num:=FNum L) b (nmul (Num:=FNum L) (p_discharge p) dt)) (p_cap_lo p) = true ->
  flt f0 (p_discharge p) /\ fle f0 (ndiv (Num:=FNum L) (nsub (Num:=FNum L) b (p_cap_lo p)) (p_discharge p)).
Proof. exact C107_div_lem. Qed.
Print Assumptions C107_no_division_by_zero.
(** The run with shortened and recharging steps of C10_C19_example. *)
Example C105_C107_example : (forward64 (toyF a_cycle) (probF a_cycle) /\ fin (p_mass0 (probF a_cycle)) /\ fin (p_mdot (probF a_cycle)) /\
  flt f0 (p_mdot (probF a_cycle)) /\ fin (p_charge (probF a_cycle)) /\ flt f0 (p_charge (probF a_cycle)) /\
  fle (p_cap_lo (probF a_cycle)) (p_cap_hi (probF a_cycle)) /\ q_integ (toyF a_cycle) = RK4) /\
  exists o2 h2, ran 10 (toyF a_cycle) noF noF (probF a_cycle) o2 h2 /\ map snd (h_controls h2) = [1; 1; 0; 0; 0; 1; 1]%Z /\
  length (h_times h2) = 8%nat /\ length (h_masses h2) = 8%nat /\ length (h_battery h2) = 8%nat.
Proof. exact (conj cycle_forward cycle_double). Qed.

(** C108: the states a Keplerian run works with are within the bounds, nan included. *)
Theorem C108_keplerian_bounds : forall L (o : qlaw (FNum L)) (p : problem (FNum L)) ea er fuel o' h k oe i lo z hi,
  q_etype o = Keplerian -> ran fuel o ea er p o' h ->
  (k < length (h_controls h))%nat -> nth_error (h_states h) k = Some oe ->
  nth_error (vec5_to_list (q_oe_min o)) i = Some lo -> nth_error (vec5_to_list (q_oe_max o)) i = Some hi ->
  nth_error (vec6_to_list oe) i = Some z -> fle lo hi -> fle lo z /\ fle z hi.
Proof. exact C108_lem. Qed.
Print Assumptions C108_keplerian_bounds.
Example C108_example : q_etype toyK = Keplerian /\ exists o2 h2, ran 20 toyK noF noF (probF a_grow) o2 h2 /\
  length (h_controls h2) = 12%nat /\
  (option_map (fun oe : vec6 (FNum lib0) => f_val (v6_1 oe)) (nth_error (h_states h2) 11) = Some (f_val (nofZ (Num:=FNum lib0) 10))).
Proof. exact kep_double. Qed.

(** C109.  Missing: steps that are no multiple of a power of two that the format can keep, such as 0.1. *)
Theorem C109_times_exact_partial : forall L (o : qlaw (FNum L)) (p : problem (FNum L)) ea er fuel o' h e n k t,
  (-1074 <= e <= 971)%Z -> forward64 o p -> ~ flt f0 (p_discharge p) -> worth (p_t_step p) n e ->
  ran fuel o ea er p o' h -> nth_error (h_times h) k = Some t -> (Z.of_nat k * n < 2 ^ 53)%Z -> worth t (Z.of_nat k * n) e.
Proof. exact C109_times_lem. Qed.
Print Assumptions C109_times_exact_partial.
Theorem C109_step_count_partial : forall L (o : qlaw (FNum L)) (p : problem (FNum L)) ea er fuel o' h e n M,
  (-1074 <= e <= 971)%Z -> forward64 o p -> ~ flt f0 (p_discharge p) -> worth (p_t_step p) n e -> (0 < n)%Z ->
  worth (p_tf_max p) (Z.of_nat M * n) e -> (Z.of_nat M * n < 2 ^ 53)%Z -> fresh o -> ran fuel o ea er p o' h ->
  (length (h_controls h) <= M)%nat /\ (q_exitcode o' = (-2)%Z -> length (h_controls h) = M).
Proof. exact C109_steps_lem. Qed.
Print Assumptions C109_step_count_partial.
(** t_step = 0.1, tf_max = 1: ten steps in exact arithmetic, eleven in double precision. *)
Theorem C109_step_count_refuted : exists a fuel o1 h1 o2 h2, b_ts a = (1 # 10)%Q /\ b_tf a = 1%Q /\
  ran fuel (toyX RK4 a) noX noX (probX a) o1 h1 /\ q_exitcode o1 = (-2)%Z /\ length (h_controls h1) = 10%nat /\
  ran fuel (toyF a) noF noF (probF a) o2 h2 /\ q_exitcode o2 = (-2)%Z /\ length (h_controls h2) = 11%nat.
Proof. exact C109_count_refuted_lem. Qed.
Print Assumptions C109_step_count_refuted.
(** Thrust for 0.3, rest for 0.1, step 0.1: the schedules differ. *)
Theorem C109_schedule_refuted : exists a fuel o1 h1 o2 h2, b_ts a = (1 # 10)%Q /\ b_on a = (3 # 10)%Q /\ b_off a = (1 # 10)%Q /\
  ran fuel (toyX RK4 a) noX noX (probX a) o1 h1 /\ map snd (h_controls h1) = [1; 1; 1; 1; 0; 0; 1]%Z /\
  ran fuel (toyF a) noF noF (probF a) o2 h2 /\ map snd (h_controls h2) = [1; 1; 1; 0; 0; 1; 1]%Z.
Proof. exact C109_schedule_refuted_lem. Qed.
Print Assumptions C109_schedule_refuted.
Example C109_example : forward64 (toyF a_eighth) (probF a_eighth) /\ ~ flt f0 (p_discharge (probF a_eighth)) /\ worth (p_t_step (probF a_eighth)) 1 (-3) /\
  worth (p_tf_max (probF a_eighth)) (Z.of_nat 8 * 1) (-3) /\ fresh (toyF a_eighth) /\
  exists o2 h2, ran 20 (toyF a_eighth) noF noF (probF a_eighth) o2 h2 /\ length (h_controls h2) = 8%nat /\ q_exitcode o2 = (-2)%Z.
Proof. exact eighth_case. Qed.
