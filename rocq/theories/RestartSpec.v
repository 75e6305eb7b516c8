(** Vocabulary of C93: taking a run up again from one of its rows. *)
From Coq Require Import ZArith List Bool.
From Verif Require Import Num Base Qlaw Spec.
Import ListNotations.

Section Restart.
Context {N : Num}.

(** The same problem from the state [z], the mass [m] and the battery level [b]. *)
Definition problem_from (z : vec6 N) (m b : car) (p : problem N) : problem N :=
  {| p_oe0 := z; p_oeT := p_oeT p; p_mass0 := m; p_tmax := p_tmax p; p_mdot := p_mdot p; p_tf_max := p_tf_max p;
     p_t_step := p_t_step p; p_mass_min := p_mass_min p; p_woe := p_woe p; p_duty_on := p_duty_on p; p_duty_off := p_duty_off p;
     p_batt0 := b; p_cap_lo := p_cap_lo p; p_cap_hi := p_cap_hi p; p_charge := p_charge p; p_discharge := p_discharge p;
     p_full := p_full p |}.

(** What the run records for row [k]: the state, the mass, the battery and the time at its beginning. *)
Definition row_at (h : hist N) (k : nat) (t : car) (z : vec6 N) (m b : car) : Prop :=
  nth_error (h_times h) k = Some t /\ nth_error (h_states h) k = Some z /\
  nth_error (h_masses h) k = Some m /\ nth_error (h_battery h) k = Some b.

(** Nothing a step computes depends on the time it starts at. *)
Definition steady (o : qlaw N) (ea er : eta_arg N) : Prop :=
  (forall t t' y w, q_eom o t y w = q_eom o t' y w) /\
  (forall f t t' y e, q_ptrb o = Some f -> f t y e = f t' y e) /\
  (forall f t t' y m b, ea = EtaFun f \/ er = EtaFun f -> f t y m b = f t' y m b).

(** Neither the duty cycle nor the battery has stopped the thrust at any step so far: no step begins later than the
    on-time, and none on a battery at its lower capacity. *)
Definition powered (p : problem N) (h : hist N) : Prop := forall k t b c,
  nth_error (h_times h) k = Some t -> nth_error (h_battery h) k = Some b -> nth_error (h_controls h) k = Some c ->
  nltb (p_duty_on p) t = false /\ nleb b (nadd (p_cap_lo p) (ndiv (nofZ 1) (nofZ (10 ^ 12)))) = false.

(** From its first row on, the history [h'] repeats [h] from row [k] on, with the clock [t0] behind; as far as both go.
    The state with which a run ends is compared as the next step would see it. *)
Definition repeats (o : qlaw N) (h : hist N) (k : nat) (t0 : car) (h' : hist N) : Prop :=
  (forall j t z m b t' z' m' b', row_at h (k + j) t z m b -> row_at h' j t' z' m' b' ->
     t = nadd t0 t' /\ m = m' /\ b = b' /\ guarded o z = guarded o z') /\
  (forall j x y, nth_error (h_controls h) (k + j) = Some x -> nth_error (h_controls h') j = Some y -> x = y) /\
  (forall j x y, nth_error (h_Qs h) (k + j) = Some x -> nth_error (h_Qs h') j = Some y -> x = y) /\
  (forall j x y, nth_error (h_dQdts h) (k + j) = Some x -> nth_error (h_dQdts h') j = Some y -> x = y) /\
  (forall j x y, nth_error (h_etas h) (k + j) = Some x -> nth_error (h_etas h') j = Some y -> x = y) /\
  (forall j x y, nth_error (h_bounds h) (k + j) = Some x -> nth_error (h_bounds h') j = Some y -> x = y).
End Restart.
