(** A run into the mass floor in double precision and in rational arithmetic. *)
From Coq Require Import Reals QArith ZArith List Bool Lia Floats.SpecFloat.
From Verif Require Import RMath Num Base Integrate Perturb Qlaw Spec XSpec XTrace Sim Runs XRuns Float64 FloatSpec FloatProofs FloatRun FloatRuns.
Import ListNotations.

(** Mass 1, mass flow 1, steps of 0.1 and a floor of 0.5. *)
Definition a_floor : qprob := mkqp 1 1 10 (1 # 10) (1 # 2) 100 0 1 0 1 0 0 false.
Lemma floor_case : forward64 (toyF a_floor) (probF a_floor) /\ fin (p_mass0 (probF a_floor)) /\ fin (p_mdot (probF a_floor)) /\ flt f0 (p_mdot (probF a_floor)) /\
  fin (p_mass_min (probF a_floor)) /\ flt (p_mass_min (probF a_floor)) (p_mass0 (probF a_floor)) /\ ~ flt f0 (p_discharge (probF a_floor)) /\
  fin (nmul (Num:=FNum lib0) (p_mdot (probF a_floor)) (p_t_step (probF a_floor))) /\
  fle (nmul (Num:=FNum lib0) (p_mdot (probF a_floor)) (p_t_step (probF a_floor))) (p_mass_min (probF a_floor)).
Proof.
  split; [ck|]. repeat match goal with |- _ /\ _ => apply conj end; vm_compute; first [exact I|reflexivity|discriminate].
Qed.
Lemma floor_exact : exists o2 h2, ran 20 (toyQ RK4 a_floor) no_eta no_eta (probQ a_floor) o2 h2 /\ length (h_controls h2) = 5%nat /\ q_exitcode o2 = (-1)%Z.
Proof. runF. Qed.
Lemma floor_double : exists o2 h2, ran 20 (toyF a_floor) noF noF (probF a_floor) o2 h2 /\ length (h_controls h2) = 6%nat /\ q_exitcode o2 = (-1)%Z /\
  match nth_error (h_masses h2) 5, nth_error (h_masses h2) 6 with
  | Some m, Some m' => flt (dbl (1 # 2)) m /\ flt (dbl (2 # 5)) m' /\ flt m' (dbl (1 # 2))
  | _, _ => False end.
Proof. runF. Qed.
