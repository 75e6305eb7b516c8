(** A concrete run backward in time in double precision. *)
From Coq Require Import QArith ZArith List Bool Lia Floats.SpecFloat.
From Verif Require Import Num Base Perturb Qlaw Spec XSpec Sim Runs XRuns Float64 FloatSpec FloatProofs FloatRun FloatRuns BackSpec.
Import ListNotations.

(** The problem of C32_example with steps of -0.1: mass flow 0.1, thruster on for 0.2 and off for 0.1, battery 1 of 1.2. *)
Definition a_backF : qprob := mkqp 10 (1 # 10) (1 # 2) (-1 # 10) (1 # 10) (1 # 5) (1 # 10) 1 0 (6 # 5) 1 1 true.
Lemma back_case : backward64 (toyF a_backF) (probF a_backF) /\ fin (p_mass0 (probF a_backF)) /\ fin (p_mdot (probF a_backF)) /\
  fle f0 (p_mdot (probF a_backF)).
Proof. unfold backward64. repeat match goal with |- _ /\ _ => apply conj end; vm_compute; first [exact I|reflexivity]. Qed.
Lemma back_runF : exists o2 h2, ran 20 (toyF a_backF) noF noF (probF a_backF) o2 h2 /\ map snd (h_controls h2) = [1; 1; 1; 1; 1]%Z /\
  q_exitcode o2 = (-2)%Z /\
  match nth_error (h_times h2) 5, nth_error (h_masses h2) 5, nth_error (h_battery h2) 1, nth_error (h_battery h2) 5 with
  | Some t, Some m, Some b, Some b' => fle t (dbl (-1 # 2)) /\ flt (dbl 10) m /\ flt (dbl 1) b /\ b' = p_cap_hi (probF a_backF)
  | _, _, _, _ => False end.
Proof. runF. Qed.
