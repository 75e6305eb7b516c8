(** Two forward runs in double precision with the same step and different schedules. *)
From Coq Require Import QArith ZArith List Bool Lia Floats.SpecFloat.
From Verif Require Import Num Base Perturb Qlaw Spec XSpec Sim Runs XRuns Float64 FloatSpec FloatProofs FloatRun FloatRuns FloatTermRuns.
Import ListNotations.

(** The problem [a_plain] with a duty cycle: on for 0.3, off for 0.1. *)
Definition a_plain_duty : qprob := mkqp 10 (1 # 10) 1 (1 # 10) (1 # 10) (3 # 10) (1 # 10) 1 0 1 0 0 false.
Lemma same_case : (forward64 (toyF a_plain) (probF a_plain) /\ ~ flt f0 (p_discharge (probF a_plain))) /\
  (forward64 (toyF a_plain_duty) (probF a_plain_duty) /\ ~ flt f0 (p_discharge (probF a_plain_duty))) /\
  p_t_step (probF a_plain_duty) = p_t_step (probF a_plain) /\ p_mass0 (probF a_plain_duty) = p_mass0 (probF a_plain) /\ p_mdot (probF a_plain_duty) = p_mdot (probF a_plain) /\
  nabs (Num:=FNum lib0) (p_tf_max (probF a_plain_duty)) = nabs (Num:=FNum lib0) (p_tf_max (probF a_plain)) /\ fresh (toyF a_plain) /\ fresh (toyF a_plain_duty).
Proof.
  split; [split; [ck|vm_compute; discriminate]|]. split; [split; [ck|vm_compute; discriminate]|]. repeat split; reflexivity.
Qed.
Lemma same_one : exists o1 h1, ran 16 (toyF a_plain) noF noF (probF a_plain) o1 h1 /\ q_exitcode o1 = (-2)%Z /\ map snd (h_controls h1) = [1; 1; 1; 1; 1; 1; 1; 1; 1; 1; 1]%Z.
Proof. runF. Qed.
Lemma same_two : exists o2 h2, ran 16 (toyF a_plain_duty) noF noF (probF a_plain_duty) o2 h2 /\ q_exitcode o2 = (-2)%Z /\ map snd (h_controls h2) = [1; 1; 1; 0; 0; 1; 1; 1; 1; 0; 0]%Z.
Proof. runF. Qed.
