(** A forward run and its mirror image in double precision. *)
From Coq Require Import QArith ZArith List Bool Lia Floats.SpecFloat.
From Verif Require Import Num Base Perturb Qlaw Spec XSpec Sim Runs XRuns Float64 FloatSpec FloatProofs FloatRun FloatRuns FloatTermRuns BackSpec FloatBackRuns.
Import ListNotations.

(** The problem [a_plain] with steps of -0.1. *)
Definition a_plain_back : qprob := mkqp 10 (1 # 10) 1 (-1 # 10) (1 # 10) 100 0 1 0 1 0 0 false.
Lemma mirror_case : forward64 (toyF a_plain) (probF a_plain) /\ ~ flt f0 (p_discharge (probF a_plain)) /\ backward64 (toyF a_plain_back) (probF a_plain_back) /\
  p_t_step (probF a_plain_back) = nopp (Num:=FNum lib0) (p_t_step (probF a_plain)) /\
  nabs (Num:=FNum lib0) (p_tf_max (probF a_plain_back)) = nabs (Num:=FNum lib0) (p_tf_max (probF a_plain)) /\ fresh (toyF a_plain) /\ fresh (toyF a_plain_back).
Proof.
  split; [ck|]. split; [vm_compute; discriminate|]. split.
  { unfold backward64. repeat match goal with |- _ /\ _ => apply conj end; vm_compute; first [exact I|reflexivity]. }
  split; [apply f64_ext; vm_compute; reflexivity|]. split; [apply f64_ext; vm_compute; reflexivity|]. split; unfold fresh; split; reflexivity.
Qed.
Lemma mirror_fwd : exists o1 h1, ran 16 (toyF a_plain) noF noF (probF a_plain) o1 h1 /\ q_exitcode o1 = (-2)%Z /\ length (h_controls h1) = 11%nat /\
  option_map f_val (nth_error (h_times h1) 10) = Some (S754_finite false 9007199254740991 (-53)).
Proof. runF. Qed.
Lemma mirror_bwd : exists o2 h2, ran 16 (toyF a_plain_back) noF noF (probF a_plain_back) o2 h2 /\ q_exitcode o2 = (-2)%Z /\ length (h_controls h2) = 11%nat /\
  option_map f_val (nth_error (h_times h2) 10) = Some (S754_finite true 9007199254740991 (-53)).
Proof. runF. Qed.
