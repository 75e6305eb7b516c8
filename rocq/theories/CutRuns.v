(** Two runs of the same problem with different final times (C87). *)
From Coq Require Import Reals QArith Qreals ZArith List Bool Lra.
From Verif Require Import RMath Num Base Qlaw Spec XSpec Sim Runs XRuns CutSpec.
Import ListNotations.
Local Open Scope R_scope.

(** [a_cycle] stopped at t = 3 instead of 6 *)
Definition a_half : qprob := mkqp 10 (1 # 10) 3 1 (1 # 10) 100 0 (3 # 2) 0 (3 # 2) (1 # 2) 1 true.
Lemma run_half : exists o2 h2, ran 10 (toyX RK4 a_half) noX noX (probX a_half) o2 h2 /\
  recorded h2 [0; 1; 3 # 2; 5 # 2; 7 # 2]%Q [10; 99 # 10; 197 # 20; 197 # 20; 197 # 20]%Q [3 # 2; 1 # 2; 0; 1 # 2; 1]%Q [1; 1; 0; 0]%Z /\
  q_exitcode o2 = (-2)%Z.
Proof. toyrun. Qed.
Definition to_six : stops XNum :=
  mkstops (q_tol (toyX RK4 a_half)) (q_tol_relaxed (toyX RK4 a_half)) 2 10 (p_tf_max (probX a_cycle)) (p_mass_min (probX a_half)).
Lemma C87_case : (exists o' h, ran 10 (toyX RK4 a_half) noX noX (probX a_half) o' h /\ length (h_controls h) = 4%nat /\ q_exitcode o' = (-2)%Z) /\
  (exists o' h, ran 10 (qlaw_until to_six (probX a_half) (toyX RK4 a_half)) noX noX (problem_until to_six (probX a_half)) o' h /\ length (h_controls h) = 7%nat).
Proof.
  split.
  - destruct run_half as (o' & h & Hr & C & E). exists o', h. split; [exact Hr|]. split; [|exact E].
    destruct C as (_ & _ & _ & C). rewrite <- (map_length snd), C. reflexivity.
  - destruct run_cycle as (o' & h & Hr & C & E). exists o', h. split; [exact Hr|].
    destruct C as (_ & _ & _ & C). rewrite <- (map_length snd), C. reflexivity.
Qed.
Lemma C87_later_case : nleb (Num:=XNum) (nabs (Num:=XNum) (p_tf_max (probX a_half))) (nabs (Num:=XNum) (p_tf_max (probX a_cycle))) = true /\ fresh (toyX RK4 a_half).
Proof.
  split; [|split; reflexivity]. change (xleb (Fin (Rabs (Q2R 3))) (Fin (Rabs (Q2R 6))) = true). cbn. apply orb_true_iff. left. apply Rltb_true.
  unfold Q2R. simpl. rewrite !Rabs_right by lra. lra.
Qed.
