(** Stopping criteria only cut a run off: C87. *)
From Coq Require Import ZArith List Bool.
From Verif Require Import Num Base Qlaw Spec Sim XRuns CutSpec CutProofs CutRuns.
Import ListNotations.

(** C87.  Two runs of one problem that differ only in the tolerances, in the numbers of relaxed hits and nan answers put up
    with, in the final time or in the minimum mass are the same run cut off at different rows: the shorter history is the
    beginning of the longer one (up to the in-place clamping of the shorter one's last Keplerian state).  Any arithmetic. *)
Theorem C87_stopping_only_cuts : forall (N : Num) (o : qlaw N) p ea er c f1 f2 o1 h1 o2 h2,
  ran f1 o ea er p o1 h1 -> ran f2 (qlaw_until c p o) ea er (problem_until c p) o2 h2 -> begins o h1 h2 \/ begins o h2 h1.
Proof. exact @C87_lem. Qed.
Print Assumptions C87_stopping_only_cuts.
(** With a later final time and everything else the same, the run goes on where it was cut off; a run that ended for another
    reason than the final time is not affected. *)
Theorem C87_later_final_time : forall (o : qlaw XNum) p ea er tf f1 f2 o1 h1 o2 h2, let c := mkstops (q_tol o) (q_tol_relaxed o) (q_exit_relaxed o) (q_nan_thr o) tf (p_mass_min p) in
  nleb (Num:=XNum) (nabs (Num:=XNum) (p_tf_max p)) (nabs (Num:=XNum) tf) = true ->
  ran f1 o ea er p o1 h1 -> ran f2 (qlaw_until c p o) ea er (problem_until c p) o2 h2 ->
  begins o h1 h2 /\ (fresh o -> q_exitcode o1 <> (-2)%Z -> h2 = h1 /\ q_exitcode o2 = q_exitcode o1).
Proof. exact (fun o p ea er tf f1 f2 o1 h1 o2 h2 H => C87_later_lem o p ea er tf H f1 f2 o1 h1 o2 h2). Qed.
Print Assumptions C87_later_final_time.
(** four steps up to t = 3, seven up to t = 6 *)
Example C87_example : (exists o' h, ran 10 (toyX RK4 a_half) noX noX (probX a_half) o' h /\ length (h_controls h) = 4%nat /\ q_exitcode o' = (-2)%Z) /\
  (exists o' h, ran 10 (qlaw_until to_six (probX a_half) (toyX RK4 a_half)) noX noX (problem_until to_six (probX a_half)) o' h /\ length (h_controls h) = 7%nat).
Proof. exact C87_case. Qed.
Example C87_later_example : nleb (Num:=XNum) (nabs (Num:=XNum) (p_tf_max (probX a_half))) (nabs (Num:=XNum) (p_tf_max (probX a_cycle))) = true /\ fresh (toyX RK4 a_half).
Proof. exact C87_later_case. Qed.
