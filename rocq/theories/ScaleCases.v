(** Cases for C83: rkf45, and an object that meets the hypotheses. *)
From Coq Require Import Reals Lra Lia ZArith List Bool.
From Verif Require Import RMath RLib Num Base Integrate Perturb RSpec FehlSpec FehlProofs Qlaw Spec NanSpec NanRun ScaleSpec ScaleSolve.
Import ListNotations.
Local Open Scope R_scope.

Lemma id_linear c : linear6 (fun v => v6scal (N:=RNum) c v).
Proof. split; [intros [] []|intros k []]; cbn; f_equal; ring. Qed.
Lemma C83_fehl : exists A y T h tol y1 h1 y2 h2, linear6 A /\ 0 < T /\
  rkf45 (N:=RNum) (fun (_ : R) v (_ : unit) => Ok (A v)) 0 h y tt tol = Ok (y1, h1) /\
  rkf45 (N:=RNum) (fun (_ : R) v (_ : unit) => Ok (v6scal (N:=RNum) (/ T) (A v))) 0 (T * h) y tt tol = Ok (y2, h2) /\ y1 <> y2.
Proof.
  exists (fun v => v6scal (N:=RNum) 1 v), (elems 1 0 0 0 0 0), 2, 1, 1. do 4 eexists.
  split; [apply id_linear|]. split; [lra|].
  assert (L2 : linear6 (fun v => v6scal (N:=RNum) (/ 2) (v6scal (N:=RNum) 1 v))).
  { split; [intros [] []|intros k []]; cbn; f_equal; ring. }
  split; [|split].
  - apply (proj1 (C78_linear_lem unit tt (fun v => v6scal (N:=RNum) 1 v) 0 1 1 (elems 1 0 0 0 0 0) (id_linear 1))); [|lra].
    unfold dist6, series, rkf_y, rkf_z, elems. cbn -[pow]. apply sqrt_lt_R0. lra.
  - apply (proj1 (C78_linear_lem unit tt (fun v => v6scal (N:=RNum) (/ 2) (v6scal (N:=RNum) 1 v)) 0 (2 * 1) 1 (elems 1 0 0 0 0 0) L2)); [|lra].
    unfold dist6, series, rkf_y, rkf_z, elems. cbn -[pow]. apply sqrt_lt_R0. lra.
  - intros E. apply (f_equal (fun v => let 'mk6 a _ _ _ _ _ := v in a)) in E. unfold series, rkf_y, elems in E. cbn -[pow] in E. lra.
Qed.
Lemma C83_case : let u := mkunits 6378 807 500 in let z := EtaFloat (N:=XNum) (Fin 0) in
  positive u /\ built Keplerian o_low /\ q_integ o_low = RK4 /\
  exists o' h, solve 11 (qlaw_in u o_low) (eta_in u z) (eta_in u z) = Returns o' /\ q_hist o' = Some h /\ length (h_states h) = 11%nat /\ q_exitcode o' = (-3)%Z.
Proof.
  intros u z. destruct C82_case as (F & B & P & RM & Q). assert (Pu : positive u) by (unfold positive; cbn; lra).
  pose proof F as (Bo & I & _). split; [exact Pu|]. split; [exact Bo|]. split; [exact I|].
  destruct (C82_lem o_low p_low z z a_low F B P RM Q ltac:(discriminate) 11%nat ltac:(cbn; lia)) as (o' & h & (R1 & _ & R3) & X & _ & _ & Len & _).
  exists (qlaw_in u o'), (hist_in u h). rewrite (solve_scaled u Pu 11 o_low Keplerian z z Bo I), R1. split; [reflexivity|].
  cbn [qlaw_in q_hist q_exitcode]. rewrite R3. split; [reflexivity|]. split; [|exact X]. cbn [hist_in h_states]. rewrite map_length. exact Len.
Qed.
