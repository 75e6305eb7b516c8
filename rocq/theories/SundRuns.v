(** Sundman steps at periapsis of the orbit a = 1, e = 1/2, both element sets. *)
From Coq Require Import Reals Lra Lia ZArith List Bool Psatz.
From Verif Require Import RMath RLib DLib Num Base Elements Integrate Eom Convergence Lyapunov Symbolic SymKep SymMee Perturb Qlaw RSpec LawSpec GaussSpec EffSpec ElemProofs SundProofs.
Import ListNotations.
Local Open Scope R_scope.

Definition o_sund (et : etype) : qlaw RNum :=
  @mkqlaw RNum 1 1 1 3 4 2 (1 / 100) 0 et RK4 2
    (@mk5 RNum (1 / 1000) (1 / 1000) (1 / 1000) (1 / 1000) (1 / 1000)) (@mk5 RNum (1 / 100) (1 / 100) (1 / 100) (1 / 100) (1 / 100)) 200%Z
    (default_oe_min (N:=RNum) et) (default_oe_max (N:=RNum) et) 10%Z
    (eom_of (N:=RNum) et) (lyap_of_etype (N:=RNum) et) (dqdt_of_etype (N:=RNum) et) (check_of (N:=RNum) et)
    (1 / 10000) 2 (1 / 100000) true None None None false 0%Z.
Definition oe_sund : vec6 RNum := elems 1 (1 / 2) 0 0 0 0.
Definition p_sund (h : R) : problem RNum :=
  @mkproblem RNum oe_sund [2; 0; 0; 0; 0] 1 1 0 10 h (1 / 10) (@mk5 RNum 0 1 0 0 0) 100 0 1 0 1 0 0 false.
Lemma atan2_axis x : 0 < x -> Ratan2 0 x = 0.
Proof. intros H. unfold Ratan2. rewrite (proj2 (Rltb_true 0 x) H). unfold Rdiv. rewrite Rmult_0_l. apply atan_0. Qed.
Lemma sund_case et h : q_sundman (o_sund et) = true /\ q_etype (o_sund et) = et /\ 0 < q_mu (o_sund et) /\ 0 < v6_0 oe_sund /\
  0 <= ecc_of et oe_sund < 1 /\ cos (ta_of et oe_sund / 2) <> 0 /\ p_t_step (p_sund h) = h.
Proof.
  assert (E : ecc_of et oe_sund = 1 / 2).
  { destruct et; [reflexivity|]. cbn. replace (1 / 2 * (1 / 2) + 0 * 0) with (1 / 2 * (1 / 2)) by ring. apply sqrt_square. lra. }
  assert (T : ta_of et oe_sund = 0).
  { destruct et; [reflexivity|]. unfold ta_of, oe_sund, elems. cbn [v6_1 v6_2 v6_5]. rewrite atan2_axis by lra. apply Rminus_0_r. }
  rewrite E, T. replace (0 / 2) with 0 by field. rewrite cos_0. cbn. repeat split; lra.
Qed.
Lemma C31_refuted_lem et : exists dt, local_step (N:=RNum) (o_sund et) (p_sund (-1)) oe_sund = Ok dt /\ p_t_step (p_sund (-1)) < 0 /\ 0 < dt.
Proof.
  destruct (sund_case et (-1)) as (H1 & H2 & H3 & H4 & H5 & H6 & H7). pose proof PI2_3_2.
  destruct (C31_backward_lem et (o_sund et) (p_sund (-1)) oe_sund H1 H2 H3 H4 H5 H6) as (E0 & dt & r & v & L & D & _); [cbn; lra|].
  exists dt. split; [exact L|]. split; [cbn; lra|apply D].
Qed.
