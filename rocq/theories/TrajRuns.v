(** A run whose three-dimensional figure does not show the target orbit (C79). *)
From Coq Require Import Reals Lra Lia ZArith List Bool.
From Verif Require Import RMath RLib Num Base Elements Perturb PlotHelper Qlaw Export PlotMethods Spec RSpec GaussSpec ExportSpec TrajSpec
  StateProofs ElemProofs ExportProofs TrajProofs ExportRuns.
Import ListNotations.
Local Open Scope R_scope.

Lemma C79_refuted_lem : exists fuel (o : qlaw RNum) ea er p o' h cart tr d0 dT P0 PT calls q,
  reachable o /\ built Keplerian o /\ ran fuel o ea er p o' h /\ get_cartesian_history (N:=RNum) o' h = Ok cart /\
  plot_trajectory_3d (N:=RNum) o' p cart true (51 / 50) = Ok ([tr; d0; dT; P0; draw3 PT], calls) /\
  revolution Keplerian 1 (elems 4 0 0 0 0 0) 200 PT /\ In q PT /\ ~ visible calls q.
Proof.
  destruct (made Keplerian 1 0 0 0 0 0 4 0 0 0 0 0) as (o & p & RE & B & _ & P & Mu & P0 & PTg & PT & _).
  destruct (no_steps o p 0 (EtaFloat (N:=RNum) 0) P PT) as (o' & h & Rn & T & S & M & C).
  assert (Et : q_etype o = Keplerian) by apply B.
  destruct (C66_columns_lem _ _ _ _ _ _ _ Rn) as (cart & H & Lc & K); [rewrite Mu; lra|rewrite Et, S, P0; intros st [<-|[]]; cbn; lra|].
  assert (S0 : nth_error (h_states h) 0 = Some (elems 1 0 0 0 0 0)) by (rewrite S, P0; reflexivity).
  destruct (K _ _ S0) as (c & Hc & Ec & _). rewrite Et, Mu in Ec. specialize (Ec I).
  rewrite T in Lc. destruct cart as [|c' [|]]; try discriminate Lc. cbn in Hc. injection Hc as ->.
  destruct (ran_settings _ _ _ _ _ _ _ Rn) as (Et' & Mu' & _). rewrite Et in Et'. rewrite Mu in Mu'.
  destruct (fig3 o' p 4 0 0 0 0 c []) with (b := true) (scale := 51 / 50) as (Q0 & QT & calls & R0 & RT & F & _ & V);
    [rewrite Mu'; lra|rewrite Et', P0; cbn; lra|rewrite Et', P0; exact I|exact PTg|rewrite Et'; cbn; lra|rewrite Et'; exact I|].
  rewrite Et', Mu' in RT. destruct (V eq_refl) as [Lim _]. pose proof RT as [LT [l0 HT]].
  destruct QT as [|q QT]; [discriminate LT|].
  exists 0%nat, o, (EtaFloat (N:=RNum) 0), (EtaFloat (N:=RNum) 0), p, o', h, [c]. eexists _, _, _, _. exists (q :: QT), calls, q.
  split; [exact RE|]. split; [exact B|]. split; [exact Rn|]. split; [exact H|]. split; [exact F|]. split; [exact RT|].
  split; [left; reflexivity|].
  assert (Ev : forall l, rpart (cart_state Keplerian 1 (elems 4 0 0 0 0 l)) = vec (4 * cos l) (4 * sin l) 0).
  { intros l. unfold cart_state, elems, kep_r, kep_v, in_plane. cbn. rewrite cos_0, sin_0, Rplus_0_l. unfold vec. f_equal; field. }
  assert (Ev1 : rpart c = vec 1 0 0).
  { rewrite Ec. unfold cart_state, elems, kep_r, kep_v, in_plane. cbn. rewrite ?Rplus_0_l, cos_0, sin_0. unfold vec. f_equal; field. }
  apply (far_hidden _ _ _ _ _ 1 q Lim); [lra| | | |].
  1-3: intros x [<-|[]]; destruct c; cbn in Ev1 |- *; injection Ev1 as -> -> ->; unfold Rabs; destruct (Rcase_abs _); lra.
  rewrite (HT 0%nat q eq_refl). unfold on_orbit, elems. change (@mk6 RNum 4 0 0 0 0 ?l) with (elems 4 0 0 0 0 l). rewrite Ev.
  set (l := l0 + _). cbn [v3_0 v3_1 v3_2 vec]. pose proof (sin2_cos2 l) as SC. unfold Rsqr in SC.
  destruct (Rlt_dec ((1 + 51 / 50) * 1) (Rabs (4 * cos l))) as [D|D]; [left; exact D|]. right. left.
  apply Rnot_lt_le in D. apply Rnot_le_lt. intros D2.
  assert (A1 : (4 * cos l) * (4 * cos l) <= (101 / 50) * (101 / 50)).
  { apply Rsqr_le_abs_1. rewrite (Rabs_right (101 / 50)) by lra. lra. }
  assert (A2 : (4 * sin l) * (4 * sin l) <= (101 / 50) * (101 / 50)).
  { apply Rsqr_le_abs_1. rewrite (Rabs_right (101 / 50)) by lra. lra. }
  nra.
Qed.
