(** Vocabulary of C90: the same quantities as real numbers and as finite floats. *)
From Coq Require Import Reals ZArith List Bool.
From Verif Require Import RMath Num Base Lyapunov Perturb Qlaw RSpec LawSpec MaxSpec EffSpec.
Import ListNotations.
Local Open Scope R_scope.

Definition fin3 (v : vec3 RNum) : vec3 XNum := let 'mk3 x y z := v in @mk3 XNum (Fin x) (Fin y) (Fin z).
Definition fin5 (v : vec5 RNum) : vec5 XNum := let 'mk5 a b c d e := v in @mk5 XNum (Fin a) (Fin b) (Fin c) (Fin d) (Fin e).
Definition fin6 (v : vec6 RNum) : vec6 XNum := let 'mk6 a b c d e l := v in @mk6 XNum (Fin a) (Fin b) (Fin c) (Fin d) (Fin e) (Fin l).
Definition finpsi (P : psi_t RNum) : psi_t XNum := let 'mkpsi a b c := P in @mkpsi XNum (fin5 a) (fin5 b) (fin5 c).
Definition fin_out (out : lyap_out RNum) : lyap_out XNum :=
  @mklyap XNum (fin3 (lo_u out)) (finpsi (lo_psi out)) (Fin (lo_q out)) (fin5 (lo_dqdoe out)).
(** a control law of finite floats, asked with the floats of [p] and [oe] *)
Definition ask_floats {A} (fn : ereal -> ereal -> vec6 XNum -> list (@car XNum) -> ereal -> ereal -> ereal -> ereal -> ereal -> ereal -> ereal -> vec5 XNum -> A)
  (p : law_args) (oe : vec6 RNum) : A :=
  fn (Fin (g_mu p)) (Fin (g_f p)) (fin6 oe) (map Fin (list5 (g_T p))) (Fin (g_rpmin p)) (Fin (g_m p)) (Fin (g_n p)) (Fin (g_r p)) (Fin (g_b p)) (Fin (g_k p)) (Fin (g_wp p)) (fin5 (g_w p)).
(** the object and its problem hold the floats of [L], the acceleration of the iteration being [acc] *)
Definition holds (o : qlaw XNum) (p : problem XNum) (acc : ereal) (L : law_args) : Prop :=
  q_mu o = Fin (g_mu L) /\ acc = Fin (g_f L) /\ p_oeT p = map Fin (list5 (g_T L)) /\ q_rpmin o = Fin (g_rpmin L) /\
  q_m o = Fin (g_m L) /\ q_n o = Fin (g_n L) /\ q_r o = Fin (g_r L) /\ q_b o = Fin (g_b L) /\ q_k o = Fin (g_k L) /\ q_wp o = Fin (g_wp L) /\
  p_woe p = fin5 (g_w L).
(** dQ/dt at the k-th grid point (signed: negative when running backward), and the extremes of it over the grid *)
Definition rate et L oe (n k : nat) : R := g_f L * norm (gradient_at et L oe (grid_point oe n k)).
Definition greatest_rate et L oe n (M : R) : Prop :=
  (exists k, (1 <= k <= n)%nat /\ rate et L oe n k = M) /\ forall k, (1 <= k <= n)%nat -> rate et L oe n k <= M.
Definition least_rate et L oe n (m : R) : Prop :=
  (exists k, (1 <= k <= n)%nat /\ rate et L oe n k = m) /\ forall k, (1 <= k <= n)%nat -> m <= rate et L oe n k.
(** the iteration steers: finite angles along the steepest descent of Q, finite Q and dQ/dt, no nan answer counted *)
Definition steers (L : law_args) (D : vec3 RNum) (q : R) (nn : Z) (c : ctl_t XNum) : Prop :=
  exists al be, c_ab c = Some (Fin al, Fin be) /\ direction al be = scale (- / norm D) D /\
    c_q c = Fin q /\ c_qdot c = Fin (g_f L * norm D) /\ c_nnan c = nn.
(** a finite state at which the law is regular and its gradient has an in-plane part *)
Definition steerable (et : etype) (o : qlaw XNum) (p : problem XNum) (acc : ereal) (x : vec6 XNum) : Prop :=
  exists L oe out, holds o p acc L /\ x = fin6 oe /\ regular et L oe /\ ask (lyap_of_etype (N:=RNum) et) L oe = Ok out /\ (v3_0 (lo_u out) <> 0 \/ v3_1 (lo_u out) <> 0).
