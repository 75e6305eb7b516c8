(** C92: at a node (or periapsis) that equals its target the Keplerian gradient is 0/0, whatever the weight. *)
From Coq Require Import Reals ZArith List Bool Lia Lra.
From Verif Require Import RMath RLib Num Base Convergence Lyapunov Symbolic SymKep Perturb Qlaw Spec XSpec NanSpec NanProofs SingProofs EllSpec NanRun ZeroSpec.
Import ListNotations.
Local Open Scope R_scope.

Lemma kink env v t r : env v = Fin r -> env t = Fin r -> t <> v -> eval (N:=XNum) env (diff v (EAcos (ECos (ESub (EVar v) (EVar t))))) = NaN.
Proof.
  intros V T Nt. cbn [diff]. destruct (var_eq_dec v v) as [_|C]; [|congruence]. destruct (var_eq_dec t v) as [C|_]; [congruence|].
  cbn [eval EInt]. unfold EInt. cbn [eval]. rewrite V, T. xnum. cbn [xsub xmul xlift xopp]. replace (r - r) with 0 by ring. rewrite ?cos_0, ?sin_0.
  match goal with |- context [xsqrt ?x] => replace x with (Fin 0) by (cbn; f_equal; ring) end.
  match goal with |- context [xdiv ?x ?y] => replace y with (Fin 0); [replace x with (Fin 0)|] end.
  - rewrite zero_over_zero. reflexivity.
  - cbn. f_equal. ring.
  - cbn. destruct (Rltb 0 0) eqn:L; [apply Rltb_true in L; lra|]. rewrite sqrt_0. reflexivity.
Qed.
(** a nan in the derivative of a sum's term, of a product's second factor, of a square's base, of a quotient's numerator *)
Lemma dn_add_l env x a b : eval (N:=XNum) env (diff x a) = NaN -> eval (N:=XNum) env (diff x (EAdd a b)) = NaN.
Proof. intros S. cbn [diff eval]. rewrite S. xnum. nans. reflexivity. Qed.
Lemma dn_add_r env x a b : eval (N:=XNum) env (diff x b) = NaN -> eval (N:=XNum) env (diff x (EAdd a b)) = NaN.
Proof. intros S. cbn [diff eval]. rewrite S. xnum. nans. reflexivity. Qed.
Lemma dn_mul_r env x a b : eval (N:=XNum) env (diff x b) = NaN -> eval (N:=XNum) env (diff x (EMul a b)) = NaN.
Proof. intros S. cbn [diff eval]. rewrite S. xnum. do 2 nans. reflexivity. Qed.
Lemma dn_sq env x a : eval (N:=XNum) env (diff x a) = NaN -> eval (N:=XNum) env (diff x (ESq a)) = NaN.
Proof. intros S. cbn [diff eval]. rewrite S. xnum. nans. reflexivity. Qed.
Lemma dn_div env x a b : eval (N:=XNum) env (diff x a) = NaN -> eval (N:=XNum) env (diff x (EDiv a b)) = NaN.
Proof. intros S. cbn [diff eval]. rewrite S. xnum. do 2 nans. reflexivity. Qed.
Lemma d3_nan env r : env Voe3 = Fin r -> env VT3 = Fin r -> eval (N:=XNum) env (diff Voe3 SymKep.q) = NaN.
Proof.
  intros V T. apply dn_mul_r, dn_add_l, dn_add_r, dn_mul_r, dn_sq, dn_div. apply (kink env Voe3 VT3 r V T). discriminate.
Qed.
Lemma d4_nan env r : env Voe4 = Fin r -> env VT4 = Fin r -> eval (N:=XNum) env (diff Voe4 SymKep.q) = NaN.
Proof.
  intros V T. apply dn_mul_r, dn_add_r, dn_mul_r, dn_sq, dn_div. apply (kink env Voe4 VT4 r V T). discriminate.
Qed.
Lemma kink_u env r : (env Voe3 = Fin r /\ env VT3 = Fin r) \/ (env Voe4 = Fin r /\ env VT4 = Fin r) ->
  v3_2 (eval3 (N:=XNum) env (usym SymKep.psi SymKep.q)) = NaN.
Proof.
  intros H. assert (D : eval (N:=XNum) env (diff Voe3 SymKep.q) = NaN \/ eval (N:=XNum) env (diff Voe4 SymKep.q) = NaN).
  { destruct H as [[V T]|[V T]]; [left; exact (d3_nan env r V T)|right; exact (d4_nan env r V T)]. }
  cbn [usym map SymKep.psi eval3 v3_2]. unfold dqdoe, oe_vars. cbn [map]. revert D.
  generalize (diff Voe0 SymKep.q) (diff Voe1 SymKep.q) (diff Voe2 SymKep.q) (diff Voe3 SymKep.q) (diff Voe4 SymKep.q). intros d0 d1 d2 d3 d4 D.
  cbn [edot5 eval]. destruct D as [-> | ->]; xnum; do 4 nans; reflexivity.
Qed.
Lemma kink_call (o : qlaw XNum) (p : problem XNum) acc (oe : vec6 XNum) r T0 T1 T2 T3 T4 : q_lyap o = lyap_of_etype (N:=XNum) Keplerian ->
  p_oeT p = [T0; T1; T2; T3; T4] -> (v6_3 oe = Fin r /\ T3 = Fin r) \/ (v6_4 oe = Fin r /\ T4 = Fin r) ->
  exists out, q_lyap o (q_mu o) acc oe (p_oeT p) (q_rpmin o) (q_m o) (q_n o) (q_r o) (q_b o) (q_k o) (q_wp o) (p_woe p) = Ok out /\ singular_in_plane (lo_u out).
Proof.
  intros L HT H. rewrite L, HT. cbn [lyap_of_etype]. unfold lyap_keplerian, lyap_of. cbn [list_to_vec5].
  set (env := mkenv _ _ _ _ _ _ _ _ _ _ _ _). eexists. split; [reflexivity|]. cbn [lo_u].
  pose proof (kink_u env r) as U. destruct (eval3 (N:=XNum) env (usym SymKep.psi SymKep.q)) as [x y z]. cbn in U |- *. rewrite U by exact H. auto.
Qed.

Lemma slow_eq (z z0 : vec6 XNum) : slow z = slow z0 -> v6_0 z = v6_0 z0 /\ v6_1 z = v6_1 z0 /\ v6_2 z = v6_2 z0 /\ v6_3 z = v6_3 z0 /\ v6_4 z = v6_4 z0.
Proof. destruct z, z0. cbn. intros E. injection E as -> -> -> -> ->. auto. Qed.
Lemma off_no w x t tol tol' : off w x t tol tol' ->
  check_entry (N:=XNum) w (nabs (Num:=XNum) (nsub (Num:=XNum) t x)) tol = 0%nat /\ check_entry (N:=XNum) w (nabs (Num:=XNum) (nsub (Num:=XNum) t x)) tol' = 0%nat.
Proof.
  intros (w' & x' & t' & r & r' & -> & W & -> & -> & -> & -> & L1 & L2). split; apply check_off; do 3 eexists; repeat split; try exact W; assumption.
Qed.
Lemma short c0 c1 c2 c3 c4 : (c0 <= 1)%nat -> (c1 <= 1)%nat -> (c2 <= 1)%nat -> (c3 <= 1)%nat -> (c4 <= 1)%nat ->
  c0 = 0%nat \/ c1 = 0%nat \/ c2 = 0%nat -> Nat.eqb (c0 + c1 + c2 + c3 + c4) 5 = false.
Proof. intros. apply Nat.eqb_neq. lia. Qed.

Lemma C92_lem (o : qlaw XNum) p ea er a : let n := Z.to_nat (q_nan_thr o) in
  plain Keplerian o -> on_angle o p -> finite_problem p a -> room_for n a -> q_problem o = Some p -> ea <> EtaOther ->
  forall fuel, (n < fuel)%nat -> exists o' h, ran fuel o ea er p o' h /\ gives_up Keplerian n a p o o' h.
Proof.
  intros n Pl (E & G & T0 & T1 & T2 & T3 & T4 & HT & An & Of) F Rm P Ea fuel L. assert (B : built Keplerian o) by apply Pl.
  assert (K : exists r, (v6_3 (p_oe0 p) = Fin r /\ T3 = Fin r) \/ (v6_4 (p_oe0 p) = Fin r /\ T4 = Fin r)).
  { destruct E as (x0 & x1 & x2 & x3 & x4 & x5 & Z & _). rewrite Z in *. cbn in *. destruct An as [<-|<-]; [exists x3|exists x4]; auto. }
  destruct K as [r K].
  apply (C82_nan_lem Keplerian o p ea er a); try assumption.
  - intros acc z S. apply slow_eq in S. destruct S as (_ & _ & _ & S3 & S4). rewrite <- S3, <- S4 in K.
    destruct (kink_call o p acc z r T0 T1 T2 T3 T4) as (out & C & Sg); auto; [apply B|]. exact (nan_lyap o p acc z out C Sg).
  - intros z S. apply slow_eq in S. destruct S as (S0 & S1 & S2 & _). rewrite <- S0, <- S1, <- S2 in Of.
    destruct B as (_ & _ & _ & _ & ->). unfold check_convergence_keplerian. rewrite HT.
    destruct z as [y0 y1 y2 y3 y4 y5], (p_woe p) as [w0 w1 w2 w3 w4], (q_tol o) as [u0 u1 u2 u3 u4], (q_tol_relaxed o) as [v0 v1 v2 v3 v4]. cbn in Of.
    split; f_equal; unfold check_all; apply short; try apply check_le; destruct Of as [O|[O|O]]; apply off_no in O; destruct O; auto.
Qed.
