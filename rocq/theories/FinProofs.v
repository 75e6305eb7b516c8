(** On regular states the laws computed with floats are the laws computed with real numbers (C90). *)
From Coq Require Import Reals Lra Lia ZArith List Bool.
From Verif Require Import RMath RLib DLib Num Base Elements Convergence Integrate Eom Lyapunov Symbolic SymKep SymMee Perturb Qlaw
  RSpec Spec XSpec LawSpec MaxSpec GaussSpec DiffProofs CtlProofs LawProofs EffSpec EffProofs ElemProofs EllSpec GateProofs XTrace CoastProofs XLaw FinSpec GaussProofs PlotHelper PlotProofs ExitProofs.
Import ListNotations.
Local Open Scope R_scope.

(** no literal with a zero denominator; exponents are a variable, a literal or the inverse of r_petro *)
Definition exp_ok (b : expr) : bool :=
  match b with
  | EVar _ => true
  | ERat _ q => negb (Z.eqb q 0)
  | EDiv (ERat _ q) (EVar Vr) => negb (Z.eqb q 0)
  | _ => false
  end.
Fixpoint form_ok (e : expr) : bool :=
  match e with
  | EVar _ => true
  | ERat _ q => negb (Z.eqb q 0)
  | EAdd a b | ESub a b | EMul a b | EDiv a b => form_ok a && form_ok b
  | EPow a b => form_ok a && exp_ok b
  | EOpp a | ESqrt a | ESin a | ECos a | EAcos a | EAtan a | EExp a | ESq a | ECube a => form_ok a
  end.

Lemma negbZ q : negb (Z.eqb q 0) = true -> q <> 0%Z.
Proof. intros H. apply negb_true_iff, Z.eqb_neq in H. exact H. Qed.
Lemma Rpowo_def x y : 0 < x \/ x < 0 /\ (exists k, y = IZR k) -> Rpowo x y <> None.
Proof.
  unfold Rpowo. intros [H|[H [k ->]]].
  - rewrite (proj2 (Rltb_true 0 x) H). discriminate.
  - rewrite (proj2 (Rltb_false 0 x)) by lra. rewrite (proj2 (Reqb_false x 0)) by lra. unfold Risint. rewrite Int_part_IZR.
    rewrite (proj2 (Reqb_true _ _) eq_refl). discriminate.
Qed.

Section Def.
Variables (ex : var -> ereal) (env : var -> R).
Hypothesis Hv : forall v, ex v = Fin (env v).
Hypothesis Hr : env Vr <> 0.
Lemma exp_def b : exp_ok b = true -> defined ex env b.
Proof.
  destruct b as [v| | | | |a b| | | | | | | | | |]; cbn [exp_ok defined]; try discriminate.
  - intros _. apply Hv.
  - apply negbZ.
  - destruct a; try discriminate. destruct b as [v| | | | | | | | | | | | | | |]; try discriminate. destruct v; try discriminate.
    intros H. cbn [defined]. split; [apply negbZ, H|]. split; [apply Hv|]. exact Hr.
Qed.
Lemma sm_def e : form_ok e = true -> smooth env e -> defined ex env e /\ forall x, defined ex env (diff x e).
Proof.
  induction e; cbn [form_ok smooth]; intros F S; try (apply andb_prop in F as [F1 F2]);
    repeat match goal with H : _ /\ _ |- _ => destruct H end;
    repeat match goal with IH : ?a = true -> ?b -> _, H1 : ?a = true, H2 : ?b |- _ => destruct (IH H1 H2) as [? ?]; clear IH end.
  - split; [apply Hv|]. intros x. cbn [diff]. destruct (var_eq_dec v x); cbn; discriminate.
  - split; [apply negbZ, F|]. intros x. cbn. discriminate.
  - split; [cbn; auto|]. intros x. cbn [diff defined]. auto.
  - split; [cbn; auto|]. intros x. cbn [diff defined]. auto.
  - split; [cbn; auto|]. intros x. cbn [diff defined]. auto 6.
  - split; [cbn; auto|]. intros x. cbn [diff defined]. split; [auto 6|]. split; [assumption|].
    change (reval env e2 * reval env e2 <> 0). apply Rmult_integral_contrapositive_currified; assumption.
  - split; [cbn; auto|]. intros x. cbn [diff defined]. auto.
  - split; [cbn [defined]; split; [assumption|lra]|]. intros x. cbn [diff defined EInt].
    split; [auto|]. split; [split; [discriminate|split; [assumption|lra]]|].
    change (2 * sqrt (reval env e) <> 0). pose proof (sqrt_lt_R0 _ H0). lra.
  - split; [cbn; auto|]. intros x. cbn [diff defined]. auto.
  - split; [cbn; auto|]. intros x. cbn [diff defined]. auto.
  - split; [cbn [defined]; split; [assumption|lra]|]. intros x. cbn [diff defined EInt].
    assert (P : 0 < 1 - reval env e * reval env e) by nra.
    split; [auto|]. split; [split; [split; [discriminate|assumption]|]|].
    + change (0 <= 1 - reval env e * reval env e). lra.
    + change (sqrt (1 - reval env e * reval env e) <> 0). pose proof (sqrt_lt_R0 _ P). lra.
  - split; [cbn; auto|]. intros x. cbn [diff defined EInt]. split; [auto|]. split; [split; [discriminate|assumption]|].
    change (1 + reval env e * reval env e <> 0). nra.
  - split; [cbn; auto|]. intros x. cbn [diff defined]. auto.
  - split; [cbn; auto|]. intros x. cbn [diff defined EInt]. split; [split; [discriminate|assumption]|auto].
  - split; [cbn; auto|]. intros x. cbn [diff defined EInt]. split; [split; [discriminate|assumption]|auto].
  - pose proof (exp_def _ F2) as D2.
    assert (P : defined ex env (EPow e1 e2)) by (cbn [defined]; split; [assumption|split; [assumption|apply Rpowo_def; assumption]]).
    split; [exact P|]. intros x. cbn [diff]. split; [exact P|]. cbn [defined]. split; [auto|]. split; [assumption|]. lra.
Qed.
End Def.

(** ** Definedness depends on the occurring variables only *)
Lemma reval_ext env env' e : (forall v, occurs v e = true -> env v = env' v) -> reval env e = reval env' e.
Proof.
  induction e; cbn [occurs eval]; intros H;
    try (rewrite IHe by exact H; reflexivity);
    try (rewrite IHe1, IHe2; [reflexivity|intros; apply H; apply orb_true_iff; auto..]); try reflexivity.
  apply H. destruct (var_eq_dec v v); congruence.
Qed.
Lemma defined_ext ex env env' e : (forall v, occurs v e = true -> env v = env' v) -> defined ex env e -> defined ex env' e.
Proof.
  induction e; cbn [occurs defined]; intros H D; repeat match goal with H : _ /\ _ |- _ => destruct H end;
    repeat match goal with |- _ /\ _ => split end; try (apply IHe; assumption); try assumption;
    try (apply IHe1; [intros; apply H; apply orb_true_iff; auto|assumption]); try (apply IHe2; [intros; apply H; apply orb_true_iff; auto|assumption]);
    try (rewrite <- (reval_ext env env') by exact H; lra);
    try (rewrite <- (reval_ext env env') by (intros; apply H; apply orb_true_iff; auto); assumption).
  - rewrite <- H; [exact D|]. destruct (var_eq_dec v v); congruence.
  - rewrite <- !(reval_ext env env') by (intros; apply H; apply orb_true_iff; auto). assumption.
Qed.

(** ** The two laws *)
Definition xenv (L : law_args) (oe : vec6 RNum) : var -> ereal :=
  mkenv (N:=XNum) (Fin (g_mu L)) (Fin (g_f L)) (fin6 oe) (fin5 (g_T L)) (Fin (g_rpmin L)) (Fin (g_m L)) (Fin (g_n L)) (Fin (g_r L)) (Fin (g_b L)) (Fin (g_k L)) (Fin (g_wp L)) (fin5 (g_w L)).
Lemma xenv_fin L oe v : xenv L oe v = Fin (env_of L oe v).
Proof. destruct L as [? ? [] ? ? ? ? ? ? ? []], oe. destruct v; reflexivity. Qed.
Lemma list_fin T : list_to_vec5 (N:=XNum) (map Fin (list5 T)) = Some (fin5 T).
Proof. destruct T. reflexivity. Qed.

Definition law_defined psi q L oe : Prop :=
  Forall (defined (xenv L oe) (env_of L oe)) (concat psi) /\ defined (xenv L oe) (env_of L oe) q /\
  forall x, defined (xenv L oe) (env_of L oe) (diff x q).
Lemma psi_vars psi : forallb (fun e => negb (existsb (fun v => occurs v e) [Vacc; Vrpmin; Vm; Vn; Vr; Vb; Vk; Vwp; VT0; VT1; VT2; VT3; VT4; VW0; VW1; VW2; VW3; VW4])) (concat psi) = true ->
  forall e, In e (concat psi) -> forall v, occurs v e = true -> In v [Vmu; Voe0; Voe1; Voe2; Voe3; Voe4; Voe5].
Proof.
  intros H e Ie v Ov. rewrite forallb_forall in H. specialize (H e Ie). apply negb_true_iff in H.
  destruct v; cbn [In]; auto 9; exfalso; revert H; apply not_false_iff_true; apply existsb_exists; (eexists; split; [|exact Ov]); cbn [In]; auto 20.
Qed.
Lemma kep_psi_vars : forallb (fun e => negb (existsb (fun v => occurs v e) [Vacc; Vrpmin; Vm; Vn; Vr; Vb; Vk; Vwp; VT0; VT1; VT2; VT3; VT4; VW0; VW1; VW2; VW3; VW4])) (concat SymKep.psi) = true.
Proof. vm_compute. reflexivity. Qed.
Lemma mee_psi_vars : forallb (fun e => negb (existsb (fun v => occurs v e) [Vacc; Vrpmin; Vm; Vn; Vr; Vb; Vk; Vwp; VT0; VT1; VT2; VT3; VT4; VW0; VW1; VW2; VW3; VW4])) (concat SymMee.psi) = true.
Proof. vm_compute. reflexivity. Qed.
Lemma kep_form : form_ok SymKep.q = true. Proof. vm_compute. reflexivity. Qed.
Lemma mee_form : form_ok SymMee.q = true. Proof. vm_compute. reflexivity. Qed.

Lemma sound_r L : sound L -> g_mu L > 0 /\ g_r L <> 0.
Proof. unfold sound. destruct (g_w L). intuition. Qed.
Lemma reg_defined et L oe : EffSpec.regular et L oe -> law_defined (psi_of et) (qsym_of et) L oe.
Proof.
  intros [Hs H]. destruct (sound_r L Hs) as [Hmu Hr]. unfold law_defined.
  assert (Hr' : env_of L oe Vr <> 0) by (destruct L; exact Hr).
  destruct et; cbn [psi_of qsym_of].
  - destruct H as (K & P & S). split.
    + destruct oe as [a e i ra om ta]. destruct K as (K1 & K2 & K3).
      assert (D : Forall (defined (xenv L (@mk6 RNum a e i ra om ta)) (fun v => match v with Vmu => g_mu L | Voe0 => a | Voe1 => e | Voe2 => i | Voe3 => ra | Voe4 => om | Voe5 => ta | _ => 0 end)) (concat SymKep.psi)).
      { apply (kep_psi_def (g_mu L) (@mk6 XNum (Fin a) (Fin e) (Fin i) (Fin ra) (Fin om) (Fin ta)) _ a e i ra om ta); auto; try lra. cbn. auto 10. }
      rewrite Forall_forall in *. intros x Ix. refine (defined_ext _ _ _ _ _ (D x Ix)). intros v O.
      pose proof (psi_vars _ kep_psi_vars x Ix v O) as V. destruct L as [? ? [] ? ? ? ? ? ? ? []]. cbn [In] in V.
      repeat (destruct V as [<-|V]; [reflexivity|]). contradiction.
    + apply (sm_def _ _ (xenv_fin L oe) Hr' _ kep_form). apply kep_S; assumption.
  - destruct H as (K & S & F). split.
    + destruct oe as [a f g h k l]. destruct K as (K1 & K2).
      assert (D : Forall (defined (xenv L (@mk6 RNum a f g h k l)) (fun v => match v with Vmu => g_mu L | Voe0 => a | Voe1 => f | Voe2 => g | Voe3 => h | Voe4 => k | Voe5 => l | _ => 0 end)) (concat SymMee.psi)).
      { apply (mee_psi_def (g_mu L) (@mk6 XNum (Fin a) (Fin f) (Fin g) (Fin h) (Fin k) (Fin l)) _ a f g h k l); auto. cbn. auto 10. }
      rewrite Forall_forall in *. intros x Ix. refine (defined_ext _ _ _ _ _ (D x Ix)). intros v O.
      pose proof (psi_vars _ mee_psi_vars x Ix v O) as V. destruct L as [? ? [] ? ? ? ? ? ? ? []]. cbn [In] in V.
      repeat (destruct V as [<-|V]; [reflexivity|]). contradiction.
    + apply (sm_def _ _ (xenv_fin L oe) Hr' _ mee_form). apply mee_S; assumption.
Qed.

Lemma eval5_fin ex env c0 c1 c2 c3 c4 : Forall (defined ex env) [c0; c1; c2; c3; c4] ->
  eval5 (N:=XNum) ex [c0; c1; c2; c3; c4] = fin5 (eval5 (N:=RNum) env [c0; c1; c2; c3; c4]).
Proof.
  intros H. repeat match goal with H : Forall _ (_ :: _) |- _ => apply Forall_cons_iff in H as [? H] end.
  cbn [eval5 fin5]. rewrite !(xeval_fin ex env) by assumption. reflexivity.
Qed.
Lemma law_fin psi q L oe : shape35 psi -> law_defined psi q L oe ->
  ask_floats (lyap_of (N:=XNum) psi q) L oe = Ok (fin_out (mklyap (eval3 (N:=RNum) (env_of L oe) (usym psi q)) (evalpsi (N:=RNum) (env_of L oe) psi) (reval (env_of L oe) q) (eval5 (N:=RNum) (env_of L oe) (dqdoe q)))).
Proof.
  intros (p00 & p01 & p02 & p03 & p04 & p10 & p11 & p12 & p13 & p14 & p20 & p21 & p22 & p23 & p24 & ->) (D1 & D2 & D3).
  unfold ask_floats, lyap_of. rewrite list_fin. fold (xenv L oe). cbn [concat app] in D1. apply (f_equal Ok).
  set (ex := xenv L oe) in *. set (env := env_of L oe) in *.
  repeat match goal with H : Forall _ (_ :: _) |- _ => apply Forall_cons_iff in H as [? H] end.
  assert (DD : forall x, defined ex env (diff x q)) by exact D3.
  unfold usym, dqdoe, oe_vars. cbn [map edot5].
  unfold fin_out. cbn [lo_u lo_psi lo_q lo_dqdoe]. f_equal.
  - cbn [eval3 fin3]. rewrite !(xeval_fin ex env) by (cbn [defined]; auto 10). reflexivity.
  - cbn [evalpsi finpsi]. rewrite !(eval5_fin ex env) by (repeat constructor; assumption). reflexivity.
  - apply xeval_fin. exact D2.
  - apply eval5_fin. repeat constructor; apply DD.
Qed.
Lemma shape_et et : shape35 (psi_of et).
Proof. destruct et; [apply shape_kep|apply shape_mee]. Qed.
Lemma lyap_etX et : lyap_of_etype (N:=XNum) et = lyap_of (N:=XNum) (psi_of et) (qsym_of et).
Proof. destruct et; reflexivity. Qed.
Lemma dqdt_etX et : dqdt_of_etype (N:=XNum) et = dqdt_of (N:=XNum) (psi_of et) (qsym_of et).
Proof. destruct et; reflexivity. Qed.
Lemma C90_law_lem et L oe : EffSpec.regular et L oe -> exists out,
  ask (lyap_of_etype (N:=RNum) et) L oe = Ok out /\ ask_floats (lyap_of_etype (N:=XNum) et) L oe = Ok (fin_out out).
Proof.
  intros H. rewrite lyap_et, lyap_etX. eexists. split; [apply ask_lyap|]. apply (law_fin _ _ _ _ (shape_et et)). apply reg_defined, H.
Qed.

(** ** Angles and rate *)
Definition fin_ang (r : vec3 RNum * R * R) : vec3 XNum * ereal * ereal := let '(u, a, b) := r in (fin3 u, Fin a, Fin b).
Lemma ang_fin D u al be : u_to_thrust_angles (N:=RNum) D = Ok (u, al, be) -> norm D <> 0 ->
  u_to_thrust_angles (N:=XNum) (fin3 D) = Ok (fin3 u, Fin al, Fin be).
Proof.
  destruct D as [x y z]. unfold u_to_thrust_angles, fin3, v3divs, sq, jdiv, norm, dot. cbn [v3_0 v3_1 v3_2].
  cbn [nadd nsub nmul ndiv nopp nsqrt natan2 natan nofZ neqb XNum RNum xadd xmul].
  intros E H.
  assert (S : forall a b c : R, xsqrt (Fin (a * a + b * b + c * c)) = Fin (sqrt (a * a + b * b + c * c))).
  { intros. cbn [xsqrt]. rewrite (proj2 (Rltb_false _ 0)) by nra. reflexivity. }
  rewrite S. set (n := sqrt (x * x + y * y + z * z)) in *.
  assert (DV : forall a, xdiv (Fin a) (Fin n) = Fin (a / n)) by (intros; cbn [xdiv]; rewrite (proj2 (Reqb_false n 0) H); reflexivity).
  rewrite !DV. cbn [xmul xadd xopp].
  assert (S2 : forall a b : R, xsqrt (Fin (a * a + b * b)) = Fin (sqrt (a * a + b * b))).
  { intros. cbn [xsqrt]. rewrite (proj2 (Rltb_false _ 0)) by nra. reflexivity. }
  rewrite S2. set (m := sqrt (x / n * (x / n) + y / n * (y / n))) in *. cbn [xeqb].
  destruct (Reqb m 0) eqn:Em; [discriminate|]. cbn [bind] in *. injection E as <- <- <-. cbn [xdiv]. rewrite Em. reflexivity.
Qed.
Definition fin_law (r : R * R * vec3 RNum * psi_t RNum * R * R) : ereal * ereal * vec3 XNum * psi_t XNum * ereal * ereal :=
  let '(al, be, u, P, q, qd) := r in (Fin al, Fin be, fin3 u, finpsi P, Fin q, Fin qd).
Lemma dot5_fin a b : dot5 (N:=XNum) (fin5 a) (fin5 b) = Fin (dot5 (N:=RNum) a b).
Proof. destruct a, b. reflexivity. Qed.
Lemma dot3_fin a b : dot3 (N:=XNum) (fin3 a) (fin3 b) = Fin (dot3 (N:=RNum) a b).
Proof. destruct a, b. reflexivity. Qed.
Lemma scal_fin f u : v3scal (N:=XNum) (Fin f) (fin3 u) = fin3 (v3scal (N:=RNum) f u).
Proof. destruct u. reflexivity. Qed.
Lemma lca_fin et L oe r : EffSpec.regular et L oe -> ask (lyapunov_control_angles (N:=RNum) (lyap_of_etype et)) L oe = Ok r ->
  ask_floats (lyapunov_control_angles (N:=XNum) (lyap_of_etype et)) L oe = Ok (fin_law r).
Proof.
  intros Rg H. destruct r as [[[[[al be] u] P] q] qd]. destruct (angles_inv et L oe al be u P q qd H) as [_ GN]. rewrite here in GN.
  destruct (C90_law_lem et L oe Rg) as (out & E1 & E2). rewrite E1 in GN.
  unfold ask, lyapunov_control_angles in H. fold (ask (lyap_of_etype (N:=RNum) et) L oe) in H. rewrite E1 in H. cbn [bind] in H.
  unfold ask_floats, lyapunov_control_angles. fold (ask_floats (lyap_of_etype (N:=XNum) et) L oe). rewrite E2. cbn [bind].
  destruct out as [D [c0 c1 c2] Q dq]. unfold fin_out. cbn [lo_u lo_psi lo_q lo_dqdoe finpsi] in *.
  destruct (u_to_thrust_angles (N:=RNum) D) as [[[u' al'] be']|] eqn:EU; [|discriminate H]. cbn [bind] in H.
  rewrite (ang_fin D u' al' be' EU) by (apply Rgt_not_eq, norm_pos_grad, GN). cbn [bind].
  apply Ok_inj in H. injection H as <- <- <- <- <- <-. unfold fin_law. rewrite !dot5_fin, scal_fin.
  change (@mk3 XNum (Fin ?a) (Fin ?b) (Fin ?c)) with (fin3 (@mk3 RNum a b c)). 
  rewrite dot3_fin. reflexivity.
Qed.
Lemma C90_angles_lem et L oe out : EffSpec.regular et L oe -> ask (lyap_of_etype (N:=RNum) et) L oe = Ok out -> v3_0 (lo_u out) <> 0 \/ v3_1 (lo_u out) <> 0 ->
  exists al be u q qd,
    ask (lyapunov_control_angles (N:=RNum) (lyap_of_etype et)) L oe = Ok (al, be, u, lo_psi out, q, qd) /\
    ask_floats (lyapunov_control_angles (N:=XNum) (lyap_of_etype et)) L oe = Ok (Fin al, Fin be, fin3 u, finpsi (lo_psi out), Fin q, Fin qd) /\
    q = lo_q out /\ qd = g_f L * norm (lo_u out) /\ direction al be = scale (- / norm (lo_u out)) (lo_u out).
Proof.
  intros Rg E HD.
  assert (X : exists al be u, ask (lyapunov_control_angles (N:=RNum) (lyap_of_etype et)) L oe = Ok (al, be, u, lo_psi out, lo_q out, g_f L * norm (lo_u out)) /\ direction al be = scale (- / norm (lo_u out)) (lo_u out)).
  { rewrite lyap_et in *. rewrite ask_lyap in E. apply Ok_inj in E. subst out. cbn [lo_u lo_psi lo_q] in *.
    destruct (qdot_lem (psi_of et) (qsym_of et) (g_mu L) (g_f L) oe (g_T L) (g_rpmin L) (g_m L) (g_n L) (g_r L) (g_b L) (g_k L) (g_wp L) (g_w L) (shape_et et) HD)
      as (al & be & u & P & qv & qd & E1 & _ & E3 & E4 & E5 & _).
    exists al, be, u. subst P qv qd. split; [exact E1|].
    fold (env_of L oe) in *. 
    unfold lyapunov_control_angles, lyap_of in E1. change (let '(mk5 t0 t1 t2 t3 t4) := g_T L in [t0; t1; t2; t3; t4]) with (list5 (g_T L)) in E1.
    rewrite list5_back in E1. fold (env_of L oe) in E1. cbn [bind lo_u lo_psi lo_q lo_dqdoe] in E1.
    revert E1 HD. generalize (eval3 (N:=RNum) (env_of L oe) (usym (psi_of et) (qsym_of et))). intros [x y z] E1 HD. cbn [v3_0 v3_1] in HD.
    destruct (angles_lem x y z HD) as (al' & be' & EU & Dir & _). change (@mk3 RNum x y z) with (vec x y z) in *. rewrite EU in E1. cbn [bind] in E1.
    revert E1. destruct (evalpsi _ _) as [c0 c1 c2]. intros E1. apply Ok_inj in E1. injection E1 as <- <- _ _. exact Dir. }
  destruct X as (al & be & u & X & Y). exists al, be, u, (lo_q out), (g_f L * norm (lo_u out)).
  split; [exact X|]. split; [exact (lca_fin et L oe _ Rg X)|]. auto.
Qed.

(** ** dQ/dt over the anomaly grid *)
Lemma reg_anomaly et L oe l : EffSpec.regular et L oe -> EffSpec.regular et L (with_anomaly l oe).
Proof. destruct oe, et; exact (fun H => H). Qed.
Lemma fin_anomaly l oe : fin6 (with_anomaly l oe) = let 'mk6 a b c d e _ := oe in @mk6 XNum (Fin a) (Fin b) (Fin c) (Fin d) (Fin e) (Fin l).
Proof. destruct oe. reflexivity. Qed.
Lemma dqdt_fin et L oe : EffSpec.regular et L oe -> gradient_at et L oe (v6_5 oe) <> null ->
  ask_floats (dqdt_of_etype (N:=XNum) et) L oe = Ok (Fin (g_f L * norm (gradient_at et L oe (v6_5 oe)))).
Proof.
  intros Rg GN. pose proof (dqdt_val et L oe _ GN) as V. replace (with_anomaly (v6_5 oe) oe) with oe in V by (destruct oe; reflexivity).
  assert (N0 : norm (gradient_at et L oe (v6_5 oe)) <> 0) by (apply Rgt_not_eq, norm_pos_grad, GN).
  revert V N0. generalize (g_f L * norm (gradient_at et L oe (v6_5 oe))). intros v V N0.
  rewrite here, lyap_et, ask_lyap in N0. cbn [lo_u] in N0.
  destruct (reg_defined et L oe Rg) as (D1 & D2 & D3).
  rewrite dqdt_et in V. rewrite dqdt_etX. unfold ask, dqdt_of in V. change (@list_to_vec5 RNum (list5 (g_T L))) with (list_to_vec5 (N:=RNum) (list5 (g_T L))) in V.
  rewrite list5_back in V. fold (env_of L oe) in V. apply Ok_inj in V.
  unfold ask_floats, dqdt_of. rewrite list_fin. fold (xenv L oe). apply (f_equal Ok). rewrite <- V. apply xeval_fin.
  destruct (shape_et et) as (p00 & p01 & p02 & p03 & p04 & p10 & p11 & p12 & p13 & p14 & p20 & p21 & p22 & p23 & p24 & E). rewrite E in *.
  cbn [concat app] in D1. repeat match goal with H : Forall _ (_ :: _) |- _ => apply Forall_cons_iff in H as [? H] end.
  pose proof (xenv_fin L oe Vacc) as HA. clear V E.
  revert N0. unfold dqdt_expr, usym, dqdoe, oe_vars. cbn [map edot5 eval3].
  match goal with |- context [eval3 (N:=RNum) _ [?a; ?b; ?c]] => idtac | |- norm (mk3 (reval _ ?a) (reval _ ?b) (reval _ ?c)) <> 0 -> _ =>
    assert (Da : defined (xenv L oe) (env_of L oe) a) by (cbn [defined]; auto 10); assert (Db : defined (xenv L oe) (env_of L oe) b) by (cbn [defined]; auto 10);
    assert (Dc : defined (xenv L oe) (env_of L oe) c) by (cbn [defined]; auto 10); revert Da Db Dc; generalize a b c end.
  intros ux uy uz Da Db Dc N0. set (env := env_of L oe) in *. set (ex := xenv L oe) in *.
  assert (S : defined ex env (ESqrt (EAdd (EAdd (ESq ux) (ESq uy)) (ESq uz))) /\ reval env (ESqrt (EAdd (EAdd (ESq ux) (ESq uy)) (ESq uz))) <> 0).
  { split; [cbn [defined]; split; [auto|]|exact N0]. change (0 <= reval env ux * reval env ux + reval env uy * reval env uy + reval env uz * reval env uz). nra. }
  destruct S as [S1 S2]. revert S1 S2. generalize (ESqrt (EAdd (EAdd (ESq ux) (ESq uy)) (ESq uz))). intros um S1 S2.
  pose proof (D3 Voe0) as E0; pose proof (D3 Voe1) as E1; pose proof (D3 Voe2) as E2; pose proof (D3 Voe3) as E3; pose proof (D3 Voe4) as E4.
  revert E0 E1 E2 E3 E4. generalize (diff Voe0 (qsym_of et)) (diff Voe1 (qsym_of et)) (diff Voe2 (qsym_of et)) (diff Voe3 (qsym_of et)) (diff Voe4 (qsym_of et)).
  intros. cbn [defined]. repeat match goal with |- _ /\ _ => split end; first [assumption|exact HA].
Qed.

Lemma linspace_fin a b n : linspace (N:=XNum) (Fin a) (Fin b) n = map Fin (linspace (N:=RNum) a b n).
Proof.
  destruct n as [|[|n]]; try reflexivity. cbn [linspace]. rewrite map_app, map_map. apply (f_equal2 (@app _)); [|reflexivity].
  apply map_ext. intros i. cbn [nadd nsub nmul ndiv nofZ XNum RNum xsub xadd xopp xdiv]. rewrite (proj2 (Reqb_false (IZR (Z.of_nat (S n))) 0)); [reflexivity|].
  apply not_0_IZR. lia.
Qed.
Lemma max_fin l m : pymaxl (N:=RNum) l = Ok m -> pymaxl (N:=XNum) (map Fin l) = Ok (Fin m).
Proof.
  destruct l as [|x l]; [discriminate|]. cbn [pymaxl map]. intros H. apply Ok_inj in H. apply (f_equal Ok). rewrite <- H. clear H m. revert x.
  induction l as [|y l IH]; intros x; cbn [map fold_left]; [reflexivity|]. rewrite <- IH. f_equal.
  unfold pymax. cbn [nltb XNum RNum xltb]. destruct (Rltb _ _); reflexivity.
Qed.
Lemma min_fin l m : pyminl (N:=RNum) l = Ok m -> pyminl (N:=XNum) (map Fin l) = Ok (Fin m).
Proof.
  destruct l as [|x l]; [discriminate|]. cbn [pyminl map]. intros H. apply Ok_inj in H. apply (f_equal Ok). rewrite <- H. clear H m. revert x.
  induction l as [|y l IH]; intros x; cbn [map fold_left]; [reflexivity|]. rewrite <- IH. f_equal.
  unfold pymin. cbn [nltb XNum RNum xltb]. destruct (Rltb _ _); reflexivity.
Qed.
Lemma grid_fin et (o : qlaw XNum) p acc L oe : q_dqdt o = dqdt_of_etype (N:=XNum) et -> holds o p acc L -> EffSpec.regular et L oe -> (0 < q_grid o)%nat ->
  (forall k, (1 <= k <= q_grid o)%nat -> gradient_at et L oe (grid_point oe (q_grid o) k) <> null) ->
  exists M m, evaluate_osculating_qdot (N:=XNum) o p (fin6 oe) acc = Ok (Fin M, Fin m) /\ greatest_rate et L oe (q_grid o) M /\ least_rate et L oe (q_grid o) m.
Proof.
  intros HD HH Rg Hn HG. set (n := q_grid o) in *.
  set (pts := tl (linspace (N:=RNum) (v6_5 oe) (v6_5 oe + 2 * PI) (S n)) : list R).
  set (w := fun x : R => g_f L * norm (gradient_at et L oe x)).
  destruct HH as (H1 & H2 & H3 & H4 & H5 & H6 & H7 & H8 & H9 & H10 & H11).
  assert (E : mapM (fun an => q_dqdt o (q_mu o) acc (let 'mk6 a b c d e _ := oe in @mk6 XNum (Fin a) (Fin b) (Fin c) (Fin d) (Fin e) an) (p_oeT p) (q_rpmin o) (q_m o)
      (q_n o) (q_r o) (q_b o) (q_k o) (q_wp o) (p_woe p)) (map Fin pts) = Ok (map Fin (map w pts))).
  { rewrite map_map. transitivity (Ok (map (fun x => match x with Fin r => Fin (w r) | _ => NaN end) (map Fin pts))); [|rewrite map_map; reflexivity].
    apply mapM_ok. intros x Hx. apply in_map_iff in Hx as (r & <- & Hr). apply pts_in in Hr as (k & Hk & ->); [|exact Hn].
    rewrite HD, H1, H2, H3, H4, H5, H6, H7, H8, H9, H10, H11.
    assert (G := HG k Hk). set (l := grid_point oe n k) in *. unfold w.
    replace (let 'mk6 a b c d e _ := oe in @mk6 XNum (Fin a) (Fin b) (Fin c) (Fin d) (Fin e) (Fin l)) with (fin6 (with_anomaly l oe)) by (destruct oe; reflexivity).
    pose proof (dqdt_fin et L (with_anomaly l oe) (reg_anomaly _ _ _ _ Rg)) as X.
    replace (gradient_at et L (with_anomaly l oe) (v6_5 (with_anomaly l oe))) with (gradient_at et L oe l) in X by (destruct oe; reflexivity).
    exact (X G). }
  assert (NE : map w pts <> []).
  { intros Z. apply (f_equal (@length R)) in Z. rewrite map_length in Z.
    assert (In (grid_point oe n 1) pts) as I by (apply pts_in; [exact Hn|exists 1%nat; split; [lia|reflexivity]]). destruct pts; [exact I|discriminate Z]. }
  destruct (pymaxl_ok _ NE) as (M & EM & [M1 M2]). destruct (pyminl_ok _ NE) as (m & Em & [m1 m2]).
  exists M, m. split.
  - unfold evaluate_osculating_qdot. destruct oe as [o0 o1 o2 o3 o4 o5]. unfold fin6. cbn [v6_5] in pts.
    change (nadd (Num:=XNum) (Fin o5) (nmul (nofZ 2) npi)) with (Fin (o5 + 2 * PI)). fold n. rewrite linspace_fin.
    assert (ET : tl (map Fin (linspace (N:=RNum) o5 (o5 + 2 * PI) (S n))) = map Fin pts) by (unfold pts; destruct (linspace (N:=RNum) o5 (o5 + 2 * PI) (S n)); reflexivity).
    match goal with |- bind ?x _ = _ => replace x with (Ok (map Fin (map w pts)) : Res (list (@car XNum))) by (symmetry; etransitivity; [|exact E]; exact (f_equal (mapM _) ET)) end. cbn [bind]. rewrite (max_fin _ _ EM). cbn [bind]. rewrite (min_fin _ _ Em). reflexivity.
  - assert (K : forall x, In x (map w pts) <-> exists k, (1 <= k <= n)%nat /\ w (grid_point oe n k) = x).
    { intros x. rewrite in_map_iff. split.
      - intros (y & Ey & Hy). apply pts_in in Hy as (k & Hk & ->); [|exact Hn]. eauto.
      - intros (k & Hk & E'). exists (grid_point oe n k). split; [exact E'|]. apply pts_in; eauto. }
    split; split.
    + apply K in M1. exact M1.
    + intros k Hk. apply M2, K. exists k. split; [exact Hk|reflexivity].
    + apply K in m1. exact m1.
    + intros k Hk. apply m2, K. exists k. split; [exact Hk|reflexivity].
Qed.

(** ** One iteration *)
Lemma call_fin et (o : qlaw XNum) p acc L oe out : q_lyap o = lyap_of_etype (N:=XNum) et -> holds o p acc L -> EffSpec.regular et L oe ->
  ask (lyap_of_etype (N:=RNum) et) L oe = Ok out -> v3_0 (lo_u out) <> 0 \/ v3_1 (lo_u out) <> 0 ->
  exists al be u, lyap_call o p acc (fin6 oe) = Ok (Fin al, Fin be, fin3 u, finpsi (lo_psi out), Fin (lo_q out), Fin (g_f L * norm (lo_u out))) /\
    direction al be = scale (- / norm (lo_u out)) (lo_u out).
Proof.
  intros HL (H1 & H2 & H3 & H4 & H5 & H6 & H7 & H8 & H9 & H10 & H11) Rg E HD.
  destruct (C90_angles_lem et L oe out Rg E HD) as (al & be & u & q & qd & _ & X & -> & -> & Y).
  exists al, be, u. split; [|exact Y]. unfold lyap_call. rewrite HL, H1, H2, H3, H4, H5, H6, H7, H8, H9, H10, H11. exact X.
Qed.
Lemma C90_on_lem et (o : qlaw XNum) p acc L oe out ea er (s : lstate XNum) pl : q_lyap o = lyap_of_etype (N:=XNum) et -> holds o p acc L -> EffSpec.regular et L oe ->
  ask (lyap_of_etype (N:=RNum) et) L oe = Ok out -> v3_0 (lo_u out) <> 0 \/ v3_1 (lo_u out) <> 0 ->
  l_oe s = fin6 oe -> pl_duty pl = true ->
  nltb (Num:=XNum) (Fin 0) (threshold ea (l_t s) (l_oe s) (l_mass s) (l_batt s)) = false -> nltb (Num:=XNum) (Fin 0) (threshold er (l_t s) (l_oe s) (l_mass s) (l_batt s)) = false ->
  exists c, control o p ea er s pl acc = Ok (Ctl c) /\ steers L (lo_u out) (lo_q out) (l_nnan s) c /\ c_thr c = 1%Z /\
    c_u c = fin3 (scale (- g_f L / norm (lo_u out)) (lo_u out)).
Proof.
  intros HL HH Rg E HD Es Hd T1 T2. destruct (call_fin et o p acc L oe out HL HH Rg E HD) as (al & be & u & C & Dir).
  unfold control. rewrite Hd. rewrite Es in T1, T2 |- *. rewrite C. cbn [bind].
  change (nisnan (Num:=XNum) (Fin al)) with false. change (nisnan (Num:=XNum) (Fin be)) with false. cbn [orb].
  change (@eta_now XNum) with (@threshold XNum). change (nofZ (Num:=XNum) 0) with (Fin 0). rewrite T1, T2. cbn [orb].
  eexists. split; [reflexivity|]. split; [|split; [reflexivity|]].
  - exists al, be. cbn [c_ab c_q c_qdot c_nnan]. auto.
  - cbn [c_u]. destruct HH as (_ & -> & _). unfold direction in Dir. destruct (lo_u out) as [x y z].
    unfold vec, scale in *. cbn [v3scal] in *. injection Dir as D1 D2 D3. cbn [fin3 nmul XNum RNum ncos nsin xlift xmul] in *.
    rewrite D1, D2, D3. f_equal; f_equal; unfold Rdiv; ring.
Qed.
Lemma C90_eta_lem et (o : qlaw XNum) p acc L oe out ea er (s : lstate XNum) pl va vr : q_lyap o = lyap_of_etype (N:=XNum) et -> q_dqdt o = dqdt_of_etype (N:=XNum) et -> holds o p acc L -> EffSpec.regular et L oe ->
  (0 < q_grid o)%nat -> (forall k, (1 <= k <= q_grid o)%nat -> gradient_at et L oe (grid_point oe (q_grid o) k) <> null) ->
  ask (lyap_of_etype (N:=RNum) et) L oe = Ok out -> v3_0 (lo_u out) <> 0 \/ v3_1 (lo_u out) <> 0 ->
  l_oe s = fin6 oe -> pl_duty pl = true ->
  threshold ea (l_t s) (l_oe s) (l_mass s) (l_batt s) = Fin va -> threshold er (l_t s) (l_oe s) (l_mass s) (l_batt s) = Fin vr -> 0 < va \/ 0 < vr ->
  exists c M m, control o p ea er s pl acc = Ok (Ctl c) /\ steers L (lo_u out) (lo_q out) (l_nnan s) c /\
    greatest_rate et L oe (q_grid o) M /\ least_rate et L oe (q_grid o) m /\
    let qd := g_f L * norm (lo_u out) in
    (m < M -> c_etas c = (Fin (Rabs (qd / M)), Fin (Rabs ((qd - m) / (M - m)))) /\
      c_thr c = (if Rlt_dec (Rabs (qd / M)) va then 0 else if Rlt_dec (Rabs ((qd - m) / (M - m))) vr then 0 else 1)%Z) /\
    (m = M -> c_etas c = (Fin (Rabs (qd / M)), NaN) /\ c_thr c = (if Rlt_dec (Rabs (qd / M)) va then 0 else 1)%Z).
Proof.
  intros HL HQ HH Rg Hn HG E HD Es Hd T1 T2 T. destruct (call_fin et o p acc L oe out HL HH Rg E HD) as (al & be & u & C & Dir).
  destruct (grid_fin et o p acc L oe HQ HH Rg Hn HG) as (M & m & G & GM & Gm).
  unfold control. rewrite Hd. rewrite Es in T1, T2 |- *. rewrite C. cbn [bind].
  change (nisnan (Num:=XNum) (Fin al)) with false. change (nisnan (Num:=XNum) (Fin be)) with false. cbn [orb].
  change (@eta_now XNum) with (@threshold XNum). change (nofZ (Num:=XNum) 0) with (Fin 0). rewrite T1, T2.
  assert (B : (nltb (Num:=XNum) (Fin 0) (Fin vr) || nltb (Num:=XNum) (Fin 0) (Fin va))%bool = true).
  { cbn [nltb XNum xltb]. apply orb_true_iff. destruct T; [right|left]; apply Rltb_true; assumption. }
  rewrite B. rewrite G. cbn [bind].
  assert (A0 : g_f L <> 0). { destruct Rg as [Sd _]. unfold sound in Sd. destruct (g_w L). apply Sd. }
  assert (M0 : M <> 0).
  { destruct GM as [(k & Hk & <-) _]. unfold rate. apply Rmult_integral_contrapositive_currified; [exact A0|]. apply Rgt_not_eq, norm_pos_grad, HG, Hk. }
  assert (NOW : g_f L * norm (lo_u out) = rate et L oe (q_grid o) (q_grid o)).
  { unfold rate, grid_point. f_equal. f_equal. replace (v6_5 oe + 2 * PI * INR (q_grid o) / INR (q_grid o)) with (v6_5 oe + 2 * PI)
      by (change (@eq (@car RNum)) with (@eq R); field; apply not_0_INR; lia).
    rewrite (grad_period et L oe _ Rg), here, E. reflexivity. }
  do 3 eexists. split; [reflexivity|]. split; [exists al, be; cbn [c_ab c_q c_qdot c_nnan]; auto|]. split; [exact GM|]. split; [exact Gm|]. cbv zeta.
  cbn [c_etas c_thr]. set (qd := g_f L * norm (lo_u out)) in *.
  cbn [nabs ndiv nsub XNum xsub xadd xopp xdiv]. rewrite (proj2 (Reqb_false M 0) M0). cbn [xabs nltb XNum xltb]. split.
  - intros Hm. rewrite (proj2 (Reqb_false (M - m) 0)) by lra. cbn [xabs xltb]. split; [reflexivity|].
    destruct (Rlt_dec (Rabs (qd / M)) va) as [H|H].
    + rewrite (proj2 (Rltb_true _ _) H). reflexivity.
    + rewrite (proj2 (Rltb_false _ _)) by lra. cbn [orb]. destruct (Rlt_dec (Rabs ((qd - m) / (M - m))) vr) as [K|K].
      * rewrite (proj2 (Rltb_true _ _) K). reflexivity.
      * rewrite (proj2 (Rltb_false _ _)) by lra. reflexivity.
  - intros ->. rewrite (proj2 (Reqb_true (M - M) 0)) by lra.
    assert (Q : qd = M).
    { apply Rle_antisym; rewrite NOW; [apply GM|apply Gm]; lia. }
    rewrite Q. replace (M - M) with 0 by ring. unfold xinf, xsgn. rewrite (proj2 (Rltb_false 0 0)) by lra. cbn [xabs]. rewrite !(proj2 (Rltb_false 0 0)) by lra. cbn [xabs xltb].
    split; [reflexivity|]. rewrite orb_false_r. destruct (Rlt_dec (Rabs (M / M)) va) as [H|H].
    + rewrite (proj2 (Rltb_true _ _) H). reflexivity.
    + rewrite (proj2 (Rltb_false _ _)) by lra. reflexivity.
Qed.

Lemma built_lyap et (o : qlaw XNum) : built et o -> q_lyap o = lyap_of_etype (N:=XNum) et /\ q_dqdt o = dqdt_of_etype (N:=XNum) et.
Proof. intros (_ & _ & L & D & _). destruct et; split; assumption. Qed.
Definition C90_built_on et (o : qlaw XNum) p acc L oe out ea er (s : lstate XNum) pl (B : built et o) :=
  C90_on_lem et o p acc L oe out ea er s pl (proj1 (built_lyap et o B)).
Definition C90_built_eta et (o : qlaw XNum) p acc L oe out ea er (s : lstate XNum) pl va vr (B : built et o) :=
  C90_eta_lem et o p acc L oe out ea er s pl va vr (proj1 (built_lyap et o B)) (proj2 (built_lyap et o B)).
Lemma steerable_no_nan et (o : qlaw XNum) p acc x : built et o -> steerable et o p acc x -> ~ nan_at o p acc x.
Proof.
  intros B (L & oe & out & H & -> & Rg & E & D) (al & be & u & psi & q & qd & X & Y).
  destruct (call_fin et o p acc L oe out (proj1 (built_lyap et o B)) H Rg E D) as (al' & be' & u' & C & _).
  unfold lyap_call in C. rewrite X in C. apply Ok_inj in C. injection C as -> -> _ _ _ _. discriminate Y.
Qed.
Lemma C90_nan_lem et (o : qlaw XNum) p ea er fuel o' h : built et o -> fresh o -> ran fuel o ea er p o' h -> q_exitcode o' = (-3)%Z -> (0 <= q_nan_thr o)%Z ->
  exists ks : list nat, (q_nan_thr o < Z.of_nat (length ks))%Z /\ NoDup ks /\
    forall k, In k ks -> exists m oe b dt, nth_error (h_masses h) k = Some m /\ nth_error (h_states h) k = Some oe /\ nth_error (h_battery h) k = Some b /\
      takes_step o p oe b dt /\ ~ steerable et o p (ndiv (nmul (npsign dt) (p_tmax p)) m) oe.
Proof.
  intros B F R X Z. destruct (C06_lem o p ea er fuel o' h F R X Z) as (ks & L & ND & K & (m & oe & b & dt & M & S & Bt & Ts & NA) & _).
  exists (length (h_controls h) :: ks). split; [cbn [length]; lia|]. split.
  - constructor; [|exact ND]. intros I. destruct (K _ I) as (? & ? & ? & ? & ? & _ & _ & _ & _ & _ & _ & _ & C).
    assert (length (h_controls h) < length (h_controls h))%nat by (apply nth_error_Some; rewrite C; discriminate). lia.
  - intros k [<-|I].
    + exists m, oe, b, dt. split; [exact M|]. split; [exact S|]. split; [exact Bt|]. split; [exact Ts|]. intros St. exact (steerable_no_nan et o p _ _ B St NA).
    + destruct (K _ I) as (t & m' & oe' & b' & dt' & _ & _ & M' & S' & B' & T' & NA' & _). exists m', oe', b', dt'. split; [exact M'|]. split; [exact S'|].
      split; [exact B'|]. split; [exact T'|]. intros St. exact (steerable_no_nan et o p _ _ B St NA').
Qed.
(** forward in time the step is positive *)
Lemma takes_forward (o : qlaw XNum) (p : problem XNum) (oe : vec6 XNum) (b dt : ereal) ts lo dis : q_sundman o = false -> p_t_step p = Fin ts -> 0 < ts -> p_cap_lo p = Fin lo -> p_discharge p = Fin dis ->
  takes_step o p oe b dt -> exists d, dt = Fin d /\ 0 < d.
Proof.
  intros Sd Et P El Ed (d & D & K). rewrite Sd in D. subst d. rewrite Et, El, Ed in K. destruct K as [K|(K1 & K2 & K3)]; [exists ts; split; assumption|].
  rewrite xdec_gen in K1. set (e := IZR 1 / 10 ^ 12) in *. cbn in K1, K2, K3. destruct b as [b| | |]; try discriminate. cbn in K1, K2, K3.
  change (orb (Rltb b (lo + e)) (Reqb b (lo + e)) = false) in K1. apply orb_false_iff in K1. destruct K1 as [K1 K1']. apply Rltb_false in K1. apply Reqb_false in K1'. apply Rltb_true in K2. assert (E : 0 < e) by (apply Rdiv_lt_0_compat; [lra|apply pow_lt; lra]).
  assert (Dp : 0 < dis) by (destruct (Rlt_or_le 0 dis) as [Q|Q]; [exact Q|exfalso; nra]).
  destruct (Reqb_spec dis 0) as [Q|Q]; [lra|]. exists ((b - lo) / dis). split; [exact K3|]. apply Rdiv_lt_0_compat; lra.
Qed.
Lemma C90_nan_forward_lem et (o : qlaw XNum) (p : problem XNum) ea er fuel o' h ts lo dis T : built et o -> fresh o -> ran fuel o ea er p o' h -> q_exitcode o' = (-3)%Z -> (0 <= q_nan_thr o)%Z ->
  q_sundman o = false -> p_t_step p = Fin ts -> 0 < ts -> p_cap_lo p = Fin lo -> p_discharge p = Fin dis -> p_tmax p = Fin T ->
  exists ks : list nat, (q_nan_thr o < Z.of_nat (length ks))%Z /\ NoDup ks /\
    forall k, In k ks -> exists m oe, nth_error (h_masses h) k = Some m /\ nth_error (h_states h) k = Some oe /\ ~ steerable et o p (ndiv (Num:=XNum) (Fin T) m) oe.
Proof.
  intros B F R X Z Sd Et P El Ed Em. destruct (C90_nan_lem et o p ea er fuel o' h B F R X Z) as (ks & L & ND & K). exists ks. split; [exact L|]. split; [exact ND|].
  intros k I. destruct (K k I) as (m & oe & b & dt & M & S & Bt & Ts & NS). exists m, oe. split; [exact M|]. split; [exact S|].
  destruct (takes_forward o p oe b dt ts lo dis Sd Et P El Ed Ts) as (d & -> & Pd).
  assert (E : nmul (Num:=XNum) (npsign (N:=XNum) (Fin d)) (p_tmax p) = Fin T).
  { rewrite Em. unfold npsign. cbn. rewrite (proj2 (Rltb_false d 0)), (proj2 (Rltb_true 0 d)) by lra. cbn. f_equal. lra. }
  rewrite E in NS. exact NS.
Qed.
