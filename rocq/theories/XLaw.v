(** The generated expressions at finite arguments: extended-real evaluation is real evaluation
    wherever every operation is defined; hence psi is finite on every non-circular ellipse (C22). *)
From Coq Require Import Reals Lra Lia ZArith List Bool.
From Verif Require Import RMath RLib DLib Num Base Elements Integrate Eom Convergence Lyapunov Symbolic SymKep SymMee Perturb Qlaw
  Spec XSpec LawProofs ElemProofs EllSpec GateProofs XTrace CoastProofs.
Import ListNotations.
Local Open Scope R_scope.

Notation reval := (eval (N:=RNum)).
Notation xeval := (eval (N:=XNum)).

(** Every operation in [e] is applied inside its domain, and the variables of [e] are finite. *)
Fixpoint defined (ex : var -> ereal) (env : var -> R) (e : expr) : Prop :=
  match e with
  | EVar v => ex v = Fin (env v)
  | ERat _ q => q <> 0%Z
  | EAdd a b | ESub a b | EMul a b => defined ex env a /\ defined ex env b
  | EDiv a b => defined ex env a /\ defined ex env b /\ reval env b <> 0
  | EOpp a | ESin a | ECos a | EAtan a | EExp a | ESq a | ECube a => defined ex env a
  | ESqrt a => defined ex env a /\ 0 <= reval env a
  | EAcos a => defined ex env a /\ -1 <= reval env a <= 1
  | EPow a b => defined ex env a /\ defined ex env b /\ Rpowo (reval env a) (reval env b) <> None
  end.

Lemma xeval_fin ex env e : defined ex env e -> xeval ex e = Fin (reval env e).
Proof.
  induction e; cbn [defined eval]; intros H;
    repeat match goal with H : _ /\ _ |- _ => destruct H end;
    repeat match goal with IH : ?P -> _ = _, H : ?P |- _ => specialize (IH H); rewrite IH; clear H end; try reflexivity; try exact H.
  - destruct (Z.eqb q 1); [reflexivity|]. cbn. rewrite (proj2 (Reqb_false (IZR q) 0)); [reflexivity|].
    intros E. apply H. apply (eq_IZR q 0). exact E.
  - cbn. rewrite (proj2 (Reqb_false _ 0) H1). reflexivity.
  - cbn. rewrite (proj2 (Rltb_false _ 0)); [reflexivity|lra].
  - cbn. rewrite (proj2 (Rleb_true _ _)), (proj2 (Rleb_true _ _)) by lra. reflexivity.
  - cbn. destruct (Rpowo _ _); [reflexivity|congruence].
Qed.

Lemma psi_fin ex env c00 c01 c02 c03 c04 c10 c11 c12 c13 c14 c20 c21 c22 c23 c24 :
  Forall (defined ex env) [c00; c01; c02; c03; c04; c10; c11; c12; c13; c14; c20; c21; c22; c23; c24] ->
  finite_psi (evalpsi (N:=XNum) ex [[c00; c01; c02; c03; c04]; [c10; c11; c12; c13; c14]; [c20; c21; c22; c23; c24]]).
Proof.
  intros H. repeat match goal with H : Forall _ (_ :: _) |- _ => apply Forall_cons_iff in H as [? H] end.
  cbn [evalpsi eval5]. rewrite !(xeval_fin ex env) by assumption. unfold finite_psi. repeat eexists.
Qed.

(** ** Keplerian *)
Section Kep.
Variables (mu : R) (z : vec6 XNum) (ex : var -> ereal).
Variables (a e i ra om ta : R).
Hypothesis Hz : z = @mk6 XNum (Fin a) (Fin e) (Fin i) (Fin ra) (Fin om) (Fin ta).
Hypothesis Ez : ex Vmu = Fin mu /\ ex Voe0 = v6_0 z /\ ex Voe1 = v6_1 z /\ ex Voe2 = v6_2 z /\ ex Voe3 = v6_3 z /\ ex Voe4 = v6_4 z /\ ex Voe5 = v6_5 z.
Hypothesis Hmu : 0 < mu.
Hypothesis Ha : 0 < a.
Hypothesis He : 0 < e < 1.
Hypothesis Hi : sin i <> 0.
Let env : var -> R := fun v => match v with Vmu => mu | Voe0 => a | Voe1 => e | Voe2 => i | Voe3 => ra | Voe4 => om | Voe5 => ta | _ => 0 end.

Lemma kd_vars : ex Vmu = Fin (env Vmu) /\ ex Voe0 = Fin (env Voe0) /\ ex Voe1 = Fin (env Voe1) /\ ex Voe2 = Fin (env Voe2) /\
  ex Voe3 = Fin (env Voe3) /\ ex Voe4 = Fin (env Voe4) /\ ex Voe5 = Fin (env Voe5).
Proof. rewrite Hz in Ez. exact Ez. Qed.
Lemma kd_e : defined ex env SymKep.e. Proof. apply kd_vars. Qed.
Lemma kd_a : defined ex env SymKep.a. Proof. apply kd_vars. Qed.
Lemma kd_i : defined ex env SymKep.i. Proof. apply kd_vars. Qed.
Lemma kd_om : defined ex env SymKep.om. Proof. apply kd_vars. Qed.
Lemma kd_ta : defined ex env SymKep.ta. Proof. apply kd_vars. Qed.
Lemma kd_mu : defined ex env (EVar Vmu). Proof. apply kd_vars. Qed.
Lemma kv_arg : 0 < a * mu * (1 - e * e).
Proof. apply Rmult_lt_0_compat; [apply Rmult_lt_0_compat; assumption|apply ee_pos; lra]. Qed.
Lemma kd_p : defined ex env SymKep.p.
Proof. unfold SymKep.p. cbn [defined]. split; [apply kd_a|]. split; [discriminate|apply kd_e]. Qed.
Lemma kv_h : reval env SymKep.h <> 0.
Proof. unfold SymKep.h. cbn. apply Rgt_not_eq, sqrt_lt_R0. exact kv_arg. Qed.
Lemma kd_h : defined ex env SymKep.h.
Proof.
  unfold SymKep.h. cbn [defined]. split; [split; [split; [apply kd_a|apply kd_mu]|split; [discriminate|apply kd_e]]|].
  cbn. apply Rlt_le. exact kv_arg.
Qed.
Lemma kv_w : 0 < mu * (1 + e * cos ta).
Proof. apply Rmult_lt_0_compat; [exact Hmu|apply ecos_pos; lra]. Qed.
Lemma kd_r : defined ex env SymKep.r.
Proof.
  unfold SymKep.r. cbn [defined]. split; [apply kd_h|]. split; [split; [apply kd_mu|]|].
  - split; [discriminate|]. split; [apply kd_e|apply kd_ta].
  - cbn. apply Rgt_not_eq. exact kv_w.
Qed.
Lemma kv_r : reval env SymKep.r <> 0.
Proof.
  unfold SymKep.r. cbn [eval]. change (sq (N:=RNum) (reval env SymKep.h)) with (reval env SymKep.h * reval env SymKep.h)%R.
  apply Rmult_integral_contrapositive_currified; [apply Rmult_integral_contrapositive_currified; exact kv_h|].
  apply Rinv_neq_0_compat. cbn. apply Rgt_not_eq. exact kv_w.
Qed.
Lemma kv_e : reval env SymKep.e <> 0. Proof. cbn. lra. Qed.
Lemma kep_psi_def : Forall (defined ex env) (concat SymKep.psi).
Proof.
  pose proof kd_a; pose proof kd_e; pose proof kd_i; pose proof kd_om; pose proof kd_ta; pose proof kd_p; pose proof kd_h; pose proof kd_r.
  pose proof kv_h; pose proof kv_r; pose proof kv_e.
  assert (EH : reval env (EMul SymKep.e SymKep.h) <> 0) by (apply Rmult_integral_contrapositive_currified; assumption).
  assert (HI : reval env (EMul SymKep.h (ESin SymKep.i)) <> 0) by (apply Rmult_integral_contrapositive_currified; assumption).
  unfold SymKep.psi. cbn [concat app].
  repeat (apply Forall_cons; [cbn [defined EInt]; repeat match goal with |- _ /\ _ => split end; first [assumption|discriminate]|]); constructor.
Qed.
Lemma kep_psi_fin : finite_psi (evalpsi (N:=XNum) ex SymKep.psi).
Proof. exact (psi_fin ex env _ _ _ _ _ _ _ _ _ _ _ _ _ _ _ kep_psi_def). Qed.
End Kep.

(** ** Equinoctial *)
Section Mee.
Variables (mu : R) (z : vec6 XNum) (ex : var -> ereal).
Variables (a f g h k l : R).
Hypothesis Hz : z = @mk6 XNum (Fin a) (Fin f) (Fin g) (Fin h) (Fin k) (Fin l).
Hypothesis Ez : ex Vmu = Fin mu /\ ex Voe0 = v6_0 z /\ ex Voe1 = v6_1 z /\ ex Voe2 = v6_2 z /\ ex Voe3 = v6_3 z /\ ex Voe4 = v6_4 z /\ ex Voe5 = v6_5 z.
Hypothesis Hmu : 0 < mu.
Hypothesis Ha : 0 < a.
Hypothesis He : f * f + g * g < 1.
Hypothesis Hf : f <> 0.
Let env : var -> R := fun v => match v with Vmu => mu | Voe0 => a | Voe1 => f | Voe2 => g | Voe3 => h | Voe4 => k | Voe5 => l | _ => 0 end.

Lemma md_vars : ex Vmu = Fin (env Vmu) /\ ex Voe0 = Fin (env Voe0) /\ ex Voe1 = Fin (env Voe1) /\ ex Voe2 = Fin (env Voe2) /\
  ex Voe3 = Fin (env Voe3) /\ ex Voe4 = Fin (env Voe4) /\ ex Voe5 = Fin (env Voe5).
Proof. rewrite Hz in Ez. exact Ez. Qed.
Lemma md_a : defined ex env SymMee.a. Proof. apply md_vars. Qed.
Lemma md_f : defined ex env SymMee.f. Proof. apply md_vars. Qed.
Lemma md_g : defined ex env SymMee.g. Proof. apply md_vars. Qed.
Lemma md_h : defined ex env SymMee.h. Proof. apply md_vars. Qed.
Lemma md_k : defined ex env SymMee.k. Proof. apply md_vars. Qed.
Lemma md_l : defined ex env SymMee.l. Proof. apply md_vars. Qed.
Lemma md_mu : defined ex env (EVar Vmu). Proof. apply md_vars. Qed.
Lemma md_p : defined ex env SymMee.p.
Proof. unfold SymMee.p. cbn [defined]. split; [apply md_a|]. split; [split; [discriminate|apply md_f]|apply md_g]. Qed.
Lemma mv_e2 : sqrt (f * f + g * g) * sqrt (f * f + g * g) = f * f + g * g.
Proof. apply sqrt_sqrt. nra. Qed.
Lemma mv_e : 0 <= sqrt (f * f + g * g) < 1.
Proof. split; [apply sqrt_pos|]. pose proof mv_e2. pose proof (sqrt_pos (f * f + g * g)). nra. Qed.
Lemma md_e : defined ex env SymMee.e.
Proof. unfold SymMee.e. cbn [defined]. split; [split; [apply md_f|apply md_g]|]. cbn. nra. Qed.
Lemma mv_am_arg : 0 < a * mu * (1 - sqrt (f * f + g * g) * sqrt (f * f + g * g)).
Proof. rewrite mv_e2. apply Rmult_lt_0_compat; [apply Rmult_lt_0_compat; assumption|lra]. Qed.
Lemma md_am : defined ex env SymMee.ang_mom.
Proof.
  unfold SymMee.ang_mom. cbn [defined]. split; [split; [split; [apply md_a|apply md_mu]|split; [discriminate|apply md_e]]|].
  cbn. apply Rlt_le. exact mv_am_arg.
Qed.
Lemma mv_am : reval env SymMee.ang_mom <> 0.
Proof. unfold SymMee.ang_mom. cbn. apply Rgt_not_eq, sqrt_lt_R0. exact mv_am_arg. Qed.
Lemma md_ta : defined ex env SymMee.ta.
Proof. unfold SymMee.ta. cbn [defined]. split; [apply md_l|]. split; [apply md_g|]. split; [apply md_f|exact Hf]. Qed.
Lemma mv_wr : reval env (EMul (EVar Vmu) (EAdd (EInt 1) (EMul SymMee.e (ECos SymMee.ta)))) <> 0.
Proof. cbn. apply Rgt_not_eq. apply Rmult_lt_0_compat; [exact Hmu|apply ecos_pos, mv_e]. Qed.
Lemma md_r : defined ex env SymMee.r.
Proof.
  unfold SymMee.r. cbn [defined]. split; [apply md_am|]. split; [split; [apply md_mu|]|exact mv_wr].
  split; [discriminate|]. split; [apply md_e|apply md_ta].
Qed.
Lemma mv_r : reval env SymMee.r <> 0.
Proof.
  unfold SymMee.r. cbn [eval]. change (sq (N:=RNum) (reval env SymMee.ang_mom)) with (reval env SymMee.ang_mom * reval env SymMee.ang_mom)%R.
  apply Rmult_integral_contrapositive_currified; [apply Rmult_integral_contrapositive_currified; exact mv_am|].
  apply Rinv_neq_0_compat. exact mv_wr.
Qed.
Lemma md_pm : defined ex env SymMee.sqrt_pmu.
Proof.
  unfold SymMee.sqrt_pmu. cbn [defined]. split; [split; [apply md_p|split; [apply md_mu|]]|]; cbn.
  - lra.
  - apply Rlt_le, Rdiv_lt_0_compat; [apply Rmult_lt_0_compat; lra|exact Hmu].
Qed.
Lemma md_w : defined ex env SymMee.w.
Proof. unfold SymMee.w, SymMee.cosL, SymMee.sinL. cbn [defined]. pose proof md_f; pose proof md_g; pose proof md_l. repeat match goal with |- _ /\ _ => split end; first [assumption|discriminate]. Qed.
Lemma mv_w : reval env SymMee.w <> 0.
Proof.
  cbn. apply Rgt_not_eq. pose proof (sin2_cos2 l) as S. unfold Rsqr in S.
  assert (B : (f * cos l + g * sin l) * (f * cos l + g * sin l) < 1).
  { assert ((f * cos l + g * sin l) * (f * cos l + g * sin l) = (f * f + g * g) * (sin l * sin l + cos l * cos l) - (f * sin l - g * cos l) * (f * sin l - g * cos l)) by ring.
    rewrite H, S. pose proof (Rle_0_sqr (f * sin l - g * cos l)) as Q. unfold Rsqr in Q. lra. }
  nra.
Qed.
Lemma mee_psi_def : Forall (defined ex env) (concat SymMee.psi).
Proof.
  pose proof md_a; pose proof md_f; pose proof md_g; pose proof md_h; pose proof md_k; pose proof md_l; pose proof md_p; pose proof md_e; pose proof md_am; pose proof md_ta; pose proof md_r; pose proof md_pm; pose proof md_w.
  pose proof mv_am; pose proof mv_r; pose proof mv_w.
  unfold SymMee.psi. cbn [concat app]. unfold SymMee.cosL, SymMee.sinL.
  repeat (apply Forall_cons; [cbn [defined EInt]; repeat match goal with |- _ /\ _ => split end; first [assumption|discriminate]|]); constructor.
Qed.
Lemma mee_psi_fin : finite_psi (evalpsi (N:=XNum) ex SymMee.psi).
Proof. exact (psi_fin ex env _ _ _ _ _ _ _ _ _ _ _ _ _ _ _ mee_psi_def). Qed.
End Mee.

Lemma ellipse_psi et (o : qlaw XNum) p mu acc z al be u psi q qd : built et o -> q_mu o = Fin mu -> 0 < mu -> proper_ellipse et z ->
  lyap_call o p acc z = Ok (al, be, u, psi, q, qd) -> finite_psi psi.
Proof.
  intros (_ & _ & L & _) M Hmu (a & b & c & d & e & l & Hz & Ha & H). unfold lyap_call, lyapunov_control_angles. rewrite L.
  destruct et; destruct H as [H1 H2]; cbn [lyap_of_etype]; unfold lyap_keplerian, lyap_mee_with_a, lyap_of;
    (destruct (list_to_vec5 _) as [T|]; [|discriminate]); cbn [bind lo_u lo_psi lo_q lo_dqdoe];
    set (ex := mkenv _ _ _ _ _ _ _ _ _ _ _ _).
  - assert (F : finite_psi (evalpsi (N:=XNum) ex SymKep.psi))
      by (apply (kep_psi_fin mu z ex a b c d e l); auto; unfold ex; cbn; rewrite M; auto 10).
    revert F. generalize (eval5 (N:=XNum) ex (dqdoe SymKep.q)) (xeval ex SymKep.q) (eval3 (N:=XNum) ex (usym SymKep.psi SymKep.q)) (evalpsi (N:=XNum) ex SymKep.psi). intros D Q U [x0 x1 x2] F. clear - F.
    destruct (u_to_thrust_angles _) as [[[? ?] ?]|]; [|discriminate]. cbn [bind].
    intros X. injection X as _ _ _ <- _ _. exact F.
  - assert (F : finite_psi (evalpsi (N:=XNum) ex SymMee.psi))
      by (apply (mee_psi_fin mu z ex a b c d e l); auto; unfold ex; cbn; rewrite M; auto 10).
    revert F. generalize (eval5 (N:=XNum) ex (dqdoe SymMee.q)) (xeval ex SymMee.q) (eval3 (N:=XNum) ex (usym SymMee.psi SymMee.q)) (evalpsi (N:=XNum) ex SymMee.psi). intros D Q U [x0 x1 x2] F. clear - F.
    destruct (u_to_thrust_angles _) as [[[? ?] ?]|]; [|discriminate]. cbn [bind].
    intros X. injection X as _ _ _ <- _ _. exact F.
Qed.

Lemma C22_ellipse_lem et (o : qlaw XNum) p ea er a mu : regular o p a -> built et o -> q_ptrb o = None -> q_mu o = Fin mu -> 0 < mu ->
  forall fuel o' h k z, ran fuel o ea er p o' h -> throttle h k 0 ->
  nth_error (h_states h) k = Some z -> proper_ellipse et z ->
  exists z', nth_error (h_states h) (S k) = Some z' /\ slow z' = slow z.
Proof.
  intros Hreg B Hpt M Hmu fuel o' h k z R T Hz E. eapply (C22_lem et o p ea er a); eauto.
  - destruct E as (b & c & d & e & f & g & -> & _). unfold finite6. repeat eexists.
  - intros acc al be u psi q qd X. eapply ellipse_psi; eauto.
Qed.

(** ** With the default bounds every state a Keplerian step starts from is a proper ellipse. *)
Lemma xdec n k : dec (N:=XNum) n k = Fin (IZR n / IZR (10 ^ Z.of_nat k)).
Proof.
  unfold dec. cbn [ndiv nofZ XNum xdiv]. rewrite (proj2 (Reqb_false _ 0)); [reflexivity|].
  apply not_0_IZR. apply Z.pow_nonzero; [discriminate|apply Nat2Z.is_nonneg].
Qed.
Lemma clamp_fin lo x hi y : lo <= hi -> clamp1 (N:=XNum) (Fin lo) x (Fin hi) = Fin y -> lo <= y <= hi.
Proof.
  intros H. unfold clamp1, pymin, pymax. cbn [nltb XNum car].
  destruct x as [x| | |]; cbn [xltb].
  - destruct (Rltb lo x) eqn:E1; [|cbn [xltb]].
    + apply Rltb_true in E1. cbn [xltb]. destruct (Rltb hi x) eqn:E2; intros E; injection E as <-; [lra|].
      apply Rltb_false in E2. lra.
    + destruct (Rltb hi lo) eqn:E2; intros E; injection E as <-; lra.
  - intros E. injection E as <-. lra.
  - cbn [xltb]. destruct (Rltb hi lo) eqn:E2; intros E; injection E as <-; lra.
  - cbn [xltb]. destruct (Rltb hi lo) eqn:E2; intros E; injection E as <-; lra.
Qed.
Lemma default_ellipse (z : vec6 XNum) a b c d e l :
  elements_safety z (default_oe_min (N:=XNum) Keplerian) (default_oe_max (N:=XNum) Keplerian) = @mk6 XNum (Fin a) (Fin b) (Fin c) (Fin d) (Fin e) (Fin l) ->
  c <> PI -> proper_ellipse Keplerian (@mk6 XNum (Fin a) (Fin b) (Fin c) (Fin d) (Fin e) (Fin l)).
Proof.
  intros H N. destruct z as [z0 z1 z2 z3 z4 z5]. unfold elements_safety, default_oe_min, default_oe_max in H. rewrite !xdec in H.
  injection H as H0 H1 H2 _ _ _. cbn [nofZ npi XNum] in H0, H2.
  change (10 ^ Z.of_nat 2)%Z with 100%Z in *. change (10 ^ Z.of_nat 4)%Z with 10000%Z in *.
  pose proof PI2_1 as P.
  apply clamp_fin in H0; [|lra]. apply clamp_fin in H1; [|lra]. apply clamp_fin in H2; [|lra].
  exists a, b, c, d, e, l. split; [reflexivity|]. split; [lra|]. split; [lra|].
  apply Rgt_not_eq. apply sin_gt_0; lra.
Qed.
Lemma C22_default_lem (o : qlaw XNum) p ea er a mu : regular o p a -> built Keplerian o -> q_ptrb o = None -> q_mu o = Fin mu -> 0 < mu ->
  q_oe_min o = default_oe_min (N:=XNum) Keplerian -> q_oe_max o = default_oe_max (N:=XNum) Keplerian ->
  forall fuel o' h k (z0 z1 z2 z3 z4 z5 : R), ran fuel o ea er p o' h -> throttle h k 0 ->
  nth_error (h_states h) k = Some (@mk6 XNum (Fin z0) (Fin z1) (Fin z2) (Fin z3) (Fin z4) (Fin z5)) -> z2 <> PI ->
  exists z', nth_error (h_states h) (S k) = Some z' /\ slow z' = @mk5 XNum (Fin z0) (Fin z1) (Fin z2) (Fin z3) (Fin z4).
Proof.
  intros Hreg B Hpt M Hmu L U fuel o' h k z0 z1 z2 z3 z4 z5 R T Hz N.
  destruct (C22_ellipse_lem Keplerian o p ea er a mu Hreg B Hpt M Hmu fuel o' h k _ R T Hz) as (z' & A & E).
  - assert (K : (k < length (h_controls h))%nat) by (unfold throttle in T; rewrite <- (map_length snd); apply nth_error_Some; congruence).
    destruct (C27_lem o p ea er fuel o' h k _ R (proj1 B) K Hz) as (z & Ez). rewrite L, U in Ez.
    symmetry in Ez. exact (default_ellipse z _ _ _ _ _ _ Ez N).
  - exists z'. split; [exact A|exact E].
Qed.
