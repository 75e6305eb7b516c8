(** Symbolic differentiation is differentiation (over the reals). *)
From Coq Require Import Reals Lra Lia ZArith List Bool.
From Verif Require Import RMath RLib DLib Num Base Lyapunov Symbolic RSpec.
Import ListNotations.
Local Open Scope R_scope.

Notation reval := (eval (N:=RNum)).

Definition is_oe (v : var) : bool :=
  match v with Voe0 | Voe1 | Voe2 | Voe3 | Voe4 | Voe5 => true | _ => false end.
Fixpoint const_expr (e : expr) : bool :=
  match e with
  | EVar v => negb (is_oe v)
  | ERat _ _ => true
  | EAdd a b | ESub a b | EMul a b | EDiv a b | EPow a b => const_expr a && const_expr b
  | EOpp a | ESqrt a | ESin a | ECos a | EAcos a | EAtan a | EExp a | ESq a | ECube a => const_expr a
  end.
(** Every operation in [e] is applied at a point where it is differentiable. *)
Fixpoint smooth (env : var -> R) (e : expr) : Prop :=
  match e with
  | EVar _ | ERat _ _ => True
  | EAdd a b | ESub a b | EMul a b => smooth env a /\ smooth env b
  | EDiv a b => smooth env a /\ smooth env b /\ reval env b <> 0
  | EOpp a | ESin a | ECos a | EAtan a | EExp a | ESq a | ECube a => smooth env a
  | ESqrt a => smooth env a /\ 0 < reval env a
  | EAcos a => smooth env a /\ -1 < reval env a < 1
  | EPow a b => smooth env a /\ const_expr b = true /\
      (0 < reval env a \/ reval env a < 0 /\ exists k, reval env b = IZR k)
  end.

Lemma eval_const env env' e : (forall v, is_oe v = false -> env v = env' v) -> const_expr e = true -> reval env e = reval env' e.
Proof.
  intros H. induction e; cbn [const_expr eval]; intros C; try (apply andb_prop in C as [C1 C2]); try reflexivity;
    try (rewrite IHe by exact C; reflexivity); try (rewrite IHe1, IHe2 by assumption; reflexivity).
  apply H. destruct (is_oe v); [discriminate|reflexivity].
Qed.
Lemma eval_ext env env' e : (forall v, env v = env' v) -> reval env e = reval env' e.
Proof.
  intros H. induction e; cbn [eval]; try (rewrite IHe; reflexivity); try (rewrite IHe1, IHe2; reflexivity); try reflexivity.
  apply H.
Qed.

(** ** npow near a non-zero base *)
Definition rpow (x y : R) : R := npow (Num:=RNum) x y.
Lemma rpow_pos x y : 0 < x -> rpow x y = Rpower x y.
Proof. intros H. unfold rpow. cbn. unfold Rpowo. rewrite (proj2 (Rltb_true 0 x) H). reflexivity. Qed.
Lemma Int_part_IZR k : Int_part (IZR k) = k.
Proof.
  destruct (base_Int_part (IZR k)) as [H1 H2]. assert (IZR (Int_part (IZR k)) - IZR k > -1) by lra.
  apply le_IZR in H1. assert (H3 : IZR (Int_part (IZR k) - k) > IZR (-1)) by (rewrite minus_IZR; exact H).
  apply Rgt_lt, lt_IZR in H3. lia.
Qed.
Lemma rpow_neg x k : x < 0 -> rpow x (IZR k) = powerRZ x k.
Proof.
  intros H. unfold rpow. cbn. unfold Rpowo. rewrite (proj2 (Rltb_false 0 x)) by lra.
  rewrite (proj2 (Reqb_false x 0)) by lra. unfold Risint. rewrite Int_part_IZR. rewrite (proj2 (Reqb_true _ _) eq_refl). reflexivity.
Qed.
Lemma rpow_0 y : 0 < y -> rpow 0 y = 0.
Proof.
  intros H. unfold rpow. cbn. unfold Rpowo. rewrite (proj2 (Rltb_false 0 0)) by lra. rewrite (proj2 (Reqb_true 0 0) eq_refl).
  rewrite (proj2 (Reqb_false y 0)) by lra. rewrite (proj2 (Rltb_true 0 y) H). reflexivity.
Qed.

Lemma near_pos f x l : dlim f x l -> 0 < f x -> exists d, 0 < d /\ forall t, Rabs (t - x) < d -> 0 < f t.
Proof.
  intros D H. apply d_cont in D. destruct (D (f x) H) as (d & Hd & K). exists d. split; [exact Hd|].
  intros t Ht. destruct (Req_dec t x) as [->|N]; [exact H|].
  assert (B : Rabs (f t - f x) < f x).
  { apply (K t). split; [split; [exact I|intros E; apply N; symmetry; exact E]|exact Ht]. }
  apply Rabs_def2 in B. lra.
Qed.
Lemma d_ln f x l : dlim f x l -> 0 < f x -> dlim (fun t => ln (f t)) x (l / f x).
Proof.
  intros D H. apply (dval _ _ (/ f x * l)); [unfold Rdiv; ring|].
  apply (derivable_pt_lim_comp f ln); [exact D|apply derivable_pt_lim_ln, H].
Qed.
Lemma d_powerRZ f x l k : dlim f x l -> f x <> 0 -> dlim (fun t => powerRZ (f t) k) x (powerRZ (f x) k * (l * IZR k / f x)).
Proof.
  intros D H. destruct k as [|n|n]; cbn [powerRZ].
  - eapply dval; [|apply d_const]. field. exact H.
  - eapply dval; [|apply d_pow, D].
    destruct (Pos.to_nat n) as [|m] eqn:E; [pose proof (Pos2Nat.is_pos n); lia|].
    cbn [pred pow]. rewrite <- positive_nat_Z, E, <- INR_IZR_INZ. field. exact H.
  - assert (P : f x ^ Pos.to_nat n <> 0) by (apply pow_nonzero; exact H).
    eapply dval; [|apply d_inv; [apply d_pow, D|exact P]]. cbv beta.
    change (Z.neg n) with (- Z.pos n)%Z. rewrite opp_IZR, <- positive_nat_Z, <- INR_IZR_INZ.
    destruct (Pos.to_nat n) as [|m] eqn:E; [pose proof (Pos2Nat.is_pos n); lia|].
    cbn [pred pow] in *. field. split; [exact H|apply pow_nonzero, H].
Qed.
Lemma d_rpow f x l y : dlim f x l -> 0 < f x \/ f x < 0 /\ (exists k, y = IZR k) ->
  dlim (fun t => rpow (f t) y) x (rpow (f x) y * (l * y / f x)).
Proof.
  intros D [H|[H [k ->]]].
  - destruct (near_pos f x l D H) as (d & Hd & K).
    apply (dlocal (fun t => exp (y * ln (f t))) _ x _ d Hd).
    + intros t Ht. rewrite rpow_pos by (apply K, Ht). reflexivity.
    + rewrite rpow_pos by exact H. unfold Rpower.
      eapply dval; [|apply d_exp, d_scal, d_ln; eassumption]. cbv beta. field. lra.
  - destruct (near_pos (fun t => - f t) x (- l) (d_opp _ _ _ D)) as (d & Hd & K); [lra|].
    apply (dlocal (fun t => powerRZ (f t) k) _ x _ d Hd).
    + intros t Ht. rewrite rpow_neg; [reflexivity|]. specialize (K t Ht). cbv beta in K. lra.
    + rewrite rpow_neg by exact H. apply d_powerRZ; [exact D|lra].
Qed.
Lemma d_acos f x l : dlim f x l -> -1 < f x < 1 -> dlim (fun t => acos (f t)) x (- (l / sqrt (1 - f x * f x))).
Proof.
  intros D H.
  apply (dval _ _ (-1 / sqrt (1 - (f x)²) * l)); [unfold Rdiv, Rsqr; ring|].
  apply (derivable_pt_lim_comp f acos); [exact D|].
  pose proof (derive_pt_acos (f x) H) as E. unfold derive_pt in E. destruct (derivable_pt_acos (f x) H) as [v Hv]. cbn in E.
  rewrite <- E. exact Hv.
Qed.

(** ** The chain rule along any path of the six elements *)
Definition oevars : list var := [Voe0; Voe1; Voe2; Voe3; Voe4; Voe5].
Definition total (delta : var -> R) (env : var -> R) (e : expr) : R :=
  delta Voe0 * reval env (diff Voe0 e) + delta Voe1 * reval env (diff Voe1 e) + delta Voe2 * reval env (diff Voe2 e)
  + delta Voe3 * reval env (diff Voe3 e) + delta Voe4 * reval env (diff Voe4 e) + delta Voe5 * reval env (diff Voe5 e).
Definition path_at (gamma : R -> var -> R) (t0 : R) (delta : var -> R) : Prop :=
  (forall v t, is_oe v = false -> gamma t v = gamma t0 v) /\
  (forall v, is_oe v = true -> dlim (fun t => gamma t v) t0 (delta v)).

Section EvalEqs.
Variable env : var -> R.
Lemma ev_int z : reval env (EInt z) = IZR z. Proof. reflexivity. Qed.
Lemma ev_add a b : reval env (EAdd a b) = reval env a + reval env b. Proof. reflexivity. Qed.
Lemma ev_sub a b : reval env (ESub a b) = reval env a - reval env b. Proof. reflexivity. Qed.
Lemma ev_mul a b : reval env (EMul a b) = reval env a * reval env b. Proof. reflexivity. Qed.
Lemma ev_div a b : reval env (EDiv a b) = reval env a / reval env b. Proof. reflexivity. Qed.
Lemma ev_opp a : reval env (EOpp a) = - reval env a. Proof. reflexivity. Qed.
Lemma ev_sqrt a : reval env (ESqrt a) = sqrt (reval env a). Proof. reflexivity. Qed.
Lemma ev_sin a : reval env (ESin a) = sin (reval env a). Proof. reflexivity. Qed.
Lemma ev_cos a : reval env (ECos a) = cos (reval env a). Proof. reflexivity. Qed.
Lemma ev_acos a : reval env (EAcos a) = acos (reval env a). Proof. reflexivity. Qed.
Lemma ev_atan a : reval env (EAtan a) = atan (reval env a). Proof. reflexivity. Qed.
Lemma ev_exp a : reval env (EExp a) = exp (reval env a). Proof. reflexivity. Qed.
Lemma ev_sq a : reval env (ESq a) = reval env a * reval env a. Proof. reflexivity. Qed.
Lemma ev_cube a : reval env (ECube a) = reval env a * reval env a * reval env a. Proof. reflexivity. Qed.
Lemma ev_pow a b : reval env (EPow a b) = rpow (reval env a) (reval env b). Proof. reflexivity. Qed.
Lemma ev_var v : reval env (EVar v) = env v. Proof. reflexivity. Qed.
End EvalEqs.
Ltac evaln := cbv beta; repeat first [rewrite !ev_add|rewrite !ev_sub|rewrite !ev_mul|rewrite !ev_div|rewrite !ev_opp
  |rewrite !ev_sqrt|rewrite !ev_sin|rewrite !ev_cos|rewrite !ev_acos|rewrite !ev_atan|rewrite !ev_exp|rewrite !ev_sq
  |rewrite !ev_cube|rewrite !ev_pow|rewrite !ev_int].
Lemma path_diff gamma t0 delta e : path_at gamma t0 delta -> smooth (gamma t0) e ->
  dlim (fun t => reval (gamma t) e) t0 (total delta (gamma t0) e).
Proof.
  intros [PC PD]. unfold total. induction e; cbn [smooth diff]; intros S.
  - destruct (is_oe v) eqn:E.
    + eapply dval; [|apply PD, E]. destruct v; try discriminate E; cbn; ring.
    + eapply dext; [intros t; cbn [eval]; symmetry; apply PC, E|].
      eapply dval; [|apply d_const]. destruct v; try discriminate E; cbn; ring.
  - eapply dval; [|apply (d_const (reval (gamma t0) (ERat p q)))]. cbn. ring.
  - destruct S as [S1 S2]. eapply dval; [|apply (d_plus (fun t => reval (gamma t) e1) (fun t => reval (gamma t) e2)); [apply IHe1, S1|apply IHe2, S2]]. evaln. ring.
  - destruct S as [S1 S2]. eapply dval; [|apply (d_minus (fun t => reval (gamma t) e1) (fun t => reval (gamma t) e2)); [apply IHe1, S1|apply IHe2, S2]]. evaln. ring.
  - destruct S as [S1 S2]. eapply dval; [|apply (d_mult (fun t => reval (gamma t) e1) (fun t => reval (gamma t) e2)); [apply IHe1, S1|apply IHe2, S2]]. evaln. ring.
  - destruct S as (S1 & S2 & S3). eapply dval; [|apply (d_div (fun t => reval (gamma t) e1) (fun t => reval (gamma t) e2)); [apply IHe1, S1|apply IHe2, S2|exact S3]]. evaln. field. exact S3.
  - eapply dval; [|apply (d_opp (fun t => reval (gamma t) e)), IHe, S]. evaln. ring.
  - destruct S as [S1 S2]. eapply dval; [|apply (d_sqrt (fun t => reval (gamma t) e)); [apply IHe, S1|exact S2]]. evaln. field.
    apply Rgt_not_eq, sqrt_lt_R0, S2.
  - eapply dval; [|apply (d_sin (fun t => reval (gamma t) e)), IHe, S]. evaln. ring.
  - eapply dval; [|apply (d_cos (fun t => reval (gamma t) e)), IHe, S]. evaln. ring.
  - destruct S as [S1 S2]. eapply dval; [|apply (d_acos (fun t => reval (gamma t) e)); [apply IHe, S1|exact S2]]. evaln. field.
    apply Rgt_not_eq, sqrt_lt_R0. nra.
  - eapply dval; [|apply (d_atan (fun t => reval (gamma t) e)), IHe, S]. evaln. field. apply Rgt_not_eq. nra.
  - eapply dval; [|apply (d_exp (fun t => reval (gamma t) e)), IHe, S]. evaln. ring.
  - eapply dval; [|apply (d_mult (fun t => reval (gamma t) e) (fun t => reval (gamma t) e)); apply IHe, S]. evaln. ring.
  - eapply dval; [|apply (d_mult (fun t => reval (gamma t) e * reval (gamma t) e) (fun t => reval (gamma t) e)); [apply (d_mult (fun t => reval (gamma t) e) (fun t => reval (gamma t) e))|]; apply IHe, S]. evaln. ring.
  - destruct S as (S1 & S2 & S3).
    eapply dext with (f := fun t => rpow (reval (gamma t) e1) (reval (gamma t0) e2)).
    + intros t. cbn [eval]. change (npow (Num:=RNum)) with rpow. f_equal. apply eval_const; [|exact S2].
      intros v Hv. symmetry. apply PC, Hv.
    + eapply dval; [|apply (d_rpow (fun t => reval (gamma t) e1)); [apply IHe1, S1|exact S3]]. evaln. field. destruct S3 as [S3|[S3 _]]; lra.
Qed.

(** partial derivatives *)
Definition upd (env : var -> R) (x : var) (t : R) (v : var) : R := if var_eq_dec v x then t else env v.
Lemma diff_correct env x e : is_oe x = true -> smooth env e ->
  dlim (fun t => reval (upd env x t) e) (env x) (reval env (diff x e)).
Proof.
  intros Hx S.
  assert (E0 : forall v, upd env x (env x) v = env v) by (intros v; unfold upd; destruct (var_eq_dec v x) as [->|]; reflexivity).
  assert (EE : forall g, reval (upd env x (env x)) g = reval env g) by (intros g; apply eval_ext, E0).
  assert (SS : smooth (upd env x (env x)) e).
  { clear Hx. induction e; cbn [smooth] in *; rewrite ?EE; try tauto; intuition. }
  eapply dval; [|apply (path_diff (upd env x) (env x) (fun v => if var_eq_dec v x then 1 else 0)); [|exact SS]].
  - unfold total. rewrite !EE.
    destruct x; try discriminate Hx; cbn [var_eq_dec]; cbv [var_eq_dec var_rect var_rec]; ring.
  - split.
    + intros v t Hv. unfold upd. destruct (var_eq_dec v x) as [->|]; [congruence|reflexivity].
    + intros v Hv. unfold upd. destruct (var_eq_dec v x); [apply d_id|apply d_const].
Qed.
(** a variable that does not occur has zero derivative *)
Fixpoint occurs (x : var) (e : expr) : bool :=
  match e with
  | EVar v => if var_eq_dec v x then true else false
  | ERat _ _ => false
  | EAdd a b | ESub a b | EMul a b | EDiv a b | EPow a b => occurs x a || occurs x b
  | EOpp a | ESqrt a | ESin a | ECos a | EAcos a | EAtan a | EExp a | ESq a | ECube a => occurs x a
  end.
Lemma diff_absent env x e : occurs x e = false -> reval env (diff x e) = 0.
Proof.
  induction e; cbn [occurs diff]; intros O; try (apply orb_false_elim in O as [O1 O2]); evaln;
    try (rewrite IHe by exact O); try (rewrite IHe1 by exact O1); try (rewrite IHe2 by exact O2);
    unfold Rdiv; change (@eq (@car RNum)) with (@eq R); try ring.
  - destruct (var_eq_dec v x); [discriminate|reflexivity].
Qed.
