(** Targets of elements without weight do not reach the control law (C91). *)
From Coq Require Import Reals Lra Lia ZArith List Bool.
From Verif Require Import RMath RLib Num Base Elements Integrate Eom Convergence Lyapunov Symbolic SymKep SymMee Perturb PlotHelper Qlaw Spec NanProofs ZeroSpec.
Import ListNotations.
Local Open Scope R_scope.

(** ** Two evaluations side by side *)
(** the same and zero or nan; the same; finite together or not finite together *)
Inductive tie : Type := Naught | Same | Loose.
Definition isfin (x : ereal) : bool := match x with Fin _ => true | _ => false end.
Definition tied (t : tie) (x y : ereal) : Prop :=
  match t with Naught => x = y /\ (x = Fin 0 \/ x = NaN) | Same => x = y | Loose => isfin x = isfin y end.
Lemma fin_add x y : isfin (xadd x y) = (isfin x && isfin y)%bool. Proof. destruct x, y; reflexivity. Qed.
Lemma fin_sub x y : isfin (xsub x y) = (isfin x && isfin y)%bool. Proof. destruct x, y; reflexivity. Qed.
Lemma fin_inf s : isfin (xinf s) = false. Proof. unfold xinf. destruct (Rltb s 0); [reflexivity|]. destruct (Rltb 0 s); reflexivity. Qed.
Lemma fin_mul x y : isfin (xmul x y) = (isfin x && isfin y)%bool.
Proof. destruct x, y; try reflexivity; cbn [xmul isfin andb]; apply fin_inf. Qed.
Lemma fin_div x x' y : isfin x = isfin x' -> isfin (xdiv x y) = isfin (xdiv x' y).
Proof.
  destruct y as [b| | |]; destruct x, x'; cbn [isfin xdiv]; intros E; try discriminate E; try reflexivity;
  destruct (Reqb b 0); rewrite ?fin_inf; reflexivity.
Qed.
Lemma fin_opp x : isfin (xopp x) = isfin x. Proof. destruct x; reflexivity. Qed.
Lemma fin_lift f x : isfin (xlift f x) = isfin x. Proof. destruct x; reflexivity. Qed.
Lemma fin_acos_cos x : isfin (xacos (xlift cos x)) = isfin x.
Proof.
  destruct x as [r| | |]; try reflexivity. cbn [xlift xacos isfin]. pose proof (COS_bound r) as [L U].
  rewrite (proj2 (Rleb_true _ _)), (proj2 (Rleb_true _ _)) by lra. reflexivity.
Qed.
Lemma naught_mul x y y' : x = Fin 0 \/ x = NaN -> isfin y = isfin y' -> xmul x y = xmul x y' /\ (xmul x y = Fin 0 \/ xmul x y = NaN).
Proof.
  assert (Z : forall s, xinf (0 * s) = NaN).
  { intros s. rewrite Rmult_0_l. unfold xinf. rewrite !(proj2 (Rltb_false 0 0)) by lra. reflexivity. }
  assert (S : xsgn (Fin 0) = 0) by (unfold xsgn; rewrite !(proj2 (Rltb_false 0 0)) by lra; reflexivity).
  intros [-> | ->]; destruct y, y'; cbn [isfin xmul]; intros E; try discriminate E; rewrite ?S, ?Z, ?Rmult_0_l; auto.
Qed.
Lemma mul_naught x y y' : x = Fin 0 \/ x = NaN -> isfin y = isfin y' -> xmul y x = xmul y' x /\ (xmul y x = Fin 0 \/ xmul y x = NaN).
Proof.
  assert (C : forall a b, xmul a b = xmul b a) by (intros [a| | |] [b| | |]; cbn [xmul]; rewrite 1?Rmult_comm; reflexivity).
  intros H E. rewrite (C y), (C y'). apply naught_mul; assumption.
Qed.
Lemma naught_div x y : x = Fin 0 \/ x = NaN -> xdiv x y = Fin 0 \/ xdiv x y = NaN.
Proof.
  intros [-> | ->]; [|right; destruct y; reflexivity]. destruct y as [b| | |]; cbn [xdiv]; auto. destruct (Reqb b 0).
  - right. unfold xinf, xsgn. rewrite !(proj2 (Rltb_false 0 0)) by lra. reflexivity.
  - left. unfold Rdiv. rewrite Rmult_0_l. reflexivity.
Qed.

(** ** The checker *)
Definition expr_eq_dec (a b : expr) : {a = b} + {a <> b}.
Proof. decide equality; try apply var_eq_dec; apply Z.eq_dec. Defined.
Definition weaker (t : tie) : tie := match t with Naught => Same | t => t end.
Definition add_tie (a b : tie) : tie := match a, b with Naught, Naught => Naught | Loose, _ | _, Loose => Loose | _, _ => Same end.
Definition mul_tie (a b : tie) : tie := match a, b with Naught, _ | _, Naught => Naught | Loose, _ | _, Loose => Loose | _, _ => Same end.
Definition same_only (t : option tie) : option tie := match t with Some Naught | Some Same => Some Same | _ => None end.
Section Check.
Variable dv : var -> tie.
(** denominators known to be non-zero (or nan) in both *)
Variable safe : expr -> bool.
Fixpoint tie_of (e : expr) : option tie :=
  match e with
  | EVar v => Some (dv v)
  | ERat p q => Some (if (Z.eqb p 0 && Z.eqb q 1)%bool then Naught else Same)
  | EAdd a b | ESub a b => match tie_of a, tie_of b with Some x, Some y => Some (add_tie x y) | _, _ => None end
  | EMul a b => match tie_of a, tie_of b with Some x, Some y => Some (mul_tie x y) | _, _ => None end
  | EDiv a b => match tie_of a, (if safe b then Some Loose else tie_of b) with
                | Some x, Some Loose => if safe b then Some Loose else None
                | Some x, Some _ => Some x
                | _, _ => None end
  | EOpp a => tie_of a
  | ESin a | ECos a => option_map weaker (tie_of a)
  | ESqrt a | EAtan a | EExp a => same_only (tie_of a)
  | EAcos a => match a with ECos b => option_map weaker (tie_of b) | _ => same_only (tie_of a) end
  | ESq a | ECube a => tie_of a
  | EPow a b => match same_only (tie_of a), same_only (tie_of b) with Some _, Some _ => Some Same | _, _ => None end
  end.
Variables env env' : var -> ereal.
Hypothesis H : forall v, tied (dv v) (env v) (env' v).
Hypothesis HS : forall e, safe e = true -> (exists r r', r <> 0 /\ r' <> 0 /\ eval (N:=XNum) env e = Fin r /\ eval (N:=XNum) env' e = Fin r') \/
  (eval (N:=XNum) env e = NaN /\ eval (N:=XNum) env' e = NaN).

Lemma tied_weak t x y : tied t x y -> tied (weaker t) x y.
Proof. destruct t; cbn; [intros [E _]; exact E|auto|auto]. Qed.
Lemma tied_loose t x y : tied t x y -> isfin x = isfin y.
Proof. destruct t; cbn; [intros [-> _]; reflexivity|intros ->; reflexivity|auto]. Qed.
Lemma same_only_eq t x y : same_only (Some t) <> None -> tied t x y -> x = y.
Proof. destruct t; cbn; [intros _ [E _]; exact E|auto|congruence]. Qed.
Lemma add_tied f a b x y x' y' : (f = xadd \/ f = xsub) -> tied a x x' -> tied b y y' -> tied (add_tie a b) (f x y) (f x' y').
Proof.
  intros F A B. pose proof (tied_loose _ _ _ A) as LA. pose proof (tied_loose _ _ _ B) as LB.
  assert (L : isfin (f x y) = isfin (f x' y')) by (destruct F as [-> | ->]; rewrite ?fin_add, ?fin_sub, LA, LB; reflexivity).
  destruct a, b; cbn [add_tie tied] in *; try exact L.
  - destruct A as [<- A], B as [<- B]. split; [reflexivity|]. destruct F as [-> | ->], A as [-> | ->], B as [-> | ->]; cbn; auto; left; f_equal; ring.
  - destruct A as [<- _]. rewrite B. reflexivity.
  - destruct B as [<- _]. rewrite A. reflexivity.
  - rewrite A, B. reflexivity.
Qed.
Lemma mul_tied a b x y x' y' : tied a x x' -> tied b y y' -> tied (mul_tie a b) (xmul x y) (xmul x' y').
Proof.
  intros A B. pose proof (tied_loose _ _ _ A) as LA. pose proof (tied_loose _ _ _ B) as LB. destruct a; [|destruct b|destruct b]; cbn [mul_tie tied] in *.
  - destruct A as [<- A]. apply naught_mul; assumption.
  - destruct B as [<- B]. apply mul_naught; assumption.
  - subst. reflexivity.
  - rewrite !fin_mul, LA, LB. reflexivity.
  - destruct B as [<- B]. apply mul_naught; assumption.
  - rewrite !fin_mul, LA, LB. reflexivity.
  - rewrite !fin_mul, LA, LB. reflexivity.
Qed.
Lemma tie_sound e : forall t, tie_of e = Some t -> tied t (eval (N:=XNum) env e) (eval (N:=XNum) env' e).
Proof.
  induction e; intros t E; cbn [tie_of] in E; cbn [eval]; xnum.
  - assert (t = dv v) by congruence. subst. apply H.
  - destruct (Z.eqb_spec p 0), (Z.eqb_spec q 1); cbn [andb] in E; assert (X : t = Naught \/ t = Same) by (destruct t; auto; discriminate);
    destruct X as [-> | ->]; try discriminate; try reflexivity. subst. split; [reflexivity|left; reflexivity].
  - destruct (tie_of e1) as [a|]; [|discriminate]. destruct (tie_of e2) as [b|]; [|discriminate]. assert (t = add_tie a b) by congruence. subst. apply add_tied; auto.
  - destruct (tie_of e1) as [a|]; [|discriminate]. destruct (tie_of e2) as [b|]; [|discriminate]. assert (t = add_tie a b) by congruence. subst. apply add_tied; auto.
  - destruct (tie_of e1) as [a|]; [|discriminate]. destruct (tie_of e2) as [b|]; [|discriminate]. assert (t = mul_tie a b) by congruence. subst. apply mul_tied; auto.
  - destruct (tie_of e1) as [a|]; [|discriminate]. specialize (IHe1 a eq_refl). destruct (safe e2) eqn:Sf.
    + assert (t = Loose) by congruence. subst. apply tied_loose in IHe1. cbn [tied].
      destruct (HS _ Sf) as [(r & r' & N & N' & -> & ->)|[-> ->]]; [|rewrite !nan_div_r; reflexivity].
      destruct (eval (N:=XNum) env e1), (eval (N:=XNum) env' e1); cbn [isfin xdiv] in *; try discriminate IHe1; rewrite ?(proj2 (Reqb_false r 0)), ?(proj2 (Reqb_false r' 0)) by assumption; rewrite ?fin_inf; reflexivity.
    + destruct (tie_of e2) as [[| |]|]; try discriminate; assert (t = a) by congruence; subst; specialize (IHe2 _ eq_refl);
      (assert (Y : eval (N:=XNum) env e2 = eval (N:=XNum) env' e2) by (first [exact (proj1 IHe2)|exact IHe2])); rewrite <- Y;
      (destruct a; cbn [tied] in *; [destruct IHe1 as [<- Q]; split; [reflexivity|apply naught_div; exact Q]|rewrite IHe1; reflexivity|apply fin_div; exact IHe1]).
  - specialize (IHe t E). destruct t; cbn [tied] in *.
    + destruct IHe as [<- [-> | ->]]; cbn; (split; [reflexivity|]); [left; f_equal; ring|auto].
    + rewrite IHe. reflexivity.
    + rewrite !fin_opp. exact IHe.
  - destruct (tie_of e) as [a|]; [|discriminate]. rewrite (same_only_eq a _ _ ltac:(congruence) (IHe a eq_refl)). destruct t; try reflexivity; destruct a; discriminate.
  - destruct (tie_of e) as [a|]; [|discriminate]. cbn in E. assert (t = weaker a) by congruence. subst. specialize (IHe a eq_refl). apply tied_weak in IHe.
    destruct a; cbn [weaker tied] in *; [rewrite IHe; reflexivity|rewrite IHe; reflexivity|rewrite !fin_lift; exact IHe].
  - destruct (tie_of e) as [a|]; [|discriminate]. cbn in E. assert (t = weaker a) by congruence. subst. specialize (IHe a eq_refl). apply tied_weak in IHe.
    destruct a; cbn [weaker tied] in *; [rewrite IHe; reflexivity|rewrite IHe; reflexivity|rewrite !fin_lift; exact IHe].
  - change (nacos (Num:=XNum)) with xacos.
    assert (D : (exists b, e = ECos b /\ tie_of e = option_map weaker (tie_of b) /\ Some t = option_map weaker (tie_of b)) \/ same_only (tie_of e) = Some t).
    { destruct e; try (right; exact E). left. eexists. split; [reflexivity|]. split; [reflexivity|]. symmetry. exact E. }
    destruct D as [(b & -> & Eb & Et)|E'].
    + specialize (IHe t ltac:(congruence)). cbn [eval] in IHe |- *. xnum. destruct t; cbn [tied] in *.
      * destruct (tie_of b) as [[| |]|]; discriminate.
      * rewrite IHe. reflexivity.
      * rewrite !fin_acos_cos. rewrite !fin_lift in IHe. exact IHe.
    + destruct (tie_of e) as [a|]; [|discriminate]. rewrite (same_only_eq a _ _ ltac:(congruence) (IHe a eq_refl)). destruct t; try reflexivity; destruct a; discriminate.
  - destruct (tie_of e) as [a|]; [|discriminate]. rewrite (same_only_eq a _ _ ltac:(congruence) (IHe a eq_refl)). destruct t; try reflexivity; destruct a; discriminate.
  - destruct (tie_of e) as [a|]; [|discriminate]. rewrite (same_only_eq a _ _ ltac:(congruence) (IHe a eq_refl)). destruct t; try reflexivity; destruct a; discriminate.
  - specialize (IHe t E). unfold sq. xnum. pose proof (mul_tied t t _ _ _ _ IHe IHe) as M. destruct t; exact M.
  - specialize (IHe t E). unfold cube. xnum. pose proof (mul_tied t t _ _ _ _ IHe IHe) as M. pose proof (mul_tied _ t _ _ _ _ M IHe) as M'. destruct t; exact M'.
  - destruct (tie_of e1) as [a|]; [|discriminate]. destruct (tie_of e2) as [b|]; [|destruct (same_only (Some a)); discriminate].
    assert (A : same_only (Some a) <> None) by (intros X; rewrite X in E; discriminate).
    assert (B : same_only (Some b) <> None) by (intros X; rewrite X in E; destruct (same_only (Some a)); discriminate).
    rewrite (same_only_eq a _ _ A (IHe1 a eq_refl)), (same_only_eq b _ _ B (IHe2 b eq_refl)).
    destruct t; try reflexivity; destruct (same_only (Some a)), (same_only (Some b)); discriminate.
Qed.
End Check.

(** ** The two laws *)
Definition is_same (t : option tie) : bool := match t with Some Naught | Some Same => true | _ => false end.
Definition law_same (dv : var -> tie) (safe : expr -> bool) (psi : list (list expr)) (q : expr) : bool :=
  (is_same (tie_of dv safe q) && is_same (tie_of dv safe (dqdt_expr psi q)) && forallb (fun e => is_same (tie_of dv safe e)) (dqdoe q)
   && forallb (forallb (fun e => is_same (tie_of dv safe e))) psi && forallb (fun e => is_same (tie_of dv safe e)) (usym psi q))%bool.
(** which of the targets 1..4 may have changed *)
Definition moved (f1 f2 f3 f4 : bool) (v : var) : tie :=
  match v with
  | VW1 => if f1 then Naught else Same | VW2 => if f2 then Naught else Same | VW3 => if f3 then Naught else Same | VW4 => if f4 then Naught else Same
  | VT1 => if f1 then Loose else Same | VT2 => if f2 then Loose else Same | VT3 => if f3 then Loose else Same | VT4 => if f4 then Loose else Same
  | _ => Same
  end.
Definition kink (x t : expr) : expr := ESqrt (ESub (EInt 1) (ESq (ECos (ESub x t)))).
Definition kinks (f3 f4 : bool) (e : expr) : bool :=
  ((f3 && (if expr_eq_dec e (kink (EVar Voe3) (EVar VT3)) then true else false)) || (f4 && (if expr_eq_dec e (kink (EVar Voe4) (EVar VT4)) then true else false)))%bool.
Lemma kep_same f1 f2 f3 f4 : law_same (moved f1 f2 f3 f4) (kinks f3 f4) SymKep.psi SymKep.q = true.
Proof. destruct f1, f2, f3, f4; vm_compute; reflexivity. Qed.
Lemma mee_same f1 f2 f3 f4 : law_same (moved f1 f2 f3 f4) (fun _ => false) SymMee.psi SymMee.q = true.
Proof. destruct f1, f2, f3, f4; vm_compute; reflexivity. Qed.

Lemma same_eval dv safe env env' e : (forall v, tied (dv v) (env v) (env' v)) ->
  (forall e, safe e = true -> (exists r r', r <> 0 /\ r' <> 0 /\ eval (N:=XNum) env e = Fin r /\ eval (N:=XNum) env' e = Fin r') \/
    (eval (N:=XNum) env e = NaN /\ eval (N:=XNum) env' e = NaN)) ->
  is_same (tie_of dv safe e) = true -> eval (N:=XNum) env' e = eval (N:=XNum) env e.
Proof.
  intros H HS E. destruct (tie_of dv safe e) as [t|] eqn:D; [|discriminate]. pose proof (tie_sound dv safe env env' H HS e t D) as T.
  destruct t; [symmetry; exact (proj1 T)|symmetry; exact T|discriminate].
Qed.
Section Law.
Variables (dv : var -> tie) (safe : expr -> bool) (psi : list (list expr)) (q : expr).
Hypothesis OK : law_same dv safe psi q = true.
Variables env env' : var -> ereal.
Hypothesis H : forall v, tied (dv v) (env v) (env' v).
Hypothesis HS : forall e, safe e = true -> (exists r r', r <> 0 /\ r' <> 0 /\ eval (N:=XNum) env e = Fin r /\ eval (N:=XNum) env' e = Fin r') \/
  (eval (N:=XNum) env e = NaN /\ eval (N:=XNum) env' e = NaN).
Notation good := (fun e => is_same (tie_of dv safe e)).
Lemma s_eval3 l : forallb good l = true -> eval3 (N:=XNum) env' l = eval3 (N:=XNum) env l.
Proof.
  intros E. destruct l as [|a0 [|a1 [|a2 [|]]]]; try reflexivity. cbn [forallb] in E. repeat (apply andb_true_iff in E; destruct E as [? E]).
  cbn [eval3]. rewrite !(same_eval dv safe env env') by assumption. reflexivity.
Qed.
Lemma s_eval5 l : forallb good l = true -> eval5 (N:=XNum) env' l = eval5 (N:=XNum) env l.
Proof.
  intros E. destruct l as [|a0 [|a1 [|a2 [|a3 [|a4 [|]]]]]]; try reflexivity. cbn [forallb] in E. repeat (apply andb_true_iff in E; destruct E as [? E]).
  cbn [eval5]. rewrite !(same_eval dv safe env env') by assumption. reflexivity.
Qed.
Lemma s_evalpsi l : forallb (forallb good) l = true -> evalpsi (N:=XNum) env' l = evalpsi (N:=XNum) env l.
Proof.
  intros E. destruct l as [|a0 [|a1 [|a2 [|]]]]; try reflexivity. cbn [forallb] in E. repeat (apply andb_true_iff in E; destruct E as [? E]).
  cbn [evalpsi]. rewrite !s_eval5 by assumption. reflexivity.
Qed.
Lemma law_env : eval3 (N:=XNum) env' (usym psi q) = eval3 (N:=XNum) env (usym psi q) /\ evalpsi (N:=XNum) env' psi = evalpsi (N:=XNum) env psi /\
  eval (N:=XNum) env' q = eval (N:=XNum) env q /\ eval5 (N:=XNum) env' (dqdoe q) = eval5 (N:=XNum) env (dqdoe q) /\
  eval (N:=XNum) env' (dqdt_expr psi q) = eval (N:=XNum) env (dqdt_expr psi q).
Proof.
  pose proof OK as E. unfold law_same in E. clear OK. revert E. generalize (usym psi q) (dqdoe q) (dqdt_expr psi q). intros ul dl dq E.
  repeat (apply andb_true_iff in E; destruct E as [E ?]).
  rewrite s_eval3, s_evalpsi, s_eval5, !(same_eval dv safe env env') by assumption. auto.
Qed.
End Law.

Lemma kink_val env x t : (exists r s, env x = Fin r /\ env t = Fin s /\ sin (r - s) <> 0) \/ (~ finite (env x) /\ exists s, env t = Fin s) ->
  let k := eval (N:=XNum) env (kink (EVar x) (EVar t)) in ((exists r, r <> 0 /\ k = Fin r) /\ finite (env x)) \/ (k = NaN /\ ~ finite (env x)).
Proof.
  intros [(r & s & Ex & Et & N)|(NF & s & Et)] k; subst k; unfold kink; cbn [eval EInt]; unfold sq; xnum; cbn [Z.eqb Pos.eqb]; rewrite Et.
  - left. rewrite Ex. split; [|exists r; reflexivity]. cbn [xsub xlift xmul]. pose proof (sin2_cos2 (r - s)) as C. unfold Rsqr in C.
    assert (P : 0 < sin (r - s) * sin (r - s)) by (apply Rsqr_pos_lt in N; exact N).
    exists (sqrt (1 - cos (r - s) * cos (r - s))). split.
    + apply Rgt_not_eq, sqrt_lt_R0. lra.
    + cbn [xsqrt]. rewrite (proj2 (Rltb_false _ _)) by lra. reflexivity.
  - right. split; [|exact NF]. destruct (env x) as [r| | |]; [exfalso; apply NF; exists r; reflexivity| | |]; reflexivity.
Qed.

Section Targets.
Variables (mu f : ereal) (oe : vec6 XNum) (rpmin m n r b k wp : ereal) (woe : vec5 XNum).
Variables a t1 t2 t3 t4 t1' t2' t3' t4' : ereal.
Notation T5 := (@mk5 XNum a t1 t2 t3 t4).
Notation T5' := (@mk5 XNum a t1' t2' t3' t4').
Let env := mkenv (N:=XNum) mu f oe T5 rpmin m n r b k wp woe.
Let env' := mkenv (N:=XNum) mu f oe T5' rpmin m n r b k wp woe.
Definition flag (fl : bool) (w t t' : ereal) : Prop := if fl then w = Fin 0 /\ finite t /\ finite t' else t = t'.
Lemma flag_of w t t' : may_change w t t' -> exists fl, flag fl w t t' /\ (fl = true -> t <> t').
Proof.
  intros [E|(Z & [x F] & [y F'])]; [exists false; split; [exact E|discriminate]|]. subst.
  destruct (Req_dec x y) as [->|N]; [exists false; split; [reflexivity|discriminate]|].
  exists true. split; [split; [reflexivity|split; eexists; reflexivity]|congruence].
Qed.
Lemma env_tied f1 f2 f3 f4 : flag f1 (v5_1 woe) t1 t1' -> flag f2 (v5_2 woe) t2 t2' -> flag f3 (v5_3 woe) t3 t3' -> flag f4 (v5_4 woe) t4 t4' ->
  forall v, tied (moved f1 f2 f3 f4 v) (env v) (env' v).
Proof.
  intros F1 F2 F3 F4 v. subst env env'. destruct v; cbn [mkenv moved v5_0 v5_1 v5_2 v5_3 v5_4]; try reflexivity.
  - destruct f1; cbn [flag tied] in *; [destruct F1 as (_ & [x ->] & [y ->])|]; auto.
  - destruct f2; cbn [flag tied] in *; [destruct F2 as (_ & [x ->] & [y ->])|]; auto.
  - destruct f3; cbn [flag tied] in *; [destruct F3 as (_ & [x ->] & [y ->])|]; auto.
  - destruct f4; cbn [flag tied] in *; [destruct F4 as (_ & [x ->] & [y ->])|]; auto.
  - destruct f1; cbn [flag tied] in *; [destruct F1 as (-> & _)|]; auto.
  - destruct f2; cbn [flag tied] in *; [destruct F2 as (-> & _)|]; auto.
  - destruct f3; cbn [flag tied] in *; [destruct F3 as (-> & _)|]; auto.
  - destruct f4; cbn [flag tied] in *; [destruct F4 as (-> & _)|]; auto.
Qed.
Lemma aside_val ev x t : aside (ev x) (ev t) -> finite (ev t) ->
  let k := eval (N:=XNum) ev (kink (EVar x) (EVar t)) in ((exists r, r <> 0 /\ k = Fin r) /\ finite (ev x)) \/ (k = NaN /\ ~ finite (ev x)).
Proof.
  intros A [s Et]. apply kink_val. destruct (ev x) as [r0| | |] eqn:Ex; [left; exists r0, s; repeat split; auto| | |]; right; (split; [intros [y Y]; discriminate|eauto]).
Qed.
Lemma kinks_ok f3 f4 : flag f3 (v5_3 woe) t3 t3' -> flag f4 (v5_4 woe) t4 t4' -> (f3 = true -> t3 <> t3') -> (f4 = true -> t4 <> t4') ->
  angle_clear (v6_3 oe) t3 t3' -> angle_clear (v6_4 oe) t4 t4' ->
  forall e, kinks f3 f4 e = true -> (exists r r', r <> 0 /\ r' <> 0 /\ eval (N:=XNum) env e = Fin r /\ eval (N:=XNum) env' e = Fin r') \/
    (eval (N:=XNum) env e = NaN /\ eval (N:=XNum) env' e = NaN).
Proof.
  intros F3 F4 N3 N4 A3 A4 e K. unfold kinks in K. apply orb_true_iff in K. destruct K as [K|K]; apply andb_true_iff in K; destruct K as [-> K];
  (destruct (expr_eq_dec _ _) as [->|]; [clear K|discriminate K]); cbn [flag] in *.
  - destruct F3 as (_ & G & G'). destruct A3 as [X|[A A']]; [destruct (N3 eq_refl X)|].
    destruct (aside_val env Voe3 VT3 A G) as [[(x & X1 & X2) Fx]|[X Fx]], (aside_val env' Voe3 VT3 A' G') as [[(y & Y1 & Y2) Fy]|[Y Fy]]; try contradiction; [left; eauto 6|right; auto].
  - destruct F4 as (_ & G & G'). destruct A4 as [X|[A A']]; [destruct (N4 eq_refl X)|].
    destruct (aside_val env Voe4 VT4 A G) as [[(x & X1 & X2) Fx]|[X Fx]], (aside_val env' Voe4 VT4 A' G') as [[(y & Y1 & Y2) Fy]|[Y Fy]]; try contradiction; [left; eauto 6|right; auto].
Qed.
Lemma target_laws et : may_change (v5_1 woe) t1 t1' -> may_change (v5_2 woe) t2 t2' -> may_change (v5_3 woe) t3 t3' -> may_change (v5_4 woe) t4 t4' ->
  (et = Keplerian -> angle_clear (v6_3 oe) t3 t3' /\ angle_clear (v6_4 oe) t4 t4') ->
  lyap_of_etype (N:=XNum) et mu f oe [a; t1'; t2'; t3'; t4'] rpmin m n r b k wp woe = lyap_of_etype (N:=XNum) et mu f oe [a; t1; t2; t3; t4] rpmin m n r b k wp woe /\
  dqdt_of_etype (N:=XNum) et mu f oe [a; t1'; t2'; t3'; t4'] rpmin m n r b k wp woe = dqdt_of_etype (N:=XNum) et mu f oe [a; t1; t2; t3; t4] rpmin m n r b k wp woe.
Proof.
  intros M1 M2 M3 M4 C. destruct (flag_of _ _ _ M1) as (f1 & F1 & _), (flag_of _ _ _ M2) as (f2 & F2 & _), (flag_of _ _ _ M3) as (f3 & F3 & N3), (flag_of _ _ _ M4) as (f4 & F4 & N4).
  pose proof (env_tied f1 f2 f3 f4 F1 F2 F3 F4) as E.
  destruct et; cbn [lyap_of_etype dqdt_of_etype]; unfold lyap_keplerian, dqdt_keplerian, lyap_mee_with_a, dqdt_mee_with_a, lyap_of, dqdt_of; cbn [list_to_vec5];
  fold env; fold env'.
  - destruct (C eq_refl) as [A3 A4].
    destruct (law_env _ _ _ _ (kep_same f1 f2 f3 f4) env env' E (kinks_ok f3 f4 F3 F4 N3 N4 A3 A4)) as (L1 & L2 & L3 & L4 & L5). rewrite L1, L2, L3, L4, L5. split; reflexivity.
  - destruct (law_env _ _ _ _ (mee_same f1 f2 f3 f4) env env' E ltac:(intros ? X; discriminate X)) as (L1 & L2 & L3 & L4 & L5). rewrite L1, L2, L3, L4, L5. split; reflexivity.
Qed.
End Targets.
