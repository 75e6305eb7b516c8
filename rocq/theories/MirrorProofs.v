(** Reflection in the reference plane: laws and dynamics (C96). *)
From Coq Require Import Reals Lra Lia ZArith List Bool.
From Verif Require Import RMath RLib Num Base Elements Integrate Eom Convergence Lyapunov Symbolic SymKep SymMee Perturb PlotHelper Qlaw Spec NanProofs ScaleSpec DimProofs ScaleProofs SymRun TurnSpec TurnProofs MirrorSpec.
Import ListNotations.
Local Open Scope R_scope.

Lemma opp_opp x : xopp (xopp x) = x.
Proof. destruct x; cbn; try reflexivity. f_equal. ring. Qed.
Lemma opp_add x y : xadd (xopp x) (xopp y) = xopp (xadd x y).
Proof. destruct x, y; cbn; try reflexivity. f_equal. ring. Qed.
Lemma opp_sub x y : xsub (xopp x) (xopp y) = xopp (xsub x y).
Proof. destruct x, y; cbn; try reflexivity. f_equal. ring. Qed.
Lemma xinf_opp s : xinf (- s) = xopp (xinf s).
Proof. unfold xinf. destruct (Rltb_spec (- s) 0), (Rltb_spec 0 (- s)), (Rltb_spec s 0), (Rltb_spec 0 s); cbn; try reflexivity; lra. Qed.
Lemma xsgn_opp x : xsgn (xopp x) = - xsgn x.
Proof. destruct x as [x| | |]; cbn; try lra. destruct (Rltb_spec (- x) 0), (Rltb_spec 0 (- x)), (Rltb_spec x 0), (Rltb_spec 0 x); lra. Qed.
Lemma opp_mul_l x y : xmul (xopp x) y = xopp (xmul x y).
Proof.
  destruct x as [x| | |], y as [y| | |]; cbn [xopp xmul]; try reflexivity; try (f_equal; ring);
  rewrite <- xinf_opp; try change (Fin (- x)) with (xopp (Fin x)); rewrite ?xsgn_opp; f_equal; cbn [xsgn]; ring.
Qed.
Lemma xmul_comm x y : xmul x y = xmul y x.
Proof. destruct x, y; cbn [xmul]; try reflexivity; f_equal; ring. Qed.
Lemma opp_mul_r x y : xmul x (xopp y) = xopp (xmul x y).
Proof. rewrite xmul_comm, opp_mul_l, xmul_comm. reflexivity. Qed.
Lemma opp_mul2 x y : xmul (xopp x) (xopp y) = xmul x y.
Proof. rewrite opp_mul_l, opp_mul_r, opp_opp. reflexivity. Qed.
Lemma opp_div x y : xdiv (xopp x) y = xopp (xdiv x y).
Proof.
  destruct x as [x| | |], y as [y| | |]; cbn [xopp xdiv]; try reflexivity; try (f_equal; ring);
  destruct (Reqb_spec y 0); try reflexivity; try (cbn [xopp]; f_equal; unfold Rdiv; ring);
  rewrite <- xinf_opp; try change (Fin (- x)) with (xopp (Fin x)); rewrite ?xsgn_opp; f_equal; cbn [xsgn]; ring.
Qed.
Lemma half_plus x : half x = plus x PI. Proof. reflexivity. Qed.
Lemma sin_half x : xlift sin (half x) = xopp (xlift sin x).
Proof. destruct x; cbn; try reflexivity. rewrite neg_sin. reflexivity. Qed.
Lemma cos_half x : xlift cos (half x) = xopp (xlift cos x).
Proof. destruct x; cbn; try reflexivity. rewrite neg_cos. reflexivity. Qed.
Lemma sin_opp x : xlift sin (xopp x) = xopp (xlift sin x).
Proof. destruct x; cbn; try reflexivity. rewrite sin_neg. reflexivity. Qed.
Lemma cos_opp x : xlift cos (xopp x) = xlift cos x.
Proof. destruct x; cbn; try reflexivity. rewrite cos_neg. reflexivity. Qed.

(** ** parity of expressions *)
Inductive par : Type := Even | Odd | Null | Half.
Definition padd (a b : par) : option par :=
  match a, b with
  | Even, Even => Some Even | Odd, Odd => Some Odd | Null, Null => Some Null
  | Null, Even | Even, Null => Some Even | Null, Odd | Odd, Null => Some Odd
  | Half, Even | Even, Half => Some Half
  | _, _ => None end.
Definition psub (a b : par) : option par :=
  match a, b with Half, Half => Some Even | Even, Half => None | _, _ => padd a b end.
Definition pmul (a b : par) : option par :=
  match a, b with
  | Half, _ | _, Half => None
  | Null, _ | _, Null => Some Null
  | Even, x => Some x | Odd, Even => Some Odd | Odd, Odd => Some Even end.
Definition pdiv (a b : par) : option par := match a, b with Half, _ | _, Half | _, Odd => None | x, _ => Some x end.
Definition psin (a : par) : option par := match a with Half | Odd => Some Odd | _ => Some Even end.
Definition pcos (a : par) : option par := match a with Half => Some Odd | _ => Some Even end.
Definition pany (a : par) : option par := match a with Half => None | x => Some x end.
Definition pev (a : par) : option par := match a with Even | Null => Some Even | _ => None end.
Definition psq (a : par) : option par := match a with Half => None | _ => Some Even end.
Definition lift1 (f : par -> option par) (a : option par) : option par := match a with Some x => f x | None => None end.
Definition lift2 (f : par -> par -> option par) (a b : option par) : option par := match a, b with Some x, Some y => f x y | _, _ => None end.
Definition ppow (a b : par) : option par := match pev a, pev b with Some _, Some _ => Some Even | _, _ => None end.
Fixpoint par_of (kv : var -> par) (e : expr) : option par :=
  match e with
  | EVar v => Some (kv v)
  | ERat p q => if (Z.eqb p 0 && Z.eqb q 1)%bool then Some Null else Some Even
  | EAdd a b => lift2 padd (par_of kv a) (par_of kv b)
  | ESub a b => lift2 psub (par_of kv a) (par_of kv b)
  | EMul a b => lift2 pmul (par_of kv a) (par_of kv b)
  | EDiv a b => lift2 pdiv (par_of kv a) (par_of kv b)
  | EOpp a | ECube a => lift1 pany (par_of kv a)
  | ESqrt a | EAcos a | EAtan a | EExp a => lift1 pev (par_of kv a)
  | ESin a => lift1 psin (par_of kv a)
  | ECos a => lift1 pcos (par_of kv a)
  | ESq a => lift1 psq (par_of kv a)
  | EPow a b => lift2 ppow (par_of kv a) (par_of kv b)
  end.
Definition has (k : par) (x x' : ereal) : Prop :=
  match k with Even => x' = x | Odd => x' = xopp x | Null => x' = x /\ xopp x = x | Half => x' = half x end.
Lemma has_add k k' r x x' y y' : padd k k' = Some r -> has k x x' -> has k' y y' -> has r (xadd x y) (xadd x' y').
Proof.
  destruct k, k'; intros E; try discriminate; injection E as <-; cbn [has]; intros H H'; repeat match goal with H : _ /\ _ |- _ => destruct H end; subst; try reflexivity.
  - apply add_plus_r.
  - apply opp_add.
  - rewrite <- opp_add. congruence.
  - rewrite <- opp_add. congruence.
  - split; [reflexivity|]. rewrite <- opp_add. congruence.
  - apply add_plus_l.
Qed.
Lemma has_sub k k' r x x' y y' : psub k k' = Some r -> has k x x' -> has k' y y' -> has r (xsub x y) (xsub x' y').
Proof.
  destruct k, k'; intros E; try discriminate; injection E as <-; cbn [has]; intros H H'; repeat match goal with H : _ /\ _ |- _ => destruct H end; subst; try reflexivity.
  - apply opp_sub.
  - rewrite <- opp_sub. congruence.
  - rewrite <- opp_sub. congruence.
  - split; [reflexivity|]. rewrite <- opp_sub. congruence.
  - apply sub_plus_l.
  - apply sub_plus2.
Qed.
Lemma has_mul k k' r x x' y y' : pmul k k' = Some r -> has k x x' -> has k' y y' -> has r (xmul x y) (xmul x' y').
Proof.
  destruct k, k'; intros E; try discriminate; injection E as <-; cbn [has]; intros H H'; repeat match goal with H : _ /\ _ |- _ => destruct H end; subst; try reflexivity.
  - apply opp_mul_r.
  - split; [reflexivity|]. rewrite <- opp_mul_r. congruence.
  - apply opp_mul_l.
  - apply opp_mul2.
  - assert (E : xmul (xopp x) y = xmul x y) by (rewrite opp_mul_l, <- opp_mul_r; congruence). split; [exact E|]. rewrite <- opp_mul_l. exact E.
  - split; [reflexivity|]. rewrite <- opp_mul_l. congruence.
  - assert (E : xmul x (xopp y) = xmul x y) by (rewrite opp_mul_r, <- opp_mul_l; congruence). split; [exact E|]. rewrite <- opp_mul_r. exact E.
  - split; [reflexivity|]. rewrite <- opp_mul_r. congruence.
Qed.
Lemma has_div k k' r x x' y y' : pdiv k k' = Some r -> has k x x' -> has k' y y' -> has r (xdiv x y) (xdiv x' y').
Proof.
  destruct k, k'; intros E; try discriminate; injection E as <-; cbn [has]; intros H H'; repeat match goal with H : _ /\ _ |- _ => destruct H end; subst; try reflexivity;
  try apply opp_div; (split; [reflexivity|]; rewrite <- opp_div; congruence).
Qed.
Section Par.
Variable kv : var -> par.
Variables env env' : var -> ereal.
Hypothesis He : forall v, has (kv v) (env v) (env' v).
Lemma pev_same k r x x' : pev k = Some r -> has k x x' -> x' = x /\ r = Even.
Proof. destruct k; intros E; try discriminate; injection E as <-; cbn [has]; intuition. Qed.
Lemma par_sound e : forall k, par_of kv e = Some k -> has k (eval (N:=XNum) env e) (eval (N:=XNum) env' e).
Proof.
  induction e as [v|z1 z2|a IHa b IHb|a IHa b IHb|a IHa b IHb|a IHa b IHb|a IHa|a IHa|a IHa|a IHa|a IHa|a IHa|a IHa|a IHa|a IHa|a IHa b IHb]; intros k E; cbn [par_of] in E; cbn [eval];
  try (destruct (par_of kv a) as [ka|] eqn:Fa; [|discriminate]; specialize (IHa _ eq_refl)); try (destruct (par_of kv b) as [kb|] eqn:Fb; [|discriminate]; specialize (IHb _ eq_refl));
  cbn [lift1 lift2] in E; try (set (x := eval (N:=XNum) env a) in *; set (x' := eval (N:=XNum) env' a) in *; clearbody x x'); try (set (y := eval (N:=XNum) env b) in *; set (y' := eval (N:=XNum) env' b) in *; clearbody y y').
  - injection E as <-. apply He.
  - destruct (Z.eqb_spec z1 0) as [->|]; destruct (Z.eqb_spec z2 1) as [->|]; cbn [andb] in E; injection E as <-; try reflexivity.
    split; [reflexivity|]. cbn. f_equal. ring.
  - exact (has_add _ _ _ _ _ _ _ E IHa IHb).
  - exact (has_sub _ _ _ _ _ _ _ E IHa IHb).
  - exact (has_mul _ _ _ _ _ _ _ E IHa IHb).
  - exact (has_div _ _ _ _ _ _ _ E IHa IHb).
  - destruct ka; try discriminate; injection E as <-; cbn [has] in *; change (nopp (Num:=XNum)) with xopp; try match type of IHa with _ /\ _ => destruct IHa as [-> IHa] end; subst; try reflexivity. rewrite IHa. auto.
  - destruct (pev_same _ _ _ _ E IHa) as [-> ->]. reflexivity.
  - destruct ka; injection E as <-; cbn [has] in *; change (nsin (Num:=XNum)) with (xlift sin); try match type of IHa with _ /\ _ => destruct IHa as [-> IHa] end; subst; try reflexivity; [apply sin_opp|apply sin_half].
  - destruct ka; injection E as <-; cbn [has] in *; change (ncos (Num:=XNum)) with (xlift cos); try match type of IHa with _ /\ _ => destruct IHa as [-> IHa] end; subst; try reflexivity; [apply cos_opp|apply cos_half].
  - destruct (pev_same _ _ _ _ E IHa) as [-> ->]. reflexivity.
  - destruct (pev_same _ _ _ _ E IHa) as [-> ->]. reflexivity.
  - destruct (pev_same _ _ _ _ E IHa) as [-> ->]. reflexivity.
  - unfold sq. change (nmul (Num:=XNum)) with xmul. destruct ka; try discriminate; injection E as <-; cbn [has] in *; try match type of IHa with _ /\ _ => destruct IHa as [-> IHa] end; subst; try reflexivity. apply opp_mul2.
  - unfold cube. change (nmul (Num:=XNum)) with xmul. destruct ka; try discriminate; injection E as <-; cbn [has] in *; try match type of IHa with _ /\ _ => destruct IHa as [-> IHa] end; subst; try reflexivity.
    + rewrite ?opp_mul2, ?opp_mul_l, ?opp_mul_r, ?opp_opp. reflexivity.
    + split; [reflexivity|]. rewrite <- ?opp_mul_r. rewrite IHa. reflexivity.
  - unfold ppow in E. destruct (pev ka) as [ra|] eqn:Pa; [|discriminate]. destruct (pev kb) as [rb|] eqn:Pb; [|discriminate]. injection E as <-.
    destruct (pev_same _ _ _ _ Pa IHa) as [-> _]. destruct (pev_same _ _ _ _ Pb IHb) as [-> _]. reflexivity.
Qed.
Definition is_even (e : expr) : bool := match par_of kv e with Some Even | Some Null => true | _ => false end.
Definition is_odd (e : expr) : bool := match par_of kv e with Some Odd | Some Null => true | _ => false end.
Lemma even_eval e : is_even e = true -> eval (N:=XNum) env' e = eval (N:=XNum) env e.
Proof. unfold is_even. intros E. destruct (par_of kv e) as [[]|] eqn:F; try discriminate; pose proof (par_sound e _ F) as H; cbn in H; [exact H|apply H]. Qed.
Lemma odd_eval e : is_odd e = true -> eval (N:=XNum) env' e = xopp (eval (N:=XNum) env e).
Proof. unfold is_odd. intros E. destruct (par_of kv e) as [[]|] eqn:F; try discriminate; pose proof (par_sound e _ F) as H; cbn in H; [exact H|destruct H as [H1 H2]; rewrite H1, H2; reflexivity]. Qed.
(** a list of expressions with prescribed signs *)
Definition signed (s : bool) (x : ereal) : ereal := if s then xopp x else x.
Definition is_signed (s : bool) (e : expr) : bool := if s then is_odd e else is_even e.
Lemma signed_eval s e : is_signed s e = true -> eval (N:=XNum) env' e = signed s (eval (N:=XNum) env e).
Proof. destruct s; [apply odd_eval|apply even_eval]. Qed.
Definition signs5 (s : bool) (r : bool) (v : vec5 XNum) : vec5 XNum :=
  let 'mk5 a b c d e := v in @mk5 XNum (signed s a) (signed s b) (signed s c) (signed (xorb s r) d) (signed (xorb s r) e).
Definition are5 (s r : bool) (l : list expr) : bool :=
  match l with [a; b; c; d; e] => (is_signed s a && is_signed s b && is_signed s c && is_signed (xorb s r) d && is_signed (xorb s r) e)%bool | _ => false end.
Lemma eval5_signs s r l : are5 s r l = true -> eval5 (N:=XNum) env' l = signs5 s r (eval5 (N:=XNum) env l).
Proof.
  destruct l as [|a [|b [|c [|d [|e [|]]]]]]; try discriminate. cbn [are5]. intros E. repeat (apply andb_true_iff in E; destruct E as [E ?]).
  cbn [eval5 signs5]. rewrite (signed_eval s a), (signed_eval s b), (signed_eval s c), (signed_eval (xorb s r) d), (signed_eval (xorb s r) e) by assumption. reflexivity.
Qed.
Definition are3 (l : list expr) : bool := match l with [a; b; c] => (is_even a && is_even b && is_odd c)%bool | _ => false end.
Lemma eval3_signs l : are3 l = true -> eval3 (N:=XNum) env' l = normal_reflect (eval3 (N:=XNum) env l).
Proof.
  destruct l as [|a [|b [|c [|]]]]; try discriminate. cbn [are3]. intros E. repeat (apply andb_true_iff in E; destruct E as [E ?]).
  cbn [eval3 normal_reflect]. rewrite (even_eval a), (even_eval b), (odd_eval c) by assumption. reflexivity.
Qed.
Definition psi_signs (r : bool) (p : psi_t XNum) : psi_t XNum := let 'mkpsi a b c := p in @mkpsi XNum (signs5 false r a) (signs5 false r b) (signs5 true r c).
Definition arepsi (r : bool) (l : list (list expr)) : bool := match l with [a; b; c] => (are5 false r a && are5 false r b && are5 true r c)%bool | _ => false end.
Lemma evalpsi_signs r l : arepsi r l = true -> evalpsi (N:=XNum) env' l = psi_signs r (evalpsi (N:=XNum) env l).
Proof.
  destruct l as [|a [|b [|c [|]]]]; try discriminate. cbn [arepsi]. intros E. repeat (apply andb_true_iff in E; destruct E as [E ?]).
  cbn [evalpsi psi_signs]. rewrite (eval5_signs false r a), (eval5_signs false r b), (eval5_signs true r c) by assumption. reflexivity.
Qed.
End Par.
Definition par_kep (v : var) : par := match v with Voe3 | VT3 | Voe4 | VT4 => Half | _ => Even end.
Definition par_mee (v : var) : par := match v with Voe3 | VT3 | Voe4 | VT4 => Odd | _ => Even end.
Definition law_par (kv : var -> par) (r : bool) (psi : list (list expr)) (q : expr) : bool :=
  (are3 kv (usym psi q) && arepsi kv r psi && is_even kv q && are5 kv false r (dqdoe q) && is_even kv (dqdt_expr psi q))%bool.
Lemma kep_par : law_par par_kep false SymKep.psi SymKep.q = true.
Proof. vm_compute. reflexivity. Qed.
Lemma mee_par : law_par par_mee true SymMee.psi SymMee.q = true.
Proof. vm_compute. reflexivity. Qed.

(** ** laws *)
Definition rows_of (et : etype) : bool := match et with Keplerian => false | MeeWithA => true end.
Definition lyap_reflect (et : etype) (out : lyap_out XNum) : lyap_out XNum :=
  @mklyap XNum (normal_reflect (lo_u out)) (psi_signs (rows_of et) (lo_psi out)) (lo_q out) (signs5 false (rows_of et) (lo_dqdoe out)).
Definition target5_reflect (et : etype) (v : vec5 XNum) : vec5 XNum :=
  match et, v with
  | Keplerian, mk5 a e i ra om => @mk5 XNum a e i (half ra) (half om)
  | MeeWithA, mk5 a f g h k => @mk5 XNum a f g (xopp h) (xopp k) end.
Lemma target_reflect5 et l : list_to_vec5 (N:=XNum) (target_reflect et l) = option_map (target5_reflect et) (list_to_vec5 (N:=XNum) l).
Proof. destruct et; destruct l as [|a [|b [|c [|d [|e [|f l]]]]]]; reflexivity. Qed.
Definition kv_of (et : etype) : var -> par := match et with Keplerian => par_kep | MeeWithA => par_mee end.
Lemma env_reflect et mu f oe T rpmin m n r b k wp woe v :
  has (kv_of et v) (mkenv (N:=XNum) mu f oe T rpmin m n r b k wp woe v) (mkenv (N:=XNum) mu f (reflect et oe) (target5_reflect et T) rpmin m n r b k wp woe v).
Proof. destruct oe as [o0 o1 o2 o3 o4 o5], T as [t0 t1 t2 t3 t4], et, v; reflexivity. Qed.
Lemma law_signs kv r psi q E E' : law_par kv r psi q = true -> (forall v, has (kv v) (E v) (E' v)) ->
  eval3 (N:=XNum) E' (usym psi q) = normal_reflect (eval3 (N:=XNum) E (usym psi q)) /\ evalpsi (N:=XNum) E' psi = psi_signs r (evalpsi (N:=XNum) E psi) /\
  eval (N:=XNum) E' q = eval (N:=XNum) E q /\ eval5 (N:=XNum) E' (dqdoe q) = signs5 false r (eval5 (N:=XNum) E (dqdoe q)) /\
  eval (N:=XNum) E' (dqdt_expr psi q) = eval (N:=XNum) E (dqdt_expr psi q).
Proof.
  intros S H. unfold law_par in S. generalize dependent (dqdt_expr psi q). generalize dependent (dqdoe q). generalize dependent (usym psi q). intros us dl dq S.
  repeat (apply andb_true_iff in S; destruct S as [S ?]).
  split; [eapply eval3_signs; eassumption|]. split; [eapply evalpsi_signs; eassumption|]. split; [eapply even_eval; eassumption|].
  split; [eapply eval5_signs; eassumption|eapply even_eval; eassumption].
Qed.
Lemma lyap_of_reflect et psi q mu f oe oeT rpmin m n r b k wp woe : law_par (kv_of et) (rows_of et) psi q = true ->
  lyap_of (N:=XNum) psi q mu f (reflect et oe) (target_reflect et oeT) rpmin m n r b k wp woe = Rmap (lyap_reflect et) (lyap_of (N:=XNum) psi q mu f oe oeT rpmin m n r b k wp woe) /\
  dqdt_of (N:=XNum) psi q mu f (reflect et oe) (target_reflect et oeT) rpmin m n r b k wp woe = dqdt_of (N:=XNum) psi q mu f oe oeT rpmin m n r b k wp woe.
Proof.
  intros S. unfold lyap_of, dqdt_of. rewrite target_reflect5. destruct (list_to_vec5 oeT) as [T|]; cbn [option_map]; [|auto].
  destruct (law_signs _ _ _ _ _ _ S (env_reflect et mu f oe T rpmin m n r b k wp woe)) as (E1 & E2 & E3 & E4 & E5). cbv zeta.
  rewrite E1, E2, E3, E4, E5. auto.
Qed.
Definition law_for (et : etype) : lyap_fn XNum := match et with Keplerian => lyap_keplerian (N:=XNum) | MeeWithA => lyap_mee_with_a (N:=XNum) end.
Definition rate_for (et : etype) : dqdt_fn XNum := match et with Keplerian => dqdt_keplerian (N:=XNum) | MeeWithA => dqdt_mee_with_a (N:=XNum) end.
Lemma law_for_reflect et mu f oe oeT rpmin m n r b k wp woe :
  law_for et mu f (reflect et oe) (target_reflect et oeT) rpmin m n r b k wp woe = Rmap (lyap_reflect et) (law_for et mu f oe oeT rpmin m n r b k wp woe) /\
  rate_for et mu f (reflect et oe) (target_reflect et oeT) rpmin m n r b k wp woe = rate_for et mu f oe oeT rpmin m n r b k wp woe.
Proof. destruct et; [apply (lyap_of_reflect Keplerian); exact kep_par|apply (lyap_of_reflect MeeWithA); exact mee_par]. Qed.

(** ** angles *)
Lemma signed_mul s t x y : xmul (signed s x) (signed t y) = signed (xorb s t) (xmul x y).
Proof. destruct s, t; cbn [signed xorb]; [apply opp_mul2|apply opp_mul_l|apply opp_mul_r|reflexivity]. Qed.
Lemma signed_add s x y : xadd (signed s x) (signed s y) = signed s (xadd x y).
Proof. destruct s; [apply opp_add|reflexivity]. Qed.
Lemma dot5_signs r s u v : dot5 (N:=XNum) (signs5 false r u) (signs5 s r v) = signed s (dot5 (N:=XNum) u v).
Proof.
  destruct u as [u0 u1 u2 u3 u4], v as [v0 v1 v2 v3 v4]. unfold dot5, signs5. change (nadd (Num:=XNum)) with xadd. change (nmul (Num:=XNum)) with xmul. rewrite !signed_mul.
  replace (xorb (xorb false r) (xorb s r)) with s by (destruct r, s; reflexivity). cbn [xorb]. destruct s; rewrite !signed_add; reflexivity.
Qed.
Lemma dot3_normal v w : dot3 (N:=XNum) (normal_reflect v) (normal_reflect w) = dot3 (N:=XNum) v w.
Proof. destruct v, w. unfold dot3, normal_reflect. change (nmul (Num:=XNum)) with xmul. rewrite opp_mul2. reflexivity. Qed.
Lemma scal_normal c v : v3scal (N:=XNum) c (normal_reflect v) = normal_reflect (v3scal (N:=XNum) c v).
Proof. destruct v. unfold v3scal, normal_reflect. change (nmul (Num:=XNum)) with xmul. rewrite opp_mul_r. reflexivity. Qed.
Lemma add_normal v w : v3add (N:=XNum) (normal_reflect v) (normal_reflect w) = normal_reflect (v3add (N:=XNum) v w).
Proof. destruct v, w. unfold v3add, normal_reflect. change (nadd (Num:=XNum)) with xadd. rewrite opp_add. reflexivity. Qed.
Lemma divs_normal v c : v3divs (N:=XNum) (normal_reflect v) c = normal_reflect (v3divs (N:=XNum) v c).
Proof. destruct v. unfold v3divs, normal_reflect. change (ndiv (Num:=XNum)) with xdiv. rewrite opp_div. reflexivity. Qed.
Lemma zero_normal : normal_reflect (v3zero (N:=XNum)) = v3zero (N:=XNum).
Proof. unfold v3zero, normal_reflect. cbn. f_equal. f_equal. ring. Qed.
Lemma atan_opp x : xatan (xopp x) = xopp (xatan x).
Proof. destruct x; cbn; try reflexivity; f_equal; try apply atan_opp; unfold Rdiv; ring. Qed.
Lemma jdiv_opp x y : jdiv (N:=XNum) (xopp x) y = Rmap xopp (jdiv (N:=XNum) x y).
Proof. unfold jdiv. destruct (neqb (Num:=XNum) y (nofZ (Num:=XNum) 0)); [reflexivity|]. cbn [Rmap]. change (ndiv (Num:=XNum)) with xdiv. rewrite opp_div. reflexivity. Qed.
Definition uab_reflect (r : vec3 XNum * ereal * ereal) : vec3 XNum * ereal * ereal := let '(u, al, be) := r in (normal_reflect u, al, xopp be).
Lemma angles_of_reflect u : u_to_thrust_angles (N:=XNum) (normal_reflect u) = Rmap uab_reflect (u_to_thrust_angles (N:=XNum) u).
Proof.
  unfold u_to_thrust_angles. destruct u as [x y z].
  assert (E : sq (N:=XNum) (v3_2 (normal_reflect (@mk3 XNum x y z))) = sq (N:=XNum) z) by (cbn [normal_reflect v3_2]; unfold sq; change (nmul (Num:=XNum)) with xmul; apply opp_mul2).
  rewrite E. cbn [normal_reflect v3_0 v3_1]. change (@mk3 XNum x y (xopp z)) with (normal_reflect (@mk3 XNum x y z)). rewrite divs_normal. cbn [v3_2].
  set (n := nsqrt (Num:=XNum) _). clearbody n. set (u := v3divs (N:=XNum) (@mk3 XNum x y z) n). destruct u as [u0 u1 u2]. cbn [normal_reflect v3_0 v3_1 v3_2].
  change (nopp (Num:=XNum)) with xopp. rewrite (jdiv_opp (xopp u2)), rmap_bind, bind_rmap. apply bind_ext. intros tb. cbn [Rmap uab_reflect]. change (natan (Num:=XNum)) with xatan. rewrite atan_opp. reflexivity.
Qed.
Definition lya_reflect (et : etype) (r : ereal * ereal * vec3 XNum * psi_t XNum * ereal * ereal) : ereal * ereal * vec3 XNum * psi_t XNum * ereal * ereal :=
  let '(al, be, v, psi, q, qd) := r in (al, xopp be, normal_reflect v, psi_signs (rows_of et) psi, q, qd).
Lemma lya_reflected et mu f oe oeT rpmin m n r b k wp woe :
  lyapunov_control_angles (N:=XNum) (law_for et) mu f (reflect et oe) (target_reflect et oeT) rpmin m n r b k wp woe =
  Rmap (lya_reflect et) (lyapunov_control_angles (N:=XNum) (law_for et) mu f oe oeT rpmin m n r b k wp woe).
Proof.
  unfold lyapunov_control_angles. rewrite (proj1 (law_for_reflect et mu f oe oeT rpmin m n r b k wp woe)), rmap_bind, bind_rmap. apply bind_ext. intros out.
  cbn [lyap_reflect lo_u lo_psi lo_q lo_dqdoe]. rewrite angles_of_reflect, rmap_bind, bind_rmap. apply bind_ext. intros [[u al] be]. cbn [uab_reflect].
  destruct (lo_psi out) as [c0 c1 c2]. cbn [psi_signs Rmap lya_reflect]. rewrite !dot5_signs. cbn [signed]. rewrite scal_normal. f_equal. f_equal.
  apply (dot3_normal (@mk3 XNum (dot5 (lo_dqdoe out) c0) (dot5 (lo_dqdoe out) c1) (dot5 (lo_dqdoe out) c2))).
Qed.

(** ** dynamics *)
Definition rate_reflect (et : etype) (v : vec6 XNum) : vec6 XNum :=
  match et, v with Keplerian, _ => v | MeeWithA, mk6 a f g h k l => @mk6 XNum a f g (xopp h) (xopp k) l end.
Definition prm_reflect (et : etype) (prm : ode_params XNum) : ode_params XNum :=
  @mkparams XNum (op_mu prm) (normal_reflect (op_u prm)) (psi_signs (rows_of et) (op_psi prm)) (normal_reflect (op_ptrb prm)).
Lemma dot3_signed s a b c v : dot3 (N:=XNum) (@mk3 XNum (signed s a) (signed s b) (signed (xorb true s) c)) (normal_reflect v) = signed s (dot3 (N:=XNum) (@mk3 XNum a b c) v).
Proof.
  destruct v as [x y z]. unfold dot3, normal_reflect. change (nadd (Num:=XNum)) with xadd. change (nmul (Num:=XNum)) with xmul.
  destruct s; cbn [signed xorb]; rewrite ?opp_mul2, ?opp_mul_l, ?opp_mul_r, ?opp_add; reflexivity.
Qed.
Lemma psi_dot_reflect et psi r5 v : psi_dot (N:=XNum) (psi_signs (rows_of et) psi) (normal_reflect r5) (normal_reflect v) = rate_reflect et (psi_dot (N:=XNum) psi r5 v).
Proof.
  destruct psi as [[a0 a1 a2 a3 a4] [b0 b1 b2 b3 b4] [c0 c1 c2 c3 c4]]. unfold psi_dot, psi_signs, signs5. rewrite dot3_normal.
  pose proof (dot3_signed false a0 b0 c0 v) as E0. pose proof (dot3_signed false a1 b1 c1 v) as E1. pose proof (dot3_signed false a2 b2 c2 v) as E2.
  pose proof (dot3_signed (rows_of et) a3 b3 c3 v) as E3. pose proof (dot3_signed (rows_of et) a4 b4 c4 v) as E4.
  cbn [xorb] in E0, E1, E2. cbn [signed] in E0, E1, E2.
  destruct et; cbn [rows_of xorb signed rate_reflect negb] in *; rewrite E0, E1, E2, E3, E4; reflexivity.
Qed.
Lemma add_rate_reflect et v r : add_rate (N:=XNum) (rate_reflect et v) r = rate_reflect et (add_rate (N:=XNum) v r).
Proof.
  destruct et; [reflexivity|]. destruct v as [a f g h k l]. unfold add_rate, rate_reflect, v6add. change (nadd (Num:=XNum)) with xadd. change (nofZ (Num:=XNum) 0) with (Fin 0).
  assert (E : forall x, xadd (xopp x) (Fin 0) = xopp (xadd x (Fin 0))) by (intros [x| | |]; cbn; try reflexivity; f_equal; ring). rewrite !E. reflexivity.
Qed.
Definition eom_for (et : etype) : eom_fn (N:=XNum) := match et with Keplerian => eom_kep_gauss (N:=XNum) | MeeWithA => eom_mee_with_a_gauss (N:=XNum) end.
Lemma eom_reflect et t x prm : eom_for et t (reflect et x) (prm_reflect et prm) = Rmap (rate_reflect et) (eom_for et t x prm).
Proof.
  destruct prm as [mu u psi w]. destruct et; cbn [eom_for]; destruct x as [a e i ra om ta].
  - unfold eom_kep_gauss, prm_reflect, reflect. cbn [op_mu op_u op_psi op_ptrb]. cbv zeta. rewrite bind_rmap. apply bind_ext. intros r. rewrite bind_rmap. apply bind_ext. intros e0.
    rewrite bind_rmap. apply bind_ext. intros e1. rewrite bind_rmap. apply bind_ext. intros rate. cbn [Rmap]. f_equal. rewrite add_normal, <- add_rate_reflect. f_equal.
    rewrite <- psi_dot_reflect. f_equal. cbn [normal_reflect]. f_equal. cbn. f_equal. ring.
  - unfold eom_mee_with_a_gauss, prm_reflect, reflect. cbn [op_mu op_u op_psi op_ptrb]. cbv zeta. rewrite bind_rmap. apply bind_ext. intros gf. rewrite bind_rmap. apply bind_ext. intros r.
    rewrite bind_rmap. apply bind_ext. intros pmu. rewrite bind_rmap. apply bind_ext. intros sw. rewrite bind_rmap. apply bind_ext. intros wp. cbn [Rmap]. f_equal.
    rewrite add_normal, <- add_rate_reflect. f_equal. rewrite <- psi_dot_reflect. f_equal. cbn [normal_reflect]. f_equal.
    change (nsub (Num:=XNum)) with xsub. change (nmul (Num:=XNum)) with xmul. rewrite !opp_mul_l, opp_sub, opp_mul_r. reflexivity.
Qed.
Section Steps.
Variable et : etype.
Notation phi := (reflect et).
Notation dphi := (rate_reflect et).
Lemma add_reflect x v : v6add (N:=XNum) (phi x) (dphi v) = phi (v6add (N:=XNum) x v).
Proof.
  destruct et, x, v; cbn [reflect rate_reflect v6add]; change (nadd (Num:=XNum)) with xadd; rewrite ?opp_add, ?half_plus, ?add_plus_l; reflexivity.
Qed.
Lemma sub_reflect x v : v6sub (N:=XNum) (phi x) (dphi v) = phi (v6sub (N:=XNum) x v).
Proof.
  destruct et, x, v; cbn [reflect rate_reflect v6sub]; change (nsub (Num:=XNum)) with xsub; rewrite ?opp_sub, ?half_plus, ?sub_plus_l; reflexivity.
Qed.
Lemma diff_reflect x y : v6sub (N:=XNum) (phi x) (phi y) = dphi (v6sub (N:=XNum) x y).
Proof.
  destruct et, x, y; cbn [reflect rate_reflect v6sub]; change (nsub (Num:=XNum)) with xsub; rewrite ?opp_sub, ?half_plus, ?sub_plus2; reflexivity.
Qed.
Lemma scal_rate c v : v6scal (N:=XNum) c (dphi v) = dphi (v6scal (N:=XNum) c v).
Proof. destruct et, v; cbn [rate_reflect v6scal]; change (nmul (Num:=XNum)) with xmul; rewrite ?opp_mul_r; reflexivity. Qed.
Lemma add_rates v w : v6add (N:=XNum) (dphi v) (dphi w) = dphi (v6add (N:=XNum) v w).
Proof. destruct et, v, w; cbn [rate_reflect v6add]; change (nadd (Num:=XNum)) with xadd; rewrite ?opp_add; reflexivity. Qed.
Lemma norm_rate v : norm6 (N:=XNum) (dphi v) = norm6 (N:=XNum) v.
Proof. destruct et, v; [reflexivity|]. unfold norm6, rate_reflect, sq. change (nmul (Num:=XNum)) with xmul. rewrite !opp_mul2. reflexivity. Qed.
Variable f : eom_fn (N:=XNum).
Variables prm prm' : ode_params XNum.
Hypothesis Hf : forall t x, f t (phi x) prm' = Rmap dphi (f t x prm).
Lemma rk4_reflect t h y : rk4 (N:=XNum) f t h (phi y) prm' = Rmap phi (rk4 (N:=XNum) f t h y prm).
Proof.
  unfold rk4. rewrite Hf, rmap_bind, bind_rmap. apply bind_ext. intros k1. rewrite scal_rate, add_reflect, Hf, rmap_bind, bind_rmap. apply bind_ext. intros k2.
  rewrite scal_rate, add_reflect, Hf, rmap_bind, bind_rmap. apply bind_ext. intros k3. rewrite scal_rate, add_reflect, Hf, rmap_bind, bind_rmap. apply bind_ext. intros k4.
  cbn [Rmap]. rewrite !scal_rate, !add_rates, scal_rate, add_reflect. reflexivity.
Qed.
Lemma rkf45_reflect t h y tol :
  rkf45 (N:=XNum) f t h (phi y) prm' tol = Rmap (fun r : vec6 XNum * ereal => (phi (fst r), snd r)) (rkf45 (N:=XNum) f t h y prm tol).
Proof.
  unfold rkf45. cbv zeta. rewrite Hf, rmap_bind, bind_rmap. apply bind_ext. intros k1.
  repeat (rewrite ?scal_rate, ?add_reflect, ?sub_reflect). rewrite Hf, rmap_bind, bind_rmap. apply bind_ext. intros k2.
  repeat (rewrite ?scal_rate, ?add_reflect, ?sub_reflect). rewrite Hf, rmap_bind, bind_rmap. apply bind_ext. intros k3.
  repeat (rewrite ?scal_rate, ?add_reflect, ?sub_reflect). rewrite Hf, rmap_bind, bind_rmap. apply bind_ext. intros k4.
  repeat (rewrite ?scal_rate, ?add_reflect, ?sub_reflect). rewrite Hf, rmap_bind, bind_rmap. apply bind_ext. intros k5.
  repeat (rewrite ?scal_rate, ?add_reflect, ?sub_reflect). rewrite Hf, rmap_bind, bind_rmap. apply bind_ext. intros k6.
  repeat (rewrite ?scal_rate, ?add_reflect, ?sub_reflect). rewrite diff_reflect, norm_rate, bind_rmap. reflexivity.
Qed.
End Steps.

(** ** convergence test, safeguard, thresholds *)
Definition check_for (et : etype) := match et with Keplerian => check_convergence_keplerian (N:=XNum) | MeeWithA => check_convergence_mee (N:=XNum) end.
Lemma abs_opp_sub x y : xabs (xsub (xopp x) (xopp y)) = xabs (xsub x y).
Proof. rewrite opp_sub. destruct (xsub x y); cbn; try reflexivity. rewrite Rabs_Ropp. reflexivity. Qed.
Lemma check_reflect et x t w tol : check_for et (reflect et x) (target_reflect et t) w tol = check_for et x t w tol.
Proof.
  destruct et; destruct t as [|t0 [|t1 [|t2 [|t3 [|t4 t]]]]]; try reflexivity; destruct x as [a e i ra om ta].
  - cbn [check_for target_reflect check_convergence_keplerian reflect]. change (nsub (Num:=XNum)) with xsub. rewrite !half_plus, !sub_plus2. reflexivity.
  - cbn [check_for target_reflect check_convergence_mee reflect]. change (nabs (Num:=XNum)) with xabs. change (nsub (Num:=XNum)) with xsub. rewrite !abs_opp_sub. reflexivity.
Qed.
Lemma clamp_half lo x hi : clamp1 (N:=XNum) (half lo) (half x) (half hi) = half (clamp1 (N:=XNum) lo x hi).
Proof. apply clamp_turn. Qed.
Lemma safety_reflect x lo hi : elements_safety (N:=XNum) (reflect Keplerian x) (bound_reflect Keplerian lo) (bound_reflect Keplerian hi) = reflect Keplerian (elements_safety (N:=XNum) x lo hi).
Proof. destruct x, lo, hi. cbn [reflect bound_reflect elements_safety]. rewrite !clamp_half. reflexivity. Qed.
Lemma unreflect_reflect et x : unreflect et (reflect et x) = x.
Proof.
  destruct et, x; cbn [reflect unreflect]; rewrite ?opp_opp; try reflexivity.
  assert (E : forall y, unhalf (half y) = y) by (intros [y| | |]; cbn; try reflexivity; f_equal; ring). rewrite !E. reflexivity.
Qed.
