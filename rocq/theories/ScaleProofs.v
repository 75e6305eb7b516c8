(** Runs in other units: the control laws, the dynamics and rk4. *)
From Coq Require Import Reals Lra Lia ZArith List Bool.
From Verif Require Import RMath RLib Num Base Elements Integrate Eom Convergence Lyapunov Symbolic SymKep SymMee Perturb Qlaw NanProofs ScaleSpec DimProofs.
Import ListNotations.
Local Open Scope R_scope.

Definition Rmap {A B} (f : A -> B) (r : Res A) : Res B := match r with Ok a => Ok (f a) | Err e => Err e end.

(** rates, influence matrices and law outputs in new units *)
Definition col_in (u : units) (v : vec5 XNum) : vec5 XNum :=
  let 'mk5 a b c d e := v in
  @mk5 XNum (xscale (u_time u) a) (xscale (u_time u / u_len u) b) (xscale (u_time u / u_len u) c) (xscale (u_time u / u_len u) d) (xscale (u_time u / u_len u) e).
Definition psi_in (u : units) (psi : psi_t XNum) : psi_t XNum :=
  let 'mkpsi x y z := psi in @mkpsi XNum (col_in u x) (col_in u y) (col_in u z).
Definition rate_in (u : units) (v : vec6 XNum) : vec6 XNum :=
  let 'mk6 a b c d e f := v in
  @mk6 XNum (xscale (u_len u / u_time u) a) (xscale (/ u_time u) b) (xscale (/ u_time u) c) (xscale (/ u_time u) d) (xscale (/ u_time u) e) (xscale (/ u_time u) f).
Definition v3s (c : R) (v : vec3 XNum) : vec3 XNum := let 'mk3 x y z := v in @mk3 XNum (xscale c x) (xscale c y) (xscale c z).
Definition grad_in (u : units) (v : vec5 XNum) : vec5 XNum :=
  let T := u_time u * u_time u in
  let 'mk5 a b c d e := v in @mk5 XNum (xscale (T / u_len u) a) (xscale T b) (xscale T c) (xscale T d) (xscale T e).
Definition law_in (u : units) (o : lyap_out XNum) : lyap_out XNum :=
  @mklyap XNum (v3s (u_time u * u_time u * u_time u / u_len u) (lo_u o)) (psi_in u (lo_psi o)) (xscale (u_time u * u_time u) (lo_q o)) (grad_in u (lo_dqdoe o)).
Definition angles_in (u : units) (r : ereal * ereal * vec3 XNum * psi_t XNum * ereal * ereal) :=
  let '(al, be, v, psi, q, qd) := r in (al, be, v, psi_in u psi, xscale (u_time u * u_time u) q, xscale (u_time u) qd).

Section Scale.
Variable u : units.
Hypothesis Hu : positive u.
Notation L := (u_len u).
Notation T := (u_time u).
Notation M := (u_mass u).
Lemma HL : 0 < L. Proof. exact (proj1 Hu). Qed.
Lemma HT : 0 < T. Proof. exact (proj1 (proj2 Hu)). Qed.
Lemma HM : 0 < M. Proof. exact (proj2 (proj2 Hu)). Qed.
Local Hint Resolve HL HT HM : core.

(** ** the laws *)
Ltac pows := unfold powerRZ; repeat match goal with |- context [Pos.to_nat ?p] => let n := eval compute in (Pos.to_nat p) in change (Pos.to_nat p) with n end;
  cbn [pow].
Definition s := sqrt L.
Definition w := sqrt T.
Lemma Hs : 0 < s. Proof. apply sqrt_lt_R0. exact HL. Qed.
Lemma Hw : 0 < w. Proof. apply sqrt_lt_R0. exact HT. Qed.
Lemma ss : s * s = L. Proof. apply sqrt_sqrt. pose proof HL. lra. Qed.
Lemma ww : w * w = T. Proof. apply sqrt_sqrt. pose proof HT. lra. Qed.
Notation F := (factor s w).
Lemma F_2_0 : F 2 0 = L. Proof. unfold factor. pows. rewrite <- ss. ring. Qed.
Lemma F_6_4 : F 6 (-4) = L * L * L / (T * T).
Proof. unfold factor. pows. rewrite <- ss, <- ww. pose proof Hw. field. lra. Qed.
Lemma F_2_4 : F 2 (-4) = u_acc u.
Proof. unfold factor, u_acc. pows. rewrite <- ss, <- ww. pose proof Hw. field. lra. Qed.
Lemma F_0_2 : F 0 2 = T. Proof. unfold factor. pows. rewrite <- ww. ring. Qed.
Lemma F_0_4 : F 0 4 = T * T. Proof. unfold factor. pows. rewrite <- ww. ring. Qed.
Lemma F_m2_2 : F (-2) 2 = T / L. Proof. unfold factor. pows. rewrite <- ww, <- ss. pose proof Hs. field. lra. Qed.
Lemma F_m2_4 : F (-2) 4 = T * T / L. Proof. unfold factor. pows. rewrite <- ww, <- ss. pose proof Hs. field. lra. Qed.
Lemma F_m2_6 : F (-2) 6 = T * T * T / L. Proof. unfold factor. pows. rewrite <- ww, <- ss. pose proof Hs. field. lra. Qed.

Definition ty_eqb (a : option ty) (l t : Z) : bool :=
  match a with Some TZero => true | Some (TDim l' t') => (Z.eqb l l' && Z.eqb t t')%bool | None => false end.
Definition dims_ok (psi : list (list expr)) (q : expr) : bool :=
  (ty_eqb (dim q) 0 4 && ty_eqb (dim (dqdt_expr psi q)) 0 2
   && match dqdoe q with
      | [a; b; c; d; e] => ty_eqb (dim a) (-2) 4 && ty_eqb (dim b) 0 4 && ty_eqb (dim c) 0 4 && ty_eqb (dim d) 0 4 && ty_eqb (dim e) 0 4
      | _ => false end
   && match psi with
      | [_; _; _] => forallb (fun col => match col with
         | [a; b; c; d; e] => ty_eqb (dim a) 0 2 && ty_eqb (dim b) (-2) 2 && ty_eqb (dim c) (-2) 2 && ty_eqb (dim d) (-2) 2 && ty_eqb (dim e) (-2) 2
         | _ => false end) psi
      | _ => false end
   && match usym psi q with [a; b; c] => ty_eqb (dim a) (-2) 6 && ty_eqb (dim b) (-2) 6 && ty_eqb (dim c) (-2) 6 | _ => false end)%bool.

Lemma env_typed mu f oe oeT rpmin m n r b k wp woe v :
  typed s w (dim_var v) (mkenv (N:=XNum) mu f oe oeT rpmin m n r b k wp woe v)
    (mkenv (N:=XNum) (xscale (L * L * L / (T * T)) mu) (xscale (u_acc u) f) (oe_in u oe) (slow_in u oeT) (xscale L rpmin) m n r b k wp woe v).
Proof.
  destruct oe, oeT, v; cbn [mkenv dim_var typed]; rewrite ?F_6_4, ?F_2_4, ?F_2_0, ?factor_0, ?xs_1; reflexivity.
Qed.
Lemma dim_eval l t env env' e : (forall v, typed s w (dim_var v) (env v) (env' v)) -> ty_eqb (dim e) l t = true ->
  eval (N:=XNum) env' e = xscale (F l t) (eval (N:=XNum) env e).
Proof.
  intros H E. unfold ty_eqb in E. destruct (dim e) as [[|l' t']|] eqn:D; [| |discriminate].
  - exact (dim_zero_as s w Hs Hw dim_var env env' H _ e D).
  - apply andb_true_iff in E. destruct E as [E1 E2]. apply Z.eqb_eq in E1. apply Z.eqb_eq in E2. subst l' t'. exact (dim_as s w Hs Hw dim_var env env' H _ _ e D).
Qed.
Lemma target_vec5 l : list_to_vec5 (N:=XNum) (target_in u l) = option_map (slow_in u) (list_to_vec5 (N:=XNum) l).
Proof. destruct l as [|a [|b [|c [|d [|e [|f l]]]]]]; reflexivity. Qed.

Lemma law_scaled psi q mu f oe oeT rpmin m n r b k wp woe : dims_ok psi q = true ->
  lyap_of (N:=XNum) psi q (xscale (L * L * L / (T * T)) mu) (xscale (u_acc u) f) (oe_in u oe) (target_in u oeT) (xscale L rpmin) m n r b k wp woe =
  Rmap (law_in u) (lyap_of (N:=XNum) psi q mu f oe oeT rpmin m n r b k wp woe).
Proof.
  intros E. unfold lyap_of. rewrite target_vec5. destruct (list_to_vec5 oeT) as [T5|]; [|reflexivity]. cbn [option_map].
  set (env := mkenv (N:=XNum) mu f oe T5 rpmin m n r b k wp woe).
  set (env' := mkenv (N:=XNum) (xscale (L * L * L / (T * T)) mu) (xscale (u_acc u) f) (oe_in u oe) (slow_in u T5) (xscale L rpmin) m n r b k wp woe).
  assert (H : forall v, typed s w (dim_var v) (env v) (env' v)) by (intros v; apply env_typed).
  clearbody env env'. unfold dims_ok in E.
  generalize dependent (usym psi q). generalize dependent (dqdoe q). generalize dependent (dqdt_expr psi q). intros dq dl ul E.
  repeat (apply andb_true_iff in E; destruct E as [E ?]).
  destruct dl as [|d0 [|d1 [|d2 [|d3 [|d4 [|]]]]]]; try discriminate.
  destruct ul as [|u0 [|u1 [|u2 [|]]]]; try discriminate.
  destruct psi as [|c0 [|c1 [|c2 [|]]]]; try discriminate. cbn [forallb] in *.
  repeat match goal with X : andb _ _ = true |- _ => apply andb_true_iff in X; destruct X end.
  destruct c0 as [|p00 [|p01 [|p02 [|p03 [|p04 [|]]]]]]; try discriminate.
  destruct c1 as [|p10 [|p11 [|p12 [|p13 [|p14 [|]]]]]]; try discriminate.
  destruct c2 as [|p20 [|p21 [|p22 [|p23 [|p24 [|]]]]]]; try discriminate.
  repeat match goal with X : andb _ _ = true |- _ => apply andb_true_iff in X; destruct X end.
  unfold law_in. cbn [eval3 eval5 evalpsi lo_u lo_psi lo_q lo_dqdoe v3s psi_in col_in grad_in Rmap]. cbv zeta.
  rewrite <- F_m2_6, <- F_m2_4, <- F_0_4, <- F_m2_2, <- F_0_2.
  repeat match goal with X : ty_eqb (dim ?e) ?l ?t = true |- _ => rewrite (dim_eval l t env env' e H X); clear X end.
  reflexivity.
Qed.
Lemma rate_scaled psi q mu f oe oeT rpmin m n r b k wp woe : dims_ok psi q = true ->
  dqdt_of (N:=XNum) psi q (xscale (L * L * L / (T * T)) mu) (xscale (u_acc u) f) (oe_in u oe) (target_in u oeT) (xscale L rpmin) m n r b k wp woe =
  Rmap (xscale T) (dqdt_of (N:=XNum) psi q mu f oe oeT rpmin m n r b k wp woe).
Proof.
  intros E. unfold dqdt_of. rewrite target_vec5. destruct (list_to_vec5 oeT) as [T5|]; [|reflexivity]. cbn [option_map Rmap]. f_equal.
  etransitivity; [apply (dim_eval 0 2); [intros v; apply env_typed|]|rewrite F_0_2; reflexivity]. unfold dims_ok in E.
  repeat (apply andb_true_iff in E; destruct E as [E ?]). assumption.
Qed.

(** ** products and sums *)
Lemma pl c x y : 0 < c -> xmul (xscale c x) y = xscale c (xmul x y).
Proof. intros H. rewrite <- (xs_1 y) at 1. rewrite xs_mul by lra. f_equal. ring. Qed.
Lemma pr c x y : 0 < c -> xmul x (xscale c y) = xscale c (xmul x y).
Proof. intros H. rewrite <- (xs_1 x) at 1. rewrite xs_mul by lra. f_equal. ring. Qed.
Lemma dl c x y : 0 < c -> xdiv (xscale c x) y = xscale c (xdiv x y).
Proof. intros H. rewrite <- (xs_1 y) at 1. rewrite xs_div by lra. f_equal. field. Qed.
Lemma xeq0 c x : 0 < c -> xeqb (xscale c x) (Fin 0) = xeqb x (Fin 0).
Proof. intros H. rewrite <- (xs_0 c) at 1. apply xs_eqb. exact H. Qed.
Lemma jdiv_scaled c d x y : 0 < c -> 0 < d -> jdiv (N:=XNum) (xscale c x) (xscale d y) = Rmap (xscale (c / d)) (jdiv (N:=XNum) x y).
Proof.
  intros Hc Hd. unfold jdiv. change (neqb (Num:=XNum)) with xeqb. change (nofZ (Num:=XNum) 0) with (Fin 0). rewrite xeq0 by exact Hd.
  destruct (xeqb y (Fin 0)); [reflexivity|]. cbn [Rmap ndiv XNum]. rewrite xs_div by assumption. reflexivity.
Qed.

(** ** thrust angles *)
Lemma angles_scaled c D : 0 < c -> u_to_thrust_angles (N:=XNum) (v3s c D) = u_to_thrust_angles (N:=XNum) D.
Proof.
  intros H. destruct D as [x y z]. unfold u_to_thrust_angles. cbn [v3_0 v3_1 v3_2 v3s v3divs]. unfold sq. xnum.
  rewrite !xs_mul, !xs_add, xs_sqrt by nra. rewrite !xs_div by exact H. replace (c / c) with 1 by (field; lra). rewrite !xs_1. reflexivity.
Qed.
Lemma dot5_scaled g c : dot5 (N:=XNum) (grad_in u g) (col_in u c)
  = xscale (T * T * T / L) (dot5 (N:=XNum) g c).
Proof.
  pose proof HL. pose proof HT. assert (0 < T * T) by nra. assert (0 < T / L) by (apply Rdiv_lt_0_compat; assumption).
  assert (0 < T * T / L) by (apply Rdiv_lt_0_compat; assumption).
  destruct g, c. unfold dot5, grad_in, col_in. cbv zeta. xnum. rewrite !xs_mul by assumption.
  replace (T * T / L * T) with (T * T * T / L) by (field; lra). replace (T * T * (T / L)) with (T * T * T / L) by (field; lra).
  rewrite !xs_add. reflexivity.
Qed.
Lemma lyap_scaled (fn fn' : lyap_fn XNum) mu f oe oeT rpmin m n r b k wp woe mu' f' oe' oeT' rpmin' :
  fn' mu' f' oe' oeT' rpmin' m n r b k wp woe = Rmap (law_in u) (fn mu f oe oeT rpmin m n r b k wp woe) ->
  f' = xscale (u_acc u) f ->
  lyapunov_control_angles (N:=XNum) fn' mu' f' oe' oeT' rpmin' m n r b k wp woe =
  Rmap (angles_in u) (lyapunov_control_angles (N:=XNum) fn mu f oe oeT rpmin m n r b k wp woe).
Proof.
  intros E ->. unfold lyapunov_control_angles. rewrite E. destruct (fn mu f oe oeT rpmin m n r b k wp woe) as [out|ex]; [|reflexivity].
  cbn [Rmap bind law_in lo_u lo_psi lo_q lo_dqdoe]. pose proof HL. pose proof HT.
  assert (A : 0 < T * T * T / L) by (apply Rdiv_lt_0_compat; [repeat apply Rmult_lt_0_compat|]; assumption).
  assert (B : 0 < u_acc u) by (unfold u_acc; apply Rdiv_lt_0_compat; [|apply Rmult_lt_0_compat]; assumption).
  rewrite angles_scaled by exact A. destruct (u_to_thrust_angles (lo_u out)) as [[[v al] be]|ex]; [|reflexivity]. cbn [bind].
  destruct (lo_psi out) as [c0 c1 c2]. unfold psi_in. rewrite !dot5_scaled. cbn [Rmap angles_in psi_in]. cbv zeta. f_equal. f_equal.
  destruct v as [x y z]. unfold dot3, v3scal. xnum. rewrite !(pl (u_acc u)) by exact B. rewrite !xs_mul by assumption.
  replace (T * T * T / L * u_acc u) with T by (unfold u_acc; field; lra). rewrite !xs_add. reflexivity.
Qed.

(** ** the dynamics *)
Definition prm_in (q : ode_params XNum) : ode_params XNum :=
  @mkparams XNum (xscale (L * L * L / (T * T)) (op_mu q)) (push_in u (op_u q)) (psi_in u (op_psi q)) (push_in u (op_ptrb q)).
Lemma pos_acc : 0 < u_acc u.
Proof. pose proof HL. pose proof HT. unfold u_acc. apply Rdiv_lt_0_compat; [|apply Rmult_lt_0_compat]; assumption. Qed.
Lemma push_add a b : v3add (N:=XNum) (push_in u a) (push_in u b) = push_in u (v3add (N:=XNum) a b).
Proof. destruct a, b. cbn [v3add push_in]. xnum. rewrite !xs_add. reflexivity. Qed.
Lemma dot3_scaled c d x y : 0 < c -> 0 < d -> dot3 (N:=XNum) (v3s c x) (v3s d y) = xscale (c * d) (dot3 (N:=XNum) x y).
Proof. intros. destruct x, y. unfold dot3, v3s. xnum. rewrite !xs_mul, !xs_add by assumption. reflexivity. Qed.
Lemma psi_dot_scaled psi r5 a : psi_dot (N:=XNum) (psi_in u psi) (v3s (T / L) r5) (push_in u a) = rate_in u (psi_dot (N:=XNum) psi r5 a).
Proof.
  pose proof HL. pose proof HT. pose proof pos_acc as PA. assert (PB : 0 < T / L) by (apply Rdiv_lt_0_compat; assumption).
  destruct psi as [[a0 a1 a2 a3 a4] [b0 b1 b2 b3 b4] [c0 c1 c2 c3 c4]]. unfold psi_in, col_in, psi_dot, rate_in.
  change (push_in u a) with (v3s (u_acc u) a).
  replace (L / T) with (T * u_acc u) by (unfold u_acc; field; lra). replace (/ T) with (T / L * u_acc u) by (unfold u_acc; field; lra).
  rewrite <- !dot3_scaled by assumption. reflexivity.
Qed.
Lemma add_rate_scaled d r : add_rate (N:=XNum) (rate_in u d) (xscale (/ T) r) = rate_in u (add_rate (N:=XNum) d r).
Proof.
  destruct d. unfold add_rate, rate_in, v6add. xnum. cbv beta. rewrite <- (xs_0 (L / T)) at 1. rewrite <- (xs_0 (/ T)) at 2 3 4 5.
  rewrite !xs_add. reflexivity.
Qed.
Lemma rmap_bind {A B C} (f : A -> B) (r : Res A) (k : B -> Res C) : bind (Rmap f r) k = bind r (fun x => k (f x)).
Proof. destruct r; reflexivity. Qed.
Lemma bind_rmap {A B C} (f : B -> C) (r : Res A) (k : A -> Res B) : Rmap f (bind r k) = bind r (fun x => Rmap f (k x)).
Proof. destruct r; reflexivity. Qed.
Lemma bind_ext {A B} (r : Res A) (k k' : A -> Res B) : (forall x, k x = k' x) -> bind r k = bind r k'.
Proof. intros H. destruct r; cbn; auto. Qed.
Lemma sqrt_scaled c d x : 0 < d -> c = d * d -> xsqrt (xscale c x) = xscale d (xsqrt x).
Proof. intros H ->. apply xs_sqrt. exact H. Qed.
Let LT2 : 0 < L * L / T. Proof. pose proof HL. pose proof HT. apply Rdiv_lt_0_compat; [apply Rmult_lt_0_compat|]; assumption. Qed.
Let MU : 0 < L * L * L / (T * T).
Proof. pose proof HL. pose proof HT. apply Rdiv_lt_0_compat; repeat apply Rmult_lt_0_compat; assumption. Qed.
Definition as_scale (c : R) (x x' : ereal) : Prop := x' = xscale c x.
Lemma kep_eom_scaled t t' st prm : eom_kep_gauss (N:=XNum) t' (oe_in u st) (prm_in prm) = Rmap (rate_in u) (eom_kep_gauss (N:=XNum) t st prm).
Proof.
  pose proof HL as PL. pose proof HT as PT. destruct st as [a e i ra om ta], prm as [mu v psi w0]. unfold eom_kep_gauss. cbn [oe_in prm_in op_mu op_u op_psi op_ptrb].
  cbv zeta. unfold sq. xnum. cbv beta.
  rewrite !(pl L a) by exact PL. rewrite !(pr (L * L * L / (T * T)) a), !xs_comp by exact MU. rewrite !(pl (L * (L * L * L / (T * T)))) by (apply Rmult_lt_0_compat; assumption).
  rewrite (sqrt_scaled (L * (L * L * L / (T * T))) (L * L / T)) by (try exact LT2; field; lra).
  set (X := xmul (xmul a mu) (xsub (Fin 1) (xmul e e))). rewrite !xs_mul by exact LT2. rewrite !(pl (L * L * L / (T * T)) mu) by exact MU.
  rewrite (jdiv_scaled (L * L / T * (L * L / T))) by (try exact MU; apply Rmult_lt_0_compat; assumption).
  replace (L * L / T * (L * L / T) / (L * L * L / (T * T))) with L by (field; lra).
  rewrite rmap_bind, bind_rmap. apply bind_ext. intros r. rewrite (pl L _ (xlift cos ta)) by exact PL. rewrite (pr (L * L / T) e) by exact LT2.
  rewrite (jdiv_scaled L (L * L / T)) by assumption. replace (L / (L * L / T)) with (T / L) by (field; lra).
  rewrite rmap_bind, bind_rmap. apply bind_ext. intros e0. rewrite xs_add, xs_opp, (pl L _ (xlift sin ta)) by exact PL.
  rewrite (jdiv_scaled L (L * L / T)) by assumption. replace (L / (L * L / T)) with (T / L) by (field; lra).
  rewrite rmap_bind, bind_rmap. apply bind_ext. intros e1. rewrite (xs_mul L L) by exact PL.
  rewrite (jdiv_scaled (L * L / T) (L * L)) by (try exact LT2; apply Rmult_lt_0_compat; assumption).
  replace (L * L / T / (L * L)) with (/ T) by (field; lra).
  rewrite rmap_bind, bind_rmap. apply bind_ext. intros rate. cbn [Rmap]. f_equal.
  rewrite push_add. rewrite <- (xs_0 (T / L)) at 1.
  change (@mk3 XNum (xscale (T / L) e0) (xscale (T / L) e1) (xscale (T / L) (Fin 0))) with (v3s (T / L) (@mk3 XNum e0 e1 (Fin 0))).
  rewrite psi_dot_scaled, add_rate_scaled. reflexivity.
Qed.
Lemma mee_eom_scaled t t' st prm : eom_mee_with_a_gauss (N:=XNum) t' (oe_in u st) (prm_in prm) = Rmap (rate_in u) (eom_mee_with_a_gauss (N:=XNum) t st prm).
Proof.
  pose proof HL as PL. pose proof HT as PT. destruct st as [a f g h k l], prm as [mu v psi w0]. unfold eom_mee_with_a_gauss. cbn [oe_in prm_in op_mu op_u op_psi op_ptrb].
  cbv zeta. unfold sq. xnum. cbv beta. rewrite bind_rmap. apply bind_ext. intros gf.
  rewrite !(pl L a) by exact PL. rewrite !(pr (L * L * L / (T * T)) a), !xs_comp by exact MU. rewrite !(pl (L * (L * L * L / (T * T)))) by (apply Rmult_lt_0_compat; assumption).
  rewrite (sqrt_scaled (L * (L * L * L / (T * T))) (L * L / T)) by (try exact LT2; field; lra).
  rewrite !xs_mul by assumption. rewrite !(pl (L * L * L / (T * T)) mu) by exact MU.
  rewrite (jdiv_scaled (L * L / T * (L * L / T))) by (try exact MU; apply Rmult_lt_0_compat; assumption).
  rewrite rmap_bind, bind_rmap. apply bind_ext. intros r. clear r.
  rewrite (jdiv_scaled L (L * L * L / (T * T))) by assumption. rewrite rmap_bind, bind_rmap. apply bind_ext. intros pmu.
  rewrite (sqrt_scaled (L / (L * L * L / (T * T))) (T / L)) by (try (apply Rdiv_lt_0_compat; assumption); field; lra).
  set (W := xadd (xadd (Fin 1) (xmul f (xlift cos l))) (xmul g (xlift sin l))).
  assert (PTL : 0 < T / L) by (apply Rdiv_lt_0_compat; assumption).
  rewrite <- (xs_1 W) at 1. rewrite (jdiv_scaled (T / L) 1) by lra. replace (T / L / 1) with (T / L) by (field; lra).
  rewrite rmap_bind, bind_rmap. apply bind_ext. intros sw.
  rewrite <- (xs_1 W) at 1. rewrite (jdiv_scaled 1 L) by lra. rewrite rmap_bind, bind_rmap. apply bind_ext. intros wp.
  cbn [Rmap]. f_equal. rewrite push_add. rewrite (pl (T / L) sw) by exact PTL.
  rewrite <- (xs_0 (T / L)) at 1 2.
  rewrite (sqrt_scaled (L * L * L / (T * T) * L) (L * L / T)) by (try exact LT2; field; lra).
  assert (P1 : 0 < 1 / L) by (apply Rdiv_lt_0_compat; lra).
  rewrite (xs_mul (1 / L) (1 / L)) by exact P1. rewrite (xs_mul (L * L / T)) by (try exact LT2; apply Rmult_lt_0_compat; exact P1).
  replace (L * L / T * (1 / L * (1 / L))) with (/ T) by (field; lra).
  match goal with |- context [psi_dot _ (mk3 (xscale ?c ?x) (xscale _ ?y) (xscale _ ?z)) _] =>
    change (@mk3 XNum (xscale c x) (xscale c y) (xscale c z)) with (v3s c (@mk3 XNum x y z)) end.
  rewrite psi_dot_scaled, add_rate_scaled. reflexivity.
Qed.
(** ** rk4 *)
Lemma half : 0 < 1. Proof. lra. Qed.
Lemma oe_step h k : v6scal (N:=XNum) (xscale T h) (rate_in u k) = oe_in u (v6scal (N:=XNum) h k).
Proof.
  pose proof HL as PL. pose proof HT as PT. assert (0 < L / T) by (apply Rdiv_lt_0_compat; assumption). assert (0 < / T) by (apply Rinv_0_lt_compat; assumption).
  destruct k. cbn [v6scal rate_in oe_in]. xnum. rewrite !xs_mul by assumption.
  replace (T * (L / T)) with L by (field; lra). replace (T * / T) with 1 by (field; lra). rewrite !xs_1. reflexivity.
Qed.
Lemma oe_add y z : v6add (N:=XNum) (oe_in u y) (oe_in u z) = oe_in u (v6add (N:=XNum) y z).
Proof. destruct y, z. cbn [v6add oe_in]. xnum. rewrite !xs_add. reflexivity. Qed.
Lemma rate_add y z : v6add (N:=XNum) (rate_in u y) (rate_in u z) = rate_in u (v6add (N:=XNum) y z).
Proof. destruct y, z. cbn [v6add rate_in]. xnum. rewrite !xs_add. reflexivity. Qed.
Lemma rate_mul c y : v6scal (N:=XNum) c (rate_in u y) = rate_in u (v6scal (N:=XNum) c y).
Proof.
  pose proof HL as PL. pose proof HT as PT. assert (0 < L / T) by (apply Rdiv_lt_0_compat; assumption). assert (0 < / T) by (apply Rinv_0_lt_compat; assumption).
  destruct y. cbn [v6scal rate_in]. xnum. rewrite !pr by assumption. reflexivity.
Qed.
Lemma rk4_scaled (f : eom_fn (N:=XNum)) t t' h y prm :
  (forall t t' st prm, f t' (oe_in u st) (prm_in prm) = Rmap (rate_in u) (f t st prm)) ->
  rk4 (N:=XNum) f t' (xscale T h) (oe_in u y) (prm_in prm) = Rmap (oe_in u) (rk4 (N:=XNum) f t h y prm).
Proof.
  intros Hf. pose proof HT as PT. unfold rk4. xnum. rewrite !(pl T h) by exact PT. rewrite (dl T h) by exact PT.
  rewrite (Hf t). rewrite rmap_bind, bind_rmap. apply bind_ext. intros k1. rewrite oe_step, oe_add.
  rewrite (Hf (xadd t (xmul (@dec XNum 5 1) h))). rewrite rmap_bind, bind_rmap. apply bind_ext. intros k2. rewrite oe_step, oe_add.
  rewrite (Hf (xadd t (xmul (@dec XNum 5 1) h))). rewrite rmap_bind, bind_rmap. apply bind_ext. intros k3. rewrite oe_step, oe_add.
  rewrite (Hf (xadd t h)). rewrite rmap_bind, bind_rmap. apply bind_ext. intros k4.
  rewrite !rate_mul, !rate_add, oe_step, oe_add. reflexivity.
Qed.
End Scale.
Lemma kep_dims : dims_ok SymKep.psi SymKep.q = true.
Proof. vm_compute. reflexivity. Qed.
Lemma mee_dims : dims_ok SymMee.psi SymMee.q = true.
Proof. vm_compute. reflexivity. Qed.
