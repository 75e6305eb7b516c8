(** Dimensional analysis of the symbolic expressions. *)
From Coq Require Import Reals Lra Lia ZArith List Bool.
From Verif Require Import RMath RLib Num Base Lyapunov Symbolic SymKep SymMee Qlaw NanProofs ScaleSpec.
Import ListNotations.
Local Open Scope R_scope.

Ltac xcase := unfold xscale, xsgn, xinf, xopp, xadd, xsub, xmul, xdiv, xabs, xltb, xeqb, xleb in *;
  repeat match goal with
  | |- context [Rltb ?a ?b] => destruct (Rltb_spec a b)
  | |- context [Reqb ?a ?b] => destruct (Reqb_spec a b)
  end; try reflexivity; try (exfalso; nra); try (f_equal; ring).

Lemma xs_1 x : xscale 1 x = x.
Proof. destruct x; cbn; auto. f_equal. ring. Qed.
Lemma xs_comp c d x : xscale c (xscale d x) = xscale (c * d) x.
Proof. destruct x; cbn; auto. f_equal. ring. Qed.
Lemma xs_inv c x : c <> 0 -> xscale (/ c) (xscale c x) = x.
Proof. intros H. rewrite xs_comp. replace (/ c * c) with 1 by (field; exact H). apply xs_1. Qed.
Lemma xs_sgn c x : 0 < c -> xsgn (xscale c x) = xsgn x.
Proof. intros H. destruct x; auto. xcase. Qed.
Lemma xs_xinf c s : xscale c (xinf s) = xinf s.
Proof. unfold xinf. destruct (Rltb s 0), (Rltb 0 s); reflexivity. Qed.
Lemma xs_mul c d x y : 0 < c -> 0 < d -> xmul (xscale c x) (xscale d y) = xscale (c * d) (xmul x y).
Proof.
  intros Hc Hd. pose proof (xs_sgn c x Hc) as Sx. pose proof (xs_sgn d y Hd) as Sy.
  destruct x as [x| | |], y as [y| | |]; try reflexivity; try (cbn; f_equal; ring); cbn [xmul xscale] in *;
  rewrite ?xs_xinf; f_equal; cbn [xscale] in Sx, Sy; rewrite ?Sx, ?Sy; reflexivity.
Qed.
Lemma xs_div c d x y : 0 < c -> 0 < d -> xdiv (xscale c x) (xscale d y) = xscale (c / d) (xdiv x y).
Proof.
  intros Hc Hd. pose proof (xs_sgn c x Hc) as Sx. pose proof (xs_sgn d y Hd) as Sy.
  destruct x as [x| | |], y as [y| | |]; try reflexivity; cbn [xdiv xscale] in *.
  - destruct (Reqb_spec (d * y) 0) as [E|E], (Reqb_spec y 0) as [F|F]; try (exfalso; nra).
    + rewrite xs_xinf, Sx. reflexivity.
    + cbn. f_equal. field. split; lra.
  - f_equal. ring.
  - f_equal. ring.
  - destruct (Reqb_spec (d * y) 0) as [E|E], (Reqb_spec y 0) as [F|F]; try (exfalso; nra); auto.
    rewrite xs_xinf, Sy. reflexivity.
  - destruct (Reqb_spec (d * y) 0) as [E|E], (Reqb_spec y 0) as [F|F]; try (exfalso; nra); auto.
    rewrite xs_xinf, Sy. reflexivity.
Qed.
Lemma xs_opp c x : xopp (xscale c x) = xscale c (xopp x).
Proof. destruct x; cbn; auto. f_equal. ring. Qed.
Lemma xs_add c x y : xadd (xscale c x) (xscale c y) = xscale c (xadd x y).
Proof. destruct x, y; cbn; auto. f_equal. ring. Qed.
Lemma xs_sub c x y : xsub (xscale c x) (xscale c y) = xscale c (xsub x y).
Proof. destruct x, y; cbn; auto. f_equal. ring. Qed.
Lemma xs_abs c x : 0 < c -> xabs (xscale c x) = xscale c (xabs x).
Proof. intros H. destruct x; cbn; auto. rewrite Rabs_mult, (Rabs_right c) by lra. reflexivity. Qed.
Lemma xs_sqrt c x : 0 < c -> xsqrt (xscale (c * c) x) = xscale c (xsqrt x).
Proof.
  intros H. destruct x as [x| | |]; auto. cbn [xsqrt xscale].
  destruct (Rltb_spec (c * c * x) 0) as [A|A], (Rltb_spec x 0) as [B|B]; auto; try apply Rnot_lt_le in A; try apply Rnot_lt_le in B;
  assert (0 < c * c) by nra; try (exfalso; nra).
  cbn. f_equal. rewrite (sqrt_mult (c * c) x) by nra. rewrite sqrt_square by lra. reflexivity.
Qed.
Lemma xs_ltb c x y : 0 < c -> xltb (xscale c x) (xscale c y) = xltb x y.
Proof. intros H. destruct x, y; auto. xcase. Qed.
Lemma xs_eqb c x y : 0 < c -> xeqb (xscale c x) (xscale c y) = xeqb x y.
Proof. intros H. destruct x, y; auto. xcase. Qed.
Lemma xs_leb c x y : 0 < c -> xleb (xscale c x) (xscale c y) = xleb x y.
Proof. intros H. unfold xleb. rewrite xs_ltb, xs_eqb by exact H. reflexivity. Qed.
Lemma xs_0 c : xscale c (Fin 0) = Fin 0.
Proof. cbn. f_equal. ring. Qed.
Lemma xs_isnan c x : xisnan (xscale c x) = xisnan x.
Proof. destruct x; reflexivity. Qed.
Lemma atan2_scale_eq k y x : 0 < k -> Ratan2 (k * y) (k * x) = Ratan2 y x.
Proof.
  intros H. unfold Ratan2.
  assert (E : x <> 0 -> k * y / (k * x) = y / x) by (intros; field; split; lra).
  destruct (Rltb_spec 0 (k * x)), (Rltb_spec 0 x); try (exfalso; nra); [rewrite E by lra; reflexivity|].
  destruct (Rltb_spec (k * x) 0), (Rltb_spec x 0); try (exfalso; nra).
  - destruct (Rltb_spec (k * y) 0), (Rltb_spec y 0); try (exfalso; nra); rewrite E by lra; reflexivity.
  - destruct (Rltb_spec 0 (k * y)), (Rltb_spec 0 y); try (exfalso; nra); auto.
    destruct (Rltb_spec (k * y) 0), (Rltb_spec y 0); try (exfalso; nra); auto.
Qed.
Lemma xs_atan2 c y x : 0 < c -> xatan2 (xscale c y) (xscale c x) = xatan2 y x.
Proof. intros H. destruct y, x; auto. cbn. rewrite atan2_scale_eq by exact H. reflexivity. Qed.

(** ** Types: a zero of any dimension, or a dimension (exponents of the square roots of the units) *)
Inductive ty : Type := TZero | TDim (l t : Z).
Definition dim_var (v : var) : ty :=
  match v with
  | Vmu => TDim 6 (-4) | Vacc => TDim 2 (-4) | Vrpmin => TDim 2 0 | Voe0 => TDim 2 0 | VT0 => TDim 2 0
  | _ => TDim 0 0
  end.
Definition ty_add (a b : option ty) : option ty :=
  match a, b with
  | Some TZero, Some x | Some x, Some TZero => Some x
  | Some (TDim l t), Some (TDim l' t') => if (Z.eqb l l' && Z.eqb t t')%bool then Some (TDim l t) else None
  | _, _ => None
  end.
Definition ty_mul (a b : option ty) : option ty :=
  match a, b with
  | Some TZero, Some _ | Some _, Some TZero => Some TZero
  | Some (TDim l t), Some (TDim l' t') => Some (TDim (l + l') (t + t'))
  | _, _ => None
  end.
Definition ty_div (a b : option ty) : option ty :=
  match a, b with
  | Some TZero, Some (TDim _ _) => Some TZero
  | Some (TDim l t), Some (TDim l' t') => Some (TDim (l - l') (t - t'))
  | _, _ => None
  end.
Definition ty_sqrt (a : option ty) : option ty :=
  match a with
  | Some (TDim l t) => if (Z.even l && Z.even t)%bool then Some (TDim (Z.div2 l) (Z.div2 t)) else None
  | _ => None
  end.
Definition ty_none (a : option ty) : option ty := match a with Some (TDim Z0 Z0) => Some (TDim 0 0) | Some TZero => Some (TDim 0 0) | _ => None end.
(** [dv] gives the dimension of every symbol *)
Fixpoint dim_by (dv : var -> ty) (e : expr) {struct e} : option ty :=
  match e with
  | EVar v => Some (dv v)
  | ERat p q => if Z.eqb q 0 then None else if Z.eqb p 0 then Some TZero else Some (TDim 0 0)
  | EAdd a b | ESub a b => ty_add (dim_by dv a) (dim_by dv b)
  | EMul a b => ty_mul (dim_by dv a) (dim_by dv b)
  | EDiv a b => ty_div (dim_by dv a) (dim_by dv b)
  | EOpp a => dim_by dv a
  | ESqrt a => ty_sqrt (dim_by dv a)
  | ESin a | ECos a | EAcos a | EAtan a | EExp a => ty_none (dim_by dv a)
  | ESq a => let d := dim_by dv a in ty_mul d d
  | ECube a => let d := dim_by dv a in ty_mul (ty_mul d d) d
  | EPow a b => match ty_none (dim_by dv a), ty_none (dim_by dv b) with Some _, Some _ => Some (TDim 0 0) | _, _ => None end
  end.
Definition dim : expr -> option ty := dim_by dim_var.

Section Sound.
Variables s w : R.
Hypothesis Hs : 0 < s.
Hypothesis Hw : 0 < w.
(** conversion factor of a dimension; [s] and [w] are the square roots of the units of length and time *)
Definition factor (l t : Z) : R := powerRZ s l * powerRZ w t.
Lemma factor_pos l t : 0 < factor l t.
Proof. apply Rmult_lt_0_compat; apply powerRZ_lt; assumption. Qed.
Lemma factor_0 : factor 0 0 = 1.
Proof. unfold factor. cbn. ring. Qed.
Lemma factor_mul l t l' t' : factor l t * factor l' t' = factor (l + l') (t + t').
Proof. unfold factor. rewrite !powerRZ_add by lra. ring. Qed.
Lemma factor_div l t l' t' : factor l t / factor l' t' = factor (l - l') (t - t').
Proof.
  pose proof (factor_pos l' t'). apply Rmult_eq_reg_r with (factor l' t'); [|lra].
  rewrite factor_mul. replace (l - l' + l')%Z with l by lia. replace (t - t' + t')%Z with t by lia. field. lra.
Qed.
Definition typed (d : ty) (v v' : ereal) : Prop :=
  match d with TZero => v' = v /\ (v = Fin 0 \/ v = NaN) | TDim l t => v' = xscale (factor l t) v end.
Definition otyped (d : option ty) (v v' : ereal) : Prop := forall x, d = Some x -> typed x v v'.

Lemma typed_zero v v' c : typed TZero v v' -> v' = xscale c v.
Proof. intros [-> [-> | ->]]; [rewrite xs_0|]; reflexivity. Qed.
Lemma typed_none d v v' : otyped d v v' -> ty_none d <> None -> v' = v.
Proof.
  intros H N. destruct d as [[|[|l|l] [|t|t]]|]; cbn in N; try congruence.
  - exact (proj1 (H _ eq_refl)).
  - specialize (H _ eq_refl). cbn [typed] in H. rewrite factor_0, xs_1 in H. exact H.
Qed.
Lemma typed_same d v : otyped (ty_none d) v v.
Proof.
  intros x E. destruct d as [[|[|l|l] [|t|t]]|]; cbn in E; try discriminate; injection E as <-; cbn [typed]; rewrite factor_0, xs_1; reflexivity.
Qed.
Lemma zero_add v x c : v = Fin 0 \/ v = NaN -> xadd v (xscale c x) = xscale c (xadd v x).
Proof. intros [-> | ->]; destruct x; cbn; auto. f_equal. ring. Qed.
Lemma add_zero v x c : v = Fin 0 \/ v = NaN -> xadd (xscale c x) v = xscale c (xadd x v).
Proof. intros [-> | ->]; destruct x; cbn; auto. f_equal. ring. Qed.
Lemma zero_sub v x c : v = Fin 0 \/ v = NaN -> xsub v (xscale c x) = xscale c (xsub v x).
Proof. intros [-> | ->]; destruct x; cbn; auto. f_equal. ring. Qed.
Lemma sub_zero v x c : v = Fin 0 \/ v = NaN -> xsub (xscale c x) v = xscale c (xsub x v).
Proof. intros [-> | ->]; destruct x; cbn; auto. f_equal. ring. Qed.
Lemma zz_add v x : v = Fin 0 \/ v = NaN -> x = Fin 0 \/ x = NaN -> xadd v x = Fin 0 \/ xadd v x = NaN.
Proof. intros [-> | ->] [-> | ->]; cbn; auto. left. f_equal. ring. Qed.
Lemma zz_sub v x : v = Fin 0 \/ v = NaN -> x = Fin 0 \/ x = NaN -> xsub v x = Fin 0 \/ xsub v x = NaN.
Proof. intros [-> | ->] [-> | ->]; cbn; auto. left. f_equal. ring. Qed.
Lemma xinf_0 x : x = 0 -> xinf x = NaN.
Proof. intros ->. unfold xinf. rewrite (proj2 (Rltb_false 0 0)) by lra. reflexivity. Qed.
Lemma sgn_0 : xsgn (Fin 0) = 0.
Proof. cbn. rewrite (proj2 (Rltb_false 0 0)) by lra. reflexivity. Qed.
Lemma zero_mul x : xmul (Fin 0) x = Fin 0 \/ xmul (Fin 0) x = NaN.
Proof. destruct x; cbn [xmul]; auto; [left; f_equal; ring| |]; right; apply xinf_0; rewrite sgn_0; ring. Qed.
Lemma mul_zero x : xmul x (Fin 0) = Fin 0 \/ xmul x (Fin 0) = NaN.
Proof. destruct x; cbn [xmul]; auto; [left; f_equal; ring| |]; right; apply xinf_0; rewrite sgn_0; ring. Qed.
Lemma zero_div x : xdiv (Fin 0) x = Fin 0 \/ xdiv (Fin 0) x = NaN.
Proof.
  destruct x; cbn [xdiv]; auto. destruct (Reqb r 0); [right; apply xinf_0; apply sgn_0|left; f_equal; unfold Rdiv; ring].
Qed.

Lemma typed_add a b v v' x x' : otyped a v v' -> otyped b x x' -> otyped (ty_add a b) (xadd v x) (xadd v' x').
Proof.
  intros Ha Hb d E. destruct a as [a|]; [|discriminate]. destruct b as [b|]; [|destruct a; discriminate].
  specialize (Ha _ eq_refl). specialize (Hb _ eq_refl). destruct a as [|l t], b as [|l' t']; cbn in E.
  - injection E as <-. cbn in *. destruct Ha as [-> Za], Hb as [-> Zb]. split; [reflexivity|]. apply zz_add; assumption.
  - injection E as <-. cbn [typed] in *. destruct Ha as [-> Za]. rewrite Hb. apply zero_add. exact Za.
  - injection E as <-. cbn [typed] in *. destruct Hb as [-> Zb]. rewrite Ha. apply add_zero. exact Zb.
  - destruct (Z.eqb l l' && Z.eqb t t')%bool eqn:F; [|discriminate]. injection E as <-.
    apply andb_true_iff in F. destruct F as [F G]. apply Z.eqb_eq in F. apply Z.eqb_eq in G. subst l' t'.
    cbn [typed] in *. rewrite Ha, Hb. apply xs_add.
Qed.
Lemma typed_sub a b v v' x x' : otyped a v v' -> otyped b x x' -> otyped (ty_add a b) (xsub v x) (xsub v' x').
Proof.
  intros Ha Hb d E. destruct a as [a|]; [|discriminate]. destruct b as [b|]; [|destruct a; discriminate].
  specialize (Ha _ eq_refl). specialize (Hb _ eq_refl). destruct a as [|l t], b as [|l' t']; cbn in E.
  - injection E as <-. cbn in *. destruct Ha as [-> Za], Hb as [-> Zb]. split; [reflexivity|]. apply zz_sub; assumption.
  - injection E as <-. cbn [typed] in *. destruct Ha as [-> Za]. rewrite Hb. apply zero_sub. exact Za.
  - injection E as <-. cbn [typed] in *. destruct Hb as [-> Zb]. rewrite Ha. apply sub_zero. exact Zb.
  - destruct (Z.eqb l l' && Z.eqb t t')%bool eqn:F; [|discriminate]. injection E as <-.
    apply andb_true_iff in F. destruct F as [F G]. apply Z.eqb_eq in F. apply Z.eqb_eq in G. subst l' t'.
    cbn [typed] in *. rewrite Ha, Hb. apply xs_sub.
Qed.
Lemma typed_mul a b v v' x x' : otyped a v v' -> otyped b x x' -> otyped (ty_mul a b) (xmul v x) (xmul v' x').
Proof.
  intros Ha Hb d E. destruct a as [a|]; [|discriminate]. destruct b as [b|]; [|destruct a; discriminate].
  specialize (Ha _ eq_refl). specialize (Hb _ eq_refl).
  assert (Z1 : forall c : R, 0 < c -> v = Fin 0 \/ v = NaN -> xmul v (xscale c x) = xmul v x /\ (xmul v x = Fin 0 \/ xmul v x = NaN)).
  { intros c Hc [-> | ->].
    - split; [|apply zero_mul]. rewrite <- (xs_1 (Fin 0)) at 1. rewrite xs_mul by lra.
      destruct (zero_mul x) as [F|F]; rewrite F; [apply xs_0|reflexivity].
    - rewrite !nan_mul_l. auto. }
  assert (Z2 : forall c : R, 0 < c -> x = Fin 0 \/ x = NaN -> xmul (xscale c v) x = xmul v x /\ (xmul v x = Fin 0 \/ xmul v x = NaN)).
  { intros c Hc [-> | ->].
    - split; [|apply mul_zero]. rewrite <- (xs_1 (Fin 0)) at 1. rewrite xs_mul by lra.
      destruct (mul_zero v) as [F|F]; rewrite F; [apply xs_0|reflexivity].
    - rewrite !nan_mul_r. auto. }
  destruct a as [|l t], b as [|l' t']; cbn in E; injection E as <-; cbn [typed] in *.
  - destruct Ha as [-> Za], Hb as [-> Zb]. specialize (Z1 1 ltac:(lra) Za). rewrite xs_1 in Z1. exact Z1.
  - destruct Ha as [-> Za]. rewrite Hb. apply Z1; [apply factor_pos|exact Za].
  - destruct Hb as [-> Zb]. rewrite Ha. apply Z2; [apply factor_pos|exact Zb].
  - rewrite Ha, Hb, xs_mul, factor_mul by apply factor_pos. reflexivity.
Qed.
Lemma typed_div a b v v' x x' : otyped a v v' -> otyped b x x' -> otyped (ty_div a b) (xdiv v x) (xdiv v' x').
Proof.
  intros Ha Hb d E. destruct a as [a|]; [|discriminate]. destruct b as [b|]; [|destruct a; discriminate].
  specialize (Ha _ eq_refl). specialize (Hb _ eq_refl).
  destruct a as [|l t], b as [|l' t']; cbn in E; try discriminate; injection E as <-; cbn [typed] in *.
  - destruct Ha as [-> Za]. rewrite Hb. pose proof (factor_pos l' t') as Hf. destruct Za as [-> | ->].
    + split; [|apply zero_div]. rewrite <- (xs_1 (Fin 0)) at 1. rewrite xs_div by lra.
      destruct (zero_div x) as [F|F]; rewrite F; [apply xs_0|reflexivity].
    + rewrite !nan_div_l. auto.
  - rewrite Ha, Hb, xs_div, factor_div by apply factor_pos. reflexivity.
Qed.
Lemma typed_sqrt a v v' : otyped a v v' -> otyped (ty_sqrt a) (xsqrt v) (xsqrt v').
Proof.
  intros Ha d E. destruct a as [[|l t]|]; try discriminate. cbn in E.
  destruct (Z.even l && Z.even t)%bool eqn:F; [|discriminate]. injection E as <-. apply andb_true_iff in F. destruct F as [F G].
  specialize (Ha _ eq_refl). cbn [typed] in *. rewrite Ha.
  pose proof (Z.div2_odd l) as L. pose proof (Z.div2_odd t) as T. rewrite <- Z.negb_even, F in L. rewrite <- Z.negb_even, G in T. cbn [negb Z.b2z] in L, T.
  replace (factor l t) with (factor (Z.div2 l) (Z.div2 t) * factor (Z.div2 l) (Z.div2 t)) by (rewrite factor_mul; f_equal; lia).
  apply xs_sqrt. apply factor_pos.
Qed.

Variable dv : var -> ty.
Variables env env' : var -> ereal.
Hypothesis Henv : forall v, typed (dv v) (env v) (env' v).
Lemma dim_sound e : otyped (dim_by dv e) (eval (N:=XNum) env e) (eval (N:=XNum) env' e).
Proof.
  induction e; cbn [dim_by eval].
  - intros d E. injection E as <-. apply Henv.
  - intros d E. destruct (Z.eqb_spec q 0) as [->|Q]; [discriminate|]. destruct (Z.eqb_spec p 0) as [->|P]; injection E as <-; cbn [typed].
    + split; [reflexivity|]. left. destruct (Z.eqb q 1); [reflexivity|]. cbn [ndiv nofZ XNum xdiv].
      rewrite (proj2 (Reqb_false _ _)) by (apply IZR_neq; exact Q). f_equal. unfold Rdiv. ring.
    + rewrite factor_0, xs_1. reflexivity.
  - apply typed_add; assumption.
  - apply typed_sub; assumption.
  - apply typed_mul; assumption.
  - apply typed_div; assumption.
  - intros d E. specialize (IHe _ E). destruct d; cbn [typed] in *.
    + destruct IHe as [-> [-> | ->]]; split; auto; cbn; auto. left. f_equal. ring.
    + rewrite IHe. apply xs_opp.
  - apply typed_sqrt; assumption.
  - intros d E. rewrite (typed_none _ _ _ IHe) by congruence. exact (typed_same _ _ d E).
  - intros d E. rewrite (typed_none _ _ _ IHe) by congruence. exact (typed_same _ _ d E).
  - intros d E. rewrite (typed_none _ _ _ IHe) by congruence. exact (typed_same _ _ d E).
  - intros d E. rewrite (typed_none _ _ _ IHe) by congruence. exact (typed_same _ _ d E).
  - intros d E. rewrite (typed_none _ _ _ IHe) by congruence. exact (typed_same _ _ d E).
  - unfold sq. apply typed_mul; assumption.
  - unfold cube. apply typed_mul; [apply typed_mul|]; assumption.
  - intros d E. destruct (ty_none (dim_by dv e1)) eqn:N1; [|discriminate]. destruct (ty_none (dim_by dv e2)) eqn:N2; [|discriminate].
    injection E as <-. rewrite (typed_none _ _ _ IHe1), (typed_none _ _ _ IHe2) by congruence.
    cbn [typed]. rewrite factor_0, xs_1. reflexivity.
Qed.
Lemma dim_as l t e : dim_by dv e = Some (TDim l t) -> eval (N:=XNum) env' e = xscale (factor l t) (eval (N:=XNum) env e).
Proof. intros H. exact (dim_sound e _ H). Qed.
Lemma dim_zero_as c e : dim_by dv e = Some TZero -> eval (N:=XNum) env' e = xscale c (eval (N:=XNum) env e).
Proof. intros H. apply typed_zero. exact (dim_sound e _ H). Qed.
End Sound.
