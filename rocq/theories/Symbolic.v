(** Model of pyqlaw/_symbolic.py: a small expression language standing for sympy expressions, its
    evaluation (lambdify with "numpy"; cse does not change values), symbolic differentiation
    (sym.diff) and the two Q-law expressions.

    sympy's own automatic rewriting (collecting powers, 0.0*x -> 0, ...) is not modelled.  Over the
    reals it is the identity at points where the expressions are defined; section 4 of DESIGN.md says
    what the theorems over the extended reals assume about the other points. *)
From Coq Require Import ZArith List Bool.
From Verif Require Import Num Base Lyapunov.
Import ListNotations.

(** The sympy symbols of _symbolic.py:17-32 and 198-213. *)
Inductive var : Type :=
| Vmu | Vacc | Vrpmin | Vm | Vn | Vr | Vb | Vk | Vwp
| Voe0 | Voe1 | Voe2 | Voe3 | Voe4 | Voe5
| VT0 | VT1 | VT2 | VT3 | VT4
| VW0 | VW1 | VW2 | VW3 | VW4.

Definition var_eq_dec (x y : var) : {x = y} + {x <> y}.
Proof. decide equality. Defined.

Inductive expr : Type :=
| EVar (v : var)
| ERat (p q : Z)                 (* numeric literal p/q *)
| EAdd (a b : expr) | ESub (a b : expr) | EMul (a b : expr) | EDiv (a b : expr)
| EOpp (a : expr)
| ESqrt (a : expr) | ESin (a : expr) | ECos (a : expr) | EAcos (a : expr) | EAtan (a : expr)
| EExp (a : expr)
| ESq (a : expr) | ECube (a : expr)     (* a**2, a**3 *)
| EPow (a b : expr).                    (* a**b, b free of the element symbols *)

Section Eval.
Context {N : Num}.
Local Open Scope num_scope.
(** lambdify(..., "numpy"): evaluate with numpy functions *)
Fixpoint eval (env : var -> car) (e : expr) : car :=
  match e with
  | EVar v => env v
  | ERat p q => if Z.eqb q 1 then nofZ p else nofZ p / nofZ q
  | EAdd a b => eval env a + eval env b
  | ESub a b => eval env a - eval env b
  | EMul a b => eval env a * eval env b
  | EDiv a b => eval env a / eval env b
  | EOpp a => - eval env a
  | ESqrt a => nsqrt (eval env a)
  | ESin a => nsin (eval env a)
  | ECos a => ncos (eval env a)
  | EAcos a => nacos (eval env a)
  | EAtan a => natan (eval env a)
  | EExp a => nexp (eval env a)
  | ESq a => sq (eval env a)
  | ECube a => cube (eval env a)
  | EPow a b => npow (eval env a) (eval env b)
  end.
End Eval.

Definition EInt (z : Z) : expr := ERat z 1.

(** sym.diff(e, x).  Exponents of [EPow] are treated as constants, which holds for every use in
    _symbolic.py (1/3, n_petro, 1/r_petro); the rule is sympy's Pow._eval_derivative,
    (a**b)*(b*a'/a), which divides by the base. *)
Fixpoint diff (x : var) (e : expr) : expr :=
  match e with
  | EVar v => if var_eq_dec v x then EInt 1 else EInt 0
  | ERat _ _ => EInt 0
  | EAdd a b => EAdd (diff x a) (diff x b)
  | ESub a b => ESub (diff x a) (diff x b)
  | EMul a b => EAdd (EMul (diff x a) b) (EMul a (diff x b))
  | EDiv a b => EDiv (ESub (EMul (diff x a) b) (EMul a (diff x b))) (ESq b)
  | EOpp a => EOpp (diff x a)
  | ESqrt a => EDiv (diff x a) (EMul (EInt 2) (ESqrt a))
  | ESin a => EMul (ECos a) (diff x a)
  | ECos a => EOpp (EMul (ESin a) (diff x a))
  | EAcos a => EOpp (EDiv (diff x a) (ESqrt (ESub (EInt 1) (ESq a))))
  | EAtan a => EDiv (diff x a) (EAdd (EInt 1) (ESq a))
  | EExp a => EMul (EExp a) (diff x a)
  | ESq a => EMul (EMul (EInt 2) a) (diff x a)
  | ECube a => EMul (EMul (EInt 3) (ESq a)) (diff x a)
  | EPow a b => EMul (EPow a b) (EDiv (EMul (diff x a) b) a)
  end.

Declare Scope expr_scope.
Delimit Scope expr_scope with expr.
Bind Scope expr_scope with expr.
Notation "a + b" := (EAdd a b) : expr_scope.
Notation "a - b" := (ESub a b) : expr_scope.
Notation "a * b" := (EMul a b) : expr_scope.
Notation "a / b" := (EDiv a b) : expr_scope.
Notation "- a" := (EOpp a) : expr_scope.
Notation "a ^2" := (ESq a) (at level 1, format "a ^2") : expr_scope.
Notation "a ^3" := (ECube a) (at level 1, format "a ^3") : expr_scope.
Notation "# z" := (EInt z%Z) (at level 1, format "# z") : expr_scope.
Local Open Scope expr_scope.

Definition Emu := EVar Vmu.       Definition Eacc := EVar Vacc.
Definition Erpmin := EVar Vrpmin. Definition Em := EVar Vm.
Definition En := EVar Vn.         Definition Er := EVar Vr.
Definition Eb := EVar Vb.         Definition Ek := EVar Vk.
Definition Ewp := EVar Vwp.

(** ** The part shared by both builders (_symbolic.py:135-156, 309-361) *)
Definition oe_vars : list var := [Voe0; Voe1; Voe2; Voe3; Voe4].
Definition dqdoe (q : expr) : list expr := map (fun v => diff v q) oe_vars.
(** psi[j][0]*dqdoe0 + ... + psi[j][4]*dqdoe4 *)
Definition edot5 (c d : list expr) : expr :=
  match c, d with
  | [c0; c1; c2; c3; c4], [d0; d1; d2; d3; d4] => c0 * d0 + c1 * d1 + c2 * d2 + c3 * d3 + c4 * d4
  | _, _ => #0
  end.
Definition usym (psi : list (list expr)) (q : expr) : list expr :=
  map (fun c => edot5 c (dqdoe q)) psi.
(** lines 146-156 / 351-361 *)
Definition dqdt_expr (psi : list (list expr)) (q : expr) : expr :=
  match usym psi q, psi, dqdoe q with
  | [ux; uy; uz], [[p00; p01; p02; p03; p04]; [p10; p11; p12; p13; p14]; [p20; p21; p22; p23; p24]],
    [d0; d1; d2; d3; d4] =>
      let umag := ESqrt (ux^2 + uy^2 + uz^2) in
      let vx := ux / umag in let vy := uy / umag in let vz := uz / umag in
      Eacc * (d0 * (p00 * vx + p10 * vy + p20 * vz) + d1 * (p01 * vx + p11 * vy + p21 * vz)
              + d2 * (p02 * vx + p12 * vy + p22 * vz) + d3 * (p03 * vx + p13 * vy + p23 * vz)
              + d4 * (p04 * vx + p14 * vy + p24 * vz))
  | _, _, _ => #0
  end.

Section Lambdified.
Context {N : Num}.

(** Argument binding of the lambdified functions (_symbolic.py:159, 364).  [oeT] is unpacked into
    five names: ValueError otherwise. *)
Definition mkenv (mu f : car) (oe : vec6 N) (oeT : vec5 N) (rpmin m n r b k wp : car) (woe : vec5 N)
  (v : var) : car :=
  match v with
  | Vmu => mu | Vacc => f | Vrpmin => rpmin | Vm => m | Vn => n | Vr => r | Vb => b | Vk => k
  | Vwp => wp
  | Voe0 => v6_0 oe | Voe1 => v6_1 oe | Voe2 => v6_2 oe
  | Voe3 => v6_3 oe | Voe4 => v6_4 oe | Voe5 => v6_5 oe
  | VT0 => v5_0 oeT | VT1 => v5_1 oeT | VT2 => v5_2 oeT | VT3 => v5_3 oeT | VT4 => v5_4 oeT
  | VW0 => v5_0 woe | VW1 => v5_1 woe | VW2 => v5_2 woe | VW3 => v5_3 woe | VW4 => v5_4 woe
  end.

Definition eval3 (env : var -> car) (l : list expr) : vec3 N :=
  match l with [x; y; z] => mk3 (eval env x) (eval env y) (eval env z) | _ => v3zero end.
Definition eval5 (env : var -> car) (l : list expr) : vec5 N :=
  match l with
  | [a; b; c; d; e] => mk5 (eval env a) (eval env b) (eval env c) (eval env d) (eval env e)
  | _ => mk5 (nofZ 0) (nofZ 0) (nofZ 0) (nofZ 0) (nofZ 0)
  end.
Definition evalpsi (env : var -> car) (l : list (list expr)) : psi_t N :=
  match l with
  | [c0; c1; c2] => mkpsi (eval5 env c0) (eval5 env c1) (eval5 env c2)
  | _ => mkpsi (eval5 env []) (eval5 env []) (eval5 env [])
  end.

(** fun_lyapunov_control, _symbolic.py:158-163 / 363-368 *)
Definition lyap_of (psi : list (list expr)) (q : expr) : lyap_fn N :=
  fun mu f oe oeT rpmin m n r b k wp woe =>
    match list_to_vec5 oeT with
    | None => Err ValueError
    | Some T =>
        let env := mkenv mu f oe T rpmin m n r b k wp woe in
        Ok {| lo_u := eval3 env (usym psi q); lo_psi := evalpsi env psi;
              lo_q := eval env q; lo_dqdoe := eval5 env (dqdoe q) |}
    end.
(** fun_eval_dqdt, _symbolic.py:179-184 / 387-392 *)
Definition dqdt_of (psi : list (list expr)) (q : expr) : dqdt_fn N :=
  fun mu f oe oeT rpmin m n r b k wp woe =>
    match list_to_vec5 oeT with
    | None => Err ValueError
    | Some T => Ok (eval (mkenv mu f oe T rpmin m n r b k wp woe) (dqdt_expr psi q))
    end.

End Lambdified.
