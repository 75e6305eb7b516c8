(** Model of pyqlaw/_convergence.py. *)
From Coq Require Import ZArith List Bool.
From Verif Require Import Num Base.
Import ListNotations.
Local Open Scope num_scope.

Section Convergence.
Context {N : Num}.

(** The loop body shared by both checks (_convergence.py:20-24, 37-41): one entry of check_array,
    as the 0/1 it stores. *)
Definition check_entry (w d tol : car) : nat := if w =? $0 then 1 else if d <=? tol then 1 else 0.

(** _convergence.py:26-29, 43-46: np.sum(check_array) == len(tol_oe) *)
Definition check_all (woe doe tol : vec5 N) : bool :=
  let 'mk5 w0 w1 w2 w3 w4 := woe in
  let 'mk5 d0 d1 d2 d3 d4 := doe in
  let 'mk5 t0 t1 t2 t3 t4 := tol in
  Nat.eqb (check_entry w0 d0 t0 + check_entry w1 d1 t1 + check_entry w2 d2 t2
           + check_entry w3 d3 t3 + check_entry w4 d4 t4)%nat 5.

(** _convergence.py:9-29.  [oeT] is the attribute set by set_problem, whose length is not checked
    there; with fewer than five entries the jitted code reads out of bounds, which [solve] never
    reaches (the Lyapunov function has raised ValueError before); here that is [Err ValueError]. *)
Definition check_convergence_keplerian (oe : vec6 N) (oeT : list car) (woe tol : vec5 N) : Res bool :=
  match oeT with
  | T0 :: T1 :: T2 :: T3 :: T4 :: _ =>
      let 'mk6 o0 o1 o2 o3 o4 _ := oe in
      Ok (check_all woe (mk5 (nabs (T0 - o0)) (nabs (T1 - o1)) (nabs (T2 - o2))
                             (nabs (nacos (ncos (T3 - o3)))) (nabs (nacos (ncos (T4 - o4))))) tol)
  | _ => Err ValueError
  end.

(** _convergence.py:32-46 *)
Definition check_convergence_mee (oe : vec6 N) (oeT : list car) (woe tol : vec5 N) : Res bool :=
  match oeT with
  | T0 :: T1 :: T2 :: T3 :: T4 :: _ =>
      let 'mk6 o0 o1 o2 o3 o4 _ := oe in
      Ok (check_all woe (mk5 (nabs (T0 - o0)) (nabs (T1 - o1)) (nabs (T2 - o2))
                             (nabs (T3 - o3)) (nabs (T4 - o4))) tol)
  | _ => Err ValueError
  end.

(** _convergence.py:49-64: min(max(oe_min[i], oe[i]), oe_max[i]) for the first five entries; the
    array is modified in place and returned (the aliasing is modelled in Qlaw.v).  Only the first
    five entries of the bounds are read. *)
Definition clamp1 (lo x hi : car) : car := pymin (pymax lo x) hi.
Definition elements_safety (oe : vec6 N) (lo hi : vec5 N) : vec6 N :=
  let 'mk6 o0 o1 o2 o3 o4 o5 := oe in
  let 'mk5 l0 l1 l2 l3 l4 := lo in
  let 'mk5 h0 h1 h2 h3 h4 := hi in
  mk6 (clamp1 l0 o0 h0) (clamp1 l1 o1 h1) (clamp1 l2 o2 h2) (clamp1 l3 o3 h3) (clamp1 l4 o4 h4) o5.
End Convergence.
