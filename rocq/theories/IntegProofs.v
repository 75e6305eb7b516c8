(** Fixed-step and embedded Runge-Kutta steps over the reals. *)
From Coq Require Import Reals Lra Lia ZArith List Bool Psatz.
From Verif Require Import RMath RLib DLib Num Base Integrate Eom RSpec ElemProofs.
Import ListNotations.
Local Open Scope R_scope.

Lemma rk4_comp (P : Type) (rhs : R -> vec6 RNum -> P -> Res (vec6 RNum)) (t h : R) y p k1 k2 k3 k4 :
  rhs t y p = Ok k1 ->
  rhs (t + 5 / 10 * h) (v6add (N:=RNum) y (v6scal (N:=RNum) (h * (5 / 10)) k1)) p = Ok k2 ->
  rhs (t + 5 / 10 * h) (v6add (N:=RNum) y (v6scal (N:=RNum) (h * (5 / 10)) k2)) p = Ok k3 ->
  rhs (t + h) (v6add (N:=RNum) y (v6scal (N:=RNum) h k3)) p = Ok k4 ->
  rk4 (N:=RNum) rhs t h y p = Ok (v6add (N:=RNum) y (v6scal (N:=RNum) (h / 6)
        (v6add (N:=RNum) (v6add (N:=RNum) (v6add (N:=RNum) k1 (v6scal (N:=RNum) 2 k2)) (v6scal (N:=RNum) 2 k3)) k4))).
Proof.
  intros H1 H2 H3 H4. unfold rk4.
  change (dec (N:=RNum) 5 1) with (5 / 10). change (nmul (Num:=RNum)) with Rmult. change (nadd (Num:=RNum)) with Rplus.
  rewrite H1. cbn [bind]. rewrite H2. cbn [bind]. rewrite H3. cbn [bind]. rewrite H4. reflexivity.
Qed.

Lemma C43_poly_lem (P : Type) (p : P) (a b c d e g : R * R * R * R) (t h y0 y1 y2 y3 y4 y5 : R) :
  let rhs := fun (s : R) (_ : vec6 RNum) (_ : P) =>
     Ok (elems (cubic a s) (cubic b s) (cubic c s) (cubic d s) (cubic e s) (cubic g s)) in
  let I := fun k => quartic k (t + h) - quartic k t in
  rk4 (N:=RNum) rhs t h (elems y0 y1 y2 y3 y4 y5) p =
  Ok (elems (y0 + I a) (y1 + I b) (y2 + I c) (y3 + I d) (y4 + I e) (y5 + I g)).
Proof.
  intros rhs I. erewrite rk4_comp; [|reflexivity..]. f_equal. unfold I. clear I rhs.
  destruct a as [[[a0 a1] a2] a3], b as [[[b0 b1] b2] b3], c as [[[c0 c1] c2] c3], d as [[[d0 d1] d2] d3],
    e as [[[e0 e1] e2] e3], g as [[[g0 g1] g2] g3].
  unfold elems, cubic, quartic. cbn -[pow]. f_equal; field.
Qed.

Lemma quartic_primitive k s : derivable_pt_lim (quartic k) s (cubic k s).
Proof.
  destruct k as [[[c0 c1] c2] c3]. unfold quartic, cubic. eapply dval; cycle 1.
  - apply d_plus; [apply d_plus; [apply d_plus|]|]; unfold Rdiv.
    + apply d_mult; [apply d_const|apply d_id].
    + apply d_mult; [apply d_mult; [apply d_const|apply d_pow, d_id]|apply d_const].
    + apply d_mult; [apply d_mult; [apply d_const|apply d_pow, d_id]|apply d_const].
    + apply d_mult; [apply d_mult; [apply d_const|apply d_pow, d_id]|apply d_const].
  - cbn. field.
Qed.
Lemma C43_linear_lem (P : Type) (p : P) A (t h : R) y : linear6 A ->
  let A1 := A y in let A2 := A A1 in let A3 := A A2 in let A4 := A A3 in
  let S := v6scal (N:=RNum) in let add := v6add (N:=RNum) in
  rk4 (N:=RNum) (fun (_ : R) v (_ : P) => Ok (A v)) t h y p =
  Ok (add (add (add (add y (S h A1)) (S (h ^ 2 / 2) A2)) (S (h ^ 3 / 6) A3)) (S (h ^ 4 / 24) A4)).
Proof.
  intros [L1 L2] A1 A2 A3 A4 S ad. erewrite rk4_comp; [|reflexivity..]. f_equal.
  rewrite !L1, !L2, !L1, !L2, !L1, !L2. fold A1 A2 A3 A4.
  destruct y, A1, A2, A3, A4. unfold S, ad. cbn -[pow]. f_equal; field.
Qed.

(** ** rkf45 *)
Lemma rkf_weight_1 : rkf_weight = 1 + 2197 * 3 / (4101 * 4104) /\ rkf_weight <> 1.
Proof. unfold rkf_weight. split; [field|lra]. Qed.

Definition norm6R (v : vec6 RNum) : R := norm6 (N:=RNum) v.
Lemma norm6_nz a b c d e f : elems a b c d e f <> elems 0 0 0 0 0 0 -> norm6R (elems a b c d e f) <> 0.
Proof.
  intros H E. apply H. unfold norm6R, norm6, elems in E. cbn in E.
  apply sqrt_eq_0 in E; [|nra]. unfold elems. f_equal; nra.
Qed.
Lemma C44_lem (P : Type) (p : P) (c0 c1 c2 c3 c4 c5 y0 y1 y2 y3 y4 y5 t h tol : R) :
  let rhs := fun (_ : R) (_ : vec6 RNum) (_ : P) => Ok (elems c0 c1 c2 c3 c4 c5) in
  let y := elems y0 y1 y2 y3 y4 y5 in
  (h <> 0 -> elems c0 c1 c2 c3 c4 c5 <> elems 0 0 0 0 0 0 ->
   exists h', rkf45 (N:=RNum) rhs t h y p tol =
     Ok (v6add (N:=RNum) y (v6scal (N:=RNum) (h * rkf_weight) (elems c0 c1 c2 c3 c4 c5)), h')) /\
  (h = 0 \/ elems c0 c1 c2 c3 c4 c5 = elems 0 0 0 0 0 0 -> rkf45 (N:=RNum) rhs t h y p tol = Err ZeroDivisionError).
Proof.
  intros rhs y. unfold rkf45, rhs. cbn [bind]. 
  set (k := v6scal (N:=RNum) h (elems c0 c1 c2 c3 c4 c5)).
  match goal with |- context [norm6 (v6sub ?z ?w)] => set (zn := z); set (yn := w) end.
  assert (Ey : yn = v6add (N:=RNum) y (v6scal (N:=RNum) (h * rkf_weight) (elems c0 c1 c2 c3 c4 c5))).
  { unfold yn, k, y, elems, fr, rkf_weight. cbn. f_equal; field. }
  assert (Ez : v6sub (N:=RNum) zn yn = elems (h * (1 - rkf_weight) * c0) (h * (1 - rkf_weight) * c1) (h * (1 - rkf_weight) * c2)
     (h * (1 - rkf_weight) * c3) (h * (1 - rkf_weight) * c4) (h * (1 - rkf_weight) * c5)).
  { rewrite Ey. unfold zn, k, y, elems, fr, rkf_weight. cbn. f_equal; field. }
  rewrite Ez. split.
  - intros Hh Hc. rewrite jdivR.
    + cbn [bind]. rewrite Ey. eexists. reflexivity.
    + apply norm6_nz. intros E. apply Hc. injection E as E0 E1 E2 E3 E4 E5.
      assert (W : h * (1 - rkf_weight) <> 0) by (apply Rmult_integral_contrapositive_currified; [exact Hh|pose proof rkf_weight_1; lra]).
      unfold elems. f_equal; match goal with |- ?c = 0 => assert (Z : h * (1 - rkf_weight) * c = 0) by assumption; apply Rmult_integral in Z as [Z|Z]; [contradiction|exact Z] end.
  - intros H. match goal with |- context [norm6 ?v] => replace (norm6 (N:=RNum) v) with 0 end.
    + rewrite jdivR0. reflexivity.
    + symmetry. unfold norm6, elems. cbn. apply sqrt_pos_of; [lra|].
      destruct H as [H|H]; [rewrite H; ring|]. injection H as -> -> -> -> -> ->. ring.
Qed.

(** ** Frozen psi: Euler steps for the slow elements *)
Lemma rk4_inv (P : Type) (rhs : R -> vec6 RNum -> P -> Res (vec6 RNum)) (t h : R) y p y' :
  rk4 (N:=RNum) rhs t h y p = Ok y' -> exists k1 k2 k3 k4 u2 u3 u4,
  rhs t y p = Ok k1 /\ rhs (t + 5 / 10 * h) u2 p = Ok k2 /\ rhs (t + 5 / 10 * h) u3 p = Ok k3 /\ rhs (t + h) u4 p = Ok k4 /\
  y' = v6add (N:=RNum) y (v6scal (N:=RNum) (h / 6)
        (v6add (N:=RNum) (v6add (N:=RNum) (v6add (N:=RNum) k1 (v6scal (N:=RNum) 2 k2)) (v6scal (N:=RNum) 2 k3)) k4)).
Proof.
  unfold rk4. intros H.
  change (dec (N:=RNum) 5 1) with (5 / 10) in H. change (nmul (Num:=RNum)) with Rmult in H. change (nadd (Num:=RNum)) with Rplus in H.
  destruct (rhs t y p) as [k1|] eqn:E1; [|discriminate]. cbn [bind] in H.
  destruct (rhs (t + 5 / 10 * h) (v6add (N:=RNum) y (v6scal (N:=RNum) (h * (5 / 10)) k1)) p) as [k2|] eqn:E2; [|discriminate]. cbn [bind] in H.
  destruct (rhs (t + 5 / 10 * h) (v6add (N:=RNum) y (v6scal (N:=RNum) (h * (5 / 10)) k2)) p) as [k3|] eqn:E3; [|discriminate]. cbn [bind] in H.
  destruct (rhs (t + h) (v6add (N:=RNum) y (v6scal (N:=RNum) h k3)) p) as [k4|] eqn:E4; [|discriminate]. cbn [bind] in H.
  injection H as <-. do 7 eexists. repeat split; eassumption.
Qed.
Lemma kep_slow t y (pr : ode_params RNum) k : eom_kep_gauss (N:=RNum) t y pr = Ok k ->
  slow k = slow_rate (op_psi pr) (add (op_u pr) (op_ptrb pr)).
Proof.
  unfold eom_kep_gauss. destruct y as [a e i ra om ta].
  do 4 (destruct (jdiv _ _); [|discriminate]; cbn [bind]). intros H. injection H as <-.
  destruct (op_psi pr) as [[? ? ? ? ?] [? ? ? ? ?] [? ? ? ? ?]]. unfold add_rate, psi_dot, slow_rate, dot. 
  change (v3add (N:=RNum)) with add. set (u := add _ _). destruct u. cbn. f_equal; ring.
Qed.
Lemma mee_slow t y (pr : ode_params RNum) k : eom_mee_with_a_gauss (N:=RNum) t y pr = Ok k ->
  slow k = slow_rate (op_psi pr) (add (op_u pr) (op_ptrb pr)).
Proof.
  unfold eom_mee_with_a_gauss. destruct y as [a e i ra om ta].
  do 5 (destruct (jdiv _ _); [|discriminate]; cbn [bind]). intros H. injection H as <-.
  destruct (op_psi pr) as [[? ? ? ? ?] [? ? ? ? ?] [? ? ? ? ?]]. unfold add_rate, psi_dot, slow_rate, dot. 
  change (v3add (N:=RNum)) with add. set (u := add _ _). destruct u. cbn. f_equal; ring.
Qed.
Lemma C45_euler_lem (rhs : R -> vec6 RNum -> ode_params RNum -> Res (vec6 RNum)) t h y pr y' :
  rhs = eom_kep_gauss (N:=RNum) \/ rhs = eom_mee_with_a_gauss (N:=RNum) ->
  rk4 (N:=RNum) rhs t h y pr = Ok y' ->
  slow y' = euler5 h y (slow_rate (op_psi pr) (add (op_u pr) (op_ptrb pr))).
Proof.
  intros HR H. apply rk4_inv in H as (k1&k2&k3&k4&u2&u3&u4&H1&H2&H3&H4&->).
  assert (S : forall t u k, rhs t u pr = Ok k -> slow k = slow_rate (op_psi pr) (add (op_u pr) (op_ptrb pr))).
  { intros s u k. destruct HR as [-> | ->]; [exact (kep_slow s u pr k)|exact (mee_slow s u pr k)]. }
  apply S in H1, H2, H3, H4. destruct (slow_rate _ _) as [p q r s w].
  destruct y, k1, k2, k3, k4. cbn in *. injection H1 as -> -> -> -> ->. injection H2 as -> -> -> -> ->.
  injection H3 as -> -> -> -> ->. injection H4 as -> -> -> -> ->. f_equal; field.
Qed.
Lemma C44_never (P : Type) (p : P) (c y0 y1 y2 y3 y4 y5 t h tol : R) :
  ~ exists h', rkf45 (N:=RNum) (fun (_ : R) (_ : vec6 RNum) (_ : P) => Ok (elems c 0 0 0 0 0)) t h (elems y0 y1 y2 y3 y4 y5) p tol
    = Ok (elems (y0 + h * c) y1 y2 y3 y4 y5, h').
Proof.
  intros (h' & E). destruct (C44_lem P p c 0 0 0 0 0 y0 y1 y2 y3 y4 y5 t h tol) as [A B].
  destruct (Req_dec h 0) as [Hh|Hh]; [rewrite B in E by (left; exact Hh); discriminate|].
  destruct (Req_dec c 0) as [Hc|Hc]; [rewrite B in E by (right; rewrite Hc; reflexivity); discriminate|].
  destruct A as (k & A); [exact Hh|intros F; injection F; exact Hc|]. rewrite A in E. injection E as E _.
  destruct rkf_weight_1 as [_ W]. apply W.
  assert (K : h * c * (rkf_weight - 1) = 0) by lra.
  apply Rmult_integral in K as [K|K]; [|lra]. apply Rmult_integral in K as [K|K]; contradiction.
Qed.

Lemma C44_ex : exists tol y h', rkf45 (N:=RNum) (fun (_ : R) (_ : vec6 RNum) (_ : unit) => Ok (elems 1 0 0 0 0 0)) 0 1
  (elems 0 0 0 0 0 0) tt tol = Ok (y, h') /\ v6_0 y <> 0 + 1 * 1.
Proof.
  destruct (C44_lem unit tt 1 0 0 0 0 0 0 0 0 0 0 0 0 1 1) as [H _].
  destruct H as [h' H]; [lra|intros E; injection E; lra|].
  exists 1. do 2 eexists. split; [exact H|]. destruct rkf_weight_1 as [_ W]. cbn. lra.
Qed.
