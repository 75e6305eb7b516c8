(** Keplerian runs without weight on their plane stay in it (C99). *)
From Coq Require Import Reals Lra Lia ZArith List Bool.
From Verif Require Import RMath RLib Num Base Elements Integrate Eom Convergence Lyapunov Symbolic SymKep SymMee Perturb PlotHelper Qlaw Spec NanProofs ZeroSpec ZeroProofs MirrorSpec PlaneSpec.
Import ListNotations.
Local Open Scope R_scope.

Lemma n_mul_r x y : nought y -> nought (xmul x y). Proof. intros H. exact (proj2 (mul_naught y x x H eq_refl)). Qed.
Lemma n_mul_l x y : nought x -> nought (xmul x y). Proof. intros H. exact (proj2 (naught_mul x y y H eq_refl)). Qed.
Lemma n_add x y : nought x -> nought y -> nought (xadd x y).
Proof. intros [-> | ->] [-> | ->]; cbn; [left; f_equal; ring|right; reflexivity..]. Qed.
Lemma n_sub x y : nought x -> nought y -> nought (xsub x y).
Proof. intros [-> | ->] [-> | ->]; cbn; [left; f_equal; ring|right; reflexivity..]. Qed.
Lemma n_opp x : nought x -> nought (xopp x).
Proof. intros [-> | ->]; cbn; [left; f_equal; ring|right; reflexivity]. Qed.
Lemma n_atan x : nought x -> nought (xatan x).
Proof. intros [-> | ->]; [left; cbn; rewrite atan_0; reflexivity|right; reflexivity]. Qed.
Lemma n_0 : nought (Fin 0). Proof. left. reflexivity. Qed.

(** ** The law steers in the plane *)
Definition weightless (v : var) : tie := match v with VW2 | VW3 | VW4 => Naught | _ => Same end.
Lemma kep_normal : match usym SymKep.psi SymKep.q with [_; _; uz] => tie_of weightless (fun _ => false) uz | _ => None end = Some Naught.
Proof. vm_compute. reflexivity. Qed.
Lemma normal_nought env : env VW2 = Fin 0 -> env VW3 = Fin 0 -> env VW4 = Fin 0 -> nought (v3_2 (eval3 (N:=XNum) env (usym SymKep.psi SymKep.q))).
Proof.
  intros W2 W3 W4. pose proof kep_normal as K. destruct (usym SymKep.psi SymKep.q) as [|ux [|uy [|uz [|]]]]; try discriminate K. cbn [eval3 v3_2].
  refine (proj2 (tie_sound weightless (fun _ => false) env env _ _ uz Naught K)).
  - intros v. destruct v; cbn [weightless tied]; try reflexivity; rewrite ?W2, ?W3, ?W4; split; auto.
  - intros e X. discriminate X.
Qed.
Definition planar (psi : psi_t XNum) : Prop :=
  let 'mkpsi c0 c1 c2 := psi in v5_2 c0 = Fin 0 /\ v5_3 c0 = Fin 0 /\ v5_2 c1 = Fin 0 /\ v5_3 c1 = Fin 0.
Lemma call_planar (o : qlaw XNum) (p : problem XNum) acc oe al be u psi q qd : built Keplerian o -> no_plane_weight (p_woe p) ->
  lyap_call (N:=XNum) o p acc oe = Ok (al, be, u, psi, q, qd) -> nought be /\ planar psi.
Proof.
  intros (_ & _ & L & _) (W2 & W3 & W4). unfold lyap_call, lyapunov_control_angles. rewrite L. unfold lyap_keplerian, lyap_of.
  destruct (list_to_vec5 (p_oeT p)) as [T|]; [|discriminate]. cbn [bind lo_u lo_psi lo_q lo_dqdoe].
  set (env := mkenv _ _ _ _ _ _ _ _ _ _ _ _).
  assert (NN : nought (v3_2 (eval3 (N:=XNum) env (usym SymKep.psi SymKep.q)))) by (apply normal_nought; assumption).
  assert (PP : planar (evalpsi (N:=XNum) env SymKep.psi)) by (repeat split; reflexivity).
  revert NN PP. generalize (eval3 (N:=XNum) env (usym SymKep.psi SymKep.q)) (evalpsi (N:=XNum) env SymKep.psi) (eval5 (N:=XNum) env (dqdoe SymKep.q)) (eval (N:=XNum) env SymKep.q).
  intros [ux uy uz] ps d q0 NN PP. cbn [v3_2] in NN. unfold u_to_thrust_angles, v3divs. cbn [v3_0 v3_1 v3_2]. xnum.
  match goal with |- context [jdiv (N:=XNum) ?x ?y] => generalize y; intros D; destruct (jdiv (N:=XNum) x D) as [tb|] eqn:J end; [|discriminate].
  cbn [bind]. destruct ps as [c0 c1 c2]. intros E. injection E as <- <- <- <- <- <-. split; [|exact PP].
  unfold jdiv in J. xnum. destruct (xeqb D _); [discriminate|]. injection J as <-.
  assert (X : nought (xdiv (xopp (xdiv uz (xsqrt (xadd (xadd (sq (N:=XNum) ux) (sq (N:=XNum) uy)) (sq (N:=XNum) uz))))) D)) by (apply naught_div, n_opp, naught_div, NN).
  exact (n_atan _ X).
Qed.
Lemma control_planar (o : qlaw XNum) (p : problem XNum) ea er (s : lstate XNum) pl acc c : built Keplerian o -> no_plane_weight (p_woe p) -> (forall a b, l_ab s = Some (a, b) -> b = Fin 0) ->
  control (N:=XNum) o p ea er s pl acc = Ok (Ctl c) -> (forall a b, c_ab c = Some (a, b) -> b = Fin 0) /\ nought (v3_2 (c_u c)) /\ planar (c_psi c).
Proof.
  intros B W H. unfold control. destruct (lyap_call o p acc (l_oe s)) as [[[[[[al be] v] psi] q] qd]|] eqn:L; [|destruct (pl_duty pl); discriminate].
  destruct (call_planar _ _ _ _ _ _ _ _ _ _ B W L) as [NB PP]. cbn [bind].
  assert (Z : nought (v3_2 (v3zero (N:=XNum)))) by (left; reflexivity).
  destruct (pl_duty pl); [|intros E; injection E as <-; cbn [c_ab c_u c_psi]; auto].
  destruct (nisnan (Num:=XNum) al || nisnan (Num:=XNum) be)%bool eqn:N.
  - destruct (Z.ltb (q_nan_thr o) (l_nnan s + 1)); [discriminate|]. intros E. injection E as <-. cbn [c_ab c_u c_psi]. split; [|auto]. intros a b E. injection E as <- <-. reflexivity.
  - apply orb_false_iff in N. destruct N as [_ N]. destruct NB as [-> | ->]; [|discriminate].
    assert (X : forall a b, Some (al, Fin 0) = Some (a, b) -> b = Fin 0) by (intros a b E; injection E as <- <-; reflexivity).
    assert (U : nought (v3_2 (v3scal (N:=XNum) acc (@mk3 XNum (nmul (Num:=XNum) (ncos (Num:=XNum) (Fin 0)) (nsin (Num:=XNum) al)) (nmul (Num:=XNum) (ncos (Num:=XNum) (Fin 0)) (ncos (Num:=XNum) al)) (nsin (Num:=XNum) (Fin 0)))))).
    { cbn [v3scal v3_2]. apply n_mul_r. left. cbn. rewrite sin_0. reflexivity. }
    match goal with |- context [if ?b then bind _ _ else _] => destruct b end.
    + destruct (evaluate_osculating_qdot o p (l_oe s) acc) as [[q1 q2]|]; [|discriminate]. cbn [bind]. intros E. injection E as <-. cbn [c_ab c_u c_psi].
      split; [exact X|]. split; [|exact PP]. match goal with |- context [if ?b then _ else _] => destruct b end; assumption.
    + intros E. injection E as <-. cbn [c_ab c_u c_psi]. auto.
Qed.

(** ** The integrators leave inclination and node alone *)
Definition stays (y z : vec6 XNum) : Prop := (v6_2 z = v6_2 y \/ v6_2 z = NaN) /\ (v6_3 z = v6_3 y \/ v6_3 z = NaN).
Definition still (d : vec6 XNum) : Prop := nought (v6_2 d) /\ nought (v6_3 d).
Lemma stays_refl y : stays y y. Proof. split; left; reflexivity. Qed.
Lemma add0 x y z : x = z \/ x = NaN -> nought y -> xadd x y = z \/ xadd x y = NaN.
Proof. intros [-> | ->] [-> | ->]; [|right; destruct z; reflexivity|right; reflexivity..]. left. destruct z; cbn; [f_equal; ring|reflexivity..]. Qed.
Lemma sub0 x y z : x = z \/ x = NaN -> nought y -> xsub x y = z \/ xsub x y = NaN.
Proof. intros [-> | ->] [-> | ->]; [|right; destruct z; reflexivity|right; reflexivity..]. left. destruct z; cbn; [f_equal; ring|reflexivity..]. Qed.
Lemma stays_add y z d : stays y z -> still d -> stays y (v6add (N:=XNum) z d).
Proof. destruct z, d. intros [A B] [C D]. cbn [v6_2 v6_3 v6add] in *. split; apply add0; assumption. Qed.
Lemma stays_sub y z d : stays y z -> still d -> stays y (v6sub (N:=XNum) z d).
Proof. destruct z, d. intros [A B] [C D]. cbn [v6_2 v6_3 v6sub] in *. split; apply sub0; assumption. Qed.
Lemma still_scal k d : still d -> still (v6scal (N:=XNum) k d).
Proof. destruct d. intros [C D]. cbn [v6_2 v6_3 v6scal] in *. split; apply n_mul_r; assumption. Qed.
Lemma still_add c d : still c -> still d -> still (v6add (N:=XNum) c d).
Proof. destruct c, d. intros [A B] [C D]. cbn [v6_2 v6_3 v6add] in *. split; apply n_add; assumption. Qed.
Lemma rate_still t y (prm : ode_params XNum) d : nought (v3_2 (op_u prm)) -> nought (v3_2 (op_ptrb prm)) -> planar (op_psi prm) -> eom_kep_gauss (N:=XNum) t y prm = Ok d -> still d.
Proof.
  destruct prm as [mu [u0 u1 u2] [[a0 a1 a2 a3 a4] [b0 b1 b2 b3 b4] [c0 c1 c2 c3 c4]] [w0 w1 w2]]. cbn [op_u op_ptrb op_psi v3_2 planar v5_2 v5_3].
  intros U W (-> & -> & -> & ->). unfold eom_kep_gauss. destruct y as [sma ecc inc ra om ta]. cbn [op_mu op_u op_psi op_ptrb].
  destruct (jdiv _ _) as [r|]; [|discriminate]. cbn [bind]. destruct (jdiv _ _) as [e0|]; [|discriminate]. cbn [bind]. destruct (jdiv _ _) as [e1|]; [|discriminate]. cbn [bind].
  destruct (jdiv _ _) as [rate|]; [|discriminate]. cbn [bind]. intros E. injection E as <-. unfold still, psi_dot, v3add, add_rate, v6add, dot3. cbn [v6_2 v6_3]. xnum.
  assert (X : forall c x y w, nought w -> nought (xadd (xadd (xadd (xmul (Fin 0) x) (xmul (Fin 0) y)) (xmul c w)) (Fin 0))).
  { intros c x y w H. apply n_add; [|apply n_0]. apply n_add; [|apply n_mul_r; exact H]. apply n_add; apply n_mul_l, n_0. }
  split; exact (X _ _ _ _ (n_add _ _ U W)).
Qed.
Section Steps.
Variable prm : ode_params XNum.
Hypothesis U : nought (v3_2 (op_u prm)).
Hypothesis W : nought (v3_2 (op_ptrb prm)).
Hypothesis P : planar (op_psi prm).
Notation rhs := (eom_kep_gauss (N:=XNum)).
Ltac stage k K := let E := fresh in match goal with |- context [bind (rhs ?t ?y prm) _] => destruct (rhs t y prm) as [k|] eqn:E end; [|discriminate]; cbn [bind];
  pose proof (rate_still _ _ _ _ U W P E) as K; clear E.
Lemma rk4_stays t h y z : rk4 (N:=XNum) rhs t h y prm = Ok z -> stays y z.
Proof.
  unfold rk4. stage k1 K1. stage k2 K2. stage k3 K3. stage k4 K4. intros E. injection E as <-.
  apply stays_add; [apply stays_refl|]. apply still_scal. repeat apply still_add; try apply still_scal; assumption.
Qed.
Lemma rkf45_stays t h y tol z hn : rkf45 (N:=XNum) rhs t h y prm tol = Ok (z, hn) -> stays y z.
Proof.
  unfold rkf45. cbv zeta. stage k1 K1. stage k2 K2. stage k3 K3. stage k4 K4. stage k5 K5. stage k6 K6.
  match goal with |- context [bind (jdiv (N:=XNum) ?a ?b) _] => generalize b; intros D; destruct (jdiv (N:=XNum) a D) as [q|] end; [|discriminate]. cbn [bind]. intros E.
  assert (E' := f_equal (fun r => match r with Ok (y, _) => y | _ => z end) E). cbv beta iota in E'. rewrite <- E'. clear E E'.
  apply stays_sub; [|do 2 apply still_scal; assumption]. repeat (apply stays_add; [|do 2 apply still_scal; assumption]). apply stays_refl.
Qed.
End Steps.

(** ** The run *)
Section Run.
Variables (o : qlaw XNum) (p : problem XNum) (ea er : eta_arg XNum).
Hypothesis B : built Keplerian o.
Hypothesis W : no_plane_weight (p_woe p).
Hypothesis K : pulls_in_orbit o.
Hypothesis I0 : plane_in_bounds o (p_oe0 p).
Notation z0 := (p_oe0 p).
Lemma clamp_twice lo x hi : clamp1 (N:=XNum) lo (clamp1 (N:=XNum) lo x hi) hi = clamp1 (N:=XNum) lo x hi.
Proof.
  unfold clamp1, pymin, pymax. cbn [nltb XNum]. destruct lo as [l| | |], hi as [h| | |], x as [x| | |]; cbn [xltb]; try reflexivity;
  repeat (match goal with |- context [Rltb ?a ?b] => destruct (Rltb_spec a b) end; cbn [xltb]); first [reflexivity|f_equal; lra|exfalso; lra].
Qed.
Lemma guard_kept lo hi x0 x : clamp1 (N:=XNum) lo x0 hi = x0 -> kept_or x0 x (clamp1 (N:=XNum) lo NaN hi) -> kept_or x0 (clamp1 (N:=XNum) lo x hi) (clamp1 (N:=XNum) lo NaN hi).
Proof.
  intros H [-> | [-> | ->]]; [left; exact H|right; right; reflexivity|right; right; apply clamp_twice].
Qed.
Lemma guard_plane z : same_plane o z0 z -> same_plane o z0 (guarded o z).
Proof.
  destruct B as (E & _). unfold same_plane, plane_in_bounds, lost in *. unfold guarded in *. rewrite E in *. destruct z as [a e i ra om ta], z0 as [a0 e0 i0 r0 o0 t0].
  destruct (q_oe_min o) as [l0 l1 l2 l3 l4], (q_oe_max o) as [h0 h1 h2 h3 h4]. unfold elements_safety in *. cbn [v6_2 v6_3] in *. destruct I0 as [J2 J3]. intros [A C]. split; apply guard_kept; assumption.
Qed.
Lemma stays_plane y z : same_plane o z0 y -> stays y z -> same_plane o z0 z.
Proof. intros [A C] [[E|E] [F|F]]; split; rewrite ?E, ?F; try assumption; right; left; reflexivity. Qed.
Definition good (s : lstate XNum) : Prop := same_plane o z0 (l_oe s) /\ Forall (same_plane o z0) (h_states (l_hist s)) /\
  (forall a b, l_ab s = Some (a, b) -> b = Fin 0) /\ Forall level (h_controls (l_hist s)).
Definition out_good (r : outcome XNum) : Prop := match r with Next s | Stop _ _ s | Fail _ s => good s end.
Definition res_good (r : lres XNum) : Prop := match r with LEnd s | LStop _ _ s | LFail _ s | LFuel s => good s end.
Lemma safety_good s : good s -> good (safety (N:=XNum) o s).
Proof.
  intros (A & F & L & C). pose proof (guard_plane _ A) as G. unfold guarded in G. unfold safety. destruct (q_etype o); [|repeat split; assumption || apply A].
  split; [exact G|]. cbn [l_hist h_states h_controls l_ab]. split; [|split; assumption]. unfold replace_last. apply Forall_app. split; [|constructor; [exact G|constructor]].
  clear - F. induction F as [|x l H F IH]; [constructor|]. destruct l; [constructor|]. change (removelast (x :: v :: l)) with (x :: removelast (v :: l)). constructor; assumption.
Qed.
Lemma exit_good s : good s -> out_good (exit_check (N:=XNum) o p s).
Proof.
  intros H. unfold exit_check. destruct (q_check o (l_oe s) (p_oeT p) (p_woe p) (q_tol o)) as [[|]|]; try exact H.
  destruct (q_check o (l_oe s) (p_oeT p) (p_woe p) (q_tol_relaxed o)) as [rel|]; [|exact H]. cbv zeta.
  destruct (rel && _)%bool; [exact H|]. match goal with |- context [if ?b then _ else _] => destruct b end; exact H.
Qed.
Lemma step_good s0 : good s0 -> out_good (step (N:=XNum) o p ea er s0).
Proof.
  intros H0. unfold step. pose proof (safety_good _ H0) as H. cbv zeta. generalize dependent (safety o s0). intros s H.
  destruct (plan o p s) as [pl|e]; [|exact H]. destruct (control o p ea er s pl _) as [[c|]|e] eqn:C; [|exact H|exact H].
  destruct (control_planar _ _ _ _ _ _ _ _ B W (proj1 (proj2 (proj2 H))) C) as (N & U & P).
  destruct (perturbation o s) as [w|e] eqn:Pw; [|exact H].
  assert (Nw : nought (v3_2 w)).
  { unfold perturbation in Pw. destruct (q_ptrb o) as [f|] eqn:Q; [exact (K f _ _ _ _ Q Pw)|]. injection Pw as <-. left. reflexivity. }
  destruct (propagate o p s pl c w) as [[[[x t] m] dtb]|e] eqn:Pr; [|exact H].
  assert (Hx : same_plane o z0 x).
  { apply (stays_plane (l_oe s)); [apply H|]. unfold propagate in Pr. destruct B as (_ & E & _). rewrite E in Pr. destruct (q_integ o).
    - destruct (rk4 _ _ _ _ _) as [y|] eqn:R; [|discriminate]. injection Pr as <- _ _ _. refine (rk4_stays _ _ _ _ _ _ _ _ R); assumption.
    - destruct (rkf45 _ _ _ _ _ _) as [[y hn]|] eqn:R; [|discriminate]. injection Pr as <- _ _ _. refine (rkf45_stays _ _ _ _ _ _ _ _ _ _ R); assumption. }
  destruct H as (A & F & L & D).
  destruct (battery_update p (l_batt s) dtb (pl_duty pl) (pl_chg pl)) as [b' chg']. destruct (c_ab c) as [[al be]|] eqn:Ab.
  - apply exit_good. split; [exact Hx|]. cbn [l_ab l_hist push6 push3 h_controls h_states]. split; [apply Forall_app; split; [exact F|constructor; [exact Hx|constructor]]|].
    split; [intros a b E; apply (N a b E)|]. apply Forall_app. split; [exact D|]. constructor; [|constructor]. exact (N al be eq_refl).
  - split; [exact A|]. cbn [l_ab l_hist with_hist push3 h_controls h_states]. split; [apply Forall_app; split; [exact F|constructor; [exact Hx|constructor]]|]. split; assumption.
Qed.
Lemma loop_good fuel : forall s, good s -> res_good (loop (N:=XNum) fuel o p ea er s).
Proof.
  induction fuel as [|n IH]; intros s H; cbn [loop]; destruct (guard p s); try exact H.
  pose proof (step_good s H) as E. destruct (step o p ea er s); cbn [out_good res_good] in *; [apply IH; exact E|exact E|exact E].
Qed.
End Run.
Theorem C99_lem (o : qlaw XNum) (p : problem XNum) ea er fuel : built Keplerian o -> q_problem o = Some p -> no_plane_weight (p_woe p) -> pulls_in_orbit o -> plane_in_bounds o (p_oe0 p) ->
  ea <> EtaOther (N:=XNum) -> forall o' h, solve (N:=XNum) fuel o ea er = Returns o' \/ (exists e, solve (N:=XNum) fuel o ea er = Raises e o') -> q_hist o' = Some h ->
  Forall (same_plane o (p_oe0 p)) (h_states h) /\ Forall level (h_controls h).
Proof.
  intros B P W K I NE o' h R Q.
  assert (I2 : good o p (init_state (N:=XNum) p)).
  { assert (Z : same_plane o (p_oe0 p) (p_oe0 p)) by (split; left; reflexivity). split; [exact Z|]. cbn [init_state l_hist h_states h_controls l_ab]. split; [constructor; [exact Z|constructor]|]. split; [discriminate|constructor]. }
  pose proof (loop_good o p ea er B W K I fuel _ I2) as N.
  unfold solve in R. rewrite P in R. destruct (loop fuel o p ea er (init_state p)) as [s|c v s|e s|s]; cbn [res_good] in N.
  4:{ destruct ea; [| |congruence]; destruct R as [R|(e & R)]; discriminate. }
  all: destruct N as (_ & N1 & _ & N2);
    assert (h = l_hist s) by (destruct ea; [| |congruence]; (destruct R as [R|(e' & R)]; [|]; try discriminate; injection R as <-; unfold finish in Q; cbn [with_run q_hist] in Q; congruence) || (destruct R as [R|(e' & R)]; try discriminate; injection R as _ <-; cbn [with_run q_hist] in Q; congruence)); subst h; split; assumption.
Qed.
