(** Equinoctial runs in the reference plane: fixed by the reflection at every iteration. *)
From Coq Require Import Reals Lra Lia ZArith List Bool.
From Verif Require Import RMath RLib Num Base Elements Integrate Eom Convergence Lyapunov Symbolic SymKep SymMee Perturb PlotHelper Qlaw Spec NanProofs ScaleSpec DimProofs ScaleProofs SymRun TurnSpec TurnProofs MirrorSpec MirrorProofs MirrorSolve.
Import ListNotations.
Local Open Scope R_scope.

Lemma fix_opp x : xopp x = x <-> nought x.
Proof.
  split.
  - intros E. destruct x as [r| | |]; try discriminate; [left|right; reflexivity]. cbn in E. injection E as E. f_equal. lra.
  - intros [-> | ->]; [cbn; f_equal; ring|reflexivity].
Qed.
Lemma fix_flat x : reflect MeeWithA x = x <-> flat x.
Proof.
  destruct x as [a f g h k l]. unfold flat. cbn [reflect v6_3 v6_4]. rewrite <- !fix_opp. split.
  - intros E. injection E as E1 E2. split; assumption.
  - intros [E1 E2]. rewrite E1, E2. reflexivity.
Qed.
Lemma fix_normal v : normal_reflect v = v <-> nought (v3_2 v).
Proof.
  destruct v as [x y z]. cbn [normal_reflect v3_2]. rewrite <- fix_opp. split.
  - intros E. injection E as E. exact E.
  - intros E. rewrite E. reflexivity.
Qed.
Lemma fix_unflat x : flat x -> unreflect MeeWithA x = x.
Proof. intros H. rewrite <- (proj2 (fix_flat x) H) at 1. apply unreflect_reflect. Qed.

Section Flat.
Variables (o : qlaw XNum) (p : problem XNum) (ea er : eta_arg XNum).
Hypothesis B : built MeeWithA o.
Hypothesis K : keeps_flat o.
Hypothesis HT : target_reflect MeeWithA (p_oeT p) = p_oeT p.
Notation o' := (qlaw_reflect MeeWithA o).
Notation p' := (problem_reflect MeeWithA p).

Lemma pert_flat t x : flat x -> match q_ptrb o' with Some f => f t x MeeWithA | None => Ok (v3zero (N:=XNum)) end = match q_ptrb o with Some f => f t x MeeWithA | None => Ok (v3zero (N:=XNum)) end.
Proof.
  intros F. cbn [qlaw_reflect q_ptrb]. destruct (q_ptrb o) as [f|] eqn:E; cbn [option_map]; [|reflexivity]. unfold ptrb_reflect. rewrite fix_unflat by exact F.
  destruct (f t x MeeWithA) as [v|e] eqn:V; [|reflexivity]. f_equal. apply fix_normal. exact (K f t x v E F V).
Qed.
Lemma eta_flat e t x m b : flat x -> eta_now (N:=XNum) (eta_reflect MeeWithA e) t x m b = eta_now (N:=XNum) e t x m b.
Proof. intros F. destruct e; try reflexivity. cbn [eta_reflect eta_now]. rewrite fix_unflat by exact F. reflexivity. Qed.
Lemma step_flat s : flat (l_oe s) -> step (N:=XNum) o' p' (eta_reflect MeeWithA ea) (eta_reflect MeeWithA er) s = step (N:=XNum) o p ea er s.
Proof.
  intros F. destruct B as (E1 & _).
  assert (S1 : safety (N:=XNum) o' s = s) by (unfold safety; change (q_etype o') with (q_etype o); rewrite E1; reflexivity).
  assert (S2 : safety (N:=XNum) o s = s) by (unfold safety; rewrite E1; reflexivity).
  unfold step. rewrite S1, S2. cbv zeta. change (plan (N:=XNum) o' p' s) with (plan (N:=XNum) o p s). destruct (plan o p s) as [pl|e]; [|reflexivity].
  change (accel_thrust (N:=XNum) p') with (accel_thrust (N:=XNum) p). generalize (accel_thrust (N:=XNum) p (pl_dt pl) (l_mass s)). intros acc.
  assert (LC : lyap_call (N:=XNum) o' p' acc (l_oe s) = lyap_call (N:=XNum) o p acc (l_oe s)).
  { unfold lyap_call. change (p_oeT p') with (target_reflect MeeWithA (p_oeT p)). rewrite HT. reflexivity. }
  assert (OC : evaluate_osculating_qdot (N:=XNum) o' p' (l_oe s) acc = evaluate_osculating_qdot (N:=XNum) o p (l_oe s) acc).
  { unfold evaluate_osculating_qdot. change (p_oeT p') with (target_reflect MeeWithA (p_oeT p)). rewrite HT. reflexivity. }
  assert (CC : control (N:=XNum) o' p' (eta_reflect MeeWithA ea) (eta_reflect MeeWithA er) s pl acc = control (N:=XNum) o p ea er s pl acc).
  { unfold control. rewrite LC. destruct (pl_duty pl); [|reflexivity]. apply bind_ext. intros [[[[[al be] v] psi] q] qd]. rewrite !eta_flat by exact F. rewrite OC. reflexivity. }
  rewrite CC. destruct (control o p ea er s pl acc) as [[c|]|e]; [|reflexivity|reflexivity].
  unfold perturbation. change (q_etype o') with (q_etype o). rewrite E1. rewrite pert_flat by exact F.
  destruct (match q_ptrb o with Some f => f (l_t s) (l_oe s) MeeWithA | None => Ok (v3zero (N:=XNum)) end) as [w|e]; [|reflexivity].
  change (propagate (N:=XNum) o' p' s pl c w) with (propagate (N:=XNum) o p s pl c w). destruct (propagate o p s pl c w) as [[[[x t] m] dtb]|e]; [|reflexivity].
  change (battery_update (N:=XNum) p') with (battery_update (N:=XNum) p). destruct (battery_update p (l_batt s) dtb (pl_duty pl) (pl_chg pl)) as [b' chg'].
  destruct (c_ab c) as [[al be]|]; [|reflexivity]. unfold exit_check. change (p_oeT p') with (target_reflect MeeWithA (p_oeT p)). rewrite HT. reflexivity.
Qed.
(** controls recorded so far are level, and everything else is fixed by the reflection *)
Definition kept (s : lstate XNum) : Prop := ls_reflect MeeWithA s = s.
Lemma kept_flat s : kept s -> flat (l_oe s).
Proof. intros H. apply fix_flat. exact (f_equal (@l_oe XNum) H). Qed.
Lemma kept_step s : kept s -> out_reflect MeeWithA (step (N:=XNum) o p ea er s) = step (N:=XNum) o p ea er s.
Proof. intros H. rewrite <- (step_reflect MeeWithA o B p ea er s). rewrite H. apply step_flat. apply kept_flat. exact H. Qed.
Lemma kept_loop fuel : forall s, kept s -> res_reflect MeeWithA (loop (N:=XNum) fuel o p ea er s) = loop (N:=XNum) fuel o p ea er s.
Proof.
  induction fuel as [|n IH]; intros s H; cbn [loop]; destruct (guard p s); cbn [res_reflect]; try (rewrite H; reflexivity).
  pose proof (kept_step s H) as E. destruct (step o p ea er s) as [s'|c v s'|e s']; cbn [out_reflect res_reflect] in *.
  - apply IH. unfold kept. injection E as E. exact E.
  - injection E as E. rewrite E. reflexivity.
  - injection E as E. rewrite E. reflexivity.
Qed.

(** recorded angles are not nan *)
Definition num_ab (s : lstate XNum) : Prop :=
  (forall al be, l_ab s = Some (al, be) -> be <> NaN) /\ forall al be thr, In (al, be, thr) (h_controls (l_hist s)) -> be <> NaN.
Lemma control_num s pl acc c : num_ab s -> control (N:=XNum) o p ea er s pl acc = Ok (Ctl c) -> forall al be, c_ab c = Some (al, be) -> be <> NaN.
Proof.
  intros [H _]. unfold control. destruct (pl_duty pl).
  - destruct (lyap_call o p acc (l_oe s)) as [[[[[[al be] v] psi] q] qd]|]; [|discriminate]. cbn [bind].
    destruct (nisnan (Num:=XNum) al || nisnan (Num:=XNum) be)%bool eqn:N.
    + destruct (Z.ltb (q_nan_thr o) (l_nnan s + 1)); [discriminate|]. intros E. injection E as <-. cbn [c_ab]. intros a b E. injection E as <- <-. discriminate.
    + apply orb_false_iff in N. destruct N as [_ N].
      assert (X : forall a b, Some (al, be) = Some (a, b) -> b <> NaN) by (intros a b E; injection E as <- <-; intros ->; discriminate).
      match goal with |- context [if ?b then bind _ _ else _] => destruct b end.
      * destruct (evaluate_osculating_qdot o p (l_oe s) acc) as [[q1 q2]|]; [|discriminate]. cbn [bind]. intros E. injection E as <-. cbn [c_ab]. exact X.
      * intros E. injection E as <-. cbn [c_ab]. exact X.
  - destruct (lyap_call o p acc (l_oe s)) as [[[[[[al be] v] psi] q] qd]|]; [|discriminate]. cbn [bind]. intros E. injection E as <-. cbn [c_ab]. exact H.
Qed.
Definition out_num (r : outcome XNum) : Prop := match r with Next s | Stop _ _ s | Fail _ s => num_ab s end.
Definition res_num (r : lres XNum) : Prop := match r with LEnd s | LStop _ _ s | LFail _ s | LFuel s => num_ab s end.
Lemma exit_num s : num_ab s -> out_num (exit_check (N:=XNum) o p s).
Proof.
  intros H. unfold exit_check. destruct (q_check o (l_oe s) (p_oeT p) (p_woe p) (q_tol o)) as [[|]|]; try exact H.
  destruct (q_check o (l_oe s) (p_oeT p) (p_woe p) (q_tol_relaxed o)) as [rel|]; [|exact H]. cbv zeta.
  destruct (rel && _)%bool; [exact H|]. match goal with |- context [if ?b then _ else _] => destruct b end; exact H.
Qed.
Lemma step_num s : num_ab s -> out_num (step (N:=XNum) o p ea er s).
Proof.
  intros H. destruct B as (E1 & _). assert (S2 : safety (N:=XNum) o s = s) by (unfold safety; rewrite E1; reflexivity).
  unfold step. rewrite S2. cbv zeta. destruct (plan o p s) as [pl|e]; [|exact H]. destruct (control o p ea er s pl _) as [[c|]|e] eqn:C; [|exact H|exact H].
  pose proof (control_num s pl _ c H C) as N.
  destruct (perturbation o s) as [w|e]; [|exact H]. destruct (propagate o p s pl c w) as [[[[x t] m] dtb]|e]; [|exact H].
  destruct (battery_update p (l_batt s) dtb (pl_duty pl) (pl_chg pl)) as [b' chg']. destruct (c_ab c) as [[al be]|] eqn:A.
  - apply exit_num. split; cbn [l_ab l_hist push6 push3 h_controls].
    + intros a b E. apply (N a b E).
    + intros a b thr I. apply in_app_iff in I. destruct I as [I|[I|[]]]; [exact (proj2 H a b thr I)|]. injection I as <- <- _. exact (N al be eq_refl).
  - split; cbn [l_ab l_hist with_hist push3 h_controls]; apply H.
Qed.
Lemma loop_num fuel : forall s, num_ab s -> res_num (loop (N:=XNum) fuel o p ea er s).
Proof.
  induction fuel as [|n IH]; intros s H; cbn [loop]; destruct (guard p s); try exact H.
  pose proof (step_num s H) as E. destruct (step o p ea er s); cbn [out_num res_num] in *; [apply IH; exact E|exact E|exact E].
Qed.
Lemma kept_hist s : kept s -> num_ab s -> Forall flat (h_states (l_hist s)) /\ Forall level (h_controls (l_hist s)).
Proof.
  intros H [_ N]. pose proof (f_equal (fun s => h_states (l_hist s)) H) as E1. pose proof (f_equal (fun s => h_controls (l_hist s)) H) as E2. cbn [ls_reflect l_hist hist_reflect h_states h_controls] in E1, E2. split.
  - clear N. induction (h_states (l_hist s)) as [|x l IH]; constructor; cbn [map] in E1; injection E1 as X E; [apply fix_flat; exact X|exact (IH E)].
  - induction (h_controls (l_hist s)) as [|[[al be] thr] l IH]; constructor.
    + cbn [map control_reflect] in E2. injection E2 as X E. cbn [level]. apply fix_opp in X. destruct X as [X|X]; [exact X|]. exfalso. apply (N al be thr); [left; reflexivity|exact X].
    + cbn [map] in E2. injection E2 as X E. apply IH; [|exact E]. intros a b c I. apply (N a b c). right. exact I.
Qed.
End Flat.
Theorem C97_lem (o : qlaw XNum) (p : problem XNum) ea er fuel a f g rest : built MeeWithA o -> q_problem o = Some p -> flat (p_oe0 p) -> p_oeT p = a :: f :: g :: Fin 0 :: Fin 0 :: rest ->
  keeps_flat o -> ea <> EtaOther (N:=XNum) -> forall o' h, solve (N:=XNum) fuel o ea er = Returns o' \/ (exists e, solve (N:=XNum) fuel o ea er = Raises e o') -> q_hist o' = Some h ->
  Forall flat (h_states h) /\ Forall level (h_controls h).
Proof.
  intros B P F T K NE o' h R Q.
  assert (HT : target_reflect MeeWithA (p_oeT p) = p_oeT p) by (rewrite T; cbn [target_reflect]; rewrite (proj2 (fix_opp (Fin 0)) (or_introl eq_refl)); reflexivity).
  assert (I : kept (init_state (N:=XNum) p)).
  { unfold kept, ls_reflect, init_state, hist_reflect. cbn [l_t l_oe l_mass l_batt l_nrel l_nnan l_duty l_ton l_toff l_chg l_ab l_hist h_Qs h_dQdts h_times h_states h_masses h_controls h_etas h_bounds h_battery map option_map].
    rewrite (proj2 (fix_flat (p_oe0 p)) F). reflexivity. }
  assert (I2 : num_ab (init_state (N:=XNum) p)) by (split; [discriminate|intros ? ? ? []]).
  pose proof (kept_loop o p ea er B K HT fuel _ I) as L. pose proof (loop_num o p ea er B fuel _ I2) as N.
  unfold solve in R. rewrite P in R. destruct (loop fuel o p ea er (init_state p)) as [s|c v s|e s|s]; cbn [res_reflect res_num] in L, N.
  4:{ destruct ea; [| |congruence]; destruct R as [R|(e & R)]; discriminate. }
  all: assert (Ks : kept s) by (unfold kept; congruence); pose proof (kept_hist s Ks N) as G;
    assert (h = l_hist s) by (destruct ea; [| |congruence]; (destruct R as [R|(e' & R)]; [|]; try discriminate; injection R as <-; unfold finish in Q; cbn [with_run q_hist] in Q; congruence) || (destruct R as [R|(e' & R)]; try discriminate; injection R as _ <-; cbn [with_run q_hist] in Q; congruence)); subst h; exact G.
Qed.
