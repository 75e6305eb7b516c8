(** Proof infrastructure: every run of [solve] is described by its list of completed iterations
    (ghost rows); the histories are projections of that list. *)
From Coq Require Import ZArith List Bool Lia.
From Verif Require Import Num Base Elements Integrate Eom Convergence Lyapunov Perturb Qlaw.
Import ListNotations.

Section Trace.
Context {N : Num}.
Variables (o : qlaw N) (p : problem N) (ea er : eta_arg N).

(** One completed iteration: the state it started from (after the Keplerian safeguard) and what
    every phase produced. *)
Record grow : Type := mkgrow {
  g_s : lstate N; g_pl : plan_t N; g_c : ctl_t N; g_ptrb : vec3 N;
  g_oe : vec6 N; g_t : car; g_m : car; g_dtb : car; g_b : car; g_chg : bool;
  g_al : car; g_be : car }.

Definition post (g : grow) : lstate N :=
  {| l_t := g_t g; l_oe := g_oe g; l_mass := g_m g; l_batt := g_b g;
     l_nrel := l_nrel (g_s g); l_nnan := c_nnan (g_c g); l_duty := pl_duty (g_pl g);
     l_ton := pl_ton (g_pl g); l_toff := pl_toff (g_pl g); l_chg := g_chg g;
     l_ab := Some (g_al g, g_be g);
     l_hist := push6 (push3 (l_hist (g_s g)) (g_t g) (g_oe g) (g_m g)) (g_al g) (g_be g) (g_c g) (g_b g) |}.

Record iter (s0 : lstate N) (g : grow) : Prop := mkiter {
  it_s : g_s g = safety o s0;
  it_plan : plan o p (g_s g) = Ok (g_pl g);
  it_ctl : control o p ea er (g_s g) (g_pl g)
             (accel_thrust p (pl_dt (g_pl g)) (l_mass (g_s g))) = Ok (Ctl (g_c g));
  it_ptrb : perturbation o (g_s g) = Ok (g_ptrb g);
  it_prop : propagate o p (g_s g) (g_pl g) (g_c g) (g_ptrb g) = Ok (g_oe g, g_t g, g_m g, g_dtb g);
  it_batt : battery_update p (l_batt (g_s g)) (g_dtb g) (pl_duty (g_pl g)) (pl_chg (g_pl g))
            = (g_b g, g_chg g);
  it_ab : c_ab (g_c g) = Some (g_al g, g_be g) }.

Lemma iter_step s0 g : iter s0 g -> step o p ea er s0 = exit_check o p (post g).
Proof.
  intros [H1 H2 H3 H4 H5 H6 H7]. unfold step. cbv zeta. rewrite <- H1, H2, H3, H4, H5, H6.
  rewrite H7. reflexivity.
Qed.

(** The ways one iteration can end. *)
Inductive step_case (s0 : lstate N) : outcome N -> Prop :=
| sc_row g : iter s0 g -> step_case s0 (exit_check o p (post g))
| sc_nan pl : plan o p (safety o s0) = Ok pl ->
    control o p ea er (safety o s0) pl (accel_thrust p (pl_dt pl) (l_mass (safety o s0))) = Ok NanBreak ->
    step_case s0 (Stop (-3) false (safety o s0))
| sc_raise e : step_case s0 (Fail e (safety o s0))
| sc_unbound t' oe' m' pl c pt dtb :
    plan o p (safety o s0) = Ok pl ->
    control o p ea er (safety o s0) pl (accel_thrust p (pl_dt pl) (l_mass (safety o s0))) = Ok (Ctl c) ->
    perturbation o (safety o s0) = Ok pt ->
    propagate o p (safety o s0) pl c pt = Ok (oe', t', m', dtb) ->
    c_ab c = None ->
    step_case s0 (Fail UnboundLocalError (with_hist (safety o s0) (push3 (l_hist (safety o s0)) t' oe' m'))).

Lemma step_cases s0 : step_case s0 (step o p ea er s0).
Proof.
  unfold step. cbv zeta.
  destruct (plan o p (safety o s0)) as [pl|e] eqn:Hpl; [|apply sc_raise].
  destruct (control o p ea er (safety o s0) pl _) as [[c|]|e] eqn:Hc;
    [|eapply sc_nan; eauto|apply sc_raise].
  destruct (perturbation o (safety o s0)) as [pt|e] eqn:Hpt; [|apply sc_raise].
  destruct (propagate o p (safety o s0) pl c pt) as [[[[oe' t'] m'] dtb]|e] eqn:Hpr; [|apply sc_raise].
  destruct (battery_update p (l_batt (safety o s0)) dtb (pl_duty pl) (pl_chg pl)) as [b' c'] eqn:Hb.
  destruct (c_ab c) as [[al be]|] eqn:Hab.
  - set (g := mkgrow (safety o s0) pl c pt oe' t' m' dtb b' c' al be).
    assert (Hit : iter s0 g) by (constructor; simpl; auto).
    pose proof (sc_row s0 g Hit) as H. unfold post in H. simpl in H. exact H.
  - eapply sc_unbound; eauto.
Qed.

(** [exit_check] leaves everything but the relaxed counter alone. *)
Inductive exit_case (s : lstate N) : outcome N -> Prop :=
| ec_conv : q_check o (l_oe s) (p_oeT p) (p_woe p) (q_tol o) = Ok true -> exit_case s (Stop 1 true s)
| ec_rel : q_check o (l_oe s) (p_oeT p) (p_woe p) (q_tol o) = Ok false ->
    q_check o (l_oe s) (p_oeT p) (p_woe p) (q_tol_relaxed o) = Ok true ->
    (q_exit_relaxed o <= l_nrel s + 1)%Z -> exit_case s (Stop 2 true (with_nrel s (l_nrel s + 1)))
| ec_mass r n : q_check o (l_oe s) (p_oeT p) (p_woe p) (q_tol o) = Ok false ->
    q_check o (l_oe s) (p_oeT p) (p_woe p) (q_tol_relaxed o) = Ok r ->
    n = (if r then l_nrel s + 1 else l_nrel s)%Z -> (r = true -> (n < q_exit_relaxed o)%Z) ->
    nleb (l_mass s) (p_mass_min p) = true -> exit_case s (Stop (-1) false (with_nrel s n))
| ec_next r n : q_check o (l_oe s) (p_oeT p) (p_woe p) (q_tol o) = Ok false ->
    q_check o (l_oe s) (p_oeT p) (p_woe p) (q_tol_relaxed o) = Ok r ->
    n = (if r then l_nrel s + 1 else l_nrel s)%Z -> (r = true -> (n < q_exit_relaxed o)%Z) ->
    nleb (l_mass s) (p_mass_min p) = false -> exit_case s (Next (with_nrel s n))
| ec_err e : exit_case s (Fail e s).

Lemma exit_cases s : exit_case s (exit_check o p s).
Proof.
  unfold exit_check.
  destruct (q_check o (l_oe s) (p_oeT p) (p_woe p) (q_tol o)) as [[|]|e] eqn:H1;
    [apply ec_conv; auto| |apply ec_err].
  destruct (q_check o (l_oe s) (p_oeT p) (p_woe p) (q_tol_relaxed o)) as [r|e] eqn:H2; [|apply ec_err].
  cbv zeta. destruct r; simpl.
  - destruct (Z.leb_spec (q_exit_relaxed o) (l_nrel s + 1)).
    + apply ec_rel; auto.
    + destruct (nleb (l_mass s) (p_mass_min p)) eqn:Hm.
      * eapply ec_mass with (r := true); eauto.
      * eapply ec_next with (r := true); eauto.
  - destruct (nleb (l_mass s) (p_mass_min p)) eqn:Hm.
    + eapply ec_mass with (r := false); eauto. discriminate.
    + eapply ec_next with (r := false); eauto. discriminate.
Qed.

(** [tr gs s]: the loop has completed the iterations [gs] and is at the while test in state [s]. *)
Inductive tr : list grow -> lstate N -> Prop :=
| tr_nil : tr [] (init_state p)
| tr_snoc gs s g s' : tr gs s -> guard p s = true -> iter s g ->
    exit_check o p (post g) = Next s' -> tr (gs ++ [g]) s'.

(** The histories described by a list of rows and the last state. *)
Definition mkh (gs : list grow) (oel : vec6 N) : hist N :=
  {| h_Qs := map (fun g => c_q (g_c g)) gs; h_dQdts := map (fun g => c_qdot (g_c g)) gs;
     h_times := nofZ 0 :: map g_t gs; h_states := map (fun g => l_oe (g_s g)) gs ++ [oel];
     h_masses := p_mass0 p :: map g_m gs;
     h_controls := map (fun g => (g_al g, g_be g, c_thr (g_c g))) gs;
     h_etas := map (fun g => c_etas (g_c g)) gs; h_bounds := map (fun g => c_bounds (g_c g)) gs;
     h_battery := p_batt0 p :: map g_b gs |}.

Lemma replace_last_snoc {A} (l : list A) x y : replace_last (l ++ [x]) y = l ++ [y].
Proof. unfold replace_last. rewrite removelast_last. reflexivity. Qed.

Lemma safety_hist s gs :
  l_hist s = mkh gs (l_oe s) -> l_hist (safety o s) = mkh gs (l_oe (safety o s)).
Proof.
  intros H. unfold safety. destruct (q_etype o); [|exact H].
  simpl. rewrite H. unfold mkh at 1. simpl. rewrite replace_last_snoc. reflexivity.
Qed.

Lemma post_hist s g gs : l_hist s = mkh gs (l_oe s) -> iter s g ->
  l_hist (post g) = mkh (gs ++ [g]) (g_oe g).
Proof.
  intros H [Hs _ _ _ _ _ _]. apply safety_hist in H. rewrite <- Hs in H.
  unfold post. simpl. rewrite H. unfold push6, push3, mkh. simpl.
  rewrite !map_app. simpl. reflexivity.
Qed.

Lemma exit_next_hist s s' : exit_check o p s = Next s' ->
  exists n, s' = with_nrel s n.
Proof.
  intros H. pose proof (exit_cases s) as E. rewrite H in E. inversion E; subst; eauto.
Qed.

Lemma tr_hist gs s : tr gs s -> l_hist s = mkh gs (l_oe s).
Proof.
  induction 1 as [|gs s g s' _ IH Hg Hit Hex]; [reflexivity|].
  destruct (exit_next_hist _ _ Hex) as [n ->]. simpl.
  apply (post_hist s g gs IH Hit).
Qed.

(** Every loop result comes from a trace. *)
Inductive loop_case : lres N -> Prop :=
| lc_end gs s : tr gs s -> guard p s = false -> loop_case (LEnd s)
| lc_stop gs s g code conv s' : tr gs s -> guard p s = true -> iter s g ->
    exit_check o p (post g) = Stop code conv s' -> loop_case (LStop code conv s')
| lc_nan gs s pl : tr gs s -> guard p s = true -> plan o p (safety o s) = Ok pl ->
    control o p ea er (safety o s) pl (accel_thrust p (pl_dt pl) (l_mass (safety o s))) = Ok NanBreak ->
    loop_case (LStop (-3) false (safety o s))
| lc_fail gs s e s' : tr gs s -> guard p s = true -> step o p ea er s = Fail e s' ->
    loop_case (LFail e s')
| lc_fuel gs s : tr gs s -> guard p s = true -> loop_case (LFuel s).

Lemma loop_cases_gen fuel : forall gs s, tr gs s -> loop_case (loop fuel o p ea er s).
Proof.
  induction fuel as [|n IH]; intros gs s Htr.
  - simpl. destruct (guard p s) eqn:Hg; [eapply lc_fuel|eapply lc_end]; eauto.
  - simpl. destruct (guard p s) eqn:Hg; [|eapply lc_end; eauto].
    pose proof (step_cases s) as SC.
    destruct (step o p ea er s) as [s1|code conv s1|e s1] eqn:Hst.
    + inversion SC as [g Hit Heq| | |]. eapply (IH (gs ++ [g])). eapply tr_snoc; eauto.
    + inversion SC as [g Hit Heq|pl H1 H2 Heq| |].
      * eapply lc_stop; eauto.
      * subst. eapply lc_nan; eauto.
    + eapply lc_fail; eauto.
Qed.

Lemma loop_cases fuel : loop_case (loop fuel o p ea er (init_state p)).
Proof. eapply loop_cases_gen. apply tr_nil. Qed.

(** Row [k] of a trace, with the state before and after it. *)
Lemma tr_nth gs s : tr gs s -> forall k g, nth_error gs k = Some g ->
  exists sk s', tr (firstn k gs) sk /\ guard p sk = true /\ iter sk g /\
    exit_check o p (post g) = Next s' /\ tr (firstn (S k) gs) s'.
Proof.
  induction 1 as [|gs s g s' Htr IH Hg Hit Hex]; intros k g1 Hk.
  - destruct k; discriminate.
  - destruct (Nat.lt_ge_cases k (length gs)) as [Hlt|Hge].
    + rewrite nth_error_app1 in Hk by assumption.
      destruct (IH k g1 Hk) as (sk & s1 & A & B & C & D & E).
      exists sk, s1. rewrite firstn_app, (firstn_app (S k)).
      replace (k - length gs)%nat with 0%nat by lia. replace (S k - length gs)%nat with 0%nat by lia.
      rewrite !firstn_O, !app_nil_r. auto.
    + assert (Hlen : k = length gs).
      { assert (k < length (gs ++ [g]))%nat by (apply nth_error_Some; congruence).
        rewrite app_length in *. simpl in *. lia. }
      subst k. rewrite nth_error_app2 in Hk by lia. rewrite Nat.sub_diag in Hk.
      injection Hk as ->. exists s, s'. split; [|split; [auto|split; [auto|split; [auto|]]]].
      * rewrite firstn_app, firstn_all, Nat.sub_diag, firstn_O, app_nil_r. exact Htr.
      * rewrite firstn_all2; [eapply tr_snoc; eauto|rewrite app_length; simpl; lia].
Qed.
End Trace.
Arguments grow : clear implicits.
