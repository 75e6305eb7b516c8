(** The stopping criteria only decide where a run is cut off (C87). *)
From Coq Require Import Reals Lra ZArith List Bool Lia.
From Verif Require Import RMath Num Base Elements Integrate Eom Convergence Lyapunov Perturb Qlaw Spec Trace XTrace CutSpec.
Import ListNotations.

Section Cut.
Context {N : Num}.

Lemma starts_refl {A} (l : list A) : starts l l.
Proof. exists []. symmetry. apply app_nil_r. Qed.
Lemma starts_snoc {A} (l l' : list A) x : starts (l ++ [x]) l' -> starts l l'.
Proof. intros [r ->]. exists (x :: r). rewrite <- app_assoc. reflexivity. Qed.

Definition tidy (s : lstate N) : Prop := exists init, h_states (l_hist s) = init ++ [l_oe s].
Lemma tidy_init p : tidy (init_state p). Proof. exists []. reflexivity. Qed.
Lemma guarded_oe o (s : lstate N) : l_oe (safety o s) = guarded o (l_oe s).
Proof. unfold safety, guarded. destruct (q_etype o); reflexivity. Qed.
Lemma tidy_safe o s init : h_states (l_hist s) = init ++ [l_oe s] -> h_states (l_hist (safety o s)) = init ++ [guarded o (l_oe s)].
Proof. intros H. unfold safety, guarded. destruct (q_etype o); [|exact H]. simpl. rewrite H. apply replace_last_snoc. Qed.
Lemma safe_hist o s : let h := l_hist s in let h' := l_hist (safety o s) in
  h_times h' = h_times h /\ h_masses h' = h_masses h /\ h_controls h' = h_controls h /\ h_battery h' = h_battery h /\
  h_Qs h' = h_Qs h /\ h_dQdts h' = h_dQdts h /\ h_etas h' = h_etas h /\ h_bounds h' = h_bounds h.
Proof. unfold safety. destruct (q_etype o); repeat split. Qed.

Lemma begins_refl o s : tidy s -> begins o (l_hist s) (l_hist s).
Proof. intros [i H]. repeat split; try apply starts_refl. exists i, (l_oe s), (l_oe s), []. auto. Qed.
Lemma begins_safe_self o s : tidy s -> begins o (l_hist (safety o s)) (l_hist (safety o s)).
Proof.
  intros [i H]. repeat split; try apply starts_refl. exists i, (guarded o (l_oe s)), (guarded o (l_oe s)), [].
  rewrite (tidy_safe o s i H). auto.
Qed.
Lemma begins_safe o s : tidy s -> begins o (l_hist s) (l_hist (safety o s)).
Proof.
  intros [i H]. destruct (safe_hist o s) as (E1 & E2 & E3 & E4 & E5 & E6 & E7 & E8). unfold begins. rewrite E1, E2, E3, E4, E5, E6, E7, E8.
  repeat split; try apply starts_refl. exists i, (l_oe s), (guarded o (l_oe s)), []. rewrite (tidy_safe o s i H). auto.
Qed.
Section One.
Variables (o : qlaw N) (p : problem N) (ea er : eta_arg N).

Lemma post_tidy s g : tidy s -> iter o p ea er s g -> tidy (post g).
Proof.
  intros [i H] I. exists (i ++ [guarded o (l_oe s)]). unfold post. simpl. rewrite (it_s _ _ _ _ _ _ I), (tidy_safe o s i H). reflexivity.
Qed.
(** what follows a row begins with what was there before the row, clamped or not *)
Lemma begins_post s g h : tidy s -> iter o p ea er s g -> begins o (l_hist (post g)) h ->
  begins o (l_hist s) h /\ begins o (l_hist (safety o s)) h.
Proof.
  intros [i H] I B. destruct (safe_hist o s) as (E1 & E2 & E3 & E4 & E5 & E6 & E7 & E8).
  destruct B as (B1 & B2 & B3 & B4 & B5 & B6 & B7 & B8 & i' & z & z' & r & S1 & S2 & Z).
  unfold post in *. cbn [l_hist push6 push3 h_times h_masses h_controls h_battery h_Qs h_dQdts h_etas h_bounds h_states] in *.
  rewrite (it_s _ _ _ _ _ _ I) in *. rewrite E1, E2, E3, E4, E5, E6, E7, E8, (tidy_safe o s i H) in *.
  assert (i' = i ++ [guarded o (l_oe s)]) as -> by (apply app_inj_tail in S1; destruct S1; auto).
  rewrite <- app_assoc in S2. simpl in S2.
  split; unfold begins; rewrite ?E1, ?E2, ?E3, ?E4, ?E5, ?E6, ?E7, ?E8; repeat (split; [eapply starts_snoc; eassumption|]).
  - exists i, (l_oe s), (guarded o (l_oe s)), (z' :: r). auto.
  - exists i, (guarded o (l_oe s)), (guarded o (l_oe s)), (z' :: r). rewrite (tidy_safe o s i H). auto.
Qed.

Definition ended (r : lres N) (s : lstate N) : Prop := r = LEnd s \/ exists c v, r = LStop c v s.
Lemma exit_stop_hist s c v s' : exit_check o p s = Stop c v s' -> l_hist s' = l_hist s /\ l_oe s' = l_oe s.
Proof. intros H. pose proof (exit_cases o p s) as E. rewrite H in E. inversion E; subst; auto. Qed.

(** a run from [s] on begins with what is recorded in [s] *)
Lemma mono fuel : forall s s', tidy s -> ended (loop fuel o p ea er s) s' -> begins o (l_hist s) (l_hist s').
Proof.
  induction fuel as [|n IH]; intros s s' Ht [E|(c & v & E)]; simpl in E.
  - destruct (guard p s); [discriminate|]. injection E as <-. apply begins_refl; assumption.
  - destruct (guard p s); discriminate.
  - destruct (guard p s); [|injection E as <-; apply begins_refl; assumption].
    pose proof (step_cases o p ea er s) as C. destruct (step o p ea er s) as [s1|c1 v1 s1|e s1]; try discriminate.
    inversion C as [g I X| | |]. destruct (exit_next_hist o p (post g) s1 X) as [k ->].
    apply (begins_post s g _ Ht I). change (l_hist (post g)) with (l_hist (with_nrel (post g) k)). apply IH.
    + apply (post_tidy s g Ht I).
    + left. exact E.
  - destruct (guard p s); [|discriminate].
    pose proof (step_cases o p ea er s) as C. destruct (step o p ea er s) as [s1|c1 v1 s1|e s1]; try discriminate.
    + inversion C as [g I X| | |]. destruct (exit_next_hist o p (post g) s1 X) as [k ->].
      apply (begins_post s g _ Ht I). change (l_hist (post g)) with (l_hist (with_nrel (post g) k)). apply IH.
      * apply (post_tidy s g Ht I).
      * right. eauto.
    + injection E as _ _ <-. inversion C as [g I X|pl H1 H2 X| |].
      * destruct (exit_stop_hist _ _ _ _ X) as [X1 _]. rewrite X1. apply (begins_post s g _ Ht I). apply begins_refl. apply (post_tidy s g Ht I).
      * apply begins_safe. exact Ht.
Qed.
Lemma step_more n s s1 s' : tidy s -> step o p ea er s = Next s1 -> ended (loop n o p ea er s1) s' ->
  begins o (l_hist (safety o s)) (l_hist s').
Proof.
  intros Ht E L. pose proof (step_cases o p ea er s) as C. rewrite E in C. inversion C as [g I X| | |].
  destruct (exit_next_hist o p (post g) s1 X) as [k ->].
  apply (begins_post s g _ Ht I). change (l_hist (post g)) with (l_hist (with_nrel (post g) k)). apply (mono n); [|exact L]. apply (post_tidy s g Ht I).
Qed.
End One.

(** ** Two runs *)
Variables (o : qlaw N) (p : problem N) (ea er : eta_arg N) (c : stops N).
Notation o2 := (qlaw_until c p o).
Notation p2 := (problem_until c p).
Definition gto (n : Z) (g : grow N) : grow N :=
  mkgrow (with_nrel (g_s g) n) (g_pl g) (g_c g) (g_ptrb g) (g_oe g) (g_t g) (g_m g) (g_dtb g) (g_b g) (g_chg g) (g_al g) (g_be g).

Lemma safety_nrel s n : safety o2 (with_nrel s n) = with_nrel (safety o s) n.
Proof. unfold safety. cbn [q_etype qlaw_until]. destruct (q_etype o); reflexivity. Qed.
Lemma guarded_same z : guarded o2 z = guarded o z. Proof. reflexivity. Qed.
Lemma begins_same h h' : begins o2 h h' <-> begins o h h'. Proof. reflexivity. Qed.

Lemma control_nan s pl a n : control o2 p2 ea er (with_nrel s n) pl a = control o p ea er s pl a \/
  control o2 p2 ea er (with_nrel s n) pl a = Ok NanBreak \/ control o p ea er s pl a = Ok NanBreak.
Proof.
  unfold control. destruct (pl_duty pl); [|left; reflexivity].
  change (lyap_call o2 p2 a (l_oe (with_nrel s n))) with (lyap_call o p a (l_oe s)).
  destruct (lyap_call o p a (l_oe s)) as [[[[[[al be] v] psi] q] qd]|e]; [|left; reflexivity]. cbn [bind].
  destruct (nisnan al || nisnan be)%bool; [|left; reflexivity].
  change (l_nnan (with_nrel s n)) with (l_nnan s). destruct (Z.ltb (q_nan_thr o2) _); [auto|].
  destruct (Z.ltb (q_nan_thr o) _); auto.
Qed.
(** an iteration of the one is an iteration of the other, up to the count of relaxed hits *)
Lemma same_row s n g1 g2 : iter o p ea er s g1 -> iter o2 p2 ea er (with_nrel s n) g2 -> post g2 = with_nrel (post g1) n.
Proof.
  intros [A1 A2 A3 A4 A5 A6 A7] [B1 B2 B3 B4 B5 B6 B7]. rewrite safety_nrel, <- A1 in B1.
  destruct g1 as [s1 pl1 c1 w1 x1 t1 m1 d1 b1 k1 al1 be1], g2 as [s2 pl2 c2 w2 x2 t2 m2 d2 b2 k2 al2 be2].
  cbn [g_s g_pl g_c g_ptrb g_oe g_t g_m g_dtb g_b g_chg g_al g_be] in *. subst s2.
  change (plan o2 p2 (with_nrel s1 n)) with (plan o p s1) in B2. rewrite A2 in B2. assert (pl2 = pl1) as -> by congruence. clear B2.
  change (accel_thrust p2 (pl_dt pl1) (l_mass (with_nrel s1 n))) with (accel_thrust p (pl_dt pl1) (l_mass s1)) in B3.
  assert (c2 = c1) as ->. { destruct (control_nan s1 pl1 (accel_thrust p (pl_dt pl1) (l_mass s1)) n) as [E|[E|E]]; congruence. }
  change (perturbation o2 (with_nrel s1 n)) with (perturbation o s1) in B4. assert (w2 = w1) as -> by congruence.
  change (propagate o2 p2 (with_nrel s1 n) pl1 c1 w1) with (propagate o p s1 pl1 c1 w1) in B5. rewrite A5 in B5.
  assert (x2 = x1 /\ t2 = t1 /\ m2 = m1 /\ d2 = d1) as (-> & -> & -> & ->) by (repeat split; congruence).
  change (battery_update p2) with (battery_update p) in B6. change (l_batt (with_nrel s1 n)) with (l_batt s1) in B6.
  assert (b2 = b1 /\ k2 = k1) as (-> & ->) by (split; congruence). assert (al2 = al1 /\ be2 = be1) as (-> & ->) by (split; congruence).
  reflexivity.
Qed.

Lemma ended_inv n oo pp s sf : ended (loop (S n) oo pp ea er s) sf -> guard pp s = true ->
  exists r, step oo pp ea er s = r /\ ((exists s1, r = Next s1 /\ ended (loop n oo pp ea er s1) sf) \/ (exists cd v, r = Stop cd v sf)).
Proof.
  intros E G. unfold ended in E. simpl in E. rewrite G in E. exists (step oo pp ea er s). split; [reflexivity|].
  destruct (step oo pp ea er s) as [s1|cd v s1|e s1].
  - left. exists s1. split; [reflexivity|]. exact E.
  - right. destruct E as [E|(cd' & v' & E)]; [discriminate|]. exists cd, v. congruence.
  - destruct E as [E|(cd' & v' & E)]; discriminate.
Qed.
Lemma ended_guard n oo pp s sf : ended (loop n oo pp ea er s) sf -> guard pp s = true -> exists n', n = S n'.
Proof. destruct n; eauto. unfold ended. simpl. intros E G. rewrite G in E. destruct E as [E|(?&?&E)]; discriminate. Qed.
Lemma ended_stop n oo pp s sf : ended (loop n oo pp ea er s) sf -> guard pp s = false -> sf = s.
Proof. unfold ended. destruct n; simpl; intros E G; rewrite G in E; destruct E as [E|(?&?&E)]; try discriminate; congruence. Qed.

Lemma two_runs f1 : forall f2 s n s1 s2, tidy s -> ended (loop f1 o p ea er s) s1 -> ended (loop f2 o2 p2 ea er (with_nrel s n)) s2 ->
  begins o (l_hist s1) (l_hist s2) \/ begins o (l_hist s2) (l_hist s1).
Proof.
  induction f1 as [|f1 IH]; intros f2 s n s1 s2 Ht E1 E2.
  { destruct (guard p s) eqn:G1; [destruct (ended_guard _ _ _ _ _ E1 G1); discriminate|].
    rewrite (ended_stop _ _ _ _ _ E1 G1). left. exact (mono o2 p2 ea er f2 (with_nrel s n) s2 Ht E2). }
  destruct (guard p s) eqn:G1.
  2:{ rewrite (ended_stop _ _ _ _ _ E1 G1). left. exact (mono o2 p2 ea er f2 (with_nrel s n) s2 Ht E2). }
  destruct (guard p2 (with_nrel s n)) eqn:G2.
  2:{ rewrite (ended_stop _ _ _ _ _ E2 G2). right. exact (mono o p ea er _ s s1 Ht E1). }
  destruct (ended_guard _ _ _ _ _ E2 G2) as [f2' ->].
  pose proof (step_cases o p ea er s) as C1. pose proof (step_cases o2 p2 ea er (with_nrel s n)) as C2.
  destruct (ended_inv _ _ _ _ _ E1 G1) as (r1 & R1 & D1). destruct (ended_inv _ _ _ _ _ E2 G2) as (r2 & R2 & D2).
  rewrite R1 in C1. rewrite R2 in C2.
  assert (T2 : tidy (with_nrel s n)) by exact Ht.
  destruct D1 as [(a1 & -> & D1)|(cd1 & v1 & ->)], D2 as [(a2 & -> & D2)|(cd2 & v2 & ->)].
  - inversion C1 as [g1 I1 X1| | |]. inversion C2 as [g2 I2 X2| | |].
    pose proof (same_row s n g1 g2 I1 I2) as P. destruct (exit_next_hist o p _ _ X1) as [k1 ->]. destruct (exit_next_hist o2 p2 _ _ X2) as [k2 ->].
    rewrite P in D2. apply (IH f2' (with_nrel (post g1) k1) k2 s1 s2); [exact (post_tidy o p ea er s g1 Ht I1)|exact D1|exact D2].
  - right. inversion C2 as [g2 I2 X2|pl H1 H2 X2| |].
    + inversion C1 as [g1 I1 X1| | |]. destruct (exit_next_hist o p _ _ X1) as [k1 ->].
      destruct (exit_stop_hist o2 p2 _ _ _ _ X2) as [Y _]. rewrite Y, (same_row s n g1 g2 I1 I2).
      apply (mono o p ea er f1 (with_nrel (post g1) k1)); [exact (post_tidy o p ea er s g1 Ht I1)|exact D1].
    + rewrite safety_nrel. change (l_hist (with_nrel (safety o s) n)) with (l_hist (safety o s)). exact (step_more o p ea er f1 s a1 s1 Ht R1 D1).
  - left. inversion C1 as [g1 I1 X1|pl H1 H2 X1| |].
    + inversion C2 as [g2 I2 X2| | |]. destruct (exit_next_hist o2 p2 _ _ X2) as [k2 ->].
      destruct (exit_stop_hist o p _ _ _ _ X1) as [Y _]. rewrite Y. rewrite (same_row s n g1 g2 I1 I2) in D2.
      change (l_hist (post g1)) with (l_hist (with_nrel (with_nrel (post g1) n) k2)).
      apply (mono o2 p2 ea er f2'); [exact (post_tidy o p ea er s g1 Ht I1)|exact D2].
    + pose proof (step_more o2 p2 ea er f2' (with_nrel s n) a2 s2 T2 R2 D2) as B. rewrite safety_nrel in B. exact B.
  - inversion C1 as [g1 I1 X1|pl H1 H2 X1| |]; inversion C2 as [g2 I2 X2|pl' H1' H2' X2| |].
    + destruct (exit_stop_hist o p _ _ _ _ X1) as [Y1 _]. destruct (exit_stop_hist o2 p2 _ _ _ _ X2) as [Y2 _].
      rewrite Y1, Y2, (same_row s n g1 g2 I1 I2). left. exact (begins_refl o (post g1) (post_tidy o p ea er s g1 Ht I1)).
    + right. destruct (exit_stop_hist o p _ _ _ _ X1) as [Y1 _]. rewrite Y1, safety_nrel.
      apply (begins_post o p ea er s g1 _ Ht I1). exact (begins_refl o (post g1) (post_tidy o p ea er s g1 Ht I1)).
    + left. destruct (exit_stop_hist o2 p2 _ _ _ _ X2) as [Y2 _]. rewrite Y2.
      pose proof (post_tidy o2 p2 ea er _ g2 T2 I2) as T3.
      pose proof (proj2 (begins_post o2 p2 ea er (with_nrel s n) g2 _ T2 I2 (begins_refl o2 _ T3))) as B. rewrite safety_nrel in B. exact B.
    + left. rewrite safety_nrel. exact (begins_safe_self o s Ht).
Qed.

Lemma ran_ended oo pp fuel o' h : ran fuel oo ea er pp o' h -> exists s, ended (loop fuel oo pp ea er (init_state pp)) s /\ h = l_hist s.
Proof.
  intros (R & P & H). unfold solve in R. rewrite P in R. unfold ended.
  destruct ea; try discriminate; destruct (loop fuel oo pp _ er (init_state pp)) as [s|cd vv s|e s|s]; try discriminate;
  injection R as <-; unfold finish, with_run in H; cbn [q_hist] in H; exists s; split; eauto; congruence.
Qed.
Lemma C87_lem f1 f2 o1' h1 o2' h2 : ran f1 o ea er p o1' h1 -> ran f2 o2 ea er p2 o2' h2 -> begins o h1 h2 \/ begins o h2 h1.
Proof.
  intros R1 R2. destruct (ran_ended _ _ _ _ _ R1) as (s1 & E1 & ->). destruct (ran_ended _ _ _ _ _ R2) as (s2 & E2 & ->).
  apply (two_runs f1 f2 (init_state p) 0 s1 s2 (tidy_init p) E1 E2).
Qed.
End Cut.

(** ** A later final time *)
Definition later {N : Num} (o : qlaw N) (p : problem N) (tf : car) : stops N :=
  mkstops (q_tol o) (q_tol_relaxed o) (q_exit_relaxed o) (q_nan_thr o) tf (p_mass_min p).
Lemma guard_later (p : problem XNum) o tf s : nleb (nabs (p_tf_max p)) (nabs tf) = true -> guard p s = true -> guard (problem_until (later o p tf) p) s = true.
Proof.
  unfold guard. cbn [p_tf_max problem_until later st_tf]. generalize (nabs (p_tf_max p)) (nabs tf) (nabs (last (h_times (l_hist s)) (nofZ 0))).
  intros a b x H1 H2. change (xltb x b = true). change (xltb x a = true) in H2. change (xleb a b = true) in H1.
  destruct a, b, x; try discriminate; try reflexivity. cbn in *. rewrite xleb_fin in H1. apply Rleb_true in H1. apply Rltb_true in H2. apply Rltb_true. lra.
Qed.
Section Later.
Variables (o : qlaw XNum) (p : problem XNum) (ea er : eta_arg XNum) (tf : ereal).
Hypothesis H : nleb (Num:=XNum) (nabs (Num:=XNum) (p_tf_max p)) (nabs (Num:=XNum) tf) = true.
Notation o2 := (qlaw_until (later o p tf) p o).
Notation p2 := (problem_until (later o p tf) p).
Lemma loop_later f1 : forall f2 s s1 s2, tidy s -> ended (loop f1 o p ea er s) s1 -> ended (loop f2 o2 p2 ea er s) s2 ->
  begins o (l_hist s1) (l_hist s2) /\ (loop f1 o p ea er s = LEnd s1 \/ loop f2 o2 p2 ea er s = loop f1 o p ea er s).
Proof.
  induction f1 as [|f1 IH]; intros f2 s s1 s2 Ht E1 E2; destruct (guard p s) eqn:G.
  - destruct (ended_guard _ _ _ _ _ _ _ E1 G); discriminate.
  - split; [|cbn [loop]; rewrite G; left; rewrite (ended_stop _ _ _ _ _ _ _ E1 G); reflexivity].
    rewrite (ended_stop _ _ _ _ _ _ _ E1 G). exact (mono o2 p2 ea er f2 s s2 Ht E2).
  - pose proof (guard_later p o tf s H G) as G2. destruct (ended_guard _ _ _ _ _ _ _ E2 G2) as [f2' ->].
    unfold ended in E1, E2. cbn [loop] in *. rewrite G in *. rewrite G2 in *.
    change (step o2 p2 ea er s) with (step o p ea er s) in *.
    pose proof (step_cases o p ea er s) as C. destruct (step o p ea er s) as [a|cd v a|e a].
    + inversion C as [g I X| | |]. destruct (exit_next_hist o p _ _ X) as [k ->].
      apply (IH f2' (with_nrel (post g) k)); [exact (post_tidy o p ea er s g Ht I)|exact E1|exact E2].
    + destruct E1 as [E1|(?&?&E1)]; [discriminate|]. destruct E2 as [E2|(?&?&E2)]; [discriminate|].
      assert (s1 = a) by congruence. assert (s2 = a) by congruence. subst s1 s2. split; [|auto].
      inversion C as [g I X|pl' H1' H2' X| |].
      * destruct (exit_stop_hist o p _ _ _ _ X) as [Y _]. rewrite Y. apply begins_refl. exact (post_tidy o p ea er s g Ht I).
      * apply begins_safe_self. exact Ht.
    + destruct E1 as [E1|(?&?&E1)]; discriminate.
  - split; [|cbn [loop]; rewrite G; left; rewrite (ended_stop _ _ _ _ _ _ _ E1 G); reflexivity].
    rewrite (ended_stop _ _ _ _ _ _ _ E1 G). exact (mono o2 p2 ea er f2 s s2 Ht E2).
Qed.
Lemma C87_later_lem f1 f2 o1' h1 o2' h2 : ran f1 o ea er p o1' h1 -> ran f2 o2 ea er p2 o2' h2 ->
  begins o h1 h2 /\ (fresh o -> q_exitcode o1' <> (-2)%Z -> h2 = h1 /\ q_exitcode o2' = q_exitcode o1').
Proof.
  intros R1 R2. destruct (ran_ended _ _ _ _ _ _ _ R1) as (s1 & E1 & ->). destruct (ran_ended _ _ _ _ _ _ _ R2) as (s2 & E2 & ->).
  destruct (loop_later f1 f2 _ s1 s2 (tidy_init p) E1 E2) as [B D]. split; [exact B|].
  intros [F1 F2] NC. destruct R1 as (R1 & P1 & _), R2 as (R2 & _ & _). unfold solve in R1, R2. rewrite P1 in R1. cbn [q_problem qlaw_until] in R2.
  change (init_state p2) with (init_state p) in R2.
  destruct D as [D|D].
  - exfalso. apply NC. destruct ea; try discriminate; rewrite D in R1; injection R1 as <-; unfold finish; rewrite F1, F2; reflexivity.
  - assert (s2 = s1). { unfold ended in E1, E2. change (init_state p2) with (init_state p) in E2. rewrite D in E2.
      destruct E1 as [E1|(?&?&E1)], E2 as [E2|(?&?&E2)]; congruence. }
    subst s2. split; [reflexivity|].
    destruct ea; try discriminate; rewrite D in R2; destruct (loop f1 o p _ er (init_state p)) as [s|cd vv s|e s|s]; try discriminate;
    injection R1 as <-; injection R2 as <-; reflexivity.
Qed.
End Later.
