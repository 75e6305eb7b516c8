(** Facts about runs of [solve] that hold for any number type. *)
From Coq Require Import ZArith List Bool Lia.
From Verif Require Import Num Base Elements Integrate Eom Convergence Lyapunov Perturb Qlaw Trace Spec.
Import ListNotations.

Section S.
Context {N : Num}.
Variables (o : qlaw N) (p : problem N) (ea er : eta_arg N).
Notation tr := (tr o p ea er).
Notation iter := (iter o p ea er).
Notation mkh := (mkh p).

(** How a returning run ended: its rows, its last recorded element vector, exit code and whether it
    set converge. *)
Inductive ended : list (grow N) -> vec6 N -> option Z -> bool -> Prop :=
| en_time gs s : tr gs s -> guard p s = false -> ended gs (l_oe s) None false
| en_stop gs s g code conv s' : tr gs s -> guard p s = true -> iter s g ->
    exit_check o p (post g) = Stop code conv s' -> ended (gs ++ [g]) (g_oe g) (Some code) conv
| en_nan gs s pl : tr gs s -> guard p s = true -> plan o p (safety o s) = Ok pl ->
    control o p ea er (safety o s) pl (accel_thrust p (pl_dt pl) (l_mass (safety o s))) = Ok NanBreak ->
    ended gs (l_oe (safety o s)) (Some (-3)%Z) false.

Lemma exit_stop_hist s code conv s' : exit_check o p s = Stop code conv s' -> l_hist s' = l_hist s.
Proof.
  intros H. pose proof (exit_cases o p s) as E. rewrite H in E. inversion E; subst; reflexivity.
Qed.

Lemma ran_ended fuel o' h : ran fuel o ea er p o' h ->
  exists gs oel code conv, ended gs oel code conv /\ h = mkh gs oel /\
    q_converge o' = (conv || q_converge o)%bool /\
    q_exitcode o' = (match code with
                     | Some c => if negb (conv || q_converge o) && Z.eqb c 0 then -2 else c
                     | None => if negb (q_converge o) && Z.eqb (q_exitcode o) 0 then -2 else q_exitcode o
                     end)%Z /\
    q_problem o' = Some (with_oe0 p h).
Proof.
  intros (H1 & Hp & Hh). unfold solve in H1. rewrite Hp in H1.
  assert (Hl : match loop fuel o p ea er (init_state p) with
       | LEnd s => Returns (finish o p (l_hist s) (q_converge o) (q_exitcode o))
       | LStop code conv s => Returns (finish o p (l_hist s) (conv || q_converge o) code)
       | LFail e s => Raises e (with_run o (Some (with_oe0 p (l_hist s))) (Some (l_hist s)) (q_converge o) (q_exitcode o))
       | LFuel _ => Running
       end = Returns o') by (destruct ea; [exact H1|exact H1|discriminate]).
  clear H1. pose proof (loop_cases o p ea er fuel) as LC.
  destruct (loop fuel o p ea er (init_state p)) as [s|code conv s|e s|s]; try discriminate.
  - inversion LC as [gs s1 Htr Hg Heq| | | |]; subst s1. injection Hl as <-. injection Hh as <-.
    exists gs, (l_oe s), None, false. split; [constructor; assumption|].
    simpl. split; [eapply tr_hist; eassumption|]. repeat split; reflexivity.
  - inversion LC as [|gs s0 g c1 v1 s1 Htr Hg Hit Hex Heq|gs s0 pl Htr Hg H1 H2 Heq| |]; subst.
    + injection Hl as <-. injection Hh as <-.
      exists (gs ++ [g]), (g_oe g), (Some code), conv. split; [econstructor; eassumption|].
      split.
      * rewrite (exit_stop_hist _ _ _ _ Hex). eapply post_hist; [|eassumption]. eapply tr_hist; eassumption.
      * simpl. repeat split; reflexivity.
    + injection Hl as <-. injection Hh as <-.
      exists gs, (l_oe (safety o s0)), (Some (-3)%Z), false. split; [econstructor; eassumption|].
      split; [apply safety_hist; eapply tr_hist; eassumption|]. simpl. repeat split; reflexivity.
Qed.

Lemma ended_row gs oel code conv : ended gs oel code conv -> forall k g, nth_error gs k = Some g ->
  exists sk, tr (firstn k gs) sk /\ guard p sk = true /\ iter sk g.
Proof.
  intros H k g Hk. destruct H as [gs s Htr _|gs s g0 code conv s' Htr Hg Hit Hex|gs s pl Htr Hg H1 H2].
  - destruct (tr_nth _ _ _ _ _ _ Htr k g Hk) as (sk & s' & A & B & C & _). eauto.
  - destruct (Nat.lt_ge_cases k (length gs)) as [Hlt|Hge].
    + rewrite nth_error_app1 in Hk by assumption.
      destruct (tr_nth _ _ _ _ _ _ Htr k g Hk) as (sk & s1 & A & B & C & _).
      exists sk. rewrite firstn_app. replace (k - length gs)%nat with 0%nat by lia.
      rewrite firstn_O, app_nil_r. auto.
    + assert (Hlen : k = length gs).
      { assert (k < length (gs ++ [g0]))%nat by (apply nth_error_Some; congruence).
        rewrite app_length in *. simpl in *. lia. }
      subst k. rewrite nth_error_app2 in Hk by lia. rewrite Nat.sub_diag in Hk. injection Hk as <-.
      exists s. rewrite firstn_app, firstn_all, Nat.sub_diag, firstn_O, app_nil_r. auto.
  - destruct (tr_nth _ _ _ _ _ _ Htr k g Hk) as (sk & s' & A & B & C & _). eauto.
Qed.

(** The state at the while test is the one left by the last row. *)
Lemma tr_last gs g s : tr (gs ++ [g]) s -> exists n, s = with_nrel (post g) n.
Proof.
  intros H. inversion H as [E|gs1 s1 g1 s1' Htr Hg Hit Hex E].
  - destruct gs; discriminate.
  - apply app_inj_tail in E as [_ ->]. exact (exit_next_hist o p _ _ Hex).
Qed.

Lemma safety_fields s :
  l_t (safety o s) = l_t s /\ l_mass (safety o s) = l_mass s /\ l_batt (safety o s) = l_batt s /\
  l_nrel (safety o s) = l_nrel s /\ l_nnan (safety o s) = l_nnan s /\ l_duty (safety o s) = l_duty s /\
  l_ton (safety o s) = l_ton s /\ l_toff (safety o s) = l_toff s /\ l_chg (safety o s) = l_chg s /\
  l_ab (safety o s) = l_ab s.
Proof. unfold safety. destruct (q_etype o); repeat split; reflexivity. Qed.

Lemma tr_cur gs s : tr gs s ->
  nth_error (nofZ 0 :: map g_t gs) (length gs) = Some (l_t s) /\
  nth_error (p_mass0 p :: map g_m gs) (length gs) = Some (l_mass s) /\
  nth_error (p_batt0 p :: map g_b gs) (length gs) = Some (l_batt s).
Proof.
  intros H. destruct gs as [|g gs _] using rev_ind.
  - inversion H as [E|gs1 s1 g1 s1' Htr Hg Hit Hex E]; [|destruct gs1; discriminate].
    repeat split; reflexivity.
  - destruct (tr_last _ _ _ H) as [n ->]. rewrite app_length, !map_app. simpl.
    rewrite Nat.add_1_r. simpl.
    rewrite !nth_error_app2 by (rewrite map_length; lia). rewrite !map_length, Nat.sub_diag.
    repeat split; reflexivity.
Qed.

Lemma nth_error_firstn_S {A} (l : list A) k x : nth_error l k = Some x ->
  firstn (S k) l = firstn k l ++ [x].
Proof.
  revert k; induction l as [|y l IH]; intros [|k] H; try discriminate.
  - injection H as ->. reflexivity.
  - simpl. f_equal. apply IH. exact H.
Qed.

Lemma nth_error_map_firstn {A B} (f : A -> B) (x0 : B) (l : list A) k : (k <= length l)%nat ->
  nth_error (x0 :: map f (firstn k l)) k = nth_error (x0 :: map f l) k.
Proof.
  intros H. destruct k as [|k]; [reflexivity|]. simpl.
  rewrite !nth_error_map. f_equal.
  revert k H; induction l as [|y l IH]; intros k H; [simpl in H; lia|].
  destruct k; [reflexivity|]. simpl. apply IH. simpl in H. lia.
Qed.

(** Everything recorded about step [k], with the iteration that produced it. *)
Record row_facts (h : hist N) (k : nat) (sk : lstate N) (g : grow N) : Prop := mkrf {
  rf_iter : iter sk g;
  rf_guard : guard p sk = true;
  rf_t : nth_error (h_times h) k = Some (l_t sk);
  rf_t' : nth_error (h_times h) (S k) = Some (g_t g);
  rf_m : nth_error (h_masses h) k = Some (l_mass sk);
  rf_m' : nth_error (h_masses h) (S k) = Some (g_m g);
  rf_b : nth_error (h_battery h) k = Some (l_batt sk);
  rf_b' : nth_error (h_battery h) (S k) = Some (g_b g);
  rf_oe : nth_error (h_states h) k = Some (l_oe (g_s g));
  rf_c : nth_error (h_controls h) k = Some (g_al g, g_be g, c_thr (g_c g));
  rf_e : nth_error (h_etas h) k = Some (c_etas (g_c g));
  rf_bd : nth_error (h_bounds h) k = Some (c_bounds (g_c g));
  rf_q : nth_error (h_Qs h) k = Some (c_q (g_c g));
  rf_dq : nth_error (h_dQdts h) k = Some (c_qdot (g_c g)) }.

Lemma ended_facts gs oel code conv : ended gs oel code conv ->
  forall k g, nth_error gs k = Some g ->
  exists sk, tr (firstn k gs) sk /\ row_facts (mkh gs oel) k sk g.
Proof.
  intros He k g Hk. destruct (ended_row _ _ _ _ He k g Hk) as (sk & Htr & Hg & Hit).
  exists sk. split; [exact Htr|].
  assert (Hlt : (k < length gs)%nat) by (apply nth_error_Some; congruence).
  destruct (tr_cur _ _ Htr) as (T1 & T2 & T3).
  rewrite firstn_length_le in T1, T2, T3 by lia.
  rewrite nth_error_map_firstn in T1, T2, T3 by lia.
  constructor; try assumption; simpl.
  - rewrite nth_error_map, Hk. reflexivity.
  - rewrite nth_error_map, Hk. reflexivity.
  - rewrite nth_error_map, Hk. reflexivity.
  - rewrite nth_error_app1 by (rewrite map_length; lia). rewrite nth_error_map, Hk. reflexivity.
  - rewrite nth_error_map, Hk. reflexivity.
  - rewrite nth_error_map, Hk. reflexivity.
  - rewrite nth_error_map, Hk. reflexivity.
  - rewrite nth_error_map, Hk. reflexivity.
  - rewrite nth_error_map, Hk. reflexivity.
Qed.

Lemma ran_row fuel o' h k : ran fuel o ea er p o' h -> (k < length (h_controls h))%nat ->
  exists gs oel code conv sk g, ended gs oel code conv /\ h = mkh gs oel /\
    nth_error gs k = Some g /\ tr (firstn k gs) sk /\ row_facts h k sk g.
Proof.
  intros Hr Hk. destruct (ran_ended _ _ _ Hr) as (gs & oel & code & conv & He & -> & _).
  simpl in Hk. rewrite map_length in Hk.
  destruct (nth_error gs k) as [g|] eqn:Hn; [|apply nth_error_None in Hn; lia].
  destruct (ended_facts _ _ _ _ He k g Hn) as (sk & Htr & Hf).
  exists gs, oel, code, conv, sk, g. auto.
Qed.

Lemma safety_oe s : l_oe (safety o s) = guarded o (l_oe s).
Proof. unfold safety, guarded. destruct (q_etype o); reflexivity. Qed.

(** The clamped states behind a trace. *)
Lemma tr_states gs s : tr gs s ->
  exists init, p_oe0 p :: map g_oe gs = init ++ [l_oe s] /\
    map (fun g => l_oe (g_s g)) gs = map (guarded o) init.
Proof.
  induction 1 as [|gs s g s' Htr IH Hg Hit Hex].
  - exists []. split; reflexivity.
  - destruct IH as (init & E1 & E2). exists (init ++ [l_oe s]).
    destruct (exit_next_hist o p _ _ Hex) as [n ->]. simpl.
    split.
    + rewrite map_app, <- E1. reflexivity.
    + rewrite !map_app, E2. simpl. rewrite (it_s _ _ _ _ _ _ Hit), safety_oe. reflexivity.
Qed.

Lemma ended_raws gs oel code conv : ended gs oel code conv ->
  raws o (p_oe0 p) (mkh gs oel) (map g_oe gs).
Proof.
  intros H. destruct H as [gs s Htr _|gs s g0 code conv s' Htr Hg Hit Hex|gs s pl Htr Hg H1 H2].
  - destruct (tr_states _ _ Htr) as (init & E1 & E2). exists init, (l_oe s). split; [exact E1|].
    left. simpl. rewrite E2. reflexivity.
  - destruct (tr_states _ _ Htr) as (init & E1 & E2).
    exists (init ++ [l_oe s]), (g_oe g0). split.
    + rewrite map_app, <- E1. reflexivity.
    + left. simpl. rewrite !map_app, E2. simpl. rewrite (it_s _ _ _ _ _ _ Hit), safety_oe. reflexivity.
  - destruct (tr_states _ _ Htr) as (init & E1 & E2). exists init, (l_oe s). split; [exact E1|].
    right. simpl. rewrite E2, safety_oe. reflexivity.
Qed.
Lemma prop_t s pl c pt oe' t' m' dtb : propagate o p s pl c pt = Ok (oe', t', m', dtb) ->
  t' = nadd (l_t s) (pl_dt pl).
Proof.
  unfold propagate. destruct (q_integ o).
  - destruct (rk4 _ _ _ _ _); [|discriminate]. cbn [bind]. intros H. injection H as _ <- _ _. reflexivity.
  - destruct (rkf45 _ _ _ _ _ _) as [[y hn]|]; [|discriminate]. cbn [bind]. intros H.
    injection H as _ <- _ _. reflexivity.
Qed.
Lemma iter_t sk g : iter sk g -> g_t g = nadd (l_t sk) (pl_dt (g_pl g)).
Proof.
  intros I. rewrite (prop_t _ _ _ _ _ _ _ _ (it_prop _ _ _ _ _ _ I)), (it_s _ _ _ _ _ _ I).
  destruct (safety_fields sk) as (-> & _). reflexivity.
Qed.

End S.
