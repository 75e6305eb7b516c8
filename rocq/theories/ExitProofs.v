(** Exit codes, alignment and convergence bookkeeping (any number type). *)
From Coq Require Import ZArith List Bool Lia.
From Verif Require Import Num Base Elements Integrate Eom Convergence Lyapunov Perturb Qlaw Trace Spec
  SolveProofs.
Import ListNotations.

Section E.
Context {N : Num}.
Variables (o : qlaw N) (p : problem N) (ea er : eta_arg N).
Notation tr := (tr o p ea er).
Notation iter := (iter o p ea er).
Notation mkh := (mkh p).
Notation ended := (ended o p ea er).

Notation nrel := (count_relaxed o p).

Lemma nrel_snoc zs z :
  nrel (zs ++ [z]) = (nrel zs + if okb (relaxed o p z) then 1 else 0)%Z.
Proof.
  unfold count_relaxed. rewrite filter_app, app_length. simpl.
  destruct (okb (relaxed o p z)); simpl; lia.
Qed.

Record tinv (gs : list (grow N)) (s : lstate N) : Prop := mktinv {
  ti_strict : Forall (fun z => strict o p z = Ok false) (map g_oe gs);
  ti_mass : Forall (fun m => nleb m (p_mass_min p) = false) (map g_m gs);
  ti_nrel : l_nrel s = nrel (map g_oe gs);
  ti_lim : (l_nrel s < q_exit_relaxed o)%Z \/ l_nrel s = 0%Z }.

Lemma iter_nrel s g : iter s g -> l_nrel (g_s g) = l_nrel s.
Proof. intros H. rewrite (it_s _ _ _ _ _ _ H). apply safety_fields. Qed.

Lemma tr_tinv gs s : tr gs s -> tinv gs s.
Proof.
  induction 1 as [|gs s g s' Htr IH Hg Hit Hex].
  - constructor; simpl; auto.
  - destruct IH as [I1 I2 I3 I4]. pose proof (iter_nrel _ _ Hit) as Hn.
    pose proof (exit_cases o p (post g)) as E. rewrite Hex in E.
    inversion E as [| | |r n H1 H2 H3 H4 H5 Heq|]; subst s'; clear E.
    assert (Hc : n = nrel (map g_oe (gs ++ [g]))).
    { rewrite map_app. cbn [map]. rewrite nrel_snoc, <- I3. subst n.
      unfold relaxed, strict. simpl in H2. rewrite H2. simpl. rewrite Hn. destruct r; simpl; lia. }
    constructor.
    + rewrite map_app. apply Forall_app. split; [exact I1|]. constructor; [exact H1|constructor].
    + rewrite map_app. apply Forall_app. split; [exact I2|]. constructor; [exact H5|constructor].
    + exact Hc.
    + simpl. subst n. destruct r; [left; apply H4; reflexivity|]. simpl. rewrite Hn. exact I4.
Qed.

Lemma last_map_snoc {A B} (f : A -> B) l x d : last (map f (l ++ [x])) d = f x.
Proof. rewrite map_app. apply last_last. Qed.

Lemma ran_lengths fuel o' h : ran fuel o ea er p o' h ->
  exists n, length (h_times h) = S n /\ length (h_states h) = S n /\ length (h_masses h) = S n /\
    length (h_battery h) = S n /\ length (h_controls h) = n /\ length (h_etas h) = n /\
    length (h_bounds h) = n /\ length (h_Qs h) = n /\ length (h_dQdts h) = n.
Proof.
  intros H. destruct (ran_ended o p ea er _ _ _ H) as (gs & oel & code & conv & He & -> & _).
  exists (length gs). simpl. rewrite app_length, !map_length. simpl. rewrite Nat.add_1_r.
  repeat split; reflexivity.
Qed.

Lemma ran_first fuel o' h : ran fuel o ea er p o' h ->
  nth_error (h_times h) 0 = Some (nofZ 0) /\ nth_error (h_masses h) 0 = Some (p_mass0 p) /\
  nth_error (h_battery h) 0 = Some (p_batt0 p) /\
  (exists p', q_problem o' = Some p' /\ nth_error (h_states h) 0 = Some (p_oe0 p')).
Proof.
  intros H. destruct (ran_ended o p ea er _ _ _ H) as (gs & oel & code & conv & He & -> & _ & _ & Hp).
  repeat split. exists (with_oe0 p (mkh gs oel)). split; [exact Hp|].
  simpl. destruct gs; reflexivity.
Qed.

(** Post-step facts of a run by how it ended. *)
Inductive verdict : list (grow N) -> Z -> bool -> Prop :=
| vd_conv gs g : strict o p (g_oe g) = Ok true -> (exists s, tr gs s) -> verdict (gs ++ [g]) 1 true
| vd_rel gs g : strict o p (g_oe g) = Ok false -> relaxed o p (g_oe g) = Ok true ->
    nrel (map g_oe (gs ++ [g])) = Z.max 1 (q_exit_relaxed o) -> (exists s, tr gs s) ->
    verdict (gs ++ [g]) 2 true
| vd_mass gs g : strict o p (g_oe g) = Ok false -> nleb (g_m g) (p_mass_min p) = true ->
    (exists s, tr gs s) -> verdict (gs ++ [g]) (-1) false
| vd_nan gs s pl : tr gs s -> guard p s = true -> plan o p (safety o s) = Ok pl ->
    control o p ea er (safety o s) pl (accel_thrust p (pl_dt pl) (l_mass (safety o s))) = Ok NanBreak ->
    verdict gs (-3) false
| vd_time gs s : tr gs s -> guard p s = false -> verdict gs (-2) false.

Lemma ended_verdict gs oel code conv : ended gs oel code conv ->
  verdict gs (match code with Some c => c | None => -2 end)%Z conv.
Proof.
  intros H. destruct H as [gs s Htr Hg|gs s g code conv s' Htr Hg Hit Hex|gs s pl Htr Hg H1 H2].
  - eapply vd_time; eauto.
  - pose proof (exit_cases o p (post g)) as E. rewrite Hex in E.
    inversion E as [H1|H1 H2 H3|r n H1 H2 H3 H4 H5| |]; subst.
    + apply vd_conv; eauto.
    + pose proof (tr_tinv _ _ Htr) as [I1 I2 I3 I4].
      simpl in H3. rewrite (iter_nrel _ _ Hit) in H3. apply vd_rel; eauto.
      rewrite map_app. cbn [map]. rewrite nrel_snoc, <- I3.
      simpl in H2. unfold relaxed at 1. rewrite H2. simpl.
      assert (0 <= nrel (map g_oe gs))%Z by (unfold count_relaxed; lia). lia.
    + apply vd_mass; eauto.
  - eapply vd_nan; eauto.
Qed.

Lemma ran_verdict fuel o' h : fresh o -> ran fuel o ea er p o' h ->
  exists gs oel, h = mkh gs oel /\ verdict gs (q_exitcode o') (q_converge o') /\
    raws o (p_oe0 p) h (map g_oe gs).
Proof.
  intros [F1 F2] H. destruct (ran_ended o p ea er _ _ _ H) as (gs & oel & code & conv & He & -> & Hc & Hx & _).
  exists gs, oel. split; [reflexivity|]. split; [|eapply ended_raws; eauto].
  rewrite F1, F2 in *. rewrite orb_false_r in Hc.
  pose proof (ended_verdict _ _ _ _ He) as V. rewrite Hc, Hx.
  destruct code as [c|].
  - assert (Hc0 : c <> 0%Z) by (intros ->; inversion V).
    apply Z.eqb_neq in Hc0. rewrite Hc0, andb_false_r. exact V.
  - exact V.
Qed.

Lemma tr_strict gs s : tr gs s -> Forall (fun z => strict o p z = Ok false) (map g_oe gs).
Proof. intros H. apply (ti_strict _ _ (tr_tinv _ _ H)). Qed.
Lemma tr_mass gs s : tr gs s -> Forall (fun m => nleb m (p_mass_min p) = false) (map g_m gs).
Proof. intros H. apply (ti_mass _ _ (tr_tinv _ _ H)). Qed.

Lemma C02_lem fuel o' h : fresh o -> ran fuel o ea er p o' h -> q_exitcode o' = 1%Z ->
  q_converge o' = true /\
  exists rest z, h_states h = rest ++ [z] /\ strict o p z = Ok true.
Proof.
  intros F H X. destruct (ran_ended o p ea er _ _ _ H) as (gs & oel & code & conv & He & -> & Hc & Hx & _).
  destruct F as [F1 F2]. rewrite F1, F2 in *. rewrite orb_false_r in Hc. rewrite X in Hx.
  destruct He as [gs s Htr Hg|gs s g code conv s' Htr Hg Hit Hex|gs s pl Htr Hg H1 H2];
    try (simpl in Hx; discriminate).
  pose proof (exit_cases o p (post g)) as E. rewrite Hex in E.
  inversion E as [H1|H1 H2 H3|r n H1 H2 H3 H4 H5| |]; subst; try (rewrite andb_false_r in Hx; discriminate).
  split; [congruence|]. eexists _, _. split; [reflexivity|]. exact H1.
Qed.

Lemma C03_lem fuel o' h : fresh o -> ran fuel o ea er p o' h -> q_exitcode o' = 2%Z ->
  exists zs z, raws o (p_oe0 p) h (zs ++ [z]) /\ relaxed o p z = Ok true /\
    Forall (fun x => strict o p x = Ok false) (zs ++ [z]) /\
    nrel (zs ++ [z]) = Z.max 1 (q_exit_relaxed o).
Proof.
  intros F H X. destruct (ran_verdict _ _ _ F H) as (gs & oel & Hh & V & R). rewrite X in V.
  inversion V as [|gs1 g H1 H2 H3 [s Htr]| | |]. subst gs.
  exists (map g_oe gs1), (g_oe g). rewrite map_app in *. cbn [map] in *.
  repeat split; auto. apply Forall_app. split; [eapply tr_strict; eauto|]. constructor; [auto|constructor].
Qed.

Lemma C04_lem fuel o' h : fresh o -> ran fuel o ea er p o' h -> q_exitcode o' = (-1)%Z ->
  exists ms m zs, h_masses h = p_mass0 p :: ms ++ [m] /\ raws o (p_oe0 p) h zs /\
    nleb m (p_mass_min p) = true /\ Forall (fun x => nleb x (p_mass_min p) = false) ms /\
    Forall (fun x => strict o p x = Ok false) zs.
Proof.
  intros F H X. destruct (ran_verdict _ _ _ F H) as (gs & oel & Hh & V & R). rewrite X in V.
  inversion V as [| |gs1 g H1 H2 [s Htr]| |]. subst gs.
  exists (map g_m gs1), (g_m g), (map g_oe (gs1 ++ [g])). subst h. simpl. rewrite map_app.
  repeat split; auto.
  - eapply tr_mass; eauto.
  - rewrite map_app. apply Forall_app. split; [eapply tr_strict; eauto|]. constructor; [auto|constructor].
Qed.

Lemma C05_lem fuel o' h : fresh o -> ran fuel o ea er p o' h -> q_exitcode o' = (-2)%Z ->
  exists ts t ms zs, h_times h = ts ++ [t] /\ nltb (nabs t) (nabs (p_tf_max p)) = false /\
    h_masses h = p_mass0 p :: ms /\ raws o (p_oe0 p) h zs /\
    Forall (fun x => nleb x (p_mass_min p) = false) ms /\
    Forall (fun x => strict o p x = Ok false) zs /\
    (nrel zs < q_exit_relaxed o \/ nrel zs = 0)%Z.
Proof.
  intros F H X. destruct (ran_verdict _ _ _ F H) as (gs & oel & Hh & V & R). rewrite X in V.
  inversion V as [| | | |gs1 s Htr Hg]. subst gs1.
  assert (Hne : h_times h <> []) by (subst h; discriminate).
  pose proof (app_removelast_last (nofZ 0) Hne) as Hl.
  exists (removelast (h_times h)), (last (h_times h) (nofZ 0)), (map g_m gs), (map g_oe gs).
  destruct (tr_tinv _ _ Htr) as [I1 I2 I3 I4].
  split; [exact Hl|]. split.
  { unfold guard in Hg. rewrite (tr_hist _ _ _ _ _ _ Htr) in Hg. subst h. exact Hg. }
  split; [subst h; reflexivity|]. split; [exact R|]. split; [exact I2|]. split; [exact I1|].
  rewrite <- I3. exact I4.
Qed.

Lemma C07_lem fuel o' h : fresh o -> ran fuel o ea er p o' h ->
  In (q_exitcode o') [1; 2; -1; -2; -3]%Z /\
  (q_converge o' = true <-> q_exitcode o' = 1%Z \/ q_exitcode o' = 2%Z).
Proof.
  intros F H. destruct (ran_verdict _ _ _ F H) as (gs & oel & Hh & V & R).
  inversion V; subst; (split; [simpl; tauto|]); split; intros Q; try discriminate; auto;
    destruct Q as [Q|Q]; discriminate.
Qed.

Lemma C09_lem fuel o' h : ran fuel o ea er p o' h ->
  exists zs, raws o (p_oe0 p) h zs /\ length zs = length (h_controls h) /\
    Forall (fun x => strict o p x = Ok false) (removelast zs).
Proof.
  intros H. destruct (ran_ended o p ea er _ _ _ H) as (gs & oel & code & conv & He & -> & _).
  exists (map g_oe gs). split; [eapply ended_raws; eauto|]. split; [simpl; rewrite !map_length; reflexivity|].
  destruct He as [gs s Htr Hg|gs s g code conv s' Htr Hg Hit Hex|gs s pl Htr Hg H1 H2].
  - pose proof (tr_strict _ _ Htr) as HF. clear - HF. induction HF as [|x l Hx Hl IH]; [constructor|].
    simpl. destruct l; [constructor|]. constructor; auto.
  - rewrite map_app. cbn [map]. rewrite removelast_last. eapply tr_strict; eauto.
  - pose proof (tr_strict _ _ Htr) as HF. clear - HF. induction HF as [|x l Hx Hl IH]; [constructor|].
    simpl. destruct l; [constructor|]. constructor; auto.
Qed.

(** nan bookkeeping *)
Notation nan_at := (nan_at o p).

Definition nan_row (g : grow N) : Prop :=
  pl_duty (g_pl g) = true /\
  nan_at (accel_thrust p (pl_dt (g_pl g)) (l_mass (g_s g))) (l_oe (g_s g)) /\
  g_al g = nofZ 0 /\ g_be g = nofZ 0 /\ c_thr (g_c g) = 0%Z.

Lemma iter_nan s g : iter s g ->
  (nan_row g /\ c_nnan (g_c g) = (l_nnan s + 1)%Z /\ (l_nnan s + 1 <= q_nan_thr o)%Z) \/
  (c_nnan (g_c g) = l_nnan s /\
   (pl_duty (g_pl g) = true -> exists al be u psi q qd,
      lyap_call o p (accel_thrust p (pl_dt (g_pl g)) (l_mass (g_s g))) (l_oe (g_s g))
        = Ok (al, be, u, psi, q, qd) /\ (nisnan al || nisnan be)%bool = false)).
Proof.
  intros [Hs Hp Hc _ _ _ Hab].
  assert (Hn : l_nnan (g_s g) = l_nnan s) by (rewrite Hs; apply safety_fields).
  unfold control in Hc. set (acc := accel_thrust p (pl_dt (g_pl g)) (l_mass (g_s g))) in *.
  destruct (pl_duty (g_pl g)) eqn:Hd.
  - destruct (lyap_call o p acc (l_oe (g_s g))) as [[[[[[al be] u] psi] q] qd]|e] eqn:HL; [|discriminate].
    cbn [bind] in Hc. cbv zeta in Hc. rewrite Hn in Hc.
    destruct (nisnan al || nisnan be)%bool eqn:Hnan.
    + destruct (Z.ltb_spec (q_nan_thr o) (l_nnan s + 1)) as [|Hle]; [discriminate|].
      left. injection Hc as Hc. unfold nan_row. fold acc. rewrite <- Hc in *. simpl in *.
      injection Hab as Ha Hb.
      repeat split; auto. exists al, be, u, psi, q, qd. auto.
    + right. split; [|intros _; exists al, be, u, psi, q, qd; auto].
      destruct (nltb _ _ || nltb _ _)%bool in Hc.
      * destruct (evaluate_osculating_qdot o p (l_oe (g_s g)) acc) as [[qm qM]|] in Hc; [|discriminate].
        injection Hc as Hc. rewrite <- Hc. reflexivity.
      * injection Hc as Hc. rewrite <- Hc. reflexivity.
  - right. split; [|discriminate].
    destruct (lyap_call o p acc (l_oe (g_s g))) as [[[[[[al be] u] psi] q] qd]|e]; [|discriminate].
    injection Hc as Hc. rewrite <- Hc. exact Hn.
Qed.

(** the indices of the nan steps among the rows *)
Inductive nan_count : list (grow N) -> list nat -> Prop :=
| nc_nil : nan_count [] []
| nc_yes gs g ks : nan_count gs ks -> nan_row g -> nan_count (gs ++ [g]) (ks ++ [length gs])
| nc_no gs g ks : nan_count gs ks ->
    (pl_duty (g_pl g) = true -> exists al be u psi q qd,
      lyap_call o p (accel_thrust p (pl_dt (g_pl g)) (l_mass (g_s g))) (l_oe (g_s g))
        = Ok (al, be, u, psi, q, qd) /\ (nisnan al || nisnan be)%bool = false) ->
    nan_count (gs ++ [g]) ks.

Lemma tr_nan gs s : tr gs s -> exists ks, nan_count gs ks /\ l_nnan s = Z.of_nat (length ks) /\
  ((l_nnan s <= q_nan_thr o)%Z \/ l_nnan s = 0%Z).
Proof.
  induction 1 as [|gs s g s' Htr IH Hg Hit Hex].
  - exists []. split; [constructor|]. split; [reflexivity|]. right. reflexivity.
  - destruct IH as (ks & Hk & Hlen & Hlim). destruct (exit_next_hist o p _ _ Hex) as [n ->]. simpl.
    destruct (iter_nan _ _ Hit) as [(R & Hc & Hle)|(Hc & R)].
    + exists (ks ++ [length gs]). split; [constructor; auto|]. rewrite app_length. simpl.
      split; lia.
    + exists ks. split; [apply nc_no; auto|]. rewrite Hc. split; [exact Hlen|]. lia.
Qed.

Lemma nan_count_spec gs ks : nan_count gs ks ->
  NoDup ks /\ (forall k, In k ks -> exists g, nth_error gs k = Some g /\ nan_row g) /\
  (forall k g, nth_error gs k = Some g -> ~ In k ks -> pl_duty (g_pl g) = true ->
     exists al be u psi q qd,
      lyap_call o p (accel_thrust p (pl_dt (g_pl g)) (l_mass (g_s g))) (l_oe (g_s g))
        = Ok (al, be, u, psi, q, qd) /\ (nisnan al || nisnan be)%bool = false).
Proof.
  induction 1 as [|gs g ks H [IH1 [IH2 IH3]] R|gs g ks H [IH1 [IH2 IH3]] R].
  - split; [constructor|]. split; [intros k []|]. intros [|k] g Hk; discriminate.
  - assert (Hb : forall k, In k ks -> (k < length gs)%nat).
    { intros k Hk. destruct (IH2 k Hk) as (g' & E & _). apply nth_error_Some. congruence. }
    split; [|split].
    + apply NoDup_rev in IH1. rewrite <- (rev_involutive (ks ++ [length gs])). apply NoDup_rev.
      rewrite rev_app_distr. simpl. constructor; [|exact IH1].
      rewrite <- in_rev. intros Hi. apply Hb in Hi. lia.
    + intros k Hk. apply in_app_or in Hk as [Hk|[<-|[]]].
      * destruct (IH2 k Hk) as (g' & E & R'). exists g'. split; [|exact R'].
        rewrite nth_error_app1; [exact E|apply Hb; exact Hk].
      * exists g. split; [|exact R]. rewrite nth_error_app2 by lia. rewrite Nat.sub_diag. reflexivity.
    + intros k g' Hk Hni. destruct (Nat.lt_ge_cases k (length gs)) as [Hlt|Hge].
      * rewrite nth_error_app1 in Hk by assumption. apply (IH3 k g' Hk).
        intros Hi. apply Hni. apply in_or_app. auto.
      * exfalso. apply Hni. apply in_or_app. right. left.
        assert (k < length (gs ++ [g]))%nat by (apply nth_error_Some; congruence).
        rewrite app_length in *. simpl in *. lia.
  - assert (Hb : forall k, In k ks -> (k < length gs)%nat).
    { intros k Hk. destruct (IH2 k Hk) as (g' & E & _). apply nth_error_Some. congruence. }
    split; [exact IH1|]. split.
    + intros k Hk. destruct (IH2 k Hk) as (g' & E & R'). exists g'. split; [|exact R'].
      rewrite nth_error_app1; [exact E|apply Hb; exact Hk].
    + intros k g' Hk Hni. destruct (Nat.lt_ge_cases k (length gs)) as [Hlt|Hge].
      * rewrite nth_error_app1 in Hk by assumption. apply (IH3 k g' Hk Hni).
      * assert (k = length gs).
        { assert (k < length (gs ++ [g]))%nat by (apply nth_error_Some; congruence).
          rewrite app_length in *. simpl in *. lia. }
        subst k. rewrite nth_error_app2, Nat.sub_diag in Hk by lia. injection Hk as <-. exact R.
Qed.

Lemma nanbreak_inv s pl acc : control o p ea er s pl acc = Ok NanBreak ->
  pl_duty pl = true /\ nan_at acc (l_oe s) /\ (q_nan_thr o < l_nnan s + 1)%Z.
Proof.
  unfold control. destruct (pl_duty pl) eqn:Hd.
  - destruct (lyap_call o p acc (l_oe s)) as [[[[[[al be] u] psi] q] qd]|e] eqn:HL; [|discriminate].
    cbn [bind]. cbv zeta. destruct (nisnan al || nisnan be)%bool eqn:Hnan.
    + destruct (Z.ltb_spec (q_nan_thr o) (l_nnan s + 1)) as [Hlt|Hle]; [|discriminate].
      intros _. split; [reflexivity|]. split; [|lia]. exists al, be, u, psi, q, qd. auto.
    + destruct (nltb _ _ || nltb _ _)%bool; [|discriminate].
      destruct (evaluate_osculating_qdot o p (l_oe s) acc) as [[qm qM]|]; discriminate.
  - destruct (lyap_call o p acc (l_oe s)) as [[[[[[al be] u] psi] q] qd]|e]; discriminate.
Qed.

(** The acceleration used at a state with mass [m] for a step of signed length [dt]. *)
Lemma plan_step s pl : plan o p s = Ok pl -> takes_step o p (l_oe s) (l_batt s) (pl_dt pl).
Proof.
  unfold plan. destruct (local_step o p (l_oe s)) as [d|] eqn:E; [|discriminate]. cbn [bind]. intros H. exists d. split.
  { unfold local_step in *. destruct (q_sundman o); [exact E|]. injection E as <-. reflexivity. }
  destruct (duty_phase p _ _ _ _) as [[d1 ton] toff]. unfold battery_phase in H. destruct (nleb _ _) eqn:L1; [injection H as <-; auto|].
  destruct (nltb _ (p_cap_lo p)) eqn:L2; cbn [andb] in H; [|injection H as <-; auto]. destruct (negb _); injection H as <-; auto.
Qed.
Lemma C06_lem fuel o' h : fresh o -> ran fuel o ea er p o' h -> q_exitcode o' = (-3)%Z ->
  (0 <= q_nan_thr o)%Z ->
  exists ks : list nat,
    Z.of_nat (length ks) = q_nan_thr o /\ NoDup ks /\
    (forall k, In k ks -> exists t m oe b dt, nth_error (h_times h) k = Some t /\
       nth_error (h_times h) (S k) = Some (nadd t dt) /\ nth_error (h_masses h) k = Some m /\
       nth_error (h_states h) k = Some oe /\ nth_error (h_battery h) k = Some b /\ takes_step o p oe b dt /\
       nan_at (nmul (npsign dt) (p_tmax p) / m)%num oe /\
       nth_error (h_controls h) k = Some (nofZ 0, nofZ 0, 0%Z)) /\
    (exists m oe b dt, nth_error (h_masses h) (length (h_controls h)) = Some m /\
       nth_error (h_states h) (length (h_controls h)) = Some oe /\
       nth_error (h_battery h) (length (h_controls h)) = Some b /\ takes_step o p oe b dt /\
       nan_at (nmul (npsign dt) (p_tmax p) / m)%num oe) /\
    (exists t, nth_error (h_times h) (length (h_controls h)) = Some t /\
       nltb (nabs t) (nabs (p_tf_max p)) = true).
Proof.
  intros F H X Hthr.
  destruct (ran_ended o p ea er _ _ _ H) as (gs & oel & code & conv & He & -> & Hc & Hx & _).
  destruct F as [F1 F2]. rewrite F1, F2 in *. rewrite X in Hx. rewrite orb_false_r in Hx.
  inversion He as [gs1 s Htr Hg|gs1 s g c1 v1 s' Htr Hg Hit Hex|gs1 s pl Htr Hg H1 H2]; subst.
  - simpl in Hx. discriminate.
  - exfalso. pose proof (exit_cases o p (post g)) as E. rewrite Hex in E.
    inversion E; subst; rewrite andb_false_r in Hx; discriminate.
  - destruct (tr_nan _ _ Htr) as (ks & Hks & Hlen & Hlim).
    destruct (nanbreak_inv _ _ _ H2) as (Hd & Hn & Hgt).
    destruct (safety_fields o s) as (S1 & S2 & S3 & S4 & S5 & _). rewrite S5 in Hgt.
    destruct (nan_count_spec _ _ Hks) as (ND & HI & _).
    exists ks. split; [lia|]. split; [exact ND|].
    destruct (tr_cur _ _ _ _ _ _ Htr) as (T1 & T2 & T3).
    split; [|split].
    + intros k Hk. destruct (HI k Hk) as (g & E & R).
      destruct (ended_facts _ _ _ _ _ _ _ _ He k g E) as (sk & _ & RF).
      destruct R as (_ & Rn & Ra & Rb & Rt).
      exists (l_t sk), (l_mass sk), (l_oe (g_s g)), (l_batt sk), (pl_dt (g_pl g)).
      split; [apply (rf_t _ _ _ _ _ _ _ _ RF)|].
      split; [rewrite <- (iter_t _ _ _ _ _ _ (rf_iter _ _ _ _ _ _ _ _ RF)); apply (rf_t' _ _ _ _ _ _ _ _ RF)|].
      split; [apply (rf_m _ _ _ _ _ _ _ _ RF)|]. split; [apply (rf_oe _ _ _ _ _ _ _ _ RF)|].
      split; [apply (rf_b _ _ _ _ _ _ _ _ RF)|].
      split.
      { pose proof (plan_step _ _ (it_plan _ _ _ _ _ _ (rf_iter _ _ _ _ _ _ _ _ RF))) as PS.
        replace (l_batt sk) with (l_batt (g_s g)); [exact PS|].
        rewrite (it_s _ _ _ _ _ _ (rf_iter _ _ _ _ _ _ _ _ RF)). apply safety_fields. }
      split.
      * assert (Hm : l_mass sk = l_mass (g_s g)).
        { rewrite (it_s _ _ _ _ _ _ (rf_iter _ _ _ _ _ _ _ _ RF)). symmetry. apply safety_fields. }
        rewrite Hm. exact Rn.
      * rewrite (rf_c _ _ _ _ _ _ _ _ RF), Ra, Rb, Rt. reflexivity.
    + simpl. rewrite map_length.
      exists (l_mass s), (l_oe (safety o s)), (l_batt s), (pl_dt pl). split; [exact T2|]. split; [|split; [exact T3|split]].
      * rewrite nth_error_app2; rewrite map_length; [|lia]. rewrite Nat.sub_diag. reflexivity.
      * rewrite <- S3. exact (plan_step _ _ H1).
      * rewrite S2 in Hn. exact Hn.
    + simpl. rewrite map_length. exists (l_t s). split; [exact T1|].
      unfold guard in Hg. rewrite (tr_hist _ _ _ _ _ _ Htr) in Hg. cbn [h_times Trace.mkh] in Hg.
      assert (Hl : forall (l : list car) d x, nth_error l (length l - 1) = Some x -> last l d = x).
      { intros l d x Hx0. destruct l as [|y l _] using rev_ind; [discriminate|].
        rewrite last_last. rewrite app_length in Hx0. simpl in Hx0.
        rewrite Nat.add_sub in Hx0. rewrite nth_error_app2, Nat.sub_diag in Hx0 by lia.
        injection Hx0 as ->. reflexivity. }
      rewrite (Hl (nofZ 0 :: map g_t gs) (nofZ 0) (l_t s)) in Hg; [exact Hg|].
      simpl. rewrite map_length, Nat.sub_0_r. exact T1.
Qed.
End E.
