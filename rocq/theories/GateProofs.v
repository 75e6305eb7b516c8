(** Gating of thrust, validation, aliasing (any number type). *)
From Coq Require Import ZArith String List Bool Lia.
From Verif Require Import Num Base Elements Integrate Eom Convergence Lyapunov Perturb Qlaw Trace Spec
  SolveProofs.
Import ListNotations.

Section G.
Context {N : Num}.
Variables (o : qlaw N) (p : problem N) (ea er : eta_arg N).
Notation tr := (tr o p ea er).
Notation iter := (iter o p ea er).
Notation mkh := (mkh p).
Notation ended := (ended o p ea er).
Notation row_facts := (row_facts o p ea er).

Lemma tr_step gs k g s s' : tr (firstn k gs) s -> nth_error gs k = Some g ->
  tr (firstn (S k) gs) s' -> exists n, s' = with_nrel (post g) n.
Proof.
  intros _ Hk H. rewrite (nth_error_firstn_S _ _ _ Hk) in H. eapply tr_last; eauto.
Qed.

Lemma iter_sfields s g : iter s g ->
  l_t (g_s g) = l_t s /\ l_mass (g_s g) = l_mass s /\ l_batt (g_s g) = l_batt s /\
  l_duty (g_s g) = l_duty s /\ l_ton (g_s g) = l_ton s /\ l_toff (g_s g) = l_toff s /\
  l_chg (g_s g) = l_chg s /\ l_ab (g_s g) = l_ab s.
Proof.
  intros H. rewrite (it_s _ _ _ _ _ _ H). pose proof (safety_fields o s). tauto.
Qed.

(** The scheduling phases of an iteration, spelled out. *)
Lemma plan_inv s pl : plan o p s = Ok pl ->
  exists dt0 d1 ton1 toff1 d2,
    local_step o p (l_oe s) = Ok dt0 /\
    duty_phase p (l_t s) (l_duty s) (l_ton s) (l_toff s) = (d1, ton1, toff1) /\
    battery_phase p (l_t s) (l_batt s) dt0 d1 toff1 (l_chg s) = (pl_dt pl, d2, pl_toff pl, pl_chg pl) /\
    pl_duty pl = recharge_phase p (l_batt s) d2 (pl_chg pl) /\ pl_ton pl = ton1.
Proof.
  unfold plan. destruct (local_step o p (l_oe s)) as [dt0|e]; [|discriminate]. cbn [bind].
  destruct (duty_phase p (l_t s) (l_duty s) (l_ton s) (l_toff s)) as [[d1 ton1] toff1] eqn:Hd.
  destruct (battery_phase p (l_t s) (l_batt s) dt0 d1 toff1 (l_chg s)) as [[[dt d2] toff] chg] eqn:Hb.
  intros H. injection H as <-. exists dt0, d1, ton1, toff1, d2. simpl. auto.
Qed.

(** Thrust requires the duty flag. *)
Lemma ctl_thr s pl acc c : control o p ea er s pl acc = Ok (Ctl c) -> c_thr c = 1%Z -> pl_duty pl = true.
Proof.
  unfold control. destruct (pl_duty pl); [reflexivity|].
  destruct (lyap_call o p acc (l_oe s)) as [[[[[[al be] u] psi] q] qd]|e]; [|discriminate].
  intros H. injection H as <-. discriminate.
Qed.

Lemma plan_depleted s pl : plan o p s = Ok pl -> nleb (l_batt s) (nadd (p_cap_lo p) (dec 1 12)) = true ->
  pl_duty pl = false /\ pl_chg pl = true.
Proof.
  intros H Hb. destruct (plan_inv _ _ H) as (dt0 & d1 & ton1 & toff1 & d2 & _ & _ & B & R & _).
  unfold battery_phase in B. rewrite Hb in B. injection B as _ <- _ <-.
  split; [|reflexivity]. rewrite R. unfold recharge_phase.
  destruct (p_full p && _ && _)%bool; reflexivity.
Qed.

Lemma C15_lem fuel o' h k al be b : ran fuel o ea er p o' h ->
  nth_error (h_controls h) k = Some (al, be, 1%Z) -> nth_error (h_battery h) k = Some b ->
  nleb b (nadd (p_cap_lo p) (dec 1 12)) = false.
Proof.
  intros Hr Hc Hb.
  assert (Hk : (k < length (h_controls h))%nat) by (apply nth_error_Some; congruence).
  destruct (ran_row o p ea er _ _ _ k Hr Hk) as (gs & oel & code & conv & sk & g & He & Hh & Hn & Htr & RF).
  rewrite (rf_c _ _ _ _ _ _ _ _ RF) in Hc. injection Hc as _ _ Ht.
  rewrite (rf_b _ _ _ _ _ _ _ _ RF) in Hb. injection Hb as <-.
  pose proof (rf_iter _ _ _ _ _ _ _ _ RF) as Hit.
  destruct (iter_sfields _ _ Hit) as (_ & _ & Hbt & _).
  pose proof (ctl_thr _ _ _ _ (it_ctl _ _ _ _ _ _ Hit) Ht) as Hd.
  destruct (nleb (l_batt sk) _) eqn:E; [|reflexivity]. exfalso.
  rewrite <- Hbt in E. destruct (plan_depleted _ _ (it_plan _ _ _ _ _ _ Hit) E). congruence.
Qed.

Lemma plan_chg_keep s pl : plan o p s = Ok pl -> l_chg s = true -> pl_chg pl = true.
Proof.
  intros H Hc. destruct (plan_inv _ _ H) as (dt0 & d1 & ton1 & toff1 & d2 & _ & _ & B & _).
  unfold battery_phase in B. rewrite Hc in B.
  destruct (nleb (l_batt s) _); [injection B; congruence|].
  destruct (nltb _ _ && negb true)%bool; injection B; congruence.
Qed.

Lemma batt_chg batt dtb duty b c : battery_update p batt dtb duty true = (b, c) ->
  c = true \/ neqb b (p_cap_hi p) = true.
Proof.
  unfold battery_update. destruct duty; intros H; injection H as <- <-; [left; reflexivity|].
  destruct (neqb _ (p_cap_hi p)) eqn:E; auto.
Qed.

Lemma C16_lem fuel o' h i j al be bi : ran fuel o ea er p o' h -> p_full p = true ->
  (i < j)%nat -> nth_error (h_battery h) i = Some bi ->
  nleb bi (nadd (p_cap_lo p) (dec 1 12)) = true ->
  nth_error (h_controls h) j = Some (al, be, 1%Z) ->
  exists k b, (i < k <= j)%nat /\ nth_error (h_battery h) k = Some b /\
    (neqb b (p_cap_hi p) = true \/ nltb b (p_cap_hi p) = false).
Proof.
  intros Hr Hfull Hij Hbi Hdep Hc.
  destruct (ran_ended o p ea er _ _ _ Hr) as (gs & oel & code & conv & He & Hh & _).
  assert (Hj : (j < length gs)%nat).
  { assert (j < length (h_controls h))%nat by (apply nth_error_Some; congruence).
    subst h. simpl in *. rewrite map_length in *. assumption. }
  (* the charging flag stays on until a full level is seen *)
  assert (Inv : forall m, (i < m <= j)%nat -> forall sm, tr (firstn m gs) sm ->
     l_chg sm = true \/ exists k b, (i < k <= m)%nat /\ nth_error (h_battery h) k = Some b /\
       neqb b (p_cap_hi p) = true).
  { assert (Row : forall m, (i <= m < j)%nat ->
      (forall sm, tr (firstn m gs) sm -> l_chg sm = true \/ m = i) ->
      forall s', tr (firstn (S m) gs) s' -> l_chg s' = true \/
        exists b, nth_error (h_battery h) (S m) = Some b /\ neqb b (p_cap_hi p) = true).
    { intros m Hm Hchg s' Hs'.
      destruct (nth_error gs m) as [g|] eqn:Hg; [|apply nth_error_None in Hg; lia].
      destruct (ended_facts o p ea er _ _ _ _ He m g Hg) as (sm & Htrm & RF).
      destruct (tr_step _ _ _ _ _ Htrm Hg Hs') as [n ->]. simpl.
      pose proof (rf_iter _ _ _ _ _ _ _ _ RF) as Hit.
      destruct (iter_sfields _ _ Hit) as (_ & _ & Hbt & _ & _ & _ & Hch & _).
      assert (Hpl : pl_chg (g_pl g) = true).
      { destruct (Hchg sm Htrm) as [Hc1| ->].
        - eapply plan_chg_keep; [exact (it_plan _ _ _ _ _ _ Hit)|]. rewrite Hch. exact Hc1.
        - rewrite <- Hh in RF. rewrite (rf_b _ _ _ _ _ _ _ _ RF) in Hbi. injection Hbi as E.
          eapply plan_depleted; [exact (it_plan _ _ _ _ _ _ Hit)|]. rewrite Hbt, E. exact Hdep. }
      pose proof (it_batt _ _ _ _ _ _ Hit) as HB. rewrite Hpl in HB.
      destruct (batt_chg _ _ _ _ _ HB) as [E|E]; [left; exact E|right].
      exists (g_b g). split; [|exact E]. rewrite Hh. exact (rf_b' _ _ _ _ _ _ _ _ RF). }
    intros m. induction m as [|m IH]; [lia|]. intros Hm sm Hsm.
    destruct (Nat.eq_dec m i) as [->|Hne].
    - destruct (Row i ltac:(lia) ltac:(auto) _ Hsm) as [E|(b & E1 & E2)]; [auto|].
      right. exists (S i), b. split; [lia|auto].
    - destruct (nth_error gs m) as [g|] eqn:Hg; [|apply nth_error_None in Hg; lia].
      destruct (ended_facts o p ea er _ _ _ _ He m g Hg) as (sm0 & Htrm & _).
      destruct (IH ltac:(lia) sm0 Htrm) as [E|(k & b & A & B)].
      + destruct (Row m ltac:(lia)) with (s' := sm) as [E2|(b & E1 & E2)]; auto.
        * intros s1 Hs1. left. destruct m as [|m']; [lia|].
          destruct (nth_error gs m') as [g'|] eqn:Hg'; [|apply nth_error_None in Hg'; lia].
          destruct (ended_facts o p ea er _ _ _ _ He m' g' Hg') as (sm' & Htrm' & _).
          destruct (tr_step _ _ _ _ _ Htrm' Hg' Hs1) as [n1 ->].
          destruct (tr_step _ _ _ _ _ Htrm' Hg' Htrm) as [n2 E2].
          rewrite E2 in E. exact E.
        * right. exists (S m), b. split; [lia|auto].
      + right. exists k, b. split; [lia|exact B]. }
  destruct (nth_error gs j) as [g|] eqn:Hg; [|apply nth_error_None in Hg; lia].
  destruct (ended_facts o p ea er _ _ _ _ He j g Hg) as (sj & Htrj & RF).
  pose proof (rf_iter _ _ _ _ _ _ _ _ RF) as Hit.
  rewrite <- Hh in RF. rewrite (rf_c _ _ _ _ _ _ _ _ RF) in Hc. injection Hc as _ _ Ht.
  pose proof (ctl_thr _ _ _ _ (it_ctl _ _ _ _ _ _ Hit) Ht) as Hd.
  destruct (iter_sfields _ _ Hit) as (_ & _ & Hbt & _ & _ & _ & Hch & _).
  destruct (Inv j ltac:(lia) sj Htrj) as [Hc1|(k & b & A & B & C)].
  - exists j, (l_batt sj). split; [lia|]. split; [exact (rf_b _ _ _ _ _ _ _ _ RF)|]. right.
    destruct (nltb (l_batt sj) (p_cap_hi p)) eqn:E; [|reflexivity]. exfalso.
    destruct (plan_inv _ _ (it_plan _ _ _ _ _ _ Hit)) as (dt0 & d1 & ton1 & toff1 & d2 & _ & _ & _ & R & _).
    rewrite R in Hd. unfold recharge_phase in Hd.
    rewrite Hfull, (plan_chg_keep _ _ (it_plan _ _ _ _ _ _ Hit) ltac:(congruence)), Hbt, E in Hd. discriminate.
  - exists k, b. split; [lia|]. split; [exact B|]. left. exact C.
Qed.

(** Effectivity gating. *)
Lemma C23_lem fuel o' h k : ran fuel o ea er p o' h ->
  (forall x, nltb (nofZ 0) x = true -> x <> nnan) ->
  (k < length (h_controls h))%nat ->
  exists al be thr va vr ba br,
    nth_error (h_controls h) k = Some (al, be, thr) /\ nth_error (h_etas h) k = Some (va, vr) /\
    nth_error (h_bounds h) k = Some (ba, br) /\
    ((nltb (nofZ 0) br || nltb (nofZ 0) ba)%bool = true ->
        (thr = 0%Z <-> (nltb va ba || nltb vr br)%bool = true) /\
        (thr = 1%Z <-> (nltb va ba || nltb vr br)%bool = false) /\
        exists t m b oe dt qd M mn,
          nth_error (h_times h) k = Some t /\ nth_error (h_times h) (S k) = Some (nadd t dt) /\
          nth_error (h_masses h) k = Some m /\ nth_error (h_battery h) k = Some b /\
          nth_error (h_states h) k = Some oe /\ nth_error (h_dQdts h) k = Some qd /\
          ba = threshold ea t oe m b /\ br = threshold er t oe m b /\
          evaluate_osculating_qdot o p oe (nmul (npsign dt) (p_tmax p) / m)%num = Ok (M, mn) /\
          va = nabs (qd / M)%num /\ vr = nabs ((qd - mn) / (M - mn))%num) /\
    ((ba, br) <> (nnan, nnan) -> (nltb (nofZ 0) br || nltb (nofZ 0) ba)%bool = false -> thr = 1%Z).
Proof.
  intros Hr Hnan Hk.
  destruct (ran_row o p ea er _ _ _ k Hr Hk) as (gs & oel & code & conv & sk & g & He & Hh & Hn & Htr & RF).
  pose proof (rf_iter _ _ _ _ _ _ _ _ RF) as Hit.
  destruct (iter_sfields _ _ Hit) as (It & Im & Ib & _).
  pose proof (it_ctl _ _ _ _ _ _ Hit) as Hc. set (c := g_c g) in *.
  exists (g_al g), (g_be g), (c_thr c), (fst (c_etas c)), (snd (c_etas c)), (fst (c_bounds c)), (snd (c_bounds c)).
  split; [exact (rf_c _ _ _ _ _ _ _ _ RF)|].
  split; [rewrite <- surjective_pairing; exact (rf_e _ _ _ _ _ _ _ _ RF)|].
  split; [rewrite <- surjective_pairing; exact (rf_bd _ _ _ _ _ _ _ _ RF)|].
  assert (Hn0 : (nltb (nofZ 0) nnan || nltb (nofZ 0) nnan)%bool = false).
  { destruct (nltb (nofZ 0) nnan) eqn:E; [|reflexivity]. exfalso. exact (Hnan _ E eq_refl). }
  unfold control in Hc. cbv zeta in Hc.
  set (acc := accel_thrust p (pl_dt (g_pl g)) (l_mass (g_s g))) in *.
  pose proof (rf_dq _ _ _ _ _ _ _ _ RF) as Hq. fold c in Hq.
  destruct (pl_duty (g_pl g)).
  - destruct (lyap_call o p acc (l_oe (g_s g))) as [[[[[[al be] u] psi] q] qd]|e]; [|discriminate].
    cbn [bind] in Hc. destruct (nisnan al || nisnan be)%bool.
    + destruct (Z.ltb _ _); [discriminate|]. injection Hc as Hc. rewrite <- Hc in *. simpl in *.
      split; [intros X; rewrite Hn0 in X; discriminate|]. intros X; exfalso; apply X; reflexivity.
    + destruct (nltb (nofZ 0) (eta_now er _ _ _ _) || nltb (nofZ 0) (eta_now ea _ _ _ _))%bool eqn:Hth.
      * destruct (evaluate_osculating_qdot o p (l_oe (g_s g)) acc) as [[M mn]|] eqn:Hev; [|discriminate].
        cbn [bind] in Hc. injection Hc as Hc. rewrite <- Hc in *. simpl in *.
        split; [|rewrite Hth; discriminate]. intros _.
        match goal with |- context [if ?b then 0%Z else 1%Z] => destruct b end.
        all: split; [split; intros X; (reflexivity || discriminate X)|].
        all: split; [split; intros X; (reflexivity || discriminate X)|].
        all: exists (l_t sk), (l_mass sk), (l_batt sk), (l_oe (g_s g)), (pl_dt (g_pl g)), qd, M, mn.
        all: rewrite It, Im, Ib; unfold acc, accel_thrust in Hev; rewrite Im in Hev.
        all: split; [exact (rf_t _ _ _ _ _ _ _ _ RF)|];
          split; [rewrite <- (iter_t o p ea er _ _ Hit); exact (rf_t' _ _ _ _ _ _ _ _ RF)|]; split; [exact (rf_m _ _ _ _ _ _ _ _ RF)|].
        all: split; [exact (rf_b _ _ _ _ _ _ _ _ RF)|]; split; [exact (rf_oe _ _ _ _ _ _ _ _ RF)|].
        all: repeat split; auto.
      * injection Hc as Hc. rewrite <- Hc in *. simpl in *. rewrite Hth. split; [discriminate|auto].
  - destruct (lyap_call o p acc (l_oe (g_s g))) as [[[[[[al be] u] psi] q] qd]|e]; [|discriminate].
    injection Hc as Hc. rewrite <- Hc in *. simpl in *.
    split; [intros X; rewrite Hn0 in X; discriminate|]. intros X; exfalso; apply X; reflexivity.
Qed.

(** Keplerian safeguarding and the caller's array. *)
Lemma C27_lem fuel o' h k oe : ran fuel o ea er p o' h -> q_etype o = Keplerian ->
  (k < length (h_controls h))%nat -> nth_error (h_states h) k = Some oe ->
  exists z, oe = elements_safety z (q_oe_min o) (q_oe_max o).
Proof.
  intros Hr Het Hk Hoe.
  destruct (ran_row o p ea er _ _ _ k Hr Hk) as (gs & oel & code & conv & sk & g & He & Hh & Hn & Htr & RF).
  rewrite (rf_oe _ _ _ _ _ _ _ _ RF) in Hoe. injection Hoe as <-.
  exists (l_oe sk). rewrite (it_s _ _ _ _ _ _ (rf_iter _ _ _ _ _ _ _ _ RF)), safety_oe.
  unfold guarded. rewrite Het. reflexivity.
Qed.
End G.

Section H.
Context {N : Num}.

(** The first recorded state while the loop runs. *)
Lemma safety_hd (o : qlaw N) s d : hd d (h_states (l_hist (safety o s))) =
  match h_states (l_hist s) with
  | [] => match q_etype o with Keplerian => elements_safety (l_oe s) (q_oe_min o) (q_oe_max o) | MeeWithA => d end
  | [x] => match q_etype o with Keplerian => elements_safety (l_oe s) (q_oe_min o) (q_oe_max o) | MeeWithA => x end
  | x :: _ => x
  end.
Proof.
  unfold safety. destruct (q_etype o); destruct (h_states (l_hist s)) as [|x [|y l]] eqn:E; simpl;
    rewrite ?E; reflexivity.
Qed.

Lemma step_hd (o : qlaw N) p ea er s r d : step o p ea er s = r ->
  forall s', (r = Next s' \/ (exists c v, r = Stop c v s') \/ (exists e, r = Fail e s')) ->
  h_states (l_hist s) <> [] -> hd d (h_states (l_hist s')) = hd d (h_states (l_hist (safety o s))) /\
  h_states (l_hist s') <> [] /\
  (r = Next s' -> (2 <= length (h_states (l_hist s')))%nat).
Proof.
  intros Hst s' Hr Hne.
  assert (Hne' : h_states (l_hist (safety o s)) <> []).
  { unfold safety. destruct (q_etype o); [|exact Hne]. simpl. unfold replace_last.
    destruct (removelast _); discriminate. }
  assert (Happ : forall x, hd d (h_states (l_hist (safety o s)) ++ [x]) = hd d (h_states (l_hist (safety o s)))).
  { intros x. destruct (h_states (l_hist (safety o s))); [congruence|reflexivity]. }
  pose proof (step_cases o p ea er s) as SC. rewrite Hst in SC.
  inversion SC as [g Hit Heq|pl H1 H2 Heq|e Heq|t' oe' m' pl c pt dtb H1 H2 H3 H4 H5 Heq].
  - pose proof (exit_cases o p (post g)) as E. rewrite Heq in E.
    assert (Hs : h_states (l_hist s') = h_states (l_hist (safety o s)) ++ [g_oe g]).
    { rewrite <- (it_s _ _ _ _ _ _ Hit).
      clear - Hr E. destruct Hr as [X|[(c1 & v1 & X)|(e1 & X)]]; subst r; inversion E; reflexivity. }
    rewrite Hs, Happ. split; [reflexivity|].
    split; [destruct (h_states (l_hist (safety o s))); discriminate|].
    intros _. rewrite app_length. destruct (h_states (l_hist (safety o s))); [congruence|simpl; lia].
  - rewrite <- Heq in *. clear Hst. destruct Hr as [X|[(c1 & v1 & X)|(e1 & X)]]; try discriminate. injection X as _ _ <-.
    split; [reflexivity|]. split; [exact Hne'|discriminate].
  - rewrite <- Heq in *. clear Hst. destruct Hr as [X|[(c1 & v1 & X)|(e1 & X)]]; try discriminate. injection X as _ <-.
    split; [reflexivity|]. split; [exact Hne'|discriminate].
  - rewrite <- Heq in *. clear Hst. destruct Hr as [X|[(c1 & v1 & X)|(e1 & X)]]; try discriminate. injection X as _ <-.
    simpl. rewrite Happ. split; [reflexivity|]. split; [|discriminate].
    destruct (h_states (l_hist (safety o s))); discriminate.
Qed.

Definition lres_state (r : lres N) : lstate N :=
  match r with LEnd s | LStop _ _ s | LFail _ s | LFuel s => s end.

Lemma loop_hd_later (o : qlaw N) p ea er d fuel : forall s,
  (2 <= length (h_states (l_hist s)))%nat ->
  hd d (h_states (l_hist (lres_state (loop fuel o p ea er s)))) = hd d (h_states (l_hist s)).
Proof.
  induction fuel as [|n IH]; intros s Hs; simpl.
  - destruct (guard p s); reflexivity.
  - destruct (guard p s); [|reflexivity].
    assert (Hne : h_states (l_hist s) <> []) by (intros E; rewrite E in Hs; simpl in Hs; lia).
    assert (Hsame : hd d (h_states (l_hist (safety o s))) = hd d (h_states (l_hist s))).
    { rewrite safety_hd. destruct (h_states (l_hist s)) as [|x [|y l]]; simpl in *; [lia|lia|reflexivity]. }
    destruct (step o p ea er s) as [s'|c v s'|e s'] eqn:Hst.
    + destruct (step_hd o p ea er s _ d Hst s' (or_introl eq_refl) Hne) as (A & _ & B).
      rewrite IH by (apply B; reflexivity). congruence.
    + destruct (step_hd o p ea er s _ d Hst s' ltac:(right; left; eauto) Hne) as (A & _).
      simpl. congruence.
    + destruct (step_hd o p ea er s _ d Hst s' ltac:(right; right; eauto) Hne) as (A & _).
      simpl. congruence.
Qed.

(** What the caller's oe0 array contains when solve() is left, normally or by an exception. *)
Lemma C26_lem fuel (o : qlaw N) ea er p o' :
  (solve fuel o ea er = Returns o' \/ exists e, solve fuel o ea er = Raises e o') ->
  q_problem o = Some p -> ea <> EtaOther ->
  exists p', q_problem o' = Some p' /\
    p_oe0 p' = match q_etype o with
               | MeeWithA => p_oe0 p
               | Keplerian => if nltb (nabs (nofZ 0)) (nabs (p_tf_max p))
                              then elements_safety (p_oe0 p) (q_oe_min o) (q_oe_max o) else p_oe0 p
               end.
Proof.
  intros Hs Hp Hea. unfold solve in Hs. rewrite Hp in Hs.
  assert (Hg : guard p (init_state p) = nltb (nabs (nofZ 0)) (nabs (p_tf_max p))) by reflexivity.
  set (r := loop fuel o p ea er (init_state p)) in *.
  assert (Hl : (exists p', q_problem o' = Some p' /\ p_oe0 p' = hd (p_oe0 p) (h_states (l_hist (lres_state r)))) /\
    (forall s, r <> LFuel s)).
  { destruct ea; [| |congruence]; destruct r as [s|c1 v1 s|e s|s];
      destruct Hs as [Hs|[e1 Hs]]; try discriminate; injection Hs; intros; subst o'; simpl;
      (split; [eauto|discriminate]). }
  destruct Hl as [(p' & E1 & E2) Hnf]. exists p'. split; [exact E1|]. rewrite E2. clear E1 E2 Hs.
  unfold r in *. clear r. destruct fuel as [|n]; simpl loop in *; rewrite Hg in *.
  - destruct (nltb _ _) eqn:E; [exfalso; eapply Hnf; reflexivity|]. simpl. destruct (q_etype o); reflexivity.
  - destruct (nltb _ _) eqn:E; [|simpl; destruct (q_etype o); reflexivity].
    assert (Hh : hd (p_oe0 p) (h_states (l_hist (safety o (init_state p)))) =
      match q_etype o with MeeWithA => p_oe0 p
      | Keplerian => elements_safety (p_oe0 p) (q_oe_min o) (q_oe_max o) end).
    { rewrite safety_hd. simpl. destruct (q_etype o); reflexivity. }
    assert (Hne : h_states (l_hist (init_state p)) <> []) by discriminate.
    destruct (step o p ea er (init_state p)) as [s'|c v s'|e s'] eqn:Hst.
    + destruct (step_hd o p ea er _ _ (p_oe0 p) Hst s' (or_introl eq_refl) Hne) as (A & _ & B).
      rewrite loop_hd_later by (apply B; reflexivity). rewrite A, Hh. reflexivity.
    + destruct (step_hd o p ea er _ _ (p_oe0 p) Hst s' ltac:(right; left; eauto) Hne) as (A & _).
      simpl. rewrite A, Hh. reflexivity.
    + destruct (step_hd o p ea er _ _ (p_oe0 p) Hst s' ltac:(right; right; eauto) Hne) as (A & _).
      simpl. rewrite A, Hh. reflexivity.
Qed.

(** Type validation of the effectivity arguments. *)
Lemma control_eta (o : qlaw N) p ea s pl acc :
  control o p ea EtaOther s pl acc = control o p ea (EtaFloat nnan) s pl acc.
Proof. reflexivity. Qed.
Lemma step_eta (o : qlaw N) p ea s : step o p ea EtaOther s = step o p ea (EtaFloat nnan) s.
Proof. reflexivity. Qed.
Lemma loop_eta (o : qlaw N) p ea fuel : forall s, loop fuel o p ea EtaOther s = loop fuel o p ea (EtaFloat nnan) s.
Proof.
  induction fuel as [|n IH]; intros s; simpl; [reflexivity|].
  destruct (guard p s); [|reflexivity]. rewrite step_eta.
  destruct (step o p ea (EtaFloat nnan) s); auto.
Qed.
Lemma C24_eta_r_lem fuel (o : qlaw N) ea : solve fuel o ea EtaOther = solve fuel o ea (EtaFloat nnan).
Proof. unfold solve. destruct (q_problem o); [|reflexivity]. destruct ea; rewrite ?loop_eta; reflexivity. Qed.

Lemma C24_eta_a_lem fuel (o : qlaw N) er p : q_problem o = Some p ->
  solve fuel o EtaOther er = Raises ValueError o.
Proof. intros H. unfold solve. rewrite H. reflexivity. Qed.

(** Unbound angles. *)
Lemma ctl_ab (o : qlaw N) p ea er s pl acc c : control o p ea er s pl acc = Ok (Ctl c) ->
  (pl_duty pl = true -> c_ab c <> None) /\ (pl_duty pl = false -> c_ab c = l_ab s).
Proof.
  unfold control. destruct (pl_duty pl).
  - destruct (lyap_call o p acc (l_oe s)) as [[[[[[al be] u] psi] q] qd]|e]; [|discriminate].
    cbn [bind]. cbv zeta. intros H. split; [|discriminate]. intros _.
    destruct (nisnan al || nisnan be)%bool.
    + destruct (Z.ltb _ _); [discriminate|]. injection H as <-. discriminate.
    + destruct (nltb _ _ || nltb _ _)%bool.
      * destruct (evaluate_osculating_qdot o p (l_oe s) acc) as [[M mn]|]; [|discriminate].
        injection H as <-. discriminate.
      * injection H as <-. discriminate.
  - destruct (lyap_call o p acc (l_oe s)) as [[[[[[al be] u] psi] q] qd]|e]; [|discriminate].
    intros H. injection H as <-. split; [discriminate|reflexivity].
Qed.

(** If the first step is not thrust-enabled and nothing else fails, solve() raises
    UnboundLocalError with the histories out of step. *)
Lemma C25_raise_lem fuel (o : qlaw N) ea er p pl c pt oe' t' m' dtb :
  q_problem o = Some p -> ea <> EtaOther -> nltb (nabs (nofZ 0)) (nabs (p_tf_max p)) = true ->
  let s := safety o (init_state p) in
  plan o p s = Ok pl -> pl_duty pl = false ->
  control o p ea er s pl (accel_thrust p (pl_dt pl) (l_mass s)) = Ok (Ctl c) ->
  perturbation o s = Ok pt -> propagate o p s pl c pt = Ok (oe', t', m', dtb) ->
  exists o' h, solve (S fuel) o ea er = Raises UnboundLocalError o' /\ q_hist o' = Some h /\
    length (h_times h) = 2%nat /\ length (h_states h) = 2%nat /\ length (h_masses h) = 2%nat /\
    length (h_battery h) = 1%nat /\ h_controls h = [] /\ h_Qs h = [].
Proof.
  intros Hp Hea Hg s H1 Hd H2 H3 H4.
  destruct (ctl_ab _ _ _ _ _ _ _ _ H2) as [_ Hab]. specialize (Hab Hd).
  assert (Hab' : c_ab c = None).
  { rewrite Hab. unfold s. destruct (safety_fields o (init_state p)) as (_ & _ & _ & _ & _ & _ & _ & _ & _ & ->).
    reflexivity. }
  assert (Hst : step o p ea er (init_state p) = Fail UnboundLocalError (with_hist s (push3 (l_hist s) t' oe' m'))).
  { unfold step. cbv zeta. fold s. rewrite H1, H2, H3, H4.
    destruct (battery_update p (l_batt s) dtb (pl_duty pl) (pl_chg pl)). rewrite Hab'. reflexivity. }
  assert (Hl : loop (S fuel) o p ea er (init_state p) =
     LFail UnboundLocalError (with_hist s (push3 (l_hist s) t' oe' m'))).
  { simpl. assert (Hg' : guard p (init_state p) = true) by exact Hg. rewrite Hg', Hst. reflexivity. }
  set (hh := push3 (l_hist s) t' oe' m') in *.
  exists (with_run o (Some (with_oe0 p hh)) (Some hh) (q_converge o) (q_exitcode o)), hh.
  split.
  { unfold solve. rewrite Hp. destruct ea; [| |congruence]; rewrite Hl; reflexivity. }
  split; [reflexivity|]. unfold hh, s, safety. destruct (q_etype o); repeat split; reflexivity.
Qed.

Lemma tr_ab (o : qlaw N) p ea er gs s : tr o p ea er gs s -> gs <> [] -> l_ab s <> None.
Proof.
  intros H Hne. destruct gs as [|g gs _] using rev_ind; [congruence|].
  destruct (tr_last _ _ _ _ _ _ _ H) as [n ->]. discriminate.
Qed.

(** Conversely that failure can only come from a first step that is not thrust-enabled. *)
Lemma C25_only_lem (o : qlaw N) p ea er gs s oe' t' m' pl c pt dtb :
  tr o p ea er gs s -> plan o p (safety o s) = Ok pl ->
  control o p ea er (safety o s) pl (accel_thrust p (pl_dt pl) (l_mass (safety o s))) = Ok (Ctl c) ->
  perturbation o (safety o s) = Ok pt ->
  propagate o p (safety o s) pl c pt = Ok (oe', t', m', dtb) ->
  c_ab c = None -> gs = [] /\ pl_duty pl = false.
Proof.
  intros Htr H1 H2 H3 H4 Hab. destruct (ctl_ab _ _ _ _ _ _ _ _ H2) as [A B].
  assert (Hd : pl_duty pl = false) by (destruct (pl_duty pl); [exfalso; exact (A eq_refl Hab)|reflexivity]).
  split; [|exact Hd]. destruct gs as [|g gs]; [reflexivity|exfalso].
  assert (l_ab s <> None) by (eapply tr_ab; [exact Htr|discriminate]).
  rewrite (B Hd) in Hab. destruct (safety_fields o s) as (_ & _ & _ & _ & _ & _ & _ & _ & _ & E).
  congruence.
Qed.

(** Construction. *)
Lemma etype_of_string_ok s : (exists e, etype_of_string s = Ok e) <-> (s = "keplerian" \/ s = "mee_with_a")%string.
Proof.
  unfold etype_of_string. destruct (String.eqb_spec s "keplerian"); [split; eauto|].
  destruct (String.eqb_spec s "mee_with_a"); [split; eauto|].
  split; [intros [e H]; discriminate|tauto].
Qed.
Lemma etype_of_string_err s : (exists e, etype_of_string s = Ok e) \/ etype_of_string s = Err AssertionError.
Proof. unfold etype_of_string. destruct (String.eqb s _); eauto. destruct (String.eqb s _); eauto. Qed.
Lemma integ_of_string_ok s : (exists e, integ_of_string s = Ok e) <-> (s = "rk4" \/ s = "rkf45")%string.
Proof.
  unfold integ_of_string. destruct (String.eqb_spec s "rk4"); [split; eauto|].
  destruct (String.eqb_spec s "rkf45"); [split; eauto|].
  split; [intros [e H]; discriminate|tauto].
Qed.
Lemma integ_of_string_err s : (exists e, integ_of_string s = Ok e) \/ integ_of_string s = Err AssertionError.
Proof. unfold integ_of_string. destruct (String.eqb s _); eauto. destruct (String.eqb s _); eauto. Qed.

Lemma list_to_vec5_ok (l : list car) : (exists v, list_to_vec5 l = Some v) <-> length l = 5%nat.
Proof.
  split; [|destruct l as [|a [|b [|c [|d [|e [|]]]]]]; simpl; try discriminate; eauto].
  intros [v H]. destruct l as [|a [|b [|c [|d [|e [|]]]]]]; simpl in *; try discriminate; reflexivity.
Qed.
Lemma list_to_vec6_ok (l : list car) : (exists v, list_to_vec6 l = Some v) <-> length l = 6%nat.
Proof.
  split; [|destruct l as [|a [|b [|c [|d [|e [|f [|]]]]]]]; simpl; try discriminate; eauto].
  intros [v H]. destruct l as [|a [|b [|c [|d [|e [|f [|]]]]]]]; simpl in *; try discriminate; reflexivity.
Qed.
Lemma opt_len {A} (x : option A) : (exists v, x = Some v) \/ x = None.
Proof. destruct x; eauto. Qed.

Lemma C28_init_lem mu rpmin k m n r b wp (et ig : string) grid tol omin omax thr sun ptrb rf ear :
  let bad := nltb (nofZ 0) mu = false \/ nleb (nofZ 1) rf = false \/
    ~ (et = "keplerian" \/ et = "mee_with_a")%string \/ ~ (ig = "rk4" \/ ig = "rkf45")%string \/
    (exists l, tol = Some l /\ length l <> 5%nat) in
  (bad -> @init N mu rpmin k m n r b wp et ig grid tol omin omax thr sun ptrb rf ear = Err AssertionError) /\
  (~ bad -> exists o, init mu rpmin k m n r b wp et ig grid tol omin omax thr sun ptrb rf ear = Ok o).
Proof.
  intros bad. unfold init.
  destruct (nleb (nofZ 1) rf) eqn:E1; simpl;
    [|split; [reflexivity|intros Hb; exfalso; apply Hb; unfold bad; auto]].
  destruct (nltb (nofZ 0) mu) eqn:E2; simpl;
    [|split; [reflexivity|intros Hb; exfalso; apply Hb; unfold bad; auto]].
  destruct (etype_of_string_err et) as [[e E3]|E3]; rewrite E3; cbn [bind];
    [|split; [reflexivity|intros Hb; exfalso; apply Hb; right; right; left; intros H;
       apply etype_of_string_ok in H as [e He]; congruence]].
  destruct (integ_of_string_err ig) as [[i E4]|E4]; rewrite E4; simpl;
    [|split; [reflexivity|intros Hb; exfalso; apply Hb; right; right; right; left; intros H;
       apply integ_of_string_ok in H as [e' He]; congruence]].
  assert (H3 : (et = "keplerian" \/ et = "mee_with_a")%string) by (apply etype_of_string_ok; eauto).
  assert (H4 : (ig = "rk4" \/ ig = "rkf45")%string) by (apply integ_of_string_ok; eauto).
  destruct tol as [l|]; simpl.
  - destruct (opt_len (list_to_vec5 l)) as [[v E]|E]; rewrite E; simpl.
    + split; [|eauto]. assert (length l = 5%nat) by (apply list_to_vec5_ok; eauto).
      intros [X|[X|[X|[X|(l' & X & Y)]]]]; try congruence; try (exfalso; tauto).
    + split; [reflexivity|]. intros Hb; exfalso; apply Hb. do 4 right. exists l. split; [reflexivity|].
      intros X. apply list_to_vec5_ok in X as [v Hv]. congruence.
  - split; [|eauto]. intros [X|[X|[X|[X|(l' & X & Y)]]]]; try congruence; try (exfalso; tauto).
Qed.

Lemma C28_set_problem_lem (o : qlaw N) oe0 oeT mass0 tmax mdot tf ts mm woe don doff b0 lo hi ch dis full :
  let bad := length oe0 <> 6%nat \/ nleb (dec 1 2) mm = false \/
    (exists l, woe = Some l /\ length l <> 5%nat) in
  (bad -> set_problem o oe0 oeT mass0 tmax mdot tf ts mm woe don doff b0 lo hi ch dis full = Err AssertionError) /\
  (~ bad -> exists o', set_problem o oe0 oeT mass0 tmax mdot tf ts mm woe don doff b0 lo hi ch dis full = Ok o'
       /\ q_problem o' <> None).
Proof.
  intros bad. unfold set_problem.
  destruct (opt_len (list_to_vec6 oe0)) as [[v E]|E]; rewrite E.
  2:{ split; [reflexivity|]. intros Hb; exfalso; apply Hb. left. intros X.
      apply list_to_vec6_ok in X as [v Hv]. congruence. }
  assert (Hl : length oe0 = 6%nat) by (apply list_to_vec6_ok; eauto).
  destruct (nleb (dec 1 2) mm) eqn:E1; simpl;
    [|split; [reflexivity|intros Hb; exfalso; apply Hb; unfold bad; auto]].
  destruct woe as [l|]; simpl.
  - destruct (opt_len (list_to_vec5 l)) as [[w Ew]|Ew]; rewrite Ew; simpl.
    + split; [|intros _; eexists; split; [reflexivity|discriminate]].
      assert (length l = 5%nat) by (apply list_to_vec5_ok; eauto).
      intros [X|[X|(l' & X & Y)]]; congruence.
    + split; [reflexivity|]. intros Hb; exfalso; apply Hb. right; right. exists l. split; [reflexivity|].
      intros X. apply list_to_vec5_ok in X as [w Hw]. congruence.
  - split; [|intros _; eexists; split; [reflexivity|discriminate]].
    intros [X|[X|(l' & X & Y)]]; congruence.
Qed.

Lemma C28_solve_lem fuel (o : qlaw N) ea er : q_problem o = None ->
  solve fuel o ea er = Raises AssertionError o.
Proof. intros H. unfold solve. rewrite H. reflexivity. Qed.

Lemma C28_setters_lem (o : qlaw N) mu et ig :
  (nltb (nofZ 0) mu = false -> set_mu o mu = Err AssertionError) /\
  (nltb (nofZ 0) mu = true -> exists o', set_mu o mu = Ok o') /\
  (~ (et = "keplerian" \/ et = "mee_with_a")%string -> set_elements_type o et = Err AssertionError) /\
  ((et = "keplerian" \/ et = "mee_with_a")%string -> exists o', set_elements_type o et = Ok o') /\
  (~ (ig = "rk4" \/ ig = "rkf45")%string -> set_integrator o ig = Err AssertionError) /\
  ((ig = "rk4" \/ ig = "rkf45")%string -> exists o', set_integrator o ig = Ok o').
Proof.
  unfold set_mu, set_elements_type, set_integrator. split; [|split; [|split; [|split; [|split]]]].
  - intros ->. reflexivity.
  - intros ->. eexists. reflexivity.
  - intros H. destruct (etype_of_string_err et) as [E|E]; [apply etype_of_string_ok in E; tauto|].
    rewrite E. reflexivity.
  - intros H. apply etype_of_string_ok in H as [e He]. rewrite He. simpl. eauto.
  - unfold integ_of_string. intros H. destruct (String.eqb_spec ig "rk4"); [tauto|].
    destruct (String.eqb_spec ig "rkf45"); [tauto|]. reflexivity.
  - intros [-> | ->]; eexists; reflexivity.
Qed.
End H.

(** An unavailable first step. *)
Section First.
Context {N : Num}.
Lemma C25_never_lem (o : qlaw N) p ea er fuel o' : q_problem o = Some p ->
  nltb (nabs (nofZ 0)) (nabs (p_tf_max p)) = true ->
  nleb (p_batt0 p) (nadd (p_cap_lo p) (dec 1 12)) = true ->
  solve fuel o ea er <> Returns o'.
Proof.
  intros Hp Hg Hb H. unfold solve in H. rewrite Hp in H.
  assert (L : exists e s, loop fuel o p ea er (init_state p) = LFail e s \/ loop fuel o p ea er (init_state p) = LFuel s).
  { assert (G : guard p (init_state p) = true) by exact Hg.
    destruct fuel as [|n]; cbn [loop]; rewrite G; [exists TypeError, (init_state p); auto|].
    assert (F : exists e s, step o p ea er (init_state p) = Fail e s).
    { unfold step. cbv zeta. set (s := safety o (init_state p)).
      assert (Sb : l_batt s = p_batt0 p /\ l_ab s = None).
      { unfold s. destruct (safety_fields o (init_state p)) as (_ & _ & Hbb & _ & _ & _ & _ & _ & _ & Ha).
        rewrite Hbb, Ha. auto. }
      destruct Sb as [Sb Sa].
      destruct (plan o p s) as [pl|e] eqn:Hpl; [|eauto].
      destruct (plan_depleted o p _ _ Hpl) as [Hd _]; [rewrite Sb; exact Hb|].
      destruct (control o p ea er s pl _) as [[c|]|e] eqn:Hc; [| |eauto].
      - destruct (perturbation o s); [|eauto].
        destruct (propagate o p s pl c a) as [[[[oe' t'] m'] dtb]|]; [|eauto].
        destruct (battery_update _ _ _ _ _) as [b' c'].
        destruct (ctl_ab _ _ _ _ _ _ _ _ Hc) as [_ Hab]. rewrite (Hab Hd), Sa. eauto.
      - exfalso. unfold control in Hc. rewrite Hd in Hc.
        destruct (lyap_call o p _ (l_oe s)) as [[[[[[al be] u] psi] q] qd]|e]; discriminate. }
    destruct F as (e & s & F). rewrite F. eauto. }
  destruct L as (e & s & [L|L]); destruct ea; rewrite ?L in H; discriminate.
Qed.

(** Which exceptions a constructor-built object without perturbations can raise. *)
Definition soft (e : exn) : Prop := e = ValueError \/ e = ZeroDivisionError.
Definition softr {A} (r : Res A) : Prop := forall e, r = Err e -> soft e.
Lemma soft_ok {A} (x : A) : softr (Ok x).
Proof. intros e H. discriminate. Qed.
Lemma soft_jdiv (x y : car) : softr (jdiv x y).
Proof. intros e. unfold jdiv. destruct (neqb y _); intros H; [injection H as <-; right; reflexivity|discriminate]. Qed.
Lemma soft_bind {A B} (x : Res A) (f : A -> Res B) : softr x -> (forall a, softr (f a)) -> softr (bind x f).
Proof. intros Hx Hf e. destruct x; simpl; [apply Hf|]. intros H. apply Hx. injection H as <-. reflexivity. Qed.
Lemma soft_err : softr (A:=lyap_out N) (Err ValueError).
Proof. intros e H. injection H as <-. left. reflexivity. Qed.

Ltac softs := repeat first [ apply soft_ok | apply soft_jdiv
  | (apply soft_bind; [|intros]) | match goal with |- softr (let '_ := ?x in _) => destruct x end
  | match goal with |- softr (match ?x with _ => _ end) => destruct x eqn:? end ].

Lemma soft_lyap et mu f oe T a b c d e g h (w : vec5 N) : softr (lyap_of_etype et mu f oe T a b c d e g h w).
Proof.
  destruct et; unfold lyap_of_etype, SymKep.lyap_keplerian, SymMee.lyap_mee_with_a, Symbolic.lyap_of;
    destruct (list_to_vec5 T); intros x H; try discriminate; injection H as <-; left; reflexivity.
Qed.
Lemma soft_dqdt et mu f oe T a b c d e g h (w : vec5 N) : softr (dqdt_of_etype et mu f oe T a b c d e g h w).
Proof.
  destruct et; unfold dqdt_of_etype, SymKep.dqdt_keplerian, SymMee.dqdt_mee_with_a, Symbolic.dqdt_of;
    destruct (list_to_vec5 T); intros x H; try discriminate; injection H as <-; left; reflexivity.
Qed.
Lemma soft_eom et t y prm : softr (eom_of (N:=N) et t y prm).
Proof. destruct et, y; cbv [eom_of eom_kep_gauss eom_mee_with_a_gauss]; softs. Qed.
Lemma soft_check et oe T w tol : softr (check_of (N:=N) et oe T w tol).
Proof.
  destruct et; unfold check_of, check_convergence_keplerian, check_convergence_mee;
    destruct T as [|? [|? [|? [|? [|? ?]]]]]; intros x H; try (injection H as <-; left; reflexivity).
  all: destruct oe; discriminate.
Qed.
Lemma soft_angles fn mu f oe T a b c d e g h (w : vec5 N) :
  (forall mu f oe T a b c d e g h w, softr (fn mu f oe T a b c d e g h w)) ->
  softr (lyapunov_control_angles fn mu f oe T a b c d e g h w).
Proof.
  intros H. unfold lyapunov_control_angles. apply soft_bind; [apply H|]. intros out.
  apply soft_bind; [unfold u_to_thrust_angles; softs|]. intros [[u al] be]. destruct (lo_psi out). apply soft_ok.
Qed.
Lemma soft_rk4 {P} rhs t h y (p : P) : (forall t y p, softr (rhs t y p)) -> softr (rk4 (N:=N) rhs t h y p).
Proof. intros H. unfold rk4. repeat (apply soft_bind; [apply H|intros]). apply soft_ok. Qed.
Lemma soft_rkf45 {P} rhs t h y (p : P) tol : (forall t y p, softr (rhs t y p)) -> softr (rkf45 (N:=N) rhs t h y p tol).
Proof.
  intros H. unfold rkf45. repeat (apply soft_bind; [apply H|intros]).
  apply soft_bind; [apply soft_jdiv|]. intros. apply soft_ok.
Qed.
Lemma soft_mapM {A B} (f : A -> Res B) l : (forall x, softr (f x)) -> softr (mapM f l).
Proof.
  intros H. induction l as [|x l IH]; [apply soft_ok|]. cbn [mapM]. apply soft_bind; [apply H|]. intros.
  apply soft_bind; [exact IH|]. intros. apply soft_ok.
Qed.
Lemma soft_max (l : list car) : softr (PlotHelper.pymaxl l).
Proof. destruct l; intros e H; [injection H as <-; left; reflexivity|discriminate]. Qed.
Lemma soft_min (l : list car) : softr (PlotHelper.pyminl l).
Proof. destruct l; intros e H; [injection H as <-; left; reflexivity|discriminate]. Qed.

Section Built.
Variables (o : qlaw N) (p : problem N) (ea er : eta_arg N) (et : etype).
Hypothesis B : built et o.
Hypothesis NP : q_ptrb o = None.

Lemma soft_call acc oe : softr (lyap_call o p acc oe).
Proof.
  destruct B as (_ & _ & HL & _). unfold lyap_call. rewrite HL. apply soft_angles. intros. apply soft_lyap.
Qed.
Lemma soft_osc oe acc : softr (evaluate_osculating_qdot o p oe acc).
Proof.
  destruct B as (_ & _ & _ & HD & _). unfold evaluate_osculating_qdot. destruct oe.
  apply soft_bind; [apply soft_mapM; intros; rewrite HD; apply soft_dqdt|]. intros qs.
  apply soft_bind; [apply soft_max|]. intros. apply soft_bind; [apply soft_min|]. intros. apply soft_ok.
Qed.
Lemma soft_plan s : softr (plan o p s).
Proof.
  unfold plan. apply soft_bind.
  - unfold local_step. destruct (q_sundman o); [|apply soft_ok].
    apply soft_bind.
    + destruct (q_etype o); unfold mee2ea, ta2ea; softs.
    + intros [ecc E0]. destruct (nltb _ _); apply soft_ok.
  - intros dt. destruct (duty_phase _ _ _ _ _) as [[? ?] ?]. destruct (battery_phase _ _ _ _ _ _ _) as [[[? ?] ?] ?].
    apply soft_ok.
Qed.
Lemma soft_control s pl acc : softr (control o p ea er s pl acc).
Proof.
  unfold control. destruct (pl_duty pl).
  - apply soft_bind; [apply soft_call|]. intros [[[[[al be] u] psi] q] qd].
    destruct (nisnan al || nisnan be)%bool; [destruct (Z.ltb _ _); apply soft_ok|].
    cbv zeta. destruct (nltb _ _ || nltb _ _)%bool; [|apply soft_ok].
    apply soft_bind; [apply soft_osc|]. intros [M m]. apply soft_ok.
  - apply soft_bind; [apply soft_call|]. intros [[[[[al be] u] psi] q] qd]. apply soft_ok.
Qed.
Lemma soft_prop s pl c pt : softr (propagate o p s pl c pt).
Proof.
  destruct B as (_ & HE & _). unfold propagate. cbv zeta. rewrite HE. destruct (q_integ o).
  - apply soft_bind; [apply soft_rk4; intros; apply soft_eom|]. intros. apply soft_ok.
  - apply soft_bind; [apply soft_rkf45; intros; apply soft_eom|]. intros [y hn]. apply soft_ok.
Qed.

Definition Unb (x : outcome N) : Prop := exists s, x = Fail UnboundLocalError s.
Lemma soft_not e : soft e -> e <> UnboundLocalError.
Proof. intros [->| ->]; discriminate. Qed.

(** The state invariant: angles bound, or the very first step, which is thrust-enabled. *)
Lemma step_unbound s0 : Unb (step o p ea er s0) ->
  l_ab s0 = None /\ exists pl, plan o p (safety o s0) = Ok pl /\ pl_duty pl = false.
Proof.
  intros [sf H]. unfold step in H. cbv zeta in H.
  destruct (plan o p (safety o s0)) as [pl|e] eqn:Hpl.
  2:{ injection H as H _. exfalso. exact (soft_not _ (soft_plan _ _ Hpl) H). }
  destruct (control o p ea er (safety o s0) pl _) as [[c|]|e] eqn:Hc; [|discriminate|].
  2:{ injection H as H _. exfalso. exact (soft_not _ (soft_control _ _ _ _ Hc) H). }
  unfold perturbation in H. rewrite NP in H.
  destruct (propagate o p (safety o s0) pl c v3zero) as [[[[oe' t'] m'] dtb]|e] eqn:Hpr.
  2:{ injection H as H _. exfalso. exact (soft_not _ (soft_prop _ _ _ _ _ Hpr) H). }
  destruct (battery_update _ _ _ _ _) as [b' c'].
  destruct (ctl_ab _ _ _ _ _ _ _ _ Hc) as [A1 A2].
  destruct (c_ab c) as [[al be]|] eqn:Hab.
  - exfalso. destruct B as (_ & _ & _ & _ & HC). change (q_check o = check_of et) in HC. unfold exit_check in H. rewrite HC in H.
    destruct (check_of et _ (p_oeT p) (p_woe p) (q_tol o)) as [[|]|e] eqn:E1; [discriminate| |
      injection H as H _; exact (soft_not _ (soft_check _ _ _ _ _ _ E1) H)].
    destruct (check_of et _ (p_oeT p) (p_woe p) (q_tol_relaxed o)) as [rel|e] eqn:E2;
      [|injection H as H _; exact (soft_not _ (soft_check _ _ _ _ _ _ E2) H)].
    cbv zeta in H. destruct (rel && _)%bool; [discriminate|]. destruct (nleb _ _); discriminate.
  - destruct (pl_duty pl) eqn:Hd; [exfalso; apply A1; reflexivity|].
    split; [|eauto]. destruct (safety_fields o s0) as (_ & _ & _ & _ & _ & _ & _ & _ & _ & Ha).
    pose proof (A2 eq_refl). congruence.
Qed.
Lemma step_ab s0 s1 : step o p ea er s0 = Next s1 -> l_ab s1 <> None.
Proof.
  intros H. unfold step in H. cbv zeta in H.
  destruct (plan o p (safety o s0)) as [pl|e]; [|discriminate].
  destruct (control _ _ _ _ _ _ _) as [[c|]|e]; [|discriminate|discriminate].
  destruct (perturbation _ _); [|discriminate].
  destruct (propagate _ _ _ _ _ _) as [[[[oe' t'] m'] dtb]|e]; [|discriminate].
  destruct (battery_update _ _ _ _ _) as [b' c'].
  destruct (c_ab c) as [[al be]|]; [|discriminate].
  unfold exit_check in H. destruct (q_check _ _ _ _ _) as [[|]|]; [discriminate| |discriminate].
  destruct (q_check _ _ _ _ _) as [rel|]; [|discriminate]. cbv zeta in H.
  destruct (rel && _)%bool; [discriminate|]. destruct (nleb _ _); [discriminate|].
  injection H as <-. simpl. discriminate.
Qed.
Lemma loop_unbound fuel : forall s sf, (l_ab s <> None \/ ~ Unb (step o p ea er s)) ->
  loop fuel o p ea er s <> LFail UnboundLocalError sf.
Proof.
  induction fuel as [|n IH]; intros s sf Hs; cbn [loop]; destruct (guard p s); try discriminate.
  assert (Hu : ~ Unb (step o p ea er s)).
  { destruct Hs as [Hs|Hs]; [|exact Hs]. intros U. apply step_unbound in U as [U _]. contradiction. }
  destruct (step o p ea er s) as [s1| |e s1] eqn:E; [|discriminate|].
  - apply IH. left. eapply step_ab. exact E.
  - intros H. injection H as -> ->. apply Hu. exists sf. reflexivity.
Qed.

Lemma C25_bound_lem fuel o' : q_problem o = Some p ->
  nltb (p_duty_on p) (nsub (nofZ 0) (nofZ 0)) = false ->
  nleb (p_batt0 p) (nadd (p_cap_lo p) (dec 1 12)) = false ->
  solve fuel o ea er <> Raises UnboundLocalError o'.
Proof.
  intros Hp Hon Hb H. unfold solve in H. rewrite Hp in H.
  assert (L : forall sf, loop fuel o p ea er (init_state p) <> LFail UnboundLocalError sf).
  { intros sf. apply loop_unbound. right. intros U. apply step_unbound in U as (_ & pl & Hpl & Hd).
    destruct (plan_inv o p _ _ Hpl) as (dt0 & d1 & ton1 & toff1 & d2 & _ & D & Bt & R & _).
    destruct (safety_fields o (init_state p)) as (St & _ & Sb & _ & _ & Sd & Son & Sof & Sc & _).
    rewrite St, Sd, Son, Sof in D. rewrite Sb, Sc in Bt. cbn [init_state l_t l_duty l_ton l_toff l_batt l_chg] in D, Bt.
    unfold duty_phase in D. rewrite Hon in D. cbn [andb negb] in D. rewrite andb_false_r in D.
    injection D as <- <- <-. unfold battery_phase in Bt. rewrite Hb in Bt.
    assert (E : d2 = true /\ pl_chg pl = false).
    { destruct (nltb _ (p_cap_lo p) && negb false)%bool; injection Bt as _ E1 _ E2; auto. }
    destruct E as [-> Ec]. rewrite R in Hd. unfold recharge_phase in Hd. rewrite Ec, andb_false_r in Hd.
    discriminate. }
  destruct ea; [| |discriminate].
  all: destruct (loop fuel o p _ er (init_state p)) as [s1|c1 v1 s1|e1 s1|s1] eqn:E; try discriminate;
    injection H as -> _; exact (L s1 eq_refl).
Qed.
End Built.
End First.
