(** What each recorded step of a run is (any number type). *)
From Coq Require Import String ZArith List Bool Lia.
From Verif Require Import Num Base Elements Integrate Eom Convergence Lyapunov Perturb Qlaw Trace Spec
  SolveProofs ExitProofs GateProofs XTrace RunSpec.
Import ListNotations.

Section R.
Context {N : Num}.
Variables (o : qlaw N) (p : problem N) (ea er : eta_arg N).
Notation tr := (tr o p ea er).
Notation iter := (iter o p ea er).
Notation mkh := (mkh p).

(** Thrust vector, law answer and angles of the control phase. *)
Lemma ctl_inv s pl acc c : control o p ea er s pl acc = Ok (Ctl c) ->
  exists al0 be0 D, law o p acc (l_oe s) = Ok (al0, be0, D, c_psi c, c_q c, c_qdot c) /\
    (c_thr c = 1%Z /\ c_ab c = Some (al0, be0) /\ (nisnan al0 || nisnan be0)%bool = false /\
       c_u c = v3scal acc (heading al0 be0) \/
     c_thr c = 0%Z /\ c_u c = v3zero /\
       (c_ab c = Some (al0, be0) \/ c_ab c = Some (nofZ 0, nofZ 0) /\ (nisnan al0 || nisnan be0)%bool = true \/
        c_ab c = l_ab s)).
Proof.
  unfold control, lyap_call, law. destruct (pl_duty pl).
  - destruct (lyapunov_control_angles _ _ _ _ _ _ _ _ _ _ _ _ _) as [[[[[[al be] D] psi] q] qd]|e]; [|discriminate].
    cbn [bind]. cbv zeta. destruct (nisnan al || nisnan be)%bool eqn:En.
    + destruct (Z.ltb _ _); [discriminate|]. intros H. injection H as <-. cbn. exists al, be, D.
      split; [reflexivity|]. right. split; [reflexivity|]. split; [reflexivity|]. right. left. split; [reflexivity|exact En].
    + intros H. exists al, be, D. destruct (nltb _ _ || nltb _ _)%bool.
      * destruct (evaluate_osculating_qdot o p (l_oe s) acc) as [[M mn]|]; [|discriminate]. cbn [bind] in H.
        injection H as <-. cbn. split; [reflexivity|]. destruct (nltb _ _ || nltb _ _)%bool; auto 8.
      * injection H as <-. cbn. auto 7.
  - destruct (lyapunov_control_angles _ _ _ _ _ _ _ _ _ _ _ _ _) as [[[[[[al be] D] psi] q] qd]|e]; [|discriminate].
    cbn [bind]. intros H. injection H as <-. cbn. exists al, be, D. auto 7.
Qed.

Lemma iter_oe s g : iter s g -> l_oe (g_s g) = guarded o (l_oe s).
Proof. intros I. rewrite (it_s _ _ _ _ _ _ I). apply safety_oe. Qed.

Lemma prop_inv s pl c F oe' t' m' dtb : propagate o p s pl c F = Ok (oe', t', m', dtb) ->
  exists hn, advanced o (l_t s) (pl_dt pl) (l_oe s)
    {| op_mu := q_mu o; op_u := c_u c; op_psi := c_psi c; op_ptrb := F |} oe' hn /\
    dtb = battery_time o (pl_dt pl) hn.
Proof.
  unfold propagate, advanced. destruct (q_integ o).
  - destruct (rk4 _ _ _ _ _) as [y|e]; [|discriminate]. cbn [bind]. intros H. injection H as <- <- <- <-.
    exists None. auto.
  - destruct (rkf45 _ _ _ _ _ _) as [[y x]|e]; [|discriminate]. cbn [bind]. intros H. injection H as <- <- <- <-.
    exists (Some x). split; [exists x; auto|reflexivity].
Qed.

Lemma row_flown h k sk g : row_facts o p ea er h k sk g ->
  exists hn, flown o p h k (g_oe g) hn /\ g_dtb g = battery_time o (pl_dt (g_pl g)) hn.
Proof.
  intros RF. pose proof (rf_iter _ _ _ _ _ _ _ _ RF) as I.
  destruct (iter_sfields _ _ _ _ _ _ I) as (S1 & S2 & _).
  destruct (ctl_inv _ _ _ _ (it_ctl _ _ _ _ _ _ I)) as (al0 & be0 & D & HL & HT).
  destruct (prop_inv _ _ _ _ _ _ _ _ (it_prop _ _ _ _ _ _ I)) as (hn & HA & HB).
  exists hn. split; [|exact HB].
  exists (l_t sk), (pl_dt (g_pl g)), (l_mass sk), (l_oe (g_s g)), (g_al g), (g_be g), (c_thr (g_c g)),
    (c_q (g_c g)), (c_qdot (g_c g)), al0, be0, D, (c_psi (g_c g)), (g_ptrb g).
  split; [exact (rf_t _ _ _ _ _ _ _ _ RF)|].
  split; [rewrite <- (iter_t o p ea er _ _ I); exact (rf_t' _ _ _ _ _ _ _ _ RF)|].
  split; [exact (rf_m _ _ _ _ _ _ _ _ RF)|]. split; [exact (rf_oe _ _ _ _ _ _ _ _ RF)|].
  split; [exact (rf_c _ _ _ _ _ _ _ _ RF)|]. split; [exact (rf_q _ _ _ _ _ _ _ _ RF)|].
  split; [exact (rf_dq _ _ _ _ _ _ _ _ RF)|].
  split; [rewrite <- S2; exact HL|].
  pose proof (it_ab _ _ _ _ _ _ I) as Hab.
  pose proof (it_ptrb _ _ _ _ _ _ I) as Hpt.
  assert (HF : disturbed o (l_t sk) (l_oe (g_s g)) (g_ptrb g)).
  { unfold perturbation in Hpt. rewrite S1 in Hpt. unfold disturbed. destruct (q_ptrb o); [exact Hpt|congruence]. }
  rewrite S1 in HA.
  destruct HT as [(T1 & T2 & T3 & T4)|(T1 & T2 & _)]; rewrite T1.
  - rewrite T2 in Hab. injection Hab as <- <-. split; [left; auto|]. split; [exact HF|].
    rewrite T4 in HA. unfold thrust_acc. rewrite <- S2. exact HA.
  - split; [right; reflexivity|]. split; [exact HF|]. rewrite T2 in HA. exact HA.
Qed.

Lemma flown_lem fuel o' h : ran fuel o ea er p o' h ->
  exists zs, raws o (p_oe0 p) h zs /\ length zs = length (h_controls h) /\
    forall k z, nth_error zs k = Some z -> exists hn, flown o p h k z hn.
Proof.
  intros Hr. destruct (ran_ended o p ea er _ _ _ Hr) as (gs & oel & code & conv & He & -> & _).
  exists (map g_oe gs). split; [eapply ended_raws; eassumption|]. split; [simpl; rewrite !map_length; reflexivity|].
  intros k z Hk. rewrite nth_error_map in Hk. destruct (nth_error gs k) as [g|] eqn:Hg; [|discriminate].
  injection Hk as <-. destruct (ended_facts o p ea er _ _ _ _ He k g Hg) as (sk & _ & RF).
  destruct (row_flown _ _ _ _ RF) as (hn & H & _). exists hn. exact H.
Qed.

(** The battery level of every step. *)
Lemma battery_lem fuel o' h k : ran fuel o ea er p o' h -> (k < length (h_controls h))%nat ->
  exists z hn t dt b al be thr (on : bool),
    flown o p h k z hn /\ nth_error (h_times h) k = Some t /\ nth_error (h_times h) (S k) = Some (nadd t dt) /\
    nth_error (h_battery h) k = Some b /\ nth_error (h_controls h) k = Some (al, be, thr) /\
    (thr = 1%Z -> on = true) /\
    nth_error (h_battery h) (S k) = Some (npclip
      (if on then nsub b (nmul (p_discharge p) (battery_time o dt hn)) else nadd b (nmul (p_charge p) (battery_time o dt hn)))
      (p_cap_lo p) (p_cap_hi p)).
Proof.
  intros Hr Hk. destruct (ran_row o p ea er _ _ _ k Hr Hk) as (gs & oel & code & conv & sk & g & _ & _ & _ & _ & RF).
  destruct (row_flown _ _ _ _ RF) as (hn & HF & HB). pose proof (rf_iter _ _ _ _ _ _ _ _ RF) as I.
  destruct (iter_sfields _ _ _ _ _ _ I) as (_ & _ & S3 & _).
  exists (g_oe g), hn, (l_t sk), (pl_dt (g_pl g)), (l_batt sk), (g_al g), (g_be g), (c_thr (g_c g)), (pl_duty (g_pl g)).
  split; [exact HF|]. split; [exact (rf_t _ _ _ _ _ _ _ _ RF)|].
  split; [rewrite <- (iter_t o p ea er _ _ I); exact (rf_t' _ _ _ _ _ _ _ _ RF)|].
  split; [exact (rf_b _ _ _ _ _ _ _ _ RF)|]. split; [exact (rf_c _ _ _ _ _ _ _ _ RF)|].
  split; [intros T; eapply ctl_thr; [exact (it_ctl _ _ _ _ _ _ I)|exact T]|].
  rewrite (rf_b' _ _ _ _ _ _ _ _ RF). f_equal. pose proof (it_batt _ _ _ _ _ _ I) as B.
  rewrite HB, S3 in B. unfold battery_update in B. destruct (pl_duty (g_pl g)); injection B as <- _; reflexivity.
Qed.

(** The angles recorded for a coasting step. *)
Lemma angles_lem fuel o' h k al be : ran fuel o ea er p o' h -> nth_error (h_controls h) k = Some (al, be, 0%Z) ->
  exists t dt m oe al0 be0 D psi q qd,
    nth_error (h_times h) k = Some t /\ nth_error (h_times h) (S k) = Some (nadd t dt) /\
    nth_error (h_masses h) k = Some m /\ nth_error (h_states h) k = Some oe /\
    law o p (thrust_acc p dt m) oe = Ok (al0, be0, D, psi, q, qd) /\
    (al = al0 /\ be = be0 \/
     al = nofZ 0 /\ be = nofZ 0 /\ (nisnan al0 || nisnan be0)%bool = true \/
     exists j thr', k = S j /\ nth_error (h_controls h) j = Some (al, be, thr')).
Proof.
  intros Hr Hc. assert (Hk : (k < length (h_controls h))%nat) by (apply nth_error_Some; congruence).
  destruct (ran_row o p ea er _ _ _ k Hr Hk) as (gs & oel & code & conv & sk & g & He & Hh & Hg & Htr & RF).
  pose proof (rf_iter _ _ _ _ _ _ _ _ RF) as I. pose proof (rf_c _ _ _ _ _ _ _ _ RF) as C.
  rewrite Hc in C. injection C as -> -> T.
  destruct (iter_sfields _ _ _ _ _ _ I) as (S1 & S2 & _ & _ & _ & _ & _ & S8).
  destruct (ctl_inv _ _ _ _ (it_ctl _ _ _ _ _ _ I)) as (al0 & be0 & D & HL & HT).
  exists (l_t sk), (pl_dt (g_pl g)), (l_mass sk), (l_oe (g_s g)), al0, be0, D, (c_psi (g_c g)), (c_q (g_c g)), (c_qdot (g_c g)).
  split; [exact (rf_t _ _ _ _ _ _ _ _ RF)|].
  split; [rewrite <- (iter_t o p ea er _ _ I); exact (rf_t' _ _ _ _ _ _ _ _ RF)|].
  split; [exact (rf_m _ _ _ _ _ _ _ _ RF)|]. split; [exact (rf_oe _ _ _ _ _ _ _ _ RF)|].
  split; [rewrite <- S2; exact HL|]. pose proof (it_ab _ _ _ _ _ _ I) as Hab.
  destruct HT as [(T1 & _)|(_ & _ & [E|[(E & En)|E]])]; [congruence| | |].
  - left. rewrite E in Hab. injection Hab as <- <-. auto.
  - right. left. rewrite E in Hab. injection Hab as <- <-. auto.
  - right. right. rewrite Hab, S8 in E. destruct k as [|j].
    + simpl in Htr. inversion Htr as [E0|gs1 s1 g1 s1' _ _ _ _ E0]; [|destruct gs1; discriminate].
      subst sk. discriminate.
    + assert (Hj : (j < length (h_controls h))%nat) by lia.
      destruct (nth_error gs j) as [g'|] eqn:Hg'.
      2:{ apply nth_error_None in Hg'. rewrite Hh in Hj. simpl in Hj. rewrite map_length in Hj. lia. }
      rewrite (nth_error_firstn_S _ _ _ Hg') in Htr. destruct (tr_last _ _ _ _ _ _ _ Htr) as [n ->].
      cbn in E. injection E as -> ->. exists j, (c_thr (g_c g')). split; [reflexivity|].
      rewrite Hh. simpl. rewrite nth_error_map, Hg'. reflexivity.
Qed.
End R.
Lemma setters_store {N : Num} (o : qlaw N) mu et ig :
  (forall o', set_mu o mu = Ok o' -> (q_mu o', q_etype o', q_integ o') = (mu, q_etype o, q_integ o) /\ settings o' = settings o /\ results o' = results o) /\
  (forall o', set_elements_type o et = Ok o' -> q_mu o' = q_mu o /\
    (et = "keplerian"%string /\ q_etype o' = Keplerian \/ et = "mee_with_a"%string /\ q_etype o' = MeeWithA) /\
    q_integ o' = q_integ o /\ settings o' = settings o /\ results o' = results o) /\
  (forall o', set_integrator o ig = Ok o' -> q_mu o' = q_mu o /\ q_etype o' = q_etype o /\
    (ig = "rk4"%string /\ q_integ o' = RK4 \/ ig = "rkf45"%string /\ q_integ o' = RKF45) /\ settings o' = settings o /\ results o' = results o).
Proof.
  split; [|split]; intros o' E.
  - unfold set_mu in E. destruct (negb _); [discriminate|]. injection E as <-. repeat split.
  - unfold set_elements_type, etype_of_string in E. destruct (String.eqb_spec et "keplerian"); [|destruct (String.eqb_spec et "mee_with_a"); [|discriminate]];
      injection E as <-; repeat split; auto.
  - unfold set_integrator, integ_of_string in E. destruct (String.eqb_spec ig "rk4"); [|destruct (String.eqb_spec ig "rkf45"); [|discriminate]];
      injection E as <-; repeat split; auto.
Qed.
Lemma solve_keeps {N : Num} fuel (o o' : qlaw N) ea er : solve fuel o ea er = Returns o' \/ (exists e, solve fuel o ea er = Raises e o') ->
  (q_mu o', q_etype o', q_integ o') = (q_mu o, q_etype o, q_integ o) /\ settings o' = settings o.
Proof.
  intros H. assert (K : forall r : sres N, r = solve fuel o ea er -> match r with Returns x | Raises _ x => (q_mu x, q_etype x, q_integ x) = (q_mu o, q_etype o, q_integ o) /\ settings x = settings o | Running => True end).
  { intros r ->. unfold solve. destruct (q_problem o) as [p|]; [|split; reflexivity]. destruct ea; try (split; reflexivity);
    match goal with |- context [loop ?a ?b ?c ?d ?e ?f] => destruct (loop a b c d e f) end; try exact I; split; reflexivity. }
  specialize (K _ eq_refl). destruct H as [H|[e H]]; rewrite H in K; exact K.
Qed.
