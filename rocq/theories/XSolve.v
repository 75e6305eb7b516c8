(** Properties of returned histories over extended reals (time, mass, battery, duty cycle). *)
From Coq Require Import Reals ZArith List Bool Lia Lra.
From Verif Require Import RMath Num Base Elements Integrate Eom Convergence Lyapunov Perturb Qlaw Trace
  Spec XSpec SolveProofs ExitProofs GateProofs XTrace XProofs.
Import ListNotations.
Local Open Scope R_scope.

Lemma nth_map_fin {A} (f : A -> R) l k r : nth_error l k = Some r ->
  nth_error (map (fun x => Fin (f x)) l) k = Some (Fin (f r)).
Proof. intros H. rewrite nth_error_map, H. reflexivity. Qed.

Lemma entry_lt l k x : entry l k x -> (k < length l)%nat.
Proof. unfold entry. intros H. apply nth_error_Some. congruence. Qed.
Lemma entry_inj l k x y : entry l k x -> entry l k y -> x = y.
Proof. unfold entry. congruence. Qed.

Lemma xleb_fin x y : xleb (Fin x) (Fin y) = true <-> x <= y.
Proof.
  unfold xleb. simpl. rewrite orb_true_iff, Rltb_true, Reqb_true. lra.
Qed.
Lemma xleb_fin_f x y : xleb (Fin x) (Fin y) = false <-> y < x.
Proof.
  destruct (xleb (Fin x) (Fin y)) eqn:H.
  - apply xleb_fin in H. split; [discriminate|lra].
  - split; [|auto]. intros _. apply Rnot_le_lt. intros X. apply xleb_fin in X. congruence.
Qed.

(** Any number type: masses before the last exceed the floor. *)
Lemma mass_floor {N : Num} (o : qlaw N) p ea er fuel o' h k m : ran fuel o ea er p o' h ->
  (S k < length (h_controls h))%nat -> nth_error (h_masses h) (S k) = Some m ->
  nleb m (p_mass_min p) = false.
Proof.
  intros Hr Hk Hm. destruct (ran_ended _ _ _ _ _ _ _ Hr) as (gs & oel & code & conv & He & -> & _).
  simpl in *. rewrite map_length in Hk. rewrite nth_error_map in Hm.
  assert (T : forall gs' s, tr o p ea er gs' s -> forall g, nth_error gs' k = Some g -> nleb (g_m g) (p_mass_min p) = false).
  { intros gs' s Ht g Hg. pose proof (tr_mass _ _ _ _ _ _ Ht) as F. rewrite Forall_forall in F.
    apply F. apply in_map. eapply nth_error_In; eauto. }
  destruct (nth_error gs k) as [g|] eqn:Hg; [|discriminate]. injection Hm as <-.
  destruct He as [gs s Htr _|gs s g0 code conv s' Htr _ _ _|gs s pl Htr _ _ _].
  - eapply T; eauto.
  - rewrite app_length in Hk. simpl in Hk. rewrite nth_error_app1 in Hg by lia. eapply T; eauto.
  - eapply T; eauto.
Qed.

(** A run that is still going when the fuel is used up has made that many steps. *)
Lemma loop_fuel {N : Num} (o : qlaw N) p ea er fuel : forall gs s s', tr o p ea er gs s ->
  loop fuel o p ea er s = LFuel s' ->
  exists gs', tr o p ea er gs' s' /\ guard p s' = true /\ length gs' = (length gs + fuel)%nat.
Proof.
  induction fuel as [|n IH]; intros gs s s' Htr; simpl; destruct (guard p s) eqn:Hg; try discriminate.
  - intros H. injection H as <-. exists gs. repeat split; auto.
  - intros H. pose proof (step_cases o p ea er s) as SC.
    destruct (step o p ea er s) as [s1|code conv s1|e s1] eqn:Hst; try discriminate.
    inversion SC as [g Hit Heq| | |].
    destruct (IH (gs ++ [g]) s1 s') as (gs' & A & B & C); [eapply tr_snoc; eauto|exact H|].
    exists gs'. repeat split; auto. rewrite C, app_length. simpl. lia.
Qed.

Section X.
Variables (o : qlaw XNum) (p : problem XNum) (ea er : eta_arg XNum) (a : params).

(** Mass bookkeeping, for any step-size rule. *)
Lemma C10_lem fuel o' h k thr t t' m md : ran fuel o ea er p o' h ->
  throttle h k thr -> entry (h_times h) k t -> entry (h_times h) (S k) t' ->
  entry (h_masses h) k m -> p_mdot p = Fin md ->
  entry (h_masses h) (S k) (m - IZR thr * md * (t' - t)).
Proof.
  unfold throttle, entry. intros Hr Hth Ht Ht' Hm Hmd.
  assert (Hk : (k < length (h_controls h))%nat).
  { rewrite <- (map_length snd). apply nth_error_Some. congruence. }
  destruct (ran_row _ _ _ _ _ _ _ k Hr Hk) as (gs & oel & code & conv & sk & g & _ & _ & _ & _ & F).
  destruct F as [Hit _ F1 F2 F3 F4 _ _ _ Fc _ _ _ _].
  rewrite nth_error_map, Fc in Hth. simpl in Hth. injection Hth as Hth.
  apply (eq_trans (eq_sym F1)) in Ht. injection Ht as Ht.
  apply (eq_trans (eq_sym F2)) in Ht'. injection Ht' as Ht'.
  apply (eq_trans (eq_sym F3)) in Hm. injection Hm as Hm. refine (eq_trans F4 _). f_equal.
  destruct (iter_sfields _ _ _ _ _ _ Hit) as (S1 & S2 & _).
  pose proof (it_prop _ _ _ _ _ _ Hit) as P. pose proof (it_ctl _ _ _ _ _ _ Hit) as Ct.
  apply ctl_thr01 in Ct.
  assert (E : g_t g = nadd (l_t (g_s g)) (pl_dt (g_pl g)) /\
    g_m g = if Z.eqb (c_thr (g_c g)) 1 then nsub (l_mass (g_s g)) (nmul (p_mdot p) (pl_dt (g_pl g))) else l_mass (g_s g)).
  { revert P. unfold propagate. destruct (q_integ o).
    - destruct (rk4 _ _ _ _ _) as [y|e]; [|discriminate]. intros P. injection P; intros; subst; auto.
    - destruct (rkf45 _ _ _ _ _ _) as [[y hn]|e]; [|discriminate]. intros P. injection P; intros; subst; auto. }
  destruct E as [E1 E2]. rewrite S1, Ht, Ht' in E1. rewrite S2, Hm, Hmd in E2. rewrite E2. subst thr.
  cbn [nadd nsub nmul XNum] in *.
  destruct (pl_dt (g_pl g)) as [d| | |]; simpl in E1; try discriminate. injection E1 as E1.
  destruct Ct as [-> | ->]; simpl; f_equal; subst t'; lra.
Qed.

Hypothesis Hreg : regular o p a.

Lemma link fuel o' h : ran fuel o ea er p o' h ->
  exists smin smax rs st, q_step_min o = Fin smin /\ q_step_max o = Fin smax /\ 0 < smin <= smax /\
    run_reals o a smin smax h rs st.
Proof.
  intros Hr. destruct Hreg as (Hf & Hs & smin & smax & H1 & H2 & H3). exists smin, smax.
  destruct (ran_reals o p ea er a smin smax Hf Hs) with (fuel := fuel) (o' := o') (h := h) as (rs & st & R); auto.
  { intros _. split; [auto|]. split; [auto|lra]. }
  exists rs, st. auto.
Qed.

Section Run.
Variables (h : hist XNum) (smin smax : R) (rs : list rrow) (st : rst).
Hypothesis R : run_reals o a smin smax h rs st.

Lemma run_len : length (h_controls h) = length rs.
Proof. rewrite <- (map_length snd), (rn_thr _ _ _ _ _ _ _ R), map_length. reflexivity. Qed.

Lemma run_entry k : (k <= length rs)%nat ->
  entry (h_times h) k (s_t (st_at a rs k)) /\ entry (h_masses h) k (s_m (st_at a rs k)) /\
  entry (h_battery h) k (s_b (st_at a rs k)).
Proof.
  intros Hk. unfold entry. destruct R as [C Rt Rm Rb Rc]. rewrite Rt, Rm, Rb.
  destruct k as [|k]; [repeat split; reflexivity|].
  destruct (nth_error rs k) as [r|] eqn:Hr; [|apply nth_error_None in Hr; lia].
  rewrite (st_at_S _ _ _ _ Hr). simpl. rewrite !nth_error_map, Hr. repeat split; reflexivity.
Qed.

Lemma run_time k t : entry (h_times h) k t -> (k <= length rs)%nat /\ t = s_t (st_at a rs k).
Proof.
  intros H. assert (Hk : (k <= length rs)%nat).
  { pose proof (entry_lt _ _ _ H) as Hlt.
    rewrite (rn_times _ _ _ _ _ _ _ R) in Hlt. simpl in Hlt. rewrite map_length in Hlt. lia. }
  split; [exact Hk|]. destruct (run_entry k Hk) as (H1 & _). eapply entry_inj; eassumption.
Qed.
Lemma run_mass k t : entry (h_masses h) k t -> (k <= length rs)%nat /\ t = s_m (st_at a rs k).
Proof.
  intros H. assert (Hk : (k <= length rs)%nat).
  { pose proof (entry_lt _ _ _ H) as Hlt.
    rewrite (rn_masses _ _ _ _ _ _ _ R) in Hlt. simpl in Hlt. rewrite map_length in Hlt. lia. }
  split; [exact Hk|]. destruct (run_entry k Hk) as (_ & H1 & _). eapply entry_inj; eassumption.
Qed.
Lemma run_batt k t : entry (h_battery h) k t -> (k <= length rs)%nat /\ t = s_b (st_at a rs k).
Proof.
  intros H. assert (Hk : (k <= length rs)%nat).
  { pose proof (entry_lt _ _ _ H) as Hlt.
    rewrite (rn_batt _ _ _ _ _ _ _ R) in Hlt. simpl in Hlt. rewrite map_length in Hlt. lia. }
  split; [exact Hk|]. destruct (run_entry k Hk) as (_ & _ & H1). eapply entry_inj; eassumption.
Qed.
Lemma run_thr k z : throttle h k z -> exists r, nth_error rs k = Some r /\ z = if r_thr r then 1%Z else 0%Z.
Proof.
  unfold throttle. rewrite (rn_thr _ _ _ _ _ _ _ R), nth_error_map.
  destruct (nth_error rs k) as [r|]; [|discriminate]. intros H. injection H as <-. eauto.
Qed.
Lemma run_row k : (k < length rs)%nat -> exists r, nth_error rs k = Some r /\
  row_ok a (is_rk4 o) smin smax (st_at a rs k) r /\ st_at a rs (S k) = next_st r.
Proof.
  intros Hk. destruct (nth_error rs k) as [r|] eqn:Hr; [|apply nth_error_None in Hr; lia].
  exists r. split; [reflexivity|]. split; [|apply st_at_S; auto].
  eapply chain_row; [exact (rn_chain _ _ _ _ _ _ _ R)|exact Hr].
Qed.
Lemma run_thr_duty k : throttle h k 1 -> exists r, nth_error rs k = Some r /\ r_duty r = true /\
  row_ok a (is_rk4 o) smin smax (st_at a rs k) r /\ st_at a rs (S k) = next_st r.
Proof.
  intros H. destruct (run_thr _ _ H) as (r & Hr & Hz).
  assert (Hlt : (k < length rs)%nat) by (apply nth_error_Some; congruence).
  destruct (run_row k Hlt) as (r' & Hr' & RO & E). assert (r' = r) by congruence. subst r'.
  exists r. split; [auto|]. split; [|auto].
  apply (ro_thr _ _ _ _ _ _ RO). destruct (r_thr r); [reflexivity|discriminate].
Qed.
End Run.

Lemma C11_lem fuel o' h : ran fuel o ea er p o' h -> 0 < a_ts a -> 0 <= a_mdot a -> a_mmin a < a_mass0 a ->
  forall k, (k < length (h_controls h))%nat ->
  exists m m', entry (h_masses h) k m /\ entry (h_masses h) (S k) m' /\
    m' <= m /\ a_mmin a < m /\ a_mmin a - a_mdot a * a_ts a < m' /\
    ((S k < length (h_controls h))%nat -> a_mmin a < m').
Proof.
  intros Hr Hts Hmd H0 k Hk. destruct (link _ _ _ Hr) as (smin & smax & rs & st & _ & _ & Hs & R).
  rewrite (run_len _ _ _ _ _ R) in *.
  assert (Fl : forall j, (j < length rs)%nat -> a_mmin a < s_m (st_at a rs j)).
  { intros [|j] Hj; [exact H0|].
    destruct (run_entry _ _ _ _ _ R (S j) ltac:(lia)) as (_ & E & _).
    assert (X : @nleb XNum (Fin (s_m (st_at a rs (S j)))) (p_mass_min p) = false).
    { eapply mass_floor; [exact Hr| |exact E]. rewrite (run_len _ _ _ _ _ R). exact Hj. }
    destruct Hreg as ((_ & _ & _ & _ & Hmm & _) & _). rewrite Hmm in X. apply xleb_fin_f in X. exact X. }
  destruct (run_row _ _ _ _ _ R k Hk) as (r & Hrk & RO & E).
  destruct (run_entry _ _ _ _ _ R k ltac:(lia)) as (_ & Em & _).
  destruct (run_entry _ _ _ _ _ R (S k) ltac:(lia)) as (_ & Em' & _).
  eexists; eexists. split; [exact Em|]. split; [exact Em'|]. rewrite E. simpl.
  pose proof (ro_m _ _ _ _ _ _ RO) as M. destruct (row_dt _ _ _ _ _ _ RO Hts) as [Hdt _].
  pose proof (Fl k Hk) as Hf.
  assert (0 <= a_mdot a * r_dt r <= a_mdot a * a_ts a) by (split; [apply Rmult_le_pos; lra|apply Rmult_le_compat_l; lra]).
  split; [destruct (r_thr r); lra|]. split; [exact Hf|]. split; [destruct (r_thr r); lra|].
  intros Hk'. specialize (Fl (S k) Hk'). rewrite E in Fl. exact Fl.
Qed.

Lemma C12_lem fuel o' h : ran fuel o ea er p o' h -> 0 < a_ts a ->
  forall k, (k < length (h_controls h))%nat ->
  exists t t', entry (h_times h) k t /\ entry (h_times h) (S k) t' /\
    0 <= t < Rabs (a_tf a) /\ t < t' <= t + a_ts a /\ t' < Rabs (a_tf a) + a_ts a.
Proof.
  intros Hr Hts k Hk. destruct (link _ _ _ Hr) as (smin & smax & rs & st & _ & _ & Hs & R).
  rewrite (run_len _ _ _ _ _ R) in *.
  destruct (run_row _ _ _ _ _ R k Hk) as (r & Hrk & RO & E).
  destruct (run_entry _ _ _ _ _ R k ltac:(lia)) as (Em & _).
  destruct (run_entry _ _ _ _ _ R (S k) ltac:(lia)) as (Em' & _).
  eexists; eexists. split; [exact Em|]. split; [exact Em'|]. rewrite E. simpl.
  pose proof (ro_t _ _ _ _ _ _ RO) as T. destruct (row_dt _ _ _ _ _ _ RO Hts) as [Hdt _].
  pose proof (ro_guard _ _ _ _ _ _ RO) as G.
  pose proof (times_le _ _ _ _ _ _ (rn_chain _ _ _ _ _ _ _ R) Hts 0 k ltac:(lia)) as H0.
  change (s_t (st_at a rs 0)) with 0 in H0. rewrite Rabs_pos_eq in G by lra. lra.
Qed.

Lemma C13_lem fuel : q_problem o = Some p ->
    (0 < a_ts a /\ Rabs (a_tf a) <= INR fuel * smallest_step a) \/
    (a_ts a < 0 /\ 0 <= a_dis a /\ Rabs (a_tf a) <= INR fuel * - a_ts a) ->
  solve fuel o ea er <> Running.
Proof.
  intros Hp Hc.
  assert (D : forall s', loop fuel o p ea er (init_state p) = LFuel s' -> False).
  { intros s' HL. destruct (loop_fuel _ _ _ _ _ [] _ _ (tr_nil _ _ _ _) HL) as (gs & Htr & Hg & Hlen).
    simpl in Hlen. destruct Hreg as (Hf & Hs & smin & smax & H1 & H2 & H3).
    destruct (tr_link o p ea er a smin smax Hf Hs) with (gs := gs) (s := s') as (rs & st & C & F & M); auto.
    { intros _. split; [auto|]. split; [auto|lra]. }
    assert (Hl : length rs = fuel) by (rewrite <- Hlen; clear - F; induction F; simpl; auto).
    assert (G : Rabs (s_t st) < Rabs (a_tf a)).
    { revert Hg. unfold guard. rewrite (tr_hist _ _ _ _ _ _ Htr).
      assert (Hlast : last (h_times (mkh p gs (l_oe s'))) (nofZ 0) = Fin (s_t st)).
      { rewrite <- (sm_t _ _ M). destruct (tr_cur _ _ _ _ _ _ Htr) as (T1 & _). cbn [h_times mkh]. clear - T1.
        destruct gs as [|g gs _] using rev_ind; [simpl in *; injection T1; auto|].
        rewrite map_app in *. cbn [map] in *. change (nofZ 0 :: map g_t gs ++ [g_t g]) with ((nofZ 0 :: map g_t gs) ++ [g_t g]) in *.
        rewrite last_last. rewrite app_length, Nat.add_1_r in T1.
        rewrite nth_error_app2 in T1 by (simpl; rewrite map_length; lia).
        simpl length in T1. rewrite map_length, Nat.sub_diag in T1. injection T1; auto. }
      rewrite Hlast. destruct Hf as (_ & _ & Htf & _). rewrite Htf. cbn. intros X. apply Rltb_true in X. exact X. }
    destruct Hc as [[Hts Hn]|(Hts & Hd & Hn)].
    - pose proof (times_lower _ _ _ _ _ _ C Hts) as L. rewrite Hl in L.
      pose proof (Rle_abs (s_t st)). lra.
    - pose proof (times_back _ _ _ _ _ _ C Hts Hd) as L. rewrite Hl in L.
      pose proof (Rle_abs (- s_t st)) as X. rewrite Rabs_Ropp in X. lra. }
  unfold solve. rewrite Hp.
  destruct ea as [v|f|]; try discriminate;
    (destruct (loop fuel o p _ er (init_state p)) eqn:HL; try discriminate; exfalso; eapply D; eauto).
Qed.

Lemma C14_lem fuel o' h : ran fuel o ea er p o' h -> a_lo a <= a_hi a ->
  forall k, (k < length (h_controls h))%nat ->
  exists b, entry (h_battery h) (S k) b /\ a_lo a <= b <= a_hi a.
Proof.
  intros Hr Hlh k Hk. destruct (link _ _ _ Hr) as (smin & smax & rs & st & _ & _ & Hs & R).
  rewrite (run_len _ _ _ _ _ R) in *.
  destruct (run_row _ _ _ _ _ R k Hk) as (r & Hrk & RO & E).
  destruct (run_entry _ _ _ _ _ R (S k) ltac:(lia)) as (_ & _ & Eb).
  eexists. split; [exact Eb|]. rewrite E. simpl. rewrite (ro_b _ _ _ _ _ _ RO).
  apply rclip_bounds. exact Hlh.
Qed.

Lemma C15x_lem fuel o' h k b : ran fuel o ea er p o' h -> throttle h k 1 -> entry (h_battery h) k b ->
  a_lo a + 1 / 10 ^ 12 < b.
Proof.
  intros Hr Hth Hb. destruct (link _ _ _ Hr) as (smin & smax & rs & st & _ & _ & Hs & R).
  destruct (run_thr_duty _ _ _ _ _ R k Hth) as (r & Hrk & Hd & RO & E).
  destruct (run_batt _ _ _ _ _ R _ _ Hb) as (Hk & ->).
  destruct RO as [G (d1 & toff1 & d2 & D & B & Ed) Th T M Db Bb Ch].
  inversion B as [E1|E1 E2 E3|E1 E2]; subst; auto.
  exfalso. destruct (a_full a && r_chg1 r && Rltb (s_b (st_at a rs k)) (a_hi a))%bool; congruence.
Qed.

(** Battery change over one step, in terms of the duty flag. *)
Lemma batt_step fuel o' h k t t' b : ran fuel o ea er p o' h ->
  entry (h_times h) k t -> entry (h_times h) (S k) t' -> entry (h_battery h) k b ->
  exists (duty : bool) d, (throttle h k 1 -> duty = true) /\
    (is_rk4 o = true -> d = t' - t) /\
    (is_rk4 o = false -> exists smin smax, q_step_min o = Fin smin /\ q_step_max o = Fin smax /\ smin <= d <= smax) /\
    entry (h_battery h) (S k) (rclip (if duty then b - a_dis a * d else b + a_ch a * d) (a_lo a) (a_hi a)).
Proof.
  intros Hr Ht Ht' Hb. destruct (link _ _ _ Hr) as (smin & smax & rs & st & Q1 & Q2 & Hs & R).
  destruct (run_time _ _ _ _ _ R _ _ Ht) as (_ & ->).
  destruct (run_time _ _ _ _ _ R _ _ Ht') as (Hk & ->).
  destruct (run_batt _ _ _ _ _ R _ _ Hb) as (_ & ->).
  destruct (run_row _ _ _ _ _ R k Hk) as (r & Hrk & RO & E).
  exists (r_duty r), (r_dtb r). split; [|split; [|split]].
  - intros Hth. destruct (run_thr_duty _ _ _ _ _ R k Hth) as (r' & Hr' & Hd & _). congruence.
  - intros X. pose proof (ro_dtb _ _ _ _ _ _ RO) as D. rewrite X in D. rewrite D, E. simpl.
    rewrite (ro_t _ _ _ _ _ _ RO). lra.
  - intros X. pose proof (ro_dtb _ _ _ _ _ _ RO) as D. rewrite X in D. eauto.
  - destruct (run_entry _ _ _ _ _ R (S k) Hk) as (_ & _ & Eb). rewrite E in Eb. simpl in Eb.
    rewrite (ro_b _ _ _ _ _ _ RO) in Eb. exact Eb.
Qed.

Lemma C17_lem fuel o' h k t t' b : ran fuel o ea er p o' h -> q_integ o = RK4 ->
  0 < a_ts a -> a_full a = true -> 0 <= a_dis a -> a_lo a <= a_hi a -> a_b0 a <= a_hi a ->
  throttle h k 1 ->
  entry (h_times h) k t -> entry (h_times h) (S k) t' -> entry (h_battery h) k b ->
  a_lo a <= b - a_dis a * (t' - t) /\ entry (h_battery h) (S k) (b - a_dis a * (t' - t)).
Proof.
  intros Hr Hrk4 Hts Hfull Hdis Hlh Hb0 Hth Ht Ht' Hb.
  assert (Hrk : is_rk4 o = true) by (unfold is_rk4; rewrite Hrk4; reflexivity).
  destruct (batt_step _ _ _ _ _ _ _ Hr Ht Ht' Hb) as (duty & d & B1 & B2 & _ & B4).
  rewrite (B1 Hth), (B2 Hrk) in B4.
  destruct (link _ _ _ Hr) as (smin & smax & rs & st & Q1 & Q2 & Hs & R).
  destruct (run_time _ _ _ _ _ R _ _ Ht) as (_ & ->).
  destruct (run_time _ _ _ _ _ R _ _ Ht') as (Hk & ->).
  destruct (run_batt _ _ _ _ _ R _ _ Hb) as (_ & ->).
  destruct (run_thr_duty _ _ _ _ _ R k Hth) as (r & Hrr & Hd & RO & E).
  assert (Hle : s_b (st_at a rs k) <= a_hi a).
  { destruct k as [|k]; [exact Hb0|]. destruct (run_row _ _ _ _ _ R k ltac:(lia)) as (r0 & _ & RO0 & E0).
    rewrite E0. simpl. rewrite (ro_b _ _ _ _ _ _ RO0). apply rclip_le. }
  assert (Hc : r_chg1 r = false).
  { eapply full_duty_chg; [eapply chain_firstn with (k := k); [exact (rn_chain _ _ _ _ _ _ _ R)|lia]|reflexivity|exact RO|auto|auto]. }
  assert (Edt : s_t (st_at a rs (S k)) - s_t (st_at a rs k) = r_dt r).
  { rewrite E. simpl. rewrite (ro_t _ _ _ _ _ _ RO). lra. }
  rewrite Edt in *.
  pose proof (row_dt _ _ _ _ _ _ RO Hts) as [Hdt _].
  assert (L : a_lo a <= s_b (st_at a rs k) - a_dis a * r_dt r).
  { destruct RO as [G (d1 & toff1 & d2 & D & B & Ed) Th T M Db Bb Ch].
    pose proof (batt_rel_dt _ _ _ _ _ _ _ _ B Hts) as (_ & _ & X).
    destruct (Rle_lt_or_eq_dec (r_dt r) (a_ts a)) as [Hlt|Heq]; [lra| |].
    - destruct (X Hlt) as (_ & _ & _ & X4). lra.
    - inversion B as [E1|E1 E2 E3|E1 E2]; subst; try congruence.
      + assert (a_dis a <> 0) by (intros Z; rewrite Z in *; lra).
        right. field_simplify_eq; auto; lra.
      + destruct E2 as [E2|E2]; [lra|congruence]. }
  split; [exact L|]. rewrite rclip_id in B4; [exact B4|]. split; [exact L|].
  assert (0 <= a_dis a * r_dt r) by (apply Rmult_le_pos; lra). lra.
Qed.

Lemma C18_rk4_lem fuel o' h k t t' b : ran fuel o ea er p o' h -> q_integ o = RK4 ->
  entry (h_times h) k t -> entry (h_times h) (S k) t' -> entry (h_battery h) k b ->
  exists duty : bool, (throttle h k 1 -> duty = true) /\
    entry (h_battery h) (S k)
      (Rmin (Rmax (if duty then b - a_dis a * (t' - t) else b + a_ch a * (t' - t)) (a_lo a)) (a_hi a)).
Proof.
  intros Hr Hrk4 Ht Ht' Hb.
  destruct (batt_step _ _ _ _ _ _ _ Hr Ht Ht' Hb) as (duty & d & B1 & B2 & _ & B4).
  rewrite B2 in B4 by (unfold is_rk4; rewrite Hrk4; reflexivity). exists duty. split; auto.
Qed.

Lemma C18_rkf45_lem fuel o' h k t t' b b' smin : ran fuel o ea er p o' h -> q_integ o = RKF45 ->
  q_step_min o = Fin smin -> 0 < a_ts a < smin -> 0 < a_dis a -> 0 < a_ch a ->
  entry (h_times h) k t -> entry (h_times h) (S k) t' -> entry (h_battery h) k b ->
  entry (h_battery h) (S k) b' -> a_lo a < b' < a_hi a ->
  b' <> b - a_dis a * (t' - t) /\ b' <> b + a_ch a * (t' - t).
Proof.
  intros Hr Hrk4 Hsm Hts Hd Hc Ht Ht' Hb Hb' Hin.
  destruct (batt_step _ _ _ _ _ _ _ Hr Ht Ht' Hb) as (duty & d & B1 & _ & B3 & B4).
  destruct B3 as (s1 & s2 & E1 & E2 & E3); [unfold is_rk4; rewrite Hrk4; reflexivity|].
  assert (s1 = smin) by congruence. subst s1.
  assert (Eb : b' = rclip (if duty then b - a_dis a * d else b + a_ch a * d) (a_lo a) (a_hi a)).
  { eapply entry_inj; eassumption. }
  assert (Hk : (k < length (h_controls h))%nat /\ t < t' <= t + a_ts a).
  { destruct (link _ _ _ Hr) as (u1 & u2 & rs & st & Q1 & Q2 & Hs & R).
    destruct (run_time _ _ _ _ _ R _ _ Ht) as (_ & ->).
    destruct (run_time _ _ _ _ _ R _ _ Ht') as (Hk & ->).
    rewrite (run_len _ _ _ _ _ R). split; [lia|].
    destruct (run_row _ _ _ _ _ R k Hk) as (r & Hrk & RO & E). rewrite E. simpl.
    rewrite (ro_t _ _ _ _ _ _ RO). destruct (row_dt _ _ _ _ _ _ RO ltac:(lra)) as [X _]. lra. }
  destruct Hk as [_ Htt].
  assert (Ev : b' = if duty then b - a_dis a * d else b + a_ch a * d).
  { revert Eb. unfold rclip. set (x := if duty then _ else _). intros Eb.
    destruct (Rle_dec x (a_lo a)); [rewrite (Rmax_right x) in Eb by lra|rewrite (Rmax_left x) in Eb by lra].
    - exfalso. destruct (Rle_dec (a_lo a) (a_hi a)); [rewrite Rmin_left in Eb by lra|rewrite Rmin_right in Eb by lra]; lra.
    - destruct (Rle_dec x (a_hi a)); [rewrite Rmin_left in Eb by lra; exact Eb|rewrite Rmin_right in Eb by lra; lra]. }
  assert (t' - t < d) by lra. assert (0 < t' - t) by lra.
  destruct duty; rewrite Ev; split; nra.
Qed.

Lemma C19_lem fuel o' h k t t' : ran fuel o ea er p o' h -> 0 < a_ts a -> a_lo a <= a_hi a ->
  entry (h_times h) k t -> entry (h_times h) (S k) t' ->
  0 < t' - t <= a_ts a /\
  (t' - t < a_ts a -> q_integ o = RK4 -> throttle h k 1 -> entry (h_battery h) (S k) (a_lo a)).
Proof.
  intros Hr Hts Hlh Ht Ht'.
  destruct (link _ _ _ Hr) as (smin & smax & rs & st & Q1 & Q2 & Hs & R).
  destruct (run_time _ _ _ _ _ R _ _ Ht) as (_ & ->).
  destruct (run_time _ _ _ _ _ R _ _ Ht') as (Hk & ->).
  destruct (run_row _ _ _ _ _ R k Hk) as (r & Hrk & RO & E).
  assert (Edt : s_t (st_at a rs (S k)) - s_t (st_at a rs k) = r_dt r).
  { rewrite E. simpl. rewrite (ro_t _ _ _ _ _ _ RO). lra. }
  rewrite Edt. pose proof (row_dt _ _ _ _ _ _ RO Hts) as [Hdt _]. split; [exact Hdt|].
  intros Hlt Hrk4 Hth. destruct (run_thr_duty _ _ _ _ _ R k Hth) as (r' & Hr' & Hd & _).
  assert (r' = r) by congruence. subst r'.
  destruct (run_entry _ _ _ _ _ R (S k) Hk) as (_ & _ & Eb). rewrite E in Eb. simpl in Eb.
  rewrite (ro_b _ _ _ _ _ _ RO), Hd in Eb.
  pose proof (ro_dtb _ _ _ _ _ _ RO) as D. unfold is_rk4 in D. rewrite Hrk4 in D. rewrite D in Eb.
  destruct RO as [G (d1 & toff1 & d2 & Dd & B & Ed) Th T M Db Bb Ch].
  pose proof (batt_rel_dt _ _ _ _ _ _ _ _ B Hts) as (_ & _ & X).
  destruct (X Hlt) as (_ & _ & _ & X4). rewrite X4 in Eb.
  rewrite rclip_id in Eb by lra. exact Eb.
Qed.

Lemma C20_lem fuel o' h i j ti tj : ran fuel o ea er p o' h -> 0 < a_ts a -> 0 <= a_on a -> 0 <= a_off a ->
  (i <= j)%nat -> (forall m, (i <= m <= j)%nat -> throttle h m 1) ->
  entry (h_times h) i ti -> entry (h_times h) j tj -> tj - ti <= a_on a.
Proof.
  intros Hr Hts Hon Hoff Hij Hall Hi Hj.
  destruct (link _ _ _ Hr) as (smin & smax & rs & st & Q1 & Q2 & Hs & R).
  destruct (run_time _ _ _ _ _ R _ _ Hi) as (_ & ->).
  destruct (run_time _ _ _ _ _ R _ _ Hj) as (_ & ->).
  eapply on_limit; [exact (rn_chain _ _ _ _ _ _ _ R)|assumption|assumption|assumption|exact Hij|].
  intros m Hm. destruct (run_thr_duty _ _ _ _ _ R m (Hall m Hm)) as (r & X & Y & _). eauto.
Qed.

Lemma C21_lem fuel o' h i k ti tk : ran fuel o ea er p o' h -> 0 < a_ts a -> 0 <= a_on a -> 0 <= a_off a ->
  (i < k)%nat -> throttle h i 1 -> throttle h k 1 ->
  entry (h_times h) i ti -> entry (h_times h) k tk -> a_on a < tk - ti ->
  exists b c tb tc, (i < b /\ b < c /\ c <= k)%nat /\
    entry (h_times h) b tb /\ entry (h_times h) c tc /\ a_off a < tc - tb /\
    forall m, (b <= m < c)%nat -> throttle h m 0.
Proof.
  intros Hr Hts Hon Hoff Hik Thi Thk Hi Hk Hlong.
  destruct (link _ _ _ Hr) as (smin & smax & rs & st & Q1 & Q2 & Hs & R).
  destruct (run_time _ _ _ _ _ R _ _ Hi) as (_ & ->).
  destruct (run_time _ _ _ _ _ R _ _ Hk) as (_ & ->).
  destruct (run_thr_duty _ _ _ _ _ R i Thi) as (ri & Ri & Di & _).
  destruct (run_thr_duty _ _ _ _ _ R k Thk) as (rk & Rk & Dk & _).
  destruct (off_rest _ _ _ _ _ _ (rn_chain _ _ _ _ _ _ _ R) Hts Hon Hoff i k ri rk Hik Ri Di Rk Dk Hlong)
    as (b & c & Hbc & Hoffl & Hrows).
  assert (Hkl : (k < length rs)%nat) by (apply nth_error_Some; congruence).
  exists b, c, (s_t (st_at a rs b)), (s_t (st_at a rs c)). split; [exact Hbc|].
  split; [apply (run_entry _ _ _ _ _ R); lia|]. split; [apply (run_entry _ _ _ _ _ R); lia|].
  split; [exact Hoffl|]. intros m Hm. destruct (Hrows m Hm) as (r & X & Y).
  unfold throttle. rewrite (rn_thr _ _ _ _ _ _ _ R), nth_error_map, X. simpl.
  destruct (r_thr r) eqn:Z; [|reflexivity]. exfalso.
  pose proof (ro_thr _ _ _ _ _ _ (chain_row _ _ _ _ _ _ (rn_chain _ _ _ _ _ _ _ R) _ _ X) Z). congruence.
Qed.

Lemma C32_time_lem fuel o' h k t t' : ran fuel o ea er p o' h -> a_ts a < 0 -> 0 <= a_dis a ->
  entry (h_times h) k t -> entry (h_times h) (S k) t' -> t' = t + a_ts a /\ t = INR k * a_ts a.
Proof.
  intros Hr Hts Hd Ht Ht'.
  destruct (link _ _ _ Hr) as (smin & smax & rs & st & Q1 & Q2 & Hs & R).
  destruct (run_time _ _ _ _ _ R _ _ Ht) as (_ & ->).
  destruct (run_time _ _ _ _ _ R _ _ Ht') as (Hk & ->).
  destruct (run_row _ _ _ _ _ R k Hk) as (r & Hrk & RO & E).
  split.
  - rewrite E. simpl. rewrite (ro_t _ _ _ _ _ _ RO), (row_dt_back _ _ _ _ _ _ RO Hts Hd). reflexivity.
  - rewrite (times_back _ _ _ _ _ _ (chain_firstn _ _ _ _ _ _ (rn_chain _ _ _ _ _ _ _ R) k ltac:(lia)) Hts Hd).
    rewrite firstn_length_le by lia. reflexivity.
Qed.

(** Backward in time the duty timer never expires: the flag is only ever cleared by the battery. *)
Lemma back_duty smin smax rk rs st : chain a rk smin smax rs st -> 0 < smin -> a_ts a < 0 -> 0 <= a_on a ->
  0 <= a_off a -> 0 <= a_dis a ->
  (rk = true -> a_lo a + 1 / 10 ^ 12 < a_b0 a /\ a_lo a + 1 / 10 ^ 12 < a_hi a) ->
  rk = true ->
  s_duty st = true /\ s_ton st = 0 /\ s_t st <= 0 /\ s_chg st = false /\ a_lo a + 1 / 10 ^ 12 < s_b st /\
  forall r, In r rs -> r_duty r = true.
Proof.
  intros C Hsm Hts Hon Hoff Hd Hbat Hrk. specialize (Hbat Hrk). pose proof d12 as H12.
  induction C as [|rs s r C IH RO].
  - simpl. repeat split; auto; try lra; try (intros ? []; fail).
  - destruct IH as (I1 & I2 & I3 & I4 & I5 & I6).
    pose proof (row_dt_back _ _ _ _ _ _ RO Hts Hd) as Hdt.
    destruct RO as [G (d1 & toff1 & d2 & D & B & E) Th T M Db Bb Ch].
    assert (D1 : d1 = true /\ r_ton r = 0).
    { inversion D; subst; try congruence; split; auto; try congruence; exfalso; lra. }
    destruct D1 as [-> Hton].
    assert (B1 : d2 = true /\ r_chg1 r = false).
    { inversion B; subst; split; auto; try congruence; exfalso; lra. }
    destruct B1 as [-> Hc]. rewrite Hc, andb_false_r in E. simpl in E.
    simpl. rewrite E in *. repeat split; auto; try lra; try congruence.
    + rewrite Bb. rewrite Hrk in Db. rewrite Db, Hdt. unfold rclip.
      apply Rmin_glb_lt; [|apply Hbat]. eapply Rlt_le_trans; [|apply Rmax_l].
      assert (0 <= a_dis a * - a_ts a) by (apply Rmult_le_pos; lra). lra.
    + intros r0 Hin. apply in_app_or in Hin as [Hin|[<-|[]]]; auto.
Qed.

Lemma C32_duty_lem fuel o' h v1 v2 : ea = EtaFloat (N:=XNum) (Fin v1) -> er = EtaFloat (N:=XNum) (Fin v2) -> v1 <= 0 -> v2 <= 0 ->
  ran fuel o ea er p o' h -> q_integ o = RK4 -> a_ts a < 0 -> 0 <= a_on a -> 0 <= a_off a -> 0 <= a_dis a ->
  a_lo a + 1 / 10 ^ 12 < a_b0 a -> a_lo a + 1 / 10 ^ 12 < a_hi a ->
  (forall acc oe al be u psi q qd, lyap_call o p acc oe = Ok (al, be, u, psi, q, qd) ->
     nisnan al = false /\ nisnan be = false) ->
  forall k, (k < length (h_controls h))%nat -> throttle h k 1.
Proof.
  intros Hea Her Hv1 Hv2 Hr Hrk4 Hts Hon Hoff Hd Hb Hb2 Hnan k Hk.
  destruct Hreg as (Hf & Hs & smin & smax & H1 & H2 & H3).
  destruct (ran_reals_gs o p ea er a smin smax Hf Hs) with (fuel := fuel) (o' := o') (h := h)
    as (gs & oel & code & conv & rs & st & He & -> & C & F); auto.
  { intros _. split; [auto|]. split; [auto|lra]. }
  simpl in Hk. rewrite map_length in Hk.
  destruct (nth_error gs k) as [g|] eqn:Hg; [|apply nth_error_None in Hg; lia].
  unfold throttle. simpl. rewrite map_map, nth_error_map, Hg. simpl. f_equal.
  assert (Hex : exists r, nth_error rs k = Some r /\ row_match g r).
  { clear - F Hg. revert k Hg. induction F; intros [|k] Hg; try discriminate.
    - injection Hg as <-. simpl. eauto.
    - simpl in *. eauto. }
  destruct Hex as (r & Hrr & RM).
  destruct (back_duty _ _ _ _ _ C (proj1 H3) Hts Hon Hoff Hd) as (_ & _ & _ & _ & _ & Hall);
    [intros _; split; lra|unfold is_rk4; rewrite Hrk4; reflexivity|].
  pose proof (Hall r (nth_error_In _ _ Hrr)) as Hdr. rewrite <- (rm_duty _ _ RM) in Hdr.
  destruct (ended_row _ _ _ _ _ _ _ _ He k g Hg) as (sk & _ & _ & Hit).
  pose proof (it_ctl _ _ _ _ _ _ Hit) as Ct. revert Ct. unfold control. rewrite Hdr.
  destruct (lyap_call o p _ (l_oe (g_s g))) as [[[[[[al be] u] psi] q] qd]|e] eqn:Hl; [|discriminate].
  cbn [bind]. destruct (Hnan _ _ _ _ _ _ _ _ Hl) as [-> ->]. cbn [orb]. cbv zeta. rewrite Hea, Her.
  cbn [eta_now nltb XNum nofZ xltb].
  destruct (Rltb_spec 0 v2); [lra|]. destruct (Rltb_spec 0 v1); [lra|]. cbn [orb].
  intros X. injection X as <-. reflexivity.
Qed.

Lemma C16x_lem fuel o' h i j bi : ran fuel o ea er p o' h -> a_full a = true -> a_lo a <= a_hi a ->
  (i < j)%nat -> entry (h_battery h) i bi -> bi <= a_lo a + 1 / 10 ^ 12 -> throttle h j 1 ->
  exists k, (i < k <= j)%nat /\ entry (h_battery h) k (a_hi a).
Proof.
  intros Hr Hfull Hlh Hij Hi Hbi Hj.
  destruct Hreg as (Hf & _). pose proof Hf as Hf'.
  destruct Hf' as (_ & _ & _ & _ & _ & _ & _ & _ & F1 & F2 & _ & _ & F3).
  unfold throttle in Hj. rewrite nth_error_map in Hj.
  destruct (nth_error (h_controls h) j) as [[[al be] z]|] eqn:Hc; [|discriminate]. simpl in Hj. injection Hj as ->.
  destruct (C16_lem o p ea er fuel o' h i j al be (Fin bi) Hr) as (k & b & Hk & Hb & X); auto.
  { rewrite F3. exact Hfull. }
  { rewrite F1, xdec_gen. apply xleb_fin. exact Hbi. }
  exists k. split; [exact Hk|].
  assert (Hkl : (pred k < length (h_controls h))%nat).
  { assert (j < length (h_controls h))%nat by (apply nth_error_Some; congruence). lia. }
  destruct (C14_lem _ _ _ Hr Hlh (pred k) Hkl) as (b' & Hb' & Hin).
  replace (S (pred k)) with k in Hb' by lia. 
  assert (Eb : b = Fin b') by (apply (eq_trans (eq_sym Hb)) in Hb'; injection Hb'; auto). subst b.
  replace (a_hi a) with b'; [exact Hb'|].
  rewrite F2 in X. cbn in X. destruct X as [X|X].
  - apply Reqb_true in X. exact X.
  - apply Rltb_false in X. lra.
Qed.
End X.
