(** Scheduling, time, mass and battery of a run in extended-real arithmetic: with finite problem
    parameters and a fixed step they stay finite and follow the same recurrences over the reals. *)
From Coq Require Import Reals ZArith List Bool Lia Lra.
From Verif Require Import RMath Num Base Elements Integrate Eom Convergence Lyapunov Perturb Qlaw Trace
  Spec XSpec SolveProofs GateProofs.
Import ListNotations.
Local Open Scope R_scope.

(** Scheduling state at the while test. *)
Record rst : Type := mkrst { s_t : R; s_m : R; s_b : R; s_duty : bool; s_ton : R; s_toff : R; s_chg : bool }.

(** What a step did. *)
Record rrow : Type := mkrr {
  r_dt : R; r_duty : bool; r_ton : R; r_toff : R; r_chg1 : bool; r_thr : bool;
  r_dtb : R; r_t : R; r_m : R; r_b : R; r_chg : bool }.

Definition next_st (r : rrow) : rst :=
  mkrst (r_t r) (r_m r) (r_b r) (r_duty r) (r_ton r) (r_toff r) (r_chg r).

Definition rclip (x lo hi : R) : R := Rmin (Rmax x lo) hi.

Section X.
Variable a : params.

(** Duty cycle, as in lines 400-407. *)
Inductive duty_rel (s : rst) : bool -> R -> R -> Prop :=
| dr_keep_on : s_duty s = true -> s_t s - s_ton s <= a_on a -> duty_rel s true (s_ton s) (s_toff s)
| dr_off : s_duty s = true -> a_on a < s_t s - s_ton s -> 0 <= a_off a ->
    duty_rel s false (s_ton s) (s_t s)
| dr_blink : s_duty s = true -> a_on a < s_t s - s_ton s -> a_off a < 0 ->
    duty_rel s true (s_t s) (s_t s)
| dr_keep_off : s_duty s = false -> s_t s - s_toff s <= a_off a -> duty_rel s false (s_ton s) (s_toff s)
| dr_on : s_duty s = false -> a_off a < s_t s - s_toff s -> duty_rel s true (s_t s) (s_toff s).

(** Battery, as in lines 409-418. *)
Inductive batt_rel (s : rst) (d1 : bool) (toff1 : R) : R -> bool -> R -> bool -> Prop :=
| br_empty : s_b s <= a_lo a + 1 / 10 ^ 12 -> batt_rel s d1 toff1 (a_ts a) false (s_t s) true
| br_cut : a_lo a + 1 / 10 ^ 12 < s_b s -> s_b s - a_dis a * a_ts a < a_lo a -> s_chg s = false ->
    batt_rel s d1 toff1 ((s_b s - a_lo a) / a_dis a) d1 toff1 (s_chg s)
| br_full_step : a_lo a + 1 / 10 ^ 12 < s_b s ->
    (a_lo a <= s_b s - a_dis a * a_ts a \/ s_chg s = true) ->
    batt_rel s d1 toff1 (a_ts a) d1 toff1 (s_chg s).

Record row_ok (rk4 : bool) (smin smax : R) (s : rst) (r : rrow) : Prop := mkrow_ok {
  ro_guard : Rabs (s_t s) < Rabs (a_tf a);
  ro_sched : exists d1 toff1 d2, duty_rel s d1 (r_ton r) toff1 /\
     batt_rel s d1 toff1 (r_dt r) d2 (r_toff r) (r_chg1 r) /\
     r_duty r = (if a_full a && r_chg1 r && Rltb (s_b s) (a_hi a) then false else d2);
  ro_thr : r_thr r = true -> r_duty r = true;
  ro_t : r_t r = s_t s + r_dt r;
  ro_m : r_m r = s_m s - (if r_thr r then a_mdot a * r_dt r else 0);
  ro_dtb : if rk4 then r_dtb r = r_dt r else smin <= r_dtb r <= smax;
  ro_b : r_b r = rclip (if r_duty r then s_b s - a_dis a * r_dtb r else s_b s + a_ch a * r_dtb r) (a_lo a) (a_hi a);
  ro_chg : r_chg r = (if r_duty r then r_chg1 r else if Reqb (r_b r) (a_hi a) then false else r_chg1 r) }.

Inductive chain (rk4 : bool) (smin smax : R) : list rrow -> rst -> Prop :=
| ch_nil : chain rk4 smin smax [] (mkrst 0 (a_mass0 a) (a_b0 a) true 0 0 false)
| ch_snoc rs s r : chain rk4 smin smax rs s -> row_ok rk4 smin smax s r ->
    chain rk4 smin smax (rs ++ [r]) (next_st r).
End X.

(** ** Link with the model *)

Lemma x_eqb0 z : z <> 0%Z -> Reqb (IZR z) 0 = false.
Proof. intros H. apply Reqb_false. apply not_0_IZR. exact H. Qed.

Lemma xdec_gen m e : dec (N:=XNum) m e = Fin (IZR m / 10 ^ e).
Proof.
  unfold dec. cbn [ndiv nofZ XNum car]. unfold xdiv.
  assert (E : IZR (10 ^ Z.of_nat e) = 10 ^ e).
  { rewrite <- pow_IZR. reflexivity. }
  rewrite E. destruct (Reqb_spec (10 ^ e) 0) as [H|H]; [|reflexivity].
  exfalso. revert H. apply pow_nonzero. lra.
Qed.

Lemma xclip_fin x lo hi : npclip (N:=XNum) (Fin x) (Fin lo) (Fin hi) = Fin (rclip x lo hi).
Proof.
  unfold npclip, rclip. cbn [nltb XNum car xltb].
  destruct (Rltb_spec x lo).
  - rewrite (Rmax_right x lo) by lra.
    destruct (Rltb_spec hi lo); [rewrite Rmin_right|rewrite Rmin_left]; auto; lra.
  - rewrite (Rmax_left x lo) by lra.
    destruct (Rltb_spec hi x); [rewrite Rmin_right|rewrite Rmin_left]; auto; lra.
Qed.

Lemma xstep_fin smin smax hn : smin <= smax ->
  exists d, pymax (N:=XNum) (Fin smin) (pymin (N:=XNum) (Fin smax) hn) = Fin d /\ smin <= d <= smax.
Proof.
  intros H. unfold pymax, pymin. cbn [nltb XNum car].
  destruct hn as [x| | |]; cbn [xltb].
  - destruct (Rltb_spec x smax).
    + cbn [xltb]. destruct (Rltb_spec smin x); eexists; (split; [reflexivity|lra]).
    + cbn [xltb]. destruct (Rltb_spec smin smax); eexists; (split; [reflexivity|lra]).
  - destruct (Rltb_spec smin smax); eexists; (split; [reflexivity|lra]).
  - eexists; (split; [reflexivity|lra]).
  - destruct (Rltb_spec smin smax); eexists; (split; [reflexivity|lra]).
Qed.

Lemma ctl_thr01 {N : Num} (o : qlaw N) p ea er s pl acc c : control o p ea er s pl acc = Ok (Ctl c) ->
  c_thr c = 0%Z \/ c_thr c = 1%Z.
Proof.
  unfold control. destruct (pl_duty pl).
  - destruct (lyap_call o p acc (l_oe s)) as [[[[[[al be] u] psi] q] qd]|e]; [|discriminate].
    cbn [bind]. cbv zeta. intros H.
    destruct (nisnan al || nisnan be)%bool.
    + destruct (Z.ltb _ _); [discriminate|]. injection H as <-. auto.
    + destruct (nltb _ _ || nltb _ _)%bool.
      * destruct (evaluate_osculating_qdot o p (l_oe s) acc) as [[M mn]|]; [|discriminate].
        injection H as <-. simpl. destruct (nltb _ _ || nltb _ _)%bool; auto.
      * injection H as <-. auto.
  - destruct (lyap_call o p acc (l_oe s)) as [[[[[[al be] u] psi] q] qd]|e]; [|discriminate].
    intros H. injection H as <-. auto.
Qed.

Record st_match (s : lstate XNum) (st : rst) : Prop := mkstm {
  sm_t : l_t s = Fin (s_t st); sm_m : l_mass s = Fin (s_m st); sm_b : l_batt s = Fin (s_b st);
  sm_duty : l_duty s = s_duty st; sm_ton : l_ton s = Fin (s_ton st); sm_toff : l_toff s = Fin (s_toff st);
  sm_chg : l_chg s = s_chg st }.

Record row_match (g : grow XNum) (r : rrow) : Prop := mkrm {
  rm_t : g_t g = Fin (r_t r); rm_m : g_m g = Fin (r_m r); rm_b : g_b g = Fin (r_b r);
  rm_thr : c_thr (g_c g) = if r_thr r then 1%Z else 0%Z;
  rm_duty : pl_duty (g_pl g) = r_duty r; rm_ton : pl_ton (g_pl g) = Fin (r_ton r);
  rm_toff : pl_toff (g_pl g) = Fin (r_toff r); rm_chg : g_chg g = r_chg r;
  rm_dt : pl_dt (g_pl g) = Fin (r_dt r) }.

Section L.
Variables (o : qlaw XNum) (p : problem XNum) (ea er : eta_arg XNum) (a : params) (smin smax : R).
Hypothesis Hfin : finite_problem p a.
Hypothesis Hsun : q_sundman o = false.
Hypothesis Hstep : q_integ o = RKF45 -> q_step_min o = Fin smin /\ q_step_max o = Fin smax /\ smin <= smax.

Definition is_rk4 : bool := match q_integ o with RK4 => true | RKF45 => false end.

Lemma duty_link s st : st_match s st ->
  exists d1 ton1 toff1, duty_phase p (l_t s) (l_duty s) (l_ton s) (l_toff s) = (d1, Fin ton1, Fin toff1) /\
    duty_rel a st d1 ton1 toff1.
Proof.
  intros [M1 M2 M3 M4 M5 M6 M7].
  destruct Hfin as (_ & _ & _ & _ & _ & F1 & F2 & _).
  unfold duty_phase. rewrite M1, M4, M5, M6, F1, F2. cbn [nltb nsub XNum car xltb xsub].
  destruct (s_duty st) eqn:Hd.
  - rewrite !andb_true_r. destruct (Rltb_spec (a_on a) (s_t st - s_ton st)) as [H|H].
    + cbn [xltb xsub]. rewrite Rminus_diag_eq by reflexivity. cbn [negb]. rewrite andb_true_r.
      destruct (Rltb_spec (a_off a) 0) as [H0|H0].
      * eexists _, _, _. split; [reflexivity|]. apply dr_blink; auto.
      * eexists _, _, _. split; [reflexivity|]. apply dr_off; auto. lra.
    + cbn [negb]. rewrite andb_false_r. eexists _, _, _. split; [reflexivity|]. apply dr_keep_on; auto. lra.
  - rewrite andb_false_r. cbn [negb]. rewrite andb_true_r. cbn [xltb xsub].
    destruct (Rltb_spec (a_off a) (s_t st - s_toff st)) as [H|H].
    + eexists _, _, _. split; [reflexivity|]. apply dr_on; auto.
    + eexists _, _, _. split; [reflexivity|]. apply dr_keep_off; auto. lra.
Qed.

Lemma xleb_fin x y : xleb (Fin x) (Fin y) = Rleb x y.
Proof.
  unfold xleb. cbn [xltb xeqb].
  destruct (Rltb_spec x y), (Reqb_spec x y), (Rleb_spec x y); simpl; auto; lra.
Qed.

Lemma batt_link s st d1 toff1 : st_match s st ->
  exists dt d2 toff chg,
    battery_phase p (l_t s) (l_batt s) (Fin (a_ts a)) d1 (Fin toff1) (l_chg s) = (Fin dt, d2, Fin toff, chg) /\
    batt_rel a st d1 toff1 dt d2 toff chg.
Proof.
  intros [M1 M2 M3 M4 M5 M6 M7].
  destruct Hfin as (_ & _ & _ & _ & _ & _ & _ & _ & F1 & F2 & F3 & F4 & _).
  unfold battery_phase. rewrite M1, M3, M7, F1, F4, xdec_gen.
  cbn [nltb nleb nsub nadd nmul ndiv XNum car xsub xadd xmul]. rewrite xleb_fin. cbn [xltb].
  destruct (Rleb_spec (s_b st) (a_lo a + 1 / 10 ^ 12)) as [H|H].
  - eexists _, _, _, _. split; [reflexivity|]. apply br_empty. exact H.
  - apply Rnot_le_lt in H.
    assert (H12 : 0 < 1 / 10 ^ 12) by (apply Rdiv_lt_0_compat; [lra|apply pow_lt; lra]).
    destruct (Rltb_spec (s_b st - a_dis a * a_ts a) (a_lo a)) as [H1|H1]; cbn [andb].
    + destruct (s_chg st) eqn:Hc; cbn [negb].
      * eexists _, _, _, _. split; [reflexivity|]. rewrite <- Hc. apply br_full_step; auto.
      * unfold xdiv. destruct (Reqb_spec (a_dis a) 0) as [E|E].
        { exfalso. rewrite E in H1. lra. }
        eexists _, _, _, _. split; [reflexivity|]. rewrite <- Hc. apply br_cut; auto.
    + eexists _, _, _, _. split; [reflexivity|]. apply br_full_step; auto. left. lra.
Qed.

Lemma plan_link s st pl : st_match s st -> plan o p s = Ok pl ->
  exists dt ton toff d1 toff1 d2, pl_dt pl = Fin dt /\ pl_ton pl = Fin ton /\ pl_toff pl = Fin toff /\
    duty_rel a st d1 ton toff1 /\ batt_rel a st d1 toff1 dt d2 toff (pl_chg pl) /\
    pl_duty pl = (if a_full a && pl_chg pl && Rltb (s_b st) (a_hi a) then false else d2).
Proof.
  intros M H. destruct (plan_inv _ _ _ _ H) as (dt0 & d1 & ton1 & toff1 & d2 & A & B & C & D & E).
  unfold local_step in A. rewrite Hsun in A. injection A as <-.
  destruct Hfin as (_ & _ & _ & F0 & _ & _ & _ & _ & F1 & F2 & F3 & F4 & F5).
  rewrite F0 in C.
  destruct (duty_link s st M) as (d1' & ton1' & toff1' & B' & DR). rewrite B in B'.
  injection B' as -> -> ->.
  destruct (batt_link s st d1' toff1' M) as (dt & d2' & toff & chg & C' & BR). rewrite C in C'.
  injection C' as E1 -> E3 E4. rewrite <- E4 in BR.
  exists dt, ton1', toff, d1', toff1', d2'. repeat split; auto.
  rewrite D. unfold recharge_phase. rewrite F5, (sm_b _ _ M), F2. reflexivity.
Qed.

Lemma safety_match s st : st_match s st -> st_match (safety o s) st.
Proof.
  intros [M1 M2 M3 M4 M5 M6 M7].
  destruct (safety_fields o s) as (S1 & S2 & S3 & _ & _ & S6 & S7 & S8 & S9 & _).
  constructor; congruence.
Qed.

Lemma iter_link s st g : st_match s st -> guard p s = true ->
  last (h_times (l_hist s)) (Fin 0) = l_t s ->
  iter o p ea er s g -> exists r, row_match g r /\ row_ok a is_rk4 smin smax st r.
Proof.
  intros M Hg Hlast [Hs Hp Hc Hpt Hpr Hb Hab].
  assert (Mg : st_match (g_s g) st) by (rewrite Hs; apply safety_match; exact M).
  destruct (plan_link _ _ _ Mg Hp) as (dt & ton & toff & d1 & toff1 & d2 & P1 & P2 & P3 & DR & BR & PD).
  pose proof (ctl_thr01 _ _ _ _ _ _ _ _ Hc) as Hthr.
  destruct Hfin as (F0 & Fm & Ftf & Fts & _ & _ & _ & _ & F1 & F2 & F3 & F4 & F5).
  set (thr := Z.eqb (c_thr (g_c g)) 1).
  assert (Hthr' : c_thr (g_c g) = if thr then 1%Z else 0%Z).
  { unfold thr. destruct Hthr as [-> | ->]; reflexivity. }
  assert (Hprop : exists dtb, g_t g = Fin (s_t st + dt) /\
     g_m g = Fin (s_m st - (if thr then a_mdot a * dt else 0)) /\ g_dtb g = Fin dtb /\
     (if is_rk4 then dtb = dt else smin <= dtb <= smax)).
  { unfold propagate in Hpr. rewrite P1, (sm_t _ _ Mg), (sm_m _ _ Mg), Fm in Hpr. fold thr in Hpr.
    cbn [nadd nsub nmul XNum car xadd xsub xmul] in Hpr.
    assert (Em : (if thr then Fin (s_m st - a_mdot a * dt) else Fin (s_m st)) =
       Fin (s_m st - (if thr then a_mdot a * dt else 0))) by (destruct thr; f_equal; ring).
    rewrite Em in Hpr. unfold is_rk4. destruct (q_integ o) eqn:Hi.
    - destruct (rk4 _ _ _ _ _) as [oe'|e]; [|discriminate]. cbn [bind] in Hpr.
      injection Hpr as _ Ht Hm Hd. exists dt. rewrite <- Ht, <- Hm, <- Hd. auto.
    - destruct (rkf45 _ _ _ _ _ _) as [[oe' hn]|e]; [|discriminate]. cbn [bind] in Hpr.
      injection Hpr as _ Ht Hm Hd. destruct (Hstep eq_refl) as (S1 & S2 & S3).
      rewrite S1, S2 in Hd. destruct (xstep_fin smin smax hn S3) as (d & Ed & Bd).
      exists d. rewrite <- Ht, <- Hm, <- Hd. auto. }
  destruct Hprop as (dtb & T1 & T2 & T3 & T4).
  assert (Hbat : g_b g = Fin (rclip (if pl_duty (g_pl g) then s_b st - a_dis a * dtb else s_b st + a_ch a * dtb) (a_lo a) (a_hi a)) /\
    g_chg g = (if pl_duty (g_pl g) then pl_chg (g_pl g) else
       if Reqb (rclip (s_b st + a_ch a * dtb) (a_lo a) (a_hi a)) (a_hi a) then false else pl_chg (g_pl g))).
  { unfold battery_update in Hb. rewrite T3, (sm_b _ _ Mg), F1, F2, F3, F4 in Hb.
    cbn [nadd nsub nmul neqb XNum car xadd xsub xmul] in Hb. rewrite !xclip_fin in Hb.
    destruct (pl_duty (g_pl g)); injection Hb as H1 H2; rewrite <- H1, <- H2; auto. }
  destruct Hbat as [B1 B2].
  exists (mkrr dt (pl_duty (g_pl g)) ton toff (pl_chg (g_pl g)) thr dtb (s_t st + dt)
     (s_m st - (if thr then a_mdot a * dt else 0))
     (rclip (if pl_duty (g_pl g) then s_b st - a_dis a * dtb else s_b st + a_ch a * dtb) (a_lo a) (a_hi a))
     (g_chg g)).
  split; [constructor; simpl; auto|].
  constructor; simpl; auto.
  - assert (Hg2 : xltb (xabs (l_t s)) (xabs (p_tf_max p)) = true) by (rewrite <- Hlast; exact Hg).
    rewrite (sm_t _ _ M), Ftf in Hg2. apply Rltb_true in Hg2. exact Hg2.
  - exists d1, toff1, d2. auto.
  - intros E. eapply ctl_thr; [exact Hc|]. rewrite Hthr', E. reflexivity.
  - rewrite B2. destruct (pl_duty (g_pl g)); reflexivity.
Qed.

Lemma tr_link gs s : tr o p ea er gs s ->
  exists rs st, chain a is_rk4 smin smax rs st /\ Forall2 row_match gs rs /\ st_match s st.
Proof.
  induction 1 as [|gs s g s' Htr IH Hg Hit Hex].
  - exists [], (mkrst 0 (a_mass0 a) (a_b0 a) true 0 0 false).
    destruct Hfin as (F0 & Fm & Ftf & Fts & _ & _ & _ & Fb & _).
    split; [constructor|]. split; [constructor|]. constructor; simpl; auto.
  - destruct IH as (rs & st & C & F & M).
    assert (Hlast : last (h_times (l_hist s)) (Fin 0) = l_t s).
    { rewrite (tr_hist _ _ _ _ _ _ Htr). cbn [h_times mkh].
      destruct (tr_cur _ _ _ _ _ _ Htr) as (T1 & _). clear - T1.
      destruct gs as [|g gs _] using rev_ind; [simpl in *; injection T1; auto|].
      rewrite map_app in *. cbn [map] in *. change (nofZ 0 :: map g_t gs ++ [g_t g]) with ((nofZ 0 :: map g_t gs) ++ [g_t g]) in *.
      rewrite last_last. rewrite app_length, Nat.add_1_r in T1.
      rewrite nth_error_app2 in T1 by (simpl; rewrite map_length; lia).
      simpl length in T1. rewrite map_length, Nat.sub_diag in T1. injection T1; auto. }
    destruct (iter_link s st g M Hg Hlast Hit) as (r & RM & RO).
    exists (rs ++ [r]), (next_st r).
    split; [constructor 2 with (s := st); auto|]. split; [apply Forall2_app; auto|].
    destruct (exit_next_hist o p _ _ Hex) as [n ->].
    destruct RM. constructor; simpl; auto.
Qed.

(** Rows of a chain. *)
Lemma chain_nth rs st : chain a is_rk4 smin smax rs st -> forall k r, nth_error rs k = Some r ->
  exists sk, chain a is_rk4 smin smax (firstn k rs) sk /\ row_ok a is_rk4 smin smax sk r.
Proof.
  induction 1 as [|rs s r0 C IH RO]; intros k r Hk; [destruct k; discriminate|].
  destruct (Nat.lt_ge_cases k (length rs)) as [Hlt|Hge].
  - rewrite nth_error_app1 in Hk by assumption. destruct (IH k r Hk) as (sk & A & B).
    exists sk. rewrite firstn_app. replace (k - length rs)%nat with 0%nat by lia.
    rewrite firstn_O, app_nil_r. auto.
  - assert (Hlen : k = length rs).
    { assert (k < length (rs ++ [r0]))%nat by (apply nth_error_Some; congruence).
      rewrite app_length in *. simpl in *. lia. }
    subst k. rewrite nth_error_app2, Nat.sub_diag in Hk by lia. injection Hk as <-.
    exists s. rewrite firstn_app, firstn_all, Nat.sub_diag, firstn_O, app_nil_r. auto.
Qed.

Lemma chain_last rs r st : chain a is_rk4 smin smax (rs ++ [r]) st -> st = next_st r.
Proof.
  intros H. inversion H as [E|rs1 s r1 C RO E]; [destruct rs; discriminate|].
  apply app_inj_tail in E as [_ ->]. reflexivity.
Qed.

(** The histories of a finished run, over the reals. *)
Record run_reals (h : hist XNum) (rs : list rrow) (st : rst) : Prop := mkrunr {
  rn_chain : chain a is_rk4 smin smax rs st;
  rn_times : h_times h = Fin 0 :: map (fun r => Fin (r_t r)) rs;
  rn_masses : h_masses h = Fin (a_mass0 a) :: map (fun r => Fin (r_m r)) rs;
  rn_batt : h_battery h = Fin (a_b0 a) :: map (fun r => Fin (r_b r)) rs;
  rn_thr : map snd (h_controls h) = map (fun r => if r_thr r then 1%Z else 0%Z) rs }.

Lemma Forall2_map {A B C} (f : A -> C) (g : B -> C) (R : A -> B -> Prop) l1 l2 :
  (forall x y, R x y -> f x = g y) -> Forall2 R l1 l2 -> map f l1 = map g l2.
Proof. intros H. induction 1; simpl; f_equal; auto. Qed.

Lemma mkh_reals gs rs st oel : chain a is_rk4 smin smax rs st -> Forall2 row_match gs rs ->
  run_reals (mkh p gs oel) rs st.
Proof.
  intros C F. destruct Hfin as (F0 & Fm & Ftf & Fts & _ & _ & _ & Fb & _).
  constructor; [exact C| | | |]; simpl; rewrite ?F0, ?Fb.
  - f_equal. eapply Forall2_map; [|exact F]. intros x y []; auto.
  - f_equal. eapply Forall2_map; [|exact F]. intros x y []; auto.
  - f_equal. eapply Forall2_map; [|exact F]. intros x y []; auto.
  - rewrite map_map. simpl. eapply Forall2_map; [|exact F]. intros x y []; auto.
Qed.

Lemma ran_reals_gs fuel o' h : ran fuel o ea er p o' h ->
  exists gs oel code conv rs st, ended o p ea er gs oel code conv /\ h = mkh p gs oel /\
    chain a is_rk4 smin smax rs st /\ Forall2 row_match gs rs.
Proof.
  intros H. destruct (ran_ended o p ea er _ _ _ H) as (gs & oel & code & conv & He & -> & _).
  exists gs, oel, code, conv. pose proof He as He'.
  destruct He as [gs s Htr Hg|gs s g code conv s' Htr Hg Hit Hex|gs s pl Htr Hg H1 H2].
  - destruct (tr_link _ _ Htr) as (rs & st & C & F & _). exists rs, st. auto.
  - destruct (tr_link _ _ Htr) as (rs & st & C & F & M).
    assert (Hlast : last (h_times (l_hist s)) (Fin 0) = l_t s).
    { rewrite (tr_hist _ _ _ _ _ _ Htr). cbn [h_times mkh].
      destruct (tr_cur _ _ _ _ _ _ Htr) as (T1 & _). clear - T1.
      destruct gs as [|g gs _] using rev_ind; [simpl in *; injection T1; auto|].
      rewrite map_app in *. cbn [map] in *. change (nofZ 0 :: map g_t gs ++ [g_t g]) with ((nofZ 0 :: map g_t gs) ++ [g_t g]) in *.
      rewrite last_last. rewrite app_length, Nat.add_1_r in T1.
      rewrite nth_error_app2 in T1 by (simpl; rewrite map_length; lia).
      simpl length in T1. rewrite map_length, Nat.sub_diag in T1. injection T1; auto. }
    destruct (iter_link s st g M Hg Hlast Hit) as (r & RM & RO).
    exists (rs ++ [r]), (next_st r). split; [exact He'|]. split; [reflexivity|]. split; [|apply Forall2_app; auto].
    constructor 2 with (s := st); auto.
  - destruct (tr_link _ _ Htr) as (rs & st & C & F & _). exists rs, st. auto.
Qed.

Lemma ran_reals fuel o' h : ran fuel o ea er p o' h -> exists rs st, run_reals h rs st.
Proof.
  intros H. destruct (ran_reals_gs _ _ _ H) as (gs & oel & code & conv & rs & st & _ & -> & C & F).
  exists rs, st. apply mkh_reals; auto.
Qed.
End L.
