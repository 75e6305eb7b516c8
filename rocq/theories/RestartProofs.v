(** A steady, powered run can be taken up again from any of its rows (C93). *)
From Coq Require Import Reals Lra ZArith List Bool Lia.
From Verif Require Import RMath Num Base Elements Integrate Eom Convergence Lyapunov Perturb Qlaw Spec Trace SolveProofs XSpec XTrace CutSpec CoastProofs StateProofs RestartSpec.
Import ListNotations.

Lemma xadd_assoc_fin x y z : xadd (xadd x y) z = xadd x (xadd y z).
Proof. destruct x, y, z; cbn; try reflexivity. f_equal. ring. Qed.
Lemma xsub_0 t : xsub t (Fin 0) = t.
Proof. destruct t; cbn; try reflexivity. f_equal. ring. Qed.

Lemma guarded_idem (o : qlaw XNum) z : guarded o (guarded o z) = guarded o z.
Proof.
  unfold guarded. destruct (q_etype o); [|reflexivity]. destruct z, (q_oe_min o), (q_oe_max o). cbn [elements_safety].
  rewrite !clamp_idem. reflexivity.
Qed.

Section Inv.
Variables (o : qlaw XNum) (p : problem XNum) (ea er : eta_arg XNum).

Definition on (s : lstate XNum) : Prop := l_duty s = true /\ l_ton s = Fin 0 /\ l_chg s = false.

Lemma plan_on s pl : on s -> nltb (Num:=XNum) (p_duty_on p) (l_t s) = false ->
  nleb (Num:=XNum) (l_batt s) (nadd (Num:=XNum) (p_cap_lo p) (dec (N:=XNum) 1 12)) = false -> plan o p s = Ok pl ->
  exists dt0, local_step o p (l_oe s) = Ok dt0 /\ pl_duty pl = true /\ pl_ton pl = Fin 0 /\ pl_chg pl = false /\
    pl_dt pl = (if nltb (Num:=XNum) (nsub (Num:=XNum) (l_batt s) (nmul (Num:=XNum) (p_discharge p) dt0)) (p_cap_lo p)
                then ndiv (Num:=XNum) (nsub (Num:=XNum) (l_batt s) (p_cap_lo p)) (p_discharge p) else dt0).
Proof.
  intros (D & T & C) Ht Hb H. unfold plan in H. destruct (local_step o p (l_oe s)) as [dt0|e] eqn:E; [|discriminate]. cbn [bind] in H.
  unfold duty_phase in H. rewrite D, T in H. change (nsub (Num:=XNum) (l_t s) (Fin 0)) with (xsub (l_t s) (Fin 0)) in H.
  rewrite xsub_0, Ht in H. cbn [andb negb] in H. rewrite andb_false_r in H. unfold battery_phase in H. rewrite Hb, C in H.
  cbn [andb negb] in H. rewrite andb_true_r in H. exists dt0. split; [reflexivity|].
  destruct (nltb (Num:=XNum) _ (p_cap_lo p)); injection H as <-; unfold recharge_phase; cbn; rewrite ?andb_false_r; auto.
Qed.

Lemma post_on s g n : iter o p ea er s g -> on s -> nltb (Num:=XNum) (p_duty_on p) (l_t s) = false ->
  nleb (Num:=XNum) (l_batt s) (nadd (Num:=XNum) (p_cap_lo p) (dec (N:=XNum) 1 12)) = false -> on (with_nrel (post g) n).
Proof.
  intros [Hs Hp _ _ _ Hb _] (D & T & C) Ht Hl. destruct (safety_fields o s) as (F1 & _ & F3 & _ & _ & F6 & F7 & _ & F9 & _).
  rewrite Hs in Hp. assert (S : on (safety o s)) by (repeat split; congruence).
  rewrite <- F1 in Ht. rewrite <- F3 in Hl. destruct (plan_on _ _ S Ht Hl Hp) as (dt0 & _ & P1 & P2 & P3 & _).
  repeat split; simpl; [exact P1|exact P2|]. rewrite P1, P3 in Hb. unfold battery_update in Hb. injection Hb as _ <-. reflexivity.
Qed.

Lemma tr_on gs oel code conv : ended o p ea er gs oel code conv -> powered p (mkh p gs oel) ->
  forall k s, (k <= length gs)%nat -> tr o p ea er (firstn k gs) s -> on s.
Proof.
  intros He Hw. induction k as [|k IH]; intros s Hk Ht.
  - inversion Ht as [E|gs1 s1 g1 s1' Htr Hg Hit Hex E]; [|destruct gs1; discriminate]. repeat split; reflexivity.
  - destruct (nth_error gs k) as [g|] eqn:E; [|apply nth_error_None in E; lia].
    rewrite (nth_error_firstn_S _ _ _ E) in Ht. destruct (tr_last _ _ _ _ _ _ _ Ht) as [n ->].
    destruct (ended_facts _ _ _ _ _ _ _ _ He k g E) as (sk & Htr & RF).
    destruct (Hw k _ _ _ (rf_t _ _ _ _ _ _ _ _ RF) (rf_b _ _ _ _ _ _ _ _ RF) (rf_c _ _ _ _ _ _ _ _ RF)) as [W1 W2].
    apply (post_on sk g n); [apply (rf_iter _ _ _ _ _ _ _ _ RF)|apply IH; [lia|exact Htr]|exact W1|exact W2].
Qed.

(** the element vector a recorded state comes from *)
Definition raw (gs : list (grow XNum)) (i : nat) : option (vec6 XNum) :=
  match i with O => Some (p_oe0 p) | S j => option_map (fun g => g_oe g) (nth_error gs j) end.

Lemma tr_raw gs s : tr o p ea er gs s -> raw gs (length gs) = Some (l_oe s).
Proof.
  intros H. destruct gs as [|g gs _] using rev_ind.
  - inversion H as [E|gs1 s1 g1 s1' Htr Hg Hit Hex E]; [reflexivity|destruct gs1; discriminate].
  - destruct (tr_last _ _ _ _ _ _ _ H) as [n ->]. rewrite app_length, Nat.add_1_r. simpl. rewrite nth_error_app2 by lia.
    rewrite Nat.sub_diag. reflexivity.
Qed.
Lemma raw_firstn gs k : (k <= length gs)%nat -> raw (firstn k gs) k = raw gs k.
Proof.
  destruct k as [|k]; [reflexivity|]. intros H. simpl. f_equal.
  revert k H; induction gs as [|y l IH]; intros k H; [simpl in H; lia|]. destruct k; [reflexivity|]. simpl. apply IH. simpl in H. lia.
Qed.
Lemma ended_raw gs oel code conv : ended o p ea er gs oel code conv -> exists z, raw gs (length gs) = Some z /\ guarded o oel = guarded o z.
Proof.
  intros [gs' s Ht _|gs' s g c v s' Ht Hg Hi Hx|gs' s pl Ht Hg Hp Hc].
  - exists (l_oe s). split; [apply (tr_raw _ _ Ht)|reflexivity].
  - exists (g_oe g). split; [|reflexivity]. rewrite app_length, Nat.add_1_r. simpl. rewrite nth_error_app2 by lia. rewrite Nat.sub_diag. reflexivity.
  - exists (l_oe s). split; [apply (tr_raw _ _ Ht)|]. rewrite safety_oe. apply guarded_idem.
Qed.
Lemma state_raw gs oel code conv : ended o p ea er gs oel code conv -> forall i z, nth_error (h_states (mkh p gs oel)) i = Some z ->
  exists z0, raw gs i = Some z0 /\ guarded o z = guarded o z0.
Proof.
  intros He i z H. cbn [mkh h_states] in H. destruct (Nat.lt_ge_cases i (length gs)) as [L|G].
  - destruct (nth_error gs i) as [g|] eqn:E; [|apply nth_error_None in E; lia].
    rewrite nth_error_app1 in H by (rewrite map_length; exact L). rewrite nth_error_map, E in H. injection H as <-.
    destruct (ended_facts _ _ _ _ _ _ _ _ He i g E) as (sk & Htr & RF). exists (l_oe sk).
    pose proof (tr_raw _ _ Htr) as R. rewrite firstn_length_le, raw_firstn in R by lia. split; [exact R|].
    rewrite (it_s _ _ _ _ _ _ (rf_iter _ _ _ _ _ _ _ _ RF)), safety_oe. apply guarded_idem.
  - rewrite nth_error_app2 in H by (rewrite map_length; exact G). rewrite map_length in H.
    destruct (i - length gs)%nat as [|d] eqn:D; [|destruct d; discriminate]. injection H as <-.
    replace i with (length gs) by lia. exact (ended_raw _ _ _ _ He).
Qed.
End Inv.

Section Two.
Variables (o : qlaw XNum) (p : problem XNum) (ea er : eta_arg XNum) (c : stops XNum) (z0 : vec6 XNum) (m0 b0 t0 : ereal).
Hypothesis St : steady o ea er.
Notation p' := (problem_until c (problem_from z0 m0 b0 p)).
Notation o' := (qlaw_until c (problem_from z0 m0 b0 p) o).

Lemma rk4_steady t t' h y w : rk4 (N:=XNum) (q_eom o) t h y w = rk4 (N:=XNum) (q_eom o) t' h y w.
Proof.
  destruct St as (E & _ & _). unfold rk4. rewrite (E t t').
  destruct (q_eom o t' y w); [|reflexivity]. cbn [bind]. rewrite (E _ (nadd (Num:=XNum) t' (nmul (Num:=XNum) (dec 5 1) h))).
  destruct (q_eom o _ _ w); [|reflexivity]. cbn [bind]. rewrite (E _ (nadd (Num:=XNum) t' (nmul (Num:=XNum) (dec 5 1) h))).
  destruct (q_eom o _ _ w); [|reflexivity]. cbn [bind]. rewrite (E _ (nadd (Num:=XNum) t' h)). reflexivity.
Qed.
Lemma rkf45_steady t t' h y w tol : rkf45 (N:=XNum) (q_eom o) t h y w tol = rkf45 (N:=XNum) (q_eom o) t' h y w tol.
Proof.
  destruct St as (E & _ & _). unfold rkf45. rewrite (E t t').
  destruct (q_eom o t' y w); [|reflexivity]. cbn [bind].
  rewrite (E _ (nadd (Num:=XNum) t' (nmul (Num:=XNum) (fr 1 4) h))). destruct (q_eom o _ _ w); [|reflexivity]. cbn [bind].
  rewrite (E _ (nadd (Num:=XNum) t' (nmul (Num:=XNum) (fr 3 8) h))). destruct (q_eom o _ _ w); [|reflexivity]. cbn [bind].
  rewrite (E _ (nadd (Num:=XNum) t' (nmul (Num:=XNum) (fr 12 13) h))). destruct (q_eom o _ _ w); [|reflexivity]. cbn [bind].
  rewrite (E _ (nadd (Num:=XNum) t' h)). destruct (q_eom o _ _ w); [|reflexivity]. cbn [bind].
  rewrite (E _ (nadd (Num:=XNum) t' (nmul (Num:=XNum) (fr 1 2) h))). reflexivity.
Qed.

Record alike (s s' : lstate XNum) : Prop := mkalike {
  al_t : l_t s = nadd (Num:=XNum) t0 (l_t s'); al_m : l_mass s = l_mass s'; al_b : l_batt s = l_batt s';
  al_z : guarded o (l_oe s) = guarded o (l_oe s'); al_on : on s; al_on' : on s' }.
Record match_rows (g g' : grow XNum) : Prop := mkmatch {
  ma_t : g_t g = nadd (Num:=XNum) t0 (g_t g'); ma_m : g_m g = g_m g'; ma_b : g_b g = g_b g'; ma_z : g_oe g = g_oe g';
  ma_u : (g_al g, g_be g, c_thr (g_c g)) = (g_al g', g_be g', c_thr (g_c g')); ma_q : c_q (g_c g) = c_q (g_c g');
  ma_d : c_qdot (g_c g) = c_qdot (g_c g'); ma_e : c_etas (g_c g) = c_etas (g_c g'); ma_h : c_bounds (g_c g) = c_bounds (g_c g') }.

(** the same answers, but for the count of nan answers *)
Lemma control_alike s s' pl pl' k k' : pl_duty pl = true -> pl_duty pl' = true -> pl_dt pl = pl_dt pl' ->
  l_mass s = l_mass s' -> l_batt s = l_batt s' -> l_oe s = l_oe s' ->
  control o p ea er s pl (accel_thrust p (pl_dt pl) (l_mass s)) = Ok (Ctl k) ->
  control o' p' ea er s' pl' (accel_thrust p' (pl_dt pl') (l_mass s')) = Ok (Ctl k') ->
  c_ab k = c_ab k' /\ c_thr k = c_thr k' /\ c_u k = c_u k' /\ c_psi k = c_psi k' /\ c_q k = c_q k' /\ c_qdot k = c_qdot k' /\
  c_etas k = c_etas k' /\ c_bounds k = c_bounds k'.
Proof.
  intros D D' E M B Z H H'. unfold control in H, H'. rewrite D in H. rewrite D', <- E, <- M, <- B, <- Z in H'.
  change (lyap_call o' p') with (lyap_call o p) in H'. change (accel_thrust p') with (accel_thrust p) in H'.
  change (evaluate_osculating_qdot o' p') with (evaluate_osculating_qdot o p) in H'.
  set (acc := accel_thrust p (pl_dt pl) (l_mass s)) in *.
  destruct (lyap_call o p acc (l_oe s)) as [[[[[[al be] uu] psi] q] qd]|e]; [|discriminate]. cbn [bind] in H, H'.
  assert (EA : forall e, e = ea \/ e = er -> eta_now e (l_t s') (l_oe s) (l_mass s) (l_batt s) = eta_now e (l_t s) (l_oe s) (l_mass s) (l_batt s)).
  { intros e He. destruct e as [v|f|]; [reflexivity| |reflexivity]. cbn [eta_now]. destruct St as (_ & _ & F). apply F. intuition congruence. }
  rewrite !EA in H' by auto. clear EA. destruct (nisnan al || nisnan be).
  - destruct (Z.ltb _ _); [discriminate|]. destruct (Z.ltb _ _) in H'; [discriminate|]. injection H as <-. injection H' as <-. repeat split.
  - cbv zeta in H, H'. destruct (nltb (nofZ 0) _ || nltb (nofZ 0) _) in H, H'.
    + destruct (evaluate_osculating_qdot o p (l_oe s) acc) as [[qm qM]|e]; [|discriminate]. cbn [bind] in H, H'.
      injection H as <-. injection H' as <-. repeat split.
    + injection H as <-. injection H' as <-. repeat split.
Qed.

Lemma rows_match s s' g g' : alike s s' -> iter o p ea er s g -> iter o' p' ea er s' g' ->
  nltb (Num:=XNum) (p_duty_on p) (l_t s) = false -> nltb (Num:=XNum) (p_duty_on p) (l_t s') = false ->
  nleb (Num:=XNum) (l_batt s) (nadd (Num:=XNum) (p_cap_lo p) (dec (N:=XNum) 1 12)) = false -> match_rows g g'.
Proof.
  intros [At Am Ab Az An An'] [I1 I2 I3 I4 I5 I6 I7] [J1 J2 J3 J4 J5 J6 J7] W W' B.
  destruct (safety_fields o s) as (F1 & F2 & F3 & _ & _ & F6 & F7 & _ & F9 & _).
  destruct (safety_fields o' s') as (G1 & G2 & G3 & _ & _ & G6 & G7 & _ & G9 & _).
  pose proof (safety_oe o s) as F0. pose proof (safety_oe o' s') as G0. change (guarded o' (l_oe s')) with (guarded o (l_oe s')) in G0.
  rewrite <- I1 in *. rewrite <- J1 in *.
  assert (Sn : on (g_s g)) by (destruct An as (? & ? & ?); repeat split; congruence).
  assert (Sn' : on (g_s g')) by (destruct An' as (? & ? & ?); repeat split; congruence).
  assert (Z : l_oe (g_s g) = l_oe (g_s g')) by congruence. assert (M : l_mass (g_s g) = l_mass (g_s g')) by congruence.
  assert (Bt : l_batt (g_s g) = l_batt (g_s g')) by congruence.
  rewrite <- F1 in W. rewrite <- G1 in W'. rewrite <- F3 in B. assert (B' := B). rewrite Bt in B'.
  destruct (plan_on o p _ _ Sn W B I2) as (dt & L & P1 & P2 & P3 & P4).
  destruct (plan_on o' p' _ _ Sn' W' B' J2) as (dt' & L' & Q1 & Q2 & Q3 & Q4).
  change (local_step o' p') with (local_step o p) in L'. rewrite <- Z, L in L'. injection L' as <-.
  change (p_discharge p') with (p_discharge p) in Q4. change (p_cap_lo p') with (p_cap_lo p) in Q4. rewrite <- Bt, <- P4 in Q4.
  destruct (control_alike _ _ _ _ _ _ P1 Q1 (eq_sym Q4) M Bt Z I3 J3) as (K1 & K2 & K3 & K4 & K5 & K6 & K7 & K8).
  assert (Pt : g_ptrb g = g_ptrb g').
  { unfold perturbation in I4, J4. change (q_ptrb o') with (q_ptrb o) in J4. change (q_etype o') with (q_etype o) in J4.
    destruct (q_ptrb o) as [f|] eqn:Ef; [|congruence]. destruct St as (_ & F & _). rewrite <- Z, <- (F f (l_t (g_s g))), I4 in J4 by exact Ef.
    congruence. }
  unfold propagate in I5, J5. rewrite <- K2, <- K3, <- K4, <- Pt, <- M, <- Z, Q4 in J5.
  change (q_mu o') with (q_mu o) in J5. change (q_integ o') with (q_integ o) in J5. change (q_eom o') with (q_eom o) in J5.
  change (q_ode_tol o') with (q_ode_tol o) in J5. change (q_step_min o') with (q_step_min o) in J5. change (q_step_max o') with (q_step_max o) in J5.
  change (p_mdot p') with (p_mdot p) in J5. cbv zeta in I5, J5.
  assert (Pr : g_oe g = g_oe g' /\ g_t g = nadd (Num:=XNum) t0 (g_t g') /\ g_m g = g_m g' /\ g_dtb g = g_dtb g').
  { assert (Tt : nadd (Num:=XNum) (l_t (g_s g)) (pl_dt (g_pl g)) = nadd (Num:=XNum) t0 (nadd (Num:=XNum) (l_t (g_s g')) (pl_dt (g_pl g)))).
    { rewrite F1, G1, At. apply xadd_assoc_fin. }
    destruct (q_integ o).
    - rewrite (rk4_steady _ (l_t (g_s g))) in J5. destruct (rk4 (N:=XNum) (q_eom o) _ _ _ _) as [y|e]; [|discriminate]. cbn [bind] in I5, J5.
      injection I5 as <- <- <- <-. injection J5 as <- <- <- <-. repeat split. exact Tt.
    - rewrite (rkf45_steady _ (l_t (g_s g))) in J5. destruct (rkf45 (N:=XNum) (q_eom o) _ _ _ _ _) as [[y hn]|e]; [|discriminate]. cbn [bind] in I5, J5.
      injection I5 as <- <- <- <-. injection J5 as <- <- <- <-. repeat split. exact Tt. }
  destruct Pr as (R1 & R2 & R3 & R4).
  assert (R5 : g_b g = g_b g').
  { unfold battery_update in I6, J6. rewrite P1 in I6. rewrite Q1, <- R4, <- Bt in J6.
    change (p_discharge p') with (p_discharge p) in J6. change (p_cap_lo p') with (p_cap_lo p) in J6. change (p_cap_hi p') with (p_cap_hi p) in J6.
    congruence. }
  rewrite I7, J7 in K1. injection K1 as K1 K1'. constructor; auto. congruence.
Qed.

Variables (gs gs' : list (grow XNum)) (oel oel' : vec6 XNum) (cd cd' : option Z) (cv cv' : bool) (k : nat).
Hypothesis (E1 : ended o p ea er gs oel cd cv) (E2 : ended o' p' ea er gs' oel' cd' cv').
Hypothesis (W1 : powered p (mkh p gs oel)) (W2 : powered p (mkh p' gs' oel')).
Hypothesis R0 : row_at (mkh p gs oel) k t0 z0 m0 b0.
Notation h := (mkh p gs oel).
Notation h' := (mkh p' gs' oel').

Lemma match_all : forall j g g', nth_error gs (k + j) = Some g -> nth_error gs' j = Some g' -> match_rows g g'.
Proof.
  induction j as [|j IH]; intros g g' H H'.
  - destruct (ended_facts _ _ _ _ _ _ _ _ E1 _ _ H) as (s & T & RF). destruct (ended_facts _ _ _ _ _ _ _ _ E2 _ _ H') as (s' & T' & RF').
    assert (Lk : (k + 0 < length gs)%nat) by (apply nth_error_Some; congruence).
    pose proof (tr_on _ _ _ _ _ _ _ _ E1 W1 _ _ (Nat.lt_le_incl _ _ Lk) T) as On.
    pose proof (tr_on _ _ _ _ _ _ _ _ E2 W2 0 s' (Nat.le_0_l _) T') as On'.
    destruct (W1 _ _ _ _ (rf_t _ _ _ _ _ _ _ _ RF) (rf_b _ _ _ _ _ _ _ _ RF) (rf_c _ _ _ _ _ _ _ _ RF)) as [V1 V2].
    destruct (W2 _ _ _ _ (rf_t _ _ _ _ _ _ _ _ RF') (rf_b _ _ _ _ _ _ _ _ RF') (rf_c _ _ _ _ _ _ _ _ RF')) as [V1' _].
    destruct R0 as (R1 & R2 & R3 & R4). rewrite <- (Nat.add_0_r k) in R1, R2, R3, R4.
    rewrite (rf_t _ _ _ _ _ _ _ _ RF) in R1. rewrite (rf_m _ _ _ _ _ _ _ _ RF) in R3. rewrite (rf_b _ _ _ _ _ _ _ _ RF) in R4.
    injection R1 as R1. injection R3 as R3. injection R4 as R4.
    inversion T' as [E|gs1 s1 g1 s1' Htr Hg Hit Hex E]; [|destruct gs1; discriminate]. subst s'.
    apply (rows_match s (init_state p')); [|apply (rf_iter _ _ _ _ _ _ _ _ RF)|apply (rf_iter _ _ _ _ _ _ _ _ RF')|exact V1|exact V1'|exact V2].
    constructor; simpl; auto.
    + rewrite R1. destruct t0; cbn; try reflexivity. f_equal. ring.
    + destruct (state_raw _ _ _ _ _ _ _ _ E1 _ _ R2) as (zz & Ez & ->).
      pose proof (tr_raw _ _ _ _ _ _ T) as Er. rewrite firstn_length_le, raw_firstn in Er by lia. congruence.
  - destruct (nth_error gs (k + j)) as [gp|] eqn:P; [|apply nth_error_None in P; assert (k + S j < length gs)%nat by (apply nth_error_Some; congruence); lia].
    destruct (nth_error gs' j) as [gp'|] eqn:P'; [|apply nth_error_None in P'; assert (S j < length gs')%nat by (apply nth_error_Some; congruence); lia].
    specialize (IH _ _ eq_refl eq_refl).
    destruct (ended_facts _ _ _ _ _ _ _ _ E1 _ _ H) as (s & T & RF). destruct (ended_facts _ _ _ _ _ _ _ _ E2 _ _ H') as (s' & T' & RF').
    assert (Lk : (k + S j < length gs)%nat) by (apply nth_error_Some; congruence).
    assert (Lk' : (S j < length gs')%nat) by (apply nth_error_Some; congruence).
    pose proof (tr_on _ _ _ _ _ _ _ _ E1 W1 _ _ (Nat.lt_le_incl _ _ Lk) T) as On.
    pose proof (tr_on _ _ _ _ _ _ _ _ E2 W2 _ _ (Nat.lt_le_incl _ _ Lk') T') as On'.
    destruct (W1 _ _ _ _ (rf_t _ _ _ _ _ _ _ _ RF) (rf_b _ _ _ _ _ _ _ _ RF) (rf_c _ _ _ _ _ _ _ _ RF)) as [V1 V2].
    destruct (W2 _ _ _ _ (rf_t _ _ _ _ _ _ _ _ RF') (rf_b _ _ _ _ _ _ _ _ RF') (rf_c _ _ _ _ _ _ _ _ RF')) as [V1' _].
    apply (rows_match s s'); [|apply (rf_iter _ _ _ _ _ _ _ _ RF)|apply (rf_iter _ _ _ _ _ _ _ _ RF')|exact V1|exact V1'|exact V2].
    replace (k + S j)%nat with (S (k + j)) in T by lia.
    rewrite (nth_error_firstn_S _ _ _ P) in T. rewrite (nth_error_firstn_S _ _ _ P') in T'.
    destruct (tr_last _ _ _ _ _ _ _ T) as [n ->]. destruct (tr_last _ _ _ _ _ _ _ T') as [n' ->].
    destruct IH. constructor; simpl; auto. congruence.
Qed.

Lemma all_repeat : repeats o h k t0 h'.
Proof.
  split.
  - intros [|j] t z m b t' z' m' b' (A1 & A2 & A3 & A4) (B1 & B2 & B3 & B4).
    + rewrite Nat.add_0_r in *. destruct R0 as (R1 & R2 & R3 & R4). cbn [mkh h_times h_masses h_battery nth_error] in B1, B3, B4.
      change (p_mass0 p') with m0 in B3. change (p_batt0 p') with b0 in B4.
      rewrite R1 in A1. rewrite R2 in A2. rewrite R3 in A3. rewrite R4 in A4.
      injection A1 as <-. injection A2 as <-. injection A3 as <-. injection A4 as <-. injection B1 as <-. injection B3 as <-. injection B4 as <-.
      repeat split; auto.
      * destruct t0; cbn; try reflexivity. f_equal. ring.
      * destruct (state_raw _ _ _ _ _ _ _ _ E2 _ _ B2) as (zz & Ez & Gz). injection Ez as <-. symmetry. exact Gz.
    + replace (k + S j)%nat with (S (k + j)) in * by lia. cbn [mkh h_times h_masses h_battery nth_error] in A1, A3, A4, B1, B3, B4. rewrite nth_error_map in A1, A3, A4, B1, B3, B4.
      destruct (nth_error gs (k + j)) as [g|] eqn:P; [|discriminate]. destruct (nth_error gs' j) as [g'|] eqn:P'; [|discriminate].
      destruct (match_all j g g' P P') as [X1 X2 X3 X4 _ _ _ _ _].
      injection A1 as <-. injection A3 as <-. injection A4 as <-. injection B1 as <-. injection B3 as <-. injection B4 as <-. repeat split; auto.
      destruct (state_raw _ _ _ _ _ _ _ _ E1 _ _ A2) as (zz & Ez & Gz). destruct (state_raw _ _ _ _ _ _ _ _ E2 _ _ B2) as (zz' & Ez' & Gz').
      simpl in Ez, Ez'. rewrite P in Ez. rewrite P' in Ez'. injection Ez as <-. injection Ez' as <-. rewrite Gz, X4. symmetry. exact Gz'.
  - repeat split; intros j x y A B; cbn [mkh h_controls h_Qs h_dQdts h_etas h_bounds] in A, B; rewrite nth_error_map in A, B;
      destruct (nth_error gs (k + j)) as [g|] eqn:P; try discriminate; destruct (nth_error gs' j) as [g'|] eqn:P'; try discriminate;
      destruct (match_all j g g' P P'); injection A as <-; injection B as <-; assumption.
Qed.
End Two.

Lemma C93_lem (o : qlaw XNum) p ea er c f1 f2 o1 h1 o2 h2 k t z m b :
  steady o ea er -> ran f1 o ea er p o1 h1 -> row_at h1 k t z m b ->
  ran f2 (qlaw_until c (problem_from z m b p) o) ea er (problem_until c (problem_from z m b p)) o2 h2 ->
  powered p h1 -> powered p h2 -> repeats o h1 k t h2.
Proof.
  intros St R1 Row R2 W1 W2. destruct (ran_ended _ _ _ _ _ _ _ R1) as (gs & oel & cd & cv & E & -> & _).
  destruct (ran_ended _ _ _ _ _ _ _ R2) as (gs' & oel' & cd' & cv' & E' & -> & _).
  exact (all_repeat o p ea er c z m b t St gs gs' oel oel' cd cd' cv cv' k E E' W1 W2 Row).
Qed.

Lemma stock_steady (o : qlaw XNum) x y : reachable o -> q_ptrb o = None -> steady o (EtaFloat x) (EtaFloat y).
Proof.
  intros H P. split; [|split].
  - intros t t' z w. destruct (C29_reachable_lem o H) as (_ & -> & _). destruct (q_etype o); reflexivity.
  - intros f. rewrite P. discriminate.
  - intros f t t' z m b [E|E]; discriminate.
Qed.
