(** Concrete runs for the statements about duty cycle and termination in double precision. *)
From Coq Require Import QArith ZArith List Bool String Lia Floats.SpecFloat.
From Verif Require Import Num Base Integrate Eom Lyapunov Perturb Qlaw Trace Spec XSpec SolveProofs Sim Runs XRuns Float64 FloatSpec FloatProofs FloatMono FloatRun FloatRuns FloatDuty FloatTerm.
Import ListNotations.

(** Thrust for 0.3, rest for 0.1, step 0.1, as in FloatRuns.window_double. *)
Lemma window_forward : forward64 (toyF a_window) (probF a_window) /\ fle (p_cap_lo (probF a_window)) (p_cap_hi (probF a_window)) /\
  fle f0 (p_duty_on (probF a_window)) /\ fle f0 (p_duty_off (probF a_window)).
Proof. ck. Qed.
Lemma window_times : exists o2 h2, ran 20 (toyF a_window) noF noF (probF a_window) o2 h2 /\
  map snd (h_controls h2) = [1; 1; 1; 0; 0; 1; 1]%Z /\ List.length (h_times h2) = 8%nat /\
  match nth_error (h_times h2) 5, nth_error (h_times h2) 1 with
  | Some x, Some y => flt (p_duty_on (probF a_window)) (nsub (Num:=FNum lib0) x y) | _, _ => False end.
Proof. runF. Qed.

(** A sixteenth. *)
Definition u16 : f64 := pack (S754_finite false 4503599627370496 (-56)).
(** Step 0.1 and no use of the battery. *)
Definition a_plain : qprob := mkqp 10 (1 # 10) 1 (1 # 10) (1 # 10) 100 0 1 0 1 0 0 false.
Lemma plain_term : forward64 (toyF a_plain) (probF a_plain) /\ ~ flt f0 (p_discharge (probF a_plain)) /\
  worth u16 1 (-4) /\ worth one64 16 (-4) /\ fle u16 (p_t_step (probF a_plain)) /\ fle (nabs (Num:=FNum lib0) (p_tf_max (probF a_plain))) one64 /\
  fin (p_tf_max (probF a_plain)) /\ q_problem (toyF a_plain) = Some (probF a_plain).
Proof. split; [ck|]. split; [vm_compute; discriminate|]. repeat match goal with |- _ /\ _ => split end; reflexivity. Qed.
Lemma plain_run : exists o2 h2, ran 16 (toyF a_plain) noF noF (probF a_plain) o2 h2 /\ List.length (h_controls h2) = 11%nat.
Proof. runF. Qed.

(** Step 1 up to 2^53 + 2: the time stays at 2^53. *)
Definition t53 : f64 := pack (S754_finite false 4503599627370496 1).
Definition a_long : qprob := mkqp 10 (1 # 1180591620717411303424) 9007199254740994 1 (1 # 10) 10000000000000000 0 1 0 1 0 0 false.
Notation oL := (toyF a_long).
Notation pL := (probF a_long).
Lemma long_forward : forward64 oL pL.
Proof. ck. Qed.
Lemma long_nodis : ~ flt f0 (p_discharge pL).
Proof. vm_compute. discriminate. Qed.
Lemma long_stuck : fin t53 /\ fle f0 t53 /\ fle (nadd (Num:=FNum lib0) t53 (p_t_step pL)) t53 /\ flt t53 (nabs (Num:=FNum lib0) (p_tf_max pL)).
Proof. ck. Qed.

Record steady (s : lstate (FNum lib0)) : Prop := {
  sd_mass : l_mass s = p_mass0 pL; sd_batt : l_batt s = p_batt0 pL; sd_duty : l_duty s = true; sd_ton : l_ton s = f0; sd_chg : l_chg s = false }.
Lemma sub_zero (x : f64) : fin x -> fle f0 x -> fle (nsub (Num:=FNum lib0) x f0) x.
Proof.
  intros Fx Px. unfold fle. cbn [nsub FNum]. rewrite v_sub. unfold fin in Fx. destruct (f_val x) as [b| | |b m ex]; try contradiction.
  - destruct b; reflexivity.
  - change (f_val f0) with (S754_zero false). cbn [SFsub]. apply leb_refl. discriminate.
Qed.
Lemma lyapF acc oe : exists al be u psi q qd, lyap_call oL pL acc oe = Ok (al, be, u, psi, q, qd) /\
  nisnan (Num:=FNum lib0) al = false /\ nisnan (Num:=FNum lib0) be = false.
Proof.
  assert (H : match u_to_thrust_angles (N:=FNum lib0) (mk3 (nofZ (Num:=FNum lib0) 0) (nofZ (Num:=FNum lib0) 1) (nofZ (Num:=FNum lib0) 0)) with
    | Ok (_, al, be) => nisnan (Num:=FNum lib0) al = false /\ nisnan (Num:=FNum lib0) be = false | Err _ => False end) by (vm_compute; split; reflexivity).
  unfold lyap_call, lyapunov_control_angles. 
  change (q_lyap oL) with (q_lyap (toy (N:=FNum lib0) RK4 (nofZ (Num:=FNum lib0) 1))). cbn [q_lyap toy bind lo_u].
  destruct (u_to_thrust_angles _) as [[[u al] be]|]; [|contradiction]. cbn [bind lo_psi lo_dqdoe lo_q].
  eexists _, _, _, _, _, _. split; [reflexivity|exact H].
Qed.
Lemma same_mass : nsub (Num:=FNum lib0) (p_mass0 pL) (nmul (Num:=FNum lib0) (p_mdot pL) (p_t_step pL)) = p_mass0 pL.
Proof. apply f64_ext. vm_compute. reflexivity. Qed.
Lemma same_batt : npclip (N:=FNum lib0) (nsub (Num:=FNum lib0) (p_batt0 pL) (nmul (Num:=FNum lib0) (p_discharge pL) (p_t_step pL))) (p_cap_lo pL) (p_cap_hi pL) = p_batt0 pL.
Proof. apply f64_ext. vm_compute. reflexivity. Qed.

Lemma long_step (gs : list (grow (FNum lib0))) s : tr oL pL noF noF gs s -> steady s -> exists s', step oL pL noF noF s = Next s' /\ steady s'.
Proof.
  intros T S. destruct long_stuck as (A1 & A2 & A3 & A4).
  assert (K := stuck_time lib0 oL pL noF noF t53 long_forward long_nodis A1 A2 A3 gs s T).
  destruct (tr_ok lib0 oL pL noF noF _ _ long_forward T) as [_ To].
  assert (Ft : fin (l_t s)) by (apply (between_fin f0 _ t53); [exact I|exact A1|exact To|exact K]).
  destruct s as [t oe m b nrel nnan duty ton toff chg ab h]. destruct S as [S1 S2 S3 S4 S5]. cbn [l_mass l_batt l_duty l_ton l_chg l_t] in *. subst.
  assert (D : nltb (Num:=FNum lib0) (p_duty_on pL) (nsub (Num:=FNum lib0) t f0) = false).
  { apply fle_not. eapply fle_trans; [apply sub_zero; assumption|]. eapply fle_trans; [exact K|]. vm_compute. reflexivity. }
  assert (Pl : plan oL pL (mkls t oe (p_mass0 pL) (p_batt0 pL) nrel nnan true f0 toff false ab h) = Ok (mkplan (p_t_step pL) true f0 toff false)).
  { unfold plan, local_step. change (q_sundman oL) with false. cbn [bind l_t l_duty l_ton l_toff l_batt l_chg].
    unfold duty_phase. rewrite D. cbn [andb negb]. rewrite andb_false_r. unfold battery_phase.
    assert (X1 : nleb (Num:=FNum lib0) (p_batt0 pL) (nadd (Num:=FNum lib0) (p_cap_lo pL) (dec (N:=FNum lib0) 1 12)) = false) by (vm_compute; reflexivity).
    assert (X2 : nltb (Num:=FNum lib0) (nsub (Num:=FNum lib0) (p_batt0 pL) (nmul (Num:=FNum lib0) (p_discharge pL) (p_t_step pL))) (p_cap_lo pL) = false) by (vm_compute; reflexivity).
    rewrite X1, X2. cbn [andb]. reflexivity. }
  unfold step. change (safety oL ?s) with s. rewrite Pl. cbv zeta. cbn [pl_dt l_mass].
  set (acc := accel_thrust pL (p_t_step pL) (p_mass0 pL)).
  unfold control. cbn [pl_duty l_oe]. destruct (lyapF acc oe) as (al & be & u & psi & q & qd & E & E1 & E2). rewrite E. cbn [bind]. rewrite E1, E2. cbn [orb eta_now noF].
  assert (Z0 : nltb (Num:=FNum lib0) (nofZ (Num:=FNum lib0) 0) f0 = false) by reflexivity. rewrite Z0. cbn [orb].
  change (perturbation oL ?s) with (Ok (v3zero (N:=FNum lib0))). unfold propagate. change (q_integ oL) with RK4.
  change (q_eom oL) with (fun (_ : f64) (_ : vec6 (FNum lib0)) (_ : ode_params (FNum lib0)) => Ok (v6of (N:=FNum lib0) (nofZ (Num:=FNum lib0) 1))).
  cbn [pl_dt c_thr l_t l_mass l_oe c_u c_psi]. edestruct (@rk4_const (FNum lib0)) as [y' Ey]. rewrite Ey. cbn [bind]. change (1 =? 1)%Z with true. cbv iota. rewrite same_mass.
  cbn [l_batt pl_duty pl_chg]. unfold battery_update. rewrite same_batt. cbn [c_ab].
  unfold exit_check. change (q_check oL) with (fun (_ : vec6 (FNum lib0)) (_ : list f64) (_ _ : vec5 (FNum lib0)) => Ok false). cbn [l_oe andb].
  cbv beta iota zeta. unfold with_nrel. cbn [l_mass andb].
  assert (M1 : nleb (Num:=FNum lib0) (p_mass0 pL) (p_mass_min pL) = false) by (vm_compute; reflexivity). rewrite M1.
  eexists. split; [reflexivity|]. constructor; reflexivity.
Qed.
Lemma long_loop fuel : forall gs s, tr oL pL noF noF gs s -> steady s -> exists s', loop fuel oL pL noF noF s = LFuel s'.
Proof.
  destruct long_stuck as (A1 & A2 & A3 & A4).
  induction fuel as [|n IH]; intros gs s T S; cbn [loop]; rewrite (stuck_guard lib0 oL pL noF noF t53 long_forward long_nodis A1 A2 A3 A4 gs s T).
  - eauto.
  - destruct (long_step gs s T S) as (s' & E & S'). rewrite E. pose proof (step_cases oL pL noF noF s) as SC. rewrite E in SC. inversion SC as [g Hit Heq| | |].
    apply (IH (gs ++ [g])); [|exact S']. eapply tr_snoc; eauto. apply (stuck_guard lib0 oL pL noF noF t53 long_forward long_nodis A1 A2 A3 A4 gs s T).
Qed.
Lemma C111_refuted_lem : exists L (o : qlaw (FNum L)) (p : problem (FNum L)) ea er, forward64 o p /\ ~ flt f0 (p_discharge p) /\ flt f0 (p_t_step p) /\
  fin (p_tf_max p) /\ q_problem o = Some p /\ forall fuel, solve fuel o ea er = Running.
Proof.
  exists lib0, oL, pL, noF, noF. split; [exact long_forward|]. split; [exact long_nodis|]. split; [reflexivity|]. split; [exact I|]. split; [reflexivity|].
  intros fuel. unfold solve. change (q_problem oL) with (Some pL).
  destruct (long_loop fuel [] (init_state pL) (tr_nil _ _ _ _)) as [s' E]; [constructor; reflexivity|]. cbn [noF]. fold noF. rewrite E. reflexivity.
Qed.
(** The same with a fuel consumption of 1: the run ends with code -1. *)
Definition a_longm : qprob := mkqp 10 1 9007199254740994 1 (1 # 10) 10000000000000000 0 1 0 1 0 0 false.
Lemma longm_case : forward64 (toyF a_longm) (probF a_longm) /\ ~ flt f0 (p_discharge (probF a_longm)) /\
  (fin t53 /\ fle f0 t53 /\ fle (nadd (Num:=FNum lib0) t53 (p_t_step (probF a_longm))) t53 /\
   flt t53 (nabs (Num:=FNum lib0) (p_tf_max (probF a_longm)))) /\ fresh (toyF a_longm) /\
  exists o2 h2, ran 20 (toyF a_longm) noF noF (probF a_longm) o2 h2 /\ q_exitcode o2 = (-1)%Z /\ List.length (h_controls h2) = 10%nat.
Proof. split; [ck|]. split; [vm_compute; discriminate|]. split; [ck|]. split; [split; reflexivity|]. runF. Qed.
