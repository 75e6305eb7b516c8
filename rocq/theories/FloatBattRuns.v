(** Runs with battery in double precision: two that never return, and one that meets the hypotheses of the statement about termination. *)
From Coq Require Import QArith ZArith List Bool String Lia Floats.SpecFloat.
From Verif Require Import Num Base Integrate Eom Lyapunov Perturb Qlaw Trace Spec XSpec SolveProofs Sim Runs XRuns Float64 FloatSpec FloatProofs FloatMono FloatRun FloatRuns FloatDuty FloatTerm FloatTermRuns FloatBatt.
Import ListNotations.
Notation FN := (FNum lib0).

(** ** At rest, with a shortened step too small to move the time *)
Section Rest.
Variable a : qprob.
Notation o := (toyF a).
Notation p := (probF a).
Variables t b dt toff : f64.
Hypotheses (X0 : nltb (Num:=FN) (p_duty_off p) (nsub (Num:=FN) t toff) = false)
  (X1 : nleb (Num:=FN) b (nadd (Num:=FN) (p_cap_lo p) (dec (N:=FN) 1 12)) = false)
  (X2 : nltb (Num:=FN) (nsub (Num:=FN) b (nmul (Num:=FN) (p_discharge p) (p_t_step p))) (p_cap_lo p) = true)
  (X3 : f_val (ndiv (Num:=FN) (nsub (Num:=FN) b (p_cap_lo p)) (p_discharge p)) = f_val dt)
  (X4 : f_val (nadd (Num:=FN) t dt) = f_val t)
  (X5 : f_val (npclip (N:=FN) (nadd (Num:=FN) b (nmul (Num:=FN) (p_charge p) dt)) (p_cap_lo p) (p_cap_hi p)) = f_val b)
  (X6 : nltb (Num:=FN) (nabs (Num:=FN) t) (nabs (Num:=FN) (p_tf_max p)) = true).
Fixpoint after (n : nat) (s : lstate FN) : option (lstate FN) :=
  match n with
  | O => Some s
  | S n => if guard p s then match step o p noF noF s with Next s' => after n s' | _ => None end else None
  end.
Definition resting (s : lstate FN) : Prop :=
  (f_val (l_t s) = f_val t /\ f_val (l_batt s) = f_val b /\ l_duty s = false /\ f_val (l_toff s) = f_val toff /\ l_chg s = false) /\
  (nleb (Num:=FN) (l_mass s) (p_mass_min p) = false /\ guard p s = true /\ match l_ab s with Some _ => True | None => False end).

Lemma lyapR acc oe : exists al be u psi q qd, lyap_call o p acc oe = Ok (al, be, u, psi, q, qd).
Proof.
  assert (H : match u_to_thrust_angles (N:=FN) (mk3 (nofZ (Num:=FN) 0) (nofZ (Num:=FN) 1) (nofZ (Num:=FN) 0)) with Ok _ => True | Err _ => False end) by (vm_compute; exact I).
  unfold lyap_call, lyapunov_control_angles. change (q_lyap o) with (q_lyap (toy (N:=FN) RK4 (nofZ (Num:=FN) 1))). cbn [q_lyap toy bind lo_u].
  destruct (u_to_thrust_angles _) as [[[u al] be]|]; [|contradiction]. cbn [bind lo_psi lo_dqdoe lo_q]. eexists _, _, _, _, _, _. reflexivity.
Qed.
Lemma rest_step s : resting s -> exists s', step o p noF noF s = Next s' /\ resting s'.
Proof.
  intros [(S1 & S2 & S3 & S4 & S5) (S6 & S7 & S8)].
  destruct s as [t' oe m b' nrel nnan duty ton toff' chg ab h]. cbn [l_mass l_batt l_duty l_toff l_chg l_t l_ab] in *.
  apply f64_ext in S1, S2, S4, X3, X4, X5. subst. destruct ab as [[al0 be0]|]; [|contradiction].
  set (d := ndiv (Num:=FN) (nsub (Num:=FN) b (p_cap_lo p)) (p_discharge p)) in *.
  assert (Pl : plan o p (@mkls FN t oe m b nrel nnan false ton toff false (Some (al0, be0)) h) = Ok (@mkplan FN d false ton toff false)).
  { unfold plan, local_step. change (q_sundman o) with false. cbn [bind l_t l_duty l_ton l_toff l_batt l_chg].
    unfold duty_phase. rewrite andb_false_r, X0. cbn [andb negb]. unfold battery_phase. rewrite X1, X2. cbn [andb negb]. unfold recharge_phase. rewrite andb_false_r. reflexivity. }
  unfold step. change (safety o ?s) with s. rewrite Pl. cbv zeta. cbn [pl_dt l_mass].
  set (acc := accel_thrust (N:=FN) p d m).
  unfold control. cbn [pl_duty l_oe]. destruct (lyapR acc oe) as (al & be & u & psi & q & qd & E). rewrite E. cbn [bind l_ab].
  change (perturbation o ?s) with (Ok (v3zero (N:=FN))). unfold propagate. change (q_integ o) with RK4.
  change (q_eom o) with (fun (_ : f64) (_ : vec6 FN) (_ : ode_params FN) => Ok (v6of (N:=FN) (nofZ (Num:=FN) 1))).
  cbn [pl_dt c_thr l_t l_mass l_oe c_u c_psi]. edestruct (@rk4_const FN) as [y' Ey]. rewrite Ey. cbn [bind]. change (0 =? 1)%Z with false. cbv iota.
  cbn [l_batt pl_duty pl_chg]. unfold battery_update. rewrite X5. cbn [c_ab]. rewrite X4.
  unfold exit_check. change (q_check o) with (fun (_ : vec6 FN) (_ : list f64) (_ _ : vec5 FN) => Ok false). cbn [l_oe andb].
  cbv beta iota zeta. unfold with_nrel. cbn [l_mass andb]. rewrite S6.
  eexists. split; [reflexivity|]. split; cbn [l_mass l_batt l_duty l_toff l_chg l_t l_ab].
  - repeat split; try reflexivity. destruct (neqb (Num:=FN) b (p_cap_hi p)); reflexivity.
  - split; [exact S6|]. split; [|exact I]. unfold guard. cbn [l_hist h_times push3 push6]. rewrite last_last. exact X6.
Qed.
Lemma rest_loop fuel : forall s, resting s -> exists s', loop fuel o p noF noF s = LFuel s'.
Proof.
  induction fuel as [|n IH]; intros s S; assert (G := S); destruct G as [_ (_ & G & _)]; cbn [loop]; rewrite G.
  - eauto.
  - destruct (rest_step s S) as (s' & E & S'). rewrite E. apply IH, S'.
Qed.
Lemma after_loop n : forall s s1, after n s = Some s1 -> resting s1 -> forall fuel, exists s', loop fuel o p noF noF s = LFuel s'.
Proof.
  induction n as [|n IH]; cbn [after]; intros s s1 E S fuel.
  - inversion E; subst. apply rest_loop, S.
  - destruct (guard p s) eqn:G; [|discriminate]. destruct (step o p noF noF s) as [s'| |] eqn:Es; try discriminate.
    destruct fuel as [|m]; cbn [loop]; rewrite G; [eauto|]. rewrite Es. eapply IH; eauto.
Qed.
Lemma rest_forever n : match after n (init_state p) with Some s => resting s | None => False end -> forall fuel, solve fuel o noF noF = Running.
Proof.
  intros H fuel. unfold solve. change (q_problem o) with (Some p). destruct (after n (init_state p)) as [s1|] eqn:E; [|contradiction].
  destruct (after_loop n (init_state p) s1 E H fuel) as [s' Es]. cbn [noF]. fold noF. rewrite Es. reflexivity.
Qed.
End Rest.

(** Step 4096; the battery holds two steps and 2^-39 more and is not recharged; thrust for half a step, rest for 7.5 steps. *)
Definition a_rest : qprob :=
  mkqp 10 (1 # 1048576) 100000 4096 (1 # 10) 2048 30720 (4503599627370497 # 549755813888) 0 (4503599627370497 # 549755813888) 0 1 false.
(** 4096, 2^17, 40960 and 2^-39 *)
Definition f4096 : f64 := pack (S754_finite false 4503599627370496 (-40)).
Definition f131072 : f64 := pack (S754_finite false 4503599627370496 (-35)).
Definition f40960 : f64 := pack (S754_finite false 5629499534213120 (-37)).
Definition bit : f64 := pack (S754_finite false 4503599627370496 (-91)).
Lemma rest_run fuel : solve fuel (toyF a_rest) noF noF = Running.
Proof. apply (rest_forever a_rest f40960 bit bit f40960) with (n := 11%nat); vm_compute; repeat split; reflexivity. Qed.
(** A battery of 2^-30 drained at 2^30 per unit time, a step of 1, no limit on thrusting, rest for 5. *)
Definition a_tiny : qprob := mkqp 10 (1 # 10) (3 # 2) 1 (1 # 10) 100 5 (1 # 1073741824) 0 (1 # 1073741824) 1 1073741824 false.
Definition bit60 : f64 := pack (S754_finite false 4503599627370496 (-112)).
Definition bit30 : f64 := pack (S754_finite false 4503599627370496 (-82)).
Lemma tiny_run fuel : solve fuel (toyF a_tiny) noF noF = Running.
Proof. apply (rest_forever a_tiny one64 bit30 bit60 bit60) with (n := 3%nat); vm_compute; repeat split; reflexivity. Qed.

(** Step 0.1, the battery between 0.2 and 1, drained by 3 and charged by 1 per unit time: the third step is shortened. *)
Definition a_drain : qprob := mkqp 10 (1 # 10) 1 (1 # 10) (1 # 10) 100 0 1 (2 # 10) 1 1 3 false.
Lemma drain_case : forward64 (toyF a_drain) (probF a_drain) /\ q_integ (toyF a_drain) = RK4 /\ (worth u16 1 (-4) /\ worth one64 16 (-4)) /\
  fle u16 (p_t_step (probF a_drain)) /\ fle (nabs (Num:=FN) (p_tf_max (probF a_drain))) one64 /\
  fle (nabs (Num:=FN) (p_tf_max (probF a_drain))) (p_duty_on (probF a_drain)) /\ (fin (p_charge (probF a_drain)) /\ fle f0 (p_charge (probF a_drain))) /\
  fle (p_cap_lo (probF a_drain)) (p_cap_hi (probF a_drain)) /\
  ~ flt (nsub (Num:=FN) (p_cap_hi (probF a_drain)) (nmul (Num:=FN) (p_discharge (probF a_drain)) (p_t_step (probF a_drain)))) (p_cap_lo (probF a_drain)) /\
  q_problem (toyF a_drain) = Some (probF a_drain).
Proof. split; [ck|]. repeat match goal with |- _ /\ _ => split end; try reflexivity; try exact I. vm_compute. discriminate. Qed.
Lemma drain_run : exists o2 h2, ran 20 (toyF a_drain) noF noF (probF a_drain) o2 h2 /\ map snd (h_controls h2) = [1; 1; 1; 0; 1; 0; 1; 0; 1; 0; 1]%Z /\
  match nth_error (h_times h2) 2, nth_error (h_times h2) 3, nth_error (h_battery h2) 3 with
  | Some t, Some t', Some b => flt (nsub (Num:=FN) t' t) (p_t_step (probF a_drain)) /\ f_val b = f_val (p_cap_lo (probF a_drain)) | _, _, _ => False end.
Proof. runF. Qed.
Lemma rest_case : forward64 (toyF a_rest) (probF a_rest) /\ q_integ (toyF a_rest) = RK4 /\ (worth f4096 1 12 /\ worth f131072 32 12) /\
  fle f4096 (p_t_step (probF a_rest)) /\ fle (nabs (Num:=FN) (p_tf_max (probF a_rest))) f131072 /\
  (fin (p_charge (probF a_rest)) /\ fle f0 (p_charge (probF a_rest))) /\ fle (p_cap_lo (probF a_rest)) (p_cap_hi (probF a_rest)) /\
  ~ flt (nsub (Num:=FN) (p_cap_hi (probF a_rest)) (nmul (Num:=FN) (p_discharge (probF a_rest)) (p_t_step (probF a_rest)))) (p_cap_lo (probF a_rest)) /\
  q_problem (toyF a_rest) = Some (probF a_rest).
Proof. split; [ck|]. repeat match goal with |- _ /\ _ => split end; try reflexivity; try exact I. vm_compute. discriminate. Qed.
Lemma C115_refuted_lem : exists L (o : qlaw (FNum L)) (p : problem (FNum L)) ea er e M u v,
  forward64 o p /\ q_integ o = RK4 /\ (-1074 <= e)%Z /\ worth u 1 e /\ worth v M e /\ (M <= 2 ^ 53)%Z /\ fle u (p_t_step p) /\ fle (nabs (Num:=FNum L) (p_tf_max p)) v /\
  fin (p_charge p) /\ fle f0 (p_charge p) /\ fle (p_cap_lo p) (p_cap_hi p) /\
  ~ flt (nsub (Num:=FNum L) (p_cap_hi p) (nmul (p_discharge p) (p_t_step p))) (p_cap_lo p) /\ q_problem o = Some p /\ forall fuel, solve fuel o ea er = Running.
Proof.
  exists lib0, (toyF a_rest), (probF a_rest), noF, noF, 12%Z, 32%Z, f4096, f131072. destruct rest_case as (C1 & C2 & (C3 & C4) & C5 & C6 & (C7 & C8) & C9 & C10 & C11).
  repeat (split; [first [assumption|lia]|]). exact rest_run.
Qed.
Lemma tiny_case : forward64 (toyF a_tiny) (probF a_tiny) /\ q_integ (toyF a_tiny) = RK4 /\ (worth one64 1 0 /\ worth (dbl 2) 2 0) /\
  fle one64 (p_t_step (probF a_tiny)) /\ fle (nabs (Num:=FN) (p_tf_max (probF a_tiny))) (dbl 2) /\
  fle (nabs (Num:=FN) (p_tf_max (probF a_tiny))) (p_duty_on (probF a_tiny)) /\ (fin (p_charge (probF a_tiny)) /\ flt f0 (p_charge (probF a_tiny))) /\
  fle (p_cap_lo (probF a_tiny)) (p_cap_hi (probF a_tiny)) /\ q_problem (toyF a_tiny) = Some (probF a_tiny).
Proof. split; [ck|]. repeat match goal with |- _ /\ _ => split end; try reflexivity; exact I. Qed.
Lemma C115_tiny_lem : exists L (o : qlaw (FNum L)) (p : problem (FNum L)) ea er e M u v,
  forward64 o p /\ q_integ o = RK4 /\ (-1074 <= e)%Z /\ worth u 1 e /\ worth v M e /\ (M <= 2 ^ 53)%Z /\ fle u (p_t_step p) /\ fle (nabs (Num:=FNum L) (p_tf_max p)) v /\
  fle (nabs (Num:=FNum L) (p_tf_max p)) (p_duty_on p) /\ fin (p_charge p) /\ flt f0 (p_charge p) /\ fle (p_cap_lo p) (p_cap_hi p) /\
  q_problem o = Some p /\ forall fuel, solve fuel o ea er = Running.
Proof.
  exists lib0, (toyF a_tiny), (probF a_tiny), noF, noF, 0%Z, 2%Z, one64, (dbl 2). destruct tiny_case as (C1 & C2 & (C3 & C4) & C5 & C6 & C7 & (C8 & C9) & C10 & C11).
  repeat (split; [first [assumption|lia]|]). exact tiny_run.
Qed.
