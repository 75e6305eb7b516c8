(** Concrete runs for the examples.  A simple object (constant dynamics, constant control law, a
    convergence test that never succeeds) run over the rationals behaves exactly like the same object
    over the extended reals, so runs computed over the rationals give runs over the extended reals. *)
From Coq Require Import Reals QArith Qreals ZArith List Bool Lia Lra.
From Verif Require Import RMath Num Base Elements Integrate Eom Convergence Lyapunov Perturb Qlaw Spec XSpec XTrace.
Import ListNotations.

Definition emb (x : option Q) : ereal := match x with Some q => Fin (Q2R q) | None => NaN end.

Lemma Q2R_red q : Q2R (Qred q) = Q2R q.
Proof. apply Qeq_eqR. apply Qred_correct. Qed.
Lemma emb_add (x y : option Q) : emb (nadd (Num:=QNum) x y) = nadd (Num:=XNum) (emb x) (emb y).
Proof. destruct x, y; auto. cbn [emb nadd nsub nmul QNum XNum qlift2 xadd xsub xmul]. rewrite Q2R_red, Q2R_plus. reflexivity. Qed.
Lemma emb_sub (x y : option Q) : emb (nsub (Num:=QNum) x y) = nsub (Num:=XNum) (emb x) (emb y).
Proof. destruct x, y; auto. cbn [emb nadd nsub nmul QNum XNum qlift2 xadd xsub xmul]. rewrite Q2R_red, Q2R_minus. reflexivity. Qed.
Lemma emb_mul (x y : option Q) : emb (nmul (Num:=QNum) x y) = nmul (Num:=XNum) (emb x) (emb y).
Proof. destruct x, y; auto. cbn [emb nadd nsub nmul QNum XNum qlift2 xadd xsub xmul]. rewrite Q2R_red, Q2R_mult. reflexivity. Qed.
Lemma Q2R_0 q : Q2R q = 0%R <-> (q == 0)%Q.
Proof.
  split; intros H.
  - apply eqR_Qeq. rewrite H. symmetry. unfold Q2R. simpl. lra.
  - rewrite (Qeq_eqR _ _ H). unfold Q2R. simpl. lra.
Qed.
Lemma emb_div (x : option Q) y : ~ (y == 0)%Q ->
  emb (ndiv (Num:=QNum) x (Some y)) = ndiv (Num:=XNum) (emb x) (emb (Some y)).
Proof.
  intros H. cbn [ndiv QNum XNum car].
  destruct (Qeq_bool y 0) eqn:E; [apply Qeq_bool_iff in E; contradiction|].
  destruct x as [x|]; [|reflexivity]. cbn [qlift2 emb xdiv].
  destruct (Reqb_spec (Q2R y) 0) as [R0|_]; [apply Q2R_0 in R0; contradiction|].
  rewrite Q2R_red, Q2R_div; auto.
Qed.
Lemma Q2R_abs q : Q2R (Qabs.Qabs q) = Rabs (Q2R q).
Proof.
  apply Qabs.Qabs_case; intros H; apply Qle_Rle in H; rewrite RMicromega.Q2R_0 in H.
  - rewrite Rabs_right; lra.
  - rewrite Rabs_left1 by lra. rewrite Q2R_opp. reflexivity.
Qed.
Lemma emb_abs (x : option Q) : emb (nabs (Num:=QNum) x) = nabs (Num:=XNum) (emb x).
Proof. destruct x; auto. simpl. rewrite Q2R_abs. reflexivity. Qed.
Lemma Rleb_Q a b : Rleb (Q2R a) (Q2R b) = Qle_bool a b.
Proof.
  destruct (Rleb_spec (Q2R a) (Q2R b)) as [H|H]; symmetry.
  - apply Qle_bool_iff. apply Rle_Qle. exact H.
  - apply not_true_is_false. intros E. apply Qle_bool_iff in E. apply Qle_Rle in E. contradiction.
Qed.
Lemma Rltb_Q a b : Rltb (Q2R a) (Q2R b) = negb (Qle_bool b a).
Proof.
  rewrite <- Rleb_Q. destruct (Rltb_spec (Q2R a) (Q2R b)), (Rleb_spec (Q2R b) (Q2R a)); auto; lra.
Qed.
Lemma Reqb_Q a b : Reqb (Q2R a) (Q2R b) = Qeq_bool a b.
Proof.
  destruct (Reqb_spec (Q2R a) (Q2R b)) as [H|H]; symmetry.
  - apply Qeq_bool_iff. apply eqR_Qeq. exact H.
  - apply not_true_is_false. intros E. apply Qeq_bool_iff in E. apply Qeq_eqR in E. contradiction.
Qed.
Lemma emb_ltb (x y : option Q) : nltb (Num:=XNum) (emb x) (emb y) = nltb (Num:=QNum) x y.
Proof. destruct x, y; auto. simpl. apply Rltb_Q. Qed.
Lemma emb_leb (x y : option Q) : nleb (Num:=XNum) (emb x) (emb y) = nleb (Num:=QNum) x y.
Proof. destruct x, y; auto. cbn [emb nleb XNum QNum qcmp]. rewrite xleb_fin. apply Rleb_Q. Qed.
Lemma emb_eqb (x y : option Q) : neqb (Num:=XNum) (emb x) (emb y) = neqb (Num:=QNum) x y.
Proof. destruct x, y; auto. simpl. apply Reqb_Q. Qed.
Lemma emb_Z z : nofZ (Num:=XNum) z = emb (nofZ (Num:=QNum) z).
Proof. simpl. f_equal. unfold Q2R, inject_Z. simpl. lra. Qed.
Lemma emb_dec m e : dec (N:=XNum) m e = emb (dec (N:=QNum) m e).
Proof.
  unfold dec. rewrite !emb_Z. symmetry. apply emb_div.
  intros H. unfold inject_Z, Qeq in H. simpl in H. rewrite Z.mul_1_r in H.
  revert H. apply Z.pow_nonzero; lia.
Qed.
Lemma emb_if (b : bool) x y : (if b then emb x else emb y) = emb (if b then x else y).
Proof. destruct b; reflexivity. Qed.
Lemma emb_clip x lo hi : npclip (N:=XNum) (emb x) (emb lo) (emb hi) = emb (npclip (N:=QNum) x lo hi).
Proof. unfold npclip. cbv zeta. rewrite emb_ltb, emb_if, emb_ltb, emb_if. reflexivity. Qed.

(** ** The object *)
Section Toy.
Context {N : Num}.
Definition v6of (c : car) : vec6 N := mk6 c c c c c c.
Definition v5of (c : car) : vec5 N := mk5 c c c c c.
(** eom is the constant [c]; the control law always asks for tangential thrust. *)
Definition toy (ig : integ) (c : car) : qlaw N :=
  {| q_mu := nofZ 1; q_rpmin := nofZ 1; q_k := nofZ 100; q_m := nofZ 3; q_n := nofZ 4; q_r := nofZ 2;
     q_b := nofZ 1; q_wp := nofZ 1; q_etype := MeeWithA; q_integ := ig; q_grid := 2;
     q_tol := v5of (dec 1 3); q_tol_relaxed := v5of (dec 1 2); q_exit_relaxed := 2;
     q_oe_min := default_oe_min MeeWithA; q_oe_max := default_oe_max MeeWithA; q_nan_thr := 10;
     q_eom := fun _ _ _ => Ok (v6of c);
     q_lyap := fun _ _ _ _ _ _ _ _ _ _ _ _ =>
       Ok {| lo_u := mk3 (nofZ 0) (nofZ 1) (nofZ 0);
             lo_psi := mkpsi (v5of (nofZ 0)) (v5of (nofZ 0)) (v5of (nofZ 0));
             lo_q := nofZ 0; lo_dqdoe := v5of (nofZ 0) |};
     q_dqdt := fun _ _ _ _ _ _ _ _ _ _ _ _ => Ok (nofZ (-1));
     q_check := fun _ _ _ _ => Ok false;
     q_step_min := dec 1 4; q_step_max := nofZ 2; q_ode_tol := dec 1 5; q_sundman := false;
     q_ptrb := None; q_problem := None; q_hist := None; q_converge := false; q_exitcode := 0%Z |}.
End Toy.

(** Problem with rational numbers: duration, step, mass data, duty cycle, battery. *)
Record qprob : Type := mkqp {
  b_mass0 : Q; b_mdot : Q; b_tf : Q; b_ts : Q; b_mmin : Q; b_on : Q; b_off : Q;
  b_b0 : Q; b_lo : Q; b_hi : Q; b_ch : Q; b_dis : Q; b_full : bool }.
Definition probQ (a : qprob) : problem QNum :=
  @mkproblem QNum (v6of (N:=QNum) (nofZ 1)) (repeat (nofZ (Num:=QNum) 2) 5) (Some (b_mass0 a)) (nofZ (Num:=QNum) 1) (Some (b_mdot a))
    (Some (b_tf a)) (Some (b_ts a)) (Some (b_mmin a)) (v5of (N:=QNum) (nofZ 1)) (Some (b_on a)) (Some (b_off a))
    (Some (b_b0 a)) (Some (b_lo a)) (Some (b_hi a)) (Some (b_ch a)) (Some (b_dis a)) (b_full a).
Definition fq (q : Q) : ereal := Fin (Q2R q).
Definition probX_from (z : vec6 XNum) (a : qprob) : problem XNum :=
  @mkproblem XNum z (repeat (nofZ (Num:=XNum) 2) 5) (fq (b_mass0 a)) (nofZ (Num:=XNum) 1) (fq (b_mdot a))
    (fq (b_tf a)) (fq (b_ts a)) (fq (b_mmin a)) (v5of (N:=XNum) (nofZ 1)) (fq (b_on a)) (fq (b_off a))
    (fq (b_b0 a)) (fq (b_lo a)) (fq (b_hi a)) (fq (b_ch a)) (fq (b_dis a)) (b_full a).
Definition probX (a : qprob) : problem XNum := probX_from (v6of (N:=XNum) (nofZ 1)) a.
Definition parX (a : qprob) : params :=
  mkpar (Q2R (b_mass0 a)) (Q2R (b_mdot a)) (Q2R (b_tf a)) (Q2R (b_ts a)) (Q2R (b_mmin a)) (Q2R (b_on a))
    (Q2R (b_off a)) (Q2R (b_b0 a)) (Q2R (b_lo a)) (Q2R (b_hi a)) (Q2R (b_ch a)) (Q2R (b_dis a)) (b_full a).

Definition withp {N : Num} (o : qlaw N) (p : problem N) : qlaw N := with_run o (Some p) None false 0.
(** [c = nan] for rkf45, so that the adaptive suggestion is nan and the step seen by the battery is
    step_max; any number for rk4. *)
Definition toyQ (ig : integ) (a : qprob) : qlaw QNum :=
  withp (toy (N:=QNum) ig (match ig with RK4 => nofZ 1 | RKF45 => nnan end)) (probQ a).
Definition toyX_from (ig : integ) (z : vec6 XNum) (a : qprob) : qlaw XNum :=
  withp (toy (N:=XNum) ig (match ig with RK4 => nofZ 1 | RKF45 => nnan end)) (probX_from z a).
Definition toyX (ig : integ) (a : qprob) : qlaw XNum := toyX_from ig (v6of (N:=XNum) (nofZ 1)) a.

Lemma toy_finite a : finite_problem (probX a) (parX a).
Proof. unfold finite_problem. simpl. repeat split; reflexivity. Qed.
Lemma toy_regular ig a : regular (toyX ig a) (probX a) (parX a).
Proof.
  split; [apply toy_finite|]. split; [reflexivity|].
  exists (1 / 10 ^ 4)%R, 2%R. split; [apply xdec_gen|]. split; [reflexivity|].
  assert (0 < 10 ^ 4)%R by (apply pow_lt; lra). split.
  - apply Rdiv_lt_0_compat; lra.
  - apply (Rmult_le_reg_r (10 ^ 4)); [assumption|]. unfold Rdiv. rewrite Rmult_assoc, Rinv_l by lra. lra.
Qed.

(** ** Simulation *)
Record simh (h : hist QNum) (h' : hist XNum) : Prop := mksimh {
  sh_t : h_times h' = map emb (h_times h); sh_m : h_masses h' = map emb (h_masses h);
  sh_b : h_battery h' = map emb (h_battery h);
  sh_c : map snd (h_controls h') = map snd (h_controls h) }.
Record sim (s : lstate QNum) (s' : lstate XNum) : Prop := mksim {
  si_t : l_t s' = emb (l_t s); si_m : l_mass s' = emb (l_mass s); si_b : l_batt s' = emb (l_batt s);
  si_nrel : l_nrel s' = l_nrel s; si_nnan : l_nnan s' = l_nnan s; si_duty : l_duty s' = l_duty s;
  si_ton : l_ton s' = emb (l_ton s); si_toff : l_toff s' = emb (l_toff s); si_chg : l_chg s' = l_chg s;
  si_ab : l_ab s' = None <-> l_ab s = None;
  si_h : simh (l_hist s) (l_hist s') }.

Inductive simo : outcome QNum -> outcome XNum -> Prop :=
| so_next s s' : sim s s' -> simo (Next s) (Next s')
| so_stop c v s s' : sim s s' -> simo (Stop c v s) (Stop c v s')
| so_fail e s s' : simo (Fail e s) (Fail e s').

Section S.
Variables (ig : integ) (oe0 : vec6 XNum) (a : qprob).
Hypothesis Hdis : ~ (b_dis a == 0)%Q.
Notation pQ := (probQ a).
Notation pX := (probX_from oe0 a).
Notation oQ := (toyQ ig a).
Notation oX := (toyX_from ig oe0 a).
Notation zQ := (EtaFloat (N:=QNum) (nofZ (Num:=QNum) 0)).
Notation zX := (EtaFloat (N:=XNum) (nofZ (Num:=XNum) 0)).

Lemma duty_sim t d ton toff :
  duty_phase pX (emb t) d (emb ton) (emb toff) =
  let '(x, y, z) := duty_phase pQ t d ton toff in (x, emb y, emb z).
Proof.
  unfold duty_phase.
  change (p_duty_on pX) with (emb (p_duty_on pQ)). change (p_duty_off pX) with (emb (p_duty_off pQ)).
  rewrite <- !emb_sub, !emb_ltb.
  destruct (nltb (Num:=QNum) (p_duty_on pQ) (nsub (Num:=QNum) t ton) && d); rewrite <- ?emb_sub, ?emb_ltb.
  - destruct (nltb (Num:=QNum) _ _ && negb false); reflexivity.
  - destruct (nltb (Num:=QNum) _ _ && negb d); reflexivity.
Qed.

Lemma batt_sim t b dt d toff c :
  battery_phase pX (emb t) (emb b) (emb dt) d (emb toff) c =
  let '(x, y, z, w) := battery_phase pQ t b dt d toff c in (emb x, y, emb z, w).
Proof.
  unfold battery_phase.
  change (p_cap_lo pX) with (emb (p_cap_lo pQ)). change (p_discharge pX) with (emb (p_discharge pQ)).
  rewrite emb_dec, <- emb_add, emb_leb, <- emb_mul, <- !emb_sub, emb_ltb.
  destruct (nleb (Num:=QNum) b _); [reflexivity|].
  destruct (nltb (Num:=QNum) _ _ && negb c); [|reflexivity].
  change (p_discharge pQ) with (Some (b_dis a)). rewrite <- emb_div by exact Hdis. reflexivity.
Qed.

Lemma plan_sim s s' : sim s s' ->
  exists pl pl', plan oQ pQ s = Ok pl /\ plan oX pX s' = Ok pl' /\
    pl_dt pl' = emb (pl_dt pl) /\ pl_duty pl' = pl_duty pl /\ pl_ton pl' = emb (pl_ton pl) /\
    pl_toff pl' = emb (pl_toff pl) /\ pl_chg pl' = pl_chg pl.
Proof.
  intros [M1 M2 M3 M4 M5 M6 M7 M8 M9 M10 M11]. unfold plan, local_step.
  change (q_sundman oQ) with false. change (q_sundman oX) with false. cbn [bind].
  rewrite M1, M6, M7, M8, M3, M9.
  change (p_t_step pX) with (emb (p_t_step pQ)). rewrite duty_sim.
  destruct (duty_phase pQ (l_t s) (l_duty s) (l_ton s) (l_toff s)) as [[d1 ton1] toff1].
  rewrite batt_sim.
  destruct (battery_phase pQ (l_t s) (l_batt s) (p_t_step pQ) d1 toff1 (l_chg s)) as [[[x y] z] w].
  eexists _, _. split; [reflexivity|]. split; [reflexivity|]. simpl. repeat split; auto.
  unfold recharge_phase. change (p_cap_hi pX) with (emb (p_cap_hi pQ)). rewrite emb_ltb. reflexivity.
Qed.

(** The control law of the toy object answers with proper angles. *)
Lemma toyX_lyap_from acc oe : exists al be u psi q qd, lyap_call oX pX acc oe = Ok (al, be, u, psi, q, qd) /\
  nisnan (Num:=XNum) al = false /\ nisnan (Num:=XNum) be = false.
Proof.
  unfold lyap_call, lyapunov_control_angles, toyX_from, toy, withp. cbn [q_lyap with_run bind lo_u lo_psi lo_q lo_dqdoe].
  unfold u_to_thrust_angles.
  cbn [v3_0 v3_1 v3_2 v3divs sq nadd nmul nsqrt ndiv nofZ XNum car xadd xmul xsqrt].
  set (x := (0 * 0 + 1 * 1 + 0 * 0)%R).
  assert (Ex : x = 1%R) by (unfold x; ring). rewrite Ex.
  destruct (Rltb_spec 1 0) as [H|_]; [exfalso; lra|]. rewrite sqrt_1. cbn [xdiv].
  destruct (Reqb_spec 1 0) as [H|_]; [exfalso; lra|].
  cbn [sq nadd nmul nsqrt nopp natan2 XNum car xadd xmul xsqrt xopp xatan2].
  set (y := (0 / 1 * (0 / 1) + 1 / 1 * (1 / 1))%R).
  assert (Ey : y = 1%R) by (unfold y; field). rewrite Ey.
  destruct (Rltb_spec 1 0) as [H|_]; [exfalso; lra|]. rewrite sqrt_1.
  unfold jdiv. cbn [neqb nofZ XNum car xeqb ndiv xdiv].
  destruct (Reqb_spec 1 0) as [H|_]; [exfalso; lra|].
  cbn [bind natan XNum car xatan]. eexists _, _, _, _, _, _. split; [reflexivity|]. auto.
Qed.
Lemma toyQ_lyap acc oe : exists al be u psi q qd, lyap_call oQ pQ acc oe = Ok (al, be, u, psi, q, qd) /\
  nisnan (Num:=QNum) al = false /\ nisnan (Num:=QNum) be = false.
Proof. eexists _, _, _, _, _, _. split; [vm_compute; reflexivity|]. auto. Qed.

Lemma control_sim s s' pl pl' acc acc' : l_ab s' = None <-> l_ab s = None -> l_nnan s' = l_nnan s ->
  pl_duty pl' = pl_duty pl ->
  exists c c', control oQ pQ zQ zQ s pl acc = Ok (Ctl c) /\ control oX pX zX zX s' pl' acc' = Ok (Ctl c') /\
    c_thr c' = c_thr c /\ (c_ab c' = None <-> c_ab c = None) /\ c_nnan c' = c_nnan c.
Proof.
  intros Hab Hn Hd. unfold control. rewrite Hd.
  destruct (toyX_lyap_from acc' (l_oe s')) as (al' & be' & u' & psi' & q' & qd' & E' & A' & B').
  destruct (toyQ_lyap acc (l_oe s)) as (al & be & u & psi & q & qd & E & A & B).
  rewrite E, E'. cbn [bind]. destruct (pl_duty pl).
  - rewrite A', B', A, B. cbn [orb eta_now].
    assert (X : nltb (Num:=XNum) (nofZ (Num:=XNum) 0) (nofZ (Num:=XNum) 0) = false)
      by (cbn; apply Rltb_false; lra).
    rewrite X. cbn [orb]. eexists _, _. split; [reflexivity|]. split; [reflexivity|].
    cbn. repeat split; auto; discriminate.
  - eexists _, _. split; [reflexivity|]. split; [reflexivity|]. cbn. auto.
Qed.

Lemma rk4_const {N : Num} (c : car) (t h : car) (y : vec6 N) (P : Type) (pr : P) :
  exists y', rk4 (fun _ _ _ => Ok (v6of c)) t h y pr = Ok y'.
Proof. eexists. reflexivity. Qed.

Lemma xadd_nan x : xadd x NaN = NaN. Proof. destruct x; reflexivity. Qed.
Lemma xsub_nan x : xsub x NaN = NaN. Proof. destruct x; reflexivity. Qed.
Lemma xsub_nanl x : xsub NaN x = NaN. Proof. destruct x; reflexivity. Qed.
Lemma xmul_nan x : xmul x NaN = NaN. Proof. destruct x; reflexivity. Qed.
Lemma rkf45_nanX (t h : ereal) (y : vec6 XNum) (P : Type) (pr : P) tol :
  exists y' hn, rkf45 (N:=XNum) (fun _ _ _ => Ok (v6of (N:=XNum) NaN)) t h y pr tol = Ok (y', hn) /\ hn = NaN.
Proof.
  destruct y as [y0 y1 y2 y3 y4 y5]. unfold rkf45, v6of.
  cbn [bind v6scal v6add v6sub norm6 nadd nsub nmul nsqrt nopp XNum car].
  rewrite !xmul_nan, !xadd_nan. cbn [xadd]. rewrite !xsub_nan, ?xsub_nanl. cbn [xadd xmul xsub xsqrt xopp].
  unfold jdiv. cbn [neqb nofZ XNum car xeqb ndiv].
  assert (E : xdiv tol NaN = NaN) by (destruct tol; reflexivity).
  rewrite E. cbn [bind]. eexists _, _. split; [reflexivity|].
  cbn [npow XNum car xpow nmul]. apply xmul_nan.
Qed.
Lemma rkf45_nanQ (t h : option Q) (y : vec6 QNum) (P : Type) (pr : P) tol :
  exists y' hn, rkf45 (N:=QNum) (fun _ _ _ => Ok (v6of (N:=QNum) None)) t h y pr tol = Ok (y', hn) /\ hn = None.
Proof.
  assert (A : forall x, qlift2 Qplus x None = None) by (intros []; reflexivity).
  assert (B : forall x, qlift2 Qminus x None = None) by (intros []; reflexivity).
  assert (M : forall x, qlift2 Qmult x None = None) by (intros []; reflexivity).
  destruct y as [y0 y1 y2 y3 y4 y5]. unfold rkf45, v6of.
  cbn [bind v6scal v6add v6sub norm6 nadd nsub nmul nsqrt nopp QNum car].
  rewrite !M, !A, !B. cbn [qlift2].
  eexists _, _. split; [reflexivity|]. cbn. apply M.
Qed.

Section Thresholds.
(** thresholds for which the two control parts agree on the throttle *)
Variables (eaQ erQ : eta_arg QNum) (eaX erX : eta_arg XNum).
Hypothesis HeaX : eaX <> EtaOther (N:=XNum).
Hypothesis Hctl : forall s s' (pl : plan_t QNum) (pl' : plan_t XNum), sim s s' -> pl_dt pl' = emb (pl_dt pl) -> pl_duty pl' = pl_duty pl ->
  exists c c', control oQ pQ eaQ erQ s pl (accel_thrust pQ (pl_dt pl) (l_mass s)) = Ok (Ctl c) /\
    control oX pX eaX erX s' pl' (accel_thrust pX (pl_dt pl') (l_mass s')) = Ok (Ctl c') /\
    c_thr c' = c_thr c /\ (c_ab c' = None <-> c_ab c = None) /\ c_nnan c' = c_nnan c.

Lemma step_sim s s' : sim s s' -> simo (step oQ pQ eaQ erQ s) (step oX pX eaX erX s').
Proof.
  intros M. unfold step.
  assert (SQ : safety oQ s = s) by reflexivity. assert (SX : safety oX s' = s') by reflexivity.
  rewrite SQ, SX. cbv zeta.
  destruct (plan_sim s s' M) as (pl & pl' & -> & -> & D1 & D2 & D3 & D4 & D5).
  destruct (Hctl s s' pl pl' M D1 D2) as (c & c' & -> & -> & T1 & T2 & T3).
  destruct M as [M1 M2 M3 M4 M5 M6 M7 M8 M9 M10 [N1 N2 N3 N4]].
  change (perturbation oQ s) with (Ok (v3zero (N:=QNum))). change (perturbation oX s') with (Ok (v3zero (N:=XNum))).
  cbv iota beta.
  assert (P : exists oe oe' t m dtb, propagate oQ pQ s pl c v3zero = Ok (oe, t, m, dtb) /\
    propagate oX pX s' pl' c' v3zero = Ok (oe', emb t, emb m, emb dtb)).
  { unfold propagate. rewrite D1, M1, M2, T1. change (p_mdot pX) with (emb (p_mdot pQ)).
    rewrite <- emb_add, <- emb_mul, <- emb_sub, emb_if.
    change (q_integ oQ) with ig. change (q_integ oX) with ig. destruct ig.
    - change (q_eom (toyQ RK4 a)) with (fun (_ : option Q) (_ : vec6 QNum) (_ : ode_params QNum) => Ok (v6of (N:=QNum) (nofZ (Num:=QNum) 1))).
      change (q_eom (toyX_from RK4 oe0 a)) with (fun (_ : ereal) (_ : vec6 XNum) (_ : ode_params XNum) => Ok (v6of (N:=XNum) (nofZ (Num:=XNum) 1))).
      edestruct (@rk4_const QNum) as [yq Eq]. edestruct (@rk4_const XNum) as [yx Ex].
      rewrite Eq, Ex. cbn [bind]. eauto 10.
    - change (q_eom (toyQ RKF45 a)) with (fun (_ : option Q) (_ : vec6 QNum) (_ : ode_params QNum) => Ok (v6of (N:=QNum) None)).
      change (q_eom (toyX_from RKF45 oe0 a)) with (fun (_ : ereal) (_ : vec6 XNum) (_ : ode_params XNum) => Ok (v6of (N:=XNum) NaN)).
      edestruct rkf45_nanQ as (yq & hq & Eq & ->). edestruct rkf45_nanX as (yx & hx & Ex & ->).
      rewrite Eq, Ex. cbn [bind]. eexists _, _, _, _, _. split; [reflexivity|].
      f_equal. f_equal. change (q_step_max (toyX_from RKF45 oe0 a)) with (nofZ (Num:=XNum) 2).
      change (q_step_min (toyX_from RKF45 oe0 a)) with (dec (N:=XNum) 1 4). rewrite emb_dec, emb_Z.
      change NaN with (emb None). unfold pymax, pymin. rewrite emb_ltb, emb_if, emb_ltb, emb_if. reflexivity. }
  destruct P as (oe & oe' & t & m & dtb & -> & ->).
  assert (B : battery_update pX (l_batt s') (emb dtb) (pl_duty pl') (pl_chg pl') =
     let '(x, y) := battery_update pQ (l_batt s) dtb (pl_duty pl) (pl_chg pl) in (emb x, y)).
  { unfold battery_update. rewrite M3, D2, D5.
    change (p_cap_lo pX) with (emb (p_cap_lo pQ)). change (p_cap_hi pX) with (emb (p_cap_hi pQ)).
    change (p_charge pX) with (emb (p_charge pQ)). change (p_discharge pX) with (emb (p_discharge pQ)).
    rewrite <- !emb_mul, <- emb_add, <- emb_sub, !emb_clip. destruct (pl_duty pl); [reflexivity|].
    cbv zeta. rewrite emb_eqb. reflexivity. }
  rewrite B. destruct (battery_update pQ (l_batt s) dtb (pl_duty pl) (pl_chg pl)) as [b' chg'].
  destruct (c_ab c) as [[al be]|] eqn:Eab, (c_ab c') as [[al' be']|] eqn:Eab'.
  - unfold exit_check. cbn [q_check toyQ toyX_from toy withp with_run l_mass with_nrel].
    change (p_mass_min pX) with (emb (p_mass_min pQ)). rewrite emb_leb.
    assert (S : forall n n' : Z, n = n' -> sim
      (with_nrel (mkls t oe m b' (l_nrel s) (c_nnan c) (pl_duty pl) (pl_ton pl) (pl_toff pl) chg' (Some (al, be))
         (push6 (push3 (l_hist s) t oe m) al be c b')) n)
      (with_nrel (mkls (N:=XNum) (emb t) oe' (emb m) (emb b') (l_nrel s') (c_nnan c') (pl_duty pl') (pl_ton pl') (pl_toff pl') chg' (Some (al', be'))
         (push6 (push3 (l_hist s') (emb t) oe' (emb m)) al' be' c' (emb b'))) n')).
    { intros n n' <-. constructor; simpl; auto; try (split; discriminate).
      constructor; simpl; rewrite ?map_app; simpl; [rewrite N1; reflexivity|rewrite N2; reflexivity|rewrite N3; reflexivity|].
      apply f_equal2; [exact N4|]. apply f_equal2; [exact T1|reflexivity]. }
    cbn [andb]. destruct (nleb (Num:=QNum) m _); constructor; apply S; simpl; auto.
  - destruct T2 as [T2 _]. specialize (T2 eq_refl). discriminate.
  - destruct T2 as [_ T2]. specialize (T2 eq_refl). discriminate.
  - constructor.
Qed.

Lemma guard_sim s s' : sim s s' -> guard pX s' = guard pQ s.
Proof.
  intros M. unfold guard. rewrite (sh_t _ _ (si_h _ _ M)).
  change (p_tf_max pX) with (emb (p_tf_max pQ)). rewrite emb_Z.
  assert (L : forall l d, last (map emb l) (emb d) = emb (last l d)).
  { induction l as [|x [|y l] IH]; intros; auto. cbn [map last] in *. apply IH. }
  rewrite L, <- !emb_abs, emb_ltb. reflexivity.
Qed.

Lemma loop_sim n : forall s s', sim s s' ->
  match loop n oQ pQ eaQ erQ s, loop n oX pX eaX erX s' with
  | LEnd x, LEnd y => sim x y
  | LStop c v x, LStop c' v' y => c' = c /\ v' = v /\ sim x y
  | LFail e _, LFail e' _ => e' = e
  | LFuel _, LFuel _ => True
  | _, _ => False
  end.
Proof.
  induction n as [|n IH]; intros s s' M.
  - cbn [loop]. rewrite (guard_sim s s' M). destruct (guard pQ s); [exact I|exact M].
  - cbn [loop]. rewrite (guard_sim s s' M). destruct (guard pQ s); [|exact M].
    pose proof (step_sim s s' M) as S. destruct S as [x y S|c v x y S|e x y]; [apply IH; exact S| |]; auto.
Qed.

Lemma init_sim : sim (init_state pQ) (init_state pX).
Proof.
  assert (Z0 : Fin 0 = Fin (Q2R (inject_Z 0))) by (f_equal; symmetry; exact RMicromega.Q2R_0).
  constructor; try exact Z0; try reflexivity; try tauto.
  constructor; try reflexivity. cbn. rewrite <- Z0. reflexivity.
Qed.

(** A run over the rationals gives one over the extended reals. *)
Lemma toy_transfer_with n o1 h1 : ran n oQ eaQ erQ pQ o1 h1 ->
  exists o2 h2, ran n oX eaX erX pX o2 h2 /\ simh h1 h2 /\ q_exitcode o2 = q_exitcode o1.
Proof.
  intros (S & _ & Hh). unfold solve in S.
  change (q_problem oQ) with (Some pQ) in S. cbv iota beta in S.
  assert (S' : (match loop n oQ pQ eaQ erQ (init_state pQ) with
      | LEnd s => Returns (finish oQ pQ (l_hist s) (q_converge oQ) (q_exitcode oQ))
      | LStop code conv s => Returns (finish oQ pQ (l_hist s) (conv || q_converge oQ) code)
      | LFail e s => Raises e (with_run oQ (Some (with_oe0 pQ (l_hist s))) (Some (l_hist s)) (q_converge oQ) (q_exitcode oQ))
      | LFuel _ => Running end) = Returns o1) by (destruct eaQ; [exact S|exact S|discriminate]). clear S. rename S' into S.
  pose proof (loop_sim n _ _ init_sim) as L.
  assert (E : solve n oX eaX erX = match loop n oX pX eaX erX (init_state pX) with
      | LEnd s => Returns (finish oX pX (l_hist s) (q_converge oX) (q_exitcode oX))
      | LStop code conv s => Returns (finish oX pX (l_hist s) (conv || q_converge oX) code)
      | LFail e s => Raises e (with_run oX (Some (with_oe0 pX (l_hist s))) (Some (l_hist s)) (q_converge oX) (q_exitcode oX))
      | LFuel _ => Running end).
  { unfold solve. change (q_problem oX) with (Some pX). cbv iota beta. destruct eaX; [reflexivity|reflexivity|contradiction]. }
  destruct (loop n oQ pQ eaQ erQ (init_state pQ)) as [x|c v x|e x|x]; try discriminate;
    destruct (loop n oX pX eaX erX (init_state pX)) as [y|c' v' y|e' y|y]; try contradiction.
  - injection S as <-. injection Hh as <-. eexists _, _. split; [split; [exact E|split; reflexivity]|].
    split; [exact (si_h _ _ L)|reflexivity].
  - destruct L as (-> & -> & L). injection S as <-. injection Hh as <-. eexists _, _.
    split; [split; [exact E|split; reflexivity]|]. split; [exact (si_h _ _ L)|reflexivity].
Qed.
End Thresholds.
Lemma toy_transfer_from n o1 h1 : ran n oQ zQ zQ pQ o1 h1 ->
  exists o2 h2, ran n oX zX zX pX o2 h2 /\ simh h1 h2 /\ q_exitcode o2 = q_exitcode o1.
Proof.
  apply toy_transfer_with; [discriminate|]. intros s s' pl pl' M _ D. apply control_sim; [exact (si_ab _ _ M)|exact (si_nnan _ _ M)|exact D].
Qed.
End S.

Lemma toyX_lyap ig a acc oe : exists al be u psi q qd, lyap_call (toyX ig a) (probX a) acc oe = Ok (al, be, u, psi, q, qd) /\
  nisnan (Num:=XNum) al = false /\ nisnan (Num:=XNum) be = false.
Proof. exact (toyX_lyap_from ig _ a acc oe). Qed.
Lemma toy_transfer ig a : ~ (b_dis a == 0)%Q -> forall n o1 h1,
  ran n (toyQ ig a) (EtaFloat (N:=QNum) (nofZ (Num:=QNum) 0)) (EtaFloat (N:=QNum) (nofZ (Num:=QNum) 0)) (probQ a) o1 h1 ->
  exists o2 h2, ran n (toyX ig a) (EtaFloat (N:=XNum) (nofZ (Num:=XNum) 0)) (EtaFloat (N:=XNum) (nofZ (Num:=XNum) 0)) (probX a) o2 h2 /\
    simh h1 h2 /\ q_exitcode o2 = q_exitcode o1.
Proof. intros H. exact (toy_transfer_from ig _ a H). Qed.
