(** The state of EffRuns.v computed with floats. *)
From Coq Require Import Reals Lra Lia ZArith List Bool Psatz.
From Verif Require Import RMath RLib DLib Num Base Elements Integrate Eom Convergence Lyapunov Symbolic SymKep SymMee Perturb Qlaw Spec RSpec LawSpec MaxSpec EffSpec
  ElemProofs DiffProofs CtlProofs LawProofs GaussProofs LawRuns EffProofs EffRuns ScaleSpec FinSpec FinProofs WeightSpec WeightSolve NanRun.
Import ListNotations.
Local Open Scope R_scope.

Definition o_fin : qlaw XNum :=
  @mkqlaw XNum (Fin 1) (Fin 1) (Fin 1) (Fin 3) (Fin 4) (Fin 2) (Fin (1 / 100)) (Fin 0) MeeWithA RK4 2
    (@mk5 XNum (Fin (1 / 1000)) (Fin (1 / 1000)) (Fin (1 / 1000)) (Fin (1 / 1000)) (Fin (1 / 1000))) (@mk5 XNum (Fin (1 / 100)) (Fin (1 / 100)) (Fin (1 / 100)) (Fin (1 / 100)) (Fin (1 / 100))) 200%Z
    (default_oe_min (N:=XNum) MeeWithA) (default_oe_max (N:=XNum) MeeWithA) 10%Z
    (eom_of (N:=XNum) MeeWithA) (lyap_of_etype (N:=XNum) MeeWithA) (dqdt_of_etype (N:=XNum) MeeWithA) (check_of (N:=XNum) MeeWithA)
    (dec (N:=XNum) 1 4) (Fin 2) (dec (N:=XNum) 1 5) false None None None false 0%Z.
Definition p_fin : problem XNum :=
  @mkproblem XNum (fin6 oe_eff) (map Fin (list5 T_eff)) (Fin 1) (Fin 1) (Fin 0) (Fin 10) (Fin 1) (Fin (1 / 10)) (fin5 (@mk5 RNum 0 1 0 0 0)) (Fin 100) (Fin 0) (Fin 1) (Fin 0) (Fin 1) (Fin 0) (Fin 0) false.
Definition s_fin : lstate XNum := init_state (N:=XNum) p_fin.
Definition pl_fin : plan_t XNum := @mkplan XNum (Fin 1) true (Fin 0) (Fin 0) false.
Definition eta (x : R) : eta_arg XNum := EtaFloat (N:=XNum) (Fin x).

Lemma o_fin_built : built MeeWithA o_fin.
Proof. repeat split; reflexivity. Qed.
Lemma fin_holds : holds o_fin p_fin (Fin 1) (lw 1).
Proof. repeat split; reflexivity. Qed.
Lemma fin_out_eff : exists out, ask (lyap_of_etype (N:=RNum) MeeWithA) (lw 1) oe_eff = Ok out /\ lo_u out = vec 0 (- (3 / 4) / sqrt (3 / 4)) 0.
Proof.
  pose proof (eff_far 1 one_one) as F. change PI with (v6_5 oe_eff) in F. rewrite here in F.
  destruct (C90_law_lem MeeWithA (lw 1) oe_eff (eff_regular 1 one_one)) as (out & E & _). rewrite E in F. exists out. auto.
Qed.
Lemma s34 : 0 < sqrt (3 / 4). Proof. apply sqrt_lt_R0. lra. Qed.
Lemma far_norm : norm (vec 0 (- (3 / 4) / sqrt (3 / 4)) 0) = 3 / 4 / sqrt (3 / 4).
Proof. rewrite norm_axis. pose proof s34. replace (- (3 / 4) / sqrt (3 / 4)) with (- (3 / 4 / sqrt (3 / 4))) by (field; lra). rewrite Rabs_Ropp, Rabs_pos_eq; [reflexivity|]. apply Rlt_le, Rdiv_lt_0_compat; lra. Qed.
Lemma far_ne : v3_0 (vec 0 (- (3 / 4) / sqrt (3 / 4)) 0) <> 0 \/ v3_1 (vec 0 (- (3 / 4) / sqrt (3 / 4)) 0) <> 0.
Proof. right. pose proof s34. cbn. apply Rlt_not_eq. unfold Rdiv. assert (0 < / sqrt (3 / 4)) by (apply Rinv_0_lt_compat; lra). nra. Qed.

Lemma C90_on_case : exists c, control o_fin p_fin (eta 0) (eta 0) s_fin pl_fin (Fin 1) = Ok (Ctl c) /\ c_thr c = 1%Z /\ c_nnan c = 0%Z /\
  c_u c = @mk3 XNum (Fin 0) (Fin 1) (Fin 0).
Proof.
  destruct fin_out_eff as (out & E & U).
  destruct (C90_on_lem MeeWithA o_fin p_fin (Fin 1) (lw 1) oe_eff out (eta 0) (eta 0) s_fin pl_fin eq_refl fin_holds (eff_regular 1 one_one) E) as (c & E1 & (al & be & _ & _ & _ & _ & N) & T & Uc).
  - rewrite U. exact far_ne.
  - reflexivity.
  - reflexivity.
  - cbn. apply Rltb_false. lra.
  - cbn. apply Rltb_false. lra.
  - exists c. split; [exact E1|]. split; [exact T|]. split; [exact N|]. rewrite Uc, U, far_norm. pose proof s34. change (g_f (lw 1)) with 1. unfold scale, vec, fin3. cbn.
    f_equal; f_equal; field; lra.
Qed.
Lemma C90_eta_case : exists c, control o_fin p_fin (eta (1 / 10)) (eta (1 / 10)) s_fin pl_fin (Fin 1) = Ok (Ctl c) /\ c_etas c = (Fin 1, Fin 1) /\ c_thr c = 1%Z.
Proof.
  destruct fin_out_eff as (out & E & U).
  destruct (C90_eta_lem MeeWithA o_fin p_fin (Fin 1) (lw 1) oe_eff out (eta (1 / 10)) (eta (1 / 10)) s_fin pl_fin (1 / 10) (1 / 10) eq_refl eq_refl fin_holds (eff_regular 1 one_one)) as (c & M & m & E1 & _ & GM & Gm & H & _).
  - apply Nat.lt_0_succ.
  - exact (eff_nonzero 1 one_one).
  - exact E.
  - rewrite U. exact far_ne.
  - reflexivity.
  - reflexivity.
  - reflexivity.
  - reflexivity.
  - left. lra.
  - exists c. split; [exact E1|]. rewrite U in H.
    pose proof (eff_speeds 1 one_one) as SP. unfold speed in SP. change (g_f (lw 1)) with 1 in SP. rewrite Rabs_pos_eq in SP by lra.
    change (q_grid o_fin) with 2%nat in *. change (g_f (lw 1)) with 1 in H.
    assert (R2 : rate MeeWithA (lw 1) oe_eff 2 2 = 1 * norm (vec 0 (- (3 / 4) / sqrt (3 / 4)) 0)) by (unfold rate; rewrite (eff_at2 1 one_one); reflexivity).
    change (rate MeeWithA (lw 1) oe_eff 2 1 < rate MeeWithA (lw 1) oe_eff 2 2) in SP.
    assert (KM : M = rate MeeWithA (lw 1) oe_eff 2 2).
    { destruct GM as [(k & Hk & Ek) GM]. specialize (GM 2%nat ltac:(lia)). assert (k = 1 \/ k = 2)%nat as [->| ->] by lia; lra. }
    assert (Km : m = rate MeeWithA (lw 1) oe_eff 2 1).
    { destruct Gm as [(k & Hk & Ek) Gm]. specialize (Gm 1%nat ltac:(lia)). assert (k = 1 \/ k = 2)%nat as [->| ->] by lia; lra. }
    assert (P2 : 0 < rate MeeWithA (lw 1) oe_eff 2 2).
    { rewrite R2, far_norm. pose proof s34. apply Rmult_lt_0_compat; [lra|]. apply Rdiv_lt_0_compat; lra. }
    rewrite <- R2 in H. destruct H as [H1 H2]; [lra|]. rewrite <- KM in *. rewrite <- Km in *.
    replace (M / M) with 1 in * by (field; lra). replace ((M - m) / (M - m)) with 1 in * by (field; lra). rewrite Rabs_R1 in *.
    split; [exact H1|]. rewrite H2. destruct (Rlt_dec 1 (1 / 10)); [lra|reflexivity].
Qed.
Lemma C89_case : exists c c', control o_fin p_fin (eta 0) (eta 0) s_fin pl_fin (Fin 1) = Ok (Ctl c) /\
  control (qlaw_heavier 3 o_fin) p_fin (eta 0) (eta 0) s_fin pl_fin (xscale 2 (Fin 1)) = Ok (Ctl c') /\
  c_thr c' = 1%Z /\ c_u c = @mk3 XNum (Fin 0) (Fin 1) (Fin 0) /\ c_u c' = @mk3 XNum (Fin 0) (Fin 2) (Fin 0) /\ c_ab c' = c_ab c.
Proof.
  destruct C90_on_case as (c & E & T & N & U). exists c.
  destruct (C89_lem 2 3 ltac:(lra) ltac:(lra) MeeWithA o_fin o_fin_built p_fin (eta 0) (eta 0) s_fin pl_fin (Fin 1)) as [S K].
  rewrite E in *. destruct (control (qlaw_heavier 3 o_fin) p_fin (eta 0) (eta 0) s_fin pl_fin (xscale 2 (Fin 1))) as [[c'|]|]; cbn in S; try contradiction.
  exists c'. destruct S as (S1 & S2 & _). split; [reflexivity|]. split; [reflexivity|]. split; [congruence|]. split; [exact U|]. split; [|exact S1].
  destruct (K c c' eq_refl eq_refl) as (K1 & _). rewrite K1, U. cbn. f_equal; f_equal; ring.
Qed.
Lemma C90_steerable_case : steerable MeeWithA o_fin p_fin (Fin 1) (fin6 oe_eff).
Proof.
  destruct fin_out_eff as (out & E & U). exists (lw 1), oe_eff, out. split; [exact fin_holds|]. split; [reflexivity|]. split; [exact (eff_regular 1 one_one)|].
  split; [exact E|]. rewrite U. exact far_ne.
Qed.
Lemma tenth_pos : 0 < 1 / 10.
Proof. lra. Qed.
Lemma C90_nan_case : let z := EtaFloat (N:=XNum) (Fin 0) in built Keplerian o_low /\ fresh o_low /\ exists o' h, ran 11 o_low z z p_low o' h /\ q_exitcode o' = (-3)%Z.
Proof.
  intros z. destruct C82_case as (F & B & P & RM & Q). pose proof F as (Bo & _). split; [exact Bo|]. split; [split; reflexivity|].
  destruct (C82_lem o_low p_low z z a_low F B P RM Q ltac:(discriminate) 11%nat ltac:(cbn; lia)) as (o' & h & R & X & _).
  exists o', h. split; assumption.
Qed.
