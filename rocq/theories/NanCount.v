(** No more nan answers than the threshold allows in steps free to thrust. *)
From Coq Require Import Reals ZArith List Bool Lia Lra.
From Verif Require Import RMath Num Base Elements Integrate Eom Convergence Lyapunov Perturb Qlaw Trace
  Spec XSpec SolveProofs ExitProofs GateProofs XTrace XProofs XSolve RunSpec RunProofs XReason.
Import ListNotations.
Local Open Scope R_scope.

(** all rows of an ended run *)
Lemma ended_nan {N : Num} (o : qlaw N) p ea er gs oel code conv : ended o p ea er gs oel code conv -> (0 <= q_nan_thr o)%Z ->
  exists ks, nan_count o p gs ks /\ (Z.of_nat (length ks) <= q_nan_thr o)%Z.
Proof.
  intros E P. destruct E as [gs s Htr Hg|gs s g code conv s' Htr Hg Hit Hex|gs s pl Htr Hg H1 H2];
    destruct (tr_nan o p ea er _ _ Htr) as (ks & K & L & B); [exists ks; split; [exact K|lia]| |exists ks; split; [exact K|lia]].
  destruct (iter_nan o p ea er _ _ Hit) as [(R & Hc & Hle)|(Hc & R)].
  - exists (ks ++ [length gs]). split; [constructor; auto|]. rewrite app_length. cbn [length]. lia.
  - exists ks. split; [apply nc_no; auto|lia].
Qed.

Section W.
Variables (o : qlaw XNum) (p : problem XNum) (ea er : eta_arg XNum) (a : params).
Hypothesis Hreg : regular o p a.

Lemma free_row fuel o' h : ran fuel o ea er p o' h -> 0 <= a_on a -> 0 <= a_off a ->
  exists gs oel code conv, ended o p ea er gs oel code conv /\ h = mkh p gs oel /\
  forall k, throttle h k 0 -> ~ depleted a h k -> ~ recharging a h k -> ~ resting o p ea er a h k ->
  exists g sk, nth_error gs k = Some g /\ row_facts o p ea er h k sk g /\ pl_duty (g_pl g) = true /\ exists t t', entry (h_times h) k t /\ entry (h_times h) (S k) t'.
Proof.
  intros Hr Hon Hoff. destruct Hreg as (Hf & Hs & smin & smax & H1 & H2 & H3).
  destruct (ran_reals_gs o p ea er a smin smax Hf Hs) with (fuel := fuel) (o' := o') (h := h)
    as (gs & oel & code & conv & rs & st & He & Eh & C & F); auto.
  { intros _. split; [auto|]. split; [auto|lra]. }
  exists gs, oel, code, conv. split; [exact He|]. split; [exact Eh|]. intros k Hk Nd Nr Ns.
  assert (RR : run_reals o a smin smax h rs st) by (subst h; apply mkh_reals; auto).
  pose proof (run_entry o a h smin smax rs st RR) as EN.
  assert (Hlg : length gs = length rs) by (clear - F; induction F; simpl; congruence).
  assert (Row : forall j r, nth_error rs j = Some r -> exists g sk, nth_error gs j = Some g /\ row_match g r /\
     row_facts o p ea er h j sk g).
  { intros j r Hj. assert (Hl : (j < length rs)%nat) by (apply nth_error_Some; congruence).
    destruct (nth_error gs j) as [g|] eqn:Hg; [|apply nth_error_None in Hg; lia].
    destruct (ended_facts o p ea er _ _ _ _ He j g Hg) as (sk & _ & RF). exists g, sk.
    split; [reflexivity|]. split; [|subst h; exact RF].
    clear - F Hj Hg. revert j Hj Hg. induction F as [|x y gs rs M F IH]; intros [|j] Hj Hg; try discriminate; simpl in *.
    - congruence.
    - eapply IH; eauto. }
  assert (Thr : forall j r, nth_error rs j = Some r -> throttle h j (if r_thr r then 1 else 0)).
  { intros j r Hj. unfold throttle. rewrite (rn_thr _ _ _ _ _ _ _ RR), nth_error_map, Hj. reflexivity. }
  assert (On : forall j r, nth_error rs j = Some r -> r_duty r = true ->
     throttle h j 1 \/ throttle h j 0 /\ law_coasts o p ea er h j).
  { intros j r Hj Hd. pose proof (Thr j r Hj) as T. destruct (r_thr r) eqn:Et; [left; exact T|right].
    split; [exact T|]. destruct (Row j r Hj) as (g & sk & _ & RM & RF). eapply ctl_coast; [exact RF| |].
    - rewrite (rm_duty _ _ RM). exact Hd.
    - rewrite (rm_thr _ _ RM), Et. reflexivity. }
  assert (Off : forall j r, nth_error rs j = Some r -> r_duty r = false -> throttle h j 0).
  { intros j r Hj Hd. pose proof (Thr j r Hj) as T. destruct (r_thr r) eqn:Et; [|exact T].
    pose proof (ro_thr _ _ _ _ _ _ (chain_row _ _ _ _ _ _ C _ _ Hj) Et). congruence. }
  assert (Dep : forall j, (j <= length rs)%nat -> s_b (st_at a rs j) <= a_lo a + 1 / 10 ^ 12 -> depleted a h j).
  { intros j Hj X. exists (s_b (st_at a rs j)). split; [apply EN; exact Hj|exact X]. }
  assert (Hkl : (k < length rs)%nat).
  { rewrite <- (run_len o a h smin smax rs st RR), <- (map_length snd). apply nth_error_Some. unfold throttle in Hk. congruence. }
  destruct (nth_error rs k) as [r|] eqn:Hrk; [|apply nth_error_None in Hrk; lia].
  destruct (Row k r Hrk) as (g & sk & Hg & RM & RF). exists g, sk. split; [exact Hg|]. split; [exact RF|].
  split; [rewrite (rm_duty _ _ RM)|exists (s_t (st_at a rs k)), (s_t (st_at a rs (S k))); split; apply EN; lia].
  destruct (r_duty r) eqn:Hd; [reflexivity|exfalso].
  destruct (off_row a _ smin smax rs st C Hon Hoff k r Hrk Hd) as [X|[(X1 & i & I1 & I2 & I3)|(b & B1 & B2 & B3 & B4)]].
  - apply Nd. apply Dep; [lia|exact X].
  - apply Nr. split; [exact X1|]. exists i. split; [exact I1|]. split; [apply Dep; [lia|exact I2]|].
    intros j Hj. exists (s_b (st_at a rs j)). split; [apply EN; lia|apply I3; exact Hj].
  - apply Ns. exists b, (s_t (st_at a rs b)), (s_t (st_at a rs k)). split; [exact B1|].
    split; [apply EN; lia|]. split; [apply EN; lia|]. split; [exact B2|].
    split. { intros j Hj. destruct (B4 j Hj) as (r0 & R1 & R2). eapply Off; eauto. }
    destruct B3 as [X|(i & I1 & I2 & I3)]; [left; apply Dep; [lia|exact X]|].
    right. exists i, (s_t (st_at a rs i)). split; [exact I1|]. split; [apply EN; lia|]. split; [exact I2|].
    intros j Hj. destruct (I3 j Hj) as (r0 & R1 & R2). eapply On; eauto.
Qed.

Lemma C06_more_lem fuel o' h ks : ran fuel o ea er p o' h -> 0 <= a_on a -> 0 <= a_off a -> (0 <= q_nan_thr o)%Z -> NoDup ks ->
  (forall k, In k ks -> throttle h k 0 /\ ~ depleted a h k /\ ~ recharging a h k /\ ~ resting o p ea er a h k /\
    exists t dt m oe, nth_error (h_times h) k = Some t /\ nth_error (h_times h) (S k) = Some (nadd (Num:=XNum) t dt) /\
      nth_error (h_masses h) k = Some m /\ nth_error (h_states h) k = Some oe /\ nan_at o p (thrust_acc p dt m) oe) ->
  (Z.of_nat (length ks) <= q_nan_thr o)%Z.
Proof.
  intros Hr Hon Hoff Hthr ND K. destruct (free_row _ _ _ Hr Hon Hoff) as (gs & oel & code & conv & He & Eh & Row).
  destruct (ended_nan o p ea er _ _ _ _ He Hthr) as (ks0 & C & L). destruct (nan_count_spec o p _ _ C) as (_ & _ & Sp).
  apply Z.le_trans with (2 := L). apply inj_le. apply NoDup_incl_length; [exact ND|]. intros k Hk.
  destruct (K k Hk) as (T & D1 & D2 & D3 & t & dt & m & oe & E1 & E2 & E3 & E4 & Hn).
  destruct (in_dec Nat.eq_dec k ks0) as [i|n]; [exact i|exfalso].
  destruct (Row k T D1 D2 D3) as (g & sk & Hg & RF & Hd & t0 & t1 & F0 & F1).
  destruct (Sp k g Hg n Hd) as (al & be & u & psi & q & qd & HL & Hnan).
  pose proof (rf_iter _ _ _ _ _ _ _ _ RF) as I. destruct (iter_sfields _ _ _ _ _ _ I) as (S1 & S2 & S3 & _).
  rewrite (rf_t _ _ _ _ _ _ _ _ RF) in E1. injection E1 as <-. rewrite (rf_m _ _ _ _ _ _ _ _ RF) in E3. injection E3 as <-.
  rewrite (rf_oe _ _ _ _ _ _ _ _ RF) in E4. injection E4 as <-.
  rewrite (rf_t' _ _ _ _ _ _ _ _ RF), (iter_t _ _ _ _ _ _ I) in E2. injection E2 as E2.
  assert (G0 := eq_trans (eq_sym (rf_t _ _ _ _ _ _ _ _ RF)) F0). assert (G1 := eq_trans (eq_sym (rf_t' _ _ _ _ _ _ _ _ RF)) F1).
  rewrite (iter_t _ _ _ _ _ _ I) in G1. clear F0 F1. injection G0 as F0. injection G1 as F1. cbn [nadd XNum car] in E2, F1. rewrite F0 in E2, F1.
  assert (Ed : dt = pl_dt (g_pl g)).
  { rewrite F1 in E2. destruct dt, (pl_dt (g_pl g)); cbn in E2, F1; try discriminate. injection F1 as F1. injection E2 as E2. f_equal. lra. }
  destruct Hn as (al' & be' & u' & psi' & q' & qd' & HL' & Hnan'). unfold lyap_call, accel_thrust in HL. unfold thrust_acc in HL'. rewrite Ed in HL'. rewrite S2 in HL.
  rewrite HL in HL'. injection HL' as <- <- _ _ _ _. congruence.
Qed.
End W.
