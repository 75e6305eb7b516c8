(** In double precision the recorded times and masses are functions of the step, the mass flow and the throttle history. *)
From Coq Require Import Lia ZArith List Bool Floats.SpecFloat.
From Verif Require Import Num Base Elements Perturb Qlaw Trace Spec XSpec SolveProofs ExitProofs GateProofs
  Float64 FloatSpec FloatProofs FloatMono FloatRun FloatDuty FloatMirror.
Import ListNotations.

Section Runs.
Variable L : libm.
Notation FN := (FNum L).

Lemma row_vals (o : qlaw FN) (p : problem FN) (ea er : eta_arg FN) fuel (o' : qlaw FN) (h : hist FN) k : forward64 o p -> ~ flt f0 (p_discharge p) ->
  ran fuel o ea er p o' h -> (k < length (h_controls h))%nat ->
  exists t m (thr : Z), nth_error (h_times h) k = Some t /\ nth_error (h_times h) (S k) = Some (nadd (Num:=FN) t (p_t_step p)) /\
    nth_error (h_masses h) k = Some m /\ throttle h k thr /\
    nth_error (h_masses h) (S k) = Some (if Z.eqb thr 1 then nsub (Num:=FN) m (nmul (Num:=FN) (p_mdot p) (p_t_step p)) else m).
Proof.
  intros F Nd R Hk. destruct (row_of L o p ea er _ _ _ k R Hk) as (gs & sk & g & T & Lk & RF).
  pose proof (rf_iter _ _ _ _ _ _ _ _ RF) as Hit. destruct (tr_ok L o p ea er _ _ F T) as [Bo To].
  destruct (iter_vals L o p ea er sk g Hit) as (Eg & Em & _). rewrite (full_step L o p ea er sk g F Nd Bo Hit) in Eg, Em.
  exists (l_t sk), (l_mass sk), (c_thr (g_c g)). split; [exact (rf_t _ _ _ _ _ _ _ _ RF)|]. split; [rewrite (rf_t' _ _ _ _ _ _ _ _ RF), Eg; reflexivity|].
  split; [exact (rf_m _ _ _ _ _ _ _ _ RF)|]. split; [|rewrite (rf_m' _ _ _ _ _ _ _ _ RF), Em; reflexivity].
  unfold throttle. rewrite nth_error_map, (rf_c _ _ _ _ _ _ _ _ RF). reflexivity.
Qed.

Variables (o o2 : qlaw FN) (p p2 : problem FN) (ea er ea2 er2 : eta_arg FN).
Hypotheses (F : forward64 o p) (Nd : ~ flt f0 (p_discharge p)) (F2 : forward64 o2 p2) (Nd2 : ~ flt f0 (p_discharge p2)) (Et : p_t_step p2 = p_t_step p).

Lemma C124_times_lem fuel fuel2 (o' o2' : qlaw FN) (h h2 : hist FN) k t t2 : ran fuel o ea er p o' h -> ran fuel2 o2 ea2 er2 p2 o2' h2 ->
  nth_error (h_times h) k = Some t -> nth_error (h_times h2) k = Some t2 -> t2 = t.
Proof.
  intros R R2. revert t t2. induction k as [|k IH]; intros t t2 E E2.
  - rewrite (times_first L _ _ _ _ _ _ _ R) in E. rewrite (times_first L _ _ _ _ _ _ _ R2) in E2. congruence.
  - assert (Hk := times_len L _ _ _ _ _ _ _ k R ltac:(congruence)). assert (Hk2 := times_len L _ _ _ _ _ _ _ k R2 ltac:(congruence)).
    destruct (row_vals o p ea er _ _ _ k F Nd R Hk) as (t0 & _ & _ & T1 & T2 & _). destruct (row_vals o2 p2 ea2 er2 _ _ _ k F2 Nd2 R2 Hk2) as (u0 & _ & _ & U1 & U2 & _).
    rewrite T2 in E. rewrite U2 in E2. injection E as <-. injection E2 as <-. rewrite (IH _ _ T1 U1), Et. reflexivity.
Qed.
Lemma C124_masses_lem fuel fuel2 (o' o2' : qlaw FN) (h h2 : hist FN) k : p_mass0 p2 = p_mass0 p -> p_mdot p2 = p_mdot p ->
  ran fuel o ea er p o' h -> ran fuel2 o2 ea2 er2 p2 o2' h2 -> (k <= length (h_controls h))%nat -> (k <= length (h_controls h2))%nat ->
  (forall j, (j < k)%nat -> throttle h j 1 <-> throttle h2 j 1) -> nth_error (h_masses h2) k = nth_error (h_masses h) k.
Proof.
  intros E0 Ed R R2. induction k as [|k IH]; intros Hk Hk2 J.
  - destruct (ran_ended _ _ _ _ _ _ _ R) as (gs & oel & code & conv & En & -> & _). destruct (ran_ended _ _ _ _ _ _ _ R2) as (gs2 & oel2 & code2 & conv2 & En2 & -> & _).
    cbn. rewrite E0. reflexivity.
  - specialize (IH ltac:(lia) ltac:(lia) ltac:(intros j Hj; apply J; lia)).
    destruct (row_vals o p ea er _ _ _ k F Nd R ltac:(lia)) as (_ & m & thr & _ & _ & M1 & Th & M2).
    destruct (row_vals o2 p2 ea2 er2 _ _ _ k F2 Nd2 R2 ltac:(lia)) as (_ & m2 & thr2 & _ & _ & N1 & Th2 & N2).
    rewrite M1, N1 in IH. injection IH as ->. rewrite M2, N2, Ed, Et. specialize (J k ltac:(lia)). unfold throttle in *. rewrite Th, Th2 in J.
    destruct (Z.eqb_spec thr 1) as [A|A], (Z.eqb_spec thr2 1) as [B|B]; try reflexivity; exfalso; destruct J as [J1 J2].
    + apply B. assert (X : Some thr2 = Some 1%Z) by (apply J1; congruence). congruence.
    + apply A. assert (X : Some thr = Some 1%Z) by (apply J2; congruence). congruence.
Qed.
Lemma C124_steps_lem fuel fuel2 (o' o2' : qlaw FN) (h h2 : hist FN) : nabs (Num:=FN) (p_tf_max p2) = nabs (Num:=FN) (p_tf_max p) ->
  fresh o -> ran fuel o ea er p o' h -> ran fuel2 o2 ea2 er2 p2 o2' h2 -> q_exitcode o' = (-2)%Z ->
  (length (h_controls h2) <= length (h_controls h))%nat.
Proof.
  intros Etf Fr R R2 X. destruct (ended_guard L _ _ _ _ _ _ _ Fr R X) as (t & T1 & T2).
  destruct (Nat.le_gt_cases (length (h_controls h2)) (length (h_controls h))) as [K|K]; [exact K|exfalso].
  destruct (row_guard L _ _ _ _ _ _ _ _ R2 K) as (v & V1 & V2). rewrite (C124_times_lem _ _ _ _ _ _ _ _ _ R R2 T1 V1), Etf in V2.
  rewrite T2 in V2. discriminate.
Qed.
End Runs.
