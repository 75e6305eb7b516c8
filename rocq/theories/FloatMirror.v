(** Backward runs in double precision visit the opposites of the times of forward runs. *)
From Coq Require Import Lia ZArith List Bool Floats.SpecFloat.
From Verif Require Import Num Base Elements Perturb Qlaw Trace Spec SolveProofs ExitProofs GateProofs
  Float64 FloatSpec FloatProofs FloatMono FloatRun FloatDuty FloatTerm BackSpec FloatBack.
Import ListNotations.

Lemma aux_opp s m e l : binary_round_aux 53 1024 (negb s) m e l = SFopp (binary_round_aux 53 1024 s m e l).
Proof.
  unfold binary_round_aux. destruct (shr_fexp 53 1024 m e l) as [r e1]. destruct (shr_fexp 53 1024 _ e1 loc_Exact) as [r2 e2].
  destruct (shr_m r2); try reflexivity. destruct (Z.leb e2 (1024 - 53)); reflexivity.
Qed.
Lemma round_opp s m e : binary_round 53 1024 (negb s) m e = SFopp (binary_round 53 1024 s m e).
Proof. unfold binary_round. match goal with |- context [shl_align ?a ?b ?c] => destruct (shl_align a b c) end. apply aux_opp. Qed.

(** equal up to the sign of zero *)
Definition same (x y : spec_float) : Prop := x = y \/ (exists a b, x = S754_zero a /\ y = S754_zero b).
Lemma norm_opp M e : same (binary_normalize 53 1024 (- M) e false) (SFopp (binary_normalize 53 1024 M e false)).
Proof.
  destruct M as [|M|M]; cbn [Z.opp binary_normalize].
  - right. cbn. eauto.
  - left. exact (round_opp false M e).
  - left. exact (round_opp true M e).
Qed.
Lemma copp s z : cond_Zopp (negb s) z = (- cond_Zopp s z)%Z.
Proof. destruct s; cbn; lia. Qed.
Lemma add_opp x x2 y : same x2 (SFopp x) -> same (SFadd 53 1024 x2 (SFopp y)) (SFopp (SFadd 53 1024 x y)).
Proof.
  intros [->|(a & b & -> & E)].
  - destruct x as [sx|sx| |sx mx ex], y as [sy|sy| |sy my ey]; cbn [SFopp SFadd]; try (left; reflexivity).
    + right. destruct sx, sy; cbn; eauto.
    + left. destruct sx, sy; reflexivity.
    + rewrite !copp, <- Z.opp_add_distr. apply norm_opp.
  - destruct x as [sx|sx| |sx mx ex]; try discriminate E. destruct y as [sy|sy| |sy my ey]; cbn [SFopp SFadd]; try (left; reflexivity).
    right. destruct a, sx, sy; cbn; eauto.
Qed.
Lemma same_eqb x y : same x (SFopp y) -> num64 y -> SFeqb x (SFopp y) = true.
Proof.
  assert (A : forall z, z <> S754_nan -> SFeqb z z = true).
  { intros z Nz. unfold SFeqb. destruct z as [|[|]| |[|] m e]; cbn; try reflexivity; try contradiction; rewrite Z.compare_refl;
      change (Pcompare m m Eq) with (Pos.compare m m); rewrite Pos.compare_refl; reflexivity. }
  intros [->|(a & b & -> & ->)] N; [|reflexivity]. apply A. destruct y; cbn; try discriminate. exact N.
Qed.
Lemma same_abs x y z : same x (SFopp y) -> SFltb (SFabs x) z = SFltb (SFabs y) z.
Proof.
  intros [->|(a & b & -> & E)]; [destruct y; reflexivity|]. destruct y; try discriminate E. reflexivity.
Qed.

Section Runs.
Variable L : libm.
Notation FN := (FNum L).
Variables (o o2 : qlaw FN) (p p2 : problem FN) (ea er ea2 er2 : eta_arg FN).
Hypotheses (F : forward64 o p) (Nd : ~ flt f0 (p_discharge p)) (B : backward64 o2 p2) (Et : p_t_step p2 = nopp (Num:=FN) (p_t_step p)).

Lemma times_first fuel (q q' : qlaw FN) (pb : problem FN) e1 e2 (h : hist FN) : ran fuel q e1 e2 pb q' h -> nth_error (h_times h) 0 = Some (nofZ (Num:=FN) 0).
Proof. intros R. destruct (ran_ended _ _ _ _ _ _ _ R) as (gs & oel & code & conv & En & -> & _). reflexivity. Qed.
Lemma times_len fuel (q q' : qlaw FN) (pb : problem FN) e1 e2 (h : hist FN) k : ran fuel q e1 e2 pb q' h -> nth_error (h_times h) (S k) <> None -> (k < length (h_controls h))%nat.
Proof.
  intros R X. destruct (ran_ended _ _ _ _ _ _ _ R) as (gs & oel & code & conv & En & -> & _). cbn in *. rewrite map_length.
  apply nth_error_Some. intros Y. apply X. rewrite nth_error_map, Y. reflexivity.
Qed.
Lemma mirrored fuel fuel2 (o' o2' : qlaw FN) (h h2 : hist FN) : ran fuel o ea er p o' h -> ran fuel2 o2 ea2 er2 p2 o2' h2 ->
  forall k t t2, nth_error (h_times h) k = Some t -> nth_error (h_times h2) k = Some t2 -> same (f_val t2) (SFopp (f_val t)) /\ fle f0 t.
Proof.
  intros R R2 k. induction k as [|k IH]; intros t t2 E E2.
  - rewrite (times_first _ _ _ _ _ _ _ R) in E. rewrite (times_first _ _ _ _ _ _ _ R2) in E2. injection E as <-. injection E2 as <-.
    split; [right; cbn; eauto|reflexivity].
  - assert (Hk := times_len _ _ _ _ _ _ _ k R ltac:(congruence)). assert (Hk2 := times_len _ _ _ _ _ _ _ k R2 ltac:(congruence)).
    destruct (row_of L o p ea er _ _ _ k R Hk) as (gs & sk & g & T & Lk & RF).
    destruct (C121_times_lem L o2 p2 ea2 er2 B _ _ _ k R2 Hk2) as (u & U1 & U2 & _).
    pose proof (rf_iter _ _ _ _ _ _ _ _ RF) as Hit. destruct (tr_ok L o p ea er _ _ F T) as [Bo To].
    destruct (iter_vals L o p ea er sk g Hit) as (Eg & _). rewrite (full_step L o p ea er sk g F Nd Bo Hit) in Eg.
    destruct (row_step L o p ea er sk g F Bo To Hit) as (_ & Tg & _).
    destruct (IH _ _ (rf_t _ _ _ _ _ _ _ _ RF) U1) as [S0 _].
    rewrite (rf_t' _ _ _ _ _ _ _ _ RF) in E. injection E as <-. rewrite U2 in E2. injection E2 as <-. split; [|exact Tg].
    rewrite Eg, Et. cbn [nadd nopp FNum]. rewrite !v_add, v_opp. apply add_opp. exact S0.
Qed.
Lemma C122_times_lem fuel fuel2 (o' o2' : qlaw FN) (h h2 : hist FN) k t t2 : ran fuel o ea er p o' h -> ran fuel2 o2 ea2 er2 p2 o2' h2 ->
  nth_error (h_times h) k = Some t -> nth_error (h_times h2) k = Some t2 -> neqb (Num:=FN) t2 (nopp (Num:=FN) t) = true.
Proof.
  intros R R2 E E2. destruct (mirrored _ _ _ _ _ _ R R2 _ _ _ E E2) as [S0 P]. cbn [neqb nopp FNum]. rewrite v_opp. apply same_eqb; [exact S0|].
  exact (leb_num_r _ _ P).
Qed.

(** the while test at the last state of a run that ends with code -2, and at the states before *)
Lemma ended_guard fuel (q q' : qlaw FN) (pb : problem FN) e1 e2 (h : hist FN) : fresh q -> ran fuel q e1 e2 pb q' h -> q_exitcode q' = (-2)%Z ->
  exists t, nth_error (h_times h) (length (h_controls h)) = Some t /\ nltb (Num:=FN) (nabs t) (nabs (p_tf_max pb)) = false.
Proof.
  intros [Fr1 Fr2] R X. destruct (ran_ended _ _ _ _ _ _ _ R) as (gs & oel & code & conv & En & -> & Cv & Ec & _). rewrite Fr1, Fr2 in Ec.
  destruct En as [gs s Htr Hg|gs s g0 code conv s' Htr Hg Hit Hex|gs s pl Htr Hg H1 H2].
  - exists (l_t s). rewrite (guard_last L q pb e1 e2 _ _ Htr) in Hg. split; [|exact Hg].
    destruct (tr_cur _ _ _ _ _ _ Htr) as (T1 & _). cbn. rewrite map_length. exact T1.
  - exfalso. pose proof (exit_cases q pb (post g0)) as E. rewrite Hex in E. inversion E; subst; cbn in Ec; congruence.
  - exfalso. cbn in Ec. congruence.
Qed.
Lemma row_guard fuel (q q' : qlaw FN) (pb : problem FN) e1 e2 (h : hist FN) k : ran fuel q e1 e2 pb q' h -> (k < length (h_controls h))%nat ->
  exists t, nth_error (h_times h) k = Some t /\ nltb (Num:=FN) (nabs t) (nabs (p_tf_max pb)) = true.
Proof.
  intros R Hk. destruct (row_of L q pb e1 e2 _ _ _ k R Hk) as (gs & sk & g & T & Lk & RF). exists (l_t sk).
  split; [exact (rf_t _ _ _ _ _ _ _ _ RF)|]. rewrite <- (guard_last L q pb e1 e2 _ _ T). exact (rf_guard _ _ _ _ _ _ _ _ RF).
Qed.
Lemma C122_steps_lem fuel fuel2 (o' o2' : qlaw FN) (h h2 : hist FN) : nabs (Num:=FN) (p_tf_max p2) = nabs (Num:=FN) (p_tf_max p) ->
  fresh o -> fresh o2 -> ran fuel o ea er p o' h -> ran fuel2 o2 ea2 er2 p2 o2' h2 -> q_exitcode o' = (-2)%Z -> q_exitcode o2' = (-2)%Z ->
  length (h_controls h2) = length (h_controls h).
Proof.
  intros Etf Fr Fr2 R R2 X X2. destruct (ended_guard _ _ _ _ _ _ _ Fr R X) as (t & T1 & T2). destruct (ended_guard _ _ _ _ _ _ _ Fr2 R2 X2) as (u & U1 & U2).
  destruct (Nat.lt_trichotomy (length (h_controls h2)) (length (h_controls h))) as [K|[K|K]]; [exfalso|exact K|exfalso].
  - destruct (row_guard _ _ _ _ _ _ _ _ R K) as (v & V1 & V2). destruct (mirrored _ _ _ _ _ _ R R2 _ _ _ V1 U1) as [S0 _].
    rewrite Etf in U2. cbn [nltb nabs FNum] in U2, V2. rewrite v_abs in U2, V2. rewrite (same_abs _ _ _ S0) in U2. congruence.
  - destruct (row_guard _ _ _ _ _ _ _ _ R2 K) as (v & V1 & V2). destruct (mirrored _ _ _ _ _ _ R R2 _ _ _ T1 V1) as [S0 _].
    rewrite Etf in V2. cbn [nltb nabs FNum] in T2, V2. rewrite v_abs in T2, V2. rewrite (same_abs _ _ _ S0) in V2. congruence.
Qed.
End Runs.
