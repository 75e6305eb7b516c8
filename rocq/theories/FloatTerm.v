(** Progress and termination of [solve] in double precision. *)
From Coq Require Import ZArith List Bool Lia Floats.SpecFloat.
From Verif Require Import Num Base Elements Integrate Eom Convergence Lyapunov Perturb Qlaw Trace Spec XSpec SolveProofs ExitProofs GateProofs XSolve
  Float64 FloatSpec FloatProofs FloatMono FloatRun FloatDuty.
Import ListNotations.

Section Z.
Local Open Scope Z_scope.
(** rounding to nearest does not fall below a multiple of [2^u] that is at most [2^(53+u)] *)
Lemma near_grid m V u g : 0 < V -> 0 <= u -> g * 2 ^ u <= V -> g <= 2 ^ 53 -> near m V (unit V) -> g * 2 ^ u <= m * 2 ^ unit V.
Proof.
  intros Hv Hu Hg Hb N. destruct (unit_bounds V Hv) as (U & _ & U2). destruct (near_low m V _ Hv eq_refl N) as (L1 & L2 & L3).
  set (n := unit V) in *. assert (Pu := pow2_pos u Hu). assert (Pn := pow2_pos n U). unfold near in N. destruct N as [N _].
  destruct (Z.le_gt_cases n u) as [K|K].
  - assert (E : 2 ^ u = 2 ^ (u - n) * 2 ^ n) by (rewrite <- Z.pow_add_r by lia; f_equal; lia).
    rewrite E, Z.mul_assoc in *. set (G := g * 2 ^ (u - n)) in *. apply Z.mul_le_mono_nonneg_r; [lia|].
    destruct (Z.le_gt_cases G m) as [|X]; [assumption|exfalso]. assert (m * 2 ^ n <= (G - 1) * 2 ^ n) by (apply Z.mul_le_mono_nonneg_r; lia). lia.
  - specialize (L2 ltac:(lia)). apply Z.le_trans with (2 ^ 53 * 2 ^ u); [apply Z.mul_le_mono_nonneg_r; lia|].
    apply Z.le_trans with (2 ^ 52 * 2 ^ n); [|apply Z.mul_le_mono_nonneg_r; lia].
    rewrite <- !Z.pow_add_r by lia. apply Z.pow_le_mono_r; lia.
Qed.
Lemma near_up m V u T : 0 <= u -> 0 <= T -> T + 2 ^ u <= V -> T < 2 ^ (53 + u) -> near m V (unit V) -> T < m * 2 ^ unit V.
Proof.
  intros Hu HT Hg Hb N. assert (Pu := pow2_pos u Hu). assert (Hv : 0 < V) by lia.
  destruct (unit_bounds V Hv) as (U & _ & U2). destruct (near_low m V _ Hv eq_refl N) as (L1 & L2 & L3).
  set (n := unit V) in *. assert (Pn := pow2_pos n U). unfold near in N. destruct N as [N _].
  destruct (Z.le_gt_cases n u) as [K|K].
  - assert (2 ^ n <= 2 ^ u) by (apply Z.pow_le_mono_r; lia). lia.
  - specialize (L2 ltac:(lia)). apply Z.lt_le_trans with (2 ^ (53 + u)); [exact Hb|].
    apply Z.le_trans with (2 ^ 52 * 2 ^ n); [|apply Z.mul_le_mono_nonneg_r; lia].
    rewrite <- Z.pow_add_r by lia. apply Z.pow_le_mono_r; lia.
Qed.
Lemma worth_zv x n e : -1074 <= e -> worth x n e -> zv (f_val x) = n * 2 ^ (e + 1074).
Proof.
  unfold worth. intros He H. pose proof (f_ok x) as V. destruct (f_val x) as [s|s| |[|] m ex]; try contradiction; cbn [zv cond_Zopp]; [lia|].
  cbn [valid_binary] in V. pose proof (e_low _ _ V). set (z := Z.min e ex) in *.
  replace (ex + 1074) with (ex - z + (z + 1074)) by lia. replace (e + 1074) with (e - z + (z + 1074)) by lia.
  rewrite !(Z.pow_add_r 2 (_ - _)) by lia. rewrite !Z.mul_assoc, H. reflexivity.
Qed.
End Z.

Section Term.
Variable L : libm.
Notation FN := (FNum L).
Variables (o : qlaw FN) (p : problem FN) (ea er : eta_arg FN).
Variables (e M : Z) (u v : f64).
Hypotheses (He : (-1074 <= e)%Z) (F : forward64 o p) (Nd : ~ flt f0 (p_discharge p)) (Wu : worth u 1 e) (Wv : worth v M e) (HM : (M <= 2 ^ 53)%Z)
  (Hu : fle u (p_t_step p)) (Hv : fle (nabs (Num:=FN) (p_tf_max p)) v).

Lemma zle x y : fin x -> fin y -> (fle x y <-> (zv (f_val x) <= zv (f_val y))%Z).
Proof. intros Fx Fy. apply zv_leb; try apply f_ok; apply fin64; assumption. Qed.
Lemma zlt x y : fin x -> fin y -> (flt x y <-> (zv (f_val x) < zv (f_val y))%Z).
Proof.
  intros Fx Fy. unfold flt. destruct (SFltb (f_val x) (f_val y)) eqn:E.
  - split; [intros _|reflexivity]. destruct (Z.lt_ge_cases (zv (f_val x)) (zv (f_val y))) as [|K]; [assumption|]. apply zle in K; try assumption. elim (ltb_not _ _ E K).
  - split; [discriminate|]. intros K. exfalso. apply (nltb_le _ _ (fin_num _ Fx) (fin_num _ Fy)) in E. apply zle in E; try assumption. lia.
Qed.
Lemma worth_fin' x n : worth x n e -> fin x /\ fle f0 x.
Proof. unfold worth, fin, fle. destruct (f_val x) as [[|]|[|]| |[|] m ex]; try contradiction; cbn; auto. Qed.
Lemma nneg_zv x : fin x -> fle f0 x -> (0 <= zv (f_val x))%Z.
Proof. intros Fx H. apply zle in H; [exact H|exact I|exact Fx]. Qed.

Lemma guard_bound (gs : list (grow FN)) (s : lstate FN) : tr o p ea er gs s -> guard p s = true ->
  fin (l_t s) /\ (0 <= zv (f_val (l_t s)) < M * 2 ^ (e + 1074))%Z.
Proof.
  intros T G. destruct (tr_ok L o p ea er _ _ F T) as [_ To]. assert (Ft := guard_fin L o p ea er _ _ T To G). split; [exact Ft|].
  split; [apply nneg_zv; assumption|]. rewrite (guard_last L o p ea er _ _ T) in G. cbn [nltb FNum] in G.
  destruct (worth_fin' _ _ Wv) as [Fv _].
  assert (Fa : fin (nabs (Num:=FN) (p_tf_max p))).
  { unfold fin, fle in *. cbn [nabs FNum] in *. rewrite v_abs in *. destruct (f_val (p_tf_max p)); cbn in *; auto; destruct (f_val v); cbn in *; auto; try discriminate Hv; try destruct s1; try discriminate Hv. }
  assert (Fb : fin (nabs (Num:=FN) (l_t s))) by (unfold fin in *; cbn [nabs FNum]; rewrite v_abs; destruct (f_val (l_t s)); auto).
  assert (K1 := proj1 (zlt _ _ Fb Fa) G). assert (K2 := proj1 (zle _ _ Fa Fv) Hv). rewrite (worth_zv v M e He Wv) in K2.
  assert (K3 : (zv (f_val (l_t s)) <= zv (f_val (nabs (Num:=FN) (l_t s))))%Z).
  { cbn [nabs FNum]. rewrite v_abs. destruct (f_val (l_t s)) as [z|z| |[|] m ex]; cbn [SFabs zv cond_Zopp]; try lia. }
  lia.
Qed.

Lemma step_up (s : lstate FN) (g : grow FN) (gs : list (grow FN)) : tr o p ea er gs s -> guard p s = true -> iter o p ea er s g ->
  (fin (g_t g) -> forall k : Z, (k * 2 ^ (e + 1074) <= zv (f_val (l_t s)))%Z -> ((k + 1) * 2 ^ (e + 1074) <= zv (f_val (g_t g)))%Z) /\ flt (l_t s) (g_t g).
Proof.
  intros T G Hit. destruct (guard_bound _ _ T G) as (Ft & T0 & T1). destruct (iter_vals L o p ea er s g Hit) as (Et & _).
  assert (Fs : fin (p_t_step p)) by apply F. assert (P := pow2_pos (e + 1074) ltac:(lia)).
  assert (Us : (2 ^ (e + 1074) <= zv (f_val (p_t_step p)))%Z).
  { destruct (worth_fin' _ _ Wu) as [Fu _]. apply zle in Hu; try assumption. rewrite (worth_zv u 1 e He Wu) in Hu. lia. }
  rewrite (full_step L o p ea er s g F Nd (proj1 (tr_ok L o p ea er _ _ F T)) Hit) in Et.
  assert (R : rounds (zv (f_val (l_t s)) + zv (f_val (p_t_step p))) (f_val (g_t g))).
  { rewrite Et. cbn [nadd FNum]. rewrite v_add. apply add_rounds; try apply f_ok; apply fin64; assumption. }
  set (V := (zv (f_val (l_t s)) + zv (f_val (p_t_step p)))%Z) in *. assert (0 < V)%Z by lia.
  assert (K : exists m, near m V (unit V) /\ rmag false (m * 2 ^ unit V) (f_val (g_t g))).
  { remember (f_val (g_t g)) as x. destruct R as [b|W m x PW N RM|W m x PW N RM]; [lia|eauto|lia]. }
  clear R. destruct K as (m & N & RM).
  assert (B : (zv (f_val (l_t s)) < 2 ^ (53 + (e + 1074)))%Z).
  { rewrite Z.pow_add_r by lia. apply Z.lt_le_trans with (1 := T1). apply Z.mul_le_mono_nonneg_r; lia. }
  pose proof (near_up m V (e + 1074) _ ltac:(lia) T0 ltac:(lia) B N) as Up. split.
  - intros Fg k Hk. assert (HkM : (k < M)%Z) by nia.
    pose proof (near_grid m V (e + 1074) (k + 1) ltac:(lia) ltac:(lia) ltac:(lia) ltac:(lia) N) as Gr.
    unfold fin in Fg. remember (f_val (g_t g)) as x. destruct RM as [x E1 E2 E3|]; [cbn [cond_Zopp] in E1; lia|contradiction].
  - remember (f_val (g_t g)) as x. destruct RM as [x E1 E2 E3|E].
    + apply zlt; [exact Ft|unfold fin; rewrite <- Heqx; destruct x; try contradiction; exact I|]. rewrite <- Heqx. cbn [cond_Zopp] in E1. lia.
    + unfold flt. rewrite <- Heqx. unfold fin in Ft. destruct (f_val (l_t s)) as [| | |[|]]; try contradiction; reflexivity.
Qed.
Lemma count (gs : list (grow FN)) (s : lstate FN) : tr o p ea er gs s -> (fin (l_t s) -> (Z.of_nat (length gs) * 2 ^ (e + 1074) <= zv (f_val (l_t s)))%Z) /\ (Z.of_nat (length gs) <= M)%Z.
Proof.
  intros H. induction H as [|gs s g s' Ht IH Hg Hit Hex].
  - cbn. split; [lia|]. assert (0 <= zv (f_val v))%Z by (apply nneg_zv; apply (worth_fin' _ _ Wv)). rewrite (worth_zv v M e He Wv) in *.
    assert (P := pow2_pos (e + 1074) ltac:(lia)). nia.
  - destruct (guard_bound _ _ Ht Hg) as (Ft & T0 & T1). destruct (step_up _ _ _ Ht Hg Hit) as [S1 _].
    destruct (exit_next_hist _ _ _ _ Hex) as [n ->]. cbn [with_nrel post l_t]. rewrite app_length. cbn [length].
    replace (Z.of_nat (length gs + 1)) with (Z.of_nat (length gs) + 1)%Z by lia. split.
    + intros Fg. apply (S1 Fg). apply IH. exact Ft.
    + pose proof (proj1 IH Ft). assert (P := pow2_pos (e + 1074) ltac:(lia)). nia.
Qed.
Lemma guard_count (gs : list (grow FN)) (s : lstate FN) : tr o p ea er gs s -> guard p s = true -> (Z.of_nat (length gs) < M)%Z.
Proof.
  intros T G. destruct (guard_bound _ _ T G) as (Ft & T0 & T1). pose proof (proj1 (count _ _ T) Ft). assert (P := pow2_pos (e + 1074) ltac:(lia)). nia.
Qed.
Lemma C111_lem fuel : q_problem o = Some p -> (M <= Z.of_nat fuel)%Z -> solve fuel o ea er <> Running.
Proof.
  intros Hp Hf. assert (D : forall s', loop fuel o p ea er (init_state p) = LFuel s' -> False).
  { intros s HL. destruct (loop_fuel _ _ _ _ _ [] _ _ (tr_nil _ _ _ _) HL) as (gs & Htr & Hg & Hlen). cbn in Hlen.
    pose proof (guard_count _ _ Htr Hg). lia. }
  unfold solve. rewrite Hp.
  destruct ea as [w|f|]; try discriminate;
    (destruct (loop fuel o p _ er (init_state p)) eqn:HL; try discriminate; exfalso; eapply D; eauto).
Qed.
Lemma C111_run_lem fuel (o' : qlaw FN) (h : hist FN) : ran fuel o ea er p o' h ->
  (Z.of_nat (length (h_controls h)) <= M)%Z /\
  forall k t t', nth_error (h_times h) k = Some t -> nth_error (h_times h) (S k) = Some t' -> flt t t'.
Proof.
  intros R. destruct (run_rows L o p ea er _ _ _ R) as (gs & Lg & Rw). rewrite <- Lg. split.
  - destruct gs as [|g0 gs0 _] using rev_ind; [exact (proj2 (count _ _ (tr_nil _ _ _ _)))|]. rewrite app_length. cbn [length].
    destruct (Rw (length gs0) g0) as (sk & T & RF); [rewrite nth_error_app2, Nat.sub_diag by lia; reflexivity|].
    rewrite firstn_app, firstn_all, Nat.sub_diag, app_nil_r in T. pose proof (guard_count _ _ T (rf_guard _ _ _ _ _ _ _ _ RF)). lia.
  - intros k t t' E E'. assert (Hk : (k < length gs)%nat).
    { destruct (ran_ended _ _ _ _ _ _ _ R) as (gs' & oel & code & conv & En & Eh & _). subst h. cbn in E', Lg. rewrite map_length in Lg. rewrite Lg.
      apply nth_error_Some. intros X. rewrite nth_error_map, X in E'. discriminate. }
    destruct (nth_error gs k) as [g|] eqn:Eg; [|apply nth_error_None in Eg; lia]. destruct (Rw k g Eg) as (sk & T & RF).
    rewrite (rf_t _ _ _ _ _ _ _ _ RF) in E. rewrite (rf_t' _ _ _ _ _ _ _ _ RF) in E'. injection E as <-. injection E' as <-.
    exact (proj2 (step_up _ _ _ T (rf_guard _ _ _ _ _ _ _ _ RF) (rf_iter _ _ _ _ _ _ _ _ RF))).
Qed.
End Term.

Section Stuck.
Variable L : libm.
Notation FN := (FNum L).
Variables (o : qlaw FN) (p : problem FN) (ea er : eta_arg FN).

(** A step ends at most one step after the duration. *)
Lemma C111_overshoot_lem fuel (o' : qlaw FN) (h : hist FN) t : forward64 o p -> ~ flt f0 (p_discharge p) -> fin (p_tf_max p) -> ran fuel o ea er p o' h ->
  In t (h_times h) -> fle t (nadd (Num:=FN) (nabs (p_tf_max p)) (p_t_step p)).
Proof.
  intros F Nd Ff R Hin. apply In_nth_error in Hin as [k Hk].
  assert (Fa : fin (nabs (Num:=FN) (p_tf_max p))) by (unfold fin in *; cbn [nabs FNum]; rewrite v_abs; destruct (f_val (p_tf_max p)); auto).
  assert (Fs : fin (p_t_step p)) by apply F. assert (Ps : fle f0 (p_t_step p)) by apply F.
  destruct k as [|k].
  - destruct (ran_ended _ _ _ _ _ _ _ R) as (gs & oel & code & conv & En & -> & _). cbn in Hk. injection Hk as <-.
    assert (A : fle f0 (nabs (Num:=FN) (p_tf_max p))).
    { unfold fle, fin in *. cbn [nabs FNum] in *. rewrite v_abs. destruct (f_val (p_tf_max p)) as [| | |]; try contradiction; reflexivity. }
    apply (fle_trans _ (nabs (Num:=FN) (p_tf_max p))); [exact A|]. unfold fle. cbn [nadd FNum]. rewrite v_add.
    apply SFadd_ge; [apply f_ok|apply fin_num; exact Fa|exact Ps|]. unfold fin in Fa. intros X. cbn [nabs FNum car] in *. rewrite X in Fa. contradiction.
  - destruct (run_rows L o p ea er _ _ _ R) as (gs & Lg & Rw).
    assert (Hl : (k < length gs)%nat).
    { destruct (ran_ended _ _ _ _ _ _ _ R) as (gs' & oel & code & conv & En & Eh & _). subst h. cbn in Hk, Lg. rewrite map_length in Lg. rewrite Lg.
      apply nth_error_Some. intros X. rewrite nth_error_map, X in Hk. discriminate. }
    destruct (nth_error gs k) as [g|] eqn:Eg; [|apply nth_error_None in Eg; lia]. destruct (Rw k g Eg) as (sk & T & RF).
    rewrite (rf_t' _ _ _ _ _ _ _ _ RF) in Hk. injection Hk as <-.
    pose proof (rf_iter _ _ _ _ _ _ _ _ RF) as Hit. pose proof (rf_guard _ _ _ _ _ _ _ _ RF) as G.
    destruct (iter_vals L o p ea er sk g Hit) as (Et & _). rewrite Et.
    destruct (tr_ok L o p ea er _ _ F T) as [Bo To]. rewrite (full_step L o p ea er sk g F Nd Bo Hit).
    assert (Ft := guard_fin L o p ea er _ _ T To G). apply fadd_mono; try assumption.
    rewrite (guard_last L o p ea er _ _ T) in G. cbn [nltb FNum] in G. apply ltb_leb in G. eapply fle_trans; [|exact G].
    unfold fle. cbn [nabs FNum]. rewrite v_abs. unfold fin, time_ok, fle in Ft, To.
    destruct (f_val (l_t sk)) as [b| | |[|] m ex]; try contradiction; try discriminate To; [destruct b; reflexivity|]. apply leb_refl. discriminate.
Qed.

(** A time that the step does not move. *)
Variable T : f64.
Hypotheses (F : forward64 o p) (Nd : ~ flt f0 (p_discharge p)) (FT : fin T) (PT : fle f0 T) (Stuck : fle (nadd (Num:=FN) T (p_t_step p)) T)
  (Far : flt T (nabs (Num:=FN) (p_tf_max p))).
Lemma stuck_time (gs : list (grow FN)) (s : lstate FN) : tr o p ea er gs s -> fle (l_t s) T.
Proof.
  intros H. induction H as [|gs s g s' Ht IH Hg Hit Hex]; [exact PT|].
  destruct (tr_ok L o p ea er _ _ F Ht) as [Bo To]. assert (Ft := guard_fin L o p ea er _ _ Ht To Hg).
  destruct (exit_next_hist _ _ _ _ Hex) as [n ->]. cbn [with_nrel post l_t].
  destruct (iter_vals L o p ea er s g Hit) as (Et & _). rewrite Et, (full_step L o p ea er s g F Nd Bo Hit).
  eapply fle_trans; [|exact Stuck]. apply fadd_mono; try assumption. apply F.
Qed.
Lemma stuck_guard (gs : list (grow FN)) (s : lstate FN) : tr o p ea er gs s -> guard p s = true.
Proof.
  intros H. rewrite (guard_last L o p ea er _ _ H). pose proof (stuck_time _ _ H) as K. destruct (tr_ok L o p ea er _ _ F H) as [_ To].
  assert (A : fle (nabs (Num:=FN) (l_t s)) T).
  { unfold time_ok in To. unfold fle in *. cbn [nabs FNum]. rewrite v_abs. destruct (f_val (l_t s)) as [b|[|]| |[|] m ex]; try discriminate To; exact K. }
  cbn [nltb FNum]. unfold fle, flt in *. apply ltb_key in Far as (N1 & N2 & N3). apply leb_key in A as (M1 & _ & M3). apply ltb_key. split; [exact M1|]. split; [exact N2|].
  intros X. apply N3. eapply kle_trans; [exact X|exact M3].
Qed.
Lemma C111_stuck_lem fuel (o' : qlaw FN) (h : hist FN) : fresh o -> ran fuel o ea er p o' h -> q_exitcode o' <> (-2)%Z.
Proof.
  intros [Fr1 Fr2] R. destruct (ran_ended _ _ _ _ _ _ _ R) as (gs & oel & code & conv & En & -> & Cv & Ec & _). rewrite Fr1, Fr2 in Ec.
  destruct En as [gs s Htr Hg|gs s g0 code conv s' Htr Hg Hit Hex|gs s pl Htr Hg H1 H2].
  - rewrite (stuck_guard _ _ Htr) in Hg. discriminate.
  - intros X. pose proof (exit_cases o p (post g0)) as E. rewrite Hex in E. inversion E; subst; cbn in Ec; congruence.
  - intros X. cbn in Ec. congruence.
Qed.
End Stuck.
