(** Runs backward in time in double precision. *)
From Coq Require Import ZArith List Bool Lia Floats.SpecFloat.
From Verif Require Import Num Base Elements Integrate Eom Convergence Lyapunov Perturb Qlaw Trace Spec XSpec SolveProofs ExitProofs GateProofs RunSpec XReason RunProofs
  Float64 FloatSpec FloatProofs FloatRun BackSpec.
Import ListNotations.

Lemma SFadd_le x y : valid_binary 53 1024 x = true -> num64 x -> SFleb y (S754_zero false) = true -> x <> S754_infinity false ->
  SFleb (SFadd 53 1024 x y) x = true.
Proof.
  intros V N Y I. destruct y as [s|[|]| |[|] my ey]; cbn in Y; try discriminate Y.
  - destruct x as [sx|sx| |sx mx ex]; cbn [SFadd]; [destruct (Bool.eqb sx s)| | |]; try (apply leb_refl; try exact N; discriminate); try reflexivity; congruence.
  - destruct x as [sx|[|]| |sx mx ex]; cbn; try reflexivity; congruence.
  - destruct x as [sx|[|]| |sx mx ex]; try reflexivity; try congruence.
    cbn [SFadd]. destruct (add_align mx ex my ey) as [E1 E2]. rewrite E1, E2.
    apply norm_le; [exact V|lia|]. unfold sval. assert (0 < Zpos my * 2 ^ (ey - Z.min ex ey))%Z by (apply Z.mul_pos_pos; [lia|apply pow2_pos; lia]).
    cbn [cond_Zopp]. lia.
Qed.
Lemma SFmul_nonpos_r x y : valid_binary 53 1024 x = true -> valid_binary 53 1024 y = true -> nonneg x -> SFleb y (S754_zero false) = true ->
  num64 (SFmul 53 1024 x y) -> SFleb (SFmul 53 1024 x y) (S754_zero false) = true.
Proof.
  intros Vx Vy X Y N. destruct y as [sy|[|]| |[|] my ey]; cbn in Y; try discriminate Y;
  destruct (nonneg_cases x X) as [[s' ->]|[->|(mx & ex & ->)]]; cbn [SFmul] in *; try reflexivity; try (elim N; reflexivity).
  destruct (mul_round (xorb false true) mx ex my ey) as (k & m' & R); [assumption|assumption|]. destruct R; reflexivity.
Qed.
Lemma norm_num S e z : binary_normalize 53 1024 S e z <> S754_nan.
Proof.
  destruct S as [|M|M]; cbn [binary_normalize]; [discriminate| |].
  - pose proof (round_sign false M e) as R. destruct (binary_round 53 1024 false M e); try discriminate; contradiction.
  - pose proof (round_sign true M e) as R. destruct (binary_round 53 1024 true M e); try discriminate; contradiction.
Qed.
Lemma SFsub_num x y : num64 x -> num64 y -> x <> S754_infinity true /\ x <> S754_infinity false \/ finite64 y -> num64 (SFsub 53 1024 x y).
Proof.
  unfold num64, finite64. intros Nx Ny H.
  destruct x as [sx|sx| |sx mx ex]; destruct y as [sy|sy| |sy my ey]; cbn [SFsub]; try congruence; try (destruct (Bool.eqb sx (negb sy)); discriminate).
  - destruct sx; destruct H as [[A B]|[]]; congruence.
  - apply norm_num.
Qed.

Section Back.
Variable L : libm.
Notation FN := (FNum L).
Variables (o : qlaw FN) (p : problem FN) (ea er : eta_arg FN).
Hypothesis B : backward64 o p.

Definition back_ok (s : lstate FN) : Prop :=
  fle (l_t s) f0 /\ l_duty s = true /\ f_val (l_ton s) = S754_zero false /\ l_chg s = false /\ fin (l_batt s) /\ flt (empty_level p) (l_batt s).

Lemma nonpos_not x : fle x f0 -> f_val x <> S754_infinity false.
Proof. unfold fle. intros H E. rewrite E in H. discriminate. Qed.
Lemma t_sub (t ton : @car FN) : fle t f0 -> f_val ton = S754_zero false -> fle (nsub (Num:=FN) t ton) f0.
Proof.
  unfold fle. intros H E. cbn [nsub FNum]. rewrite v_sub, E. destruct (f_val t) as [[|]|[|]| |[|] m ex]; cbn in *; try discriminate H; reflexivity.
Qed.

(** subtracting the energy of a backward step raises the level *)
Lemma drain_up (b : @car FN) : fin b -> fle b (nsub (Num:=FN) b (nmul (Num:=FN) (p_discharge p) (p_t_step p))).
Proof.
  destruct B as (_ & _ & Ft & Pt & _ & _ & _ & _ & Fd & Pd & _). intros Fb. unfold fle. cbn [nsub nmul FNum]. rewrite v_sub, v_mul.
  pose proof (fin_mul _ _ Fd Ft) as Nm.
  apply SFsub_ge; [apply f_ok|apply fin_num; exact Fb| |].
  - apply SFmul_nonpos_r; try apply f_ok; assumption.
  - apply SFsub_num; [apply fin_num; exact Fb|exact Nm|]. left. unfold fin in Fb. split; intros E; rewrite E in Fb; exact Fb.
Qed.
Lemma lo_below (b : @car FN) : flt (empty_level p) b -> fle (p_cap_lo p) b.
Proof.
  destruct B as (_ & _ & _ & _ & _ & _ & Fl & _). intros H. destruct (eps_ok L) as [E1 _].
  assert (G : SFleb (f_val (p_cap_lo p)) (f_val (empty_level p)) = true).
  { unfold empty_level. cbn [nadd FNum]. rewrite v_add. apply SFadd_ge; [apply f_ok|apply fin_num; exact Fl|exact E1|].
    intros E. unfold fin in Fl. rewrite E in Fl. exact Fl. }
  exact (leb_trans _ _ _ G (ltb_leb _ _ H)).
Qed.
Lemma not_leb x y : SFltb x y = true -> SFleb y x = false.
Proof. intros H. destruct (SFleb y x) eqn:E; [|reflexivity]. elim (ltb_not _ _ H E). Qed.
Lemma not_ltb x y : SFleb x y = true -> SFltb y x = false.
Proof. intros H. destruct (SFltb y x) eqn:E; [|reflexivity]. elim (ltb_not _ _ E H). Qed.

Lemma back_plan (s : lstate FN) (pl : plan_t FN) : back_ok s -> plan o p s = Ok pl ->
  pl_dt pl = p_t_step p /\ pl_duty pl = true /\ pl_ton pl = l_ton s /\ pl_chg pl = false.
Proof.
  intros (Ht & Hd & Hn & Hc & Fb & Lb) H. pose proof B as (Sd & _ & Ft & Pt & On & _).
  unfold plan, local_step in H. rewrite Sd in H. cbn [bind] in H.
  unfold duty_phase in H.
  assert (X : nltb (Num:=FN) (p_duty_on p) (nsub (Num:=FN) (l_t s) (l_ton s)) = false).
  { cbn [nltb FNum]. apply not_ltb. exact (leb_trans _ _ _ (t_sub _ _ Ht Hn) On). }
  rewrite X in H. cbn [andb] in H. rewrite Hd in H. cbn [negb] in H. rewrite andb_false_r in H.
  unfold battery_phase in H.
  assert (Y : nleb (Num:=FN) (l_batt s) (nadd (Num:=FN) (p_cap_lo p) (dec (N:=FN) 1 12)) = false) by (apply not_leb; exact Lb).
  rewrite Y in H.
  assert (Z : nltb (Num:=FN) (nsub (Num:=FN) (l_batt s) (nmul (Num:=FN) (p_discharge p) (p_t_step p))) (p_cap_lo p) = false).
  { cbn [nltb FNum]. apply not_ltb. exact (leb_trans _ _ _ (lo_below _ Lb) (drain_up _ Fb)). }
  rewrite Z in H. cbn [andb] in H. injection H as <-. cbn [pl_dt pl_duty pl_ton pl_chg]. unfold recharge_phase. rewrite Hc, andb_false_r. auto.
Qed.
Lemma back_row (s : lstate FN) (g : grow FN) : back_ok s -> iter o p ea er s g ->
  g_t g = nadd (Num:=FN) (l_t s) (p_t_step p) /\ fle (g_t g) (l_t s) /\ pl_dt (g_pl g) = p_t_step p /\ pl_duty (g_pl g) = true /\
  (g_b g = p_cap_hi p \/ fle (l_batt s) (g_b g) /\ fle (g_b g) (p_cap_hi p)) /\ back_ok (post g).
Proof.
  intros K Hit. destruct (iter_vals _ _ _ _ _ _ _ Hit) as (Et & _ & Ed & Eb). destruct (iter_sfields _ _ _ _ _ _ Hit) as (S1 & S2 & S3 & S4 & S5 & S6 & S7 & _).
  assert (K' : back_ok (g_s g)) by (unfold back_ok; rewrite S1, S3, S4, S5, S7; exact K).
  destruct (back_plan _ _ K' (it_plan _ _ _ _ _ _ Hit)) as (D & Du & To & Ch).
  destruct K as (Ht & Hd & Hn & Hc & Fb & Lb). pose proof B as (_ & Rk & Ft & Pt & On & _ & Fl & Fh & _ & _ & _ & Lh).
  rewrite D in Et. rewrite (Ed Rk), D, Du in Eb.
  assert (T : fle (g_t g) (l_t s)).
  { rewrite Et. unfold fle. cbn [nadd FNum]. rewrite v_add. apply SFadd_le; [apply f_ok|exact (leb_num_l _ _ Ht)|exact Pt|exact (nonpos_not _ Ht)]. }
  pose proof (drain_up _ Fb) as U.
  assert (Q : g_b g = p_cap_hi p \/ fle (l_batt s) (g_b g) /\ fle (g_b g) (p_cap_hi p)).
  { set (x := nsub (Num:=FN) (l_batt s) (nmul (Num:=FN) (p_discharge p) (p_t_step p))) in *.
    assert (E1 : nltb (Num:=FN) x (p_cap_lo p) = false) by (apply not_ltb; exact (leb_trans _ _ _ (lo_below _ Lb) U)).
    change (g_b g = npclip (N:=FN) x (p_cap_lo p) (p_cap_hi p)) in Eb. unfold npclip in Eb. rewrite E1 in Eb. destruct (nltb (Num:=FN) (p_cap_hi p) x) eqn:E2.
    - left. exact Eb.
    - right. rewrite Eb. split; [exact U|]. apply nltb_le; [apply fin_num; exact Fh|exact (leb_num_r _ _ U)|exact E2]. }
  split; [exact Et|]. split; [exact T|]. split; [exact D|]. split; [exact Du|]. split; [exact Q|].
  pose proof (it_batt _ _ _ _ _ _ Hit) as Bt. unfold battery_update in Bt. rewrite Du in Bt.
  assert (C : g_chg g = false) by congruence.
  unfold back_ok, post. cbn [l_t l_duty l_ton l_chg l_batt]. split; [exact (leb_trans _ _ _ T Ht)|]. split; [exact Du|]. split; [rewrite To, S5; exact Hn|]. split; [exact C|].
  destruct Q as [E|[Q1 Q2]].
  - rewrite E. split; [exact Fh|exact Lh].
  - split; [exact (between_fin _ _ _ Fb Fh Q1 Q2)|].
    unfold flt. apply nleb_lt; [exact (leb_num_r _ _ Q1)|apply ltb_key in Lb; tauto|].
    destruct (SFleb (f_val (g_b g)) (f_val (empty_level p))) eqn:E; [|reflexivity]. elim (ltb_not _ _ Lb (leb_trans _ _ _ Q1 E)).
Qed.
Lemma tr_back (gs : list (grow FN)) (s : lstate FN) : tr o p ea er gs s -> back_ok s.
Proof.
  intros H. induction H as [|gs s g s' Ht IH Hg Hit Hex].
  - pose proof B as (_ & _ & _ & _ & _ & Fb & _ & _ & _ & _ & Lb & _). unfold back_ok, init_state. cbn [l_t l_duty l_ton l_chg l_batt]. repeat split; assumption.
  - destruct (back_row s g IH Hit) as (_ & _ & _ & _ & _ & K). destruct (exit_next_hist _ _ _ _ Hex) as [n ->]. exact K.
Qed.
Lemma back_at fuel (o' : qlaw FN) (h : hist FN) k : ran fuel o ea er p o' h -> (k < length (h_controls h))%nat ->
  exists s g, back_ok s /\ row_facts o p ea er h k s g.
Proof.
  intros R Hk. destruct (ran_ended _ _ _ _ _ _ _ R) as (gs & oel & code & conv & En & -> & _).
  destruct (nth_error gs k) as [g|] eqn:X.
  - destruct (ended_facts _ _ _ _ _ _ _ _ En k g X) as (sk & Htr & RF). exists sk, g. split; [exact (tr_back _ _ Htr)|exact RF].
  - exfalso. apply nth_error_None in X. cbn in Hk. rewrite map_length in Hk. lia.
Qed.

Lemma C121_times_lem fuel (o' : qlaw FN) (h : hist FN) k : ran fuel o ea er p o' h -> (k < length (h_controls h))%nat ->
  exists t, nth_error (h_times h) k = Some t /\ nth_error (h_times h) (S k) = Some (nadd (Num:=FN) t (p_t_step p)) /\
    fle t f0 /\ fle (nadd (Num:=FN) t (p_t_step p)) t.
Proof.
  intros R Hk. destruct (back_at _ _ _ _ R Hk) as (s & g & K & RF). destruct (back_row s g K (rf_iter _ _ _ _ _ _ _ _ RF)) as (Et & T & _).
  exists (l_t s). split; [exact (rf_t _ _ _ _ _ _ _ _ RF)|]. split; [rewrite (rf_t' _ _ _ _ _ _ _ _ RF), Et; reflexivity|].
  split; [apply K|]. rewrite <- Et. exact T.
Qed.
Lemma C121_thrust_lem fuel (o' : qlaw FN) (h : hist FN) k : ran fuel o ea er p o' h -> (k < length (h_controls h))%nat ->
  throttle h k 1 \/ throttle h k 0 /\ law_coasts o p ea er h k.
Proof.
  intros R Hk. destruct (back_at _ _ _ _ R Hk) as (s & g & K & RF). destruct (back_row s g K (rf_iter _ _ _ _ _ _ _ _ RF)) as (_ & _ & _ & Du & _).
  pose proof (rf_c _ _ _ _ _ _ _ _ RF) as C.
  assert (T : throttle h k (c_thr (g_c g))) by (unfold throttle; rewrite nth_error_map, C; reflexivity).
  assert (Z01 : c_thr (g_c g) = 0%Z \/ c_thr (g_c g) = 1%Z).
  { destruct (ctl_inv _ _ _ _ _ _ _ _ (it_ctl _ _ _ _ _ _ (rf_iter _ _ _ _ _ _ _ _ RF))) as (? & ? & ? & _ & [(-> & _)|(-> & _)]); auto. }
  destruct Z01 as [E|E]; rewrite E in T; [right|left; exact T].
  split; [exact T|]. exact (ctl_coast _ _ _ _ _ _ _ _ RF Du E).
Qed.
Lemma C121_battery_lem fuel (o' : qlaw FN) (h : hist FN) k b b' : ran fuel o ea er p o' h ->
  nth_error (h_battery h) k = Some b -> nth_error (h_battery h) (S k) = Some b' ->
  flt (empty_level p) b /\ (b' = p_cap_hi p \/ fle b b' /\ fle b' (p_cap_hi p)).
Proof.
  intros R E1 E2. assert (Hk : (k < length (h_controls h))%nat).
  { destruct (ran_ended _ _ _ _ _ _ _ R) as (gs & oel & code & conv & En & -> & _). cbn in E2 |- *. rewrite map_length.
    destruct (nth_error gs k) as [g|] eqn:X; [apply nth_error_Some; rewrite X; discriminate|]. exfalso. rewrite nth_error_map, X in E2. discriminate. }
  destruct (back_at _ _ _ _ R Hk) as (s & g & K & RF). destruct (back_row s g K (rf_iter _ _ _ _ _ _ _ _ RF)) as (_ & _ & _ & _ & Q & _).
  rewrite (rf_b _ _ _ _ _ _ _ _ RF) in E1. injection E1 as <-. rewrite (rf_b' _ _ _ _ _ _ _ _ RF) in E2. injection E2 as <-.
  split; [apply K|exact Q].
Qed.

(** ** Mass *)
Definition gain_ok (m : f64) : Prop := num64 (f_val m) /\ f_val m <> S754_infinity true.
Lemma gain (m : @car FN) : gain_ok m -> fin (p_mdot p) -> fle f0 (p_mdot p) ->
  fle m (nsub (Num:=FN) m (nmul (Num:=FN) (p_mdot p) (p_t_step p))).
Proof.
  intros [M1 M2] Fm Pm. pose proof B as (_ & _ & Ft & Pt & _). unfold fle. cbn [nsub nmul FNum]. rewrite v_sub, v_mul.
  pose proof (fin_mul _ _ Fm Ft) as Nm.
  assert (Np : SFleb (SFmul 53 1024 (f_val (p_mdot p)) (f_val (p_t_step p))) (S754_zero false) = true) by (apply SFmul_nonpos_r; try apply f_ok; assumption).
  apply SFsub_ge; [apply f_ok|exact M1|exact Np|].
  destruct (f_val m) as [sx|[|]| |sx mx ex] eqn:Em; try (elim M1; reflexivity); try (elim M2; reflexivity).
  - apply SFsub_num; [exact M1|exact Nm|]. left. split; discriminate.
  - destruct (SFmul 53 1024 (f_val (p_mdot p)) (f_val (p_t_step p))) as [?|[|]| |[|] ? ?]; cbn in *; try discriminate.
  - apply SFsub_num; [exact M1|exact Nm|]. left. split; discriminate.
Qed.
Lemma gain_next m m' : gain_ok m -> fle m m' -> gain_ok m'.
Proof.
  intros [M1 M2] H. split; [exact (leb_num_r _ _ H)|]. intros E. unfold fle in H. rewrite E in H. revert M1 M2 H.
  destruct (f_val m) as [|[|]| |]; cbn; congruence.
Qed.
Lemma mass_row (s : lstate FN) (g : grow FN) : back_ok s -> gain_ok (l_mass s) -> fin (p_mdot p) -> fle f0 (p_mdot p) -> iter o p ea er s g ->
  fle (l_mass s) (g_m g) /\ g_m g = (if Z.eqb (c_thr (g_c g)) 1 then nsub (Num:=FN) (l_mass s) (nmul (Num:=FN) (p_mdot p) (p_t_step p)) else l_mass s).
Proof.
  intros K M Fm Pm Hit. destruct (iter_vals _ _ _ _ _ _ _ Hit) as (_ & Em & _). destruct (back_row s g K Hit) as (_ & _ & D & _).
  rewrite D in Em. split; [|exact Em]. rewrite Em. destruct (Z.eqb (c_thr (g_c g)) 1); [apply gain; assumption|]. apply leb_refl. apply M.
Qed.
Lemma tr_gain (gs : list (grow FN)) (s : lstate FN) : fin (p_mass0 p) -> fin (p_mdot p) -> fle f0 (p_mdot p) -> tr o p ea er gs s -> gain_ok (l_mass s).
Proof.
  intros F0 Fm Pm H. induction H as [|gs s g s' Ht IH Hg Hit Hex].
  - split; [apply fin_num; exact F0|]. intros E. cbn [init_state l_mass] in E. unfold fin in F0. rewrite E in F0. exact F0.
  - destruct (mass_row s g (tr_back _ _ Ht) IH Fm Pm Hit) as [A _]. destruct (exit_next_hist _ _ _ _ Hex) as [n ->]. exact (gain_next _ _ IH A).
Qed.
Lemma C121_mass_lem fuel (o' : qlaw FN) (h : hist FN) k m m' : fin (p_mass0 p) -> fin (p_mdot p) -> fle f0 (p_mdot p) -> ran fuel o ea er p o' h ->
  nth_error (h_masses h) k = Some m -> nth_error (h_masses h) (S k) = Some m' ->
  fle m m' /\ (throttle h k 1 -> m' = nsub (Num:=FN) m (nmul (Num:=FN) (p_mdot p) (p_t_step p))) /\ (throttle h k 0 -> m' = m).
Proof.
  intros F0 Fm Pm R E1 E2.
  destruct (ran_ended _ _ _ _ _ _ _ R) as (gs & oel & code & conv & En & -> & _).
  assert (exists g, nth_error gs k = Some g) as [g Hg].
  { cbn in E2. destruct (nth_error gs k) as [g|] eqn:X; [eauto|]. exfalso. rewrite nth_error_map, X in E2. discriminate. }
  destruct (ended_facts _ _ _ _ _ _ _ _ En k g Hg) as (sk & Htr & RF).
  destruct (mass_row sk g (tr_back _ _ Htr) (tr_gain _ _ F0 Fm Pm Htr) Fm Pm (rf_iter _ _ _ _ _ _ _ _ RF)) as [A Em].
  rewrite (rf_m _ _ _ _ _ _ _ _ RF) in E1. injection E1 as <-. rewrite (rf_m' _ _ _ _ _ _ _ _ RF) in E2. injection E2 as <-.
  split; [exact A|]. pose proof (rf_c _ _ _ _ _ _ _ _ RF) as C.
  split; intros T; unfold throttle in T; rewrite nth_error_map, C in T; cbn in T; injection T as T; rewrite T in Em; exact Em.
Qed.
End Back.
