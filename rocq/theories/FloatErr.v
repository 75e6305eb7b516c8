(** Accumulated rounding of the recorded times and masses. *)
From Coq Require Import Reals Lra Lia ZArith List Bool Floats.SpecFloat.
From Verif Require Import Num Base Elements Perturb Qlaw Trace Spec SolveProofs ExitProofs GateProofs
  Float64 FloatSpec FloatProofs FloatMono FloatRun FloatDuty FloatTerm ErrSpec.
Import ListNotations.
Local Open Scope R_scope.

Lemma two_nz : 2 <> 0.
Proof. lra. Qed.
Lemma IZR_pow2 n : (0 <= n)%Z -> IZR (2 ^ n) = powerRZ 2 n.
Proof.
  intros H. rewrite <- (Z2Nat.id n H). rewrite <- pow_IZR. rewrite <- pow_powerRZ. reflexivity.
Qed.
Lemma p2_pos n : 0 < powerRZ 2 n.
Proof. apply powerRZ_lt. lra. Qed.
Lemma p2_add a b : powerRZ 2 (a + b) = powerRZ 2 a * powerRZ 2 b.
Proof. apply powerRZ_add. lra. Qed.
Lemma p2_le a b : (a <= b)%Z -> powerRZ 2 a <= powerRZ 2 b.
Proof.
  intros H. replace b with (a + (b - a))%Z by lia. rewrite p2_add. rewrite <- (IZR_pow2 (b - a)) by lia.
  assert (1 <= 2 ^ (b - a))%Z by (apply Z.lt_pred_le; apply pow2_pos; lia). apply IZR_le in H0. pose proof (p2_pos a). nra.
Qed.

(** values on the finest grid *)
Definition fine : R := powerRZ 2 (-1074).
Lemma real_zv x : real64 x = IZR (zv (f_val x)) * fine.
Proof.
  unfold real64, fine. pose proof (f_ok x) as V. destruct (f_val x) as [s|s| |s m e]; cbn [zv]; try lra.
  pose proof (e_low _ _ V) as E. assert (K : IZR (Zpos m * 2 ^ (e + 1074)) = IZR (Zpos m) * powerRZ 2 (e + 1074)) by (rewrite mult_IZR, IZR_pow2 by lia; reflexivity).
  replace (powerRZ 2 e) with (powerRZ 2 (e + 1074) * powerRZ 2 (-1074)) by (rewrite <- p2_add; f_equal; lia).
  destruct s; unfold cond_Zopp; [rewrite opp_IZR|]; rewrite K; ring.
Qed.
Lemma fine_pos : 0 < fine.
Proof. apply p2_pos. Qed.

Lemma rounds_err V x : rounds V x -> finite64 x -> (2 ^ 53 * Z.abs (zv x - V) <= Z.abs V)%Z.
Proof.
  assert (A : forall V m, (0 < V)%Z -> near m V (unit V) -> (2 ^ 53 * Z.abs (m * 2 ^ unit V - V) <= V)%Z).
  { intros W m P [N _]. destruct (unit_bounds W P) as (U1 & _ & U2). destruct (Z.eq_dec (unit W) 0) as [E|E].
    - rewrite E in *. change (2 ^ 0)%Z with 1%Z in *. assert (Z.abs (m * 1 - W) = 0)%Z by lia. lia.
    - specialize (U2 ltac:(lia)). rewrite Z.pow_add_r in U2 by lia. set (d := Z.abs (m * 2 ^ unit W - W)) in *. lia. }
  intros R Fx. destruct R as [s|W m x P N M|W m x P N M].
  - cbn. lia.
  - specialize (A _ _ P N). destruct M as [x E1 E2 E3|]; [|contradiction]. cbn [cond_Zopp] in E1. rewrite E1. lia.
  - specialize (A _ _ P N). destruct M as [x E1 E2 E3|]; [|contradiction]. cbn [cond_Zopp] in E1. rewrite E1.
    replace (- (m * 2 ^ unit W) - - W)%Z with (- (m * 2 ^ unit W - W))%Z by lia. rewrite !Z.abs_opp. lia.
Qed.
Lemma u53_eq : u53 * IZR (2 ^ 53) = 1.
Proof. unfold u53. rewrite IZR_pow2 by lia. rewrite <- p2_add. reflexivity. Qed.
Lemma u53_pos : 0 < u53.
Proof. apply p2_pos. Qed.
Lemma rounds_real V (x : f64) : rounds V (f_val x) -> fin x -> Rabs (real64 x - IZR V * fine) <= u53 * Rabs (IZR V * fine).
Proof.
  intros R F. pose proof (rounds_err _ _ R (fin64 _ F)) as E. apply IZR_le in E. rewrite mult_IZR, !abs_IZR, minus_IZR in E.
  rewrite real_zv. replace (IZR (zv (f_val x)) * fine - IZR V * fine) with ((IZR (zv (f_val x)) - IZR V) * fine) by ring.
  rewrite !Rabs_mult, (Rabs_right fine) by (left; apply fine_pos). rewrite <- Rmult_assoc.
  apply Rmult_le_compat_r; [left; apply fine_pos|]. pose proof u53_eq. pose proof u53_pos.
  apply (Rmult_le_compat_l u53) in E; [|lra]. rewrite <- Rmult_assoc, H, Rmult_1_l in E. exact E.
Qed.

Lemma mul_exp mx ex my ey : bounded 53 1024 mx ex = true -> bounded 53 1024 my ey = true ->
  let k := fexp64 (Zdigits2 (Zpos (mx * my)) + (ex + ey)) in (ex + ey <= k)%Z /\ (k <> (-1074)%Z -> k = (Zdigits2 (Zpos (mx * my)) + (ex + ey) - 53)%Z).
Proof.
  intros Bx By k. destruct (bounded_facts _ _ Bx) as (Fx & _ & _ & Mx). destruct (bounded_facts _ _ By) as (Fy & _ & _ & My).
  rewrite fexp_val in Fx, Fy. unfold k. rewrite fexp_val. split; [|lia].
  destruct (Z.eq_dec ex (-1074)) as [Ex|Ex]; [destruct (Z.eq_dec ey (-1074)) as [Ey|Ey]; [lia|]|].
  - specialize (My ltac:(lia)). assert (53 <= Zdigits2 (Zpos (mx * my)))%Z; [|lia]. apply digits_ge; [lia|].
    rewrite Pos2Z.inj_mul. change (2 ^ (53 - 1))%Z with (1 * 2 ^ 52)%Z. apply Z.mul_le_mono_nonneg; lia.
  - specialize (Mx ltac:(lia)). assert (53 <= Zdigits2 (Zpos (mx * my)))%Z; [|lia]. apply digits_ge; [lia|].
    rewrite Pos2Z.inj_mul. change (2 ^ (53 - 1))%Z with (2 ^ 52 * 1)%Z. apply Z.mul_le_mono_nonneg; lia.
Qed.

Section Ops.
Variable L : libm.
Notation FN := (FNum L).
Lemma add_err (x y : f64) : fin x -> fin y -> fin (nadd (Num:=FN) x y) ->
  Rabs (real64 (nadd (Num:=FN) x y) - (real64 x + real64 y)) <= u53 * Rabs (real64 x + real64 y).
Proof.
  intros Fx Fy F. rewrite (real_zv x), (real_zv y), <- Rmult_plus_distr_r, <- plus_IZR. apply rounds_real; [|exact F].
  cbn [nadd FNum]. rewrite v_add. apply add_rounds; try apply f_ok; apply fin64; assumption.
Qed.
Lemma sub_err (x y : f64) : fin x -> fin y -> fin (nsub (Num:=FN) x y) ->
  Rabs (real64 (nsub (Num:=FN) x y) - (real64 x - real64 y)) <= u53 * Rabs (real64 x - real64 y).
Proof.
  intros Fx Fy F. rewrite (real_zv x), (real_zv y), <- Rmult_minus_distr_r, <- minus_IZR. apply rounds_real; [|exact F].
  cbn [nsub FNum]. rewrite v_sub. apply sub_rounds; try apply f_ok; apply fin64; assumption.
Qed.

Lemma rounded_real s k m' x : rounded s k m' (f_val x) -> fin x -> real64 x = (if s then -1 else 1) * IZR m' * powerRZ 2 k.
Proof.
  unfold real64, fin. intros R F. destruct R as [R|p R R1 R2 R3|p R R1 R2 R3|R].
  - subst. ring.
  - subst. reflexivity.
  - rewrite R, R1. rewrite p2_add. change (2 ^ 53)%Z with (2 * 2 ^ 52)%Z. rewrite mult_IZR. change (powerRZ 2 1) with (2 * 1). ring.
  - contradiction.
Qed.
Lemma mul_err (x y : f64) : fin x -> fin y -> fin (nmul (Num:=FN) x y) ->
  Rabs (real64 (nmul (Num:=FN) x y) - real64 x * real64 y) <= u53 * Rabs (real64 x * real64 y) + tiny.
Proof.
  intros Fx Fy F. assert (T0 : 0 < tiny) by apply p2_pos. pose proof u53_pos as U0.
  assert (Z0 : forall w : f64, (exists b, f_val w = S754_zero b) -> real64 w = 0) by (intros w [b E]; unfold real64; rewrite E; reflexivity).
  assert (Tr : real64 (nmul (Num:=FN) x y) = 0 -> real64 x * real64 y = 0 ->
     Rabs (real64 (nmul (Num:=FN) x y) - real64 x * real64 y) <= u53 * Rabs (real64 x * real64 y) + tiny).
  { intros -> ->. rewrite Rminus_0_r, Rabs_R0. lra. }
  pose proof (f_ok x) as Vx. pose proof (f_ok y) as Vy.
  assert (Em : f_val (nmul (Num:=FN) x y) = SFmul 53 1024 (f_val x) (f_val y)) by (cbn [nmul FNum]; apply v_mul).
  destruct (f_val x) as [sx|sx| |sx mx ex] eqn:Ex; try (unfold fin in Fx; rewrite Ex in Fx; contradiction).
  { apply Tr; [apply Z0|rewrite (Z0 x); [ring|eauto]]. rewrite Em. unfold fin in Fy. destruct (f_val y); try contradiction; cbn [SFmul]; eauto. }
  destruct (f_val y) as [sy|sy| |sy my ey] eqn:Ey; try (unfold fin in Fy; rewrite Ey in Fy; contradiction).
  { apply Tr; [apply Z0|rewrite (Z0 y); [ring|eauto]]. rewrite Em. cbn [SFmul]. eauto. }
  cbn [SFmul] in Em. destruct (mul_exp mx ex my ey Vx Vy) as [K1 K2].
  set (k := fexp64 (Zdigits2 (Zpos (mx * my)) + (ex + ey))) in *.
  destruct (round_aux (xorb sx sy) (Zpos (mx * my)) (ex + ey) loc_Exact k) as (m' & R & _ & _ & N); [lia|reflexivity|exact K1|].
  specialize (N eq_refl). destruct N as [N _]. rewrite <- Em in R. rewrite (rounded_real _ _ _ _ R F).
  assert (Ep : real64 x * real64 y = (if xorb sx sy then -1 else 1) * IZR (Zpos (mx * my)) * powerRZ 2 (ex + ey)).
  { unfold real64. rewrite Ex, Ey, Pos2Z.inj_mul, mult_IZR, p2_add. destruct sx, sy; cbn [xorb]; ring. }
  rewrite Ep. set (M := Zpos (mx * my)) in *. set (e := (ex + ey)%Z) in *.
  apply IZR_le in N. rewrite mult_IZR, abs_IZR, minus_IZR, mult_IZR, IZR_pow2 in N by lia.
  assert (Pe : 0 < powerRZ 2 e) by apply p2_pos. assert (Mp : 0 < IZR M) by (apply IZR_lt; unfold M; lia).
  assert (Ek : powerRZ 2 k = powerRZ 2 (k - e) * powerRZ 2 e) by (rewrite <- p2_add; f_equal; lia).
  assert (Eabs : forall s : bool, Rabs (if s then -1 else 1) = 1) by (intros [|]; [rewrite Rabs_left by lra|rewrite Rabs_right by lra]; lra).
  replace ((if xorb sx sy then -1 else 1) * IZR m' * powerRZ 2 k - (if xorb sx sy then -1 else 1) * IZR M * powerRZ 2 e)
    with ((if xorb sx sy then -1 else 1) * (IZR m' * powerRZ 2 (k - e) - IZR M) * powerRZ 2 e) by (rewrite Ek; ring).
  rewrite !Rabs_mult, Eabs, (Rabs_right (powerRZ 2 e)), (Rabs_right (IZR M)) by lra. rewrite !Rmult_1_l.
  set (d := Rabs (IZR m' * powerRZ 2 (k - e) - IZR M)) in *.
  assert (Hd : d * powerRZ 2 e <= powerRZ 2 (k - 1)).
  { replace (k - 1)%Z with ((k - e) + e + (-1))%Z by lia. rewrite !p2_add. change (powerRZ 2 (-1)) with (/ (2 * 1)). nra. }
  destruct (Z.eq_dec k (-1074)) as [E|E].
  - rewrite E in Hd. change (-1074 - 1)%Z with (-1075)%Z in Hd. fold tiny in Hd.
    assert (0 <= u53 * (IZR M * powerRZ 2 e)) by (apply Rmult_le_pos; [lra|]; apply Rmult_le_pos; lra). lra.
  - destruct (Zdigits_bounds M ltac:(unfold M; lia)) as [[B1 _] B2]. specialize (K2 E).
    apply IZR_le in B1. rewrite IZR_pow2 in B1 by lia.
    assert (Hk : powerRZ 2 (k - 1) = u53 * (powerRZ 2 (Zdigits2 M - 1) * powerRZ 2 e)).
    { unfold u53. rewrite <- !p2_add. f_equal. unfold M, e in *. lia. }
    assert (u53 * (powerRZ 2 (Zdigits2 M - 1) * powerRZ 2 e) <= u53 * (IZR M * powerRZ 2 e)).
    { apply Rmult_le_compat_l; [lra|]. apply Rmult_le_compat_r; lra. }
    lra.
Qed.
End Ops.

Section Runs.
Variable L : libm.
Notation FN := (FNum L).
Variables (o : qlaw FN) (p : problem FN) (ea er : eta_arg FN).

Lemma Rabs_def2' x a : Rabs x <= a -> - a <= x <= a.
Proof. intros H. pose proof (Rle_abs x). pose proof (Rle_abs (- x)) as K. rewrite Rabs_Ropp in K. lra. Qed.
Lemma real_le x y : fin x -> fin y -> (fle x y <-> real64 x <= real64 y).
Proof.
  intros Fx Fy. rewrite (zle x y Fx Fy), !real_zv. pose proof fine_pos. split; intros H0.
  - apply Rmult_le_compat_r; [lra|]. apply IZR_le. exact H0.
  - apply le_IZR. apply Rmult_le_reg_r with fine; assumption.
Qed.
Lemma real_lt x y : fin x -> fin y -> (flt x y <-> real64 x < real64 y).
Proof.
  intros Fx Fy. rewrite (zlt x y Fx Fy), !real_zv. pose proof fine_pos. split; intros H0.
  - apply Rmult_lt_compat_r; [lra|]. apply IZR_lt. exact H0.
  - apply lt_IZR. apply Rmult_lt_reg_r with fine; assumption.
Qed.
Lemma real_f0 : real64 f0 = 0.
Proof. reflexivity. Qed.
Lemma real_abs x : real64 (nabs (Num:=FN) x) = Rabs (real64 x).
Proof.
  unfold real64. cbn [nabs FNum]. rewrite v_abs. destruct (f_val x) as [s|s| |s m e]; cbn [SFabs]; try (symmetry; apply Rabs_R0).
  assert (0 < IZR (Zpos m) * powerRZ 2 e) by (apply Rmult_lt_0_compat; [apply IZR_lt; lia|apply p2_pos]).
  destruct s; [rewrite Rabs_left by lra|rewrite Rabs_right by lra]; ring.
Qed.
Lemma fin_abs x : fin x -> fin (nabs (Num:=FN) x).
Proof. unfold fin. cbn [nabs FNum]. rewrite v_abs. destruct (f_val x); auto. Qed.

Hypotheses (F : forward64 o p) (Nd : ~ flt f0 (p_discharge p)).
Notation ts := (real64 (p_t_step p)).
Notation tf := (Rabs (real64 (p_tf_max p))).

Lemma ts_nneg : 0 <= ts.
Proof. rewrite <- real_f0. apply real_le; [exact I|apply F|apply F]. Qed.
(** times at which another step is made *)
Lemma start_facts (gs : list (grow FN)) (s : lstate FN) : fin (p_tf_max p) -> tr o p ea er gs s -> guard p s = true ->
  fin (l_t s) /\ 0 <= real64 (l_t s) < tf.
Proof.
  intros Ft T G. destruct (tr_ok L o p ea er _ _ F T) as [_ To]. assert (Fs := guard_fin L o p ea er _ _ T To G). split; [exact Fs|].
  split; [rewrite <- real_f0; apply real_le; [exact I|exact Fs|exact To]|].
  rewrite (guard_last L o p ea er _ _ T) in G. cbn [nltb FNum] in G. apply (real_lt _ _ (fin_abs _ Fs) (fin_abs _ Ft)) in G. rewrite !real_abs in G.
  eapply Rle_lt_trans; [apply Rle_abs|exact G].
Qed.

Section Time.
Hypothesis Ft : fin (p_tf_max p).
Lemma time_row (gs : list (grow FN)) (s : lstate FN) (g : grow FN) : tr o p ea er gs s -> guard p s = true -> iter o p ea er s g -> fin (g_t g) ->
  Rabs (real64 (g_t g) - (real64 (l_t s) + ts)) <= u53 * (tf + ts).
Proof.
  intros T G Hit Fg. destruct (start_facts _ _ Ft T G) as (Fs & S0 & S1). destruct (iter_vals L o p ea er s g Hit) as (Et & _).
  rewrite (full_step L o p ea er s g F Nd (proj1 (tr_ok L o p ea er _ _ F T)) Hit) in Et. rewrite Et in Fg |- *.
  pose proof (add_err L (l_t s) (p_t_step p) Fs (proj1 (proj2 F)) Fg) as E. pose proof ts_nneg. pose proof u53_pos.
  rewrite (Rabs_right (real64 (l_t s) + ts)) in E by lra. eapply Rle_trans; [exact E|]. apply Rmult_le_compat_l; lra.
Qed.
Lemma time_tr (gs : list (grow FN)) (s : lstate FN) : tr o p ea er gs s -> fin (l_t s) ->
  Rabs (real64 (l_t s) - INR (length gs) * ts) <= INR (length gs) * (u53 * (tf + ts)).
Proof.
  intros H. induction H as [|gs s g s' Ht IH Hg Hit Hex]; intros Fs.
  - cbn [length INR init_state l_t]. change (real64 (nofZ (Num:=FN) 0)) with 0. rewrite !Rmult_0_l, Rminus_0_r, Rabs_R0. lra.
  - destruct (start_facts _ _ Ft Ht Hg) as (Fl & _). specialize (IH Fl).
    destruct (exit_next_hist _ _ _ _ Hex) as [n ->]. cbn [with_nrel post l_t] in *. pose proof (time_row _ _ _ Ht Hg Hit Fs) as R.
    rewrite app_length. cbn [length]. rewrite plus_INR. change (INR 1) with 1. apply Rabs_le. apply Rabs_def2' in IH. apply Rabs_def2' in R. lra.
Qed.
End Time.

Lemma ctl_row fuel (o' : qlaw FN) (h : hist FN) k : ran fuel o ea er p o' h ->
  (nth_error (h_times h) (S k) <> None -> (k < length (h_controls h))%nat) /\ (nth_error (h_masses h) (S k) <> None -> (k < length (h_controls h))%nat).
Proof.
  intros R. destruct (ran_ended _ _ _ _ _ _ _ R) as (gs & oel & code & conv & En & -> & _). cbn. rewrite map_length.
  split; intros X; apply nth_error_Some; intros Y; apply X; rewrite nth_error_map, Y; reflexivity.
Qed.
Lemma C119_lem fuel (o' : qlaw FN) (h : hist FN) k t : fin (p_tf_max p) -> ran fuel o ea er p o' h -> nth_error (h_times h) k = Some t -> fin t ->
  Rabs (real64 t - INR k * ts) <= INR k * (u53 * (tf + ts)).
Proof.
  intros Ft R E Fk. destruct k as [|k].
  - destruct (ran_ended _ _ _ _ _ _ _ R) as (gs & oel & code & conv & En & -> & _). cbn in E. injection E as <-.
    match goal with |- context [real64 ?z] => change (real64 z) with 0 end. cbn [INR]. rewrite !Rmult_0_l, Rminus_0_r, Rabs_R0. lra.
  - assert (Hk : (k < length (h_controls h))%nat) by (apply (proj1 (ctl_row _ _ _ k R)); intros X; rewrite X in E; discriminate).
    destruct (row_of L o p ea er _ _ _ k R Hk) as (gs & sk & g & T & Lk & RF).
    rewrite (rf_t' _ _ _ _ _ _ _ _ RF) in E. injection E as <-. pose proof (rf_iter _ _ _ _ _ _ _ _ RF) as Hit. pose proof (rf_guard _ _ _ _ _ _ _ _ RF) as G.
    pose proof (time_row Ft _ _ _ T G Hit Fk) as E1. pose proof (time_tr Ft _ _ T (proj1 (start_facts _ _ Ft T G))) as E2. rewrite Lk in E2.
    rewrite S_INR. apply Rabs_le. apply Rabs_def2' in E1. apply Rabs_def2' in E2. lra.
Qed.
Lemma C119_count_lem fuel (o' : qlaw FN) (h : hist FN) : fin (p_tf_max p) -> ran fuel o ea er p o' h -> (forall t, In t (h_times h) -> fin t) ->
  let n := INR (length (h_controls h)) in
  ((0 < length (h_controls h))%nat -> (n - 1) * (ts - u53 * (tf + ts)) < tf) /\
  (fresh o -> q_exitcode o' = (-2)%Z -> tf <= n * (ts + u53 * (tf + ts))).
Proof.
  intros Ft R Fi n. split.
  - intros Hn. destruct (row_of L o p ea er _ _ _ (pred (length (h_controls h))) R ltac:(lia)) as (gs & sk & g & T & Lk & RF).
    pose proof (rf_guard _ _ _ _ _ _ _ _ RF) as G. destruct (start_facts _ _ Ft T G) as (Fs & _ & S1).
    pose proof (time_tr Ft _ _ T Fs) as E2. rewrite Lk in E2. apply Rabs_def2' in E2.
    replace (INR (pred (length (h_controls h)))) with (n - 1) in E2; [lra|]. unfold n. destruct (length (h_controls h)); [lia|]. rewrite S_INR. cbn [pred]. lra.
  - intros [Fr1 Fr2] X. destruct (ran_ended _ _ _ _ _ _ _ R) as (gs & oel & code & conv & En & Eh & Cv & Ec & _). rewrite Fr1, Fr2 in Ec.
    assert (Ln : n = INR (length gs)) by (unfold n; rewrite Eh; cbn; rewrite map_length; reflexivity).
    clearbody n. subst h. destruct En as [gs s Htr Hg|gs s g0 code conv s' Htr Hg Hit Hex|gs s pl Htr Hg H1 H2].
    + destruct (tr_ok L o p ea er _ _ F Htr) as [_ To].
      assert (Fs : fin (l_t s)).
      { apply Fi. destruct (tr_cur _ _ _ _ _ _ Htr) as (T1 & _). apply nth_error_In with (length gs). exact T1. }
      pose proof (time_tr Ft _ _ Htr Fs) as E2. apply Rabs_def2' in E2. rewrite (guard_last L o p ea er _ _ Htr) in Hg. cbn [nltb FNum] in Hg.
      assert (K : tf <= real64 (l_t s)).
      { destruct (Rle_or_lt tf (real64 (l_t s))) as [K|K]; [exact K|]. exfalso.
        assert (A : flt (nabs (Num:=FN) (l_t s)) (nabs (Num:=FN) (p_tf_max p))).
        { apply real_lt; try apply fin_abs; try assumption. rewrite !real_abs.
          rewrite (Rabs_right (real64 (l_t s))); [exact K|]. apply Rle_ge. rewrite <- real_f0. apply real_le; [exact I|exact Fs|exact To]. }
        unfold flt in A. cbn in A, Hg. congruence. }
      rewrite Ln. lra.
    + exfalso. pose proof (exit_cases o p (post g0)) as E. rewrite Hex in E. inversion E; subst; cbn in Ec; congruence.
    + exfalso. cbn in Ec. congruence.
Qed.

(** ** Mass *)
Lemma firstn_S {A} (l : list A) k x : nth_error l k = Some x -> firstn (S k) l = firstn k l ++ [x].
Proof.
  revert k. induction l as [|y l IH]; intros [|k] H; try discriminate; [injection H as ->; reflexivity|].
  cbn [nth_error] in H. cbn [firstn app]. f_equal. exact (IH k H).
Qed.
Lemma thrusts_S (h : hist FN) k al be thr : nth_error (h_controls h) k = Some (al, be, thr) -> thrusts h (S k) = (thrusts h k + if Z.eqb thr 1 then 1 else 0)%nat.
Proof.
  intros H. unfold thrusts. rewrite (firstn_S _ _ _ H), filter_app, app_length. f_equal. cbn [filter snd]. destruct (Z.eqb thr 1); reflexivity.
Qed.
Notation md := (real64 (p_mdot p)).
Notation m0 := (real64 (p_mass0 p)).
Lemma mass_err x y : fin x -> fin (p_mdot p) -> flt f0 (p_mdot p) -> fin y -> fle f0 y -> y = nsub (Num:=FN) x (nmul (Num:=FN) (p_mdot p) (p_t_step p)) ->
  real64 x <= m0 -> Rabs (real64 y - (real64 x - md * ts)) <= u53 * (m0 + md * ts) + tiny /\ real64 y <= m0.
Proof.
  intros Fx Fm Pm Fy Py Ey Hx. assert (Ft : fin (p_t_step p)) by apply F. pose proof ts_nneg as T0. pose proof u53_pos as U0.
  assert (M0 : 0 < md) by (rewrite <- real_f0; apply real_lt; [exact I|exact Fm|exact Pm]).
  set (q := nmul (Num:=FN) (p_mdot p) (p_t_step p)) in *.
  pose proof (mdot_dt L _ _ Fm Pm (proj1 (proj2 (proj2 F)))) as Q0. fold q in Q0.
  assert (Fq : fin q).
  { subst y. unfold fin in *. cbn [nsub FNum] in Fy. rewrite v_sub in Fy. unfold fle in Q0. revert Fy Q0. destruct (f_val q) as [|[|]| |]; intros; try exact I; try discriminate.
    destruct (f_val x); contradiction. }
  assert (R0 : 0 <= real64 q) by (rewrite <- real_f0; apply real_le; [exact I|exact Fq|exact Q0]).
  assert (Y0 : 0 <= real64 y) by (rewrite <- real_f0; apply real_le; [exact I|exact Fy|exact Py]).
  pose proof (mul_err L (p_mdot p) (p_t_step p) Fm Ft Fq) as E1. fold q in E1. rewrite (Rabs_right (md * ts)) in E1 by nra. rewrite Ey in Fy.
  pose proof (sub_err L x q Fx Fq Fy) as E2. rewrite <- Ey in E2.
  assert (U1 : u53 < 1).
  { pose proof u53_eq as K. change (IZR (2 ^ 53)) with 9007199254740992 in K. nra. }
  assert (D0 : 0 <= real64 x - real64 q).
  { destruct (Rle_or_lt 0 (real64 x - real64 q)) as [K|K]; [exact K|]. exfalso. rewrite (Rabs_left (real64 x - real64 q)) in E2 by exact K.
    apply Rabs_def2' in E2. nra. }
  rewrite (Rabs_right (real64 x - real64 q)) in E2 by lra. apply Rabs_def2' in E1. apply Rabs_def2' in E2.
  assert (u53 * (real64 x - real64 q) <= u53 * m0) by (apply Rmult_le_compat_l; lra).
  split; [apply Rabs_le; lra|].
  assert (A : fle y x).
  { subst y. unfold fle. cbn [nsub FNum]. rewrite v_sub. apply SFsub_le; [apply f_ok|apply fin_num; exact Fx|exact Q0|].
    unfold fin in Fx. intros E. rewrite E in Fx. exact Fx. }
  rewrite <- Ey in Fy. apply (real_le _ _ Fy Fx) in A. lra.
Qed.
Lemma C120_lem fuel (o' : qlaw FN) (h : hist FN) k m : fin (p_mass0 p) -> fin (p_mdot p) -> flt f0 (p_mdot p) -> ran fuel o ea er p o' h ->
  nth_error (h_masses h) k = Some m -> fle f0 m ->
  fin m /\ real64 m <= m0 /\ Rabs (real64 m - (m0 - INR (thrusts h k) * (md * ts))) <= INR (thrusts h k) * (u53 * (m0 + md * ts) + tiny).
Proof.
  intros F0 Fm Pm R. revert m. induction k as [|k IH]; intros m E Pk.
  - destruct (ran_ended _ _ _ _ _ _ _ R) as (gs & oel & code & conv & En & -> & _). cbn in E. injection E as <-.
    split; [exact F0|]. split; [lra|]. cbn [thrusts firstn filter length INR]. rewrite !Rmult_0_l, Rminus_0_r, Rminus_diag_eq, Rabs_R0 by reflexivity. lra.
  - assert (Hk : (k < length (h_controls h))%nat) by (apply (proj2 (ctl_row _ _ _ k R)); intros X; rewrite X in E; discriminate).
    destruct (row_of L o p ea er _ _ _ k R Hk) as (gs & sk & g & T & Lk & RF).
    rewrite (rf_m' _ _ _ _ _ _ _ _ RF) in E. injection E as <-. pose proof (rf_iter _ _ _ _ _ _ _ _ RF) as Hit.
    destruct (tr_ok L o p ea er _ _ F T) as [B _]. pose proof (tr_mass_ok L o p ea er _ _ F Fm Pm F0 T) as M.
    destruct (mass_step L o p ea er sk g F Fm Pm B M Hit) as [A [G1 G2]].
    assert (Pl : fle f0 (l_mass sk)) by (eapply fle_trans; eassumption).
    destruct (IH (l_mass sk) (rf_m _ _ _ _ _ _ _ _ RF) Pl) as (I1 & I2 & I3).
    assert (Fg : fin (g_m g)).
    { unfold fin, fle in *. revert G1 G2 Pk. destruct (f_val (g_m g)) as [|[|]| |]; auto; intros; try congruence; discriminate. }
    split; [exact Fg|].
    destruct (iter_vals L o p ea er sk g Hit) as (_ & Em & _). rewrite (full_step L o p ea er sk g F Nd B Hit) in Em.
    rewrite (thrusts_S h k _ _ _ (rf_c _ _ _ _ _ _ _ _ RF)). destruct (Z.eqb (c_thr (g_c g)) 1).
    + destruct (mass_err (l_mass sk) (g_m g) I1 Fm Pm Fg Pk Em I2) as [E1 E2]. split; [exact E2|].
      rewrite plus_INR. change (INR 1) with 1. apply Rabs_le. apply Rabs_def2' in I3. apply Rabs_def2' in E1. lra.
    + rewrite Nat.add_0_r, Em. split; assumption.
Qed.
End Runs.
