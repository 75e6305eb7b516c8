(** Runs of [solve] in double precision. *)
From Coq Require Import ZArith List Bool Lia Floats.SpecFloat.
From Verif Require Import Num Base Elements Integrate Eom Convergence Lyapunov Perturb Qlaw Trace Spec SolveProofs ExitProofs GateProofs
  Float64 FloatSpec FloatProofs.
Import ListNotations.

(** ** Doubles on a dyadic grid *)
Section Grid.
Local Open Scope Z_scope.
Variable e : Z.
Hypotheses (E1 : -1074 <= e) (E2 : e <= 971).

Lemma worth_pos x a : worth x a e -> 0 < a < 2 ^ 53 ->
  exists m ex, f_val x = S754_finite false m ex /\ bounded 53 1024 m ex = true /\ ex <= e /\ Zpos m = a * 2 ^ (e - ex) /\ ex = fexp64 (Zdigits2 a + e).
Proof.
  unfold worth. intros H A. pose proof (f_ok x) as V. destruct (f_val x) as [s|s| |[|] m ex]; try contradiction; [lia|].
  exists m, ex. split; [reflexivity|]. split; [exact V|]. destruct (bounded_facts _ _ V) as (F & L & M1 & M2).
  assert (X : ex <= e).
  { destruct (Z.lt_ge_cases e ex) as [K|K]; [|exact K]. exfalso. specialize (M2 ltac:(lia)). replace (Z.min e ex) with e in H by lia.
    rewrite Z.sub_diag, Z.mul_1_r in H. assert (2 ^ 1 <= 2 ^ (ex - e)) by (apply Z.pow_le_mono_r; lia). change (2 ^ 1) with 2 in *.
    assert (2 ^ 52 * 2 <= Zpos m * 2 ^ (ex - e)) by (apply Z.mul_le_mono_nonneg; lia). change (2 ^ 53) with (2 ^ 52 * 2) in A. lia. }
  split; [exact X|]. replace (Z.min e ex) with ex in H by lia. rewrite Z.sub_diag, Z.mul_1_r in H. split; [exact H|].
  rewrite <- F. f_equal. change (Z.pos (digits2_pos m)) with (Zdigits2 (Zpos m)). rewrite H.
  destruct (Zdigits_bounds a ltac:(lia)) as [[B1 B2] B3]. assert (P := pow2_pos (e - ex) ltac:(lia)).
  rewrite (digits_unique (a * 2 ^ (e - ex)) (Zdigits2 a + (e - ex))); [lia|lia|].
  replace (Zdigits2 a + (e - ex) - 1) with ((Zdigits2 a - 1) + (e - ex)) by lia. rewrite !Z.pow_add_r by lia.
  split; [apply Z.mul_le_mono_nonneg_r; lia|apply Z.mul_lt_mono_pos_r; lia].
Qed.
Lemma worth_zero x : worth x 0 e -> exists s, f_val x = S754_zero s.
Proof.
  unfold worth. destruct (f_val x) as [s|s| |[|] m ex]; try contradiction; [eauto|]. intros H. exfalso.
  assert (P := pow2_pos (ex - Z.min e ex) ltac:(lia)). nia.
Qed.
Lemma worth_nonneg x a : worth x a e -> 0 <= a.
Proof.
  unfold worth. destruct (f_val x) as [s|s| |[|] m ex]; try contradiction; [lia|]. intros H.
  assert (P := pow2_pos (ex - Z.min e ex) ltac:(lia)). assert (P' := pow2_pos (e - Z.min e ex) ltac:(lia)). nia.
Qed.
Lemma worth_fin x a : worth x a e -> fin x /\ fle f0 x.
Proof. unfold worth, fin, fle. destruct (f_val x) as [s|s| |[|] m ex]; try contradiction; auto. Qed.

Lemma worth_add {L} x y a b : worth x a e -> worth y b e -> a + b < 2 ^ 53 -> worth (nadd (Num:=FNum L) x y) (a + b) e.
Proof.
  intros Wx Wy S. pose proof (worth_nonneg _ _ Wx) as Na. pose proof (worth_nonneg _ _ Wy) as Nb.
  unfold worth at 1. cbn [nadd FNum]. rewrite v_add.
  destruct (Z.eq_dec a 0) as [->|Za]; destruct (Z.eq_dec b 0) as [->|Zb].
  - destruct (worth_zero _ Wx) as [s1 ->]. destruct (worth_zero _ Wy) as [s2 ->]. cbn. destruct (Bool.eqb s1 s2); reflexivity.
  - destruct (worth_zero _ Wx) as [s1 ->]. unfold worth in Wy. destruct (f_val y) as [s|s| |[|] m ex]; try contradiction. cbn [SFadd]. exact Wy.
  - destruct (worth_zero _ Wy) as [s1 ->]. unfold worth in Wx. destruct (f_val x) as [s|s| |[|] m ex]; try contradiction. cbn [SFadd].
    rewrite Z.add_0_r. exact Wx.
  - destruct (worth_pos x a Wx ltac:(lia)) as (mx & ex & -> & Bx & Lx & Mx & _). destruct (worth_pos y b Wy ltac:(lia)) as (my & ey & -> & By & Ly & My & _).
    cbn [SFadd]. destruct (add_align mx ex my ey) as [A1 A2]. rewrite A1, A2. cbn [cond_Zopp]. set (ez := Z.min ex ey).
    assert (X : Zpos mx * 2 ^ (ex - ez) + Zpos my * 2 ^ (ey - ez) = (a + b) * 2 ^ (e - ez)).
    { rewrite Mx, My, <- !Z.mul_assoc, <- !Z.pow_add_r by lia. replace (e - ex + (ex - ez)) with (e - ez) by lia.
      replace (e - ey + (ey - ez)) with (e - ez) by lia. lia. }
    rewrite X. destruct (a + b) as [|n|n] eqn:En; [lia| |lia].
    assert (P := pow2_pos (e - ez) ltac:(lia)).
    destruct (exact_round false n e (e - ez)) as (pp & R & Kk & Vp).
    + destruct (Zdigits_bounds (Zpos n) ltac:(lia)) as [[B1 _] _]. change (Zdigits2 (Zpos n)) with (Z.pos (digits2_pos n)) in B1.
      assert (2 ^ (Z.pos (digits2_pos n) - 1) < 2 ^ 53) as Y by lia. apply Z.pow_lt_mono_r_iff in Y; lia.
    + exact E1.
    + destruct (Zdigits_bounds (Zpos n) ltac:(lia)) as [[B1 _] _]. change (Zdigits2 (Zpos n)) with (Z.pos (digits2_pos n)) in B1.
      assert (2 ^ (Z.pos (digits2_pos n) - 1) < 2 ^ 53) as Y by lia. apply Z.pow_lt_mono_r_iff in Y; lia.
    + lia.
    + replace (e - (e - ez)) with ez in R by lia.
      assert (Q : 0 < Zpos n * 2 ^ (e - ez)) by (apply Z.mul_pos_pos; lia).
      destruct (Zpos n * 2 ^ (e - ez)) as [|q|q] eqn:Eq; [lia| |lia]. cbn [Z.to_pos] in R. cbn [binary_normalize]. rewrite R.
      set (k := fexp64 (Z.pos (digits2_pos n) + e)) in *. replace (Z.min e k) with k by lia. rewrite Z.sub_diag, Z.mul_1_r. exact Vp.
Qed.

Lemma worth_ltb x y a b : worth x a e -> worth y b e -> a < 2 ^ 53 -> b < 2 ^ 53 -> SFltb (f_val x) (f_val y) = (a <? b).
Proof.
  intros Wx Wy Sa Sb. pose proof (worth_nonneg _ _ Wx) as Na. pose proof (worth_nonneg _ _ Wy) as Nb.
  destruct (Z.eq_dec a 0) as [->|Za]; destruct (Z.eq_dec b 0) as [->|Zb].
  - destruct (worth_zero _ Wx) as [s1 ->]. destruct (worth_zero _ Wy) as [s2 ->]. reflexivity.
  - destruct (worth_zero _ Wx) as [s1 ->]. destruct (worth_pos y b Wy ltac:(lia)) as (my & ey & -> & _). cbn. symmetry. apply Z.ltb_lt. lia.
  - destruct (worth_zero _ Wy) as [s1 ->]. destruct (worth_pos x a Wx ltac:(lia)) as (my & ey & -> & _). cbn. symmetry. apply Z.ltb_ge. lia.
  - destruct (worth_pos x a Wx ltac:(lia)) as (mx & ex & -> & Bx & Lx & Mx & Kx). destruct (worth_pos y b Wy ltac:(lia)) as (my & ey & -> & By & Ly & My & Ky).
    set (ez := Z.min ex ey).
    assert (Vx : sval false mx ex ez = a * 2 ^ (e - ez)).
    { unfold sval. cbn [cond_Zopp]. rewrite Mx, <- Z.mul_assoc, <- Z.pow_add_r by lia. do 2 f_equal. lia. }
    assert (Vy : sval false my ey ez = b * 2 ^ (e - ez)).
    { unfold sval. cbn [cond_Zopp]. rewrite My, <- Z.mul_assoc, <- Z.pow_add_r by lia. do 2 f_equal. lia. }
    assert (P := pow2_pos (e - ez) ltac:(lia)).
    destruct (SFltb (S754_finite false mx ex) (S754_finite false my ey)) eqn:T; symmetry.
    + apply Z.ltb_lt. apply ltb_key in T as (_ & _ & T).
      pose proof (key_val false mx ex false my ey ez Bx By ltac:(lia) ltac:(lia) (kle_total _ _ T)) as V. rewrite Vx, Vy in V.
      assert (a <= b) by (apply (Z.mul_le_mono_pos_r _ _ (2 ^ (e - ez))); [exact P|exact V]).
      destruct (Z.eq_dec a b) as [<-|]; [|lia]. exfalso. apply T.
      assert (Ee : ex = ey) by congruence. rewrite <- Ee in My |- *. assert (Em : mx = my) by congruence. rewrite <- Em. apply kle_refl.
    + apply Z.ltb_ge. apply nltb_le in T; [|discriminate|discriminate]. apply leb_key in T as (_ & _ & T).
      pose proof (key_val false my ey false mx ex ez By Bx ltac:(lia) ltac:(lia) T) as V. rewrite Vx, Vy in V.
      apply (Z.mul_le_mono_pos_r _ _ (2 ^ (e - ez))); [exact P|exact V].
Qed.
Lemma worth_abs {L} x a : worth x a e -> worth (nabs (Num:=FNum L) x) a e.
Proof.
  unfold worth. cbn [nabs FNum]. rewrite v_abs. destruct (f_val x) as [s|s| |[|] m ex]; try contradiction; auto.
Qed.
End Grid.

Section Run.
Variable L : libm.
Notation FN := (FNum L).
Variables (o : qlaw FN) (p : problem FN) (ea er : eta_arg FN).

Lemma fin_num x : fin x -> num64 (f_val x).
Proof. unfold fin, num64. destruct (f_val x); try discriminate; contradiction. Qed.
Lemma fin64 x : fin x -> finite64 (f_val x).
Proof. unfold fin, finite64. destruct (f_val x); auto. Qed.
Lemma fin_mul x y : fin x -> fin y -> num64 (SFmul 53 1024 (f_val x) (f_val y)).
Proof.
  unfold fin. intros Hx Hy. pose proof (f_ok x) as Vx. pose proof (f_ok y) as Vy.
  destruct (f_val x) as [sx|sx| |sx mx ex]; try contradiction; destruct (f_val y) as [sy|sy| |sy my ey]; try contradiction; try discriminate.
  cbn [SFmul]. destruct (mul_round (xorb sx sy) mx ex my ey Vx Vy) as (k & m' & R). destruct R; discriminate.
Qed.
Lemma between_fin lo x hi : fin lo -> fin hi -> fle lo x -> fle x hi -> fin x.
Proof.
  unfold fin, fle. destruct (f_val lo), (f_val hi); try contradiction; intros _ _; destruct (f_val x) as [|[|]| |]; cbn; try discriminate; auto.
Qed.
Lemma clip_cases x lo hi : num64 (f_val lo) -> num64 (f_val hi) ->
  let c := npclip (N:=FN) x lo hi in (isnan x /\ c = x) \/ (num64 (f_val x) /\ (c = lo \/ c = hi \/ c = x /\ fle lo x /\ fle x hi) /\ (fle lo hi -> fle lo c /\ fle c hi)).
Proof.
  intros Nl Nh c. destruct (num_dec (f_val x)) as [Nx|Nx].
  - right. split; [exact Nx|]. unfold c, npclip, fle. cbn [nltb FNum].
    destruct (SFltb (f_val x) (f_val lo)) eqn:E1.
    + destruct (SFltb (f_val hi) (f_val lo)) eqn:E2.
      * split; [auto|]. intros K. elim (ltb_not _ _ E2 K).
      * split; [auto|]. intros K. split; [apply leb_refl; assumption|exact K].
    + apply nltb_le in E1; [|assumption|assumption]. destruct (SFltb (f_val hi) (f_val x)) eqn:E2.
      * split; [auto|]. intros K. split; [exact K|apply leb_refl; assumption].
      * apply nltb_le in E2; [|assumption|assumption]. split; [right; right|]; auto.
  - left. split; [exact Nx|]. unfold c, npclip. cbn [nltb FNum]. rewrite Nx. cbn [SFltb SFcompare].
    assert (forall z, SFltb z S754_nan = false) as Z by (intros [| | |]; reflexivity). rewrite Nx. rewrite Z. reflexivity.
Qed.

(** the step an iteration takes is not negative, and where it was shortened the battery drains *)
Definition batt_ok (b : f64) : Prop := isnan b \/ fin b.
Lemma eps_ok : fle f0 (dec (N:=FN) 1 12) /\ fin (dec (N:=FN) 1 12).
Proof. split; vm_compute; auto. Qed.

Lemma shorten (b dt : @car FN) : fin (p_cap_lo p) -> fin (p_discharge p) -> batt_ok b -> num64 (f_val dt) -> fle f0 dt ->
  nleb (Num:=FN) b (nadd (Num:=FN) (p_cap_lo p) (dec (N:=FN) 1 12)) = false ->
  nltb (Num:=FN) (nsub (Num:=FN) b (nmul (Num:=FN) (p_discharge p) dt)) (p_cap_lo p) = true ->
  flt f0 (p_discharge p) /\ fle f0 (ndiv (Num:=FN) (nsub (Num:=FN) b (p_cap_lo p)) (p_discharge p)).
Proof.
  intros Fl Fd Bo Nd Pd H1 H2. cbn [nleb nltb nsub nadd nmul ndiv FNum] in *.
  rewrite v_add in H1. rewrite v_sub, v_mul in H2.
  set (lo := p_cap_lo p) in *. set (dis := p_discharge p) in *.
  assert (Ns : num64 (SFsub 53 1024 (f_val b) (SFmul 53 1024 (f_val dis) (f_val dt)))).
  { apply ltb_key in H2. tauto. }
  assert (Nb : num64 (f_val b)). { intros E. apply Ns. rewrite E. reflexivity. }
  assert (Nm : num64 (SFmul 53 1024 (f_val dis) (f_val dt))). { intros E. apply Ns. rewrite E. destruct (f_val b) as [?|?| |]; reflexivity. }
  destruct Bo as [Bo|Fb]; [elim Nb; exact Bo|].
  assert (LE : SFleb (f_val lo) (f_val b) = true).
  { destruct eps_ok as [E1 E2]. assert (G : SFleb (f_val lo) (SFadd 53 1024 (f_val lo) (f_val (dec (N:=FN) 1 12))) = true).
    { apply SFadd_ge; [apply f_ok|apply fin_num; assumption|exact E1|]. intros E. unfold fin in Fl. rewrite E in Fl. exact Fl. }
    eapply leb_trans; [exact G|]. apply ltb_leb. apply nleb_lt; [exact Nb|exact (leb_num_r _ _ G)|exact H1]. }
  assert (D : SFltb (S754_zero false) (f_val dis) = true).
  { destruct (SFltb (S754_zero false) (f_val dis)) eqn:E; [reflexivity|]. exfalso.
    apply nltb_le in E; [|discriminate|apply fin_num; assumption].
    assert (M : SFleb (SFmul 53 1024 (f_val dis) (f_val dt)) (S754_zero false) = true).
    { apply SFmul_nonpos; try apply f_ok; try assumption. }
    assert (G := SFsub_ge (f_val b) _ (f_ok b) Nb M Ns).
    exact (ltb_not _ _ H2 (leb_trans _ _ _ LE G)). }
  split; [exact D|]. unfold fle. rewrite v_div, v_sub.
  assert (S : nonneg (SFsub 53 1024 (f_val b) (f_val lo))).
  { apply SFsub_nonneg; try apply f_ok; try apply fin64; assumption. }
  apply SFdiv_nonneg; [exact S|exact D|].
  unfold fin in Fd. destruct (nonneg_cases _ S) as [[s ->]|[->|(mx & ex & ->)]]; destruct (f_val dis) as [sy|[|]| |[|] my ey]; try contradiction;
    cbn in D; try discriminate D; try discriminate.
  unfold SFdiv. destruct (div_round (xorb false false) mx ex my ey) as (k & m' & R). destruct R; discriminate.
Qed.

Lemma plan_dt (s : lstate FN) (pl : plan_t FN) : forward64 o p -> batt_ok (l_batt s) -> plan o p s = Ok pl ->
  fle f0 (pl_dt pl) /\ (fin (pl_dt pl) \/ flt f0 (p_discharge p)).
Proof.
  intros (Sd & Ft & Pt & Fb & Fl & Fh & Fd) Bo H. unfold plan, local_step in H. rewrite Sd in H. cbn [bind] in H.
  destruct (duty_phase p (l_t s) (l_duty s) (l_ton s) (l_toff s)) as [[d1 ton] toff].
  destruct (battery_phase p (l_t s) (l_batt s) (p_t_step p) d1 toff (l_chg s)) as [[[dt d2] toff2] chg] eqn:E.
  injection H as <-. cbn [pl_dt]. unfold battery_phase in E.
  destruct (nleb (l_batt s) (nadd (p_cap_lo p) (dec (N:=FN) 1 12))) eqn:E1; [injection E as <- _ _ _; auto|].
  destruct (nltb (nsub (l_batt s) (nmul (p_discharge p) (p_t_step p))) (p_cap_lo p)) eqn:E2; cbn [andb] in E; [|injection E as <- _ _ _; auto].
  destruct (l_chg s); cbn [negb] in E; [injection E as <- _ _ _; auto|]. injection E as <- _ _ _.
  destruct (shorten (l_batt s) (p_t_step p) Fl Fd Bo (fin_num _ Ft) Pt E1 E2) as [A B]. auto.
Qed.

Lemma iter_vals (s : lstate FN) (g : grow FN) : iter o p ea er s g ->
  g_t g = nadd (l_t s) (pl_dt (g_pl g)) /\
  g_m g = (if Z.eqb (c_thr (g_c g)) 1 then nsub (l_mass s) (nmul (p_mdot p) (pl_dt (g_pl g))) else l_mass s) /\
  (q_integ o = RK4 -> g_dtb g = pl_dt (g_pl g)) /\
  g_b g = npclip (if pl_duty (g_pl g) then nsub (l_batt s) (nmul (p_discharge p) (g_dtb g)) else nadd (l_batt s) (nmul (p_charge p) (g_dtb g)))
            (p_cap_lo p) (p_cap_hi p).
Proof.
  intros Hit. destruct (iter_sfields _ _ _ _ _ _ Hit) as (S1 & S2 & S3 & _).
  pose proof (it_prop _ _ _ _ _ _ Hit) as P. pose proof (it_batt _ _ _ _ _ _ Hit) as B. unfold propagate in P. rewrite S1, S2 in P. rewrite S3 in B.
  split; [|split; [|split]].
  - destruct (q_integ o).
    + match type of P with bind ?x _ = _ => destruct x end; [|discriminate]. cbn [bind] in P. congruence.
    + match type of P with bind ?x _ = _ => destruct x as [[? ?]|] end; [|discriminate]. cbn [bind] in P. congruence.
  - destruct (q_integ o).
    + match type of P with bind ?x _ = _ => destruct x end; [|discriminate]. cbn [bind] in P. congruence.
    + match type of P with bind ?x _ = _ => destruct x as [[? ?]|] end; [|discriminate]. cbn [bind] in P. congruence.
  - intros E. rewrite E in P. match type of P with bind ?x _ = _ => destruct x end; [|discriminate]. cbn [bind] in P. congruence.
  - unfold battery_update in B. destruct (pl_duty (g_pl g)); congruence.
Qed.
Lemma iter_plan_s (s : lstate FN) (g : grow FN) : iter o p ea er s g -> plan o p (g_s g) = Ok (g_pl g) /\ l_batt (g_s g) = l_batt s.
Proof. intros Hit. split; [exact (it_plan _ _ _ _ _ _ Hit)|]. apply (iter_sfields _ _ _ _ _ _ Hit). Qed.

(** what every state at the while test satisfies *)
Definition mass_ok (m : f64) : Prop := num64 (f_val m) /\ f_val m <> S754_infinity false.
Definition time_ok (t : f64) : Prop := fle f0 t.

Lemma row_step (s : lstate FN) (g : grow FN) : forward64 o p -> batt_ok (l_batt s) -> time_ok (l_t s) -> iter o p ea er s g ->
  fle (l_t s) (g_t g) /\ time_ok (g_t g) /\ batt_ok (g_b g).
Proof.
  intros F Bo T Hit. destruct (iter_vals _ _ Hit) as (Et & _ & _ & Eb). destruct (iter_plan_s _ _ Hit) as [Pl Eb0].
  destruct (plan_dt (g_s g) (g_pl g) F ltac:(rewrite Eb0; exact Bo) Pl) as [D _].
  assert (A : fle (l_t s) (g_t g)).
  { rewrite Et. unfold fle. cbn [nadd FNum]. rewrite v_add. apply SFadd_ge; [apply f_ok|exact (leb_num_r _ _ T)|exact D|].
    intros E. unfold time_ok, fle in T. rewrite E in T. discriminate T. }
  split; [exact A|]. split; [exact (leb_trans _ _ _ T A)|].
  destruct F as (_ & _ & _ & _ & Fl & Fh & _). rewrite Eb.
  match goal with |- batt_ok (npclip ?v _ _) => destruct (clip_cases v (p_cap_lo p) (p_cap_hi p) (fin_num _ Fl) (fin_num _ Fh)) as [[I E]|[_ [[E|[E|(E & A1 & A2)]] _]]] end; rewrite E.
  - left. exact I.
  - right. exact Fl.
  - right. exact Fh.
  - right. exact (between_fin _ _ _ Fl Fh A1 A2).
Qed.

Lemma tr_ok (gs : list (grow FN)) (s : lstate FN) : forward64 o p -> tr o p ea er gs s -> batt_ok (l_batt s) /\ time_ok (l_t s).
Proof.
  intros F H. induction H as [|gs s g s' Ht IH Hg Hit Hex].
  - split; [right; apply F|reflexivity].
  - destruct IH as [B T]. destruct (row_step s g F B T Hit) as (_ & T' & B').
    destruct (exit_next_hist _ _ _ _ Hex) as [n ->]. split; assumption.
Qed.

Lemma C105_lem fuel (o' : qlaw FN) (h : hist FN) k t t' : forward64 o p -> ran fuel o ea er p o' h ->
  nth_error (h_times h) k = Some t -> nth_error (h_times h) (S k) = Some t' -> fle f0 t /\ fle t t'.
Proof.
  intros F R E1 E2.
  destruct (ran_ended _ _ _ _ _ _ _ R) as (gs & oel & code & conv & En & -> & _).
  assert (exists g, nth_error gs k = Some g) as [g Hg].
  { cbn in E2. destruct (nth_error gs k) as [g|] eqn:X; [eauto|]. exfalso. rewrite nth_error_map, X in E2. discriminate. }
  destruct (ended_facts _ _ _ _ _ _ _ _ En k g Hg) as (sk & Htr & RF).
  destruct (tr_ok _ _ F Htr) as [B T]. destruct (row_step sk g F B T (rf_iter _ _ _ _ _ _ _ _ RF)) as (A & _ & _).
  rewrite (rf_t _ _ _ _ _ _ _ _ RF) in E1. injection E1 as <-. rewrite (rf_t' _ _ _ _ _ _ _ _ RF) in E2. injection E2 as <-.
  split; assumption.
Qed.

(** ** Mass *)
Lemma mdot_dt m dt : fin m -> flt f0 m -> fle f0 dt -> fle f0 (nmul (Num:=FN) m dt).
Proof.
  intros Fm Pm Pd. unfold fle. cbn [nmul FNum]. rewrite v_mul. apply SFmul_nonneg; try apply f_ok.
  - apply ltb_leb; exact Pm.
  - exact Pd.
  - unfold fin, flt, fle in *. pose proof (f_ok m) as Vm. pose proof (f_ok dt) as Vd.
    destruct (f_val m) as [s|[|]| |[|] mm em]; try contradiction; try discriminate Pm.
    destruct (nonneg_cases _ Pd) as [[s E]|[E|(my & ey & E)]]; rewrite E in *; try discriminate.
    cbn [SFmul]. destruct (mul_round (xorb false false) mm em my ey Vm Vd) as (k & m' & R). destruct R; discriminate.
Qed.
Lemma mass_step (s : lstate FN) (g : grow FN) : forward64 o p -> fin (p_mdot p) -> flt f0 (p_mdot p) -> batt_ok (l_batt s) -> mass_ok (l_mass s) -> iter o p ea er s g ->
  fle (g_m g) (l_mass s) /\ mass_ok (g_m g).
Proof.
  intros F Fm Pm Bo [M1 M2] Hit. destruct (iter_vals _ _ Hit) as (_ & Em & _). destruct (iter_plan_s _ _ Hit) as [Pl Eb0].
  destruct (plan_dt (g_s g) (g_pl g) F ltac:(rewrite Eb0; exact Bo) Pl) as [D _].
  rewrite Em. destruct (Z.eqb (c_thr (g_c g)) 1).
  - pose proof (mdot_dt _ _ Fm Pm D) as X. assert (A : fle (nsub (Num:=FN) (l_mass s) (nmul (Num:=FN) (p_mdot p) (pl_dt (g_pl g)))) (l_mass s)).
    { unfold fle. cbn [nsub FNum]. rewrite v_sub. apply SFsub_le; [apply f_ok|exact M1|exact X|exact M2]. }
    split; [exact A|]. split; [exact (leb_num_l _ _ A)|]. intros E. unfold fle in A. rewrite E in A.
    revert M1 M2 A. destruct (f_val (l_mass s)) as [|[|]| |]; cbn; congruence.
  - split; [apply leb_refl; exact M1|split; assumption].
Qed.
Lemma tr_mass_ok (gs : list (grow FN)) (s : lstate FN) : forward64 o p -> fin (p_mdot p) -> flt f0 (p_mdot p) -> fin (p_mass0 p) -> tr o p ea er gs s -> mass_ok (l_mass s).
Proof.
  intros F Fm Pm F0 H. induction H as [|gs s g s' Ht IH Hg Hit Hex].
  - split; [apply fin_num; exact F0|]. intros E. cbn [init_state l_mass] in E. unfold fin in F0. rewrite E in F0. exact F0.
  - destruct (tr_ok _ _ F Ht) as [B _]. destruct (mass_step s g F Fm Pm B IH Hit) as [_ M].
    destruct (exit_next_hist _ _ _ _ Hex) as [n ->]. exact M.
Qed.
Lemma C106_lem fuel (o' : qlaw FN) (h : hist FN) k m m' : forward64 o p -> fin (p_mass0 p) -> fin (p_mdot p) -> flt f0 (p_mdot p) -> ran fuel o ea er p o' h ->
  nth_error (h_masses h) k = Some m -> nth_error (h_masses h) (S k) = Some m' -> fle m' m.
Proof.
  intros F F0 Fm Pm R E1 E2.
  destruct (ran_ended _ _ _ _ _ _ _ R) as (gs & oel & code & conv & En & -> & _).
  assert (exists g, nth_error gs k = Some g) as [g Hg].
  { cbn in E2. destruct (nth_error gs k) as [g|] eqn:X; [eauto|]. exfalso. rewrite nth_error_map, X in E2. discriminate. }
  destruct (ended_facts _ _ _ _ _ _ _ _ En k g Hg) as (sk & Htr & RF).
  destruct (tr_ok _ _ F Htr) as [B _]. pose proof (tr_mass_ok _ _ F Fm Pm F0 Htr) as M.
  destruct (mass_step sk g F Fm Pm B M (rf_iter _ _ _ _ _ _ _ _ RF)) as [A _].
  rewrite (rf_m _ _ _ _ _ _ _ _ RF) in E1. injection E1 as <-. rewrite (rf_m' _ _ _ _ _ _ _ _ RF) in E2. injection E2 as <-.
  exact A.
Qed.

(** ** Battery *)
Lemma C107_lem fuel (o' : qlaw FN) (h : hist FN) k b : fle (p_cap_lo p) (p_cap_hi p) -> ran fuel o ea er p o' h ->
  nth_error (h_battery h) (S k) = Some b -> isnan b \/ fle (p_cap_lo p) b /\ fle b (p_cap_hi p).
Proof.
  intros Hle R E2.
  destruct (ran_ended _ _ _ _ _ _ _ R) as (gs & oel & code & conv & En & -> & _).
  assert (exists g, nth_error gs k = Some g) as [g Hg].
  { cbn in E2. destruct (nth_error gs k) as [g|] eqn:X; [eauto|]. exfalso. rewrite nth_error_map, X in E2. discriminate. }
  destruct (ended_facts _ _ _ _ _ _ _ _ En k g Hg) as (sk & Htr & RF).
  destruct (iter_vals _ _ (rf_iter _ _ _ _ _ _ _ _ RF)) as (_ & _ & _ & Eb).
  rewrite (rf_b' _ _ _ _ _ _ _ _ RF) in E2. injection E2 as <-. rewrite Eb.
  match goal with |- isnan (npclip ?v _ _) \/ _ => destruct (clip_cases v (p_cap_lo p) (p_cap_hi p) (leb_num_l _ _ Hle) (leb_num_r _ _ Hle)) as [[I E]|(_ & _ & A)] end.
  - left. rewrite E. exact I.
  - right. exact (A Hle).
Qed.

(** with rk4, finite rates and a positive charging rate the level is a number throughout *)
Lemma sub_num x y : fin x -> num64 (f_val y) -> num64 (f_val (nsub (Num:=FN) x y)).
Proof.
  unfold fin. intros Fx Ny. cbn [nsub FNum]. rewrite v_sub. destruct (f_val x) as [sx|sx| |sx mx ex]; try contradiction;
  destruct (f_val y) as [sy|sy| |sy my ey]; try (elim Ny; reflexivity); try discriminate; cbn [SFsub].
  - destruct (Bool.eqb sx (negb sy)); discriminate.
  - intros E. match type of E with binary_normalize _ _ ?a ?e _ = _ => destruct a as [|M|M]; [discriminate| |]; cbn [binary_normalize] in E;
      [pose proof (round_sign false M e) as X|pose proof (round_sign true M e) as X]; rewrite E in X; exact X end.
Qed.
Lemma add_num x y : fin x -> num64 (f_val y) -> num64 (f_val (nadd (Num:=FN) x y)).
Proof.
  unfold fin. intros Fx Ny. cbn [nadd FNum]. rewrite v_add. destruct (f_val x) as [sx|sx| |sx mx ex]; try contradiction;
  destruct (f_val y) as [sy|sy| |sy my ey]; try (elim Ny; reflexivity); try discriminate; cbn [SFadd].
  - destruct (Bool.eqb sx sy); discriminate.
  - intros E. match type of E with binary_normalize _ _ ?a ?e _ = _ => destruct a as [|M|M]; [discriminate| |]; cbn [binary_normalize] in E;
      [pose proof (round_sign false M e) as X|pose proof (round_sign true M e) as X]; rewrite E in X; exact X end.
Qed.
Lemma batt_step (s : lstate FN) (g : grow FN) : forward64 o p -> q_integ o = RK4 -> fin (p_charge p) -> flt f0 (p_charge p) -> fin (l_batt s) -> iter o p ea er s g ->
  fin (g_b g) /\ (fle (p_cap_lo p) (p_cap_hi p) -> fle (p_cap_lo p) (g_b g) /\ fle (g_b g) (p_cap_hi p)).
Proof.
  intros F Rk Fc Pc Bo Hit. destruct (iter_vals _ _ Hit) as (_ & _ & Ed & Eb). specialize (Ed Rk). destruct (iter_plan_s _ _ Hit) as [Pl Eb0].
  destruct (plan_dt (g_s g) (g_pl g) F ltac:(rewrite Eb0; right; exact Bo) Pl) as [D D2].
  rewrite Ed in Eb. rewrite Eb. clear Eb Ed.
  destruct F as (_ & _ & _ & _ & Fl & Fh & Fd).
  match goal with |- fin (npclip ?v _ _) /\ _ => assert (V : num64 (f_val v)) end.
  { destruct (pl_duty (g_pl g)).
    - apply sub_num; [exact Bo|]. destruct D2 as [D2|D2].
      + cbn [nmul FNum]. rewrite v_mul. apply fin_mul; assumption.
      + exact (leb_num_r _ _ (mdot_dt _ _ Fd D2 D)).
    - apply add_num; [exact Bo|]. exact (leb_num_r _ _ (mdot_dt _ _ Fc Pc D)). }
  match goal with |- fin (npclip ?v _ _) /\ _ => destruct (clip_cases v (p_cap_lo p) (p_cap_hi p) (fin_num _ Fl) (fin_num _ Fh)) as [[I E]|(_ & [E|[E|(E & A1 & A2)]] & A)] end.
  - elim V. exact I.
  - split; [rewrite E; exact Fl|exact A].
  - split; [rewrite E; exact Fh|exact A].
  - split; [rewrite E; exact (between_fin _ _ _ Fl Fh A1 A2)|exact A].
Qed.
Lemma C107_num_lem fuel (o' : qlaw FN) (h : hist FN) k b : forward64 o p -> q_integ o = RK4 -> fin (p_charge p) -> flt f0 (p_charge p) ->
  fle (p_cap_lo p) (p_cap_hi p) -> ran fuel o ea er p o' h ->
  nth_error (h_battery h) (S k) = Some b -> fle (p_cap_lo p) b /\ fle b (p_cap_hi p).
Proof.
  intros F Rk Fc Pc Hle R E2.
  assert (T : forall (gs : list (grow FN)) (s : lstate FN), tr o p ea er gs s -> fin (l_batt s)).
  { intros gs s H. induction H as [|gs s g s' Ht IH Hg Hit Hex]; [apply F|].
    destruct (batt_step s g F Rk Fc Pc IH Hit) as [A _]. destruct (exit_next_hist _ _ _ _ Hex) as [n ->]. exact A. }
  destruct (ran_ended _ _ _ _ _ _ _ R) as (gs & oel & code & conv & En & -> & _).
  assert (exists g, nth_error gs k = Some g) as [g Hg].
  { cbn in E2. destruct (nth_error gs k) as [g|] eqn:X; [eauto|]. exfalso. rewrite nth_error_map, X in E2. discriminate. }
  destruct (ended_facts _ _ _ _ _ _ _ _ En k g Hg) as (sk & Htr & RF).
  rewrite (rf_b' _ _ _ _ _ _ _ _ RF) in E2. injection E2 as <-.
  apply (batt_step sk g F Rk Fc Pc (T _ _ Htr) (rf_iter _ _ _ _ _ _ _ _ RF)). exact Hle.
Qed.
Lemma C107_div_lem (b dt : @car FN) : fin (p_cap_lo p) -> fin (p_discharge p) -> fin b -> fin dt -> fle f0 dt ->
  nleb (Num:=FN) b (nadd (Num:=FN) (p_cap_lo p) (dec (N:=FN) 1 12)) = false ->
  nltb (Num:=FN) (nsub (Num:=FN) b (nmul (Num:=FN) (p_discharge p) dt)) (p_cap_lo p) = true ->
  flt f0 (p_discharge p) /\ fle f0 (ndiv (Num:=FN) (nsub (Num:=FN) b (p_cap_lo p)) (p_discharge p)).
Proof. intros A B C D. apply shorten; try assumption. right; assumption. apply fin_num; assumption. Qed.

(** ** Keplerian bounds *)
Lemma clamp_in lo x hi : fle lo hi -> fle lo (clamp1 (N:=FN) lo x hi) /\ fle (clamp1 (N:=FN) lo x hi) hi.
Proof.
  intros H. pose proof (leb_num_l _ _ H) as Nl. pose proof (leb_num_r _ _ H) as Nh. unfold clamp1, pymin, pymax, fle. cbn [nltb FNum].
  destruct (SFltb (f_val lo) (f_val x)) eqn:E1.
  - destruct (SFltb (f_val hi) (f_val x)) eqn:E2.
    + split; [exact H|apply leb_refl; exact Nh].
    + assert (Nx : num64 (f_val x)) by (apply ltb_key in E1; tauto).
      split; [apply ltb_leb; exact E1|apply nltb_le; assumption].
  - destruct (SFltb (f_val hi) (f_val lo)) eqn:E2; [elim (ltb_not _ _ E2 H)|]. split; [apply leb_refl; exact Nl|exact H].
Qed.

Lemma C108_lem fuel (o' : qlaw FN) (h : hist FN) k oe i lo z hi : q_etype o = Keplerian -> ran fuel o ea er p o' h ->
  (k < length (h_controls h))%nat -> nth_error (h_states h) k = Some oe ->
  nth_error (vec5_to_list (q_oe_min o)) i = Some lo -> nth_error (vec5_to_list (q_oe_max o)) i = Some hi -> nth_error (vec6_to_list oe) i = Some z ->
  fle lo hi -> fle lo z /\ fle z hi.
Proof.
  intros K R Hk E A B C H.
  destruct (ran_row _ _ _ _ _ _ _ k R Hk) as (gs & oel & code & conv & sk & g & _ & _ & _ & _ & RF).
  rewrite (rf_oe _ _ _ _ _ _ _ _ RF) in E. injection E as <-. rewrite (it_s _ _ _ _ _ _ (rf_iter _ _ _ _ _ _ _ _ RF)) in C.
  unfold safety in C. rewrite K in C. cbn [l_oe] in C. revert A B C.
  destruct (l_oe sk) as [x0 x1 x2 x3 x4 x5], (q_oe_min o) as [l0 l1 l2 l3 l4], (q_oe_max o) as [h0 h1 h2 h3 h4].
  destruct i as [|[|[|[|[|i]]]]]; cbn; intros A B C; try (destruct i; discriminate A);
  injection A as ->; injection B as ->; injection C as <-; apply clamp_in; exact H.
Qed.

(** ** A step on a dyadic grid, no shortening *)
Lemma full_step (s : lstate FN) (g : grow FN) : forward64 o p -> ~ flt f0 (p_discharge p) -> batt_ok (l_batt s) -> iter o p ea er s g ->
  pl_dt (g_pl g) = p_t_step p.
Proof.
  intros F Nd Bo Hit. destruct (iter_plan_s _ _ Hit) as [Pl Eb0].
  destruct F as (Sd & Ft & Pt & Fb & Fl & Fh & Fd). unfold plan, local_step in Pl. rewrite Sd in Pl. cbn [bind] in Pl.
      destruct (duty_phase p _ _ _ _) as [[d1 ton] toff].
      destruct (battery_phase p _ (l_batt (g_s g)) (p_t_step p) d1 toff _) as [[[dt d2] toff2] chg] eqn:E.
      injection Pl as <-. cbn [pl_dt]. rewrite Eb0 in E. unfold battery_phase in E.
      destruct (nleb (l_batt s) (nadd (p_cap_lo p) (dec (N:=FN) 1 12))) eqn:X1; [injection E as <- _ _ _; auto|].
      destruct (nltb (nsub (l_batt s) (nmul (p_discharge p) (p_t_step p))) (p_cap_lo p)) eqn:X2; cbn [andb] in E; [|injection E as <- _ _ _; auto].
      elim Nd. apply (shorten (l_batt s) (p_t_step p) Fl Fd Bo (fin_num _ Ft) Pt X1 X2).
Qed.
Lemma tr_grid e n (gs : list (grow FN)) (s : lstate FN) : (-1074 <= e <= 971)%Z -> forward64 o p -> ~ flt f0 (p_discharge p) -> worth (p_t_step p) n e ->
  tr o p ea er gs s -> (Z.of_nat (length gs) * n < 2 ^ 53)%Z -> worth (l_t s) (Z.of_nat (length gs) * n) e.
Proof.
  intros He F Nd Wn H. assert (N0 := worth_nonneg e (proj1 He) (proj2 He) _ _ Wn). induction H as [|gs s g s' Ht IH Hg Hit Hex]; intros B.
  - cbn. reflexivity.
  - rewrite app_length in *. cbn [length] in *. replace (Z.of_nat (length gs + 1) * n)%Z with (Z.of_nat (length gs) * n + n)%Z in * by lia.
    specialize (IH ltac:(lia)). destruct (iter_vals _ _ Hit) as (Et & _). destruct (exit_next_hist _ _ _ _ Hex) as [q ->].
    cbn [with_nrel l_t post]. rewrite Et. destruct (tr_ok _ _ F Ht) as [Bo _].
    rewrite (full_step s g F Nd Bo Hit). apply worth_add; try assumption; lia.
Qed.

Lemma row_of fuel (o' : qlaw FN) (h : hist FN) k : ran fuel o ea er p o' h -> (k < length (h_controls h))%nat ->
  exists gs sk g, tr o p ea er gs sk /\ length gs = k /\ row_facts o p ea er h k sk g.
Proof.
  intros R Hk. destruct (ran_row _ _ _ _ _ _ _ k R Hk) as (gs & oel & code & conv & sk & g & _ & _ & N & T & RF).
  exists (firstn k gs), sk, g. split; [exact T|]. split; [|exact RF]. apply firstn_length_le.
  assert (k < length gs)%nat by (apply nth_error_Some; congruence). lia.
Qed.
Lemma C109_times_lem fuel (o' : qlaw FN) (h : hist FN) e n k t : (-1074 <= e <= 971)%Z -> forward64 o p -> ~ flt f0 (p_discharge p) -> worth (p_t_step p) n e ->
  ran fuel o ea er p o' h -> nth_error (h_times h) k = Some t -> (Z.of_nat k * n < 2 ^ 53)%Z -> worth t (Z.of_nat k * n) e.
Proof.
  intros He F Nd Wn R E B. assert (N0 := worth_nonneg e (proj1 He) (proj2 He) _ _ Wn).
  destruct k as [|k].
  - destruct (ran_ended _ _ _ _ _ _ _ R) as (gs & oel & code & conv & En & -> & _). cbn in E. injection E as <-. reflexivity.
  - assert (Hk : (k < length (h_controls h))%nat).
    { destruct (ran_ended _ _ _ _ _ _ _ R) as (gs & oel & code & conv & En & -> & _). cbn in E |- *. rewrite map_length.
      apply nth_error_Some. intros X. rewrite nth_error_map, X in E. discriminate. }
    destruct (row_of _ _ _ k R Hk) as (gs & sk & g & T & Lk & RF).
    rewrite (rf_t' _ _ _ _ _ _ _ _ RF) in E. injection E as <-. pose proof (rf_iter _ _ _ _ _ _ _ _ RF) as Hit.
    pose proof (tr_grid e n gs sk He F Nd Wn T ltac:(lia)) as IH.
    destruct (iter_vals _ _ Hit) as (Et & _). rewrite Et. rewrite (full_step sk g F Nd (proj1 (tr_ok _ _ F T)) Hit).
    replace (Z.of_nat (S k) * n)%Z with (Z.of_nat (length gs) * n + n)%Z in * by lia. apply worth_add; try assumption; lia.
Qed.
Lemma guard_grid e n M (gs : list (grow FN)) (s : lstate FN) : (-1074 <= e <= 971)%Z -> forward64 o p -> ~ flt f0 (p_discharge p) -> worth (p_t_step p) n e -> (0 < n)%Z ->
  worth (p_tf_max p) (M * n) e -> (M * n < 2 ^ 53)%Z -> tr o p ea er gs s -> (Z.of_nat (length gs) <= M)%Z ->
  guard p s = (Z.of_nat (length gs) <? M)%Z.
Proof.
  intros He F Nd Wn Pn Wt SM T B. pose proof (tr_grid e n gs s He F Nd Wn T ltac:(nia)) as W.
  unfold guard. rewrite (tr_hist _ _ _ _ _ _ T). 
  assert (El : last (h_times (mkh p gs (l_oe s))) (nofZ 0) = l_t s).
  { destruct (tr_cur _ _ _ _ _ _ T) as (T1 & _). cbn [mkh h_times]. revert T1. rewrite <- (map_length g_t gs). generalize (map g_t gs). intros l.
    generalize (nofZ (Num:=FN) 0) at 1 2 as z. induction l as [|x l IH]; intros z H; [cbn in H; injection H as <-; reflexivity|].
    cbn [length nth_error] in H. specialize (IH x H). cbn [last] in IH |- *. destruct l; exact IH. }
  rewrite El. cbn [nltb FNum]. rewrite (worth_ltb e ltac:(lia) ltac:(lia) (nabs (Num:=FN) (l_t s)) (nabs (Num:=FN) (p_tf_max p)) (Z.of_nat (length gs) * n) (M * n));
    [|apply worth_abs; exact W|apply worth_abs; exact Wt|nia|exact SM].
  destruct (Z.ltb_spec (Z.of_nat (length gs)) M); [apply Z.ltb_lt|apply Z.ltb_ge]; nia.
Qed.
Lemma C109_steps_lem fuel (o' : qlaw FN) (h : hist FN) e n M : (-1074 <= e <= 971)%Z -> forward64 o p -> ~ flt f0 (p_discharge p) -> worth (p_t_step p) n e -> (0 < n)%Z ->
  worth (p_tf_max p) (Z.of_nat M * n) e -> (Z.of_nat M * n < 2 ^ 53)%Z -> fresh o -> ran fuel o ea er p o' h ->
  (length (h_controls h) <= M)%nat /\ (q_exitcode o' = (-2)%Z -> length (h_controls h) = M).
Proof.
  intros He F Nd Wn Pn Wt SM [Fr1 Fr2] R.
  assert (G : forall gs s, tr o p ea er gs s -> (length gs <= M)%nat).
  { intros gs s T. induction T as [|gs s g s' Ht IH Hg Hit Hex]; [cbn; lia|].
    rewrite (guard_grid e n (Z.of_nat M) gs s He F Nd Wn Pn Wt SM Ht ltac:(lia)) in Hg. apply Z.ltb_lt in Hg. rewrite app_length. cbn [length]. lia. }
  destruct (ran_ended _ _ _ _ _ _ _ R) as (gs & oel & code & conv & En & -> & Cv & Ec & _). rewrite Fr1, Fr2 in Ec. cbn [h_controls mkh]. rewrite map_length.
  destruct En as [gs s Htr Hg|gs s g0 code conv s' Htr Hg Hit Hex|gs s pl Htr Hg H1 H2].
  - split; [exact (G _ _ Htr)|]. intros _. rewrite (guard_grid e n (Z.of_nat M) gs s He F Nd Wn Pn Wt SM Htr ltac:(pose proof (G _ _ Htr); lia)) in Hg.
    apply Z.ltb_ge in Hg. pose proof (G _ _ Htr). lia.
  - rewrite (guard_grid e n (Z.of_nat M) gs s He F Nd Wn Pn Wt SM Htr ltac:(pose proof (G _ _ Htr); lia)) in Hg. apply Z.ltb_lt in Hg. rewrite app_length. cbn [length].
    split; [lia|]. intros X. exfalso. pose proof (exit_cases o p (post g0)) as E. rewrite Hex in E. inversion E; subst; cbn in Ec; congruence.
  - split; [exact (G _ _ Htr)|]. intros X. cbn in Ec. congruence.
Qed.
End Run.
