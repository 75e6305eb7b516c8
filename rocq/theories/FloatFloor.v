(** The mass floor in double precision. *)
From Coq Require Import Lia ZArith List Bool Floats.SpecFloat.
From Verif Require Import Num Base Elements Perturb Qlaw Trace Spec SolveProofs ExitProofs GateProofs
  Float64 FloatSpec FloatProofs FloatMono FloatRun FloatDuty.
Import ListNotations.

Section Runs.
Variable L : libm.
Notation FN := (FNum L).
Variables (o : qlaw FN) (p : problem FN) (ea er : eta_arg FN).
Hypotheses (F : forward64 o p) (F0 : fin (p_mass0 p)) (Fm : fin (p_mdot p)) (Pm : flt f0 (p_mdot p))
  (Fl : fin (p_mass_min p)) (Ab : flt (p_mass_min p) (p_mass0 p)).
Notation burn := (nmul (Num:=FN) (p_mdot p) (p_t_step p)).
Notation floor := (p_mass_min p).

Lemma fsub_mono (x x' y : f64) : fin x -> fin x' -> fin y -> fle x x' -> fle (nsub (Num:=FN) x y) (nsub (Num:=FN) x' y).
Proof.
  intros Fx Fx' Fy H. unfold fle in *. cbn [nsub FNum]. rewrite !v_sub.
  apply (rounds_mono (zv (f_val x) - zv (f_val y)) (zv (f_val x') - zv (f_val y))).
  - apply zv_leb in H; try apply f_ok; try apply fin64; try assumption. lia.
  - apply SFsub_valid; apply f_ok.
  - apply SFsub_valid; apply f_ok.
  - apply sub_rounds; try apply f_ok; apply fin64; assumption.
  - apply sub_rounds; try apply f_ok; apply fin64; assumption.
Qed.
Lemma sub_below (x y : f64) : fin x -> fle f0 y -> fle (nsub (Num:=FN) x y) x.
Proof.
  intros Fx Py. unfold fle. cbn [nsub FNum]. rewrite v_sub. apply SFsub_le; [apply f_ok|apply fin_num; exact Fx|exact Py|].
  unfold fin in Fx. intros E. rewrite E in Fx. exact Fx.
Qed.

Lemma tr_above (gs : list (grow FN)) (s : lstate FN) : tr o p ea er gs s -> fin (l_mass s) /\ flt floor (l_mass s).
Proof.
  intros T. pose proof (tr_mass_ok L o p ea er _ _ F Fm Pm F0 T) as [M1 M2].
  assert (A : flt floor (l_mass s)).
  { pose proof T as T0. destruct T as [|gs s g s' Ht Hg Hit Hex]; [exact Ab|].
    apply (tr_mass o p ea er) in T0. rewrite map_app in T0. apply Forall_app in T0 as [_ T0]. inversion T0 as [|? ? X _]; subst.
    destruct (exit_next_hist _ _ _ _ Hex) as [n ->]. cbn [with_nrel post l_mass] in *. apply nleb_lt; [exact M1|apply fin_num; exact Fl|exact X]. }
  split; [|exact A]. unfold fin, flt in *. destruct (f_val (l_mass s)) as [|[|]| |]; auto.
  destruct (f_val floor) as [|[|]| |]; try discriminate A; contradiction.
Qed.
Lemma C123_above_lem fuel (o' : qlaw FN) (h : hist FN) k m : ran fuel o ea er p o' h -> (k < length (h_controls h))%nat ->
  nth_error (h_masses h) k = Some m -> flt floor m.
Proof.
  intros R Hk E. destruct (row_of L o p ea er _ _ _ k R Hk) as (gs & sk & g & T & Lk & RF).
  rewrite (rf_m _ _ _ _ _ _ _ _ RF) in E. injection E as <-. apply (tr_above _ _ T).
Qed.
Section Full.
Hypothesis (Nd : ~ flt f0 (p_discharge p)).
Lemma burn_pos : fle f0 burn.
Proof. exact (mdot_dt L _ _ Fm Pm (proj1 (proj2 (proj2 F)))). Qed.
Lemma C123_last_lem fuel (o' : qlaw FN) (h : hist FN) k m : fin burn -> ran fuel o ea er p o' h ->
  nth_error (h_masses h) k = Some m -> fle (nsub (Num:=FN) floor burn) m.
Proof.
  intros Fb R E. pose proof burn_pos as Pb. pose proof (sub_below _ _ Fl Pb) as S0.
  assert (W : forall x, flt floor x -> fle (nsub (Num:=FN) floor burn) x) by (intros x Hx; eapply fle_trans; [exact S0|exact (ltb_leb _ _ Hx)]).
  destruct k as [|k].
  - destruct (ran_ended _ _ _ _ _ _ _ R) as (gs & oel & code & conv & En & -> & _). cbn in E. injection E as <-. apply W. exact Ab.
  - assert (Hk : (k < length (h_controls h))%nat).
    { destruct (ran_ended _ _ _ _ _ _ _ R) as (gs & oel & code & conv & En & -> & _). cbn in *. rewrite map_length.
      apply nth_error_Some. intros Y. rewrite nth_error_map, Y in E. discriminate. }
    destruct (row_of L o p ea er _ _ _ k R Hk) as (gs & sk & g & T & Lk & RF).
    rewrite (rf_m' _ _ _ _ _ _ _ _ RF) in E. injection E as <-. pose proof (rf_iter _ _ _ _ _ _ _ _ RF) as Hit.
    destruct (tr_above _ _ T) as [Fs As]. destruct (tr_ok L o p ea er _ _ F T) as [B _].
    destruct (iter_vals L o p ea er sk g Hit) as (_ & Em & _). rewrite (full_step L o p ea er sk g F Nd B Hit) in Em.
    destruct (Z.eqb (c_thr (g_c g)) 1); rewrite Em; [|apply W; exact As].
    apply fsub_mono; [exact Fl|exact Fs|exact Fb|exact (ltb_leb _ _ As)].
Qed.
Lemma C123_nonneg_lem fuel (o' : qlaw FN) (h : hist FN) k m : fle burn floor -> ran fuel o ea er p o' h ->
  nth_error (h_masses h) k = Some m -> fle f0 m.
Proof.
  intros Hb R E. assert (Fb : fin burn) by exact (between_fin f0 burn floor I Fl burn_pos Hb).
  eapply fle_trans; [|exact (C123_last_lem fuel o' h k m Fb R E)]. unfold fle. cbn [nsub FNum]. rewrite v_sub.
  apply SFsub_nonneg; try apply f_ok; try (apply fin64; assumption). exact Hb.
Qed.
End Full.
End Runs.
