(** Duty cycle, progress and termination of [solve] in double precision, from monotone rounding. *)
From Coq Require Import ZArith List Bool Lia Floats.SpecFloat.
From Verif Require Import Num Base Elements Integrate Eom Convergence Lyapunov Perturb Qlaw Trace Spec XSpec SolveProofs ExitProofs GateProofs
  Float64 FloatSpec FloatProofs FloatMono FloatRun.
Import ListNotations.

Section Duty.
Variable L : libm.
Notation FN := (FNum L).
Variables (o : qlaw FN) (p : problem FN) (ea er : eta_arg FN).

Lemma fle_trans x y z : fle x y -> fle y z -> fle x z.
Proof. exact (leb_trans _ _ _). Qed.
Lemma fadd_mono x x' y : fin x -> fin x' -> fin y -> fle x x' -> fle (nadd (Num:=FN) x y) (nadd (Num:=FN) x' y).
Proof.
  intros Fx Fx' Fy H. unfold fle in *. cbn [nadd FNum]. rewrite !v_add.
  apply (rounds_mono (zv (f_val x) + zv (f_val y)) (zv (f_val x') + zv (f_val y))).
  - apply zv_leb in H; try apply f_ok; try apply fin64; try assumption. lia.
  - apply SFadd_valid; apply f_ok.
  - apply SFadd_valid; apply f_ok.
  - apply add_rounds; try apply f_ok; apply fin64; assumption.
  - apply add_rounds; try apply f_ok; apply fin64; assumption.
Qed.
Lemma fsub_anti x y y' : fin x -> fin y -> fin y' -> fle y' y -> fle (nsub (Num:=FN) x y) (nsub (Num:=FN) x y').
Proof.
  intros Fx Fy Fy' H. unfold fle in *. cbn [nsub FNum]. rewrite !v_sub.
  apply (rounds_mono (zv (f_val x) - zv (f_val y)) (zv (f_val x) - zv (f_val y'))).
  - apply zv_leb in H; try apply f_ok; try apply fin64; try assumption. lia.
  - apply SFsub_valid; apply f_ok.
  - apply SFsub_valid; apply f_ok.
  - apply sub_rounds; try apply f_ok; apply fin64; assumption.
  - apply sub_rounds; try apply f_ok; apply fin64; assumption.
Qed.
Lemma fsub_self x d : fin x -> fle f0 d -> fle (nsub (Num:=FN) x x) d.
Proof.
  intros Fx Hd. assert (G : fle (nsub (Num:=FN) x x) f0); [|exact (fle_trans _ _ _ G Hd)].
  unfold fle. cbn [nsub FNum]. rewrite v_sub. change (f_val f0) with (S754_zero false).
  apply (rounds_mono (zv (f_val x) - zv (f_val x)) 0); [lia|apply SFsub_valid; apply f_ok|reflexivity| |apply ro_zero].
  apply sub_rounds; try apply f_ok; apply fin64; assumption.
Qed.
Lemma fle_not x y : fle x y -> nltb (Num:=FN) y x = false.
Proof. intros H. cbn [nltb FNum]. destruct (SFltb (f_val y) (f_val x)) eqn:E; [|reflexivity]. elim (ltb_not _ _ E H). Qed.
Lemma not_fle x y : num64 (f_val x) -> num64 (f_val y) -> nltb (Num:=FN) y x = false -> fle x y.
Proof. intros A B H. apply nltb_le; assumption. Qed.

Lemma guard_last (gs : list (grow FN)) (s : lstate FN) : tr o p ea er gs s -> guard p s = nltb (nabs (l_t s)) (nabs (p_tf_max p)).
Proof.
  intros T. unfold guard. rewrite (tr_hist _ _ _ _ _ _ T). f_equal. f_equal.
  destruct (tr_cur _ _ _ _ _ _ T) as (T1 & _). cbn [mkh h_times]. revert T1. rewrite <- (map_length g_t gs). generalize (map g_t gs). intros l.
  generalize (nofZ (Num:=FN) 0) at 1 2 as z. induction l as [|x l IH]; intros z H; [cbn in H; injection H as <-; reflexivity|].
  cbn [length nth_error] in H. specialize (IH x H). cbn [last] in IH |- *. destruct l; exact IH.
Qed.
Lemma guard_fin (gs : list (grow FN)) (s : lstate FN) : tr o p ea er gs s -> time_ok (l_t s) -> guard p s = true -> fin (l_t s).
Proof.
  intros T K G. rewrite (guard_last _ _ T) in G. cbn [nltb nabs FNum] in G. rewrite !v_abs in G. unfold fin.
  unfold time_ok, fle in K. destruct (f_val (l_t s)) as [|[|]| |]; auto; try discriminate K.
  exfalso. cbn [SFabs] in G. destruct (f_val (p_tf_max p)); discriminate G.
Qed.
Lemma tr_fin (gs : list (grow FN)) (s : lstate FN) : forward64 o p -> tr o p ea er gs s -> forall g, In g gs -> fin (l_t (g_s g)).
Proof.
  intros F H. induction H as [|gs s g s' Ht IH Hg Hit Hex]; [intros ? []|]. intros g1 Hin. apply in_app_or in Hin as [Hin|[<-|[]]]; [auto|].
  destruct (iter_sfields _ _ _ _ _ _ Hit) as (-> & _). eapply guard_fin; [exact Ht|apply (tr_ok L o p ea er _ _ F Ht)|exact Hg].
Qed.

(** the scheduling decision of a row with duty flag *)
Lemma on_row (s : lstate FN) (g : grow FN) : fin (l_t s) -> fle f0 (p_duty_off p) -> iter o p ea er s g -> pl_duty (g_pl g) = true ->
  (l_duty s = true /\ nltb (p_duty_on p) (nsub (l_t s) (l_ton s)) = false /\ pl_ton (g_pl g) = l_ton s) \/
  (l_duty s = false /\ nltb (p_duty_off p) (nsub (l_t s) (l_toff s)) = true /\ pl_ton (g_pl g) = l_t s).
Proof.
  intros Ft Ho Hit Hd. destruct (iter_sfields _ _ _ _ _ _ Hit) as (S1 & S2 & S3 & S4 & S5 & S6 & S7 & _).
  destruct (plan_inv _ _ _ _ (it_plan _ _ _ _ _ _ Hit)) as (dt0 & d1 & ton1 & toff1 & d2 & _ & Du & Ba & Re & Et).
  rewrite S1, S4, S5, S6 in Du.
  assert (d1 = true).
  { rewrite Hd in Re. unfold recharge_phase in Re. assert (d2 = true) by (destruct (_ && _) in Re; [discriminate|congruence]). subst d2.
    clear - Ba. unfold battery_phase in Ba. repeat match type of Ba with context [if ?c then _ else _] => destruct c end; congruence. }
  subst d1. rewrite Et. clear - Du Ft Ho. unfold duty_phase in Du.
  destruct (l_duty s); cbn [negb andb] in Du.
  - rewrite andb_true_r in Du. destruct (nltb (p_duty_on p) (nsub (l_t s) (l_ton s))) eqn:E.
    + rewrite (fle_not _ _ (fsub_self (l_t s) (p_duty_off p) Ft Ho)) in Du. cbn in Du. congruence.
    + cbn [negb] in Du. rewrite andb_false_r in Du. left. split; [reflexivity|]. split; [reflexivity|]. congruence.
  - rewrite andb_false_r in Du. cbn [negb] in Du. rewrite andb_true_r in Du.
    destruct (nltb (p_duty_off p) (nsub (l_t s) (l_toff s))); [|congruence]. right. split; [reflexivity|]. split; [reflexivity|]. congruence.
Qed.

Lemma ton_le (gs : list (grow FN)) (s : lstate FN) : forward64 o p -> tr o p ea er gs s -> fle (l_ton s) (l_t s) /\ fle f0 (l_ton s).
Proof.
  intros F H. induction H as [|gs s g s' Ht IH Hg Hit Hex].
  - split; reflexivity.
  - destruct (tr_ok L o p ea er _ _ F Ht) as [B T]. destruct (row_step L o p ea er s g F B T Hit) as (A & _ & _).
    destruct (exit_next_hist _ _ _ _ Hex) as [n ->]. cbn [with_nrel post l_ton l_t].
    destruct (iter_sfields _ _ _ _ _ _ Hit) as (S1 & S2 & S3 & S4 & S5 & S6 & S7 & _).
    destruct (plan_inv _ _ _ _ (it_plan _ _ _ _ _ _ Hit)) as (dt0 & d1 & ton1 & toff1 & d2 & _ & Du & Ba & Re & Et).
    rewrite S1, S4, S5, S6 in Du. rewrite Et.
    assert (ton1 = l_ton s \/ ton1 = l_t s) as [->| ->].
    { clear - Du. unfold duty_phase in Du. repeat match type of Du with context [if ?c then _ else _] => destruct c end; injection Du as _ <- _; auto. }
    + split; [exact (fle_trans _ _ _ (proj1 IH) A)|apply IH].
    + split; [exact A|exact T].
Qed.
Lemma tr_last (gs : list (grow FN)) (g : grow FN) (s : lstate FN) : tr o p ea er (gs ++ [g]) s ->
  l_duty s = pl_duty (g_pl g) /\ l_ton s = pl_ton (g_pl g) /\ l_t s = g_t g.
Proof.
  intros H. inversion H as [E|gs' s1 g' s' Ht Hg Hit Hex E1 E2]; [destruct gs; discriminate|].
  apply app_inj_tail in E1 as [-> ->]. destruct (exit_next_hist _ _ _ _ Hex) as [n ->]. cbn. auto.
Qed.
Lemma on_since (gs : list (grow FN)) (s : lstate FN) : forward64 o p -> fle f0 (p_duty_off p) -> tr o p ea er gs s ->
  forall i gi, nth_error gs i = Some gi -> (forall m g, (i <= m)%nat -> nth_error gs m = Some g -> pl_duty (g_pl g) = true) ->
  fle (l_ton s) (l_t (g_s gi)) /\ l_duty s = true.
Proof.
  intros F Ho H. induction H as [|gs s g s' Ht IH Hg Hit Hex]; intros i gi Hi Hall; [destruct i; discriminate|].
  assert (Dg : pl_duty (g_pl g) = true) by (apply (Hall (length gs)); [|rewrite nth_error_app2, Nat.sub_diag by lia; reflexivity];
    assert (i < length (gs ++ [g]))%nat by (apply nth_error_Some; congruence); rewrite app_length in *; cbn in *; lia).
  destruct (exit_next_hist _ _ _ _ Hex) as [n ->]. cbn [with_nrel post l_ton l_duty]. split; [|exact Dg].
  assert (Ft : fin (l_t s)) by (eapply guard_fin; [exact Ht|apply (tr_ok L o p ea er _ _ F Ht)|exact Hg]).
  pose proof (on_row s g Ft Ho Hit Dg) as O. destruct (iter_sfields _ _ _ _ _ _ Hit) as (S1 & _).
  destruct (Nat.lt_ge_cases i (length gs)) as [K|K].
  - rewrite nth_error_app1 in Hi by exact K. destruct (IH i gi Hi) as [A B].
    { intros m g1 Hm H1. apply (Hall m); [exact Hm|]. rewrite nth_error_app1; [exact H1|]. apply nth_error_Some. congruence. }
    destruct O as [(_ & _ & ->)|(X & _)]; [exact A|congruence].
  - assert (gi = g) as ->.
    { rewrite nth_error_app2 in Hi by exact K. destruct (i - length gs)%nat as [|j]; cbn in Hi; [congruence|destruct j; discriminate]. }
    rewrite S1. destruct O as [(_ & _ & ->)|(_ & _ & ->)]; [apply (ton_le _ _ F Ht)|apply leb_refl, fin_num; exact Ft].
Qed.

(** rows of a run *)
Lemma thr_duty fuel (o' : qlaw FN) (h : hist FN) k : ran fuel o ea er p o' h -> throttle h k 1 -> (k < length (h_controls h))%nat.
Proof. intros R H. unfold throttle in H. rewrite <- (map_length snd). apply nth_error_Some. congruence. Qed.

Lemma on_limit (gs : list (grow FN)) (sj : lstate FN) gj i gi : forward64 o p -> fle f0 (p_duty_off p) -> fle f0 (p_duty_on p) -> tr o p ea er gs sj ->
  guard p sj = true -> iter o p ea er sj gj -> pl_duty (g_pl gj) = true ->
  nth_error gs i = Some gi -> (forall m g, (i <= m)%nat -> nth_error gs m = Some g -> pl_duty (g_pl g) = true) ->
  fle (nsub (Num:=FN) (l_t sj) (l_t (g_s gi))) (p_duty_on p).
Proof.
  intros F Hoff Hon T G Hit D Hi Hall.
  assert (Ft : fin (l_t sj)) by (eapply guard_fin; [exact T|apply (tr_ok L o p ea er _ _ F T)|exact G]).
  destruct (on_since _ _ F Hoff T i gi Hi Hall) as [A B].
  destruct (on_row sj gj Ft Hoff Hit D) as [(_ & X & _)|(X & _)]; [|congruence].
  assert (Fi : fin (l_t (g_s gi))) by (eapply tr_fin; [exact F|exact T|eapply nth_error_In; exact Hi]).
  assert (Fo : fin (l_ton sj)) by (apply (between_fin f0 _ (l_t (g_s gi))); [exact I|exact Fi|apply (ton_le _ _ F T)|exact A]).
  eapply fle_trans; [apply (fsub_anti (l_t sj) (l_t (g_s gi)) (l_ton sj) Ft Fi Fo A)|].
  apply not_fle; [apply sub_num; [exact Ft|apply fin_num; exact Fo]|exact (leb_num_r _ _ Hon)|exact X].
Qed.

Lemma run_rows fuel (o' : qlaw FN) (h : hist FN) : ran fuel o ea er p o' h -> exists gs : list (grow FN),
  length gs = length (h_controls h) /\
  forall k g, nth_error gs k = Some g -> exists sk, tr o p ea er (firstn k gs) sk /\ row_facts o p ea er h k sk g.
Proof.
  intros R. destruct (ran_ended _ _ _ _ _ _ _ R) as (gs & oel & code & conv & En & -> & _).
  exists gs. split; [cbn; rewrite map_length; reflexivity|]. intros k g Hg. exact (ended_facts _ _ _ _ _ _ _ _ En k g Hg).
Qed.
Lemma row_thr (h : hist FN) k sk (g : grow FN) : row_facts o p ea er h k sk g -> throttle h k 1 -> pl_duty (g_pl g) = true.
Proof.
  intros RF H. unfold throttle in H. rewrite nth_error_map, (rf_c _ _ _ _ _ _ _ _ RF) in H. cbn in H. injection H as H.
  eapply ctl_thr; [exact (it_ctl _ _ _ _ _ _ (rf_iter _ _ _ _ _ _ _ _ RF))|exact H].
Qed.
Lemma nth_firstn {A} (l : list A) n i x : nth_error (firstn n l) i = Some x -> nth_error l i = Some x /\ (i < n)%nat.
Proof.
  intros H. assert (i < n)%nat.
  { assert (i < length (firstn n l))%nat by (apply nth_error_Some; congruence). rewrite firstn_length in *. lia. }
  split; [|assumption]. rewrite <- (firstn_skipn n l). rewrite nth_error_app1; [exact H|]. apply nth_error_Some. congruence.
Qed.
Lemma nth_firstn' {A} (l : list A) n i x : nth_error l i = Some x -> (i < n)%nat -> nth_error (firstn n l) i = Some x.
Proof.
  intros H K. assert (i < length l)%nat by (apply nth_error_Some; congruence).
  rewrite <- (firstn_skipn n l) in H. rewrite nth_error_app1 in H; [exact H|]. rewrite firstn_length. lia.
Qed.

Lemma C110_on_lem fuel (o' : qlaw FN) (h : hist FN) i j ti tj : forward64 o p -> fle f0 (p_duty_on p) -> fle f0 (p_duty_off p) ->
  ran fuel o ea er p o' h -> (i <= j)%nat -> (forall m, (i <= m <= j)%nat -> throttle h m 1) ->
  nth_error (h_times h) i = Some ti -> nth_error (h_times h) j = Some tj -> fle (nsub (Num:=FN) tj ti) (p_duty_on p).
Proof.
  intros F Hon Hoff R Hij Hall Ei Ej. destruct (run_rows _ _ _ R) as (gs & Lg & Rw).
  assert (RR : forall m, (i <= m <= j)%nat -> exists g, nth_error gs m = Some g).
  { intros m Hm. pose proof (thr_duty _ _ _ _ R (Hall m Hm)) as K. rewrite <- Lg in K. destruct (nth_error gs m) eqn:X; [eauto|]. apply nth_error_None in X. lia. }
  assert (DD : forall m g, (i <= m <= j)%nat -> nth_error gs m = Some g -> pl_duty (g_pl g) = true).
  { intros m g Hm Hg. destruct (Rw m g Hg) as (sm & _ & RFm). exact (row_thr _ _ _ _ RFm (Hall m Hm)). }
  destruct (RR j ltac:(lia)) as [gj Hj]. destruct (Rw j gj Hj) as (sj & Tj & RFj). pose proof (rf_iter _ _ _ _ _ _ _ _ RFj) as Itj.
  rewrite (rf_t _ _ _ _ _ _ _ _ RFj) in Ej. injection Ej as <-.
  destruct (Nat.eq_dec i j) as [->|Hne].
  - rewrite (rf_t _ _ _ _ _ _ _ _ RFj) in Ei. injection Ei as <-. apply fsub_self; [|exact Hon].
    eapply guard_fin; [exact Tj|apply (tr_ok L o p ea er _ _ F Tj)|exact (rf_guard _ _ _ _ _ _ _ _ RFj)].
  - destruct (RR i ltac:(lia)) as [gi Hi]. destruct (Rw i gi Hi) as (si & Ti & RFi).
    rewrite (rf_t _ _ _ _ _ _ _ _ RFi) in Ei. injection Ei as <-.
    destruct (iter_sfields _ _ _ _ _ _ (rf_iter _ _ _ _ _ _ _ _ RFi)) as (S1 & _). rewrite <- S1.
    apply (on_limit (firstn j gs) sj gj i gi F Hoff Hon Tj (rf_guard _ _ _ _ _ _ _ _ RFj) Itj (DD j gj ltac:(lia) Hj)).
    + apply nth_firstn'; [exact Hi|lia].
    + intros m g Hm Hg. apply nth_firstn in Hg as [Hg K]. apply (DD m g); [lia|exact Hg].
Qed.

(** ** Rest *)
Lemma eqb_lt x y : SFleb x y = true -> SFeqb x y = false -> SFltb x y = true.
Proof. unfold SFleb, SFeqb, SFltb. destruct (SFcompare x y) as [[| |]|]; congruence. Qed.
Lemma chg_inv (gs : list (grow FN)) (s : lstate FN) : fle (p_cap_lo p) (p_cap_hi p) -> p_full p = true -> tr o p ea er gs s -> l_chg s = true ->
  (isnan (l_batt s) \/ flt (l_batt s) (p_cap_hi p)) /\ (l_duty s = true -> isnan (l_batt s)).
Proof.
  intros Hlh Hf H. induction H as [|gs s g s' Ht IH Hg Hit Hex]; [discriminate|].
  destruct (exit_next_hist _ _ _ _ Hex) as [n ->]. cbn [with_nrel post l_chg l_batt l_duty]. intros Hc.
  destruct (iter_sfields _ _ _ _ _ _ Hit) as (S1 & S2 & S3 & S4 & S5 & S6 & S7 & _).
  destruct (plan_inv _ _ _ _ (it_plan _ _ _ _ _ _ Hit)) as (dt0 & d1 & ton1 & toff1 & d2 & _ & Du & Ba & Re & Et).
  rewrite S1, S3, S7 in Ba. rewrite S3 in Re. pose proof (it_batt _ _ _ _ _ _ Hit) as Bu. rewrite S3 in Bu. unfold battery_update in Bu.
  destruct (pl_duty (g_pl g)) eqn:D.
  - injection Bu as Eb Ec. rewrite <- Ec in Hc. unfold recharge_phase in Re. rewrite Hf, Hc in Re. cbn [andb] in Re.
    destruct (nltb (l_batt s) (p_cap_hi p)) eqn:Lt; [discriminate|]. subst d2.
    assert (Cs : l_chg s = true).
    { unfold battery_phase in Ba. destruct (nleb _ _); [congruence|]. destruct (_ && _); congruence. }
    destruct (IH Cs) as [[Nn|Ltt] _]; [|exfalso; unfold flt in Ltt; cbn [nltb FNum] in Lt; congruence].
    assert (isnan (g_b g)).
    { rewrite <- Eb. match goal with |- isnan (npclip ?v _ _) => destruct (clip_cases L v (p_cap_lo p) (p_cap_hi p) (leb_num_l _ _ Hlh) (leb_num_r _ _ Hlh)) as [[I E]|(N & _)] end.
      - rewrite E. exact I.
      - exfalso. apply N. cbn [nsub FNum]. rewrite v_sub, Nn. reflexivity. }
    split; [left; assumption|auto].
  - split; [|discriminate].
    match type of Bu with (npclip ?v _ _, _) = _ => set (bb := npclip (N:=FN) v (p_cap_lo p) (p_cap_hi p)) in *;
      destruct (clip_cases L v (p_cap_lo p) (p_cap_hi p) (leb_num_l _ _ Hlh) (leb_num_r _ _ Hlh)) as [[I E]|(N & _ & B)] end.
    + left. injection Bu as <- _. fold bb in E. rewrite E. exact I.
    + right. fold bb in B. injection Bu as Eb Ec. rewrite <- Eb. apply eqb_lt; [apply (B Hlh)|].
      rewrite Hc in Ec. cbn [neqb FNum] in Ec. destruct (SFeqb (f_val bb) (f_val (p_cap_hi p))); [discriminate|reflexivity].
Qed.

Lemma off_since (gs : list (grow FN)) (s : lstate FN) : forward64 o p -> fle (p_cap_lo p) (p_cap_hi p) -> fle f0 (p_duty_off p) -> tr o p ea er gs s -> l_duty s = false ->
  exists b gb, nth_error gs b = Some gb /\ l_toff s = l_t (g_s gb) /\
    forall m, (b <= m < length gs)%nat -> exists gm, nth_error gs m = Some gm /\ pl_duty (g_pl gm) = false.
Proof.
  intros F Hlh Ho H. induction H as [|gs s g s' Ht IH Hg Hit Hex]; [discriminate|].
  destruct (exit_next_hist _ _ _ _ Hex) as [n ->]. cbn [with_nrel post l_duty l_toff]. intros D.
  assert (Hlast : nth_error (gs ++ [g]) (length gs) = Some g) by (rewrite nth_error_app2, Nat.sub_diag by lia; reflexivity).
  destruct (iter_sfields _ _ _ _ _ _ Hit) as (S1 & S2 & S3 & S4 & S5 & S6 & S7 & _).
  destruct (plan_inv _ _ _ _ (it_plan _ _ _ _ _ _ Hit)) as (dt0 & d1 & ton1 & toff1 & d2 & _ & Du & Ba & Re & Et).
  rewrite S1, S4, S5, S6 in Du. rewrite S1, S3, S7 in Ba. rewrite S3, D in Re.
  assert (Ft : fin (l_t s)) by (eapply guard_fin; [exact Ht|apply (tr_ok L o p ea er _ _ F Ht)|exact Hg]).
  assert (New : pl_toff (g_pl g) = l_t s -> exists b gb, nth_error (gs ++ [g]) b = Some gb /\ pl_toff (g_pl g) = l_t (g_s gb) /\
    forall m, (b <= m < length (gs ++ [g]))%nat -> exists gm, nth_error (gs ++ [g]) m = Some gm /\ pl_duty (g_pl gm) = false).
  { intros E. exists (length gs), g. split; [exact Hlast|]. split; [congruence|]. intros m Hm. rewrite app_length in Hm. cbn in Hm.
    replace m with (length gs) by lia. eauto. }
  assert (Old : l_duty s = false -> pl_toff (g_pl g) = l_toff s -> exists b gb, nth_error (gs ++ [g]) b = Some gb /\ pl_toff (g_pl g) = l_t (g_s gb) /\
    forall m, (b <= m < length (gs ++ [g]))%nat -> exists gm, nth_error (gs ++ [g]) m = Some gm /\ pl_duty (g_pl gm) = false).
  { intros E1 E2. destruct (IH E1) as (b & gb & B1 & B2 & B3). exists b, gb.
    assert (b < length gs)%nat by (apply nth_error_Some; congruence).
    split; [rewrite nth_error_app1 by lia; exact B1|]. split; [congruence|]. intros m Hm. rewrite app_length in Hm. cbn in Hm.
    destruct (Nat.eq_dec m (length gs)) as [->|]; [eauto|]. destruct (B3 m ltac:(lia)) as (gm & M1 & M2). exists gm. rewrite nth_error_app1 by lia. auto. }
  unfold battery_phase in Ba. destruct (nleb (l_batt s) (nadd (p_cap_lo p) (dec (N:=FN) 1 12))); [apply New; congruence|].
  assert (E2 : d2 = d1 /\ pl_toff (g_pl g) = toff1 /\ pl_chg (g_pl g) = l_chg s) by (destruct (_ && _) in Ba; injection Ba; auto).
  destruct E2 as (E2a & E2b & Ec). subst d2. rewrite Ec in Re. clear Ba.
  unfold duty_phase in Du. destruct (l_duty s) eqn:Ds; cbn [negb andb] in Du.
  - rewrite andb_true_r in Du. destruct (nltb (p_duty_on p) (nsub (l_t s) (l_ton s))) eqn:E.
    + apply New. destruct (_ && _) in Du; congruence.
    + cbn [negb] in Du. rewrite andb_false_r in Du. assert (d1 = true) by congruence. subst d1. exfalso.
      unfold recharge_phase in Re. destruct (p_full p) eqn:Hf; cbn [andb] in Re; [|discriminate]. destruct (l_chg s) eqn:Cs; [|discriminate].
      cbn [andb] in Re. destruct (nltb (l_batt s) (p_cap_hi p)) eqn:Lt; [|discriminate].
      destruct (chg_inv _ _ Hlh Hf Ht Cs) as [_ X]. specialize (X Ds). cbn [nltb FNum] in Lt. rewrite X in Lt. discriminate Lt.
  - rewrite andb_false_r in Du. apply Old; [reflexivity|]. destruct (_ && _) in Du; congruence.
Qed.

Lemma C110_off_lem fuel (o' : qlaw FN) (h : hist FN) i k ti tk : forward64 o p -> fle (p_cap_lo p) (p_cap_hi p) -> fle f0 (p_duty_on p) -> fle f0 (p_duty_off p) ->
  ran fuel o ea er p o' h -> (i < k)%nat -> throttle h i 1 -> throttle h k 1 ->
  nth_error (h_times h) i = Some ti -> nth_error (h_times h) k = Some tk -> flt (p_duty_on p) (nsub (Num:=FN) tk ti) ->
  exists b c tb tc, (i < b /\ b < c /\ c <= k)%nat /\ nth_error (h_times h) b = Some tb /\ nth_error (h_times h) c = Some tc /\
    flt (p_duty_off p) (nsub (Num:=FN) tc tb) /\ forall m, (b <= m < c)%nat -> throttle h m 0.
Proof.
  intros F Hlh Hon Hoff R Hik Thi Thk Ei Ek Hlong. destruct (run_rows _ _ _ R) as (gs & Lg & Rw).
  assert (RR : forall m, (m <= k)%nat -> exists g, nth_error gs m = Some g).
  { intros m Hm. pose proof (thr_duty _ _ _ _ R Thk) as K. rewrite <- Lg in K. destruct (nth_error gs m) eqn:X; [eauto|]. apply nth_error_None in X. lia. }
  destruct (RR i ltac:(lia)) as [gi Hi]. destruct (Rw i gi Hi) as (si & Ti & RFi). pose proof (row_thr _ _ _ _ RFi Thi) as Di.
  destruct (RR k ltac:(lia)) as [gk Hk]. destruct (Rw k gk Hk) as (sk & Tk & RFk). pose proof (row_thr _ _ _ _ RFk Thk) as Dk.
  rewrite (rf_t _ _ _ _ _ _ _ _ RFi) in Ei. injection Ei as <-. rewrite (rf_t _ _ _ _ _ _ _ _ RFk) in Ek. injection Ek as <-.
  destruct (iter_sfields _ _ _ _ _ _ (rf_iter _ _ _ _ _ _ _ _ RFi)) as (S1 & _).
  assert (SW : exists c gc, (i < c <= k)%nat /\ nth_error gs c = Some gc /\ pl_duty (g_pl gc) = true /\ exists gp, nth_error gs (c - 1) = Some gp /\ pl_duty (g_pl gp) = false).
  { assert (Dec : forall m, (i <= m <= k)%nat ->
      (exists c gc, (i < c <= k)%nat /\ nth_error gs c = Some gc /\ pl_duty (g_pl gc) = true /\ exists gp, nth_error gs (c - 1) = Some gp /\ pl_duty (g_pl gp) = false) \/
      (forall x g, (i <= x <= m)%nat -> nth_error gs x = Some g -> pl_duty (g_pl g) = true) \/
      (exists g, nth_error gs m = Some g /\ pl_duty (g_pl g) = false)).
    { induction m as [|m IH]; intros Hm.
      - right; left. intros x g Hx Hg. assert (x = i) by lia. subst x. congruence.
      - destruct (Nat.eq_dec i (S m)) as [Ee|Hne]; [right; left; intros x g Hx Hg; assert (x = i) by lia; subst x; congruence|].
        destruct (RR (S m) ltac:(lia)) as [g Hg]. destruct (pl_duty (g_pl g)) eqn:D; [|right; right; eauto].
        destruct (IH ltac:(lia)) as [X|[X|(g0 & X1 & X2)]]; [left; exact X| |].
        + right; left. intros x g1 Hx Hg1. destruct (Nat.eq_dec x (S m)) as [->|]; [congruence|]. apply (X x g1); [lia|exact Hg1].
        + left. exists (S m), g. split; [lia|]. split; [exact Hg|]. split; [exact D|]. exists g0. replace (S m - 1)%nat with m by lia. auto. }
    destruct (Dec k ltac:(lia)) as [X|[X|(g & X1 & X2)]]; [exact X| |congruence].
    exfalso. assert (G : fle (nsub (Num:=FN) (l_t sk) (l_t (g_s gi))) (p_duty_on p)).
    { apply (on_limit (firstn k gs) sk gk i gi F Hoff Hon Tk (rf_guard _ _ _ _ _ _ _ _ RFk) (rf_iter _ _ _ _ _ _ _ _ RFk) Dk).
      - apply nth_firstn'; [exact Hi|lia].
      - intros m g Hm Hg. apply nth_firstn in Hg as [Hg K]. apply (X m g); [lia|exact Hg]. }
    rewrite S1 in G. exact (ltb_not _ _ Hlong G). }
  destruct SW as (c & gc & Hc & Hgc & Dc & gp & Hgp & Dp).
  destruct (Rw c gc Hgc) as (sc & Tc & RFc). pose proof (rf_iter _ _ _ _ _ _ _ _ RFc) as Itc.
  assert (Ds : l_duty sc = false).
  { assert (E : firstn c gs = firstn (c - 1) gs ++ [gp]).
    { clear - Hgp Hc. destruct c as [|c]; [lia|]. cbn [Nat.sub] in *. rewrite Nat.sub_0_r in *. clear Hc. revert c Hgp.
      induction gs as [|x l IHl]; intros [|c] H; try discriminate; cbn in *; [injection H as ->; destruct l; reflexivity|]. f_equal. apply IHl. exact H. }
    rewrite E in Tc. destruct (tr_last _ _ _ Tc) as (-> & _). exact Dp. }
  assert (Ft : fin (l_t sc)) by (eapply guard_fin; [exact Tc|apply (tr_ok L o p ea er _ _ F Tc)|exact (rf_guard _ _ _ _ _ _ _ _ RFc)]).
  destruct (on_row sc gc Ft Hoff Itc Dc) as [(X & _)|(_ & Lo & _)]; [congruence|].
  destruct (off_since _ _ F Hlh Hoff Tc Ds) as (b & gb & Hb & Eb & Hrows).
  apply nth_firstn in Hb as [Hb Kb]. destruct (Rw b gb Hb) as (sb & Tb & RFb).
  destruct (iter_sfields _ _ _ _ _ _ (rf_iter _ _ _ _ _ _ _ _ RFb)) as (S1b & _). rewrite S1b in Eb.
  assert (Lc : length (firstn c gs) = c) by (apply firstn_length_le; assert (c < length gs)%nat by (apply nth_error_Some; congruence); lia).
  assert (Hib : (i < b)%nat).
  { destruct (Nat.lt_ge_cases i b) as [|K]; [assumption|]. exfalso. destruct (Hrows i) as (g & G1 & G2); [rewrite Lc; lia|].
    apply nth_firstn in G1 as [G1 _]. congruence. }
  exists b, c, (l_t sb), (l_t sc). split; [lia|]. split; [exact (rf_t _ _ _ _ _ _ _ _ RFb)|]. split; [exact (rf_t _ _ _ _ _ _ _ _ RFc)|].
  split; [rewrite <- Eb; exact Lo|]. intros m Hm. destruct (Hrows m) as (g & G1 & G2); [rewrite Lc; lia|]. apply nth_firstn in G1 as [G1 _].
  destruct (Rw m g G1) as (sm & _ & RFm). unfold throttle. rewrite nth_error_map, (rf_c _ _ _ _ _ _ _ _ RFm). cbn. f_equal.
  pose proof (it_ctl _ _ _ _ _ _ (rf_iter _ _ _ _ _ _ _ _ RFm)) as Ct. unfold control in Ct. rewrite G2 in Ct.
  match type of Ct with bind ?x _ = _ => destruct x as [[[[[[? ?] ?] ?] ?] ?]|] end; [|discriminate]. cbn in Ct. injection Ct as <-. reflexivity.
Qed.
End Duty.
