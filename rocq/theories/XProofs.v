(** Time, mass, battery and duty-cycle properties over extended reals. *)
From Coq Require Import Reals ZArith List Bool Lia Lra.
From Verif Require Import RMath Num Base Elements Integrate Eom Convergence Lyapunov Perturb Qlaw Trace
  Spec XSpec SolveProofs ExitProofs GateProofs XTrace.
Import ListNotations.
Local Open Scope R_scope.

Section Chain.
Variables (a : params) (rk : bool) (smin smax : R).
Notation chain := (chain a rk smin smax).
Notation row_ok := (row_ok a rk smin smax).

Definition st0 : rst := mkrst 0 (a_mass0 a) (a_b0 a) true 0 0 false.
Definition st_at (rs : list rrow) (k : nat) : rst :=
  match k with O => st0 | S j => match nth_error rs j with Some r => next_st r | None => st0 end end.

Lemma chain_st rs st : chain rs st -> st = st_at rs (length rs).
Proof.
  induction 1 as [|rs s r C IH RO]; [reflexivity|].
  rewrite app_length, Nat.add_1_r. simpl. rewrite nth_error_app2, Nat.sub_diag by lia. reflexivity.
Qed.

Lemma st_at_app rs r k : (k <= length rs)%nat -> st_at (rs ++ [r]) k = st_at rs k.
Proof.
  intros H. destruct k; [reflexivity|]. simpl. rewrite nth_error_app1 by lia. reflexivity.
Qed.

Lemma chain_row rs st : chain rs st -> forall k r, nth_error rs k = Some r -> row_ok (st_at rs k) r.
Proof.
  induction 1 as [|rs s r0 C IH RO]; intros k r Hk; [destruct k; discriminate|].
  destruct (Nat.lt_ge_cases k (length rs)) as [Hlt|Hge].
  - rewrite nth_error_app1 in Hk by assumption. rewrite st_at_app by lia. auto.
  - assert (Hlen : k = length rs).
    { assert (k < length (rs ++ [r0]))%nat by (apply nth_error_Some; congruence).
      rewrite app_length in *. simpl in *. lia. }
    subst k. rewrite nth_error_app2, Nat.sub_diag in Hk by lia. injection Hk as <-.
    rewrite st_at_app by lia. rewrite <- (chain_st _ _ C). exact RO.
Qed.

Lemma st_at_S rs k r : nth_error rs k = Some r -> st_at rs (S k) = next_st r.
Proof. intros H. simpl. rewrite H. reflexivity. Qed.

Lemma d12 : 0 < 1 / 10 ^ 12.
Proof. apply Rdiv_lt_0_compat; [lra|apply pow_lt; lra]. Qed.

Lemma smallest_step_pos : 0 < a_ts a -> 0 < (smallest_step a).
Proof.
  intros H. unfold smallest_step. destruct (Rltb_spec 0 (a_dis a)); [|exact H].
  apply Rmin_glb_lt; [exact H|]. apply Rdiv_lt_0_compat; [apply d12|assumption].
Qed.

Lemma batt_rel_dt s d1 toff1 dt d2 toff c : batt_rel a s d1 toff1 dt d2 toff c -> 0 < a_ts a ->
  0 < dt <= a_ts a /\ (smallest_step a) <= dt /\
  (dt < a_ts a -> s_chg s = false /\ c = false /\ d2 = d1 /\ s_b s - a_dis a * dt = a_lo a).
Proof.
  pose proof d12 as H12. intros H Hts. inversion H as [E1|E1 E2 E3|E1 E2]; subst.
  - split; [lra|]. split; [|lra]. unfold smallest_step.
    destruct (Rltb_spec 0 (a_dis a)); [apply Rmin_l|lra].
  - assert (Hd : 0 < a_dis a).
    { destruct (Rlt_le_dec 0 (a_dis a)); [assumption|]. exfalso. nra. }
    assert (Hlt : (s_b s - a_lo a) / a_dis a < a_ts a).
    { apply Rmult_lt_reg_r with (a_dis a); [assumption|]. unfold Rdiv.
      rewrite Rmult_assoc, Rinv_l by lra. lra. }
    split.
    { split; [|lra]. apply Rdiv_lt_0_compat; lra. }
    split.
    { unfold smallest_step. destruct (Rltb_spec 0 (a_dis a)); [|lra].
      eapply Rle_trans; [apply Rmin_r|]. apply Rmult_le_compat_r; [|lra].
      apply Rlt_le, Rinv_0_lt_compat; assumption. }
    intros _. repeat split; auto; try congruence. field_simplify; lra.
  - split; [lra|]. split; [|lra]. unfold smallest_step.
    destruct (Rltb_spec 0 (a_dis a)); [apply Rmin_l|lra].
Qed.

Lemma batt_rel_dt_back s d1 toff1 dt d2 toff c : batt_rel a s d1 toff1 dt d2 toff c -> a_ts a < 0 ->
  0 <= a_dis a -> dt = a_ts a.
Proof.
  pose proof d12 as H12. intros H Hts Hd. inversion H as [E1|E1 E2 E3|E1 E2]; subst; auto.
  exfalso. nra.
Qed.

Lemma row_dt s r : row_ok s r -> 0 < a_ts a -> 0 < r_dt r <= a_ts a /\ (smallest_step a) <= r_dt r.
Proof.
  intros [_ (d1 & toff1 & d2 & _ & B & _) _ _ _ _ _ _] H.
  destruct (batt_rel_dt _ _ _ _ _ _ _ B H) as (X & Y & _). auto.
Qed.

Lemma row_dt_back s r : row_ok s r -> a_ts a < 0 -> 0 <= a_dis a -> r_dt r = a_ts a.
Proof.
  intros [_ (d1 & toff1 & d2 & _ & B & _) _ _ _ _ _ _] H1 H2.
  eapply batt_rel_dt_back; eauto.
Qed.

Lemma rclip_bounds x lo hi : lo <= hi -> lo <= rclip x lo hi <= hi.
Proof.
  intros H. unfold rclip. split.
  - apply Rmin_glb; [apply Rmax_r|exact H].
  - apply Rmin_r.
Qed.
Lemma rclip_le x lo hi : rclip x lo hi <= hi.
Proof. apply Rmin_r. Qed.
Lemma rclip_id x lo hi : lo <= x <= hi -> rclip x lo hi = x.
Proof. intros H. unfold rclip. rewrite Rmax_left, Rmin_left; lra. Qed.

(** While charging with require_full_recharge the battery is below full and the thruster is off. *)
Lemma full_inv rs st : chain rs st -> a_full a = true -> s_chg st = true -> s_b st < a_hi a.
Proof.
  induction 1 as [|rs s r C IH RO]; intros Hf Hc; [discriminate|]. specialize (IH Hf).
  destruct RO as [G (d1 & toff1 & d2 & D & B & E) Th T M Db Bb Ch]. simpl in *.
  assert (Hd : r_duty r = false).
  { destruct (r_duty r) eqn:Hd; [exfalso|reflexivity]. rewrite Ch in Hc.
    rewrite Hf, Hc in E. simpl in E. destruct (Rltb_spec (s_b s) (a_hi a)) as [X|X]; [discriminate|].
    inversion B as [E1|E1 E2 E3|E1 E2]; subst; try congruence.
    assert (s_chg s = true) by congruence. auto. }
  rewrite Hd in *. destruct (Reqb_spec (r_b r) (a_hi a)) as [X|X]; [congruence|].
  assert (r_b r <= a_hi a) by (rewrite Bb; apply rclip_le). lra.
Qed.

Lemma full_duty_chg rs st s r : chain rs st -> st = s -> row_ok s r -> a_full a = true -> r_duty r = true ->
  r_chg1 r = false.
Proof.
  intros C -> RO Hf Hd. destruct RO as [G (d1 & toff1 & d2 & D & B & E) Th T M Db Bb Ch].
  destruct (r_chg1 r) eqn:Hc; [exfalso|reflexivity].
  rewrite Hd, Hf in E. simpl in E. destruct (Rltb_spec (s_b s) (a_hi a)) as [X|X]; [discriminate|].
  inversion B as [E1|E1 E2 E3|E1 E2]; subst; try congruence.
  apply X. eapply full_inv; eauto; congruence.
Qed.

Lemma chain_firstn rs st : chain rs st -> forall k, (k <= length rs)%nat -> chain (firstn k rs) (st_at rs k).
Proof.
  induction 1 as [|rs s r C IH RO]; intros k Hk.
  - simpl in Hk. destruct k; [constructor|lia].
  - rewrite app_length in Hk. simpl in Hk. destruct (Nat.le_gt_cases k (length rs)) as [Hle|Hgt].
    + rewrite firstn_app. replace (k - length rs)%nat with 0%nat by lia. rewrite firstn_O, app_nil_r.
      rewrite st_at_app by assumption. auto.
    + assert (k = S (length rs)) by lia. subst k.
      rewrite firstn_all2 by (rewrite app_length; simpl; lia).
      rewrite (st_at_S _ _ r) by (rewrite nth_error_app2, Nat.sub_diag by lia; reflexivity).
      econstructor; eauto.
Qed.

(** Times are monotone. *)
Lemma times_step rs st k r : chain rs st -> nth_error rs k = Some r ->
  s_t (st_at rs (S k)) = s_t (st_at rs k) + r_dt r.
Proof.
  intros C Hk. rewrite (st_at_S _ _ _ Hk). simpl. apply (ro_t _ _ _ _ _ _ (chain_row _ _ C _ _ Hk)).
Qed.

Lemma times_mono rs st : chain rs st -> 0 < a_ts a -> forall i j, (i < j <= length rs)%nat ->
  s_t (st_at rs i) < s_t (st_at rs j).
Proof.
  intros C Hts i j. induction j as [|j IH]; [lia|]. intros Hj.
  destruct (nth_error rs j) as [r|] eqn:Hr; [|apply nth_error_None in Hr; lia].
  pose proof (times_step _ _ _ _ C Hr) as E.
  destruct (row_dt _ _ (chain_row _ _ C _ _ Hr) Hts) as [H _].
  destruct (Nat.eq_dec i j) as [->|Hne]; [lra|]. specialize (IH ltac:(lia)). lra.
Qed.

Lemma times_le rs st : chain rs st -> 0 < a_ts a -> forall i j, (i <= j <= length rs)%nat ->
  s_t (st_at rs i) <= s_t (st_at rs j).
Proof.
  intros C Hts i j H. destruct (Nat.eq_dec i j) as [->|Hne]; [lra|].
  apply Rlt_le. eapply times_mono; eauto. lia.
Qed.

Lemma times_lower rs st : chain rs st -> 0 < a_ts a -> INR (length rs) * (smallest_step a) <= s_t st.
Proof.
  intros C Hts. induction C as [|rs s r C IH RO]; [simpl; lra|].
  rewrite app_length. rewrite plus_INR. simpl INR. simpl s_t. rewrite (ro_t _ _ _ _ _ _ RO).
  destruct (row_dt _ _ RO Hts). lra.
Qed.

Lemma times_back rs st : chain rs st -> a_ts a < 0 -> 0 <= a_dis a -> s_t st = INR (length rs) * a_ts a.
Proof.
  intros C H1 H2. induction C as [|rs s r C IH RO]; [simpl; lra|].
  rewrite app_length, plus_INR. simpl INR. simpl s_t.
  rewrite (ro_t _ _ _ _ _ _ RO), (row_dt_back _ _ RO H1 H2). lra.
Qed.

(** Duty cycle. *)
Lemma ton_le rs st : chain rs st -> 0 < a_ts a -> s_ton st <= s_t st.
Proof.
  intros C Hts. induction C as [|rs s r C IH RO]; [simpl; lra|].
  pose proof (row_dt _ _ RO Hts) as [H _]. simpl. rewrite (ro_t _ _ _ _ _ _ RO).
  destruct RO as [G (d1 & toff1 & d2 & D & B & E) Th T M Db Bb Ch].
  inversion D; subst; lra.
Qed.

Lemma duty_prev rs k : (0 < k)%nat -> forall r, nth_error rs (k - 1) = Some r ->
  s_duty (st_at rs k) = r_duty r /\ s_ton (st_at rs k) = r_ton r /\ s_toff (st_at rs k) = r_toff r /\
  s_chg (st_at rs k) = r_chg r /\ s_t (st_at rs k) = r_t r.
Proof.
  intros Hk r Hr. destruct k as [|k]; [lia|]. simpl in Hr. rewrite Nat.sub_0_r in Hr.
  rewrite (st_at_S _ _ _ Hr). simpl. auto.
Qed.

(** A thrust-enabled row: the flag was on within ON of the last switch-on, or it was switched on
    just now. *)
Lemma on_row s r : row_ok s r -> 0 <= a_off a -> r_duty r = true ->
  (s_duty s = true /\ s_t s - s_ton s <= a_on a /\ r_ton r = s_ton s) \/
  (s_duty s = false /\ a_off a < s_t s - s_toff s /\ r_ton r = s_t s).
Proof.
  intros [G (d1 & toff1 & d2 & D & B & E) Th T M Db Bb Ch] Hoff Hd.
  assert (Hd1 : d1 = true).
  { rewrite Hd in E. destruct (a_full a && r_chg1 r && Rltb (s_b s) (a_hi a))%bool; [discriminate|].
    inversion B; subst; congruence. }
  subst d1. inversion D; subst; [left; auto|exfalso; lra|right; auto].
Qed.

Lemma on_limit rs st : chain rs st -> 0 < a_ts a -> 0 <= a_on a -> 0 <= a_off a ->
  forall i j, (i <= j)%nat -> (forall m, (i <= m <= j)%nat -> exists r, nth_error rs m = Some r /\ r_duty r = true) ->
  s_t (st_at rs j) - s_t (st_at rs i) <= a_on a.
Proof.
  intros C Hts Hon Hoff i j Hij Hall.
  assert (P : forall m, (i <= m <= j)%nat -> forall r, nth_error rs m = Some r ->
     r_ton r <= s_t (st_at rs i) /\ ((i < m)%nat -> s_t (st_at rs m) - r_ton r <= a_on a)).
  { intros m. induction m as [|m IH]; intros Hm r Hr.
    - split; [|lia]. replace i with 0%nat by lia.
      pose proof (chain_row _ _ C _ _ Hr) as RO.
      destruct (Hall 0%nat Hm) as (r' & Hr' & Hd). assert (r' = r) by congruence. subst r'.
      destruct (on_row _ _ RO Hoff Hd) as [(A & B & ->)|(A & B & ->)]; simpl; lra.
    - pose proof (chain_row _ _ C _ _ Hr) as RO.
      destruct (Hall (S m) Hm) as (r' & Hr' & Hd). assert (r' = r) by congruence. subst r'.
      destruct (Nat.eq_dec i (S m)) as [->|Hne].
      + split; [|lia]. destruct (on_row _ _ RO Hoff Hd) as [(A & B & ->)|(A & B & ->)]; [|lra].
        eapply ton_le; [|exact Hts]. eapply chain_firstn; [exact C|].
        apply Nat.lt_le_incl, nth_error_Some. congruence.
      + destruct (Hall m ltac:(lia)) as (r0 & Hr0 & Hd0).
        destruct (IH ltac:(lia) r0 Hr0) as [I1 _].
        rewrite (st_at_S _ _ _ Hr0) in *.
        destruct (on_row _ _ RO Hoff Hd) as [(A & B & E)|(A & B & E)]; simpl in *; [|congruence].
        rewrite E. split; [exact I1|]. intros _. lra. }
  destruct (Hall j ltac:(lia)) as (r & Hr & Hd). destruct (P j ltac:(lia) r Hr) as [P1 P2].
  destruct (Nat.eq_dec i j) as [->|Hne]; [lra|]. specialize (P2 ltac:(lia)). lra.
Qed.

(** When the flag is off, it has been off since the row at which t_last_OFF was set. *)
Lemma off_since rs st : chain rs st -> 0 <= a_off a -> s_duty st = false ->
  exists b, (b < length rs)%nat /\ s_toff st = s_t (st_at rs b) /\
    forall m, (b <= m < length rs)%nat -> exists r, nth_error rs m = Some r /\ r_duty r = false.
Proof.
  intros C Hoff. induction C as [|rs s r C IH RO]; intros Hd; [discriminate|].
  assert (Hlast : nth_error (rs ++ [r]) (length rs) = Some r)
    by (rewrite nth_error_app2, Nat.sub_diag by lia; reflexivity).
  assert (New : r_toff r = s_t s -> exists b, (b < length (rs ++ [r]))%nat /\
     s_toff (next_st r) = s_t (st_at (rs ++ [r]) b) /\
    forall m, (b <= m < length (rs ++ [r]))%nat -> exists r0, nth_error (rs ++ [r]) m = Some r0 /\ r_duty r0 = false).
  { intros E. exists (length rs). rewrite app_length. simpl. split; [lia|].
    rewrite st_at_app by lia. rewrite <- (chain_st _ _ C). split; [exact E|].
    intros m Hm. assert (m = length rs) by lia. subst m. eauto. }
  assert (Old : s_duty s = false -> r_toff r = s_toff s -> exists b, (b < length (rs ++ [r]))%nat /\
     s_toff (next_st r) = s_t (st_at (rs ++ [r]) b) /\
    forall m, (b <= m < length (rs ++ [r]))%nat -> exists r0, nth_error (rs ++ [r]) m = Some r0 /\ r_duty r0 = false).
  { intros E1 E2. destruct (IH E1) as (b & B1 & B2 & B3). exists b. rewrite app_length. simpl.
    split; [lia|]. rewrite st_at_app by lia. split; [congruence|].
    intros m Hm. destruct (Nat.eq_dec m (length rs)) as [->|Hne]; [eauto|].
    destruct (B3 m ltac:(lia)) as (r0 & R1 & R2). exists r0. rewrite nth_error_app1 by lia. auto. }
  simpl in Hd.
  destruct RO as [G (d1 & toff1 & d2 & D & B & E) Th T M Db Bb Ch].
  inversion B as [E1|E1 E2 E3|E1 E2]; subst.
  - apply New. congruence.
  - inversion D; subst.
    + exfalso. assert (Hc1 : r_chg1 r = false) by congruence.
      rewrite Hc1, andb_false_r in E. simpl in E. congruence.
    + apply New. congruence.
    + exfalso. lra.
    + apply Old; congruence.
    + apply Old; congruence.
  - inversion D; subst.
    + (* flag kept on by the duty cycle, off by the recharge rule: impossible *)
      exfalso. destruct (a_full a) eqn:Hf; simpl in E; [|congruence].
      match goal with H : s_chg s = r_chg1 r |- _ => rewrite <- H in E end.
      destruct (s_chg s) eqn:Hc; simpl in E; [|congruence].
      assert (X : s_duty s = false).
      { clear - C Hf Hc. destruct C as [|rs s r C RO]; [discriminate|]. simpl in *.
        destruct RO as [G (d1 & toff1 & d2 & D & B & E) Th T M Db Bb Ch].
        destruct (r_duty r) eqn:Hd; [exfalso|reflexivity].
        rewrite Ch in Hc. rewrite Hf, Hc in E. simpl in E.
        destruct (Rltb_spec (s_b s) (a_hi a)) as [X|X]; [discriminate|].
        inversion B as [E1|E1 E2 E3|E1 E2]; subst; try congruence.
        apply X. eapply full_inv; eauto; congruence. }
      congruence.
    + apply New. congruence.
    + exfalso. lra.
    + apply Old; congruence.
    + apply Old; congruence.
Qed.

Lemma off_rest rs st : chain rs st -> 0 < a_ts a -> 0 <= a_on a -> 0 <= a_off a ->
  forall i k ri rk', (i < k)%nat -> nth_error rs i = Some ri -> r_duty ri = true ->
  nth_error rs k = Some rk' -> r_duty rk' = true -> a_on a < s_t (st_at rs k) - s_t (st_at rs i) ->
  exists b c, (i < b /\ b < c /\ c <= k)%nat /\ a_off a < s_t (st_at rs c) - s_t (st_at rs b) /\
    forall m, (b <= m < c)%nat -> exists r, nth_error rs m = Some r /\ r_duty r = false.
Proof.
  intros C Hts Hon Hoff i k ri rk' Hik Hi Hdi Hk Hdk Hlong.
  assert (Hklen : (k < length rs)%nat) by (apply nth_error_Some; congruence).
  (* a row c in (i,k] at which the flag was off before and on after *)
  assert (SW : exists c rc, (i < c <= k)%nat /\ nth_error rs c = Some rc /\ r_duty rc = true /\
     s_duty (st_at rs c) = false).
  { assert (Dec : forall m, (i <= m <= k)%nat ->
      (exists c rc, (i < c <= k)%nat /\ nth_error rs c = Some rc /\ r_duty rc = true /\ s_duty (st_at rs c) = false) \/
      (exists r, nth_error rs m = Some r /\ r_duty r = true /\ forall x, (i <= x <= m)%nat -> exists r, nth_error rs x = Some r /\ r_duty r = true) \/
      (exists r, nth_error rs m = Some r /\ r_duty r = false)).
    { intros m. induction m as [|m IH]; intros Hm.
      - right; left. exists ri. assert (i = 0%nat) by lia. subst i. split; [auto|]. split; [auto|].
        intros x Hx. assert (x = 0%nat) by lia. subst x. eauto.
      - destruct (Nat.eq_dec i (S m)) as [->|Hne].
        + right; left. exists ri. split; [auto|]. split; [auto|].
          intros x Hx. assert (x = S m) by lia. subst x. eauto.
        + destruct (nth_error rs (S m)) as [r|] eqn:Hr; [|apply nth_error_None in Hr; lia].
          destruct (IH ltac:(lia)) as [L|[(r0 & A1 & A2 & A3)|(r0 & A1 & A2)]]; [left; exact L| |].
          * destruct (r_duty r) eqn:Hd; [|right; right; eauto]. right; left. exists r.
            split; [auto|]. split; [auto|]. intros x Hx.
            destruct (Nat.eq_dec x (S m)) as [->|Hn]; [eauto|apply A3; lia].
          * destruct (r_duty r) eqn:Hd; [|right; right; eauto]. left. exists (S m), r.
            split; [lia|]. split; [auto|]. split; [auto|]. rewrite (st_at_S _ _ _ A1). exact A2. }
    destruct (Dec k ltac:(lia)) as [L|[(r0 & A1 & A2 & A3)|(r0 & A1 & A2)]]; [exact L| |congruence].
    exfalso. pose proof (on_limit _ _ C Hts Hon Hoff i k ltac:(lia) A3). lra. }
  destruct SW as (c & rc & Hc & Hrc & Hdc & Hprev).
  assert (Hclen : (c <= length rs)%nat) by lia.
  pose proof (chain_firstn _ _ C c Hclen) as Cc.
  destruct (off_since _ _ Cc Hoff Hprev) as (b & B1 & B2 & B3).
  rewrite firstn_length_le in B1, B3 by lia.
  destruct (on_row _ _ (chain_row _ _ C _ _ Hrc) Hoff Hdc) as [(X & _)|(_ & X & _)]; [congruence|].
  assert (Hrows : forall m, (b <= m < c)%nat -> exists r, nth_error rs m = Some r /\ r_duty r = false).
  { intros m Hm. destruct (B3 m Hm) as (r & R1 & R2). exists r. split; [|exact R2].
    rewrite <- (firstn_skipn c rs). rewrite nth_error_app1 by (rewrite firstn_length_le; lia). exact R1. }
  exists b, c. split; [|split; [|exact Hrows]].
  - split; [|lia]. destruct (Nat.lt_ge_cases i b); [assumption|exfalso].
    destruct (Hrows i ltac:(lia)) as (r & R1 & R2). congruence.
  - rewrite B2 in X.
    assert (Eb : s_t (st_at (firstn c rs) b) = s_t (st_at rs b)).
    { destruct b as [|b]; [reflexivity|]. simpl. f_equal.
      rewrite <- (firstn_skipn c rs) at 2. rewrite nth_error_app1 by (rewrite firstn_length_le; lia). reflexivity. }
    rewrite Eb in X. exact X.
Qed.
End Chain.
