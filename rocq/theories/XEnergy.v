(** C17 without the full-recharge option: energy of a burn once the battery has been full again. *)
From Coq Require Import Reals ZArith List Bool Lia Lra.
From Verif Require Import RMath Num Base Qlaw Trace Spec XSpec SolveProofs XTrace XProofs XSolve RunSpec XReason.
Import ListNotations.
Local Open Scope R_scope.

Section Chain.
Variables (a : params) (rk : bool) (smin smax : R).
Notation chain := (chain a rk smin smax).
Notation row_ok := (row_ok a rk smin smax).
Notation empty s := (s_b s <= a_lo a + 1 / 10 ^ 12).

(** The charging flag is up: some earlier row was depleted and the battery has not been full since. *)
Lemma chg_not_full rs st : chain rs st -> 0 <= a_dis a -> a_lo a + 1 / 10 ^ 12 < a_hi a -> (rk = false -> 0 <= smin) -> 0 < a_ts a -> s_chg st = true ->
  exists i, (i < length rs)%nat /\ empty (st_at a rs i) /\
    forall j, (i < j <= length rs)%nat -> s_b (st_at a rs j) < a_hi a.
Proof.
  intros C Hdis Hlh Hmin Hts. induction C as [|rs s r C IH RO]; intros Hc; [discriminate|].
  simpl in Hc. 
  pose proof (row_dt _ _ _ _ _ _ RO Hts) as [Hdt _].
  destruct RO as [G (d1 & toff1 & d2 & D & B & E) Th T M Db Bb Ch].
  assert (Hb : r_b r <= a_hi a) by (rewrite Bb; apply rclip_le).
  assert (Hc1 : r_chg1 r = true).
  { rewrite Ch in Hc. destruct (r_duty r); [exact Hc|]. destruct (Reqb _ _); [discriminate|exact Hc]. }
  assert (Low : s_b s < a_hi a -> r_b r < a_hi a).
  { intros X. destruct (r_duty r) eqn:Hd.
    - rewrite Bb. unfold rclip. apply Rle_lt_trans with (Rmax (s_b s - a_dis a * r_dtb r) (a_lo a)); [apply Rmin_l|].
      assert (0 <= r_dtb r) by (destruct rk; [lra|]; specialize (Hmin eq_refl); lra).
      assert (0 <= a_dis a * r_dtb r) by (apply Rmult_le_pos; lra).
      apply Rmax_lub_lt; [lra|]. assert (0 < 1 / 10 ^ 12) by (apply Rdiv_lt_0_compat; [lra|apply pow_lt; lra]). lra.
    - rewrite Ch in Hc. destruct (Reqb_spec (r_b r) (a_hi a)) as [Y|Y]; [discriminate|lra]. }
  assert (New : empty s -> exists i, (i < length (rs ++ [r]))%nat /\ empty (st_at a (rs ++ [r]) i) /\
     forall j, (i < j <= length (rs ++ [r]))%nat -> s_b (st_at a (rs ++ [r]) j) < a_hi a).
  { intros X. exists (length rs). rewrite app_length. simpl. split; [lia|].
    rewrite st_at_app by lia. rewrite <- (chain_st _ _ _ _ _ _ C). split; [exact X|].
    intros j Hj. assert (j = S (length rs)) by lia. subst j. rewrite (st_at_S _ _ _ r (nth_snoc _ _)). simpl. apply Low. lra. }
  assert (Old : s_chg s = true -> exists i, (i < length (rs ++ [r]))%nat /\ empty (st_at a (rs ++ [r]) i) /\
     forall j, (i < j <= length (rs ++ [r]))%nat -> s_b (st_at a (rs ++ [r]) j) < a_hi a).
  { intros X. destruct (IH X) as (i & I1 & I2 & I3). exists i. rewrite app_length. simpl. split; [lia|].
    rewrite st_at_app by lia. split; [exact I2|].
    intros j Hj. destruct (Nat.eq_dec j (S (length rs))) as [->|].
    - rewrite (st_at_S _ _ _ r (nth_snoc _ _)). simpl. apply Low.
      rewrite (chain_st _ _ _ _ _ _ C). apply I3. lia.
    - rewrite st_at_app by lia. apply I3. lia. }
  inversion B as [E1|E1 E2 E3|E1 E2]; subst; [apply New; exact E1|congruence|apply Old; congruence].
Qed.
End Chain.

Lemma nth_error_firstn_lt {A} (l : list A) k j : (j < k)%nat -> nth_error (firstn k l) j = nth_error l j.
Proof.
  revert k j. induction l as [|x l IH]; intros [|k] [|j] H; try lia; simpl; auto. apply IH. lia.
Qed.
Lemma st_at_firstn a rs k j : (j <= k)%nat -> st_at a (firstn k rs) j = st_at a rs j.
Proof.
  intros H. unfold st_at. destruct j as [|j]; [reflexivity|]. rewrite nth_error_firstn_lt by lia. reflexivity.
Qed.

Section Run.
Variables (o : qlaw XNum) (p : problem XNum) (ea er : eta_arg XNum) (a : params).
Hypothesis Hreg : regular o p a.

Lemma C17_full_since fuel o' h k t t' b : ran fuel o ea er p o' h -> q_integ o = RK4 ->
  0 < a_ts a -> 0 <= a_dis a -> a_lo a + 1 / 10 ^ 12 < a_hi a -> a_b0 a <= a_hi a ->
  (forall i, (i < k)%nat -> depleted a h i -> exists j, (i < j <= k)%nat /\ entry (h_battery h) j (a_hi a)) ->
  throttle h k 1 ->
  entry (h_times h) k t -> entry (h_times h) (S k) t' -> entry (h_battery h) k b ->
  a_lo a <= b - a_dis a * (t' - t) /\ entry (h_battery h) (S k) (b - a_dis a * (t' - t)).
Proof.
  intros Hr Hrk4 Hts Hdis Hlh Hb0 Hsince Hth Ht Ht' Hb.
  assert (Hrk : is_rk4 o = true) by (unfold is_rk4; rewrite Hrk4; reflexivity).
  assert (Hpos : 0 < 1 / 10 ^ 12) by (apply Rdiv_lt_0_compat; [lra|apply pow_lt; lra]).
  destruct (batt_step o p ea er a Hreg _ _ _ _ _ _ _ Hr Ht Ht' Hb) as (duty & d & B1 & B2 & _ & B4).
  rewrite (B1 Hth), (B2 Hrk) in B4.
  destruct (link o p ea er a Hreg _ _ _ Hr) as (smin & smax & rs & st & Q1 & Q2 & Hs & R).
  destruct (run_time _ _ _ _ _ _ _ R _ _ Ht) as (_ & ->).
  destruct (run_time _ _ _ _ _ _ _ R _ _ Ht') as (Hk & ->).
  destruct (run_batt _ _ _ _ _ _ _ R _ _ Hb) as (_ & ->).
  destruct (run_thr_duty _ _ _ _ _ _ _ R k Hth) as (r & Hrr & Hd & RO & E).
  assert (Hle : s_b (st_at a rs k) <= a_hi a).
  { destruct k as [|k]; [exact Hb0|]. destruct (run_row _ _ _ _ _ _ _ R k ltac:(lia)) as (r0 & _ & RO0 & E0).
    rewrite E0. simpl. rewrite (ro_b _ _ _ _ _ _ RO0). apply rclip_le. }
  assert (EN := run_entry o a h smin smax rs st R).
  assert (Hc0 : s_chg (st_at a rs k) = false).
  { destruct (s_chg (st_at a rs k)) eqn:Ec; [exfalso|reflexivity].
    pose proof (chain_firstn _ _ _ _ _ _ (rn_chain _ _ _ _ _ _ _ R) k ltac:(lia)) as C.
    destruct (chg_not_full a _ smin smax _ _ C Hdis Hlh ltac:(rewrite Hrk; discriminate) Hts Ec) as (i & I1 & I2 & I3).
    rewrite firstn_length_le in I1, I3 by lia.
    assert (At : forall j, (j <= k)%nat -> st_at a (firstn k rs) j = st_at a rs j).
    { intros j Hj. apply st_at_firstn. exact Hj. }
    rewrite At in I2 by lia.
    destruct (Hsince i I1) as (j & J1 & J2).
    { exists (s_b (st_at a rs i)). split; [apply EN; lia|exact I2]. }
    specialize (I3 j J1). rewrite At in I3 by lia.
    destruct (EN j ltac:(lia)) as (_ & _ & Ej). unfold entry in J2, Ej. rewrite J2 in Ej. injection Ej as Ej. lra. }
  assert (Edt : s_t (st_at a rs (S k)) - s_t (st_at a rs k) = r_dt r).
  { rewrite E. simpl. rewrite (ro_t _ _ _ _ _ _ RO). lra. }
  rewrite Edt in *.
  pose proof (row_dt _ _ _ _ _ _ RO Hts) as [Hdt _].
  assert (L : a_lo a <= s_b (st_at a rs k) - a_dis a * r_dt r).
  { destruct RO as [G (d1 & toff1 & d2 & D & B & Ed) Th T M Db Bb Ch].
    inversion B as [E1|E1 E2 E3|E1 E2]; subst.
    - exfalso. destruct (a_full a && _ && _)%bool; congruence.
    - assert (a_dis a <> 0) by (intros Z; rewrite Z in *; lra). right. field_simplify_eq; auto; lra.
    - destruct E2 as [E2|E2]; [|congruence]. congruence || (rewrite <- H in *; lra) || lra. }
  split; [exact L|]. rewrite rclip_id in B4; [exact B4|]. split; [exact L|].
  assert (0 <= a_dis a * r_dt r) by (apply Rmult_le_pos; lra). lra.
Qed.
End Run.
