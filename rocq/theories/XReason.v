(** Why a recorded step coasts. *)
From Coq Require Import Reals ZArith List Bool Lia Lra.
From Verif Require Import RMath Num Base Elements Integrate Eom Convergence Lyapunov Perturb Qlaw Trace
  Spec XSpec SolveProofs ExitProofs GateProofs XTrace XProofs XSolve RunSpec RunProofs.
Import ListNotations.
Local Open Scope R_scope.

(** With the flag on, a step without thrust is the law's own choice. *)
Lemma ctl_coast {N : Num} (o : qlaw N) p ea er h k sk g : row_facts o p ea er h k sk g -> 
  pl_duty (g_pl g) = true -> c_thr (g_c g) = 0%Z -> law_coasts o p ea er h k.
Proof.
  intros RF Hd Ht. pose proof (rf_iter _ _ _ _ _ _ _ _ RF) as I.
  destruct (iter_sfields _ _ _ _ _ _ I) as (S1 & S2 & S3 & _).
  pose proof (it_ctl _ _ _ _ _ _ I) as C.
  assert (X : exists al be D psi q qd,
    law o p (thrust_acc p (pl_dt (g_pl g)) (l_mass sk)) (l_oe (g_s g)) = Ok (al, be, D, psi, q, qd) /\
    ((nisnan al || nisnan be)%bool = true \/
     exists qmin qmax, evaluate_osculating_qdot o p (l_oe (g_s g)) (thrust_acc p (pl_dt (g_pl g)) (l_mass sk)) = Ok (qmin, qmax) /\
       (nltb (nofZ 0) (threshold ea (l_t sk) (l_oe (g_s g)) (l_mass sk) (l_batt sk)) ||
        nltb (nofZ 0) (threshold er (l_t sk) (l_oe (g_s g)) (l_mass sk) (l_batt sk)))%bool = true /\
       (nltb (nabs (ndiv qd qmin)) (threshold ea (l_t sk) (l_oe (g_s g)) (l_mass sk) (l_batt sk)) = true \/
        nltb (nabs (ndiv (nsub qd qmax) (nsub qmin qmax))) (threshold er (l_t sk) (l_oe (g_s g)) (l_mass sk) (l_batt sk)) = true))).
  { unfold thrust_acc. rewrite <- S1, <- S2, <- S3. revert C. unfold control, lyap_call, law. rewrite Hd.
    destruct (lyapunov_control_angles _ _ _ _ _ _ _ _ _ _ _ _ _) as [[[[[[al be] D] psi] q] qd]|e]; [|discriminate].
    cbn [bind]. cbv zeta. intros C. exists al, be, D, psi, q, qd. split; [reflexivity|].
    destruct (nisnan al || nisnan be)%bool eqn:En; [left; reflexivity|right].
    destruct (nltb _ _ || nltb _ _)%bool eqn:Eg.
    - destruct (evaluate_osculating_qdot _ _ _ _) as [[M mn]|]; [|discriminate]. cbn [bind] in C.
      exists M, mn. split; [reflexivity|]. split; [rewrite orb_comm; exact Eg|].
      destruct (nltb (nabs _) _ || nltb (nabs _) _)%bool eqn:Eo.
      + apply orb_true_iff in Eo. exact Eo.
      + apply (f_equal (fun r => match r with Ok (Ctl c) => c_thr c | _ => 0%Z end)) in C.
        cbn in C. rewrite Ht in C. discriminate.
    - apply (f_equal (fun r => match r with Ok (Ctl c) => c_thr c | _ => 0%Z end)) in C.
      cbn in C. rewrite Ht in C. discriminate. }
  destruct X as (al & be & D & psi & q & qd & HL & HX).
  exists (l_t sk), (pl_dt (g_pl g)), (l_mass sk), (l_batt sk), (l_oe (g_s g)), al, be, D, psi, q, qd.
  split; [exact (rf_t _ _ _ _ _ _ _ _ RF)|].
  split; [rewrite <- (iter_t o p ea er _ _ I); exact (rf_t' _ _ _ _ _ _ _ _ RF)|].
  split; [exact (rf_m _ _ _ _ _ _ _ _ RF)|]. split; [exact (rf_b _ _ _ _ _ _ _ _ RF)|].
  split; [exact (rf_oe _ _ _ _ _ _ _ _ RF)|]. split; [exact HL|exact HX].
Qed.

Section Chain.
Variables (a : params) (rk : bool) (smin smax : R).
Notation chain := (chain a rk smin smax).
Notation row_ok := (row_ok a rk smin smax).
Notation empty s := (s_b s <= a_lo a + 1 / 10 ^ 12).

Lemma nth_snoc {A} (l : list A) x : nth_error (l ++ [x]) (length l) = Some x.
Proof. rewrite nth_error_app2, Nat.sub_diag by lia. reflexivity. Qed.

(** The flag is on: since the row that set t_last_ON. *)
Lemma on_since rs st : chain rs st -> 0 <= a_off a -> s_duty st = true ->
  exists i, (i <= length rs)%nat /\ s_ton st = s_t (st_at a rs i) /\
    forall m, (i <= m < length rs)%nat -> exists r, nth_error rs m = Some r /\ r_duty r = true.
Proof.
  intros C Hoff. induction C as [|rs s r C IH RO]; intros Hd.
  - exists 0%nat. simpl. split; [lia|]. split; [reflexivity|]. intros; lia.
  - simpl in Hd. destruct (on_row _ _ _ _ _ _ RO Hoff Hd) as [(A & _ & E)|(A & _ & E)].
    + destruct (IH A) as (i & I1 & I2 & I3). exists i. rewrite app_length. simpl.
      split; [lia|]. rewrite st_at_app by lia. split; [congruence|].
      intros m Hm. destruct (Nat.eq_dec m (length rs)) as [->|]; [exists r; split; [apply nth_snoc|exact Hd]|].
      destruct (I3 m ltac:(lia)) as (r0 & R1 & R2). exists r0. rewrite nth_error_app1 by lia. auto.
    + exists (length rs). rewrite app_length. simpl. split; [lia|].
      rewrite st_at_app by lia. rewrite <- (chain_st _ _ _ _ _ _ C). split; [exact E|].
      intros m Hm. assert (m = length rs) by lia. subst m. exists r. split; [apply nth_snoc|exact Hd].
Qed.

(** What started an OFF period at row [b]. *)
Definition off_cause (rs : list rrow) (b : nat) : Prop :=
  empty (st_at a rs b) \/
  exists i, (i < b)%nat /\ a_on a < s_t (st_at a rs b) - s_t (st_at a rs i) /\
    forall m, (i <= m < b)%nat -> exists r, nth_error rs m = Some r /\ r_duty r = true.

Lemma off_cause_app rs r b : (b <= length rs)%nat -> off_cause rs b -> off_cause (rs ++ [r]) b.
Proof.
  intros Hb [H|(i & I1 & I2 & I3)].
  - left. rewrite st_at_app by lia. exact H.
  - right. exists i. split; [lia|]. rewrite !st_at_app by lia. split; [exact I2|].
    intros m Hm. destruct (I3 m Hm) as (r0 & R1 & R2). exists r0. rewrite nth_error_app1 by lia. auto.
Qed.

Lemma off_cause_on rs s : chain rs s -> 0 <= a_on a -> 0 <= a_off a ->
  s_duty s = true -> a_on a < s_t s - s_ton s -> off_cause rs (length rs).
Proof.
  intros C Hon Hoff Hd Hl. destruct (on_since _ _ C Hoff Hd) as (i & I1 & I2 & I3). right. exists i.
  rewrite <- (chain_st _ _ _ _ _ _ C). split; [|split; [lra|exact I3]].
  destruct (Nat.eq_dec i (length rs)) as [->|]; [|lia]. exfalso.
  rewrite <- (chain_st _ _ _ _ _ _ C) in I2. lra.
Qed.

(** The charging flag: since a depleted row, without having been full, when a full recharge is required. *)
Lemma chg_since rs st : chain rs st -> a_full a = true -> s_chg st = true ->
  exists i, (i < length rs)%nat /\ empty (st_at a rs i) /\
    forall j, (i < j <= length rs)%nat -> s_b (st_at a rs j) < a_hi a.
Proof.
  intros C Hf. induction C as [|rs s r C IH RO]; intros Hc; [discriminate|].
  pose proof (full_inv a rk smin smax _ _ (ch_snoc _ _ _ _ _ _ _ C RO) Hf Hc) as Hlast.
  assert (New : empty s -> exists i, (i < length (rs ++ [r]))%nat /\ empty (st_at a (rs ++ [r]) i) /\
     forall j, (i < j <= length (rs ++ [r]))%nat -> s_b (st_at a (rs ++ [r]) j) < a_hi a).
  { intros E. exists (length rs). rewrite app_length. simpl. split; [lia|].
    rewrite st_at_app by lia. rewrite <- (chain_st _ _ _ _ _ _ C). split; [exact E|].
    intros j Hj. assert (j = S (length rs)) by lia. subst j. rewrite (st_at_S _ _ _ r (nth_snoc _ _)). exact Hlast. }
  assert (Old : s_chg s = true -> exists i, (i < length (rs ++ [r]))%nat /\ empty (st_at a (rs ++ [r]) i) /\
     forall j, (i < j <= length (rs ++ [r]))%nat -> s_b (st_at a (rs ++ [r]) j) < a_hi a).
  { intros E. destruct (IH E) as (i & I1 & I2 & I3). exists i. rewrite app_length. simpl. split; [lia|].
    rewrite st_at_app by lia. split; [exact I2|].
    intros j Hj. destruct (Nat.eq_dec j (S (length rs))) as [->|].
    - rewrite (st_at_S _ _ _ r (nth_snoc _ _)). exact Hlast.
    - rewrite st_at_app by lia. apply I3. lia. }
  simpl in Hc. destruct RO as [G (d1 & toff1 & d2 & D & B & E) Th T M Db Bb Ch].
  assert (Hc1 : r_chg1 r = true).
  { rewrite Ch in Hc. destruct (r_duty r); [exact Hc|]. destruct (Reqb _ _); [discriminate|exact Hc]. }
  inversion B as [E1|E1 E2 E3|E1 E2]; subst; [apply New; exact E1|congruence|apply Old; congruence].
Qed.

(** A row with the flag off. *)
Lemma off_since2 rs st : chain rs st -> 0 <= a_on a -> 0 <= a_off a -> s_duty st = false ->
  exists b, (b < length rs)%nat /\ s_toff st = s_t (st_at a rs b) /\ off_cause rs b /\
    forall m, (b <= m < length rs)%nat -> exists r, nth_error rs m = Some r /\ r_duty r = false.
Proof.
  intros C Hon Hoff. induction C as [|rs s r C IH RO]; intros Hd; [discriminate|].
  assert (New : r_toff r = s_t s -> off_cause rs (length rs) -> exists b, (b < length (rs ++ [r]))%nat /\
     s_toff (next_st r) = s_t (st_at a (rs ++ [r]) b) /\ off_cause (rs ++ [r]) b /\
    forall m, (b <= m < length (rs ++ [r]))%nat -> exists r0, nth_error (rs ++ [r]) m = Some r0 /\ r_duty r0 = false).
  { intros E HC. exists (length rs). rewrite app_length. simpl. split; [lia|].
    rewrite st_at_app by lia. rewrite <- (chain_st _ _ _ _ _ _ C). split; [exact E|].
    split; [apply off_cause_app; [lia|exact HC]|].
    intros m Hm. assert (m = length rs) by lia. subst m. exists r. split; [apply nth_snoc|exact Hd]. }
  assert (Old : s_duty s = false -> r_toff r = s_toff s -> exists b, (b < length (rs ++ [r]))%nat /\
     s_toff (next_st r) = s_t (st_at a (rs ++ [r]) b) /\ off_cause (rs ++ [r]) b /\
    forall m, (b <= m < length (rs ++ [r]))%nat -> exists r0, nth_error (rs ++ [r]) m = Some r0 /\ r_duty r0 = false).
  { intros E1 E2. destruct (IH E1) as (b & B1 & B2 & BC & B3). exists b. rewrite app_length. simpl.
    split; [lia|]. rewrite st_at_app by lia. split; [congruence|]. split; [apply off_cause_app; [lia|exact BC]|].
    intros m Hm. destruct (Nat.eq_dec m (length rs)) as [->|Hne]; [exists r; split; [apply nth_snoc|exact Hd]|].
    destruct (B3 m ltac:(lia)) as (r0 & R1 & R2). exists r0. rewrite nth_error_app1 by lia. auto. }
  simpl in Hd. pose proof RO as RO'.
  destruct RO as [G (d1 & toff1 & d2 & D & B & E) Th T M Db Bb Ch].
  inversion B as [E1|E1 E2 E3|E1 E2]; subst.
  - apply New; [congruence|]. left. rewrite <- (chain_st _ _ _ _ _ _ C). exact E1.
  - inversion D; subst.
    + exfalso. assert (Hc1 : r_chg1 r = false) by congruence.
      rewrite Hc1, andb_false_r in E. simpl in E. congruence.
    + apply New; [congruence|]. eapply off_cause_on; eauto.
    + exfalso. lra.
    + apply Old; congruence.
    + apply Old; congruence.
  - inversion D; subst.
    + exfalso. destruct (a_full a) eqn:Hf; simpl in E; [|congruence].
      match goal with H : s_chg s = r_chg1 r |- _ => rewrite <- H in E end.
      destruct (s_chg s) eqn:Hc; simpl in E; [|congruence].
      assert (X : s_duty s = false).
      { clear - C Hf Hc. destruct C as [|rs s r C RO]; [discriminate|]. simpl in *.
        destruct (r_duty r) eqn:Hd; [exfalso|reflexivity].
        pose proof (full_duty_chg a rk smin smax _ _ _ _ C eq_refl RO Hf Hd) as X.
        rewrite (ro_chg _ _ _ _ _ _ RO), Hd in Hc. congruence. }
      congruence.
    + apply New; [congruence|]. eapply off_cause_on; eauto.
    + exfalso. lra.
    + apply Old; congruence.
    + apply Old; congruence.
Qed.

Lemma off_row rs st : chain rs st -> 0 <= a_on a -> 0 <= a_off a -> forall k r, nth_error rs k = Some r -> r_duty r = false ->
  empty (st_at a rs k) \/
  (a_full a = true /\ exists i, (i < k)%nat /\ empty (st_at a rs i) /\
     forall j, (i < j <= k)%nat -> s_b (st_at a rs j) < a_hi a) \/
  (exists b, (b <= k)%nat /\ s_t (st_at a rs k) - s_t (st_at a rs b) <= a_off a /\ off_cause rs b /\
     forall m, (b <= m <= k)%nat -> exists r, nth_error rs m = Some r /\ r_duty r = false).
Proof.
  intros C Hon Hoff k r Hk Hd.
  assert (Hlen : (k < length rs)%nat) by (apply nth_error_Some; congruence).
  pose proof (chain_row _ _ _ _ _ _ C _ _ Hk) as RO.
  pose proof (chain_firstn _ _ _ _ _ _ C k ltac:(lia)) as Ck.
  assert (Lk : length (firstn k rs) = k) by (rewrite firstn_length_le; lia).
  assert (Est : forall j, (j <= k)%nat -> st_at a (firstn k rs) j = st_at a rs j).
  { intros j Hj. rewrite <- (firstn_skipn k rs) at 2. destruct j as [|j]; [reflexivity|]. simpl.
    rewrite nth_error_app1 by lia. reflexivity. }
  assert (Enth : forall j, (j < k)%nat -> nth_error (firstn k rs) j = nth_error rs j).
  { intros j Hj. rewrite <- (firstn_skipn k rs) at 2. rewrite nth_error_app1 by lia. reflexivity. }
  assert (Ecause : forall b, (b <= k)%nat -> off_cause (firstn k rs) b -> off_cause rs b).
  { intros b Hb [H|(i & I1 & I2 & I3)]; [left; rewrite <- Est by lia; exact H|].
    right. exists i. split; [lia|]. rewrite <- !Est by lia. split; [exact I2|].
    intros m Hm. rewrite <- Enth by lia. auto. }
  destruct RO as [G (d1 & toff1 & d2 & D & B & E) Th T M Db Bb Ch].
  assert (Resting : d1 = false -> exists b, (b <= k)%nat /\ s_t (st_at a rs k) - s_t (st_at a rs b) <= a_off a /\
     off_cause rs b /\ forall m, (b <= m <= k)%nat -> exists r, nth_error rs m = Some r /\ r_duty r = false).
  { intros ->. inversion D as [| | |H1 H2|]; subst.
    - exists k. split; [lia|]. split; [lra|]. split.
      + apply Ecause; [lia|]. rewrite <- Lk at 2. eapply off_cause_on; eauto.
      + intros m Hm. assert (m = k) by lia. subst m. eauto.
    - destruct (off_since2 _ _ Ck Hon Hoff H1) as (b & B1 & B2 & B3 & B4). rewrite Lk in *.
      exists b. split; [lia|]. rewrite Est in B2 by lia. split; [lra|]. split; [apply Ecause; [lia|exact B3]|].
      intros m Hm. destruct (Nat.eq_dec m k) as [->|]; [eauto|]. rewrite <- Enth by lia. apply B4. lia. }
  inversion B as [E1|E1 E2 E3|E1 E2]; subst; [left; exact E1| |].
  - right. right. apply Resting. replace (r_chg1 r) with false in E by congruence.
    rewrite andb_false_r in E. simpl in E. congruence.
  - right. destruct (a_full a) eqn:Hf.
    + destruct (r_chg1 r) eqn:Hc.
      * destruct (Rltb_spec (s_b (st_at a rs k)) (a_hi a)).
        -- left. split; [reflexivity|].
           destruct (chg_since _ _ Ck Hf ltac:(congruence)) as (i & I1 & I2 & I3). rewrite Lk in *.
           exists i. split; [exact I1|]. rewrite <- Est by lia. split; [exact I2|].
           intros j Hj. rewrite <- Est by lia. apply I3. lia.
        -- right. apply Resting. simpl in E. congruence.
      * right. apply Resting. simpl in E. congruence.
    + right. apply Resting. simpl in E. congruence.
Qed.
End Chain.

Section W.
Variables (o : qlaw XNum) (p : problem XNum) (ea er : eta_arg XNum) (a : params).
Hypothesis Hreg : regular o p a.

Lemma coast_reason fuel o' h k : ran fuel o ea er p o' h -> 0 <= a_on a -> 0 <= a_off a ->
  throttle h k 0 ->
  law_coasts o p ea er h k \/ depleted a h k \/ recharging a h k \/ resting o p ea er a h k.
Proof.
  intros Hr Hon Hoff Hk. destruct Hreg as (Hf & Hs & smin & smax & H1 & H2 & H3).
  destruct (ran_reals_gs o p ea er a smin smax Hf Hs) with (fuel := fuel) (o' := o') (h := h)
    as (gs & oel & code & conv & rs & st & He & Eh & C & F); auto.
  { intros _. split; [auto|]. split; [auto|lra]. }
  assert (RR : run_reals o a smin smax h rs st) by (subst h; apply mkh_reals; auto).
  pose proof (run_entry o a h smin smax rs st RR) as EN.
  assert (Hlg : length gs = length rs) by (clear - F; induction F; simpl; congruence).
  assert (Row : forall j r, nth_error rs j = Some r -> exists g sk, nth_error gs j = Some g /\ row_match g r /\
     row_facts o p ea er h j sk g).
  { intros j r Hj. assert (Hl : (j < length rs)%nat) by (apply nth_error_Some; congruence).
    destruct (nth_error gs j) as [g|] eqn:Hg; [|apply nth_error_None in Hg; lia].
    destruct (ended_facts o p ea er _ _ _ _ He j g Hg) as (sk & _ & RF). exists g, sk.
    split; [reflexivity|]. split; [|subst h; exact RF].
    clear - F Hj Hg. revert j Hj Hg. induction F as [|x y gs rs M F IH]; intros [|j] Hj Hg; try discriminate; simpl in *.
    - congruence.
    - eapply IH; eauto. }
  assert (Thr : forall j r, nth_error rs j = Some r -> throttle h j (if r_thr r then 1 else 0)).
  { intros j r Hj. unfold throttle. rewrite (rn_thr _ _ _ _ _ _ _ RR), nth_error_map, Hj. reflexivity. }
  assert (On : forall j r, nth_error rs j = Some r -> r_duty r = true ->
     throttle h j 1 \/ throttle h j 0 /\ law_coasts o p ea er h j).
  { intros j r Hj Hd. pose proof (Thr j r Hj) as T. destruct (r_thr r) eqn:Et; [left; exact T|right].
    split; [exact T|]. destruct (Row j r Hj) as (g & sk & _ & RM & RF). eapply ctl_coast; [exact RF| |].
    - rewrite (rm_duty _ _ RM). exact Hd.
    - rewrite (rm_thr _ _ RM), Et. reflexivity. }
  assert (Off : forall j r, nth_error rs j = Some r -> r_duty r = false -> throttle h j 0).
  { intros j r Hj Hd. pose proof (Thr j r Hj) as T. destruct (r_thr r) eqn:Et; [|exact T].
    pose proof (ro_thr _ _ _ _ _ _ (chain_row _ _ _ _ _ _ C _ _ Hj) Et). congruence. }
  assert (Dep : forall j, (j <= length rs)%nat -> s_b (st_at a rs j) <= a_lo a + 1 / 10 ^ 12 -> depleted a h j).
  { intros j Hj X. exists (s_b (st_at a rs j)). split; [apply EN; exact Hj|exact X]. }
  assert (Hkl : (k < length rs)%nat).
  { rewrite <- (run_len o a h smin smax rs st RR), <- (map_length snd). apply nth_error_Some. unfold throttle in Hk. congruence. }
  destruct (nth_error rs k) as [r|] eqn:Hrk; [|apply nth_error_None in Hrk; lia].
  destruct (r_duty r) eqn:Hd.
  - left. destruct (On k r Hrk Hd) as [X|[_ X]]; [exfalso|exact X]. unfold throttle in *. congruence.
  - right. destruct (off_row a _ smin smax rs st C Hon Hoff k r Hrk Hd) as [X|[(X1 & i & I1 & I2 & I3)|(b & B1 & B2 & B3 & B4)]].
    + left. apply Dep; [lia|exact X].
    + right. left. split; [exact X1|]. exists i. split; [exact I1|]. split; [apply Dep; [lia|exact I2]|].
      intros j Hj. exists (s_b (st_at a rs j)). split; [apply EN; lia|apply I3; exact Hj].
    + right. right. exists b, (s_t (st_at a rs b)), (s_t (st_at a rs k)). split; [exact B1|].
      split; [apply EN; lia|]. split; [apply EN; lia|]. split; [exact B2|].
      split. { intros j Hj. destruct (B4 j Hj) as (r0 & R1 & R2). eapply Off; eauto. }
      destruct B3 as [X|(i & I1 & I2 & I3)]; [left; apply Dep; [lia|exact X]|].
      right. exists i, (s_t (st_at a rs i)). split; [exact I1|]. split; [apply EN; lia|]. split; [exact I2|].
      intros j Hj. destruct (I3 j Hj) as (r0 & R1 & R2). eapply On; eauto.
Qed.

(** A battery that is never used and a duty cycle longer than the run. *)
Lemma unlimited fuel o' h k : ran fuel o ea er p o' h -> Rabs (a_tf a) <= a_on a -> 0 <= a_off a ->
  0 < a_ts a -> a_dis a = 0 -> 0 <= a_ch a -> a_lo a + 1 / 10 ^ 12 < a_b0 a -> a_lo a + 1 / 10 ^ 12 < a_hi a ->
  throttle h k 0 -> law_coasts o p ea er h k.
Proof.
  intros Hr Hon Hoff Hts Hdis Hch Hb0 Hhi Hk.
  assert (Hon' : 0 <= a_on a) by (pose proof (Rabs_pos (a_tf a)); lra).
  destruct (link o p ea er a Hreg fuel o' h Hr) as (smin & smax & rs & st & S1 & S2 & S3 & RR).
  pose proof (rn_chain _ _ _ _ _ _ _ RR) as C.
  assert (NoDep : forall j, ~ depleted a h j).
  { intros j (b & Hb & Hle). destruct (run_batt o a h smin smax rs st RR j b Hb) as [Hj ->].
    assert (X : forall rs' st', chain a (is_rk4 o) smin smax rs' st' -> a_lo a + 1 / 10 ^ 12 < s_b st').
    { clear - Hdis Hch Hb0 Hhi Hts S3. induction 1 as [|rs s r C IH RO]; simpl; [exact Hb0|].
      pose proof (row_dt a _ smin smax _ _ RO Hts) as [Hdt _].
      assert (Hdb : 0 <= r_dtb r).
      { pose proof (ro_dtb _ _ _ _ _ _ RO) as X. destruct (is_rk4 o); lra. }
      rewrite (ro_b _ _ _ _ _ _ RO), Hdis. unfold rclip.
      apply Rmin_glb_lt; [|exact Hhi]. eapply Rlt_le_trans; [|apply Rmax_l].
      destruct (r_duty r); [lra|]. pose proof (Rmult_le_pos _ _ Hch Hdb). lra. }
    pose proof (X _ _ (chain_firstn a _ smin smax rs st C j Hj)). lra. }
  destruct (coast_reason fuel o' h k Hr Hon' Hoff Hk) as [X|[X|[(_ & i & _ & X & _)|R]]];
    [exact X|destruct (NoDep _ X)|destruct (NoDep _ X)|].
  destruct R as (b & tb & tk & Hbk & Eb & Ek & _ & _ & [X|(i & ti & Hi & Ei & Hlong & _)]); [destruct (NoDep _ X)|exfalso].
  destruct (run_time o a h smin smax rs st RR b tb Eb) as [Hb ->].
  destruct (run_time o a h smin smax rs st RR i ti Ei) as [Hi' ->].
  destruct (run_time o a h smin smax rs st RR k tk Ek) as [Hk' _].
  assert (Hkl : (k < length rs)%nat).
  { rewrite <- (run_len o a h smin smax rs st RR), <- (map_length snd). apply nth_error_Some. unfold throttle in Hk. congruence. }
  destruct (nth_error rs b) as [r|] eqn:Hrb; [|apply nth_error_None in Hrb; lia].
  pose proof (ro_guard _ _ _ _ _ _ (chain_row _ _ _ _ _ _ C _ _ Hrb)) as G.
  pose proof (times_le a _ smin smax rs st C Hts 0 i ltac:(lia)) as G0. change (s_t (st_at a rs 0)) with 0 in G0.
  pose proof (Rle_abs (s_t (st_at a rs b))). lra.
Qed.
End W.
