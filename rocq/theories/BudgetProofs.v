(** Budgets of thrust time over a run: duty cycle (C116) and battery (C117). *)
From Coq Require Import Reals Lra Lia ZArith QArith Qreals List Bool.
From Verif Require Import RMath RLib Num Base Perturb Qlaw Spec XSpec XProofs XSolve SolveProofs ExitProofs GateProofs RunProofs Integrate Sim XRuns DvSpec DvProofs Trace RestartRuns.
Import ListNotations.
Local Open Scope R_scope.

Section Windows.
Variables (t : nat -> R) (thr : nat -> Z) (n : nat) (ts on off : R).
Hypotheses (Hon : 0 <= on) (Hoff : 0 <= off) (Hts : 0 < ts).
Hypothesis Ht : forall k, (k < n)%nat -> 0 < t (S k) - t k <= ts.
Hypothesis H01 : forall k, (k < n)%nat -> thr k = 0%Z \/ thr k = 1%Z.
Hypothesis Hrest : forall i k, (i < k < n)%nat -> thr i = 1%Z -> thr k = 1%Z -> on < t k - t i ->
  exists b c, (i < b /\ b < c /\ c <= k)%nat /\ off < t c - t b /\ forall m, (b <= m < c)%nat -> thr m = 0%Z.
Notation burn k := (burn_time k t thr).

Lemma burn_S k : burn (S k) = burn k + IZR (thr k) * (t (S k) - t k).
Proof. reflexivity. Qed.
Lemma burn_time_le i k : (i <= k <= n)%nat -> burn k - burn i <= t k - t i.
Proof.
  intros [A B]. induction A as [|k A IH]; [lra|]. rewrite burn_S. specialize (IH ltac:(lia)). specialize (Ht k ltac:(lia)).
  destruct (H01 k ltac:(lia)) as [->| ->]; lra.
Qed.
Lemma burn_rest b c : (b <= c)%nat -> (forall m, (b <= m < c)%nat -> thr m = 0%Z) -> burn c = burn b.
Proof.
  intros A Z. induction A as [|c A IH]; [reflexivity|]. rewrite burn_S, (Z c) by lia. rewrite IH by (intros; apply Z; lia). ring.
Qed.
Lemma burn_window i k : (i <= k <= n)%nat -> (forall m, (i <= m < k)%nat -> thr m = 1%Z -> t m - t i <= on) -> burn k - burn i <= on + ts.
Proof.
  intros [A B] W. induction A as [|k A IH]; [lra|]. specialize (IH ltac:(lia) ltac:(intros; apply W; [lia|assumption])).
  rewrite burn_S. destruct (H01 k ltac:(lia)) as [E|E].
  - rewrite E. lra.
  - pose proof (burn_time_le i k ltac:(lia)) as L. specialize (W k ltac:(lia) E). specialize (Ht k ltac:(lia)). rewrite E. lra.
Qed.
Lemma windows k : (k <= n)%nat ->
  (forall m, (m < k)%nat -> thr m = 0%Z) \/
  exists i, (i < k)%nat /\ thr i = 1%Z /\ (on + ts + off) * burn i <= (on + ts) * (t i - t 0%nat) /\
    forall m, (i <= m < k)%nat -> thr m = 1%Z -> t m - t i <= on.
Proof.
  induction k as [|k IH]; intros Hk; [left; intros; lia|]. destruct (H01 k ltac:(lia)) as [E|E].
  - destruct (IH ltac:(lia)) as [Z|(i & A & B & C & D)].
    + left. intros m Hm. destruct (Nat.eq_dec m k) as [->|]; [exact E|apply Z; lia].
    + right. exists i. repeat split; [lia|exact B|exact C|]. intros m Hm F. destruct (Nat.eq_dec m k) as [->|]; [congruence|apply D; [lia|exact F]].
  - destruct (IH ltac:(lia)) as [Z|(i & A & B & C & D)].
    + right. exists k. repeat split; [lia|exact E| |intros m Hm _; replace m with k by lia; lra].
      rewrite (burn_rest 0 k) by (try lia; intros; apply Z; lia). change (burn 0%nat) with 0.
      assert (M : 0 <= t k - t 0%nat) by (pose proof (burn_time_le 0 k ltac:(lia)) as L; rewrite (burn_rest 0 k) in L by (try lia; intros; apply Z; lia); lra).
      rewrite Rmult_0_r. apply Rmult_le_pos; lra.
    + right. destruct (Rle_lt_dec (t k - t i) on) as [L|L].
      * exists i. repeat split; [lia|exact B|exact C|]. intros m Hm F. destruct (Nat.eq_dec m k) as [->|]; [exact L|apply D; [lia|exact F]].
      * exists k. repeat split; [lia|exact E| |intros m Hm _; replace m with k by lia; lra].
        destruct (Hrest i k ltac:(lia) B E L) as (b & c & (I1 & I2 & I3) & G & Z).
        pose proof (burn_window i k ltac:(lia) D) as W. pose proof (burn_time_le i b ltac:(lia)) as L1.
        pose proof (burn_time_le c k ltac:(lia)) as L2. pose proof (burn_rest b c ltac:(lia) Z) as L3.
        assert (X : (on + ts + off) * (burn k - burn i) <= (on + ts) * (t k - t i)).
        { set (x := burn k - burn i) in *. assert (x <= t k - t i - off) by (unfold x; lra).
          assert (off * x <= off * (on + ts)) by (apply Rmult_le_compat_l; lra).
          assert ((on + ts) * (x + off) <= (on + ts) * (t k - t i)) by (apply Rmult_le_compat_l; lra). lra. }
        lra.
Qed.
Lemma duty_budget : (on + ts + off) * burn n <= (on + ts) * (t n - t 0%nat + off).
Proof.
  destruct (windows n ltac:(lia)) as [Z|(i & A & B & C & D)].
  - pose proof (burn_time_le 0 n ltac:(lia)) as L. rewrite (burn_rest 0 n) in * by (try lia; intros; apply Z; lia). change (burn 0%nat) with 0 in *.
    rewrite Rmult_0_r. apply Rmult_le_pos; lra.
  - pose proof (burn_window i n ltac:(lia) D) as W. pose proof (burn_time_le i n ltac:(lia)) as L. set (x := burn n - burn i) in *.
    assert (off * x <= off * (on + ts)) by (apply Rmult_le_compat_l; lra).
    assert ((on + ts) * x <= (on + ts) * (t n - t i)) by (apply Rmult_le_compat_l; lra). unfold x in *. lra.
Qed.
End Windows.

Section Run.
Variables (o : qlaw XNum) (p : problem XNum) (ea er : eta_arg XNum) (a : params) (fuel : nat) (o' : qlaw XNum) (h : hist XNum).
Hypotheses (Rg : regular o p a) (Hr : ran fuel o ea er p o' h) (Hts : 0 < a_ts a).
Variables (n : nat) (t m : nat -> R) (thr : nat -> Z).
Hypothesis L : logged h n t m thr.

Lemma start_zero : t 0%nat = 0.
Proof.
  destruct L as [A _]. destruct (A 0%nat ltac:(lia)) as [E _]. destruct (ran_first (N:=XNum) o p ea er fuel o' h Hr) as (F & _).
  assert (F' : entry (h_times h) 0 0) by exact F.
  unfold entry in E, F'. rewrite F' in E. injection E as E. symmetry. exact E.
Qed.
Lemma ctl_len k : (k < n)%nat -> (k < length (h_controls h))%nat.
Proof. intros Hk. destruct L as [_ B]. specialize (B k Hk). unfold throttle in B. rewrite <- (map_length snd). apply nth_error_Some. congruence. Qed.
Lemma step_len k : (k < n)%nat -> 0 < t (S k) - t k <= a_ts a.
Proof.
  intros Hk. destruct (C12_lem o p ea er a Rg fuel o' h Hr Hts k (ctl_len k Hk)) as (t0 & t1 & A & B & _ & C & _).
  destruct L as [E _]. destruct (E k ltac:(lia)) as [A' _]. destruct (E (S k) ltac:(lia)) as [B' _]. unfold entry in *.
  rewrite A in A'. rewrite B in B'. injection A' as <-. injection B' as <-. lra.
Qed.
Lemma C116_lem : 0 <= a_on a -> 0 <= a_off a ->
  (a_on a + a_ts a + a_off a) * burn_time n t thr <= (a_on a + a_ts a) * (t n + a_off a).
Proof.
  intros Hon Hoff. pose proof (duty_budget t thr n (a_ts a) (a_on a) (a_off a) Hon Hoff Hts step_len) as D. rewrite start_zero in D.
  rewrite Rminus_0_r in D. apply D.
  - intros k Hk. exact (thr01 o p ea er fuel o' h Hr t m thr n k L Hk).
  - intros i k [H1 H2] Ti Tk Hl. destruct L as [A B].
    assert (Bi : throttle h i 1) by (rewrite <- Ti; apply B; lia). assert (Bk : throttle h k 1) by (rewrite <- Tk; apply B; lia).
    destruct (C21_lem o p ea er a Rg fuel o' h i k (t i) (t k) Hr Hts Hon Hoff H1 Bi Bk (proj1 (A i ltac:(lia))) (proj1 (A k ltac:(lia))) Hl)
      as (b & c & tb & tc & (I1 & I2 & I3) & Eb & Ec & G & Z).
    exists b, c. split; [lia|]. destruct (A b ltac:(lia)) as [Eb' _]. destruct (A c ltac:(lia)) as [Ec' _]. unfold entry in *.
    rewrite Eb in Eb'. rewrite Ec in Ec'. injection Eb' as <-. injection Ec' as <-. split; [exact G|].
    intros j Hj. specialize (Z j Hj). specialize (B j ltac:(lia)). unfold throttle in *. congruence.
Qed.
Lemma C116_mass_lem : 0 <= a_on a -> 0 <= a_off a -> 0 <= a_mdot a ->
  (a_on a + a_ts a + a_off a) * (m 0%nat - m n) <= a_mdot a * ((a_on a + a_ts a) * (t n + a_off a)).
Proof.
  intros Hon Hoff Hm. assert (Em : p_mdot p = Fin (a_mdot a)) by (destruct Rg as [(_ & E & _) _]; exact E).
  rewrite (propellant o p ea er fuel o' h Hr (a_mdot a) Em t m thr n L). pose proof (C116_lem Hon Hoff) as C.
  apply (Rmult_le_compat_l (a_mdot a)) in C; [|exact Hm]. lra.
Qed.

Lemma C117_lem b : q_integ o = RK4 -> a_full a = true -> 0 <= a_dis a -> 0 <= a_ch a -> a_lo a <= a_hi a -> a_lo a <= a_b0 a <= a_hi a ->
  (forall k, (k <= n)%nat -> entry (h_battery h) k (b k)) ->
  a_lo a <= b n /\ a_dis a * burn_time n t thr <= a_b0 a - b n + a_ch a * (t n - burn_time n t thr).
Proof.
  intros Hi Hf Hd Hc Hlh Hb0 Hb.
  assert (B0 : b 0%nat = a_b0 a).
  { destruct (ran_first (N:=XNum) o p ea er fuel o' h Hr) as (_ & _ & F & _). specialize (Hb 0%nat ltac:(lia)).
    destruct Rg as [E _]. destruct E as (_ & _ & _ & _ & _ & _ & _ & E & _). rewrite E in F.
    assert (F' : entry (h_battery h) 0 (a_b0 a)) by exact F. unfold entry in Hb, F'. rewrite F' in Hb. injection Hb as Hb. symmetry. exact Hb. }
  assert (K : forall k, (k <= n)%nat -> a_lo a <= b k /\ a_dis a * burn_time k t thr <= a_b0 a - b k + a_ch a * (t k - burn_time k t thr)).
  { induction k as [|k IH]; intros Hk.
    - rewrite B0, start_zero. unfold burn_time. cbn [total]. lra.
    - specialize (IH ltac:(lia)). destruct IH as [I1 I2]. change (burn_time (S k) t thr) with (burn_time k t thr + IZR (thr k) * (t (S k) - t k)).
      destruct L as [A B]. pose proof (proj1 (A k ltac:(lia))) as Tk. pose proof (proj1 (A (S k) ltac:(lia))) as Tk'.
      pose proof (Hb k ltac:(lia)) as Bk. pose proof (Hb (S k) ltac:(lia)) as Bk'. pose proof (B k ltac:(lia)) as Th. pose proof (step_len k ltac:(lia)) as [Sl _].
      destruct (thr01 o p ea er fuel o' h Hr t m thr n k L ltac:(lia)) as [E|E]; rewrite E in *.
      + destruct (C18_rk4_lem o p ea er a Rg fuel o' h k _ _ _ Hr Hi Tk Tk' Bk) as (duty & _ & F). unfold entry in F, Bk'. rewrite Bk' in F. injection F as F.
        assert (0 <= a_dis a * (t (S k) - t k)) by (apply Rmult_le_pos; lra). assert (0 <= a_ch a * (t (S k) - t k)) by (apply Rmult_le_pos; lra).
        rewrite F. destruct duty; unfold Rmin, Rmax; repeat destruct Rle_dec; lra.
      + destruct (C17_lem o p ea er a Rg fuel o' h k _ _ _ Hr Hi Hts Hf Hd Hlh (proj2 Hb0) Th Tk Tk' Bk) as [G F].
        unfold entry in F, Bk'. rewrite Bk' in F. injection F as F. rewrite F. lra. }
  exact (K n ltac:(lia)).
Qed.
End Run.

(** Examples: the duty cycle of [run_duty], the battery of [run_cycle]; without full recharge [run_nofull]. *)
Definition btm (l : list Q) (k : nat) : R := Q2R (nth k l 0%Q).
Lemma duty_case : regular (toyX RK4 a_duty) (probX a_duty) (parX a_duty) /\ 0 < a_ts (parX a_duty) /\ 0 <= a_on (parX a_duty) /\ 0 <= a_off (parX a_duty) /\
  exists o' h t m thr, ran 20 (toyX RK4 a_duty) noX noX (probX a_duty) o' h /\ logged h 10 t m thr /\ t 10%nat = 5 /\ burn_time 10 t thr = 3 /\
  (a_on (parX a_duty) + a_ts (parX a_duty)) * (5 + a_off (parX a_duty)) / (a_on (parX a_duty) + a_ts (parX a_duty) + a_off (parX a_duty)) = 36 / 10.
Proof.
  split; [apply toy_regular|]. split; [simpl; q2r|]. split; [simpl; q2r|]. split; [simpl; q2r|].
  destruct run_duty_full as (o' & h & R & C & _). do 2 eexists. do 3 eexists. split; [exact R|].
  split; [eapply rec_logged; [exact C|reflexivity..]|]. split; [unfold lst, Q2R; simpl; lra|].
  split; [unfold burn_time, lst, lstz, Q2R; simpl; lra|]. simpl. unfold Q2R; simpl. field.
Qed.
Lemma battery_case : regular (toyX RK4 a_cycle) (probX a_cycle) (parX a_cycle) /\ q_integ (toyX RK4 a_cycle) = RK4 /\ 0 < a_ts (parX a_cycle) /\ a_full (parX a_cycle) = true /\
  0 <= a_dis (parX a_cycle) /\ 0 <= a_ch (parX a_cycle) /\ a_lo (parX a_cycle) <= a_hi (parX a_cycle) /\ a_lo (parX a_cycle) <= a_b0 (parX a_cycle) <= a_hi (parX a_cycle) /\
  exists o' h t m thr b, ran 10 (toyX RK4 a_cycle) noX noX (probX a_cycle) o' h /\ logged h 7 t m thr /\ (forall k, (k <= 7)%nat -> entry (h_battery h) k (b k)) /\
  t 7%nat = 6 /\ b 7%nat = 0 /\ burn_time 7 t thr = 3 /\ a_dis (parX a_cycle) * 3 = a_b0 (parX a_cycle) - 0 + a_ch (parX a_cycle) * (6 - 3).
Proof.
  split; [apply toy_regular|]. split; [reflexivity|]. split; [simpl; q2r|]. split; [reflexivity|]. split; [simpl; q2r|]. split; [simpl; q2r|].
  split; [simpl; q2r|]. split; [simpl; q2r|].
  destruct run_cycle as (o' & h & R & C & _). do 2 eexists. do 3 eexists. exists (btm [3 # 2; 1 # 2; 0; 1 # 2; 1; 3 # 2; 1 # 2; 0]%Q). split; [exact R|].
  split; [eapply rec_logged; [exact C|reflexivity..]|].
  split. { intros k Hk. apply (rec_b _ _ _ _ _ _ _ C). unfold btm. apply nth_error_nth'. simpl. lia. }
  split; [unfold lst, Q2R; simpl; lra|]. split; [unfold btm, Q2R; simpl; lra|].
  split; [unfold burn_time, lst, lstz, Q2R; simpl; lra|]. simpl. unfold Q2R; simpl. field.
Qed.
Lemma C117_refuted_lem : exists (o : qlaw XNum) p a fuel o' h n t m thr b,
  regular o p a /\ ran fuel o noX noX p o' h /\ 0 < a_ts a /\ logged h n t m thr /\ q_integ o = RK4 /\ 0 <= a_dis a /\ 0 <= a_ch a /\
  a_lo a <= a_hi a /\ a_lo a <= a_b0 a <= a_hi a /\ (forall k, (k <= n)%nat -> entry (h_battery h) k (b k)) /\
  a_b0 a - b n + a_ch a * (t n - burn_time n t thr) < a_dis a * burn_time n t thr.
Proof.
  destruct run_nofull as (o' & h & R & C & _).
  exists (toyX RK4 a_nofull), (probX a_nofull), (parX a_nofull), 10%nat, o', h, 4%nat. do 3 eexists. exists (btm [1; 0; 1 # 2; 0; 1 # 2]%Q).
  split; [apply toy_regular|]. split; [exact R|]. split; [simpl; q2r|].
  split; [eapply rec_logged; [exact C|reflexivity..]|]. split; [reflexivity|]. split; [simpl; q2r|]. split; [simpl; q2r|]. split; [simpl; q2r|]. split; [simpl; q2r|].
  split. { intros k Hk. apply (rec_b _ _ _ _ _ _ _ C). unfold btm. apply nth_error_nth'. simpl. lia. }
  unfold burn_time, btm, lst, lstz, Q2R; simpl. unfold Q2R; simpl. lra.
Qed.
