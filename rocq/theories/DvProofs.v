(** Propellant and velocity change of a run (C85). *)
From Coq Require Import Reals Lra Lia ZArith QArith Qreals List Bool.
From Verif Require Import RMath RLib Num Base Perturb Qlaw Spec XSpec XProofs XSolve SolveProofs ExitProofs GateProofs RunProofs Integrate Sim XRuns DvSpec Trace.
Import ListNotations.
Local Open Scope R_scope.

Lemma ln_le_sub x : 0 < x -> ln x <= x - 1.
Proof.
  intros H. destruct (Rle_lt_dec (ln x) (x - 1)) as [L|L]; [exact L|]. exfalso.
  pose proof (exp_increasing _ _ L) as E. rewrite exp_ln in E by exact H. pose proof (exp_ineq1_le (x - 1)). lra.
Qed.
Lemma ln_ratio x y : 0 < x -> 0 < y -> ln (x / y) <= (x - y) / y.
Proof. intros Hx Hy. replace ((x - y) / y) with (x / y - 1) by (field; lra). apply ln_le_sub. apply Rdiv_lt_0_compat; assumption. Qed.
Lemma ln_div x y : 0 < x -> 0 < y -> ln (x / y) = ln x - ln y.
Proof. intros Hx Hy. unfold Rdiv. rewrite ln_mult by (try apply Rinv_0_lt_compat; assumption). rewrite ln_Rinv by exact Hy. ring. Qed.

Section Dv.
Variables (o : qlaw XNum) (p : problem XNum) (ea er : eta_arg XNum) (fuel : nat) (o' : qlaw XNum) (h : hist XNum).
Hypothesis Hrun : ran fuel o ea er p o' h.
Variable md : R.
Hypothesis Hmd : p_mdot p = Fin md.
Variables (t m : nat -> R) (thr : nat -> Z).

Lemma logged_le n k : logged h n t m thr -> (k <= n)%nat -> logged h k t m thr.
Proof. intros [A B] H. split; intros j Hj; [apply A|apply B]; lia. Qed.
Lemma logged_step n k : logged h n t m thr -> (k < n)%nat -> m (S k) = m k - IZR (thr k) * md * (t (S k) - t k).
Proof.
  intros [A B] H. destruct (A k ltac:(lia)) as [Tk Mk]. destruct (A (S k) ltac:(lia)) as [Tk' Mk'].
  pose proof (C10_lem o p ea er fuel o' h k (thr k) (t k) (t (S k)) (m k) md Hrun (B k H) Tk Tk' Mk Hmd) as E. unfold entry in *. rewrite Mk' in E. injection E as E. exact E.
Qed.
Lemma propellant n : logged h n t m thr -> m 0%nat - m n = md * burn_time n t thr.
Proof.
  induction n as [|n IH]; intros L; unfold burn_time in *; cbn [total]; [ring|].
  rewrite (logged_step (S n) n L) by lia. assert (E := IH (logged_le _ n L ltac:(lia))). lra.
Qed.
(** throttles are 0 or 1 *)
Lemma thr01 n k : logged h n t m thr -> (k < n)%nat -> thr k = 0%Z \/ thr k = 1%Z.
Proof.
  intros [_ B] H. specialize (B k H). unfold throttle in B.
  assert (Hk : (k < length (h_controls h))%nat) by (rewrite <- (map_length snd); apply nth_error_Some; congruence).
  destruct (ran_row _ _ _ _ _ _ _ k Hrun Hk) as (gs & oel & code & conv & sk & g & _ & _ & _ & _ & F).
  destruct F as [Hit _ _ _ _ _ _ _ _ Fc _ _ _ _]. rewrite nth_error_map, Fc in B. simpl in B. injection B as <-.
  destruct (ctl_inv _ _ _ _ _ _ _ _ (it_ctl _ _ _ _ _ _ Hit)) as (? & ? & ? & _ & [(-> & _)|(-> & _)]); auto.
Qed.

Lemma total_le n (f g : nat -> R) : (forall k, (k < n)%nat -> f k <= g k) -> total n f <= total n g.
Proof. induction n as [|n IH]; intros H; cbn [total]; [lra|]. assert (A := H n ltac:(lia)). assert (B := IH ltac:(intros; apply H; lia)). lra. Qed.
Lemma total_scal n c (f : nat -> R) : total n (fun k => c * f k) = c * total n f.
Proof. induction n as [|n IH]; cbn [total]; [ring|]. rewrite IH. ring. Qed.
Lemma total_tele n (f : nat -> R) : total n (fun k => f k - f (S k)) = f 0%nat - f n.
Proof. induction n as [|n IH]; cbn [total]; [ring|]. rewrite IH. ring. Qed.
Lemma total_ext n (f g : nat -> R) : (forall k, (k < n)%nat -> f k = g k) -> total n f = total n g.
Proof. induction n as [|n IH]; intros H; cbn [total]; [reflexivity|]. rewrite IH by (intros; apply H; lia). rewrite (H n) by lia. reflexivity. Qed.

Lemma step_bounds tm mk mk' c dt : 0 < md -> 0 <= tm -> 0 < mk -> 0 < mk' -> c = 0 \/ c = 1 -> 0 <= dt -> mk' = mk - c * md * dt ->
  c * (tm / mk) * dt <= tm / md * (ln mk - ln mk') <= c * (tm / mk') * dt.
Proof.
  intros Hm Ht A B Hc Hd E. rewrite <- (ln_div mk mk') by assumption.
  assert (K : 0 <= tm / md) by (apply Rmult_le_pos; [lra|left; apply Rinv_0_lt_compat; lra]).
  assert (U := ln_ratio mk mk' A B). assert (L := ln_ratio mk' mk B A).
  rewrite ln_div in L by assumption. rewrite ln_div in * by assumption.
  assert (E2 : c * dt = (mk - mk') / md) by (subst mk'; field; lra).
  replace (c * (tm / mk) * dt) with (tm / md * - ((mk' - mk) / mk)).
  2:{ replace (c * (tm / mk) * dt) with (tm / mk * (c * dt)) by ring. rewrite E2. field. lra. }
  replace (c * (tm / mk') * dt) with (tm / md * ((mk - mk') / mk')).
  2:{ replace (c * (tm / mk') * dt) with (tm / mk' * (c * dt)) by ring. rewrite E2. field. lra. }
  split; apply Rmult_le_compat_l; lra.
Qed.

Lemma fwd_mass n : logged h n t m thr -> 0 < md -> (forall k, (k < n)%nat -> t k <= t (S k)) -> 0 < m n -> forall k, (k <= n)%nat -> 0 < m k.
Proof.
  intros L Hm Ht Hn k Hk. replace k with (n - (n - k))%nat by lia. generalize (n - k)%nat. intros j. induction j as [|j IH]; [rewrite Nat.sub_0_r; exact Hn|].
  destruct (Nat.le_gt_cases n j) as [G|G]; [replace (n - S j)%nat with (n - j)%nat by lia; exact IH|].
  assert (E := logged_step n (n - S j) L ltac:(lia)). replace (S (n - S j)) with (n - j)%nat in E by lia.
  assert (T := Ht (n - S j)%nat ltac:(lia)). replace (S (n - S j)) with (n - j)%nat in T by lia.
  destruct (thr01 n (n - S j) L ltac:(lia)) as [C|C]; rewrite C in E; simpl in E; [lra|].
  assert (0 <= md * (t (n - j)%nat - t (n - S j)%nat)) by (apply Rmult_le_pos; lra). lra.
Qed.
Lemma bwd_mass n : logged h n t m thr -> 0 < md -> (forall k, (k < n)%nat -> t (S k) <= t k) -> 0 < m 0%nat -> forall k, (k <= n)%nat -> 0 < m k.
Proof.
  intros L Hm Ht Hn k. induction k as [|k IH]; intros Hk; [exact Hn|]. rewrite (logged_step n k L) by lia. assert (P := IH ltac:(lia)). assert (T := Ht k ltac:(lia)).
  destruct (thr01 n k L ltac:(lia)) as [C|C]; rewrite C; simpl; [lra|].
  assert (0 <= md * (t k - t (S k))) by (apply Rmult_le_pos; lra). lra.
Qed.
Lemma thr_01R n k : logged h n t m thr -> (k < n)%nat -> IZR (thr k) = 0 \/ IZR (thr k) = 1.
Proof. intros L H. destruct (thr01 n k L H) as [-> | ->]; simpl; auto. Qed.

Lemma rocket_fwd tm n : logged h n t m thr -> 0 < md -> 0 <= tm -> (forall k, (k < n)%nat -> t k <= t (S k)) -> 0 < m n ->
  delta_v tm n t m thr <= tm / md * ln (m 0%nat / m n) <= delta_v_end tm n t m thr.
Proof.
  intros L Hm Htm Ht Hn. assert (P := fwd_mass n L Hm Ht Hn). rewrite ln_div by (apply P; lia).
  rewrite <- (total_tele n (fun k => ln (m k))), <- total_scal. unfold delta_v, delta_v_end.
  split; apply total_le; intros k Hk; rewrite Rabs_pos_eq by (specialize (Ht k Hk); lra); apply step_bounds;
    try apply P; try apply (thr_01R n); try apply (logged_step n); auto; try lia; specialize (Ht k Hk); lra.
Qed.
Lemma rocket_bwd tm n : logged h n t m thr -> 0 < md -> 0 <= tm -> (forall k, (k < n)%nat -> t (S k) <= t k) -> 0 < m 0%nat ->
  delta_v_end tm n t m thr <= tm / md * ln (m n / m 0%nat) <= delta_v tm n t m thr.
Proof.
  intros L Hm Htm Ht Hn. assert (P := bwd_mass n L Hm Ht Hn). rewrite ln_div by (apply P; lia).
  replace (ln (m n) - ln (m 0%nat)) with (- ln (m 0%nat) - - ln (m n)) by ring.
  rewrite <- (total_tele n (fun k => - ln (m k))), <- total_scal. unfold delta_v, delta_v_end.
  split; apply total_le; intros k Hk; rewrite Rabs_left1 by (specialize (Ht k Hk); lra);
    replace (- ln (m k) - - ln (m (S k))) with (ln (m (S k)) - ln (m k)) by ring;
    (apply step_bounds; try apply P; try apply (thr_01R n); auto; try lia; [specialize (Ht k Hk); lra|]; rewrite (logged_step n k L Hk); ring).
Qed.
End Dv.

(** Forward runs of regular problems: every recorded step is logged, so the budget holds for the whole run. *)
Definition at_ (l : list ereal) (k : nat) : R := match nth_error l k with Some (Fin x) => x | _ => 0 end.
Definition thr_at (h : hist XNum) (k : nat) : Z := match nth_error (map snd (h_controls h)) k with Some z => z | None => 0%Z end.
Lemma at_entry l k x : entry l k x -> at_ l k = x.
Proof. unfold entry, at_. intros ->. reflexivity. Qed.
Section Whole.
Variables (o : qlaw XNum) (p : problem XNum) (ea er : eta_arg XNum) (a : params) (fuel : nat) (o' : qlaw XNum) (h : hist XNum).
Hypotheses (Rg : regular o p a) (Hr : ran fuel o ea er p o' h) (Hts : 0 < a_ts a) (Hmd : 0 <= a_mdot a) (Hmm : a_mmin a < a_mass0 a).
Let n := length (h_controls h).
Lemma first_entries : entry (h_times h) 0 0 /\ entry (h_masses h) 0 (a_mass0 a).
Proof.
  destruct (ran_first (N:=XNum) o p ea er fuel o' h Hr) as (F1 & F2 & _). destruct Rg as [(E & _) _]. rewrite E in F2. split; [exact F1|exact F2].
Qed.
Lemma logged_run : logged h n (at_ (h_times h)) (at_ (h_masses h)) (thr_at h).
Proof.
  split.
  - intros k Hk. destruct k as [|k].
    + destruct first_entries as [A B]. rewrite (at_entry _ _ _ A), (at_entry _ _ _ B). split; assumption.
    + destruct (C12_lem o p ea er a Rg fuel o' h Hr Hts k Hk) as (t0 & t1 & _ & A & _).
      destruct (C11_lem o p ea er a Rg fuel o' h Hr Hts Hmd Hmm k Hk) as (m0 & m1 & _ & B & _).
      rewrite (at_entry _ _ _ A), (at_entry _ _ _ B). split; assumption.
  - intros k Hk. unfold throttle, thr_at. destruct (nth_error (map snd (h_controls h)) k) eqn:E; [reflexivity|].
    apply nth_error_None in E. rewrite map_length in E. unfold n in Hk. lia.
Qed.
Lemma run_incr t m thr k : logged h n t m thr -> (k < n)%nat -> t k <= t (S k).
Proof.
  intros [L _] Hk. destruct (C12_lem o p ea er a Rg fuel o' h Hr Hts k Hk) as (t0 & t1 & A & B & _ & C & _).
  destruct (L k ltac:(lia)) as [A' _]. destruct (L (S k) ltac:(lia)) as [B' _].
  rewrite <- (at_entry _ _ _ A'), <- (at_entry _ _ _ B'), (at_entry _ _ _ A), (at_entry _ _ _ B). lra.
Qed.
Lemma run_mass_min t m thr : logged h n t m thr -> a_mmin a - a_mdot a * a_ts a <= m n.
Proof.
  intros [L _]. destruct (L n ltac:(lia)) as [_ E]. rewrite <- (at_entry _ _ _ E). destruct n as [|k] eqn:En.
  - destruct first_entries as [_ B]. rewrite (at_entry _ _ _ B). assert (0 <= a_mdot a * a_ts a) by (apply Rmult_le_pos; lra). lra.
  - destruct (C11_lem o p ea er a Rg fuel o' h Hr Hts Hmd Hmm k ltac:(fold n; lia)) as (m0 & m1 & _ & B & _ & _ & C & _). rewrite (at_entry _ _ _ B). apply Rlt_le; exact C.
Qed.
Lemma capacity tm : 0 < a_mdot a -> 0 <= tm -> 0 < a_mmin a - a_mdot a * a_ts a ->
  exists t m thr, logged h n t m thr /\ m 0%nat = a_mass0 a /\
    delta_v tm n t m thr <= tm / a_mdot a * ln (a_mass0 a / m n) <= tm / a_mdot a * ln (a_mass0 a / (a_mmin a - a_mdot a * a_ts a)) /\
    tm / a_mdot a * ln (a_mass0 a / m n) <= delta_v_end tm n t m thr.
Proof.
  intros Hmd' Htm Hpos. pose proof logged_run as L. exists (at_ (h_times h)), (at_ (h_masses h)), (thr_at h).
  assert (M0 : at_ (h_masses h) 0 = a_mass0 a) by (apply at_entry, first_entries).
  split; [exact L|]. split; [exact M0|].
  assert (Em : p_mdot p = Fin (a_mdot a)) by (destruct Rg as [(_ & E & _) _]; exact E).
  assert (Mn := run_mass_min _ _ _ L).
  destruct (rocket_fwd o p ea er fuel o' h Hr (a_mdot a) Em _ _ _ tm n L Hmd' Htm (fun k Hk => run_incr _ _ _ k L Hk) ltac:(lra)) as [A B].
  rewrite M0 in A, B. split; [split; [exact A|]|exact B].
  apply Rmult_le_compat_l; [apply Rmult_le_pos; [lra|left; apply Rinv_0_lt_compat; lra]|].
  assert (0 < a_mmin a) by (assert (0 <= a_mdot a * a_ts a) by (apply Rmult_le_pos; lra); lra).
  rewrite !ln_div by lra. assert (ln (a_mmin a - a_mdot a * a_ts a) <= ln (at_ (h_masses h) n)).
  { destruct Mn as [Mn|Mn]; [left; apply ln_increasing; lra|right; f_equal; exact Mn]. } lra.
Qed.
End Whole.

(** Examples: the run with a shortened step and a recharge, and the backward run. *)
Definition lst (l : list Q) (k : nat) : R := Q2R (nth k l 0%Q).
Definition lstz (l : list Z) (k : nat) : Z := nth k l 0%Z.
Lemma rec_logged h ts ms bs thr n : recorded h ts ms bs thr -> length ts = S n -> length ms = S n -> length thr = n ->
  logged h n (lst ts) (lst ms) (lstz thr).
Proof.
  intros C A B D. split.
  - intros k Hk. split; [apply (rec_t _ _ _ _ _ _ _ C)|apply (rec_m _ _ _ _ _ _ _ C)]; unfold lst; apply nth_error_nth'; lia.
  - intros k Hk. apply (rec_c _ _ _ _ _ _ _ C). unfold lstz. apply nth_error_nth'. lia.
Qed.
Lemma cycle_case : exists o' h t m thr, ran 10 (toyX RK4 a_cycle) noX noX (probX a_cycle) o' h /\ p_mdot (probX a_cycle) = Fin (1 / 10) /\
  logged h 7 t m thr /\ (forall k, (k < 7)%nat -> t k <= t (S k)) /\ m 0%nat = 10 /\ m 7%nat = 97 / 10 /\ burn_time 7 t thr = 3.
Proof.
  destruct run_cycle as (o' & h & R & C & _). do 2 eexists. do 3 eexists. split; [exact R|]. split; [change (Fin (Q2R (1 # 10)) = Fin (1 / 10)); f_equal; unfold Q2R; simpl; lra|].
  split; [eapply rec_logged; [exact C|reflexivity..]|].
  split; [intros k Hk; do 7 (destruct k as [|k]; [unfold lst, Q2R; simpl; lra|]); lia|].
  split; [unfold lst, Q2R; simpl; lra|]. split; [unfold lst, Q2R; simpl; lra|].
  unfold burn_time, lst, lstz, Q2R. simpl. lra.
Qed.
Lemma back_case : exists o' h t m thr, ran 10 (toyX RK4 a_back) noX noX (probX a_back) o' h /\ p_mdot (probX a_back) = Fin (1 / 10) /\
  logged h 4 t m thr /\ (forall k, (k < 4)%nat -> t (S k) <= t k) /\ m 0%nat = 10 /\ m 4%nat = 104 / 10 /\ burn_time 4 t thr = -4.
Proof.
  destruct run_back as (o' & h & R & C & _). do 2 eexists. do 3 eexists. split; [exact R|]. split; [change (Fin (Q2R (1 # 10)) = Fin (1 / 10)); f_equal; unfold Q2R; simpl; lra|].
  split; [eapply rec_logged; [exact C|reflexivity..]|].
  split; [intros k Hk; do 4 (destruct k as [|k]; [unfold lst, Q2R; simpl; lra|]); lia|].
  split; [unfold lst, Q2R; simpl; lra|]. split; [unfold lst, Q2R; simpl; lra|].
  unfold burn_time, lst, lstz, Q2R. simpl. lra.
Qed.
(** A run stopped by the mass limit 93/10 with 1/2 per step. *)
Definition a_tank : qprob := mkqp 10 (1 # 2) 6 1 (93 # 10) 100 0 50 0 100 (1 # 2) (1 # 2) false.
Lemma run_tank : exists o2 h2, ran 10 (toyX RK4 a_tank) noX noX (probX a_tank) o2 h2 /\
  recorded h2 [0; 1; 2]%Q [10; 19 # 2; 9]%Q [50; 99 # 2; 49]%Q [1; 1]%Z /\ q_exitcode o2 = (-1)%Z.
Proof. toyrun. Qed.
Lemma tank_case : regular (toyX RK4 a_tank) (probX a_tank) (parX a_tank) /\
  (exists o' h, ran 10 (toyX RK4 a_tank) noX noX (probX a_tank) o' h /\ q_exitcode o' = (-1)%Z /\ length (h_controls h) = 2%nat) /\
  0 < a_ts (parX a_tank) /\ 0 < a_mdot (parX a_tank) /\ a_mmin (parX a_tank) < a_mass0 (parX a_tank) /\
  0 < a_mmin (parX a_tank) - a_mdot (parX a_tank) * a_ts (parX a_tank).
Proof.
  split; [apply toy_regular|]. split.
  - destruct run_tank as (o' & h & R & (_ & _ & _ & C) & X). exists o', h. split; [exact R|]. split; [exact X|]. rewrite <- (map_length snd), C. reflexivity.
  - simpl; unfold Q2R; simpl. lra.
Qed.
