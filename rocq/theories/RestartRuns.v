(** Runs for C93. *)
From Coq Require Import Reals QArith Qreals ZArith List Bool Lia Lra.
From Verif Require Import RMath Num Base Integrate Eom Perturb Qlaw Spec XSpec Sim Runs XRuns XTrace XProofs XSolve XReason ExitProofs CutSpec RestartSpec RestartProofs.
Import ListNotations.
Local Open Scope R_scope.

(** An on-time as long as the run and a battery that does not discharge keep a run powered. *)
Lemma unlimited_powered (o : qlaw XNum) p ea er a : regular o p a -> forall fuel o' h, ran fuel o ea er p o' h ->
  Rabs (a_tf a) <= a_on a -> 0 < a_ts a -> a_dis a = 0 -> 0 <= a_ch a ->
  a_lo a + 1 / 10 ^ 12 < a_b0 a -> a_lo a + 1 / 10 ^ 12 < a_hi a -> powered p h.
Proof.
  intros Hreg fuel o' h Hr Hon Hts Hdis Hch Hb0 Hhi k t b c Ht Hb Hc.
  destruct (link o p ea er a Hreg fuel o' h Hr) as (smin & smax & rs & st & S1 & S2 & S3 & RR).
  pose proof (rn_chain _ _ _ _ _ _ _ RR) as C.
  assert (Hkl : (k < length rs)%nat).
  { rewrite <- (run_len o a h smin smax rs st RR). apply nth_error_Some. congruence. }
  destruct (run_entry o a h smin smax rs st RR k (Nat.lt_le_incl _ _ Hkl)) as (T1 & T2 & T3). unfold entry in T1, T2, T3.
  pose proof (eq_trans (eq_sym Ht) T1) as X1. injection X1 as ->. pose proof (eq_trans (eq_sym Hb) T3) as X3. injection X3 as ->.
  assert (Fp := proj1 Hreg). destruct Fp as (_ & _ & _ & _ & _ & P1 & _ & _ & P2 & _).
  destruct (nth_error rs k) as [r|] eqn:Hrb; [|apply nth_error_None in Hrb; lia].
  pose proof (ro_guard _ _ _ _ _ _ (chain_row _ _ _ _ _ _ C _ _ Hrb)) as G.
  assert (X : forall rs' st', chain a (is_rk4 o) smin smax rs' st' -> a_lo a + 1 / 10 ^ 12 < s_b st').
  { clear - Hdis Hch Hb0 Hhi Hts S3. induction 1 as [|rs s r C IH RO]; simpl; [exact Hb0|].
    pose proof (row_dt a _ smin smax _ _ RO Hts) as [Hdt _].
    assert (Hdb : 0 <= r_dtb r).
    { pose proof (ro_dtb _ _ _ _ _ _ RO) as X. destruct (is_rk4 o); lra. }
    rewrite (ro_b _ _ _ _ _ _ RO), Hdis. unfold rclip.
    apply Rmin_glb_lt; [|exact Hhi]. eapply Rlt_le_trans; [|apply Rmax_l].
    destruct (r_duty r); [lra|]. pose proof (Rmult_le_pos _ _ Hch Hdb). lra. }
  specialize (X _ _ (chain_firstn a _ smin smax rs st C k (Nat.lt_le_incl _ _ Hkl))).
  split.
  - rewrite P1. cbn. apply Rltb_false. pose proof (Rle_abs (s_t (st_at a rs k))). lra.
  - rewrite P2. change (ndiv (nofZ 1) (nofZ (10 ^ 12))) with (dec (N:=XNum) 1 12). rewrite xdec_gen.
    cbn [nadd nleb XNum xadd]. apply not_true_is_false. rewrite xleb_fin.
    unfold st_at in *. lra.
Qed.

(** A run over the rationals is a run over the extended reals from any state. *)
Lemma toy_run_from ig a n ts ms bs thr code : ~ (b_dis a == 0)%Q ->
  match solve n (toyQ ig a) no_eta no_eta with
  | Returns o' => match q_hist o' with
      | Some h => h_times h = map Some ts /\ h_masses h = map Some ms /\ h_battery h = map Some bs /\
                  map snd (h_controls h) = thr /\ q_exitcode o' = code
      | None => False end
  | _ => False end -> forall z,
  exists o2 h2, ran n (toyX_from ig z a) noX noX (probX_from z a) o2 h2 /\ recorded h2 ts ms bs thr /\ q_exitcode o2 = code.
Proof.
  intros Hd H z. apply (ran_of n (toyQ ig a) no_eta no_eta (probQ a)) in H; [|reflexivity].
  destruct H as (o1 & h1 & R & T & M & B & C & X).
  destruct (toy_transfer_from ig z a Hd n o1 h1 R) as (o2 & h2 & R2 & [S1 S2 S3 S4] & E).
  exists o2, h2. split; [exact R2|]. split; [|rewrite E; exact X].
  repeat split; [rewrite S1, T|rewrite S2, M|rewrite S3, B|rewrite S4; exact C]; apply map_emb_some.
Qed.
Ltac toyrun_from := apply toy_run_from; [vm_compute; discriminate|vm_compute; repeat split; reflexivity].

Lemma toy_steady ig a : steady (toyX ig a) noX noX.
Proof. split; [reflexivity|]. split; [discriminate|]. intros f t t' y m b [E|E]; discriminate. Qed.
Definition same_stops (o : qlaw XNum) (p : problem XNum) : stops XNum :=
  mkstops (q_tol o) (q_tol_relaxed o) (q_exit_relaxed o) (q_nan_thr o) (p_tf_max p) (p_mass_min p).

Lemma some_state (h : hist XNum) n k : length (h_states h) = n -> (k < n)%nat -> exists z, nth_error (h_states h) k = Some z.
Proof. intros <- H. destruct (nth_error (h_states h) k) as [z|] eqn:E; [eauto|]. apply nth_error_None in E. lia. Qed.

(** restarted at t = 1 the duty cycle begins anew: [a_duty] from mass 99/10 and battery 99/2 *)
Definition a_duty2 : qprob := mkqp (99 # 10) (1 # 10) 5 (1 # 2) (1 # 10) 1 1 (99 # 2) 0 100 (1 # 2) (1 # 2) false.
Lemma run_duty_full : exists o2 h2, ran 20 (toyX RK4 a_duty) noX noX (probX a_duty) o2 h2 /\
  recorded h2 [0; 1 # 2; 1; 3 # 2; 2; 5 # 2; 3; 7 # 2; 4; 9 # 2; 5]%Q
    [10; 199 # 20; 99 # 10; 197 # 20; 197 # 20; 197 # 20; 197 # 20; 49 # 5; 39 # 4; 97 # 10; 97 # 10]%Q
    [50; 199 # 4; 99 # 2; 197 # 4; 99 # 2; 199 # 4; 50; 199 # 4; 99 # 2; 197 # 4; 99 # 2]%Q [1; 1; 1; 0; 0; 0; 1; 1; 1; 0]%Z /\ q_exitcode o2 = (-2)%Z.
Proof. toyrun. Qed.
Lemma run_duty2 : forall z, exists o2 h2, ran 20 (toyX_from RK4 z a_duty2) noX noX (probX_from z a_duty2) o2 h2 /\
  (exists ts ms bs, recorded h2 ts ms bs [1; 1; 1; 0; 0; 0; 1; 1; 1; 0]%Z).
Proof.
  intros z.
  assert (H : exists o2 h2, ran 20 (toyX_from RK4 z a_duty2) noX noX (probX_from z a_duty2) o2 h2 /\
    recorded h2 [0; 1 # 2; 1; 3 # 2; 2; 5 # 2; 3; 7 # 2; 4; 9 # 2; 5]%Q
    [99 # 10; 197 # 20; 49 # 5; 39 # 4; 39 # 4; 39 # 4; 39 # 4; 97 # 10; 193 # 20; 48 # 5; 48 # 5]%Q
    [99 # 2; 197 # 4; 49; 195 # 4; 49; 197 # 4; 99 # 2; 197 # 4; 49; 195 # 4; 49]%Q [1; 1; 1; 0; 0; 0; 1; 1; 1; 0]%Z /\ q_exitcode o2 = (-2)%Z).
  { revert z. toyrun_from. }
  destruct H as (o2 & h2 & R & C & _). exists o2, h2. split; [exact R|]. eauto.
Qed.
(** restarted while it must recharge fully, the battery is used at once: [a_cycle] from mass 197/20 and battery 1/2 *)
Definition a_cycle2 : qprob := mkqp (197 # 20) (1 # 10) 6 1 (1 # 10) 100 0 (1 # 2) 0 (3 # 2) (1 # 2) 1 true.
Lemma run_cycle2 : forall z, exists o2 h2, ran 10 (toyX_from RK4 z a_cycle2) noX noX (probX_from z a_cycle2) o2 h2 /\
  (exists ts ms bs thr, recorded h2 ts ms bs thr /\ hd_error thr = Some 1%Z).
Proof.
  intros z.
  assert (H : exists o2 h2, ran 10 (toyX_from RK4 z a_cycle2) noX noX (probX_from z a_cycle2) o2 h2 /\
    recorded h2 [0; 1 # 2; 3 # 2; 5 # 2; 7 # 2; 9 # 2; 5; 6]%Q [197 # 20; 49 # 5; 49 # 5; 49 # 5; 49 # 5; 97 # 10; 193 # 20; 193 # 20]%Q
    [1 # 2; 0; 1 # 2; 1; 3 # 2; 1 # 2; 0; 1 # 2]%Q [1; 0; 0; 0; 1; 1; 0]%Z /\ q_exitcode o2 = (-2)%Z).
  { revert z. toyrun_from. }
  destruct H as (o2 & h2 & R & C & _). exists o2, h2. split; [exact R|]. eexists _, _, _, _. split; [exact C|reflexivity].
Qed.
(** enough power for four steps *)
Definition a_free : qprob := mkqp 10 (1 # 10) 4 1 (1 # 10) 100 0 50 0 100 (1 # 2) (1 # 2) false.
Definition a_free2 : qprob := mkqp (49 # 5) (1 # 10) 4 1 (1 # 10) 100 0 49 0 100 (1 # 2) (1 # 2) false.
Lemma run_free : exists o2 h2, ran 10 (toyX RK4 a_free) noX noX (probX a_free) o2 h2 /\
  recorded h2 [0; 1; 2; 3; 4]%Q [10; 99 # 10; 49 # 5; 97 # 10; 48 # 5]%Q [50; 99 # 2; 49; 97 # 2; 48]%Q [1; 1; 1; 1]%Z /\ q_exitcode o2 = (-2)%Z.
Proof. toyrun. Qed.
Lemma run_free2 : forall z, exists o2 h2, ran 10 (toyX_from RK4 z a_free2) noX noX (probX_from z a_free2) o2 h2 /\
  recorded h2 [0; 1; 2; 3; 4]%Q [49 # 5; 97 # 10; 48 # 5; 19 # 2; 47 # 5]%Q [49; 97 # 2; 48; 95 # 2; 47]%Q [1; 1; 1; 1]%Z /\ q_exitcode o2 = (-2)%Z.
Proof. toyrun_from. Qed.

Lemma row_of h ts ms bs thr k t m b z : recorded h ts ms bs thr -> nth_error ts k = Some t -> nth_error ms k = Some m ->
  nth_error bs k = Some b -> nth_error (h_states h) k = Some z -> row_at (N:=XNum) h k (fq t) z (fq m) (fq b).
Proof.
  intros C T M B Z. split; [exact (rec_t _ _ _ _ _ _ _ C T)|]. split; [exact Z|]. split; [exact (rec_m _ _ _ _ _ _ _ C M)|].
  exact (rec_b _ _ _ _ _ _ _ C B).
Qed.
Lemma len_states n o ea er p o' h ts ms bs thr : ran n o ea er p o' h -> recorded h ts ms bs thr -> length (h_states h) = length ts.
Proof. intros R (T & _). destruct (ran_lengths _ _ _ _ _ _ _ R) as (q & L1 & L2 & _). rewrite L2, <- L1. pose proof (f_equal (@length _) T) as E. rewrite map_length in E. exact E. Qed.

Lemma free_powered h a ts ms bs thr : recorded h ts ms bs thr -> Forall (fun t => t <= b_on a)%Q ts -> Forall (fun b => b_lo a + 1 <= b)%Q bs ->
  powered (probX a) h.
Proof.
  intros (T & _ & B & _) Ft Fb k t b c Ht Hb _. rewrite T in Ht. rewrite B in Hb.
  rewrite nth_error_map in Ht. rewrite nth_error_map in Hb.
  destruct (nth_error ts k) as [qt|] eqn:Et; [|discriminate]. destruct (nth_error bs k) as [qb|] eqn:Eb; [|discriminate].
  injection Ht as <-. injection Hb as <-. apply nth_error_In in Et, Eb.
  rewrite Forall_forall in Ft, Fb. specialize (Ft _ Et). specialize (Fb _ Eb). apply Qle_Rle in Ft, Fb.
  rewrite Q2R_plus in Fb. assert (Q2R 1 = 1) by (unfold Q2R; simpl; lra).
  split.
  - change (Rltb (Q2R (b_on a)) (Q2R qt) = false). apply Rltb_false. lra.
  - change (p_cap_lo (probX a)) with (Fin (Q2R (b_lo a))). change (ndiv (nofZ 1) (nofZ (10 ^ 12))) with (dec (N:=XNum) 1 12). rewrite xdec_gen.
    cbn [nadd nleb XNum xadd]. apply not_true_is_false. unfold fq. rewrite xleb_fin.
    assert (1 / 10 ^ 12 < 1); [|lra]. apply (Rmult_lt_reg_r (10 ^ 12)); [apply pow_lt; lra|]. unfold Rdiv. rewrite Rmult_assoc, Rinv_l by (apply pow_nonzero; lra).
    rewrite !Rmult_1_l. apply Rlt_pow_R1; [lra|lia].
Qed.

Lemma C93_case : exists o1 h1 t z m b o2 h2, let o := toyX RK4 a_free in let p := probX a_free in let c := same_stops o p in
  steady o noX noX /\ ran 10 o noX noX p o1 h1 /\ row_at h1 2 t z m b /\
  ran 10 (qlaw_until c (problem_from z m b p) o) noX noX (problem_until c (problem_from z m b p)) o2 h2 /\
  powered p h1 /\ powered p h2 /\ length (h_controls h1) = 4%nat /\ length (h_controls h2) = 4%nat.
Proof.
  destruct run_free as (o1 & h1 & R1 & C1 & _). destruct (some_state h1 5 2) as [z Hz]; [exact (len_states _ _ _ _ _ _ _ _ _ _ _ R1 C1)|lia|].
  destruct (run_free2 z) as (o2 & h2 & R2 & C2 & _). exists o1, h1, (fq 2), z, (fq (49 # 5)), (fq 49), o2, h2. cbv zeta.
  split; [apply toy_steady|]. split; [exact R1|]. split; [apply (row_of _ _ _ _ _ 2 _ _ _ _ C1); auto|]. split; [exact R2|].
  split; [apply (free_powered _ _ _ _ _ _ C1); repeat constructor; vm_compute; discriminate|].
  split; [apply (free_powered h2 a_free _ _ _ _ C2); repeat constructor; vm_compute; discriminate|].
  destruct C1 as (_ & _ & _ & C1). destruct C2 as (_ & _ & _ & C2).
  rewrite <- (map_length snd), C1. rewrite <- (map_length snd), C2. auto.
Qed.

Lemma differ (o : qlaw XNum) h k t h' j a b : throttle h (k + j) a -> throttle h' j b -> a <> b -> ~ repeats o h k t h'.
Proof.
  unfold throttle. intros A B N (_ & H & _). rewrite nth_error_map in A, B.
  destruct (nth_error (h_controls h) (k + j)) as [x|] eqn:X; [|discriminate]. destruct (nth_error (h_controls h') j) as [y|] eqn:Y; [|discriminate].
  injection A as <-. injection B as <-. rewrite (H _ _ _ X Y) in N. congruence.
Qed.

Lemma C93_duty_lem : exists (o : qlaw XNum) p f1 o1 h1 k t z m b f2 o2 h2, let c := same_stops o p in
  steady o noX noX /\ ran f1 o noX noX p o1 h1 /\ row_at h1 k t z m b /\
  ran f2 (qlaw_until c (problem_from z m b p) o) noX noX (problem_until c (problem_from z m b p)) o2 h2 /\
  ~ repeats o h1 k t h2.
Proof.
  destruct run_duty_full as (o1 & h1 & R1 & C1 & _). destruct (some_state h1 11 2) as [z Hz]; [exact (len_states _ _ _ _ _ _ _ _ _ _ _ R1 C1)|lia|].
  destruct (run_duty2 z) as (o2 & h2 & R2 & ts & ms & bs & C2).
  exists (toyX RK4 a_duty), (probX a_duty), 20%nat, o1, h1, 2%nat, (fq 1), z, (fq (99 # 10)), (fq (99 # 2)), 20%nat, o2, h2. cbv zeta.
  split; [apply toy_steady|]. split; [exact R1|]. split; [apply (row_of _ _ _ _ _ 2 _ _ _ _ C1); auto|]. split; [exact R2|].
  apply (differ _ _ 2 _ _ 1 0%Z 1%Z); [apply (rec_c _ _ _ _ _ _ _ C1)|apply (rec_c _ _ _ _ _ _ _ C2)|]; try reflexivity. discriminate.
Qed.
Lemma C93_recharge_lem : exists (o : qlaw XNum) p f1 o1 h1 k t z m b f2 o2 h2, let c := same_stops o p in
  steady o noX noX /\ p_full p = true /\ ran f1 o noX noX p o1 h1 /\ row_at h1 k t z m b /\ nltb (Num:=XNum) b (p_cap_hi p) = true /\ throttle h1 k 0 /\
  ran f2 (qlaw_until c (problem_from z m b p) o) noX noX (problem_until c (problem_from z m b p)) o2 h2 /\ throttle h2 0 1.
Proof.
  destruct run_cycle as (o1 & h1 & R1 & C1 & _). destruct (some_state h1 8 3) as [z Hz]; [exact (len_states _ _ _ _ _ _ _ _ _ _ _ R1 C1)|lia|].
  destruct (run_cycle2 z) as (o2 & h2 & R2 & ts & ms & bs & thr & C2 & T).
  exists (toyX RK4 a_cycle), (probX a_cycle), 10%nat, o1, h1, 3%nat, (fq (5 # 2)), z, (fq (197 # 20)), (fq (1 # 2)), 10%nat, o2, h2. cbv zeta.
  split; [apply toy_steady|]. split; [reflexivity|]. split; [exact R1|]. split; [apply (row_of _ _ _ _ _ 3 _ _ _ _ C1); auto|].
  split; [change (Rltb (Q2R (1 # 2)) (Q2R (3 # 2)) = true); apply Rltb_true; unfold Q2R; simpl; lra|].
  split; [apply (rec_c _ _ _ _ _ _ _ C1); reflexivity|]. split; [exact R2|]. apply (rec_c _ _ _ _ _ _ _ C2). destruct thr; [discriminate|exact T].
Qed.
