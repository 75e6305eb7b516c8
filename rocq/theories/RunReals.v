(** The thrust of every burn, and concrete runs, over the reals. *)
From Coq Require Import Reals ZArith List Bool Lia Lra Psatz.
From Verif Require Import RMath RLib Num Base Elements Integrate Eom Convergence Lyapunov Perturb Qlaw Spec RSpec XSpec RunSpec
  CtlProofs RunProofs ElemProofs ExportRuns.
Import ListNotations.
Local Open Scope R_scope.

Lemma dot_scale D k v : dot D (scale k v) = k * dot D v.
Proof. destruct D, v. unfold dot, scale. cbn. change (@eq (@car RNum)) with (@eq R). ring. Qed.
Lemma norm_scale k v : norm (scale k v) = Rabs k * norm v.
Proof.
  destruct v as [x y z]. unfold norm, scale. cbn.
  replace (k * x * (k * x) + k * y * (k * y) + k * z * (k * z)) with ((k * k) * (x * x + y * y + z * z)) by ring.
  rewrite sqrt_mult_alt by nra. f_equal. apply sqrt_Rsqr_abs.
Qed.
Lemma norm_dir al be : norm (direction al be) = 1.
Proof.
  unfold norm, direction, vec. cbn. apply sqrt_pos_of; [lra|].
  pose proof (sincos al). pose proof (sincos be).
  transitivity (cos be * cos be * (sin al * sin al + cos al * cos al) + sin be * sin be); [ring|]. rewrite H. lra.
Qed.
Lemma norm_sq v : norm v * norm v = dot v v.
Proof. destruct v as [x y z]. unfold norm, dot. cbn. apply sqrt_sqrt. nra. Qed.
Lemma norm_nonneg v : 0 <= norm v.
Proof. apply sqrt_pos. Qed.
Lemma norm_zero v : norm v = 0 -> forall D, dot D v = 0.
Proof.
  intros H D. pose proof (norm_sq v) as E. rewrite H in E. destruct v as [x y z], D as [a b c]. unfold dot in *. cbn in *.
  assert (x = 0 /\ y = 0 /\ z = 0) as (-> & -> & ->) by (repeat split; nra). ring.
Qed.

(** Among the vectors no longer than [A], [A] times the steepest-descent direction is the best. *)
Lemma best_push D al be A w : (forall v, dot v v = 1 -> dot D (direction al be) <= dot D v) ->
  0 <= A -> norm w <= A -> A * dot D (direction al be) <= dot D w.
Proof.
  intros B HA Hw. pose proof (norm_nonneg w) as Hn.
  assert (M : dot D (direction al be) <= 0).
  { pose proof (B (scale (-1) (direction al be))) as X.
    assert (Y : dot (scale (-1) (direction al be)) (scale (-1) (direction al be)) = 1).
    { rewrite <- norm_sq, norm_scale, norm_dir. replace (-1) with (- (1)) by ring. rewrite Rabs_Ropp, Rabs_R1. ring. }
    specialize (X Y). rewrite dot_scale in X. lra. }
  destruct (Req_dec (norm w) 0) as [E|E].
  - rewrite (norm_zero w E D). nra.
  - assert (U : dot (scale (/ norm w) w) (scale (/ norm w) w) = 1).
    { rewrite <- norm_sq, norm_scale. rewrite Rabs_pos_eq by (apply Rlt_le, Rinv_0_lt_compat; lra). field. exact E. }
    pose proof (B _ U) as X. rewrite dot_scale in X.
    assert (Y : norm w * dot D (direction al be) <= dot D w).
    { apply Rmult_le_compat_l with (r := norm w) in X; [|lra]. replace (norm w * (/ norm w * dot D w)) with (dot D w) in X by (field; exact E). exact X. }
    nra.
Qed.

Lemma npsignR x : npsign (N:=RNum) x = if Rlt_dec 0 x then 1 else if Rlt_dec x 0 then -1 else 0.
Proof.
  unfold npsign. cbn. destruct (Rltb_spec 0 x), (Rlt_dec 0 x); try lra; destruct (Rltb_spec x 0), (Rlt_dec x 0); try lra.
Qed.

Lemma C74_lem fuel (o : qlaw RNum) ea er p o' h k : ran fuel o ea er p o' h -> throttle h k 1 ->
  exists t dt m oe al be out,
    nth_error (h_times h) k = Some t /\ nth_error (h_times h) (S k) = Some (t + dt) /\
    nth_error (h_masses h) k = Some m /\ nth_error (h_states h) k = Some oe /\ nth_error (h_controls h) k = Some (al, be, 1%Z) /\
    q_lyap o (q_mu o) (thrust_acc p dt m) oe (p_oeT p) (q_rpmin o) (q_m o) (q_n o) (q_r o) (q_b o) (q_k o) (q_wp o) (p_woe p) = Ok out /\
    let D := lo_u out in let u := scale (thrust_acc p dt m) (direction al be) in
    0 <= p_tmax p -> 0 < m -> dt <> 0 -> v3_0 D <> 0 \/ v3_1 D <> 0 ->
    norm u = p_tmax p / m /\ forall w, norm w <= p_tmax p / m -> dt * dot D u <= dt * dot D w.
Proof.
  intros Hr Ht.
  destruct (flown_lem o p ea er fuel o' h Hr) as (zs & _ & Lz & Fz).
  assert (Hk : (k < length zs)%nat).
  { rewrite Lz, <- (map_length snd). apply nth_error_Some. unfold throttle in Ht. congruence. }
  destruct (nth_error zs k) as [z|] eqn:Ez; [|apply nth_error_None in Ez; lia].
  destruct (Fz k z Ez) as (hn & t & dt & m & oe & al & be & thr & q & qd & al0 & be0 & D0 & psi & F & T1 & T2 & T3 & T4 & T5 & _ & _ & HL & HT & _).
  assert (thr = 1%Z).
  { unfold throttle in Ht. rewrite (map_nth_error snd _ _ T5) in Ht. cbn in Ht. congruence. }
  subst thr. destruct HT as [(_ & -> & -> & _)|X]; [|discriminate].
  unfold law in HL.
  destruct (q_lyap o (q_mu o) (thrust_acc p dt m) oe (p_oeT p) (q_rpmin o) (q_m o) (q_n o) (q_r o) (q_b o) (q_k o) (q_wp o) (p_woe p)) as [out|e] eqn:EL.
  2:{ unfold lyapunov_control_angles in HL. rewrite EL in HL. discriminate. }
  exists t, dt, m, oe, al0, be0, out. do 6 (split; [assumption|]).
  intros D u Hf Hm Hdt HD.
  destruct (C33_lem _ _ _ _ _ _ _ _ _ _ _ _ _ _ EL HD) as (al1 & be1 & u1 & psi1 & q1 & qd1 & E1 & _ & B & _).
  rewrite E1 in HL. assert (al1 = al0 /\ be1 = be0) as [-> ->] by (split; congruence).
  assert (HA : 0 <= p_tmax p / m) by (apply Rmult_le_pos; [exact Hf|apply Rlt_le, Rinv_0_lt_compat, Hm]).
  assert (Acc : thrust_acc p dt m = (if Rlt_dec 0 dt then 1 else -1) * (p_tmax p / m)).
  { unfold thrust_acc. rewrite npsignR. cbn. destruct (Rlt_dec 0 dt); [unfold Rdiv; ring|]. destruct (Rlt_dec dt 0); [unfold Rdiv; ring|lra]. }
  split.
  - unfold u. rewrite norm_scale, norm_dir, Rmult_1_r, Acc, Rabs_mult, (Rabs_pos_eq (p_tmax p / m)) by exact HA.
    destruct (Rlt_dec 0 dt); [rewrite Rabs_R1; ring|]. replace (-1) with (- (1)) by ring. rewrite Rabs_Ropp, Rabs_R1. ring.
  - intros w Hw. unfold u. rewrite dot_scale, Acc. 
    destruct (Rlt_dec 0 dt) as [P|P].
    + pose proof (best_push D al0 be0 _ w B HA Hw). nra.
    + assert (Hw' : norm (scale (-1) w) <= p_tmax p / m).
      { rewrite norm_scale. replace (-1) with (- (1)) by ring. rewrite Rabs_Ropp, Rabs_R1. lra. }
      pose proof (best_push D al0 be0 _ _ B HA Hw') as X. rewrite dot_scale in X. nra.
Qed.

(** [run_turn] burns along the transverse direction. *)
Lemma C74_case : exists o' h out, ran 1 o_turn (EtaFloat (N:=RNum) 0) (EtaFloat (N:=RNum) 0) p_turn o' h /\ throttle h 0 1 /\
  0 < p_tmax p_turn /\ nth_error (h_masses h) 0 = Some 1 /\
  (forall acc oe, q_lyap o_turn (q_mu o_turn) acc oe (p_oeT p_turn) (q_rpmin o_turn) (q_m o_turn) (q_n o_turn) (q_r o_turn)
    (q_b o_turn) (q_k o_turn) (q_wp o_turn) (p_woe p_turn) = Ok out) /\ v3_1 (lo_u out) <> 0.
Proof.
  destruct run_turn as (o' & h & Rn & _ & Hs). exists o', h. eexists. split; [exact Rn|].
  assert (Hk : (0 < length (h_controls h))%nat).
  { destruct (ExitProofs.ran_lengths o_turn p_turn _ _ _ _ _ Rn) as (n & L).
    rewrite Hs in L. cbn in L. destruct L as (L1 & L2 & L3 & L4 & L5 & _). assert (n = 1%nat) by lia. apply (eq_ind_r (fun x => (0 < x)%nat) (eq_ind_r (fun x => (0 < x)%nat) Nat.lt_0_1 H) L5). }
  split; [|split; [cbn; lra|]].
  - destruct (h_controls h) as [|[[al be] thr] cs] eqn:E; [cbn in Hk; lia|]. unfold throttle. rewrite E. cbn. f_equal.
    destruct (SolveProofs.ran_row o_turn p_turn _ _ _ _ _ 0 Rn ltac:(rewrite E; exact Hk)) as (gs & oel & code & conv & sk & g & _ & _ & _ & Htr & RF).
    pose proof (SolveProofs.rf_c _ _ _ _ _ _ _ _ RF) as C. rewrite E in C. cbn in C. injection C as _ _ ->.
    cbn in Htr. inversion Htr as [E0|gs1 s1 g1 s1' _ _ _ _ E0]; [|destruct gs1; discriminate]. subst sk.
    pose proof (SolveProofs.rf_iter _ _ _ _ _ _ _ _ RF) as I.
    pose proof (Trace.it_plan _ _ _ _ _ _ I) as Pl. pose proof (Trace.it_ctl _ _ _ _ _ _ I) as Ct.
    rewrite (Trace.it_s _ _ _ _ _ _ I), turn_safety in Pl, Ct. rewrite turn_plan in Pl. injection Pl as Pl. rewrite <- Pl in Ct.
    destruct (turn_control (nmul (Num:=RNum) (npsign (N:=RNum) 1) (p_tmax p_turn) / 1)) as (c & Ec & _).
    (* the control phase with both thresholds at 0 always thrusts *)
    revert Ct. unfold control. cbn [pl_duty]. destruct (lyap_call _ _ _ _) as [[[[[[a0 b0] D] psi] q] qd]|e]; [|discriminate].
    cbn [bind]. cbv zeta. cbn [nisnan RNum orb]. unfold eta_now. cbn [nltb RNum nofZ].
    destruct (Rltb_spec 0 0); [lra|]. cbn. intros Ct. injection Ct as <-. reflexivity.
  - split; [|split; [reflexivity|cbn; lra]].
    destruct (SolveProofs.ran_ended o_turn p_turn _ _ _ _ _ Rn) as (gs & oel & code & conv & _ & -> & _). reflexivity.
Qed.
