(** Concrete runs for the examples about gating, validation and aliasing. *)
From Coq Require Import Reals QArith Qreals ZArith String List Bool Lia Lra.
From Verif Require Import RMath Num Base Elements Integrate Eom Convergence Lyapunov Perturb Qlaw Spec XSpec
  StateProofs GateProofs Sim Runs.
Import ListNotations.

(** The best rate over the grid is 5 (the rate of the control law) below a = 3/2 and 20 above. *)
Definition demo_rate : qlaw QNum :=
  let o := o_exit1 in
  {| q_mu := q_mu o; q_rpmin := q_rpmin o; q_k := q_k o; q_m := q_m o; q_n := q_n o; q_r := q_r o;
     q_b := q_b o; q_wp := q_wp o; q_etype := q_etype o; q_integ := q_integ o; q_grid := q_grid o;
     q_tol := q_tol o; q_tol_relaxed := q_tol_relaxed o; q_exit_relaxed := q_exit_relaxed o;
     q_oe_min := q_oe_min o; q_oe_max := q_oe_max o; q_nan_thr := q_nan_thr o;
     q_eom := q_eom o; q_lyap := fun _ _ _ _ _ _ _ _ _ _ _ _ =>
       Ok (@mklyap QNum along (@mkpsi QNum (v5of (N:=QNum) q0) (v5of (N:=QNum) q1) (v5of (N:=QNum) q0)) q1 (v5of (N:=QNum) q1));
     q_dqdt := fun _ _ oe _ _ _ _ _ _ _ _ _ => Ok (if nltb (v6_0 oe) (qq (3 # 2)) then qq 5 else qq 20); q_check := q_check o;
     q_step_min := q_step_min o; q_step_max := q_step_max o; q_ode_tol := q_ode_tol o;
     q_sundman := q_sundman o; q_ptrb := q_ptrb o; q_problem := q_problem o; q_hist := None;
     q_converge := false; q_exitcode := 0%Z |}.
Definition half_eta : eta_arg QNum := EtaFloat (N:=QNum) (qq (1 # 2)).
Lemma run_rate : exists o' h, ran 10 demo_rate half_eta no_eta p_exit1 o' h /\
  map snd (h_controls h) = [1; 1; 0; 0]%Z /\
  map fst (h_etas h) = map qq [1; 400 # 399; 50 # 199; 50 # 199] /\ map fst (h_bounds h) = map qq [1 # 2; 1 # 2; 1 # 2; 1 # 2].
Proof. run. Qed.

(** An int for [eta_r]: accepted, and the run is the one with no threshold. *)
Lemma run_eta_r : exists o' h, ran 10 o_exit1 no_eta EtaOther p_exit1 o' h /\ length (h_controls h) = 4%nat.
Proof. run. Qed.

(** As [Runs.o_built] (constructor, then set_problem), with an empty battery. *)
Definition o_empty : Res (qlaw QNum) :=
  do o <- init (N:=QNum) q1 q1 q1 q1 q1 q1 q1 q0 "mee_with_a" "rk4" 4 None None None 10 false None (qq 10) 5;
  set_problem (N:=QNum) o [q1; qq (1 # 10); qq (1 # 10); qq (1 # 10); qq (1 # 10); q0]
    [qq 2; qq (1 # 10); qq (1 # 10); qq (1 # 10); qq (1 # 10)] q1 (qq (1 # 100)) (qq (1 # 100))
    (qq 10) (qq (1 # 4)) (qq (1 # 10)) None (qq 100) q0 q0 q0 q1 q1 q1 false.
Definition is_unbound (s : sres QNum) : bool :=
  match s with Raises UnboundLocalError o => match q_hist o with
     | Some h => Nat.eqb (length (h_times h)) 2 && Nat.eqb (length (h_battery h)) 1 | None => false end | _ => false end.
Lemma is_unbound_eq s : is_unbound s = true -> exists o' h, s = Raises UnboundLocalError o' /\ q_hist o' = Some h /\
  length (h_times h) = 2%nat /\ length (h_battery h) = 1%nat.
Proof.
  destruct s as [|[] o'|]; try discriminate. simpl. destruct (q_hist o') as [h|] eqn:E; [|discriminate].
  intros H. apply andb_true_iff in H as [H1 H2]. apply Nat.eqb_eq in H1. apply Nat.eqb_eq in H2.
  exists o', h. auto.
Qed.
Lemma C25_refuted_lem : exists (o o' : qlaw QNum) h p, o_empty = Ok o /\ q_problem o = Some p /\
  nleb (p_batt0 p) (p_cap_lo p) = true /\
  solve 5 o no_eta no_eta = Raises UnboundLocalError o' /\ q_hist o' = Some h /\
  length (h_times h) = 2%nat /\ length (h_battery h) = 1%nat.
Proof.
  set (o := get o_exit1 o_empty).
  assert (E : o_empty = Ok o) by (apply is_ok_eq; vm_compute; reflexivity).
  assert (S : is_unbound (solve 5 o no_eta no_eta) = true) by (vm_compute; reflexivity).
  destruct (is_unbound_eq _ S) as (o' & h & H).
  assert (B : match q_problem o with Some p => nleb (p_batt0 p) (p_cap_lo p) | None => false end = true)
    by (vm_compute; reflexivity).
  destruct (q_problem o) as [p|] eqn:P; [|discriminate]. exists o, o', h, p. auto.
Qed.

(** A Keplerian object whose problem starts from a circular orbit. *)
Definition o_circ : qlaw QNum :=
  withp (demo Keplerian along 5 10)
    (@mkproblem QNum (@mk6 QNum q1 q0 (qq (1 # 10)) (qq (1 # 10)) (qq (1 # 10)) q0)
      [qq 2; qq (1 # 10); qq (1 # 10); qq (1 # 10); qq (1 # 10)] q1 q1 (qq (1 # 100)) (qq (1 # 2))
      (qq (1 # 4)) (qq (1 # 10)) (v5of (N:=QNum) q1) (qq 100) (qq 0) q1 q0 q1 q0 q0 false).
Definition oe0_ecc (o : qlaw QNum) : car (Num:=QNum) :=
  match q_problem o with Some p => v6_1 (p_oe0 p) | None => qnan end.
Lemma C26_refuted_lem : exists o' : qlaw QNum, solve 5 o_circ no_eta no_eta = Returns o' /\
  oe0_ecc o_circ = q0 /\ oe0_ecc o' = qq (1 # 10000).
Proof.
  exists (returned o_exit1 (solve 5 o_circ no_eta no_eta)).
  split; [apply is_ret_eq; vm_compute; reflexivity|]. split; vm_compute; reflexivity.
Qed.

(** Clamping over extended reals: the result is in range whatever the input, nan included. *)
Lemma xltb_irr x y : nltb (Num:=XNum) x y = true -> nltb (Num:=XNum) y x = false.
Proof.
  destruct x, y; simpl; try discriminate; try reflexivity. intros H. apply Rltb_true in H. apply Rltb_false. lra.
Qed.
Lemma xle_clamp (lo x hi : ereal) : nleb (Num:=XNum) lo hi = true ->
  nleb (Num:=XNum) lo (clamp1 (N:=XNum) lo x hi) = true /\ nleb (Num:=XNum) (clamp1 (N:=XNum) lo x hi) hi = true.
Proof.
  unfold clamp1, pymin, pymax.
  assert (refl : forall y, y <> NaN -> nleb (Num:=XNum) y y = true).
  { intros [r| | |] H; simpl; unfold xleb; simpl; try reflexivity; [|congruence].
    rewrite orb_true_iff. right. apply Reqb_true. reflexivity. }
  assert (nn : forall a b, nleb (Num:=XNum) a b = true -> a <> NaN /\ b <> NaN).
  { intros a b H. split; intros ->; [|destruct a]; discriminate. }
  assert (lt : forall a b, nltb (Num:=XNum) a b = true -> nleb (Num:=XNum) a b = true).
  { intros a b H. change (xleb a b = true). unfold xleb. change (xltb a b = true) in H. rewrite H. reflexivity. }
  assert (cmp : forall a b, a <> NaN -> b <> NaN -> nltb (Num:=XNum) a b = false -> nleb (Num:=XNum) b a = true).
  { intros a b Ha Hb H. change (xltb a b = false) in H. change (xleb b a = true). unfold xleb. apply orb_true_iff.
    destruct a, b; simpl in *; auto; try congruence. apply Rltb_false in H.
    destruct (Rle_lt_or_eq_dec _ _ H); [left; apply Rltb_true; assumption|right; apply Reqb_true; assumption]. }
  intros H. destruct (nn _ _ H) as [Nl Nh].
  destruct (nltb (Num:=XNum) lo x) eqn:E1.
  - destruct (nltb (Num:=XNum) hi x) eqn:E2; [split; [exact H|apply refl; exact Nh]|].
    assert (x <> NaN). { intros ->. destruct lo; discriminate. }
    split; [apply lt; exact E1|apply cmp; assumption].
  - assert (E2 : nltb (Num:=XNum) hi lo = false).
    { destruct (nltb (Num:=XNum) hi lo) eqn:E; [|reflexivity]. exfalso.
      change (xltb hi lo = true) in E. change (xleb lo hi = true) in H. unfold xleb in H.
      apply orb_true_iff in H as [H|H].
      - pose proof (xltb_irr _ _ E) as Z. change (xltb lo hi = false) in Z. congruence.
      - destruct lo, hi; simpl in *; try discriminate. apply Reqb_true in H. apply Rltb_true in E. lra. }
    rewrite E2. split; [apply refl; exact Nl|exact H].
Qed.
Lemma C27_range_lem (z : vec6 XNum) lo hi : le5 lo hi ->
  le5 lo (slow (elements_safety z lo hi)) /\ le5 (slow (elements_safety z lo hi)) hi.
Proof.
  destruct z, lo, hi. intros (H0 & H1 & H2 & H3 & H4). unfold elements_safety, slow, le5.
  repeat split; apply xle_clamp; assumption.
Qed.

(** Renaming the element set of an object after construction. *)
Lemma C29_refuted_lem : exists o o' : qlaw RNum,
  init (N:=RNum) 1%R 1%R 1%R 1%R 4%R 2%R 1%R 1%R "mee_with_a" "rk4" 100 None None None 10 false None 10%R 5 = Ok o /\
  set_elements_type o "keplerian" = Ok o' /\ q_etype o' = Keplerian /\
  exists oe T w tol, meets Keplerian oe T w tol /\ q_check o' oe T w tol = Ok false.
Proof.
  eexists. eexists.
  assert (E : init (N:=RNum) 1%R 1%R 1%R 1%R 4%R 2%R 1%R 1%R "mee_with_a" "rk4" 100 None None None 10 false None 10%R 5 <> Err AssertionError).
  { unfold init. cbn [nleb RNum nofZ nltb].
    destruct (Rleb_spec 1 10); [|lra]. destruct (Rltb_spec 0 1); [|lra]. discriminate. }
  unfold init in *. cbn [nleb RNum nofZ nltb] in *.
  destruct (Rleb_spec 1 10); [|lra]. destruct (Rltb_spec 0 1); [|lra]. cbn [negb] in *.
  split; [reflexivity|]. split; [reflexivity|]. split; [reflexivity|].
  exists (@mk6 RNum 1%R 0%R 0%R (2 * PI)%R 0%R 0%R), [1%R; 0%R; 0%R; 0%R; 0%R].
  exists (@mk5 RNum 1%R 1%R 1%R 1%R 1%R), (@mk5 RNum 1%R 1%R 1%R 1%R 1%R).
  pose proof PI_RGT_0. pose proof PI2_1. split.
  - exists 1%R, 0%R, 0%R, 0%R, 0%R, []. split; [reflexivity|]. unfold near. cbn.
    assert (Z : forall x, x = 0%R -> Rleb (Rabs x) 1 = true).
    { intros x ->. rewrite Rabs_R0. apply Rleb_true. lra. }
    assert (C : forall x, cos x = 1%R -> Rleb (Rabs (acos (cos x))) 1 = true).
    { intros x ->. rewrite acos_1. apply Z. reflexivity. }
    repeat split; right; try (apply Z; lra).
    + apply C. replace (0 - 2 * PI)%R with (- (2 * PI))%R by lra. rewrite cos_neg. apply cos_2PI.
    + apply C. replace (0 - 0)%R with 0%R by lra. apply cos_0.
  - cbn. unfold check_entry. cbn.
    assert (Z : forall x, Reqb x x = true) by (intros; apply Reqb_true; reflexivity).
    assert (W : Reqb 1 0 = false) by (apply Reqb_false; lra). rewrite W.
    assert (A : Rleb (Rabs (0 - 2 * PI)) 1 = false).
    { apply Rleb_false. replace (0 - 2 * PI)%R with (- (2 * PI))%R by lra. rewrite Rabs_Ropp, Rabs_right; lra. }
    rewrite A. repeat match goal with |- context [Rleb ?a ?b] => destruct (Rleb a b) end; reflexivity.
Qed.
