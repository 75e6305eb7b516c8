(** Convergence tests, relaxed tolerance and element clamping over the reals. *)
From Coq Require Import Reals Lra Lia ZArith List Bool Psatz.
From Verif Require Import RMath RLib Num Base Elements Convergence Eom Lyapunov Perturb Qlaw Spec StateProofs RSpec.
Import ListNotations.
Local Open Scope R_scope.

(** arccos(cos d) is the distance of d to the multiples of 2 pi. *)
Lemma acos_cos_dist d t : Rabs (acos (cos d)) <= t <-> exists k : Z, Rabs (d - 2 * PI * IZR k) <= t.
Proof.
  pose proof PI_RGT_0 as HP. pose proof (acos_bound (cos d)) as B.
  rewrite Rabs_right by lra. split.
  - intros H.
    assert (C : cos (acos (cos d)) = cos d) by (apply cos_acos, COS_bound).
    assert (S : sin d = sin (acos (cos d)) \/ sin d = - sin (acos (cos d))).
    { pose proof (sincos d). pose proof (sincos (acos (cos d))). rewrite C in *.
      assert ((sin d - sin (acos (cos d))) * (sin d + sin (acos (cos d))) = 0) by nra.
      apply Rmult_integral in H2 as [|]; [left|right]; lra. }
    destruct S as [S|S].
    + destruct (proj2 (same_angle_iff d (acos (cos d)))) as [k Hk]; [auto|]. exists k.
      replace (d - 2 * PI * IZR k) with (acos (cos d)) by lra. rewrite Rabs_right; lra.
    + destruct (proj2 (same_angle_iff d (- acos (cos d)))) as [k Hk]; [rewrite cos_neg, sin_neg; auto|]. exists k.
      replace (d - 2 * PI * IZR k) with (- acos (cos d)) by lra. rewrite Rabs_Ropp, Rabs_right; lra.
  - intros [k Hk]. set (x := d - 2 * PI * IZR k) in *.
    assert (E : cos d = cos (Rabs x)).
    { replace (cos (Rabs x)) with (cos x) by (unfold Rabs; destruct (Rcase_abs x); [symmetry; apply cos_neg|reflexivity]).
      unfold x. replace (d - 2 * PI * IZR k) with (d + 2 * PI * IZR (- k)) by (rewrite opp_IZR; ring). symmetry. apply cos_2kPI. }
    destruct (Rle_or_lt (Rabs x) PI) as [K|K]; [|lra].
    rewrite E, acos_cos; [exact Hk|]. split; [apply Rabs_pos|exact K].
Qed.

Lemma near_within (w tol gap : R) : near (N:=RNum) w tol (Rabs gap) <-> within w gap tol.
Proof. unfold near, within. cbn. rewrite Reqb_true, Rleb_true. tauto. Qed.
Lemma near_angle (w tol gap : R) : near (N:=RNum) w tol (Rabs (acos (cos gap))) <-> within_angle w gap tol.
Proof. unfold near, within_angle. cbn. rewrite Reqb_true, Rleb_true, acos_cos_dist. tauto. Qed.

Lemma check_bool et (oe : vec6 RNum) T0 T1 T2 T3 T4 rest w tol :
  exists b, check_of et oe (T0 :: T1 :: T2 :: T3 :: T4 :: rest) w tol = Ok b.
Proof. destruct oe, et; eexists; reflexivity. Qed.
Lemma near5 (et : etype) (o0 o1 o2 o3 o4 o5 T0 T1 T2 T3 T4 : R) rest (w0 w1 w2 w3 w4 t0 t1 t2 t3 t4 : R) :
  meets (N:=RNum) et (elems o0 o1 o2 o3 o4 o5) (T0 :: T1 :: T2 :: T3 :: T4 :: rest) (@mk5 RNum w0 w1 w2 w3 w4) (@mk5 RNum t0 t1 t2 t3 t4) <->
  within w0 (T0 - o0) t0 /\ within w1 (T1 - o1) t1 /\ within w2 (T2 - o2) t2 /\
  match et with
  | Keplerian => within_angle w3 (T3 - o3) t3 /\ within_angle w4 (T4 - o4) t4
  | MeeWithA => within w3 (T3 - o3) t3 /\ within w4 (T4 - o4) t4
  end.
Proof.
  destruct et; rewrite <- !near_within, <- ?near_angle; split.
  all: swap 2 3.
  1,2: intros (A0&A1&A2&A3&A4&r&X&H); injection X as <- <- <- <- <- <-; exact H.
  all: intros H; exists T0, T1, T2, T3, T4, rest; split; [reflexivity|exact H].
Qed.
Lemma C54_lem (et : etype) (o0 o1 o2 o3 o4 o5 T0 T1 T2 T3 T4 : R) rest (w0 w1 w2 w3 w4 t0 t1 t2 t3 t4 : R) :
  exists b, check_of (N:=RNum) et (elems o0 o1 o2 o3 o4 o5) (T0 :: T1 :: T2 :: T3 :: T4 :: rest)
              (@mk5 RNum w0 w1 w2 w3 w4) (@mk5 RNum t0 t1 t2 t3 t4) = Ok b /\
  (b = true <-> within w0 (T0 - o0) t0 /\ within w1 (T1 - o1) t1 /\ within w2 (T2 - o2) t2 /\
  match et with
  | Keplerian => within_angle w3 (T3 - o3) t3 /\ within_angle w4 (T4 - o4) t4
  | MeeWithA => within w3 (T3 - o3) t3 /\ within w4 (T4 - o4) t4
  end).
Proof.
  destruct (check_bool et (elems o0 o1 o2 o3 o4 o5) T0 T1 T2 T3 T4 rest (@mk5 RNum w0 w1 w2 w3 w4) (@mk5 RNum t0 t1 t2 t3 t4)) as [b Hb].
  exists b. split; [exact Hb|]. rewrite <- (near5 et o0 o1 o2 o3 o4 o5 T0 T1 T2 T3 T4 rest), <- check_meets.
  split; [intros ->; exact Hb|intros X]. assert (Y : Ok b = Ok true) by (rewrite <- Hb; exact X). congruence.
Qed.

Lemma within_relax w g t rf : 0 <= t -> 1 <= rf -> within w g t -> within w g (rf * t).
Proof. intros Ht Hr [H|H]; [left; exact H|right; nra]. Qed.
Lemma within_angle_relax w g t rf : 0 <= t -> 1 <= rf -> within_angle w g t -> within_angle w g (rf * t).
Proof. intros Ht Hr [H|[k H]]; [left; exact H|right; exists k; nra]. Qed.

Lemma C55_lem mu rpmin k m n r b wp et ig grid tol omin omax thr sun ptrb (rf : R) ear (o : qlaw RNum) p oe :
  init (N:=RNum) mu rpmin k m n r b wp et ig grid tol omin omax thr sun ptrb rf ear = Ok o ->
  le5 (N:=RNum) (@mk5 RNum 0 0 0 0 0) (q_tol o) -> 1 <= rf ->
  q_check o oe (p_oeT p) (p_woe p) (q_tol o) = Ok true ->
  q_check o oe (p_oeT p) (p_woe p) (q_tol_relaxed o) = Ok true.
Proof.
  intros I L Hr H. pose proof (init_relaxed _ _ _ _ _ _ _ _ _ _ _ _ _ _ _ _ _ _ _ _ I) as (_ & _ & R).
  apply init_built in I as (e & _ & B & _).
  apply R. assert (E : q_etype o = e) by apply B. rewrite E. clear R.
  apply (strict_meets e o p oe B) in H.
  destruct oe as [o0 o1 o2 o3 o4 o5]. destruct (p_woe p) as [w0 w1 w2 w3 w4] eqn:W. destruct (q_tol o) as [t0 t1 t2 t3 t4].
  destruct H as (T0&T1&T2&T3&T4&rest&ET&H). rewrite ET.
  destruct L as (L0&L1&L2&L3&L4). cbn in L0, L1, L2, L3, L4. rewrite Rleb_true in *.
  change (v5scal (N:=RNum) rf (@mk5 RNum t0 t1 t2 t3 t4)) with (@mk5 RNum (rf * t0) (rf * t1) (rf * t2) (rf * t3) (rf * t4)).
  apply (near5 e o0 o1 o2 o3 o4 o5 T0 T1 T2 T3 T4 rest w0 w1 w2 w3 w4).
  assert (M : meets (N:=RNum) e (elems o0 o1 o2 o3 o4 o5) (T0 :: T1 :: T2 :: T3 :: T4 :: rest) (@mk5 RNum w0 w1 w2 w3 w4) (@mk5 RNum t0 t1 t2 t3 t4)).
  { exists T0, T1, T2, T3, T4, rest. split; [reflexivity|exact H]. }
  apply near5 in M. clear H. destruct M as (M0&M1&M2&M3).
  split; [apply within_relax; assumption|]. split; [apply within_relax; assumption|]. split; [apply within_relax; assumption|].
  destruct e; destruct M3; split; (apply within_relax || apply within_angle_relax); assumption.
Qed.

Lemma clamp1R (lo x hi : R) : clamp1 (N:=RNum) lo x hi = Rmin (Rmax lo x) hi.
Proof.
  unfold clamp1, pymin, pymax. cbn.
  destruct (Rltb_spec lo x).
  - rewrite Rmax_right by lra. destruct (Rltb_spec hi x); [rewrite Rmin_right|rewrite Rmin_left]; lra.
  - rewrite Rmax_left by lra. destruct (Rltb_spec hi lo); [rewrite Rmin_right|rewrite Rmin_left]; lra.
Qed.
Lemma clamp_closest (lo x hi : R) : lo <= hi -> closest lo hi x (clamp1 (N:=RNum) lo x hi).
Proof.
  intros H. rewrite clamp1R. unfold closest. unfold Rmin, Rmax.
  destruct (Rle_dec lo x); destruct (Rle_dec _ hi); split; try lra; intros y Hy;
    unfold Rabs; repeat destruct (Rcase_abs _); lra.
Qed.
Lemma clamp_id (lo x hi : R) : lo <= x <= hi -> clamp1 (N:=RNum) lo x hi = x.
Proof. intros H. rewrite clamp1R, Rmax_right, Rmin_left by lra. reflexivity. Qed.
Lemma closest_unique lo hi x c c' : closest lo hi x c -> closest lo hi x c' -> c = c'.
Proof.
  intros [A B] [A' B']. assert (M : lo <= (c + c') / 2 <= hi) by lra. specialize (B _ M). specialize (B' _ M).
  unfold Rabs in *. repeat destruct (Rcase_abs _); lra.
Qed.

Lemma C56_lem (o0 o1 o2 o3 o4 o5 l0 l1 l2 l3 l4 h0 h1 h2 h3 h4 : R) :
  l0 <= h0 -> l1 <= h1 -> l2 <= h2 -> l3 <= h3 -> l4 <= h4 ->
  let lo := @mk5 RNum l0 l1 l2 l3 l4 in let hi := @mk5 RNum h0 h1 h2 h3 h4 in
  exists c0 c1 c2 c3 c4, elements_safety (N:=RNum) (elems o0 o1 o2 o3 o4 o5) lo hi = elems c0 c1 c2 c3 c4 o5 /\
    closest l0 h0 o0 c0 /\ closest l1 h1 o1 c1 /\ closest l2 h2 o2 c2 /\ closest l3 h3 o3 c3 /\ closest l4 h4 o4 c4 /\
    elements_safety (N:=RNum) (elems c0 c1 c2 c3 c4 o5) lo hi = elems c0 c1 c2 c3 c4 o5 /\
    (l0 <= o0 <= h0 -> l1 <= o1 <= h1 -> l2 <= o2 <= h2 -> l3 <= o3 <= h3 -> l4 <= o4 <= h4 ->
     elements_safety (N:=RNum) (elems o0 o1 o2 o3 o4 o5) lo hi = elems o0 o1 o2 o3 o4 o5).
Proof.
  intros H0 H1 H2 H3 H4 lo hi. do 5 eexists. split; [reflexivity|].
  pose proof (clamp_closest l0 o0 h0 H0) as C0. pose proof (clamp_closest l1 o1 h1 H1) as C1.
  pose proof (clamp_closest l2 o2 h2 H2) as C2. pose proof (clamp_closest l3 o3 h3 H3) as C3.
  pose proof (clamp_closest l4 o4 h4 H4) as C4.
  repeat (split; [assumption|]).
  split; intros; unfold lo, hi, elements_safety, elems; f_equal; apply clamp_id; try assumption;
    [apply C0|apply C1|apply C2|apply C3|apply C4].
Qed.
