(** Trigonometry over the reals: atan2, angles on the circle, sums of two squares. *)
From Coq Require Import Reals Lra Lia ZArith Bool Psatz.
From Verif Require Import RMath.
Local Open Scope R_scope.

Lemma sincos x : sin x * sin x + cos x * cos x = 1.
Proof. pose proof (sin2_cos2 x) as H. unfold Rsqr in H. exact H. Qed.

Lemma sqrt_pos_of x y : 0 <= y -> x = y * y -> sqrt x = y.
Proof. intros H ->. apply sqrt_square. exact H. Qed.

Lemma sum_sq_pos x y : x <> 0 \/ y <> 0 -> 0 < x * x + y * y.
Proof. intros [H|H]; nra. Qed.
Lemma sum_sq_0 x y : x * x + y * y = 0 -> x = 0 /\ y = 0.
Proof. intros H. split; nra. Qed.

Lemma cos_mPI x : cos (x - PI) = - cos x.
Proof. pose proof (neg_cos (x - PI)) as H. replace (x - PI + PI) with x in H by ring. lra. Qed.
Lemma sin_mPI x : sin (x - PI) = - sin x.
Proof. pose proof (neg_sin (x - PI)) as H. replace (x - PI + PI) with x in H by ring. lra. Qed.

(** atan2 gives the polar angle. *)
Lemma atan2_polar y x r : 0 < r -> x * x + y * y = r * r ->
  cos (Ratan2 y x) = x / r /\ sin (Ratan2 y x) = y / r.
Proof.
  intros Hr Hxy. unfold Ratan2.
  assert (Hc : forall s, x <> 0 -> 0 < s -> s * s = x * x -> sqrt (1 + (y / x)²) = r / s).
  { intros s Hx Hs E. apply sqrt_pos_of; [apply Rlt_le, Rdiv_lt_0_compat; assumption|].
    unfold Rsqr. apply (Rmult_eq_reg_r (x * x * (s * s))); [|apply Rgt_not_eq; assert (0 < s * s) by nra; rewrite <- E; nra].
    replace ((1 + y / x * (y / x)) * (x * x * (s * s))) with ((x * x + y * y) * (s * s)) by (field; assumption).
    rewrite Hxy. replace (r / s * (r / s) * (x * x * (s * s))) with (r * r * (x * x)) by (field; lra).
    rewrite E. reflexivity. }
  destruct (Rltb_spec 0 x) as [H1|H1].
  - rewrite cos_atan, sin_atan, (Hc x) by lra. split; field; lra.
  - destruct (Rltb_spec x 0) as [H2|H2].
    + assert (E : sqrt (1 + (y / x)²) = r / (- x)) by (apply Hc; lra).
      destruct (Rltb_spec y 0).
      * rewrite cos_mPI, sin_mPI, cos_atan, sin_atan, E. split; field; lra.
      * rewrite neg_cos, neg_sin, cos_atan, sin_atan, E. split; field; lra.
    + assert (x = 0) by lra. subst x.
      destruct (Rltb_spec 0 y).
      * rewrite cos_PI2, sin_PI2. assert (y = r) by nra. subst y. split; field; lra.
      * destruct (Rltb_spec y 0).
        -- rewrite cos_neg, sin_neg, cos_PI2, sin_PI2. assert (y = - r) by nra. subst y. split; field; lra.
        -- exfalso. assert (y = 0) by lra. subst y. nra.
Qed.

Lemma atan2_range y x : - PI < Ratan2 y x <= PI.
Proof.
  pose proof PI_RGT_0. unfold Ratan2. pose proof (atan_bound (y / x)) as A.
  destruct (Rltb_spec 0 x); [lra|]. destruct (Rltb_spec x 0).
  - destruct (Rltb_spec y 0).
    + assert (0 < y / x). { replace (y / x) with (- y / - x) by (field; lra). apply Rdiv_lt_0_compat; lra. }
      assert (atan 0 < atan (y / x)) by (apply atan_increasing; assumption). rewrite atan_0 in *. lra.
    + assert (y / x <= 0).
      { replace (y / x) with (- (y / - x)) by (field; lra).
        assert (0 <= y / - x); [|lra]. apply Rmult_le_pos; [lra|]. apply Rlt_le, Rinv_0_lt_compat. lra. }
      assert (atan (y / x) <= atan 0).
      { destruct (Rle_lt_or_eq_dec _ _ H0) as [Hl| ->]; [apply Rlt_le, atan_increasing, Hl|lra]. }
      rewrite atan_0 in *. lra.
  - destruct (Rltb_spec 0 y); [lra|]. destruct (Rltb_spec y 0); lra.
Qed.

(** Two angles denote the same direction. *)
Definition same_angle (a b : R) : Prop := exists k : Z, a = b + 2 * PI * IZR k.

Lemma cos_2kPI x (k : Z) : cos (x + 2 * PI * IZR k) = cos x.
Proof.
  destruct (Z_le_gt_dec 0 k).
  - rewrite <- (Z2Nat.id k) by assumption. rewrite <- INR_IZR_INZ.
    replace (2 * PI * INR (Z.to_nat k)) with (2 * INR (Z.to_nat k) * PI) by ring. apply cos_period.
  - replace k with (- (Z.of_nat (Z.to_nat (- k))))%Z by (rewrite Z2Nat.id; lia).
    rewrite opp_IZR, <- INR_IZR_INZ. set (n := Z.to_nat (- k)).
    rewrite <- (cos_period (x + 2 * PI * - INR n) n). f_equal. ring.
Qed.
Lemma sin_2kPI x (k : Z) : sin (x + 2 * PI * IZR k) = sin x.
Proof.
  destruct (Z_le_gt_dec 0 k).
  - rewrite <- (Z2Nat.id k) by assumption. rewrite <- INR_IZR_INZ.
    replace (2 * PI * INR (Z.to_nat k)) with (2 * INR (Z.to_nat k) * PI) by ring. apply sin_period.
  - replace k with (- (Z.of_nat (Z.to_nat (- k))))%Z by (rewrite Z2Nat.id; lia).
    rewrite opp_IZR, <- INR_IZR_INZ. set (n := Z.to_nat (- k)).
    rewrite <- (sin_period (x + 2 * PI * - INR n) n). f_equal. ring.
Qed.

Lemma cos_sin_0 a : cos a = 1 -> exists k : Z, a = 2 * PI * IZR k.
Proof.
  intros H. assert (S : sin (a / 2) = 0).
  { replace a with (2 * (a / 2)) in H by field. rewrite cos_2a in H. pose proof (sincos (a / 2)). nra. }
  destruct (sin_eq_0_0 _ S) as [k Hk]. exists k. lra.
Qed.

Lemma same_angle_iff a b : same_angle a b <-> cos a = cos b /\ sin a = sin b.
Proof.
  split.
  - intros [k ->]. rewrite cos_2kPI, sin_2kPI. auto.
  - intros [C S]. assert (H : cos (a - b) = 1).
    { rewrite cos_minus, C, S. pose proof (sincos b). lra. }
    apply cos_sin_0 in H as [k Hk]. exists k. lra.
Qed.
Lemma same_angle_refl a : same_angle a a.
Proof. exists 0%Z. ring. Qed.
Lemma same_angle_sym a b : same_angle a b -> same_angle b a.
Proof. rewrite !same_angle_iff. intuition. Qed.
Lemma same_angle_trans a b c : same_angle a b -> same_angle b c -> same_angle a c.
Proof. intros [k ->] [l ->]. exists (k + l)%Z. rewrite plus_IZR. ring. Qed.
Lemma same_angle_add a b c d : same_angle a b -> same_angle c d -> same_angle (a + c) (b + d).
Proof. intros [k ->] [l ->]. exists (k + l)%Z. rewrite plus_IZR. ring. Qed.
Lemma same_angle_opp a b : same_angle a b -> same_angle (- a) (- b).
Proof. intros [k ->]. exists (- k)%Z. rewrite opp_IZR. ring. Qed.
Lemma same_angle_sub a b c d : same_angle a b -> same_angle c d -> same_angle (a - c) (b - d).
Proof. intros H1 H2. apply (same_angle_add a b (- c) (- d) H1 (same_angle_opp _ _ H2)). Qed.

Lemma same_angle_eq a b : same_angle a b -> Rabs (a - b) < 2 * PI -> a = b.
Proof.
  intros [k ->] H. pose proof PI_RGT_0.
  destruct (Z.eq_dec k 0) as [->|Hk]; [ring|]. exfalso.
  replace (b + 2 * PI * IZR k - b) with (2 * PI * IZR k) in H by ring.
  rewrite Rabs_mult, (Rabs_right (2 * PI)) in H by lra.
  assert (1 <= Rabs (IZR k)).
  { rewrite <- abs_IZR. apply IZR_le. lia. }
  nra.
Qed.

(** atan2 of a polar form. *)
Lemma atan2_angle r t : 0 < r -> same_angle (Ratan2 (r * sin t) (r * cos t)) t.
Proof.
  intros Hr. apply same_angle_iff.
  destruct (atan2_polar (r * sin t) (r * cos t) r Hr) as [-> ->].
  - pose proof (sincos t). nra.
  - split; field; lra.
Qed.
Lemma atan2_angle_eq r t : 0 < r -> - PI < t <= PI -> Ratan2 (r * sin t) (r * cos t) = t.
Proof.
  intros Hr Ht. apply same_angle_eq; [apply atan2_angle; exact Hr|].
  pose proof (atan2_range (r * sin t) (r * cos t)). apply Rabs_def1; lra.
Qed.
(** Positive scaling and opposite. *)
Lemma atan2_scale k y x : 0 < k -> same_angle (Ratan2 (k * y) (k * x)) (Ratan2 y x).
Proof.
  intros Hk. destruct (Req_dec (x * x + y * y) 0) as [E|E].
  - apply sum_sq_0 in E as [-> ->]. rewrite !Rmult_0_r. apply same_angle_refl.
  - assert (H : 0 < x * x + y * y) by nra. set (r := sqrt (x * x + y * y)).
    assert (Hr : 0 < r) by (apply sqrt_lt_R0; exact H).
    assert (E2 : x * x + y * y = r * r) by (unfold r; rewrite sqrt_sqrt; lra).
    apply same_angle_iff.
    destruct (atan2_polar y x r Hr E2) as [-> ->].
    destruct (atan2_polar (k * y) (k * x) (k * r)) as [-> ->]; [nra|nra|].
    split; field; lra.
Qed.

(** acos and asin ranges *)
Lemma acos_unique c t : 0 <= t <= PI -> cos t = c -> acos c = t.
Proof. intros H <-. apply acos_cos. exact H. Qed.

(** tan of half angles *)
Lemma half_tan i : cos (i / 2) <> 0 -> tan (i / 2) * (1 + cos i) = sin i.
Proof.
  intros H. unfold tan. set (h := i / 2) in *. replace i with (2 * h) by (unfold h; field).
  rewrite cos_2a_cos, sin_2a. field. exact H.
Qed.
