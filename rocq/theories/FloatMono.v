(** Correct rounding: the value of a sum or difference of doubles is the nearest multiple of the unit in the last place, ties to even;
    rounding is monotone. *)
From Coq Require Import ZArith List Bool Lia Floats.SpecFloat.
From Verif Require Import Num Base Float64 FloatSpec FloatProofs.
Local Open Scope Z_scope.

(** Values in units of 2^-1074. *)
Definition zv (x : spec_float) : Z := match x with S754_finite s m e => cond_Zopp s (Zpos m * 2 ^ (e + 1074)) | _ => 0 end.
Definition unit (V : Z) : Z := Z.max (Zdigits2 V - 53) 0.

Lemma near_scale m V n j : 0 <= n -> 0 <= j -> near m V n -> near m (V * 2 ^ j) (n + j).
Proof.
  intros Hn Hj [A B]. unfold near. rewrite Z.pow_add_r by lia. assert (P := pow2_pos j Hj).
  replace (m * (2 ^ n * 2 ^ j) - V * 2 ^ j) with ((m * 2 ^ n - V) * 2 ^ j) by ring.
  rewrite Z.abs_mul, (Z.abs_eq (2 ^ j)) by lia. split.
  - replace (2 * (Z.abs (m * 2 ^ n - V) * 2 ^ j)) with (2 * Z.abs (m * 2 ^ n - V) * 2 ^ j) by ring. apply Z.mul_le_mono_nonneg_r; lia.
  - intros E. apply B. apply (Z.mul_cancel_r _ _ (2 ^ j)); [lia|]. rewrite <- E. ring.
Qed.
Lemma dig_scale M j : 0 <= j -> Zdigits2 (Zpos M * 2 ^ j) = dig M + j.
Proof.
  intros H. pose proof (digits_pos M) as [D1 D2]. apply digits_unique; [lia|].
  replace (dig M + j - 1) with ((dig M - 1) + j) by lia. rewrite !Z.pow_add_r by lia. assert (P := pow2_pos j H).
  split; [apply Z.mul_le_mono_nonneg_r; lia|apply Z.mul_lt_mono_pos_r; lia].
Qed.
Lemma unit_bounds V : 0 < V -> 0 <= unit V /\ V < 2 ^ (unit V + 53) /\ (0 < unit V -> 2 ^ (unit V + 52) <= V).
Proof.
  intros H. destruct (Zdigits_bounds V H) as [[A B] C]. unfold unit. split; [lia|]. split.
  - eapply Z.lt_le_trans; [exact B|]. apply Z.pow_le_mono_r; lia.
  - intros U. eapply Z.le_trans; [|exact A]. apply Z.pow_le_mono_r; lia.
Qed.

Lemma round_val s M e : -1074 <= e -> let V := Zpos M * 2 ^ (e + 1074) in
  exists m', rounded s (unit V - 1074) m' (binary_round 53 1024 s M e) /\ near m' V (unit V).
Proof.
  intros He V. destruct (round_pos s M e) as (m' & q & R & _ & _ & N). set (k := fexp64 (dig M + e)) in *.
  assert (U : unit V = k + 1074) by (unfold unit, V, k; rewrite dig_scale by lia; rewrite fexp_val; lia).
  assert (-1074 <= k) by (unfold k; rewrite fexp_val; lia).
  exists m'. rewrite U. replace (k + 1074 - 1074) with k by lia. split; [exact R|].
  apply (near_scale _ _ _ (Z.min e k + 1074)) in N; [|lia|lia].
  replace (k - Z.min e k + (Z.min e k + 1074)) with (k + 1074) in N by lia.
  replace (Zpos M * 2 ^ (e - Z.min e k) * 2 ^ (Z.min e k + 1074)) with V in N; [exact N|].
  unfold V. rewrite <- Z.mul_assoc, <- Z.pow_add_r by lia. do 2 f_equal. lia.
Qed.

(** magnitude of the rounded number *)
Lemma near_low m V n : 0 < V -> n = unit V -> near m V n -> 0 <= m /\ (0 < n -> 2 ^ 52 <= m) /\ m <= 2 ^ 53.
Proof.
  intros Hv -> [A B]. destruct (unit_bounds V Hv) as (U & B1 & B2). set (n := unit V) in *. assert (P := pow2_pos n U).
  rewrite Z.pow_add_r in B1 by lia. split; [|split].
  - destruct (Z.le_gt_cases 0 m); [assumption|]. assert (m * 2 ^ n <= -1 * 2 ^ n) by (apply Z.mul_le_mono_nonneg_r; lia). lia.
  - intros K. specialize (B2 K). rewrite Z.pow_add_r in B2 by lia. destruct (Z.le_gt_cases (2 ^ 52) m); [assumption|].
    assert (m * 2 ^ n <= (2 ^ 52 - 1) * 2 ^ n) by (apply Z.mul_le_mono_nonneg_r; lia). lia.
  - destruct (Z.le_gt_cases m (2 ^ 53)); [assumption|].
    assert ((2 ^ 53 + 1) * 2 ^ n <= m * 2 ^ n) by (apply Z.mul_le_mono_nonneg_r; lia). lia.
Qed.
Lemma near_mono m1 V1 m2 V2 : 0 < V1 <= V2 -> near m1 V1 (unit V1) -> near m2 V2 (unit V2) -> m1 * 2 ^ unit V1 <= m2 * 2 ^ unit V2.
Proof.
  intros Hv N1 N2. destruct (unit_bounds V1 ltac:(lia)) as (U1 & A1 & A2). destruct (unit_bounds V2 ltac:(lia)) as (U2 & B1 & B2).
  destruct (near_low m1 V1 _ ltac:(lia) eq_refl N1) as (L1 & L2 & L3). destruct (near_low m2 V2 _ ltac:(lia) eq_refl N2) as (K1 & K2 & K3).
  assert (UU : unit V1 <= unit V2).
  { destruct (Z.le_gt_cases (unit V1) (unit V2)) as [|G]; [assumption|]. exfalso. specialize (A2 ltac:(lia)).
    assert (2 ^ (unit V2 + 53) <= 2 ^ (unit V1 + 52)) by (apply Z.pow_le_mono_r; lia). lia. }
  destruct (Z.eq_dec (unit V1) (unit V2)) as [E|E].
  - rewrite <- E in *. set (n := unit V1) in *. assert (P := pow2_pos n U1). apply Z.mul_le_mono_nonneg_r; [lia|].
    destruct (Z.le_gt_cases m1 m2) as [|G]; [assumption|]. exfalso. destruct N1 as [X1 X2], N2 as [Y1 Y2].
    assert ((m2 + 1) * 2 ^ n <= m1 * 2 ^ n) by (apply Z.mul_le_mono_nonneg_r; lia).
    assert (m1 * 2 ^ n = (m2 + 1) * 2 ^ n) as Em by lia. apply Z.mul_cancel_r in Em; [|lia].
    specialize (X2 ltac:(lia)). specialize (Y2 ltac:(lia)). rewrite Em, Z.even_add, Y2 in X2. discriminate X2.
  - assert (2 ^ (unit V1 + 53) <= 2 ^ (unit V2 + 52)) as W by (apply Z.pow_le_mono_r; lia). rewrite !Z.pow_add_r in W by lia.
    specialize (K2 ltac:(lia)).
    assert (m1 * 2 ^ unit V1 <= 2 ^ 53 * 2 ^ unit V1) by (apply Z.mul_le_mono_nonneg_r; [apply Z.pow_nonneg; lia|lia]).
    assert (2 ^ 52 * 2 ^ unit V2 <= m2 * 2 ^ unit V2) by (apply Z.mul_le_mono_nonneg_r; [apply Z.pow_nonneg; lia|lia]). lia.
Qed.

(** [x] is the correctly rounded value [V]; [rmag s R x]: x has sign s and magnitude R, or R is too large *)
Definition huge : Z := 2 ^ 2098.
Inductive rmag (s : bool) (R : Z) : spec_float -> Prop :=
| rm_fin x : zv x = cond_Zopp s R -> R < huge -> finite64 x -> rmag s R x
| rm_inf : huge <= R -> rmag s R (S754_infinity s).
Inductive rounds : Z -> spec_float -> Prop :=
| ro_zero s : rounds 0 (S754_zero s)
| ro_pos V m x : 0 < V -> near m V (unit V) -> rmag false (m * 2 ^ unit V) x -> rounds V x
| ro_neg V m x : 0 < V -> near m V (unit V) -> rmag true (m * 2 ^ unit V) x -> rounds (- V) x.

Lemma rounded_mag s V m x : 0 < V -> near m V (unit V) -> rounded s (unit V - 1074) m x -> rmag s (m * 2 ^ unit V) x.
Proof.
  intros Hv N R. destruct (near_low _ _ _ Hv eq_refl N) as (L1 & L2 & L3). destruct (unit_bounds V Hv) as (U & _ & _).
  set (n := unit V) in *. assert (P := pow2_pos n U). unfold huge in *. destruct R as [R|p R R1 R2 R3|p R R1 R2 R3|R].
  - apply rm_fin; [rewrite R; destruct s; reflexivity| |exact I]. rewrite R. apply pow2_pos. lia.
  - apply rm_fin; [| |exact I].
    + cbn [zv]. replace (n - 1074 + 1074) with n by lia. rewrite R. reflexivity.
    + unfold huge. replace 2098 with (53 + 2045) by lia. rewrite (Z.pow_add_r 2 53 2045) by lia.
      apply Z.lt_le_trans with (2 ^ 53 * 2 ^ n); [apply Z.mul_lt_mono_pos_r; lia|].
      apply Z.mul_le_mono_nonneg_l; [lia|]. apply Z.pow_le_mono_r; lia.
  - apply rm_fin; [| |exact I].
    + cbn [zv]. replace (n - 1074 + 1 + 1074) with (Z.succ n) by lia. rewrite R, R1, Z.pow_succ_r by lia.
      change (2 ^ 53) with (2 * 2 ^ 52). f_equal. ring.
    + unfold huge. rewrite R, <- Z.pow_add_r by lia. apply Z.pow_lt_mono_r; lia.
  - apply rm_inf. unfold huge. destruct R as [R|[R R']].
    + specialize (L2 ltac:(lia)). apply Z.le_trans with (2 ^ 52 * 2 ^ n); [|apply Z.mul_le_mono_nonneg_r; lia].
      rewrite <- Z.pow_add_r by lia. apply Z.pow_le_mono_r; lia.
    + rewrite R', <- Z.pow_add_r by lia. apply Z.pow_le_mono_r; lia.
Qed.
Lemma norm_rounds S e : -1074 <= e -> rounds (S * 2 ^ (e + 1074)) (binary_normalize 53 1024 S e false).
Proof.
  intros He. assert (P := pow2_pos (e + 1074) ltac:(lia)). destruct S as [|M|M]; cbn [binary_normalize].
  - rewrite Z.mul_0_l. apply ro_zero.
  - destruct (round_val false M e He) as (m' & R & N). assert (0 < Zpos M * 2 ^ (e + 1074)) by (apply Z.mul_pos_pos; lia).
    apply (ro_pos _ m'); [assumption|exact N|]. apply rounded_mag; assumption.
  - destruct (round_val true M e He) as (m' & R & N). assert (0 < Zpos M * 2 ^ (e + 1074)) by (apply Z.mul_pos_pos; lia).
    replace (Zneg M * 2 ^ (e + 1074)) with (- (Zpos M * 2 ^ (e + 1074))) by (rewrite <- Z.mul_opp_l; reflexivity).
    apply (ro_neg _ m'); [assumption|exact N|]. apply rounded_mag; assumption.
Qed.

(** order by value *)
Lemma e_low m e : bounded 53 1024 m e = true -> -1074 <= e.
Proof. intros B. destruct (bounded_facts _ _ B) as (F & _). rewrite fexp_val in F. lia. Qed.
Lemma zv_unit m e : bounded 53 1024 m e = true -> unit (Zpos m * 2 ^ (e + 1074)) = e + 1074.
Proof.
  intros B. pose proof (e_low _ _ B). destruct (bounded_facts _ _ B) as (F & _). rewrite fexp_val in F. unfold unit. rewrite dig_scale by lia. lia.
Qed.
Lemma zv_inj m1 e1 m2 e2 : bounded 53 1024 m1 e1 = true -> bounded 53 1024 m2 e2 = true ->
  Zpos m1 * 2 ^ (e1 + 1074) = Zpos m2 * 2 ^ (e2 + 1074) -> m1 = m2 /\ e1 = e2.
Proof.
  intros B1 B2 E. pose proof (zv_unit _ _ B1) as U1. pose proof (zv_unit _ _ B2) as U2. rewrite E, U2 in U1.
  assert (e1 = e2) by lia. subst e2. pose proof (e_low _ _ B1). apply Z.mul_cancel_r in E; [|pose proof (pow2_pos (e1 + 1074)); lia].
  split; [congruence|reflexivity].
Qed.
Lemma zv_leb x y : valid_binary 53 1024 x = true -> valid_binary 53 1024 y = true -> finite64 x -> finite64 y -> (SFleb x y = true <-> zv x <= zv y).
Proof.
  intros Vx Vy Fx Fy.
  assert (Ps : forall m e, bounded 53 1024 m e = true -> 0 < Zpos m * 2 ^ (e + 1074)).
  { intros m e B. pose proof (e_low _ _ B). apply Z.mul_pos_pos; [lia|apply pow2_pos; lia]. }
  destruct x as [sx|sx| |sx mx ex]; try contradiction; destruct y as [sy|sy| |sy my ey]; try contradiction; cbn [zv] in *.
  - cbn. split; [lia|reflexivity].
  - cbn [valid_binary] in Vy. specialize (Ps _ _ Vy). destruct sy; unfold SFleb; cbn [SFcompare cond_Zopp]; split; intros; try reflexivity; try discriminate; lia.
  - cbn [valid_binary] in Vx. specialize (Ps _ _ Vx). destruct sx; unfold SFleb; cbn [SFcompare cond_Zopp]; split; intros; try reflexivity; try discriminate; lia.
  - cbn [valid_binary] in Vx, Vy. pose proof (e_low _ _ Vx). pose proof (e_low _ _ Vy).
    pose proof (Ps _ _ Vx) as Px. pose proof (Ps _ _ Vy) as Py.
    assert (K : forall s1 m1 e1 s2 m2 e2, bounded 53 1024 m1 e1 = true -> bounded 53 1024 m2 e2 = true ->
      kle (key (S754_finite s1 m1 e1)) (key (S754_finite s2 m2 e2)) -> cond_Zopp s1 (Zpos m1 * 2 ^ (e1 + 1074)) <= cond_Zopp s2 (Zpos m2 * 2 ^ (e2 + 1074))).
    { intros s1 m1 e1 s2 m2 e2 B1 B2 H'. pose proof (key_val s1 m1 e1 s2 m2 e2 (-1074) B1 B2 (e_low _ _ B1) (e_low _ _ B2) H') as X.
      unfold sval in X. replace (e1 - -1074) with (e1 + 1074) in X by lia. replace (e2 - -1074) with (e2 + 1074) in X by lia. exact X. }
    split.
    + intros L. apply leb_key in L as (_ & _ & L). apply K; assumption.
    + intros L. apply leb_key. split; [discriminate|]. split; [discriminate|].
      destruct (kle_dec (key (S754_finite sx mx ex)) (key (S754_finite sy my ey))) as [D|D]; [exact D|].
      pose proof (K _ _ _ _ _ _ Vy Vx (kle_total _ _ D)) as G.
      assert (E : cond_Zopp sx (Zpos mx * 2 ^ (ex + 1074)) = cond_Zopp sy (Zpos my * 2 ^ (ey + 1074))) by lia.
      assert (sx = sy /\ mx = my /\ ex = ey) as (-> & -> & ->).
      { destruct sx, sy; cbn [cond_Zopp] in E; try lia; (split; [reflexivity|]); apply zv_inj; try assumption; lia. }
      apply kle_refl.
Qed.

Lemma rounds_num V x : rounds V x -> num64 x.
Proof.
  unfold num64. intros [s|W m y Hw N [z E1 E2 E3|E]|W m y Hw N [z E1 E2 E3|E]]; try discriminate; destruct z; try contradiction; discriminate.
Qed.
Lemma rounds_mono V1 V2 x y : V1 <= V2 -> valid_binary 53 1024 x = true -> valid_binary 53 1024 y = true -> rounds V1 x -> rounds V2 y -> SFleb x y = true.
Proof.
  intros Hv Vx Vy R1 R2.
  assert (PS : forall V m, 0 < V -> near m V (unit V) -> 0 <= m * 2 ^ unit V).
  { intros V m HV N. destruct (near_low m V _ HV eq_refl N) as (A & _). destruct (unit_bounds V HV) as (B & _). apply Z.mul_nonneg_nonneg; [lia|apply Z.pow_nonneg; lia]. }
  assert (Z0 : forall s, valid_binary 53 1024 (S754_zero s) = true) by reflexivity.
  destruct R1 as [s1|W1 m1 x1 P1 N1 M1|W1 m1 x1 P1 N1 M1]; destruct R2 as [s2|W2 m2 x2 P2 N2 M2|W2 m2 x2 P2 N2 M2]; try lia; try reflexivity.
  - pose proof (PS _ _ P2 N2). destruct M2 as [y E1 E2 E3|E]; [|destruct s1; reflexivity]. apply zv_leb; try assumption; [exact I|]. rewrite E1. cbn. lia.
  - pose proof (near_mono m1 W1 m2 W2 ltac:(lia) N1 N2) as G.
    destruct M1 as [x E1 E2 E3|E]; destruct M2 as [y F1 F2 F3|F]; [|destruct x; try contradiction; try reflexivity; destruct s; reflexivity|lia|reflexivity].
    apply zv_leb; try assumption. rewrite E1, F1. cbn. lia.
  - pose proof (PS _ _ P1 N1). destruct M1 as [y E1 E2 E3|E]; [|reflexivity]. apply zv_leb; try assumption; [exact I|]. rewrite E1. cbn. lia.
  - pose proof (PS _ _ P1 N1). pose proof (PS _ _ P2 N2).
    destruct M1 as [x E1 E2 E3|E]; destruct M2 as [y F1 F2 F3|F]; [|destruct x; try contradiction; try reflexivity; destruct s; reflexivity| |reflexivity].
    + apply zv_leb; try assumption. rewrite E1, F1. cbn. lia.
    + destruct y; try contradiction; try reflexivity; destruct s; reflexivity.
  - pose proof (near_mono m2 W2 m1 W1 ltac:(lia) N2 N1) as G.
    destruct M1 as [x E1 E2 E3|E]; destruct M2 as [y F1 F2 F3|F]; [|lia| |reflexivity].
    + apply zv_leb; try assumption. rewrite E1, F1. cbn. lia.
    + destruct y; try contradiction; try reflexivity; destruct s; reflexivity.
Qed.

(** the operations *)
Lemma rounds_self x : valid_binary 53 1024 x = true -> finite64 x -> rounds (zv x) x.
Proof.
  intros V F. destruct x as [s|s| |s m e]; try contradiction; cbn [zv]; [apply ro_zero|]. cbn [valid_binary] in V.
  pose proof (e_low _ _ V). assert (P := pow2_pos (e + 1074) ltac:(lia)). pose proof (zv_unit _ _ V) as U.
  assert (0 < Zpos m * 2 ^ (e + 1074)) by (apply Z.mul_pos_pos; lia).
  assert (N : near (Zpos m) (Zpos m * 2 ^ (e + 1074)) (e + 1074)) by (unfold near; rewrite Z.sub_diag; cbn; lia).
  assert (Hg : Zpos m * 2 ^ (e + 1074) < huge).
  { destruct (bounded_facts _ _ V) as (_ & L & M1 & _). unfold huge. replace 2098 with (53 + 2045) by lia. rewrite (Z.pow_add_r 2 53 2045) by lia.
    apply Z.lt_le_trans with (2 ^ 53 * 2 ^ (e + 1074)); [apply Z.mul_lt_mono_pos_r; lia|].
    apply Z.mul_le_mono_nonneg_l; [lia|]. apply Z.pow_le_mono_r; lia. }
  destruct s; cbn [cond_Zopp].
  - apply (ro_neg _ (Zpos m)); [assumption|rewrite U; exact N|]. rewrite U. apply rm_fin; [reflexivity|exact Hg|exact I].
  - apply (ro_pos _ (Zpos m)); [assumption|rewrite U; exact N|]. rewrite U. apply rm_fin; [reflexivity|exact Hg|exact I].
Qed.
Lemma zv_opp x : zv (SFopp x) = - zv x.
Proof. destruct x as [s|s| |[|] m e]; cbn; lia. Qed.
Lemma add_rounds x y : valid_binary 53 1024 x = true -> valid_binary 53 1024 y = true -> finite64 x -> finite64 y -> rounds (zv x + zv y) (SFadd 53 1024 x y).
Proof.
  intros Vx Vy Fx Fy. destruct x as [sx|sx| |sx mx ex]; try contradiction; destruct y as [sy|sy| |sy my ey]; try contradiction.
  - cbn. destruct (Bool.eqb sx sy); apply ro_zero.
  - cbn [SFadd]. change (zv (S754_zero sx)) with 0. rewrite Z.add_0_l. apply rounds_self; [exact Vy|exact I].
  - cbn [SFadd]. change (zv (S754_zero sy)) with 0. rewrite Z.add_0_r. apply rounds_self; [exact Vx|exact I].
  - cbn [SFadd zv]. cbn [valid_binary] in Vx, Vy. pose proof (e_low _ _ Vx). pose proof (e_low _ _ Vy). destruct (add_align mx ex my ey) as [A1 A2].
    rewrite A1, A2. set (ez := Z.min ex ey).
    match goal with |- rounds ?V (binary_normalize _ _ ?S _ _) => replace V with (S * 2 ^ (ez + 1074)); [apply norm_rounds; lia|] end.
    replace (ex + 1074) with (ex - ez + (ez + 1074)) by lia. replace (ey + 1074) with (ey - ez + (ez + 1074)) by lia.
    rewrite !(Z.pow_add_r 2 (_ - _)) by lia. destruct sx, sy; cbn [cond_Zopp]; ring.
Qed.
Lemma sub_rounds x y : valid_binary 53 1024 x = true -> valid_binary 53 1024 y = true -> finite64 x -> finite64 y -> rounds (zv x - zv y) (SFsub 53 1024 x y).
Proof.
  intros Vx Vy Fx Fy. destruct x as [sx|sx| |sx mx ex]; try contradiction; destruct y as [sy|sy| |sy my ey]; try contradiction.
  - cbn. destruct (Bool.eqb sx (negb sy)); apply ro_zero.
  - cbn [SFsub]. change (zv (S754_zero sx)) with 0. replace (0 - zv (S754_finite sy my ey)) with (zv (S754_finite (negb sy) my ey)) by (destruct sy; cbn; lia).
    apply rounds_self; [exact Vy|exact I].
  - cbn [SFsub]. change (zv (S754_zero sy)) with 0. rewrite Z.sub_0_r. apply rounds_self; [exact Vx|exact I].
  - cbn [SFsub zv]. cbn [valid_binary] in Vx, Vy. pose proof (e_low _ _ Vx). pose proof (e_low _ _ Vy). destruct (add_align mx ex my ey) as [A1 A2].
    rewrite A1, A2. set (ez := Z.min ex ey).
    match goal with |- rounds ?V (binary_normalize _ _ ?S _ _) => replace V with (S * 2 ^ (ez + 1074)); [apply norm_rounds; lia|] end.
    replace (ex + 1074) with (ex - ez + (ez + 1074)) by lia. replace (ey + 1074) with (ey - ez + (ez + 1074)) by lia.
    rewrite !(Z.pow_add_r 2 (_ - _)) by lia. destruct sx, sy; cbn [cond_Zopp]; ring.
Qed.
