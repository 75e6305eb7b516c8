(** Facts about rounding in binary64: results fit the format, and sums, differences, products and quotients respect the order
    as far as the theorems about runs need. *)
From Coq Require Import ZArith Bool Lia Floats.SpecFloat.
From Verif Require Import Num Float64.
Local Open Scope Z_scope.

Notation fexp64 := (fexp 53 1024).
Notation dig p := (Zpos (digits2_pos p)) (only parsing).
Lemma fexp_val e : fexp64 e = Z.max (e - 53) (-1074).
Proof. reflexivity. Qed.

Lemma digits_pos p : 2 ^ (dig p - 1) <= Zpos p < 2 ^ dig p.
Proof.
  induction p as [p IH|p IH|]; cbn [digits2_pos].
  - rewrite Pos2Z.inj_succ. replace (Z.succ (dig p) - 1) with (Z.succ (dig p - 1)) by lia.
    rewrite !Z.pow_succ_r by lia. rewrite (Pos2Z.inj_xI p). lia.
  - rewrite Pos2Z.inj_succ. replace (Z.succ (dig p) - 1) with (Z.succ (dig p - 1)) by lia.
    rewrite !Z.pow_succ_r by lia. rewrite (Pos2Z.inj_xO p). lia.
  - cbn. lia.
Qed.
Lemma digits_unique m d : 1 <= d -> 2 ^ (d - 1) <= m < 2 ^ d -> Zdigits2 m = d.
Proof.
  intros Hd H. destruct m as [|p|p].
  - assert (0 < 2 ^ (d - 1)) by (apply Z.pow_pos_nonneg; lia). lia.
  - cbn [Zdigits2]. pose proof (digits_pos p) as [A B]. destruct (Z.lt_trichotomy (dig p) d) as [L|[L|L]]; [|exact L|]; exfalso.
    + assert (2 ^ dig p <= 2 ^ (d - 1)) by (apply Z.pow_le_mono_r; lia). lia.
    + assert (2 ^ d <= 2 ^ (dig p - 1)) by (apply Z.pow_le_mono_r; lia). lia.
  - assert (0 < 2 ^ (d - 1)) by (apply Z.pow_pos_nonneg; lia). lia.
Qed.
Lemma Zdigits_bounds m : 0 < m -> 2 ^ (Zdigits2 m - 1) <= m < 2 ^ Zdigits2 m /\ 1 <= Zdigits2 m.
Proof. intros H. destruct m as [|p|p]; try lia. cbn [Zdigits2]. split; [apply digits_pos|lia]. Qed.

(** shifting right *)
Fixpoint rep {A} (n : nat) (f : A -> A) (x : A) : A := match n with O => x | S n => f (rep n f x) end.
Lemma rep_add {A} (f : A -> A) n k x : rep (n + k) f x = rep n f (rep k f x).
Proof. induction n as [|n IH]; [reflexivity|]. cbn. rewrite IH. reflexivity. Qed.
Lemma rep_succ_r {A} (f : A -> A) n x : rep (S n) f x = rep n f (f x).
Proof. replace (S n) with (n + 1)%nat by lia. apply rep_add. Qed.
Lemma iter_pos_nat {A} (f : A -> A) n x : iter_pos f n x = rep (Pos.to_nat n) f x.
Proof.
  revert x. induction n as [n IH|n IH|]; intros x; cbn [iter_pos].
  - rewrite !IH, <- rep_add. replace (Pos.to_nat (xI n)) with (S (Pos.to_nat n + Pos.to_nat n)) by lia.
    rewrite rep_succ_r. reflexivity.
  - rewrite !IH, <- rep_add. f_equal. lia.
  - reflexivity.
Qed.
Lemma shr_1_m m r s : 0 <= m -> shr_m (shr_1 (Build_shr_record m r s)) = m / 2.
Proof.
  intros H. destruct m as [|[p|p|]|p]; try lia; cbn [shr_1 shr_m]; try reflexivity.
  - rewrite (Pos2Z.inj_xI p). apply (Z.div_unique _ _ _ 1); lia.
  - rewrite (Pos2Z.inj_xO p). apply (Z.div_unique _ _ _ 0); lia.
Qed.
Lemma shr_1_exact m : 0 <= m -> shr_1 (Build_shr_record (2 * m) false false) = Build_shr_record m false false.
Proof. intros H. destruct m as [|p|p]; try lia; reflexivity. Qed.
Lemma shr_iter_m n m r s : 0 <= m -> shr_m (rep n shr_1 (Build_shr_record m r s)) = m / 2 ^ Z.of_nat n.
Proof.
  intros H. induction n as [|n IH]; cbn [rep].
  - rewrite Z.div_1_r. reflexivity.
  - destruct (rep n shr_1 (Build_shr_record m r s)) as [m1 r1 s1]. cbn [shr_m] in IH.
    rewrite shr_1_m by (subst m1; apply Z.div_pos; [lia|apply Z.pow_pos_nonneg; lia]).
    rewrite IH, Z.div_div by (try (apply Z.pow_nonzero; lia); lia).
    rewrite Nat2Z.inj_succ, Z.pow_succ_r by lia. f_equal. lia.
Qed.
Lemma shr_iter_exact n m : 0 <= m -> rep n shr_1 (Build_shr_record (m * 2 ^ Z.of_nat n) false false) = Build_shr_record m false false.
Proof.
  intros H. induction n as [|n IH].
  - cbn. rewrite Z.mul_1_r. reflexivity.
  - rewrite rep_succ_r. rewrite Nat2Z.inj_succ, Z.pow_succ_r by lia.
    replace (m * (2 * 2 ^ Z.of_nat n)) with (2 * (m * 2 ^ Z.of_nat n)) by lia.
    rewrite shr_1_exact by (apply Z.mul_nonneg_nonneg; [lia|apply Z.pow_nonneg; lia]). exact IH.
Qed.
Lemma shr_spec mrs e n : 0 <= n -> 0 <= shr_m mrs ->
  exists mrs', shr mrs e n = (mrs', e + n) /\ shr_m mrs' = shr_m mrs / 2 ^ n /\
    (forall q, 0 <= q -> mrs = Build_shr_record (q * 2 ^ n) false false -> mrs' = Build_shr_record q false false).
Proof.
  intros Hn Hm. destruct mrs as [m r s]. cbn [shr_m] in *. destruct n as [|p|p]; [| |lia]; cbn [shr].
  - exists (Build_shr_record m r s). rewrite Z.add_0_r, Z.div_1_r. split; [reflexivity|]. split; [reflexivity|].
    intros q Hq E. rewrite E. rewrite Z.mul_1_r. reflexivity.
  - eexists. split; [reflexivity|]. rewrite iter_pos_nat.
    assert (P : Z.of_nat (Pos.to_nat p) = Zpos p) by lia.
    split; [rewrite shr_iter_m by exact Hm; rewrite P; reflexivity|].
    intros q Hq E. rewrite E, <- P. apply shr_iter_exact. exact Hq.
Qed.
Lemma pow2_pos n : 0 <= n -> 0 < 2 ^ n.
Proof. intros; apply Z.pow_pos_nonneg; lia. Qed.
(** what the shifted-out bits say about the remainder *)
Definition remcode (n rem : Z) (r s : bool) : Prop :=
  match r, s with
  | false, false => rem = 0
  | true, false => 2 * rem = 2 ^ n
  | false, true => 0 < 2 * rem < 2 ^ n
  | true, true => 2 ^ n < 2 * rem < 2 * 2 ^ n
  end.
Lemma shr_1_full m r s : 0 <= m -> shr_1 (Build_shr_record m r s) = Build_shr_record (m / 2) (Z.odd m) (r || s).
Proof.
  intros H. destruct m as [|[p|p|]|p]; try lia; cbn [shr_1 Z.odd]; try reflexivity.
  - f_equal. rewrite (Pos2Z.inj_xI p). apply (Z.div_unique _ _ _ 1); lia.
  - f_equal. rewrite (Pos2Z.inj_xO p). apply (Z.div_unique _ _ _ 0); lia.
Qed.
Lemma shr_iter_full n m : 0 <= m -> exists q r s rem, rep n shr_1 (Build_shr_record m false false) = Build_shr_record q r s /\
  0 <= q /\ m = q * 2 ^ Z.of_nat n + rem /\ remcode (Z.of_nat n) rem r s.
Proof.
  intros H. induction n as [|n IH].
  - exists m, false, false, 0. cbn. repeat split; lia.
  - destruct IH as (q & r & s & rem & E & Q & V & C). cbn [rep]. rewrite E, shr_1_full by exact Q.
    exists (q / 2), (Z.odd q), (r || s), ((q mod 2) * 2 ^ Z.of_nat n + rem). split; [reflexivity|].
    split; [apply Z.div_pos; lia|]. assert (D := Z.div_mod q 2 ltac:(lia)).
    rewrite Nat2Z.inj_succ, Z.pow_succ_r by lia. set (P := 2 ^ Z.of_nat n) in *.
    assert (0 < P) by (apply pow2_pos; lia).
    split; [rewrite V; rewrite D at 1; ring|].
    pose proof (Zmod_odd q) as O. unfold remcode in *. rewrite Z.pow_succ_r by lia. fold P. rewrite O.
    destruct (Z.odd q), r, s; cbn [orb]; lia.
Qed.

Definition near (m V n : Z) : Prop := 2 * Z.abs (m * 2 ^ n - V) <= 2 ^ n /\ (2 * Z.abs (m * 2 ^ n - V) = 2 ^ n -> Z.even m = true).
Lemma rne_near q n rem r s : 0 <= n -> remcode n rem r s ->
  near (round_nearest_even q (loc_of_shr_record (Build_shr_record q r s))) (q * 2 ^ n + rem) n.
Proof.
  intros Hn C. assert (P := pow2_pos n Hn). unfold near, remcode in *.
  destruct r, s; cbn [loc_of_shr_record round_nearest_even].
  - replace ((q + 1) * 2 ^ n - (q * 2 ^ n + rem)) with (2 ^ n - rem) by ring. lia.
  - destruct (Z.even q) eqn:E.
    + replace (q * 2 ^ n - (q * 2 ^ n + rem)) with (- rem) by ring. split; [lia|auto].
    + replace ((q + 1) * 2 ^ n - (q * 2 ^ n + rem)) with (2 ^ n - rem) by ring. split; [lia|intros _].
      rewrite Z.even_add, E. reflexivity.
  - replace (q * 2 ^ n - (q * 2 ^ n + rem)) with (- rem) by ring. lia.
  - replace (q * 2 ^ n - (q * 2 ^ n + rem)) with (- rem) by ring. lia.
Qed.
Lemma shr_full m e n : 0 <= n -> 0 <= m -> exists q r s rem, shr (Build_shr_record m false false) e n = (Build_shr_record q r s, e + n) /\
  m = q * 2 ^ n + rem /\ remcode n rem r s.
Proof.
  intros Hn Hm. destruct n as [|p|p]; [| |lia]; cbn [shr].
  - exists m, false, false, 0. rewrite Z.add_0_r. cbn. split; [reflexivity|]. lia.
  - rewrite iter_pos_nat. destruct (shr_iter_full (Pos.to_nat p) m Hm) as (q & r & s & rem & E & _ & V & C). rewrite positive_nat_Z in V, C.
    exists q, r, s, rem. rewrite E. auto.
Qed.
Lemma rec_of_loc_m m l : shr_m (shr_record_of_loc m l) = m.
Proof. destruct l as [|[| |]]; reflexivity. Qed.
Lemma rne_bounds m l : m <= round_nearest_even m l <= m + 1.
Proof. destruct l as [|[| |]]; cbn; try lia. destruct (Z.even m); lia. Qed.

(** What rounding a non-negative number m * 2^e does, [k] being the exponent of its result:
    q is the truncated mantissa, m' the rounded one. *)
Inductive rounded (s : bool) (k m' : Z) : spec_float -> Prop :=
| rd_zero : m' = 0 -> rounded s k m' (S754_zero s)
| rd_keep p : m' = Zpos p -> m' < 2 ^ 53 -> k <= 971 -> bounded 53 1024 p k = true -> rounded s k m' (S754_finite s p k)
| rd_carry p : m' = 2 ^ 53 -> Zpos p = 2 ^ 52 -> k + 1 <= 971 -> bounded 53 1024 p (k + 1) = true -> rounded s k m' (S754_finite s p (k + 1))
| rd_inf : 971 < k \/ (971 < k + 1 /\ m' = 2 ^ 53) -> rounded s k m' (S754_infinity s).

Lemma bounded_of p k : k <= 971 -> fexp64 (dig p + k) = k -> bounded 53 1024 p k = true.
Proof.
  intros H E. unfold bounded, canonical_mantissa.
  apply andb_true_intro. split; [apply Zeq_is_eq_bool; exact E|apply Zle_is_le_bool; cbn; lia].
Qed.

Lemma round_aux s m e l k : 0 <= m -> k = fexp64 (Zdigits2 m + e) -> e <= k ->
  exists m', rounded s k m' (binary_round_aux 53 1024 s m e l) /\
    m / 2 ^ (k - e) <= m' <= m / 2 ^ (k - e) + 1 /\
    (l = loc_Exact -> m = m / 2 ^ (k - e) * 2 ^ (k - e) -> m' = m / 2 ^ (k - e)) /\ (l = loc_Exact -> near m' m (k - e)).
Proof.
  intros Hm Hk He. unfold binary_round_aux, shr_fexp at 1. rewrite <- Hk.
  destruct (shr_spec (shr_record_of_loc m l) e (k - e)) as (mrs' & E1 & E2 & E3); [lia|rewrite rec_of_loc_m; exact Hm|].
  rewrite rec_of_loc_m in E2. rewrite E1. replace (e + (k - e)) with k by lia.
  set (q := m / 2 ^ (k - e)) in *.
  assert (P2 : 0 < 2 ^ (k - e)) by (apply Z.pow_pos_nonneg; lia).
  assert (Q0 : 0 <= q) by (apply Z.div_pos; lia).
  set (m' := round_nearest_even (shr_m mrs') (loc_of_shr_record mrs')).
  assert (B : q <= m' <= q + 1) by (unfold m'; rewrite E2; apply rne_bounds).
  (* bounds of the truncated mantissa *)
  assert (QB : q < 2 ^ 53 /\ (-1074 < k -> 2 ^ 52 <= q)).
  { rewrite fexp_val in Hk. destruct (Z.eq_dec m 0) as [->|Hm0].
    - cbn [Zdigits2] in Hk. unfold q. rewrite Z.div_0_l by lia. split; [lia|]. lia.
    - destruct (Zdigits_bounds m) as [[D1 D2] D3]; [lia|]. set (d := Zdigits2 m) in *. split.
      + apply Z.div_lt_upper_bound; [exact P2|]. rewrite <- Z.pow_add_r by lia.
        eapply Z.lt_le_trans; [exact D2|]. apply Z.pow_le_mono_r; lia.
      + intros Kn. assert (k = d + e - 53) by lia. apply Z.div_le_lower_bound; [exact P2|].
        rewrite <- Z.pow_add_r by lia. eapply Z.le_trans; [|exact D1]. apply Z.pow_le_mono_r; lia. }
  destruct QB as [QB1 QB2].
  exists m'. split; [|split; [exact B|split]].
  3:{ intros ->. cbn [shr_record_of_loc] in E1. destruct (shr_full m e (k - e) ltac:(lia) Hm) as (q1 & r1 & s1 & rem & G1 & G2 & G3).
      rewrite G1 in E1. assert (Em : mrs' = Build_shr_record q1 r1 s1) by congruence. unfold m'. rewrite Em. cbn [shr_m]. rewrite G2. apply rne_near; [lia|exact G3]. }
  2:{ intros -> Ex. assert (X : mrs' = Build_shr_record q false false) by (apply E3; [exact Q0|cbn; rewrite <- Ex; reflexivity]).
      unfold m'. rewrite X. reflexivity. }
  assert (M0 : 0 <= m') by lia.
  unfold shr_fexp. cbn [shr_record_of_loc].
  assert (Kmin : -1074 <= k) by (rewrite fexp_val in Hk; lia).
  destruct (Z.eq_dec m' (2 ^ 53)) as [C|C].
  - (* carry *)
    assert (D : Zdigits2 m' = 54) by (apply digits_unique; [lia|]; rewrite C; split; [apply Z.pow_le_mono_r; lia|apply Z.pow_lt_mono_r; lia]).
    assert (F : fexp64 (Zdigits2 m' + k) - k = 1) by (rewrite D, fexp_val; lia). rewrite F.
    destruct (shr_spec (Build_shr_record m' false false) k 1) as (mr2 & F1 & F2 & F3); [lia|exact M0|]. rewrite F1.
    rewrite (F3 (2 ^ 52)) by (try (apply Z.pow_nonneg; lia); rewrite C; reflexivity). cbn [shr_m].
    change (2 ^ 52) with (Zpos (2 ^ 52)). destruct (Zle_bool (k + 1) (1024 - 53)) eqn:L.
    + apply Zle_is_le_bool in L. apply rd_carry; [exact C|reflexivity|lia|].
      apply bounded_of; [lia|]. rewrite fexp_val. change (dig (2 ^ 52)%positive) with 53. lia.
    + apply rd_inf. right. split; [|exact C]. apply Z.leb_gt in L. lia.
  - assert (M1 : m' < 2 ^ 53) by lia.
    assert (F : fexp64 (Zdigits2 m' + k) = k).
    { rewrite fexp_val. destruct (Z.eq_dec m' 0) as [Z0'|Z0'].
      - rewrite Z0'. cbn [Zdigits2]. assert (k = -1074) by (destruct (Z.eq_dec k (-1074)); [assumption|]; assert (2 ^ 52 <= q) by (apply QB2; lia); lia). lia.
      - destruct (Zdigits_bounds m') as [[D1 D2] D3]; [lia|].
        assert (Zdigits2 m' <= 53).
        { destruct (Z.le_gt_cases (Zdigits2 m') 53) as [|G]; [assumption|]. exfalso.
          assert (2 ^ 53 <= 2 ^ (Zdigits2 m' - 1)) by (apply Z.pow_le_mono_r; lia). lia. }
        destruct (Z.eq_dec k (-1074)) as [->|Kn]; [lia|]. assert (2 ^ 52 <= q) by (apply QB2; lia).
        assert (Zdigits2 m' = 53) by (apply digits_unique; [lia|]; change (53 - 1) with 52; lia). lia. }
    rewrite F, Z.sub_diag. cbn [shr shr_m]. destruct m' as [|p|p]; [apply rd_zero; reflexivity| |lia].
    destruct (Zle_bool k (1024 - 53)) eqn:L.
    + apply Zle_is_le_bool in L. apply rd_keep; [reflexivity|exact M1|lia|]. apply bounded_of; [lia|]. exact F.
    + apply rd_inf. left. apply Z.leb_gt in L. lia.
Qed.

Lemma align_spec m e k : exists mz, shl_align m e k = (mz, Z.min e k) /\ Zpos mz = Zpos m * 2 ^ (e - Z.min e k).
Proof.
  unfold shl_align. destruct (k - e) as [|p|p] eqn:E.
  - exists m. replace (Z.min e k) with e by lia. rewrite Z.sub_diag, Z.mul_1_r. auto.
  - exists m. replace (Z.min e k) with e by lia. rewrite Z.sub_diag, Z.mul_1_r. auto.
  - exists (shift_pos p m). replace (Z.min e k) with k by lia. split; [reflexivity|].
    rewrite shift_pos_correct, Z.pow_pos_fold. replace (e - k) with (Zpos p) by lia. lia.
Qed.

Lemma round_pos s M e : let k := fexp64 (dig M + e) in
  exists m' q, rounded s k m' (binary_round 53 1024 s M e) /\ q <= m' <= q + 1 /\
    (k < e \/ e <= k /\ q = Zpos M / 2 ^ (k - e) /\ (Zpos M = q * 2 ^ (k - e) -> m' = q)) /\
    near m' (Zpos M * 2 ^ (e - Z.min e k)) (k - Z.min e k).
Proof.
  intros k. unfold binary_round. fold k. destruct (align_spec M e k) as (mz & E & Emz). rewrite E. cbv beta iota.
  set (ez := Z.min e k) in *.
  assert (D : Zdigits2 (Zpos mz) = dig M + e - ez).
  { pose proof (digits_pos M) as [D1 D2]. apply digits_unique; [lia|]. rewrite Emz.
    replace (dig M + e - ez - 1) with ((dig M - 1) + (e - ez)) by lia. replace (dig M + e - ez) with (dig M + (e - ez)) by lia.
    rewrite !Z.pow_add_r by lia. assert (0 < 2 ^ (e - ez)) by (apply Z.pow_pos_nonneg; lia).
    split; [apply Z.mul_le_mono_nonneg_r; lia|apply Z.mul_lt_mono_pos_r; lia]. }
  destruct (round_aux s (Zpos mz) ez loc_Exact k) as (m' & A & B & C & N).
  - lia.
  - rewrite D. unfold k. f_equal. lia.
  - lia.
  - exists m', (Zpos mz / 2 ^ (k - ez)). split; [exact A|]. split; [exact B|]. split; [|rewrite <- Emz; exact (N eq_refl)].
    destruct (Z.lt_ge_cases k e) as [L|L]; [left; exact L|]. right. split; [exact L|].
    assert (ez = e) by lia. rewrite H in *. rewrite Z.sub_diag, Z.mul_1_r in Emz. rewrite Emz in *.
    split; [reflexivity|]. intros X. apply C; [reflexivity|exact X].
Qed.

Lemma bounded_facts m e : bounded 53 1024 m e = true -> fexp64 (dig m + e) = e /\ e <= 971 /\ Zpos m < 2 ^ 53 /\ (-1074 < e -> 2 ^ 52 <= Zpos m).
Proof.
  intros H. unfold bounded, canonical_mantissa in H. apply andb_prop in H as [H1 H2].
  apply Zeq_is_eq_bool in H1. apply Zle_is_le_bool in H2. split; [exact H1|]. split; [lia|].
  rewrite fexp_val in H1. pose proof (digits_pos m) as [D1 D2]. split.
  - eapply Z.lt_le_trans; [exact D2|]. apply Z.pow_le_mono_r; lia.
  - intros K. assert (dig m = 53) by lia. rewrite H in D1. exact D1.
Qed.
Lemma rounded_valid s k m' x : rounded s k m' x -> valid_binary 53 1024 x = true.
Proof. destruct 1; try reflexivity; assumption. Qed.
Lemma normalize_valid M e b : valid_binary 53 1024 (binary_normalize 53 1024 M e b) = true.
Proof.
  destruct M as [|M|M]; [reflexivity| |]; cbn [binary_normalize].
  - destruct (round_pos false M e) as (m' & q & A & _). exact (rounded_valid _ _ _ _ A).
  - destruct (round_pos true M e) as (m' & q & A & _). exact (rounded_valid _ _ _ _ A).
Qed.


(** rounding a number not below a float of the same sign ... *)
Lemma mag_ge s m0 e0 M e : bounded 53 1024 m0 e0 = true -> e <= e0 -> Zpos m0 * 2 ^ (e0 - e) <= Zpos M ->
  match binary_round 53 1024 s M e with
  | S754_finite s' p k => s' = s /\ (e0 < k \/ e0 = k /\ Zpos m0 <= Zpos p)
  | S754_infinity s' => s' = s
  | _ => False
  end.
Proof.
  intros B He H. destruct (bounded_facts _ _ B) as (F & L & M1 & M2).
  pose proof (digits_pos m0) as [A1 A2]. pose proof (digits_pos M) as [D1 D2].
  assert (P := pow2_pos (e0 - e) ltac:(lia)).
  assert (DD : dig m0 + e0 <= dig M + e).
  { assert (2 ^ (dig m0 - 1 + (e0 - e)) < 2 ^ dig M) as X.
    { eapply Z.le_lt_trans; [|exact D2]. eapply Z.le_trans; [|exact H]. rewrite Z.pow_add_r by lia. apply Z.mul_le_mono_nonneg_r; lia. }
    apply Z.pow_lt_mono_r_iff in X; lia. }
  set (k := fexp64 (dig M + e)). assert (K : e0 <= k) by (unfold k; rewrite fexp_val in F |- *; lia).
  destruct (round_pos s M e) as (m' & q & R & Bq & C & _). fold k in R, C.
  destruct C as [C|(C1 & C2 & C3)]; [lia|].
  assert (Q : e0 = k -> Zpos m0 <= q).
  { intros <-. rewrite C2. apply Z.div_le_lower_bound; lia. }
  assert (Q1 : 1 <= q).
  { destruct (Z.eq_dec e0 k) as [E|E]; [specialize (Q E); lia|].
    assert (Kn : -1074 < k) by (rewrite fexp_val in F; lia). rewrite C2. apply Z.div_le_lower_bound; [apply pow2_pos; lia|].
    rewrite Z.mul_1_r. eapply Z.le_trans; [|exact D1]. apply Z.pow_le_mono_r; [lia|].
    assert (k = dig M + e - 53) by (revert Kn; unfold k; rewrite fexp_val; lia). lia. }
  destruct R as [R|p R R1 R2 R3|p R R1 R2 R3|R].
  - lia.
  - split; [reflexivity|]. destruct (Z.eq_dec e0 k) as [E|E]; [right|left; lia]. split; [exact E|]. specialize (Q E). lia.
  - split; [reflexivity|]. left. lia.
  - reflexivity.
Qed.

(** ... and of one not above it *)
Lemma mag_le s m0 e0 M e : bounded 53 1024 m0 e0 = true -> e <= e0 -> Zpos M <= Zpos m0 * 2 ^ (e0 - e) ->
  match binary_round 53 1024 s M e with
  | S754_finite s' p k => s' = s /\ (k < e0 \/ k = e0 /\ Zpos p <= Zpos m0)
  | S754_zero _ => True
  | _ => False
  end.
Proof.
  intros B He H. destruct (bounded_facts _ _ B) as (F & L & M1 & M2).
  pose proof (digits_pos m0) as [A1 A2]. pose proof (digits_pos M) as [D1 D2].
  assert (P := pow2_pos (e0 - e) ltac:(lia)).
  assert (DD : dig M + e <= dig m0 + e0).
  { assert (2 ^ (dig M - 1) < 2 ^ (dig m0 + (e0 - e))) as X.
    { eapply Z.le_lt_trans; [exact D1|]. eapply Z.le_lt_trans; [exact H|]. rewrite Z.pow_add_r by lia. apply Z.mul_lt_mono_pos_r; lia. }
    apply Z.pow_lt_mono_r_iff in X; lia. }
  set (k := fexp64 (dig M + e)). assert (K : k <= e0) by (unfold k; rewrite fexp_val in F |- *; lia).
  assert (Kmin : -1074 <= k) by (unfold k; rewrite fexp_val; lia).
  destruct (round_pos s M e) as (m' & q & R & Bq & C & _). fold k in R, C.
  destruct (Z.eq_dec k e0) as [E|E].
  - destruct C as [C|(C1 & C2 & C3)]; [lia|].
    assert (Q : m' <= Zpos m0).
    { assert (q <= Zpos m0) by (rewrite C2, E; apply Z.lt_succ_r; apply Z.div_lt_upper_bound; [lia|]; lia).
      destruct (Z.eq_dec q (Zpos m0)) as [Eq|Eq]; [|lia]. rewrite C3; [lia|].
      rewrite Eq, E. assert (Zpos m0 * 2 ^ (k - e) <= Zpos M); [|rewrite E in *; lia].
      rewrite <- Eq, C2. rewrite Z.mul_comm. apply Z.mul_div_le. apply pow2_pos; lia. }
    destruct R as [R|p R R1 R2 R3|p R R1 R2 R3|R]; [exact I| |lia|lia].
    split; [reflexivity|]. right. split; [exact E|]. lia.
  - assert (X := M2 ltac:(lia)).
    destruct R as [R|p R R1 R2 R3|p R R1 R2 R3|R]; [exact I| | |lia].
    + split; [reflexivity|]. left. lia.
    + split; [reflexivity|]. destruct (Z.eq_dec (k + 1) e0); [right|left]; lia.
Qed.

(** The sign of a rounded number is that of the number. *)
Lemma round_sign s M e : match binary_round 53 1024 s M e with
  | S754_zero s' | S754_infinity s' | S754_finite s' _ _ => s' = s | S754_nan => False end.
Proof. destruct (round_pos s M e) as (m' & q & R & _). destruct R; reflexivity. Qed.

Lemma pcmp m p : Zpos m <= Zpos p -> Pcompare m p Eq = Lt \/ Pcompare m p Eq = Eq.
Proof. intros H. change (Pcompare m p Eq) with (Pos.compare m p). destruct (Pos.compare_spec m p); auto. lia. Qed.
Lemma pcmp' m p : Zpos m <= Zpos p -> Pcompare p m Eq = Gt \/ Pcompare p m Eq = Eq.
Proof. intros H. change (Pcompare p m Eq) with (Pos.compare p m). destruct (Pos.compare_spec p m); auto. lia. Qed.

Definition sval (s : bool) (m : positive) (e ez : Z) : Z := cond_Zopp s (Zpos m * 2 ^ (e - ez)).

Lemma norm_ge s m0 e0 S e : bounded 53 1024 m0 e0 = true -> e <= e0 -> sval s m0 e0 e <= S ->
  SFleb (S754_finite s m0 e0) (binary_normalize 53 1024 S e false) = true.
Proof.
  intros B He H. unfold sval in H. assert (P := pow2_pos (e0 - e) ltac:(lia)).
  assert (P' : 0 < Zpos m0 * 2 ^ (e0 - e)) by (apply Z.mul_pos_pos; lia).
  destruct s; cbn [cond_Zopp] in H.
  - destruct S as [|M|M]; cbn [binary_normalize].
    + reflexivity.
    + pose proof (round_sign false M e) as R. destruct (binary_round 53 1024 false M e); try contradiction; subst; reflexivity.
    + pose proof (mag_le true m0 e0 M e B He ltac:(lia)) as R.
      destruct (binary_round 53 1024 true M e) as [s'|s'| |s' p k]; try contradiction; [reflexivity|].
      destruct R as [-> [R|[R1 R2]]]; unfold SFleb, SFcompare.
      * replace (e0 ?= k) with Gt by (symmetry; apply Z.compare_gt_iff; lia). reflexivity.
      * replace (e0 ?= k) with Eq by (symmetry; apply Z.compare_eq_iff; lia).
        destruct (pcmp' _ _ R2) as [Y|Y]; rewrite Y; reflexivity.
  - destruct S as [|M|M]; [lia| |lia]. cbn [binary_normalize].
    pose proof (mag_ge false m0 e0 M e B He H) as R.
    destruct (binary_round 53 1024 false M e) as [s'|s'| |s' p k]; try contradiction; [subst; reflexivity|].
    destruct R as [-> [R|[R1 R2]]]; unfold SFleb, SFcompare.
    + replace (e0 ?= k) with Lt by (symmetry; apply Z.compare_lt_iff; lia). reflexivity.
    + replace (e0 ?= k) with Eq by (symmetry; apply Z.compare_eq_iff; lia).
      destruct (pcmp _ _ R2) as [Y|Y]; rewrite Y; reflexivity.
Qed.
Lemma norm_le s m0 e0 S e : bounded 53 1024 m0 e0 = true -> e <= e0 -> S <= sval s m0 e0 e ->
  SFleb (binary_normalize 53 1024 S e false) (S754_finite s m0 e0) = true.
Proof.
  intros B He H. unfold sval in H. assert (P := pow2_pos (e0 - e) ltac:(lia)).
  assert (P' : 0 < Zpos m0 * 2 ^ (e0 - e)) by (apply Z.mul_pos_pos; lia).
  destruct s; cbn [cond_Zopp] in H.
  - destruct S as [|M|M]; [lia|lia|]. cbn [binary_normalize].
    pose proof (mag_ge true m0 e0 M e B He ltac:(lia)) as R.
    destruct (binary_round 53 1024 true M e) as [s'|s'| |s' p k]; try contradiction; [subst; reflexivity|].
    destruct R as [-> [R|[R1 R2]]]; unfold SFleb, SFcompare.
    + replace (k ?= e0) with Gt by (symmetry; apply Z.compare_gt_iff; lia). reflexivity.
    + replace (k ?= e0) with Eq by (symmetry; apply Z.compare_eq_iff; lia).
      destruct (pcmp' _ _ R2) as [Y|Y]; rewrite Y; reflexivity.
  - destruct S as [|M|M]; cbn [binary_normalize].
    + reflexivity.
    + pose proof (mag_le false m0 e0 M e B He H) as R.
      destruct (binary_round 53 1024 false M e) as [s'|s'| |s' p k]; try contradiction; [reflexivity|].
      destruct R as [-> [R|[R1 R2]]]; unfold SFleb, SFcompare.
      * replace (k ?= e0) with Lt by (symmetry; apply Z.compare_lt_iff; lia). reflexivity.
      * replace (k ?= e0) with Eq by (symmetry; apply Z.compare_eq_iff; lia).
        destruct (pcmp _ _ R2) as [Y|Y]; rewrite Y; reflexivity.
    + pose proof (round_sign true M e) as R. destruct (binary_round 53 1024 true M e); try contradiction; subst; reflexivity.
Qed.

(** ** The order: comparisons of floats are lexicographic comparisons of keys *)
Definition key (x : spec_float) : Z * Z * Z :=
  match x with
  | S754_zero _ => (0, 0, 0) | S754_infinity s => (if s then -2 else 2, 0, 0)
  | S754_finite s m e => if s then (-1, - e, Zneg m) else (1, e, Zpos m)
  | S754_nan => (0, 0, 0)
  end.
Definition kle (a b : Z * Z * Z) : Prop :=
  let '(a1, a2, a3) := a in let '(b1, b2, b3) := b in a1 < b1 \/ a1 = b1 /\ (a2 < b2 \/ a2 = b2 /\ a3 <= b3).
Definition num64 (x : spec_float) : Prop := x <> S754_nan.

Lemma leb_key x y : SFleb x y = true <-> num64 x /\ num64 y /\ kle (key x) (key y).
Proof.
  unfold SFleb, num64. split.
  - intros H. destruct x as [[|]|[|]| |[|] m1 e1]; destruct y as [[|]|[|]| |[|] m2 e2]; cbn in H |- *; try discriminate H;
    (split; [discriminate|split; [discriminate|]]); try lia; try (left; lia);
    destruct (Z.compare_spec e1 e2); try discriminate H; try lia;
    [change (Pcompare m1 m2 Eq) with (Pos.compare m1 m2) in H|change (Pcompare m1 m2 Eq) with (Pos.compare m1 m2) in H];
    destruct (Pos.compare_spec m1 m2); cbn in H; try discriminate H; subst; lia.
  - intros (H1 & H2 & H). destruct x as [[|]|[|]| |[|] m1 e1]; destruct y as [[|]|[|]| |[|] m2 e2]; cbn in H |- *;
    try congruence; try lia; destruct (Z.compare_spec e1 e2); try reflexivity; try lia;
    change (Pcompare m1 m2 Eq) with (Pos.compare m1 m2); destruct (Pos.compare_spec m1 m2); cbn; try reflexivity; lia.
Qed.
Lemma ltb_key x y : SFltb x y = true <-> num64 x /\ num64 y /\ ~ kle (key y) (key x).
Proof.
  unfold SFltb, num64. split.
  - intros H. destruct x as [[|]|[|]| |[|] m1 e1]; destruct y as [[|]|[|]| |[|] m2 e2]; cbn in H |- *; try discriminate H;
    (split; [discriminate|split; [discriminate|]]); try lia; try (left; lia);
    destruct (Z.compare_spec e1 e2); try discriminate H; try lia;
    [change (Pcompare m1 m2 Eq) with (Pos.compare m1 m2) in H|change (Pcompare m1 m2 Eq) with (Pos.compare m1 m2) in H];
    destruct (Pos.compare_spec m1 m2); cbn in H; try discriminate H; subst; lia.
  - intros (H1 & H2 & H). destruct x as [[|]|[|]| |[|] m1 e1]; destruct y as [[|]|[|]| |[|] m2 e2]; cbn in H |- *;
    try congruence; try lia; destruct (Z.compare_spec e1 e2); try reflexivity; try lia;
    change (Pcompare m1 m2 Eq) with (Pos.compare m1 m2); destruct (Pos.compare_spec m1 m2); cbn; try reflexivity; lia.
Qed.
Lemma kle_trans a b c : kle a b -> kle b c -> kle a c.
Proof. destruct a as [[? ?] ?], b as [[? ?] ?], c as [[? ?] ?]; cbn. lia. Qed.
Lemma kle_total a b : ~ kle a b -> kle b a.
Proof. destruct a as [[? ?] ?], b as [[? ?] ?]; cbn. lia. Qed.
Lemma kle_dec a b : kle a b \/ ~ kle a b.
Proof. destruct a as [[? ?] ?], b as [[? ?] ?]; cbn. lia. Qed.
Lemma kle_refl a : kle a a.
Proof. destruct a as [[? ?] ?]; cbn. lia. Qed.

Lemma leb_trans x y z : SFleb x y = true -> SFleb y z = true -> SFleb x z = true.
Proof. rewrite !leb_key. intros (A & B & C) (D & E & F). eauto using kle_trans. Qed.
Lemma leb_refl x : num64 x -> SFleb x x = true.
Proof. intros. apply leb_key. auto using kle_refl. Qed.
Lemma leb_num_l x y : SFleb x y = true -> num64 x.
Proof. rewrite leb_key. tauto. Qed.
Lemma leb_num_r x y : SFleb x y = true -> num64 y.
Proof. rewrite leb_key. tauto. Qed.
Lemma ltb_leb x y : SFltb x y = true -> SFleb x y = true.
Proof. rewrite ltb_key, leb_key. intros (A & B & C). auto using kle_total. Qed.
Lemma ltb_not x y : SFltb x y = true -> SFleb y x = true -> False.
Proof. rewrite ltb_key, leb_key. tauto. Qed.
Lemma nleb_lt x y : num64 x -> num64 y -> SFleb x y = false -> SFltb y x = true.
Proof.
  intros A B H. apply ltb_key. split; [exact B|split; [exact A|]]. intros K.
  assert (SFleb x y = true) by (apply leb_key; auto). congruence.
Qed.
Lemma nltb_le x y : num64 x -> num64 y -> SFltb x y = false -> SFleb y x = true.
Proof.
  intros A B H. apply leb_key. split; [exact B|split; [exact A|]]. destruct (kle_dec (key y) (key x)) as [K|K]; [exact K|].
  assert (SFltb x y = true) by (apply ltb_key; auto). congruence.
Qed.
Lemma num_dec x : num64 x \/ x = S754_nan.
Proof. unfold num64. destruct x; [left|left|right|left]; try discriminate; reflexivity. Qed.

(** values and keys agree on canonical floats *)
Lemma key_val s1 m1 e1 s2 m2 e2 ez : bounded 53 1024 m1 e1 = true -> bounded 53 1024 m2 e2 = true -> ez <= e1 -> ez <= e2 ->
  kle (key (S754_finite s1 m1 e1)) (key (S754_finite s2 m2 e2)) -> sval s1 m1 e1 ez <= sval s2 m2 e2 ez.
Proof.
  assert (W : forall m1 e1 m2 e2, bounded 53 1024 m1 e1 = true -> bounded 53 1024 m2 e2 = true -> ez <= e1 -> ez <= e2 ->
    e1 < e2 \/ e1 = e2 /\ Zpos m1 <= Zpos m2 -> Zpos m1 * 2 ^ (e1 - ez) <= Zpos m2 * 2 ^ (e2 - ez)).
  { clear. intros m1 e1 m2 e2 B1 B2 H1 H2 [K|[-> K]].
    - destruct (bounded_facts _ _ B1) as (F & L & M1 & _). destruct (bounded_facts _ _ B2) as (_ & _ & _ & M2).
      assert (-1074 <= e1) by (rewrite fexp_val in F; lia). specialize (M2 ltac:(lia)).
      replace (e2 - ez) with ((e2 - e1) + (e1 - ez)) by lia. rewrite Z.pow_add_r by lia.
      rewrite Z.mul_assoc. assert (P := pow2_pos (e1 - ez) ltac:(lia)). apply Z.mul_le_mono_nonneg_r; [lia|].
      assert (2 ^ 1 <= 2 ^ (e2 - e1)) by (apply Z.pow_le_mono_r; lia). change (2 ^ 1) with 2 in *. change (2 ^ 53) with (2 ^ 52 * 2) in M1.
      assert (2 ^ 52 * 2 <= Zpos m2 * 2 ^ (e2 - e1)) by (apply Z.mul_le_mono_nonneg; lia). lia.
    - assert (P := pow2_pos (e2 - ez) ltac:(lia)). apply Z.mul_le_mono_nonneg_r; lia. }
  intros B1 B2 H1 H2 K. unfold sval.
  assert (0 < Zpos m1 * 2 ^ (e1 - ez)) by (apply Z.mul_pos_pos; [lia|apply pow2_pos; lia]).
  assert (0 < Zpos m2 * 2 ^ (e2 - ez)) by (apply Z.mul_pos_pos; [lia|apply pow2_pos; lia]).
  destruct s1, s2; cbn [cond_Zopp key] in *; unfold kle in K; try lia.
  - specialize (W m2 e2 m1 e1 B2 B1 H2 H1 ltac:(lia)). lia.
  - specialize (W m1 e1 m2 e2 B1 B2 H1 H2 ltac:(lia)). lia.
Qed.

(** ** Sums and differences *)
Definition nonneg (x : spec_float) : Prop := SFleb (S754_zero false) x = true.
Lemma nonneg_cases x : nonneg x -> (exists s, x = S754_zero s) \/ x = S754_infinity false \/ exists m e, x = S754_finite false m e.
Proof. unfold nonneg. destruct x as [s|[|]| |[|] m e]; cbn; intros H; try discriminate H; eauto. Qed.

Lemma add_align mx ex my ey : let ez := Z.min ex ey in
  Zpos (fst (shl_align mx ex ez)) = Zpos mx * 2 ^ (ex - ez) /\ Zpos (fst (shl_align my ey ez)) = Zpos my * 2 ^ (ey - ez).
Proof.
  intros ez. split.
  - destruct (align_spec mx ex ez) as (mz & E & V). rewrite E. cbn [fst]. rewrite V. do 3 f_equal. lia.
  - destruct (align_spec my ey ez) as (mz & E & V). rewrite E. cbn [fst]. rewrite V. do 3 f_equal. lia.
Qed.

Lemma SFadd_ge x y : valid_binary 53 1024 x = true -> num64 x -> nonneg y -> x <> S754_infinity true ->
  SFleb x (SFadd 53 1024 x y) = true.
Proof.
  intros V N Y I. destruct (nonneg_cases y Y) as [[s ->]|[->|(my & ey & ->)]].
  - destruct x as [sx|sx| |sx mx ex]; cbn [SFadd]; [destruct (Bool.eqb sx s)| | |]; try (apply leb_refl; try exact N; discriminate); try reflexivity; congruence.
  - destruct x as [sx|[|]| |sx mx ex]; cbn; try reflexivity; congruence.
  - destruct x as [sx|[|]| |sx mx ex]; try reflexivity; try congruence.
    cbn [SFadd]. destruct (add_align mx ex my ey) as [E1 E2]. rewrite E1, E2.
    apply norm_ge; [exact V|lia|]. unfold sval. assert (0 < Zpos my * 2 ^ (ey - Z.min ex ey)) by (apply Z.mul_pos_pos; [lia|apply pow2_pos; lia]).
    cbn [cond_Zopp]. lia.
Qed.
Lemma SFsub_le x y : valid_binary 53 1024 x = true -> num64 x -> nonneg y -> x <> S754_infinity false ->
  SFleb (SFsub 53 1024 x y) x = true.
Proof.
  intros V N Y I. destruct (nonneg_cases y Y) as [[s ->]|[->|(my & ey & ->)]].
  - destruct x as [sx|sx| |sx mx ex]; cbn [SFsub]; [destruct (Bool.eqb sx (negb s))| | |]; try (apply leb_refl; try exact N; discriminate); try reflexivity; congruence.
  - destruct x as [sx|[|]| |sx mx ex]; cbn; try reflexivity; congruence.
  - destruct x as [sx|[|]| |sx mx ex]; try reflexivity; try congruence.
    cbn [SFsub]. destruct (add_align mx ex my ey) as [E1 E2]. rewrite E1, E2.
    apply norm_le; [exact V|lia|]. unfold sval. assert (0 < Zpos my * 2 ^ (ey - Z.min ex ey)) by (apply Z.mul_pos_pos; [lia|apply pow2_pos; lia]).
    cbn [cond_Zopp]. lia.
Qed.
(** subtracting something not positive does not decrease *)
Lemma SFsub_ge x y : valid_binary 53 1024 x = true -> num64 x -> SFleb y (S754_zero false) = true -> num64 (SFsub 53 1024 x y) ->
  SFleb x (SFsub 53 1024 x y) = true.
Proof.
  intros V N Y I. destruct y as [s|[|]| |[|] my ey]; cbn in Y; try discriminate Y.
  - destruct x as [sx|sx| |sx mx ex]; cbn [SFsub]; [destruct (Bool.eqb sx (negb s))| | |]; try (apply leb_refl; try exact N; discriminate); try reflexivity; congruence.
  - destruct x as [sx|[|]| |sx mx ex]; cbn in *; try reflexivity; congruence.
  - destruct x as [sx|[|]| |sx mx ex]; try reflexivity; try congruence.
    cbn [SFsub]. destruct (add_align mx ex my ey) as [E1 E2]. rewrite E1, E2.
    apply norm_ge; [exact V|lia|]. unfold sval. assert (0 < Zpos my * 2 ^ (ey - Z.min ex ey)) by (apply Z.mul_pos_pos; [lia|apply pow2_pos; lia]).
    cbn [cond_Zopp]. lia.
Qed.
Lemma norm_nonneg S e : 0 <= S -> nonneg (binary_normalize 53 1024 S e false).
Proof.
  intros H. destruct S as [|M|M]; [reflexivity| |lia]. cbn [binary_normalize]. pose proof (round_sign false M e) as R.
  destruct (binary_round 53 1024 false M e); try contradiction; subst; reflexivity.
Qed.
Definition finite64 (x : spec_float) : Prop := match x with S754_zero _ | S754_finite _ _ _ => True | _ => False end.
Lemma SFsub_nonneg x y : valid_binary 53 1024 x = true -> valid_binary 53 1024 y = true -> finite64 x -> finite64 y ->
  SFleb y x = true -> nonneg (SFsub 53 1024 x y).
Proof.
  intros Vx Vy Fx Fy H. destruct x as [sx|sx| |sx mx ex]; try contradiction; destruct y as [sy|sy| |sy my ey]; try contradiction.
  - cbn. destruct (Bool.eqb sx (negb sy)); reflexivity.
  - cbn in *. destruct sy; [reflexivity|discriminate].
  - cbn in *. destruct sx; [discriminate|reflexivity].
  - apply leb_key in H as (_ & _ & K). pose proof (key_val sy my ey sx mx ex (Z.min ex ey) Vy Vx ltac:(lia) ltac:(lia) K) as S. clear K.
    cbn [SFsub]. destruct (add_align mx ex my ey) as [E1 E2]. rewrite E1, E2. apply norm_nonneg. unfold sval in S. lia.
Qed.

Lemma SFadd_valid x y : valid_binary 53 1024 x = true -> valid_binary 53 1024 y = true -> valid_binary 53 1024 (SFadd 53 1024 x y) = true.
Proof.
  intros. destruct x as [sx|sx| |sx mx ex]; destruct y as [sy|sy| |sy my ey]; cbn [SFadd]; try reflexivity; try assumption;
  try (destruct (Bool.eqb sx sy); reflexivity). apply normalize_valid.
Qed.
Lemma SFsub_valid x y : valid_binary 53 1024 x = true -> valid_binary 53 1024 y = true -> valid_binary 53 1024 (SFsub 53 1024 x y) = true.
Proof.
  intros. destruct x as [sx|sx| |sx mx ex]; destruct y as [sy|sy| |sy my ey]; cbn [SFsub]; try reflexivity; try assumption;
  try (destruct (Bool.eqb sx (negb sy)); reflexivity). apply normalize_valid.
Qed.

(** ** Products and quotients *)
Lemma digits_ge m d : 0 < m -> 2 ^ (d - 1) <= m -> d <= Zdigits2 m.
Proof.
  intros P H. destruct (Zdigits_bounds m P) as [[_ B] C]. destruct (Z.lt_ge_cases d 1) as [L|L]; [lia|].
  assert (2 ^ (d - 1) < 2 ^ Zdigits2 m) as X by lia. apply Z.pow_lt_mono_r_iff in X; lia.
Qed.
Lemma mul_round s mx ex my ey : bounded 53 1024 mx ex = true -> bounded 53 1024 my ey = true ->
  exists k m', rounded s k m' (binary_round_aux 53 1024 s (Zpos (mx * my)) (ex + ey) loc_Exact).
Proof.
  intros Bx By. destruct (bounded_facts _ _ Bx) as (Fx & _ & _ & Mx). destruct (bounded_facts _ _ By) as (Fy & _ & _ & My).
  rewrite fexp_val in Fx, Fy.
  destruct (round_aux s (Zpos (mx * my)) (ex + ey) loc_Exact (fexp64 (Zdigits2 (Zpos (mx * my)) + (ex + ey)))) as (m' & R & _); [lia|reflexivity| |eauto].
  rewrite fexp_val. destruct (Z.eq_dec ex (-1074)) as [Ex|Ex]; [destruct (Z.eq_dec ey (-1074)) as [Ey|Ey]; [lia|]|].
  - specialize (My ltac:(lia)). assert (53 <= Zdigits2 (Zpos (mx * my))); [|lia]. apply digits_ge; [lia|].
    rewrite Pos2Z.inj_mul. change (2 ^ (53 - 1)) with (1 * 2 ^ 52). apply Z.mul_le_mono_nonneg; lia.
  - specialize (Mx ltac:(lia)). assert (53 <= Zdigits2 (Zpos (mx * my))); [|lia]. apply digits_ge; [lia|].
    rewrite Pos2Z.inj_mul. change (2 ^ (53 - 1)) with (2 ^ 52 * 1). apply Z.mul_le_mono_nonneg; lia.
Qed.
Lemma rounded_nonneg k m' x : rounded false k m' x -> nonneg x.
Proof. destruct 1; reflexivity. Qed.
Lemma SFmul_valid x y : valid_binary 53 1024 x = true -> valid_binary 53 1024 y = true -> valid_binary 53 1024 (SFmul 53 1024 x y) = true.
Proof.
  intros. destruct x as [sx|sx| |sx mx ex]; destruct y as [sy|sy| |sy my ey]; cbn [SFmul]; try reflexivity.
  destruct (mul_round (xorb sx sy) mx ex my ey) as (k & m' & R); [assumption|assumption|]. exact (rounded_valid _ _ _ _ R).
Qed.
Lemma SFmul_nonneg x y : valid_binary 53 1024 x = true -> valid_binary 53 1024 y = true -> nonneg x -> nonneg y ->
  num64 (SFmul 53 1024 x y) -> nonneg (SFmul 53 1024 x y).
Proof.
  intros Vx Vy X Y N. destruct (nonneg_cases x X) as [[s ->]|[->|(mx & ex & ->)]]; destruct (nonneg_cases y Y) as [[s' ->]|[->|(my & ey & ->)]];
  cbn [SFmul] in *; try reflexivity; try (elim N; reflexivity).
  destruct (mul_round (xorb false false) mx ex my ey) as (k & m' & R); [assumption|assumption|]. exact (rounded_nonneg _ _ _ R).
Qed.
Lemma SFmul_nonpos x y : valid_binary 53 1024 x = true -> valid_binary 53 1024 y = true -> SFleb x (S754_zero false) = true -> nonneg y ->
  num64 (SFmul 53 1024 x y) -> SFleb (SFmul 53 1024 x y) (S754_zero false) = true.
Proof.
  intros Vx Vy X Y N. destruct x as [sx|[|]| |[|] mx ex]; cbn in X; try discriminate X;
  destruct (nonneg_cases y Y) as [[s' ->]|[->|(my & ey & ->)]]; cbn [SFmul] in *; try reflexivity; try (elim N; reflexivity).
  destruct (mul_round (xorb true false) mx ex my ey) as (k & m' & R); [assumption|assumption|]. destruct R; reflexivity.
Qed.
Lemma div_round s mx ex my ey : exists k m', rounded s k m'
  (let '(mz, ez, lz) := SFdiv_core_binary 53 1024 (Zpos mx) ex (Zpos my) ey in binary_round_aux 53 1024 s mz ez lz).
Proof.
  unfold SFdiv_core_binary. cbn [Zdigits2]. set (e' := Z.min (fexp64 (dig mx + ex - (dig my + ey))) (ex - ey)). set (t := ex - ey - e').
  assert (T : 0 <= t) by lia.
  replace (match t with 0 => Zpos mx | Zpos _ => Z.shiftl (Zpos mx) t | Zneg _ => 0 end) with (Zpos mx * 2 ^ t)
    by (destruct t as [|q|q]; [lia|rewrite Z.shiftl_mul_pow2 by lia; reflexivity|lia]).
  pose proof (Z_div_mod (Zpos mx * 2 ^ t) (Zpos my) ltac:(lia)) as D. destruct (Z.div_eucl (Zpos mx * 2 ^ t) (Zpos my)) as [q r]. cbv beta iota zeta.
  destruct D as [D1 D2]. pose proof (digits_pos mx) as [X1 X2]. pose proof (digits_pos my) as [Y1 Y2].
  assert (P := pow2_pos t T).
  assert (Q : 0 <= q) by nia.
  destruct (round_aux s q e' (new_location (Zpos my) r) (fexp64 (Zdigits2 q + e'))) as (m' & R & _); [exact Q|reflexivity| |eauto].
  assert (dig mx + t - dig my <= Zdigits2 q); [|unfold t, e' in *; rewrite !fexp_val in *; lia].
  destruct (Z.lt_ge_cases (dig mx + t - dig my) 1) as [L|L].
  { destruct q; cbn [Zdigits2]; lia. }
  assert (2 ^ (dig mx + t - dig my - 1) <= q).
  { assert (2 ^ (dig mx + t - dig my - 1) * Zpos my < (q + 1) * Zpos my); [|nia].
    assert (2 ^ (dig mx + t - dig my - 1) * Zpos my < 2 ^ (dig mx + t - dig my - 1) * 2 ^ dig my) by (apply Z.mul_lt_mono_pos_l; [apply pow2_pos; lia|lia]).
    rewrite <- Z.pow_add_r in H by lia. replace (dig mx + t - dig my - 1 + dig my) with (dig mx - 1 + t) in H by lia.
    rewrite Z.pow_add_r in H by lia. assert (2 ^ (dig mx - 1) * 2 ^ t <= Zpos mx * 2 ^ t) by (apply Z.mul_le_mono_nonneg_r; lia). lia. }
  apply digits_ge; [|exact H]. assert (0 < 2 ^ (dig mx + t - dig my - 1)) by (apply pow2_pos; lia). lia.
Qed.
Lemma SFdiv_valid x y : valid_binary 53 1024 (SFdiv 53 1024 x y) = true.
Proof.
  destruct x as [sx|sx| |sx mx ex]; destruct y as [sy|sy| |sy my ey]; try reflexivity. unfold SFdiv.
  destruct (div_round (xorb sx sy) mx ex my ey) as (k & m' & R). exact (rounded_valid _ _ _ _ R).
Qed.
Lemma SFdiv_nonneg x y : nonneg x -> SFltb (S754_zero false) y = true -> num64 (SFdiv 53 1024 x y) -> nonneg (SFdiv 53 1024 x y).
Proof.
  intros X Y N. destruct (nonneg_cases x X) as [[s ->]|[->|(mx & ex & ->)]]; destruct y as [sy|[|]| |[|] my ey]; cbn in Y; try discriminate Y;
  cbn [SFdiv xorb] in *; try reflexivity; try (elim N; reflexivity); try (destruct s; reflexivity).
  destruct (div_round false mx ex my ey) as (k & m' & R). exact (rounded_nonneg _ _ _ R).
Qed.

Lemma sqrt_round mx ex : exists k m', rounded false k m'
  (let '(mz, ez, lz) := SFsqrt_core_binary 53 1024 (Zpos mx) ex in binary_round_aux 53 1024 false mz ez lz).
Proof.
  unfold SFsqrt_core_binary. cbn [Zdigits2]. set (e' := Z.min (fexp64 (Z.div2 (dig mx + ex + 1))) (Z.div2 ex)). set (t := ex - 2 * e').
  assert (T : 0 <= t). { assert (e' <= Z.div2 ex) by lia. pose proof (Z.div2_odd ex) as O. destruct (Z.odd ex); cbn [Z.b2z] in O; lia. }
  replace (match t with 0 => Zpos mx | Zpos _ => Z.shiftl (Zpos mx) t | Zneg _ => 0 end) with (Zpos mx * 2 ^ t)
    by (destruct t as [|q|q]; [lia|rewrite Z.shiftl_mul_pow2 by lia; reflexivity|lia]).
  assert (P := pow2_pos t T).
  pose proof (Z.sqrtrem_spec (Zpos mx * 2 ^ t) ltac:(nia)) as D. destruct (Z.sqrtrem (Zpos mx * 2 ^ t)) as [q r]. destruct D as [D1 D2]. cbv beta iota.
  assert (Q : 0 <= q) by lia.
  match goal with |- context [binary_round_aux _ _ _ _ _ ?l] => destruct (round_aux false q e' l (fexp64 (Zdigits2 q + e'))) as (m' & R & _); [exact Q|reflexivity| |eauto] end.
  pose proof (digits_pos mx) as [X1 X2].
  assert (Z.div2 (dig mx + t + 1) <= Zdigits2 q).
  2:{ replace (dig mx + t + 1) with ((dig mx + ex + 1) + (- e') * 2) in H by (unfold t; lia). rewrite !Z.div2_div, Z.div_add in H by lia.
      rewrite <- Z.div2_div in H. revert H. unfold e'. rewrite !fexp_val. lia. }
  set (j := Z.div2 (dig mx + t + 1)). assert (J : 1 <= j) by (unfold j; rewrite Z.div2_div; apply Z.div_le_lower_bound; lia).
  assert (J2 : 2 * (j - 1) <= dig mx - 1 + t).
  { unfold j. pose proof (Z.div2_odd (dig mx + t + 1)) as O. destruct (Z.odd (dig mx + t + 1)); cbn [Z.b2z] in O; lia. }
  assert (2 ^ (j - 1) <= q).
  { apply Z.lt_succ_r. apply (Z.pow_lt_mono_l_iff (2 ^ (j - 1)) (Z.succ q) 2); [apply Z.pow_nonneg; lia|lia|lia|]. rewrite <- Z.pow_mul_r by lia.
    replace ((j - 1) * 2) with (2 * (j - 1)) by lia.
    eapply Z.le_lt_trans; [apply (Z.pow_le_mono_r 2 _ (dig mx - 1 + t)); lia|]. rewrite Z.pow_add_r by lia.
    assert (2 ^ (dig mx - 1) * 2 ^ t <= Zpos mx * 2 ^ t) by (apply Z.mul_le_mono_nonneg_r; lia). replace (Z.succ q ^ 2) with (q * q + 2 * q + 1) by (rewrite Z.pow_2_r; lia). lia. }
  apply digits_ge; [|exact H]. assert (0 < 2 ^ (j - 1)) by (apply pow2_pos; lia). lia.
Qed.
Lemma SFsqrt_valid x : valid_binary 53 1024 x = true -> valid_binary 53 1024 (SFsqrt 53 1024 x) = true.
Proof.
  intros V. destruct x as [sx|[|]| |[|] mx ex]; try reflexivity. unfold SFsqrt.
  destruct (sqrt_round mx ex) as (k & m' & R). exact (rounded_valid _ _ _ _ R).
Qed.

(** ** The instance computes what the specification of binary64 prescribes *)
Lemma pack_val x : valid_binary 53 1024 x = true -> f_val (pack x) = x.
Proof. intros V. unfold pack. destruct (bool_dec (valid_binary 53 1024 x) true); [reflexivity|contradiction]. Qed.
Lemma f64_ext x y : f_val x = f_val y -> x = y.
Proof. destruct x as [x Hx], y as [y Hy]. cbn. intros <-. f_equal. apply Eqdep_dec.UIP_dec. apply bool_dec. Qed.

Lemma v_add x y : f_val (pack (SFadd 53 1024 (f_val x) (f_val y))) = SFadd 53 1024 (f_val x) (f_val y).
Proof. apply pack_val, SFadd_valid; apply f_ok. Qed.
Lemma v_sub x y : f_val (pack (SFsub 53 1024 (f_val x) (f_val y))) = SFsub 53 1024 (f_val x) (f_val y).
Proof. apply pack_val, SFsub_valid; apply f_ok. Qed.
Lemma v_mul x y : f_val (pack (SFmul 53 1024 (f_val x) (f_val y))) = SFmul 53 1024 (f_val x) (f_val y).
Proof. apply pack_val, SFmul_valid; apply f_ok. Qed.
Lemma v_div x y : f_val (pack (SFdiv 53 1024 (f_val x) (f_val y))) = SFdiv 53 1024 (f_val x) (f_val y).
Proof. apply pack_val, SFdiv_valid. Qed.
Lemma v_sqrt x : f_val (pack (SFsqrt 53 1024 (f_val x))) = SFsqrt 53 1024 (f_val x).
Proof. apply pack_val, SFsqrt_valid; apply f_ok. Qed.
Lemma v_opp x : f_val (pack (SFopp (f_val x))) = SFopp (f_val x).
Proof. apply pack_val. destruct x as [[| | |] V]; exact V || reflexivity. Qed.
Lemma v_abs x : f_val (pack (SFabs (f_val x))) = SFabs (f_val x).
Proof. apply pack_val. destruct x as [[| | |] V]; exact V || reflexivity. Qed.
Lemma v_ofZ z : f_val (pack (binary_normalize 53 1024 z 0 false)) = binary_normalize 53 1024 z 0 false.
Proof. apply pack_val, normalize_valid. Qed.

(** ** Numbers of the format are not rounded *)
Lemma exact_round s n e0 j : dig n <= 53 -> -1074 <= e0 -> dig n + e0 <= 1024 -> 0 <= j ->
  let k := fexp64 (dig n + e0) in
  exists p, binary_round 53 1024 s (Z.to_pos (Zpos n * 2 ^ j)) (e0 - j) = S754_finite s p k /\ k <= e0 /\ Zpos p = Zpos n * 2 ^ (e0 - k).
Proof.
  intros Dn E0 E1 J k. pose proof (digits_pos n) as [D1 D2]. assert (Pj := pow2_pos j J).
  assert (K : k <= e0 /\ dig n + e0 - 53 <= k /\ k <= 971) by (unfold k; rewrite fexp_val; lia).
  set (M := Z.to_pos (Zpos n * 2 ^ j)). assert (EM : Zpos M = Zpos n * 2 ^ j) by (unfold M; rewrite Z2Pos.id; [reflexivity|apply Z.mul_pos_pos; lia]).
  assert (DM : dig M = dig n + j).
  { change (dig M) with (Zdigits2 (Zpos M)). apply digits_unique; [lia|]. rewrite EM. replace (dig n + j - 1) with ((dig n - 1) + j) by lia.
    rewrite !Z.pow_add_r by lia. split; [apply Z.mul_le_mono_nonneg_r; lia|apply Z.mul_lt_mono_pos_r; lia]. }
  assert (EK : fexp64 (dig M + (e0 - j)) = k) by (unfold k; f_equal; lia).
  unfold binary_round. rewrite EK. destruct (align_spec M (e0 - j) k) as (mz & E & Emz). rewrite E. cbv beta iota. clear E.
  set (ez := Z.min (e0 - j) k) in *.
  assert (V : Zpos mz = Zpos n * 2 ^ (e0 - ez)).
  { rewrite Emz, EM, <- Z.mul_assoc, <- Z.pow_add_r by lia. do 2 f_equal. lia. }
  assert (D : Zdigits2 (Zpos mz) = dig n + (e0 - ez)).
  { apply digits_unique; [lia|]. rewrite V. replace (dig n + (e0 - ez) - 1) with ((dig n - 1) + (e0 - ez)) by lia. rewrite !Z.pow_add_r by lia.
    assert (P := pow2_pos (e0 - ez) ltac:(lia)). split; [apply Z.mul_le_mono_nonneg_r; lia|apply Z.mul_lt_mono_pos_r; lia]. }
  destruct (round_aux s (Zpos mz) ez loc_Exact k) as (m' & R & _ & X & _); [lia|rewrite D; unfold k; f_equal; lia|lia|].
  assert (Q : Zpos mz = Zpos n * 2 ^ (e0 - k) * 2 ^ (k - ez)).
  { rewrite V, <- Z.mul_assoc, <- Z.pow_add_r by lia. do 2 f_equal. lia. }
  assert (Pk := pow2_pos (k - ez) ltac:(lia)).
  assert (Q' : Zpos mz / 2 ^ (k - ez) = Zpos n * 2 ^ (e0 - k)) by (rewrite Q; apply Z.div_mul; lia).
  rewrite Q' in X. specialize (X eq_refl Q).
  assert (S : m' < 2 ^ 53).
  { rewrite X. apply Z.lt_le_trans with (2 ^ dig n * 2 ^ (e0 - k)).
    - apply Z.mul_lt_mono_pos_r; [apply pow2_pos; lia|lia].
    - rewrite <- Z.pow_add_r by lia. apply Z.pow_le_mono_r; lia. }
  assert (0 < m') by (rewrite X; apply Z.mul_pos_pos; [lia|apply pow2_pos; lia]).
  destruct R as [R|p R R1 R2 R3|p R R1 R2 R3|R].
  - lia.
  - exists p. split; [reflexivity|]. split; [tauto|]. lia.
  - lia.
  - lia.
Qed.
