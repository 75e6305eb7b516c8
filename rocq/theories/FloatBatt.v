(** Battery use and termination of [solve] in double precision. *)
From Coq Require Import ZArith Zwf List Bool Lia Floats.SpecFloat.
From Verif Require Import Num Base Elements Integrate Eom Convergence Lyapunov Perturb Qlaw Trace Spec XSpec SolveProofs ExitProofs GateProofs XSolve
  Float64 FloatSpec FloatProofs FloatMono FloatRun FloatDuty FloatTerm.
Import ListNotations.

Section Z.
Local Open Scope Z_scope.
(** the magnitude of a number rounded from a mantissa that is not smaller than [M] *)
Lemma rounded_low s k M m' x : -1074 <= k -> 0 <= M <= m' -> rounded s k m' x ->
  x = S754_infinity s \/ finite64 x /\ exists R, zv x = cond_Zopp s R /\ M * 2 ^ (k + 1074) <= R.
Proof.
  intros Hk HM R. assert (P := pow2_pos (k + 1074) ltac:(lia)). destruct R as [E|p E E1 E2 E3|p E E1 E2 E3|E]; [right|right|right|left; reflexivity].
  - split; [exact I|]. exists 0. split; [destruct s; reflexivity|]. nia.
  - split; [exact I|]. cbn [zv]. eexists. split; [reflexivity|]. rewrite <- E. apply Z.mul_le_mono_nonneg_r; lia.
  - split; [exact I|]. cbn [zv]. eexists. split; [reflexivity|]. replace (k + 1 + 1074) with (Z.succ (k + 1074)) by lia. rewrite Z.pow_succ_r by lia.
    rewrite E1. change (2 ^ 53) with (2 * 2 ^ 52) in E. nia.
Qed.
Lemma div_low q e k : 0 <= q -> e <= k -> k = fexp64 (Zdigits2 q + e) -> q < (q / 2 ^ (k - e) + 1) * 2 ^ (k - e) /\ 0 <= q / 2 ^ (k - e) /\ (-1074 < k -> 2 ^ 52 <= q / 2 ^ (k - e)).
Proof.
  intros Hq He Hk. assert (P := pow2_pos (k - e) ltac:(lia)). pose proof (Z.div_mod q (2 ^ (k - e)) ltac:(lia)). pose proof (Z.mod_pos_bound q (2 ^ (k - e)) P).
  split; [nia|]. split; [apply Z.div_pos; lia|]. intros K. rewrite fexp_val in Hk.
  destruct (Z.eq_dec q 0) as [->|N]. { cbn in Hk. exfalso. lia. }
  destruct (Zdigits_bounds q ltac:(lia)) as [[A B] C]. apply Z.div_le_lower_bound; [exact P|]. rewrite Z.mul_comm, <- Z.pow_add_r by lia.
  eapply Z.le_trans; [|exact A]. apply Z.pow_le_mono_r; lia.
Qed.
Definition low (x : spec_float) (A B : Z) : Prop :=
  x = S754_infinity false \/ finite64 x /\ exists M u, 0 <= u /\ 0 <= M /\ (u = 0 \/ 2 ^ 52 <= M) /\ M * 2 ^ u <= zv x /\ A < (M + 1) * 2 ^ u * B.
Lemma quot_low mx ex my ey : bounded 53 1024 mx ex = true -> bounded 53 1024 my ey = true ->
  low (SFdiv 53 1024 (S754_finite false mx ex) (S754_finite false my ey)) (zv (S754_finite false mx ex) * 2 ^ 1074) (zv (S754_finite false my ey)).
Proof.
  intros Bx By. pose proof (e_low _ _ Bx) as Hx. pose proof (e_low _ _ By) as Hy.
  unfold SFdiv, SFdiv_core_binary. cbn [Zdigits2 xorb]. set (e' := Z.min (fexp64 (dig mx + ex - (dig my + ey))) (ex - ey)). set (t := ex - ey - e').
  assert (T : 0 <= t) by lia.
  replace (match t with 0 => Zpos mx | Zpos _ => Z.shiftl (Zpos mx) t | Zneg _ => 0 end) with (Zpos mx * 2 ^ t)
    by (destruct t as [|q|q]; [lia|rewrite Z.shiftl_mul_pow2 by lia; reflexivity|lia]).
  pose proof (Z_div_mod (Zpos mx * 2 ^ t) (Zpos my) ltac:(lia)) as D. destruct (Z.div_eucl (Zpos mx * 2 ^ t) (Zpos my)) as [q r]. cbv beta iota zeta.
  destruct D as [D1 D2]. pose proof (digits_pos mx) as [X1 X2]. pose proof (digits_pos my) as [Y1 Y2].
  assert (P := pow2_pos t T).
  assert (Q : 0 <= q) by nia.
  set (k := fexp64 (Zdigits2 q + e')).
  assert (Ke : e' <= k).
  { unfold k. assert (dig mx + t - dig my <= Zdigits2 q); [|unfold t, e' in *; rewrite !fexp_val in *; lia].
    destruct (Z.lt_ge_cases (dig mx + t - dig my) 1) as [L|L].
    { destruct q; cbn [Zdigits2]; lia. }
    assert (2 ^ (dig mx + t - dig my - 1) <= q).
    { assert (2 ^ (dig mx + t - dig my - 1) * Zpos my < (q + 1) * Zpos my); [|nia].
      assert (2 ^ (dig mx + t - dig my - 1) * Zpos my < 2 ^ (dig mx + t - dig my - 1) * 2 ^ dig my) by (apply Z.mul_lt_mono_pos_l; [apply pow2_pos; lia|lia]).
      rewrite <- Z.pow_add_r in H by lia. replace (dig mx + t - dig my - 1 + dig my) with (dig mx - 1 + t) in H by lia.
      rewrite Z.pow_add_r in H by lia. assert (2 ^ (dig mx - 1) * 2 ^ t <= Zpos mx * 2 ^ t) by (apply Z.mul_le_mono_nonneg_r; lia). lia. }
    apply digits_ge; [|exact H]. assert (0 < 2 ^ (dig mx + t - dig my - 1)) by (apply pow2_pos; lia). lia. }
  destruct (round_aux false q e' (new_location (Zpos my) r) k Q eq_refl Ke) as (m' & R & [M1 _] & _).
  destruct (div_low q e' k Q Ke eq_refl) as (L1 & L2 & L3). set (M := q / 2 ^ (k - e')) in *.
  assert (Hk : -1074 <= k) by (unfold k; rewrite fexp_val; lia).
  destruct (rounded_low false k M m' _ Hk ltac:(lia) R) as [E|(Fx & Rv & E & G)]; [left; exact E|right].
  split; [exact Fx|]. exists M, (k + 1074). split; [lia|]. split; [exact L2|]. split; [destruct (Z.eq_dec k (-1074)); [left; lia|right; apply L3; lia]|].
  cbn [cond_Zopp] in E. rewrite E. split; [exact G|]. cbn [zv cond_Zopp].
  assert (W : 0 <= e' + ey + 2148) by (unfold e'; rewrite fexp_val; lia). assert (PW := pow2_pos _ W).
  assert (S : Zpos mx * 2 ^ t < (M + 1) * 2 ^ (k - e') * Zpos my) by nia.
  apply (Z.mul_lt_mono_pos_r (2 ^ (e' + ey + 2148))) in S; [|exact PW].
  replace (Zpos mx * 2 ^ (ex + 1074) * 2 ^ 1074) with (Zpos mx * 2 ^ t * 2 ^ (e' + ey + 2148)).
  2: { rewrite <- !Z.mul_assoc, <- !Z.pow_add_r by lia. do 2 f_equal. unfold t. lia. }
  eapply Z.lt_le_trans; [exact S|]. apply Z.eq_le_incl.
  replace ((M + 1) * 2 ^ (k - e') * Zpos my * 2 ^ (e' + ey + 2148)) with ((M + 1) * Zpos my * (2 ^ (k - e') * 2 ^ (e' + ey + 2148))) by ring.
  replace ((M + 1) * 2 ^ (k + 1074) * (Zpos my * 2 ^ (ey + 1074))) with ((M + 1) * Zpos my * (2 ^ (k + 1074) * 2 ^ (ey + 1074))) by ring.
  rewrite <- !Z.pow_add_r by lia. do 2 f_equal. lia.
Qed.
Lemma prod_low mx ex my ey : bounded 53 1024 mx ex = true -> bounded 53 1024 my ey = true ->
  low (SFmul 53 1024 (S754_finite false mx ex) (S754_finite false my ey)) (zv (S754_finite false mx ex) * zv (S754_finite false my ey)) (2 ^ 1074).
Proof.
  intros Bx By. pose proof (e_low _ _ Bx) as Hx. pose proof (e_low _ _ By) as Hy. cbn [SFmul xorb].
  destruct (bounded_facts _ _ Bx) as (Fx & _ & _ & Mx). destruct (bounded_facts _ _ By) as (Fy & _ & _ & My).
  rewrite fexp_val in Fx, Fy. set (q := Zpos (mx * my)). set (k := fexp64 (Zdigits2 q + (ex + ey))).
  assert (Q : 0 <= q) by (unfold q; lia).
  assert (Ke : ex + ey <= k).
  { unfold k, q. rewrite fexp_val. destruct (Z.eq_dec ex (-1074)) as [Ex|Ex]; [destruct (Z.eq_dec ey (-1074)) as [Ey|Ey]; [lia|]|].
    - specialize (My ltac:(lia)). assert (53 <= Zdigits2 (Zpos (mx * my))); [|lia]. apply digits_ge; [lia|].
      rewrite Pos2Z.inj_mul. change (2 ^ (53 - 1)) with (1 * 2 ^ 52). apply Z.mul_le_mono_nonneg; lia.
    - specialize (Mx ltac:(lia)). assert (53 <= Zdigits2 (Zpos (mx * my))); [|lia]. apply digits_ge; [lia|].
      rewrite Pos2Z.inj_mul. change (2 ^ (53 - 1)) with (2 ^ 52 * 1). apply Z.mul_le_mono_nonneg; lia. }
  destruct (round_aux false q (ex + ey) loc_Exact k Q eq_refl Ke) as (m' & R & [M1 _] & _).
  destruct (div_low q (ex + ey) k Q Ke eq_refl) as (L1 & L2 & L3). set (M := q / 2 ^ (k - (ex + ey))) in *.
  assert (Hk : -1074 <= k) by (unfold k; rewrite fexp_val; lia).
  destruct (rounded_low false k M m' _ Hk ltac:(lia) R) as [E|(Fz & Rv & E & G)]; [left; exact E|right].
  split; [exact Fz|]. exists M, (k + 1074). split; [lia|]. split; [exact L2|]. split; [destruct (Z.eq_dec k (-1074)); [left; lia|right; apply L3; lia]|].
  cbn [cond_Zopp] in E. rewrite E. split; [exact G|]. cbn [zv cond_Zopp].
  assert (PW := pow2_pos (ex + ey + 2148) ltac:(lia)).
  apply (Z.mul_lt_mono_pos_r (2 ^ (ex + ey + 2148))) in L1; [|exact PW].
  replace (Zpos mx * 2 ^ (ex + 1074) * (Zpos my * 2 ^ (ey + 1074))) with (q * 2 ^ (ex + ey + 2148)).
  2: { unfold q. rewrite Pos2Z.inj_mul. replace (ex + ey + 2148) with ((ex + 1074) + (ey + 1074)) by lia. rewrite Z.pow_add_r by lia. ring. }
  eapply Z.lt_le_trans; [exact L1|]. apply Z.eq_le_incl.
  rewrite <- !Z.mul_assoc, <- !Z.pow_add_r by lia. do 2 f_equal. lia.
Qed.

(** a double of size at least [2^(n+52)] is a multiple of [2^n] *)
Lemma on_grid x n : valid_binary 53 1024 x = true -> 0 <= n -> 2 ^ (n + 52) <= Z.abs (zv x) -> exists j, zv x = j * 2 ^ n.
Proof.
  intros V Hn H. destruct x as [s|s| |s m e]; try (cbn in H; assert (0 < 2 ^ (n + 52)) by (apply pow2_pos; lia); lia).
  cbn [valid_binary] in V. pose proof (e_low _ _ V). destruct (bounded_facts _ _ V) as (_ & _ & M & _). cbn [zv] in *.
  assert (K : n <= e + 1074).
  { destruct (Z.le_gt_cases n (e + 1074)) as [|G]; [assumption|exfalso]. assert (P := pow2_pos (e + 1074) ltac:(lia)).
    replace (Z.abs (cond_Zopp s (Zpos m * 2 ^ (e + 1074)))) with (Zpos m * 2 ^ (e + 1074)) in H by (destruct s; cbn [cond_Zopp]; lia).
    assert (Zpos m * 2 ^ (e + 1074) < 2 ^ 53 * 2 ^ (e + 1074)) by (apply Z.mul_lt_mono_pos_r; lia). rewrite <- Z.pow_add_r in * by lia.
    assert (2 ^ (53 + (e + 1074)) <= 2 ^ (n + 52)) by (apply Z.pow_le_mono_r; lia). lia. }
  exists (cond_Zopp s (Zpos m * 2 ^ (e + 1074 - n))). replace (e + 1074) with (e + 1074 - n + n) at 1 by lia. rewrite Z.pow_add_r by lia.
  destruct s; cbn [cond_Zopp]; ring.
Qed.
(** subtracting more than half the distance to a smaller double *)
Lemma sub_moves b l x : valid_binary 53 1024 b = true -> valid_binary 53 1024 l = true -> valid_binary 53 1024 x = true -> finite64 b -> finite64 l -> finite64 x ->
  0 < zv b - zv l < 2 * zv x -> finite64 (SFsub 53 1024 b x) -> zv (SFsub 53 1024 b x) <> zv b.
Proof.
  intros Vb Vl Vx Fb Fl Fx H Fr E. pose proof (sub_rounds b x Vb Vx Fb Fx) as R. set (r := SFsub 53 1024 b x) in *. set (W := zv b - zv x) in *.
  assert (C : W = 0 /\ zv r = 0 \/ exists s m, 0 < Z.abs W /\ near m (Z.abs W) (unit (Z.abs W)) /\ zv r = cond_Zopp s (m * 2 ^ unit (Z.abs W)) /\ W = cond_Zopp s (Z.abs W)).
  { clearbody W. destruct R as [s|V m y PV N RM|V m y PV N RM]; [left; auto|right; exists false, m|right; exists true, m].
    - rewrite Z.abs_eq by lia. destruct RM as [y E1 E2 E3|]; [auto|contradiction].
    - rewrite Z.abs_opp, Z.abs_eq by lia. destruct RM as [y E1 E2 E3|]; [auto|contradiction]. }
  destruct C as [[C1 C2]|(s & m & PW & N & Er & Ew)]; [lia|].
  destruct (unit_bounds _ PW) as (U & _ & U2). destruct (near_low m _ _ PW eq_refl N) as (M0 & M1 & M2).
  set (n := unit (Z.abs W)) in *. assert (Pn := pow2_pos n U). destruct N as [N _].
  assert (Dx : 2 * zv x <= 2 ^ n).
  { rewrite E in Er. assert (zv x = Z.abs (m * 2 ^ n - Z.abs W)); [|lia]. destruct s; cbn [cond_Zopp] in *; lia. }
  destruct (Z.eq_dec n 0) as [Z0|Z0]; [rewrite Z0, Z.pow_0_r in Dx; lia|].
  specialize (M1 ltac:(lia)). specialize (U2 ltac:(lia)). rewrite Z.pow_add_r in U2 by lia.
  assert (Gl : 2 ^ (n + 52) <= Z.abs (zv l)).
  { rewrite Z.pow_add_r by lia. rewrite E in Er. destruct s; cbn [cond_Zopp] in *.
    - assert (2 ^ n * 2 ^ 52 <= m * 2 ^ n) by nia. lia.
    - assert (W < zv b) by lia. destruct (Z.eq_dec m (2 ^ 52)) as [Em|Em]; [subst m; lia|].
      assert ((2 ^ 52 + 1) * 2 ^ n <= m * 2 ^ n) by (apply Z.mul_le_mono_nonneg_r; lia). lia. }
  destruct (on_grid l n Vl U Gl) as [j Ej].
  assert (exists i, zv b = i * 2 ^ n) as [i Ei] by (rewrite <- E, Er; exists (cond_Zopp s m); destruct s; cbn [cond_Zopp]; ring).
  assert (B : 0 < (i - j) * 2 ^ n < 2 ^ n) by (rewrite Z.mul_sub_distr_r; lia). clear - B Pn.
  destruct (Z.le_gt_cases (i - j) 0) as [K|K]; [assert ((i - j) * 2 ^ n <= 0 * 2 ^ n) by (apply Z.mul_le_mono_nonneg_r; lia)|assert (1 * 2 ^ n <= (i - j) * 2 ^ n) by (apply Z.mul_le_mono_nonneg_r; lia)]; lia.
Qed.

Lemma zv_huge x : valid_binary 53 1024 x = true -> Z.abs (zv x) < huge.
Proof.
  intros V. destruct x as [s|s| |s m e]; try (cbn; reflexivity). cbn [zv valid_binary] in *.
  destruct (bounded_facts _ _ V) as (_ & L & M1 & _). pose proof (e_low _ _ V). assert (P := pow2_pos (e + 1074) ltac:(lia)).
  replace (Z.abs (cond_Zopp s (Zpos m * 2 ^ (e + 1074)))) with (Zpos m * 2 ^ (e + 1074)) by (destruct s; cbn [cond_Zopp]; lia).
  unfold huge. replace 2098 with (53 + 2045) by lia. rewrite (Z.pow_add_r 2 53 2045) by lia.
  apply Z.lt_le_trans with (2 ^ 53 * 2 ^ (e + 1074)); [apply Z.mul_lt_mono_pos_r; lia|].
  apply Z.mul_le_mono_nonneg_l; [lia|]. apply Z.pow_le_mono_r; lia.
Qed.
Lemma eps_zv L : 2 ^ 1034 <= zv (f_val (dec (N:=FNum L) 1 12)).
Proof. vm_compute. discriminate. Qed.
(** what is drained in a shortened step is more than half of what was left *)
Lemma drained b l d : valid_binary 53 1024 b = true -> valid_binary 53 1024 l = true -> valid_binary 53 1024 d = true -> finite64 b -> finite64 l -> finite64 d ->
  2 ^ 1034 <= zv b - zv l -> 0 < zv d -> let x := SFmul 53 1024 d (SFdiv 53 1024 (SFsub 53 1024 b l) d) in
  x = S754_infinity false \/ finite64 x /\ zv b - zv l < 2 * zv x.
Proof.
  intros Vb Vl Vd Fb Fl Fd H Pd x. pose proof (sub_rounds b l Vb Vl Fb Fl) as R. pose proof (SFsub_valid b l Vb Vl) as Vs. set (s := SFsub 53 1024 b l) in *.
  set (V := zv b - zv l) in *. assert (PV : 0 < V) by (assert (0 < 2 ^ 1034) by (apply pow2_pos; lia); lia).
  destruct d as [sd|sd| |[|] md ed]; try contradiction; [cbn in Pd; lia|exfalso; cbn [zv cond_Zopp] in Pd; assert (0 <= Zpos md * 2 ^ (ed + 1074)) by (apply Z.mul_nonneg_nonneg; [lia|apply Z.pow_nonneg; lia]); lia|]. cbn [valid_binary] in Vd.
  assert (C : s = S754_infinity false \/ finite64 s /\ 15 * V <= 16 * zv s).
  { clearbody V. destruct R as [b0|V m y _ N RM|V m y PV' N RM]; [lia| |lia]. destruct RM as [y E1 E2 E3|]; [right|left; reflexivity]. split; [exact E3|].
    destruct (unit_bounds V PV) as (U & _ & U2). set (n := unit V) in *. cbn [cond_Zopp] in E1. destruct N as [N _]. rewrite E1.
    assert (8 * 2 ^ n <= V); [|lia]. destruct (Z.eq_dec n 0) as [->|]; [rewrite Z.pow_0_r; assert (8 <= 2 ^ 1034) by (vm_compute; discriminate); lia|].
    eapply Z.le_trans; [|apply U2; lia]. change 8 with (2 ^ 3). rewrite <- Z.pow_add_r by lia. apply Z.pow_le_mono_r; lia. }
  destruct C as [->|[Fs C]]; [left; reflexivity|].
  destruct s as [ss|ss| |[|] ms es]; try contradiction; [cbn [zv] in C; lia|cbn [zv cond_Zopp] in C; exfalso; assert (0 <= Zpos ms * 2 ^ (es + 1074)) by (apply Z.mul_nonneg_nonneg; [lia|apply Z.pow_nonneg; lia]); lia|].
  cbn [valid_binary] in Vs. subst x. set (ds := S754_finite false ms es) in *. set (dd := S754_finite false md ed) in *.
  assert (Pd' : zv dd < huge) by (pose proof (zv_huge dd Vd); lia).
  pose proof (quot_low ms es md ed Vs Vd) as QL. change (S754_finite false ms es) with ds in QL. change (S754_finite false md ed) with dd in QL.
  destruct QL as [E|[Fq (M & u & Hu & HM & Hc & Hq & Hl)]]; [rewrite E; left; reflexivity|].
  pose proof (SFdiv_valid ds dd) as Vq.
  match goal with |- context [SFmul 53 1024 _ ?y] => change y with (SFdiv 53 1024 ds dd) end.
  match goal with |- context [SFmul 53 1024 ?y _] => change y with dd end.
  set (q := SFdiv 53 1024 ds dd) in *. assert (Pu := pow2_pos u Hu).
  assert (P74 : 0 < 2 ^ 1074) by (apply pow2_pos; lia).
  assert (HM15 : 15 <= M).
  { destruct Hc as [Hc|Hc]; [|lia]. subst u. rewrite Z.pow_0_r, Z.mul_1_r in Hl. destruct (Z.le_gt_cases 15 M) as [|K]; [assumption|exfalso].
    assert ((M + 1) * zv dd <= 16 * huge) by (apply Z.mul_le_mono_nonneg; lia).
    assert (2 ^ 1033 * 2 ^ 1074 <= zv ds * 2 ^ 1074).
    { apply Z.mul_le_mono_nonneg_r; [lia|]. change (2 ^ 1034) with (2 * 2 ^ 1033) in H. lia. }
    assert (16 * huge < 2 ^ 1033 * 2 ^ 1074) by (vm_compute; reflexivity). lia. }
  assert (Q1 : 15 * (zv ds * 2 ^ 1074) <= 16 * (zv q * zv dd)).
  { apply Z.le_trans with (15 * ((M + 1) * 2 ^ u * zv dd)); [lia|]. apply Z.le_trans with (16 * (M * 2 ^ u * zv dd)); [|apply Z.mul_le_mono_nonneg_l; [lia|]; apply Z.mul_le_mono_nonneg_r; lia].
    replace (15 * ((M + 1) * 2 ^ u * zv dd)) with (15 * (M + 1) * (2 ^ u * zv dd)) by ring. replace (16 * (M * 2 ^ u * zv dd)) with (16 * M * (2 ^ u * zv dd)) by ring.
    apply Z.mul_le_mono_nonneg_r; nia. }
  assert (Pq : 0 < zv q) by (assert (0 < M * 2 ^ u) by (apply Z.mul_pos_pos; lia); lia).
  destruct q as [sq|sq| |[|] mq eq]; try contradiction; [cbn in Pq; lia|exfalso; cbn [zv cond_Zopp] in Pq; assert (0 <= Zpos mq * 2 ^ (eq + 1074)) by (apply Z.mul_nonneg_nonneg; [lia|apply Z.pow_nonneg; lia]); lia|].
  cbn [valid_binary] in Vq. set (qq := S754_finite false mq eq) in *.
  pose proof (prod_low md ed mq eq Vd Vq) as QL. change (S754_finite false mq eq) with qq in QL. change (S754_finite false md ed) with dd in QL.
  destruct QL as [E|[Fx (M2 & u2 & Hu2 & HM2 & Hc2 & Hq2 & Hl2)]]; [rewrite E; left; reflexivity|right].
  split; [exact Fx|]. set (x := SFmul 53 1024 dd qq) in *. assert (Pu2 := pow2_pos u2 Hu2).
  assert (S1 : 225 * (V * 2 ^ 1074) <= 256 * (zv qq * zv dd)).
  { assert (15 * V * 2 ^ 1074 <= 16 * zv ds * 2 ^ 1074) by (apply Z.mul_le_mono_nonneg_r; lia). lia. }
  assert (HM2' : 15 <= M2).
  { destruct Hc2 as [Hc2|Hc2]; [|lia]. subst u2. rewrite Z.pow_0_r, Z.mul_1_r in Hl2. destruct (Z.le_gt_cases 15 M2) as [|K]; [assumption|exfalso].
    assert ((M2 + 1) * 2 ^ 1074 <= 16 * 2 ^ 1074) by (apply Z.mul_le_mono_nonneg_r; lia).
    assert (2 ^ 1034 * 2 ^ 1074 <= V * 2 ^ 1074) by (apply Z.mul_le_mono_nonneg_r; lia).
    assert (4096 * 2 ^ 1074 < 2 ^ 1034 * 2 ^ 1074) by (vm_compute; reflexivity). lia. }
  assert (S2 : 15 * (zv qq * zv dd) <= 16 * (zv x * 2 ^ 1074)).
  { apply Z.le_trans with (15 * ((M2 + 1) * 2 ^ u2 * 2 ^ 1074)); [lia|]. apply Z.le_trans with (16 * (M2 * 2 ^ u2 * 2 ^ 1074)); [|apply Z.mul_le_mono_nonneg_l; [lia|]; apply Z.mul_le_mono_nonneg_r; lia].
    replace (15 * ((M2 + 1) * 2 ^ u2 * 2 ^ 1074)) with (15 * (M2 + 1) * (2 ^ u2 * 2 ^ 1074)) by ring. replace (16 * (M2 * 2 ^ u2 * 2 ^ 1074)) with (16 * M2 * (2 ^ u2 * 2 ^ 1074)) by ring.
    apply Z.mul_le_mono_nonneg_r; nia. }
  assert (S3 : 3375 * V * 2 ^ 1074 <= 4096 * zv x * 2 ^ 1074) by lia. apply Z.mul_le_mono_pos_r in S3; lia.
Qed.
End Z.

Section Batt.
Variable L : libm.
Notation FN := (FNum L).
Variables (o : qlaw FN) (p : problem FN) (ea er : eta_arg FN).
Variables (e M : Z) (u v : f64).
Hypotheses (He : (-1074 <= e)%Z) (F : forward64 o p) (Rk : q_integ o = RK4) (Wu : worth u 1 e) (Wv : worth v M e) (HM : (M <= 2 ^ 53)%Z)
  (Hu : fle u (p_t_step p)) (Hv : fle (nabs (Num:=FN) (p_tf_max p)) v).
Hypotheses (Hon : fle (nabs (Num:=FN) (p_tf_max p)) (p_duty_on p)) (Fc : fin (p_charge p)) (Pc : fle f0 (p_charge p)) (Hlh : fle (p_cap_lo p) (p_cap_hi p))
  (Hfull : ~ flt (nsub (Num:=FN) (p_cap_hi p) (nmul (p_discharge p) (p_t_step p))) (p_cap_lo p)).

Lemma above (b : f64) : fin b -> nleb (Num:=FN) b (nadd (Num:=FN) (p_cap_lo p) (dec (N:=FN) 1 12)) = false -> (2 ^ 1034 <= zv (f_val b) - zv (f_val (p_cap_lo p)))%Z.
Proof.
  intros Fb H. assert (Fl : fin (p_cap_lo p)) by apply F. destruct (eps_ok L) as [_ Fe]. pose proof (eps_zv L) as E. revert H Fe E.
  generalize (dec (N:=FN) 1 12) as eps. generalize (2 ^ 1034)%Z as z. intros z eps H Fe E. cbn [nleb nadd FNum] in H. rewrite v_add in H.
  destruct (Z.le_gt_cases (zv (f_val b)) (zv (f_val (p_cap_lo p)) + zv (f_val eps))) as [K|K]; [exfalso|lia].
  assert (Q : SFleb (f_val b) (SFadd 53 1024 (f_val (p_cap_lo p)) (f_val eps)) = true).
  { apply (rounds_mono _ _ _ _ K); [apply f_ok|apply SFadd_valid; apply f_ok|apply rounds_self; [apply f_ok|apply fin64; exact Fb]|].
    apply add_rounds; [apply f_ok|apply f_ok|apply fin64; exact Fl|apply fin64; exact Fe]. }
  rewrite Q in H. discriminate H.
Qed.
Lemma drops (b : f64) : fin b -> nleb (Num:=FN) b (nadd (Num:=FN) (p_cap_lo p) (dec (N:=FN) 1 12)) = false -> flt f0 (p_discharge p) ->
  let c := npclip (N:=FN) (nsub (Num:=FN) b (nmul (p_discharge p) (ndiv (nsub (Num:=FN) b (p_cap_lo p)) (p_discharge p)))) (p_cap_lo p) (p_cap_hi p) in
  fin c /\ (zv (f_val c) < zv (f_val b))%Z.
Proof.
  intros Fb H Pd c. subst c. pose proof (above b Fb H) as A. assert (Fl : fin (p_cap_lo p)) by apply F. assert (Fd : fin (p_discharge p)) by apply F. assert (Fh : fin (p_cap_hi p)) by apply F.
  assert (A0 : (0 < 2 ^ 1034)%Z) by (apply pow2_pos; lia).
  assert (Pz : (0 < zv (f_val (p_discharge p)))%Z) by (apply zlt in Pd; [exact Pd|exact I|exact Fd]).
  pose proof (drained (f_val b) (f_val (p_cap_lo p)) (f_val (p_discharge p)) (f_ok _) (f_ok _) (f_ok _) (fin64 _ Fb) (fin64 _ Fl) (fin64 _ Fd) A Pz) as D. cbv zeta in D.
  set (y := nmul (Num:=FN) (p_discharge p) (ndiv (nsub (Num:=FN) b (p_cap_lo p)) (p_discharge p))).
  assert (Ey : f_val y = SFmul 53 1024 (f_val (p_discharge p)) (SFdiv 53 1024 (SFsub 53 1024 (f_val b) (f_val (p_cap_lo p))) (f_val (p_discharge p)))).
  { unfold y. cbn [nmul ndiv nsub FNum]. rewrite v_mul, v_div, v_sub. reflexivity. }
  rewrite <- Ey in D. clearbody y. clear Ey. unfold npclip. cbn [nltb FNum].
  set (x := nsub (Num:=FN) b y). assert (Ex : f_val x = SFsub 53 1024 (f_val b) (f_val y)) by (unfold x; cbn [nsub FNum]; apply v_sub). clearbody x.
  destruct (SFltb (f_val x) (f_val (p_cap_lo p))) eqn:E1.
  { destruct (SFltb (f_val (p_cap_hi p)) (f_val (p_cap_lo p))) eqn:E2; [elim (ltb_not _ _ E2 Hlh)|split; [exact Fl|lia]]. }
  assert (Nx : num64 (f_val x)).
  { rewrite Ex. destruct D as [D|[D _]].
    - rewrite D. unfold fin in Fb. destruct (f_val b); try contradiction; discriminate.
    - apply (rounds_num (zv (f_val b) - zv (f_val y))). apply sub_rounds; try apply f_ok; [apply fin64; exact Fb|exact D]. }
  destruct D as [D|[D1 D2]].
  { exfalso. rewrite Ex, D in E1. unfold fin in Fb, Fl. destruct (f_val b); try contradiction; destruct (f_val (p_cap_lo p)); try contradiction; discriminate E1. }
  apply nltb_le in E1; [|exact Nx|apply fin_num; exact Fl].
  assert (Py : nonneg (f_val y)).
  { apply zv_leb; [reflexivity|apply f_ok|exact I|exact D1|]. cbn [zv]. lia. }
  assert (Le : SFleb (f_val x) (f_val b) = true).
  { rewrite Ex. apply SFsub_le; [apply f_ok|apply fin_num; exact Fb|exact Py|]. intros Q. unfold fin in Fb. rewrite Q in Fb. exact Fb. }
  assert (Fx : fin x) by (apply (between_fin (p_cap_lo p) x b); assumption).
  assert (Zx : (zv (f_val x) < zv (f_val b))%Z).
  { apply zv_leb in Le; try apply f_ok; try (apply fin64; assumption).
    assert (zv (f_val x) <> zv (f_val b)); [|lia]. rewrite Ex. apply (sub_moves _ (f_val (p_cap_lo p))); try apply f_ok; try (apply fin64; assumption); [lia|].
    rewrite <- Ex. apply fin64, Fx. }
  destruct (SFltb (f_val (p_cap_hi p)) (f_val x)) eqn:E2; [|split; assumption]. split; [exact Fh|]. apply (zlt _ _ Fh Fx) in E2. lia.
Qed.

Definition atmost (s : lstate FN) : Prop := l_duty s = true \/ l_chg s = true \/ (fin (l_batt s) /\ zv (f_val (l_batt s)) = zv (f_val (p_cap_hi p))).

Lemma keeps_on (gs : list (grow FN)) (s : lstate FN) : tr o p ea er gs s -> guard p s = true -> nltb (Num:=FN) (p_duty_on p) (nsub (Num:=FN) (l_t s) (l_ton s)) = false.
Proof.
  intros T G. destruct (tr_ok L o p ea er _ _ F T) as [_ To]. assert (Ft := guard_fin L o p ea er _ _ T To G). destruct (ton_le L o p ea er _ _ F T) as [T1 T2].
  assert (Fo : fin (l_ton s)) by (apply (between_fin f0 _ (l_t s)); [exact I|exact Ft|exact T2|exact T1]).
  apply fle_not. eapply fle_trans; [|exact Hon]. rewrite (guard_last L o p ea er _ _ T) in G. cbn [nltb FNum] in G. apply ltb_leb in G.
  eapply fle_trans; [|exact G]. unfold fle. cbn [nsub nabs FNum]. rewrite v_sub, v_abs.
  apply (leb_trans _ (f_val (l_t s))).
  - apply SFsub_le; [apply f_ok|apply fin_num; exact Ft|exact T2|]. intros Q. unfold fin in Ft. rewrite Q in Ft. exact Ft.
  - unfold fin, time_ok, fle in Ft, To. destruct (f_val (l_t s)) as [b| | |[|] m ex]; try contradiction; try discriminate To; [destruct b; reflexivity|]. apply leb_refl. discriminate.
Qed.
Lemma stays_full (b : f64) : fin b -> zv (f_val b) = zv (f_val (p_cap_hi p)) ->
  let c := npclip (N:=FN) (nadd (Num:=FN) b (nmul (p_charge p) (p_t_step p))) (p_cap_lo p) (p_cap_hi p) in fin c /\ zv (f_val c) = zv (f_val (p_cap_hi p)).
Proof.
  intros Fb E c. assert (Fl : fin (p_cap_lo p)) by apply F. assert (Fh : fin (p_cap_hi p)) by apply F. assert (Fs : fin (p_t_step p)) by apply F. assert (Ps : fle f0 (p_t_step p)) by apply F.
  set (y := nmul (Num:=FN) (p_charge p) (p_t_step p)) in *.
  assert (Ny : num64 (f_val y)) by (unfold y; cbn [nmul FNum]; rewrite v_mul; apply fin_mul; assumption).
  assert (Py : nonneg (f_val y)).
  { unfold y in *. cbn [nmul FNum] in *. rewrite v_mul in *. apply SFmul_nonneg; try apply f_ok; assumption. }
  assert (G : fle b (nadd (Num:=FN) b y)).
  { unfold fle. cbn [nadd FNum]. rewrite v_add. apply SFadd_ge; [apply f_ok|apply fin_num; exact Fb|exact Py|]. intros Q. unfold fin in Fb. rewrite Q in Fb. exact Fb. }
  assert (Hb : fle (p_cap_hi p) b) by (apply zle; try assumption; lia).
  set (x := nadd (Num:=FN) b y) in *. clearbody x. unfold c, npclip. cbn [nltb FNum].
  destruct (SFltb (f_val x) (f_val (p_cap_lo p))) eqn:E1.
  { exfalso. apply (ltb_not _ _ E1). apply (leb_trans _ (f_val (p_cap_hi p))); [exact Hlh|]. eapply leb_trans; [exact Hb|exact G]. }
  destruct (SFltb (f_val (p_cap_hi p)) (f_val x)) eqn:E2; [split; [exact Fh|reflexivity]|].
  apply nltb_le in E2; [|apply fin_num; exact Fh|exact (leb_num_r _ _ G)].
  assert (Fx : fin x) by (apply (between_fin b _ (p_cap_hi p)); assumption). split; [exact Fx|].
  apply (zle _ _ Fx Fh) in E2. apply (zle _ _ Fb Fx) in G. lia.
Qed.
Lemma no_short_full (b : f64) : fin b -> zv (f_val b) = zv (f_val (p_cap_hi p)) ->
  nltb (Num:=FN) (nsub (Num:=FN) b (nmul (p_discharge p) (p_t_step p))) (p_cap_lo p) = false.
Proof.
  intros Fb E. assert (Fl : fin (p_cap_lo p)) by apply F. assert (Fh : fin (p_cap_hi p)) by apply F. assert (Fs : fin (p_t_step p)) by apply F. assert (Fd : fin (p_discharge p)) by apply F.
  unfold flt in Hfull. cbn [nltb nsub FNum] in *. rewrite v_sub in *. set (y := nmul (Num:=FN) (p_discharge p) (p_t_step p)) in *.
  assert (Ny : num64 (f_val y)) by (unfold y; cbn [nmul FNum]; rewrite v_mul; apply fin_mul; assumption).
  destruct (SFltb (SFsub 53 1024 (f_val b) (f_val y)) (f_val (p_cap_lo p))) eqn:K; [exfalso|reflexivity]. apply Hfull. clear Hfull.
  apply ltb_key in K as (K1 & K2 & K3). apply ltb_key.
  assert (Q : SFleb (SFsub 53 1024 (f_val (p_cap_hi p)) (f_val y)) (SFsub 53 1024 (f_val b) (f_val y)) = true).
  { destruct (f_val y) as [sy|sy| |sy my ey] eqn:Y; [| |elim Ny; reflexivity|].
    - eapply (rounds_mono (zv (f_val (p_cap_hi p)) - 0) (zv (f_val b) - 0)); [lia|apply SFsub_valid; [apply f_ok|reflexivity]|apply SFsub_valid; [apply f_ok|reflexivity]| |]; apply (sub_rounds _ (S754_zero sy)); try apply f_ok; try reflexivity; try exact I; apply fin64; assumption.
    - unfold fin in Fb, Fh. destruct (f_val (p_cap_hi p)), (f_val b); try contradiction; destruct sy; reflexivity.
    - assert (Vy : valid_binary 53 1024 (S754_finite sy my ey) = true) by (rewrite <- Y; apply f_ok).
      eapply rounds_mono; [|apply SFsub_valid; [apply f_ok|exact Vy]|apply SFsub_valid; [apply f_ok|exact Vy]|apply sub_rounds; [apply f_ok|exact Vy|apply fin64; exact Fh|exact I]|apply sub_rounds; [apply f_ok|exact Vy|apply fin64; exact Fb|exact I]]. lia. }
  apply leb_key in Q as (Q1 & Q2 & Q3). split; [exact Q1|]. split; [exact K2|]. intros X. apply K3. eapply kle_trans; eassumption.
Qed.

Lemma full_up (s : lstate FN) (g : grow FN) (gs : list (grow FN)) : tr o p ea er gs s -> guard p s = true -> iter o p ea er s g -> pl_dt (g_pl g) = p_t_step p -> flt (l_t s) (g_t g).
Proof.
  intros T G Hit Ed. destruct (guard_bound L o p ea er e M v He F Wv Hv _ _ T G) as (Ft & T0 & T1). destruct (iter_vals L o p ea er s g Hit) as (Et & _).
  assert (Fs : fin (p_t_step p)) by apply F. assert (P := pow2_pos (e + 1074) ltac:(lia)).
  assert (Us : (2 ^ (e + 1074) <= zv (f_val (p_t_step p)))%Z).
  { destruct (worth_fin' e _ _ Wu) as [Fu _]. apply zle in Hu; try assumption. rewrite (worth_zv u 1 e He Wu) in Hu. lia. }
  rewrite Ed in Et.
  assert (R : rounds (zv (f_val (l_t s)) + zv (f_val (p_t_step p))) (f_val (g_t g))).
  { rewrite Et. cbn [nadd FNum]. rewrite v_add. apply add_rounds; try apply f_ok; apply fin64; assumption. }
  set (V := (zv (f_val (l_t s)) + zv (f_val (p_t_step p)))%Z) in *. assert (0 < V)%Z by lia.
  assert (K : exists m, near m V (unit V) /\ rmag false (m * 2 ^ unit V) (f_val (g_t g))).
  { remember (f_val (g_t g)) as x. destruct R as [b|W m x PW N RM|W m x PW N RM]; [lia|eauto|lia]. }
  clear R. destruct K as (m & N & RM).
  assert (B : (zv (f_val (l_t s)) < 2 ^ (53 + (e + 1074)))%Z).
  { rewrite Z.pow_add_r by lia. apply Z.lt_le_trans with (1 := T1). apply Z.mul_le_mono_nonneg_r; lia. }
  pose proof (near_up m V (e + 1074) _ ltac:(lia) T0 ltac:(lia) B N) as Up.
  remember (f_val (g_t g)) as x. destruct RM as [x E1 E2 E3|E].
  + apply zlt; [exact Ft|unfold fin; rewrite <- Heqx; destruct x; try contradiction; exact I|]. rewrite <- Heqx. cbn [cond_Zopp] in E1. lia.
  + unfold flt. rewrite <- Heqx. unfold fin in Ft. destruct (f_val (l_t s)) as [| | |[|]]; try contradiction; reflexivity.
Qed.

Lemma chg_full (b : f64) batt dtb duty c : batt_ok b -> battery_update (N:=FN) p batt dtb duty true = (b, c) -> c = true \/ (fin b /\ zv (f_val b) = zv (f_val (p_cap_hi p))).
Proof.
  intros Bo Bu. destruct (batt_chg _ _ _ _ _ _ Bu) as [C|C]; [left; exact C|right]. cbn [neqb FNum] in C. assert (Fh : fin (p_cap_hi p)) by apply F.
  destruct Bo as [Bn|Bf]; [exfalso; unfold isnan in Bn; rewrite Bn in C; discriminate C|]. split; [exact Bf|].
  assert (SFleb (f_val b) (f_val (p_cap_hi p)) = true /\ SFleb (f_val (p_cap_hi p)) (f_val b) = true) as [C1 C2].
  { clear - C. split; unfold SFeqb, SFleb in *.
    - destruct (SFcompare _ _) as [[| |]|]; congruence.
    - destruct (f_val b) as [[|]|[|]| |[|] m1 e1], (f_val (p_cap_hi p)) as [[|]|[|]| |[|] m2 e2]; cbn in *; try discriminate; try reflexivity;
      (destruct (Z.compare_spec e1 e2); try discriminate; subst; rewrite Z.compare_refl; change (Pcompare m1 m2 Eq) with (Pos.compare m1 m2) in C; change (Pcompare m2 m1 Eq) with (Pos.compare m2 m1); destruct (Pos.compare_spec m1 m2); try discriminate; subst; rewrite Pos.compare_refl; reflexivity). }
  apply (zle _ _ Bf Fh) in C1. apply (zle _ _ Fh Bf) in C2. lia.
Qed.
(** one iteration: either the time advances, or it does not go back and the battery drains *)
Lemma batt_iter (s : lstate FN) (g : grow FN) (gs : list (grow FN)) : tr o p ea er gs s -> guard p s = true -> iter o p ea er s g -> atmost s ->
  atmost (post g) /\ (flt (l_t s) (g_t g) \/ fle (l_t s) (g_t g) /\ flt (g_b g) (l_batt s) /\ (zv (f_val (g_b g)) < zv (f_val (l_batt s)))%Z).
Proof.
  intros T G Hit J. pose proof (keeps_on _ _ T G) as On. destruct (tr_ok L o p ea er _ _ F T) as [Bo To].
  destruct (iter_sfields _ _ _ _ _ _ Hit) as (S1 & S2 & S3 & S4 & S5 & S6 & S7 & _).
  destruct (plan_inv _ _ _ _ (it_plan _ _ _ _ _ _ Hit)) as (dt0 & d1 & ton1 & toff1 & d2 & Ls & Du & Ba & Re & Et).
  destruct (iter_vals L o p ea er s g Hit) as (_ & _ & Edt & Eb). specialize (Edt Rk).
  rewrite S1, S4, S5, S6 in Du. rewrite S1, S3, S7 in Ba. rewrite S3 in Re. pose proof (it_batt _ _ _ _ _ _ Hit) as Bu. rewrite S3 in Bu.
  assert (dt0 = p_t_step p) as ->. { unfold local_step in Ls. replace (q_sundman o) with false in Ls by (symmetry; apply F). congruence. }
  assert (Dd : l_duty s = true -> d1 = true).
  { intros D. rewrite D in Du. unfold duty_phase in Du. rewrite On in Du. cbn [andb negb] in Du. rewrite andb_false_r in Du. congruence. }
  destruct (row_step L o p ea er s g F Bo To Hit) as (Tg & _ & Bo').
  pose proof (full_up s g gs T G Hit) as Up. unfold battery_phase in Ba.
  assert (Cg : pl_chg (g_pl g) = true -> atmost (post g)).
  { intros Ec. rewrite Ec in Bu. destruct (chg_full _ _ _ _ _ Bo' Bu) as [C|C]; [right; left; exact C|right; right; exact C]. }
  destruct (nleb (l_batt s) (nadd (p_cap_lo p) (dec (N:=FN) 1 12))) eqn:X1.
  { injection Ba as Ed Ed2 _ Ec. split; [apply Cg; congruence|left; apply Up; congruence]. }
  assert (Full : (p_t_step p, d1, toff1, l_chg s) = (pl_dt (g_pl g), d2, pl_toff (g_pl g), pl_chg (g_pl g)) ->
    atmost (post g) /\ (flt (l_t s) (g_t g) \/ fle (l_t s) (g_t g) /\ flt (g_b g) (l_batt s) /\ (zv (f_val (g_b g)) < zv (f_val (l_batt s)))%Z)).
  { clear Ba. intros Ba. injection Ba as Ed Ed2 _ Ec. split; [|left; apply Up; congruence].
    destruct (l_chg s) eqn:Cs; [apply Cg; congruence|]. destruct (pl_duty (g_pl g)) eqn:D; [left; exact D|].
    rewrite <- Ec in Re. unfold recharge_phase in Re. rewrite andb_false_r in Re. cbn [andb] in Re. right. right.
    destruct J as [J|[J|[J1 J2]]]; [specialize (Dd J); congruence|congruence|]. cbn [post l_batt]. rewrite Eb, Edt, <- Ed. apply stays_full; assumption. }
  destruct (nltb (nsub (l_batt s) (nmul (p_discharge p) (p_t_step p))) (p_cap_lo p)) eqn:X2; [destruct (l_chg s) eqn:Cs|]; cbn [andb negb] in Ba; [exact (Full Ba)| |exact (Full Ba)].
  clear Full. injection Ba as Ed Ed2 _ Ec.
  assert (D1 : d1 = true).
  { destruct J as [J|[J|[J1 J2]]]; [exact (Dd J)|congruence|]. rewrite (no_short_full _ J1 J2) in X2. discriminate. }
  rewrite <- Ec in Re. unfold recharge_phase in Re. rewrite andb_false_r in Re. cbn [andb] in Re. rewrite <- Ed2, D1 in Re.
  split; [left; exact Re|right]. split; [exact Tg|]. rewrite Eb, Re, Edt, <- Ed.
  assert (Fb : fin (l_batt s)).
  { destruct Bo as [Bn|Bf]; [|exact Bf]. exfalso. cbn [nltb nsub FNum] in X2. rewrite v_sub, Bn in X2. cbn [SFsub] in X2. discriminate X2. }
  match goal with |- flt ?c _ /\ _ => assert (Q : fin c /\ (zv (f_val c) < zv (f_val (l_batt s)))%Z) end.
  2: { destruct Q as [Q1 Q2]. split; [apply zlt; assumption|exact Q2]. }
  apply drops; [exact Fb|exact X1|]. refine (proj1 (shorten L p (l_batt s) (p_t_step p) _ _ Bo _ _ X1 X2)); try apply F. apply fin_num, F.
Qed.

Lemma ends (a c : Z) : forall gs (s : lstate FN), tr o p ea er gs s -> atmost s -> (a = huge - zv (f_val (l_t s)))%Z -> (c = huge + zv (f_val (l_batt s)))%Z ->
  exists n, forall fuel, (n <= fuel)%nat -> forall s', loop fuel o p ea er s <> LFuel s'.
Proof.
  revert c. induction a as [a IHa] using (well_founded_induction (Zwf_well_founded 0)).
  induction c as [c IHc] using (well_founded_induction (Zwf_well_founded 0)). intros gs s T J Ea Ec.
  destruct (guard p s) eqn:G.
  2: { exists O. intros [|n] _ s'; cbn [loop]; rewrite G; discriminate. }
  destruct (tr_ok L o p ea er _ _ F T) as [_ To]. assert (Ft := guard_fin L o p ea er _ _ T To G).
  pose proof (step_cases o p ea er s) as SC. destruct (step o p ea er s) as [s1|code conv s1|ex s1] eqn:Es.
  - inversion SC as [g Hit Heq| | |]. assert (T1 : tr o p ea er (gs ++ [g]) s1) by (eapply tr_snoc; eauto).
    destruct (batt_iter s g gs T G Hit J) as [J1 Pr].
    assert (E1 : l_t s1 = g_t g /\ l_batt s1 = g_b g /\ atmost s1).
    { destruct (exit_next_hist _ _ _ _ Heq) as [n ->]. repeat split; try reflexivity. exact J1. }
    destruct E1 as (E1 & E2 & J2). rewrite <- E1, <- E2 in Pr.
    assert (Q : exists n, forall fuel, (n <= fuel)%nat -> forall s', loop fuel o p ea er s1 <> LFuel s').
    { destruct (guard p s1) eqn:G1.
      2: { exists O. intros [|n] _ s'; cbn [loop]; rewrite G1; discriminate. }
      assert (Ft1 : fin (l_t s1)) by (eapply guard_fin; [exact T1|apply (tr_ok L o p ea er _ _ F T1)|exact G1]).
      pose proof (zv_huge _ (f_ok (l_t s))) as Z1. pose proof (zv_huge _ (f_ok (l_t s1))) as Z2.
      pose proof (zv_huge _ (f_ok (l_batt s))) as Z3. pose proof (zv_huge _ (f_ok (l_batt s1))) as Z4.
      assert (Pr' : (zv (f_val (l_t s)) < zv (f_val (l_t s1)) \/ zv (f_val (l_t s)) = zv (f_val (l_t s1)) /\ zv (f_val (l_batt s1)) < zv (f_val (l_batt s)))%Z).
      { destruct Pr as [Pr|(Pr1 & _ & Pr2)]; [left; apply zlt; assumption|]. apply zle in Pr1; try assumption. lia. }
      destruct Pr' as [K|[K1 K2]].
      - apply (IHa (huge - zv (f_val (l_t s1)))%Z) with (c := (huge + zv (f_val (l_batt s1)))%Z) (gs := gs ++ [g]); try assumption; try reflexivity. unfold Zwf. lia.
      - apply (IHc (huge + zv (f_val (l_batt s1)))%Z) with (gs := gs ++ [g]); try assumption; try reflexivity; [unfold Zwf; lia|lia]. }
    destruct Q as [n Q]. exists (S n). intros [|m] Hm s'; [lia|]. cbn [loop]. rewrite G, Es. apply Q. lia.
  - exists 1%nat. intros [|n] Hn s'; [lia|]. cbn [loop]. rewrite G, Es. discriminate.
  - exists 1%nat. intros [|n] Hn s'; [lia|]. cbn [loop]. rewrite G, Es. discriminate.
Qed.
Lemma tr_atmost (gs : list (grow FN)) (s : lstate FN) : tr o p ea er gs s -> atmost s.
Proof.
  intros H. induction H as [|gs s g s' Ht IH Hg Hit Hex]; [left; reflexivity|].
  destruct (exit_next_hist _ _ _ _ Hex) as [n ->]. exact (proj1 (batt_iter s g gs Ht Hg Hit IH)).
Qed.
Lemma C115_rows_lem fuel (o' : qlaw FN) (h : hist FN) k t t' b b' : ran fuel o ea er p o' h ->
  nth_error (h_times h) k = Some t -> nth_error (h_times h) (S k) = Some t' -> nth_error (h_battery h) k = Some b -> nth_error (h_battery h) (S k) = Some b' ->
  flt t t' \/ fle t t' /\ flt b' b.
Proof.
  intros R Et Et' Eb Eb'. destruct (run_rows L o p ea er _ _ _ R) as (gs & Lg & Rw).
  assert (Hk : (k < length gs)%nat).
  { destruct (ran_ended _ _ _ _ _ _ _ R) as (gs' & oel & code & conv & En & Eh & _). subst h. cbn in Et', Lg. rewrite map_length in Lg. rewrite Lg.
    apply nth_error_Some. intros X. rewrite nth_error_map, X in Et'. discriminate. }
  destruct (nth_error gs k) as [g|] eqn:Eg; [|apply nth_error_None in Eg; lia]. destruct (Rw k g Eg) as (sk & T & RF).
  rewrite (rf_t _ _ _ _ _ _ _ _ RF) in Et. rewrite (rf_t' _ _ _ _ _ _ _ _ RF) in Et'. rewrite (rf_b _ _ _ _ _ _ _ _ RF) in Eb. rewrite (rf_b' _ _ _ _ _ _ _ _ RF) in Eb'.
  injection Et as <-. injection Et' as <-. injection Eb as <-. injection Eb' as <-.
  pose proof (rf_iter _ _ _ _ _ _ _ _ RF) as Hit. pose proof (rf_guard _ _ _ _ _ _ _ _ RF) as G.
  destruct (proj2 (batt_iter sk g _ T G Hit (tr_atmost _ _ T))) as [P|(P1 & P2 & _)]; [left; exact P|right]. split; assumption.
Qed.
Lemma C115_lem : q_problem o = Some p -> exists n, forall fuel, (n <= fuel)%nat -> solve fuel o ea er <> Running.
Proof.
  intros Hp. destruct (ends _ _ [] (init_state p) (tr_nil _ _ _ _) (or_introl eq_refl) eq_refl eq_refl) as [n Q]. exists n. intros fuel Hf.
  unfold solve. rewrite Hp.
  destruct ea as [w|f|]; try discriminate;
    (destruct (loop fuel o p _ er (init_state p)) eqn:HL; try discriminate; exfalso; eapply Q; eauto).
Qed.
End Batt.
