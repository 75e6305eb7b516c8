(** Special values: how nan and infinities travel through the control law (extended reals). *)
From Coq Require Import Reals Lra ZArith List Bool.
From Verif Require Import RMath RLib Num Base Lyapunov Symbolic SymKep SymMee Qlaw.
Import ListNotations.
Local Open Scope R_scope.

Lemma nan_add_l x : xadd NaN x = NaN. Proof. destruct x; reflexivity. Qed.
Lemma nan_add_r x : xadd x NaN = NaN. Proof. destruct x; reflexivity. Qed.
Lemma nan_sub_l x : xsub NaN x = NaN. Proof. destruct x; reflexivity. Qed.
Lemma nan_sub_r x : xsub x NaN = NaN. Proof. destruct x; reflexivity. Qed.
Lemma nan_mul_l x : xmul NaN x = NaN. Proof. destruct x; reflexivity. Qed.
Lemma nan_mul_r x : xmul x NaN = NaN. Proof. destruct x; reflexivity. Qed.
Lemma nan_div_l x : xdiv NaN x = NaN. Proof. destruct x; reflexivity. Qed.
Lemma nan_div_r x : xdiv x NaN = NaN. Proof. destruct x; reflexivity. Qed.
Lemma nan_atan2_l x : xatan2 NaN x = NaN. Proof. destruct x; reflexivity. Qed.
Lemma nan_atan2_r x : xatan2 x NaN = NaN. Proof. destruct x; reflexivity. Qed.
Lemma nan_pow_l x : xpow NaN x = NaN. Proof. destruct x; reflexivity. Qed.
Ltac nans := rewrite ?nan_add_l, ?nan_add_r, ?nan_sub_l, ?nan_sub_r, ?nan_mul_l, ?nan_mul_r, ?nan_div_l, ?nan_div_r,
  ?nan_atan2_l, ?nan_atan2_r, ?nan_pow_l.
Ltac xnum := change (nadd (Num:=XNum)) with xadd in *; change (nsub (Num:=XNum)) with xsub in *;
  change (nmul (Num:=XNum)) with xmul in *; change (ndiv (Num:=XNum)) with xdiv in *; change (nopp (Num:=XNum)) with xopp in *;
  change (nsqrt (Num:=XNum)) with xsqrt in *; change (natan2 (Num:=XNum)) with xatan2 in *;
  change (natan (Num:=XNum)) with xatan in *; change (npow (Num:=XNum)) with xpow in *;
  change (nexp (Num:=XNum)) with xexp in *; change (nsin (Num:=XNum)) with (xlift sin) in *;
  change (ncos (Num:=XNum)) with (xlift cos) in *; change (neqb (Num:=XNum)) with xeqb in *;
  change (nofZ (Num:=XNum)) with (fun z => Fin (IZR z)) in *.

Definition infinite (x : ereal) : Prop := x = PInf \/ x = MInf.
Definition finite (x : ereal) : Prop := exists r, x = Fin r.

Lemma sq_inf x : infinite x -> xmul x x = PInf.
Proof.
  intros [-> | ->]; cbn; unfold xinf.
  - rewrite (proj2 (Rltb_false _ _)), (proj2 (Rltb_true _ _)) by lra. reflexivity.
  - rewrite (proj2 (Rltb_false _ _)), (proj2 (Rltb_true _ _)) by lra. reflexivity.
Qed.
(** a square is never -inf *)
Lemma sq_not_minf x : xmul x x <> MInf.
Proof.
  destruct x; try discriminate; rewrite sq_inf by (unfold infinite; auto); discriminate.
Qed.
Lemma add_pinf_l x : x <> NaN -> x <> MInf -> xadd PInf x = PInf.
Proof. destruct x; intros; try reflexivity; congruence. Qed.
Lemma add_pinf_r x : x <> NaN -> x <> MInf -> xadd x PInf = PInf.
Proof. destruct x; intros; try reflexivity; congruence. Qed.
Lemma sq_nan x : xmul x x = NaN -> x = NaN.
Proof.
  destruct x; intros H; try reflexivity; try discriminate; rewrite sq_inf in H by (unfold infinite; auto); discriminate.
Qed.
Lemma add_nan x y : xadd x y = NaN -> x <> MInf -> y <> MInf -> x = NaN \/ y = NaN.
Proof. destruct x, y; cbn; intros; try congruence; auto. Qed.
Lemma add_minf x y : x <> MInf -> y <> MInf -> xadd x y <> MInf.
Proof. destruct x, y; cbn; congruence. Qed.

(** u_to_thrust_angles on a singular gradient: nan angles ... *)
Definition singular_in_plane (D : vec3 XNum) : Prop :=
  let 'mk3 x y z := D in
  (x = Fin 0 /\ y = Fin 0 /\ z = Fin 0) \/ x = NaN \/ y = NaN \/ z = NaN \/ infinite x \/ infinite y.
(** ... or, with a regular in-plane part, a division by zero *)
Definition normal_only (D : vec3 XNum) : Prop :=
  let 'mk3 x y z := D in
  (x = Fin 0 /\ y = Fin 0 /\ exists r, z = Fin r /\ r <> 0) \/ (finite x /\ finite y /\ infinite z).

Lemma inf_over_inf x : infinite x -> xdiv x PInf = NaN.
Proof. intros [-> | ->]; reflexivity. Qed.
Lemma xeqb_nan_l x : xeqb NaN x = false. Proof. destruct x; reflexivity. Qed.
Lemma jdiv_nan x : jdiv (N:=XNum) x NaN = Ok NaN.
Proof. unfold jdiv. xnum. rewrite xeqb_nan_l, nan_div_r. reflexivity. Qed.
Lemma sing_angles D : singular_in_plane D ->
  exists u b, u_to_thrust_angles (N:=XNum) D = Ok (u, NaN, b) /\ b = NaN.
Proof.
  destruct D as [x y z]. intros H. unfold u_to_thrust_angles. cbn [v3_0 v3_1 v3_2 v3divs]. unfold sq. xnum.
  set (n := xsqrt _).
  assert (C : n = NaN \/ (n = PInf /\ (infinite x \/ infinite y)) \/ (n = Fin 0 /\ x = Fin 0 /\ y = Fin 0)).
  { destruct H as [(-> & -> & ->)|H].
    - right. right. split; [|auto]. unfold n. cbn. replace (0 * 0 + 0 * 0 + 0 * 0) with 0 by ring.
      rewrite (proj2 (Rltb_false 0 0)) by lra. rewrite sqrt_0. reflexivity.
    - destruct (xmul x x) eqn:Ex; try (exfalso; exact (sq_not_minf x Ex));
      destruct (xmul y y) eqn:Ey; try (exfalso; exact (sq_not_minf y Ey));
      destruct (xmul z z) eqn:Ez; try (exfalso; exact (sq_not_minf z Ez)); unfold n; cbn;
      try (left; reflexivity);
      repeat match goal with K : _ \/ _ |- _ => destruct K as [K|K] end; subst;
      try (cbn in Ex; discriminate); try (cbn in Ey; discriminate); try (cbn in Ez; discriminate);
      try (rewrite sq_inf in Ex by assumption; discriminate); try (rewrite sq_inf in Ey by assumption; discriminate);
      right; left; split; auto. }
  destruct C as [C|[[C I]|(C & -> & ->)]]; rewrite C; clear C.
  - nans. cbn. do 2 eexists. split; reflexivity.
  - assert (E : xatan2 (xopp (xdiv x PInf)) (xopp (xdiv y PInf)) = NaN /\
      xadd (xmul (xdiv x PInf) (xdiv x PInf)) (xmul (xdiv y PInf) (xdiv y PInf)) = NaN).
    { destruct I as [I|I]; rewrite (inf_over_inf _ I); cbn [xopp]; nans; split; reflexivity. }
    destruct E as [E1 E2]. rewrite E1, E2. cbn [xsqrt]. rewrite jdiv_nan. cbn. do 2 eexists. split; reflexivity.
  - assert (Z : xdiv (Fin 0) (Fin 0) = NaN).
    { cbn. destruct (Reqb_spec 0 0); [|contradiction]. unfold xinf.
      rewrite (proj2 (Rltb_false 0 0)) by lra. rewrite (proj2 (Rltb_false 0 0)) by lra. reflexivity. }
    rewrite Z. cbn [xopp]. nans. cbn [xsqrt]. rewrite jdiv_nan. cbn. do 2 eexists. split; reflexivity.
Qed.
Lemma jdiv_zero x : jdiv (N:=XNum) x (Fin 0) = Err ZeroDivisionError.
Proof. unfold jdiv. cbn. destruct (Reqb_spec 0 0); [reflexivity|contradiction]. Qed.
Lemma normal_raises D : normal_only D -> u_to_thrust_angles (N:=XNum) D = Err ZeroDivisionError.
Proof.
  destruct D as [x y z]. intros H. unfold u_to_thrust_angles. cbn [v3_0 v3_1 v3_2 v3divs]. unfold sq. xnum.
  set (n := xsqrt _).
  assert (C : xdiv x n = Fin 0 /\ xdiv y n = Fin 0).
  { destruct H as [(-> & -> & r & -> & Hr)|([a ->] & [b ->] & I)].
    - unfold n. cbn. replace (0 * 0 + 0 * 0 + r * r) with (r * r) by ring.
      rewrite (proj2 (Rltb_false _ _)) by nra. cbn.
      assert (P : 0 < sqrt (r * r)) by (apply sqrt_lt_R0; apply Rsqr_pos_lt in Hr; exact Hr).
      destruct (Reqb_spec (sqrt (r * r)) 0); [lra|]. unfold Rdiv. rewrite Rmult_0_l. split; reflexivity.
    - unfold n. rewrite (sq_inf _ I). cbn. split; reflexivity. }
  destruct C as [-> ->]. cbn [xmul xadd xsqrt]. replace (0 * 0 + 0 * 0) with 0 by ring.
  rewrite (proj2 (Rltb_false 0 0)) by lra. rewrite sqrt_0, jdiv_zero. reflexivity.
Qed.

Lemma C34_control_lem (o : qlaw XNum) p ea er s pl acc out :
  pl_duty pl = true ->
  q_lyap o (q_mu o) acc (l_oe s) (p_oeT p) (q_rpmin o) (q_m o) (q_n o) (q_r o) (q_b o) (q_k o) (q_wp o) (p_woe p) = Ok out ->
  (singular_in_plane (lo_u out) ->
   (exists c, control o p ea er s pl acc = Ok (Ctl c) /\ c_thr c = 0%Z /\ c_u c = v3zero /\ c_nnan c = (l_nnan s + 1)%Z /\
      (l_nnan s + 1 <= q_nan_thr o)%Z) \/
   (control o p ea er s pl acc = Ok NanBreak /\ (q_nan_thr o < l_nnan s + 1)%Z)) /\
  (normal_only (lo_u out) -> control o p ea er s pl acc = Err ZeroDivisionError).
Proof.
  intros HD HF. unfold control, lyap_call, lyapunov_control_angles. rewrite HD, HF. cbn [bind]. split; intros H.
  - destruct (sing_angles _ H) as (u & b & E & ->). rewrite E. cbn [bind]. destruct (lo_psi out) as [c0 c1 c2]. cbn [bind].
    change (nisnan (Num:=XNum) NaN) with true. cbn [orb].
    destruct (Z.ltb_spec (q_nan_thr o) (l_nnan s + 1)).
    + right. split; [reflexivity|assumption].
    + left. eexists. split; [reflexivity|]. cbn. repeat split. assumption.
  - rewrite (normal_raises _ H). reflexivity.
Qed.

(** ** A non-integer n_petro below the target semimajor axis *)
Lemma Risint_false y : (forall k, y <> IZR k) -> Risint y = false.
Proof. intros H. unfold Risint. destruct (Reqb_spec y (IZR (Int_part y))) as [E|]; [exfalso; exact (H _ E)|reflexivity]. Qed.
Lemma xpow_neg x y : x < 0 -> (forall k, y <> IZR k) -> xpow (Fin x) (Fin y) = NaN.
Proof.
  intros Hx Hy. cbn. unfold Rpowo. rewrite (proj2 (Rltb_false 0 x)) by lra.
  destruct (Reqb_spec x 0); [lra|]. rewrite (Risint_false y Hy). reflexivity.
Qed.
Lemma kep_q_nan env (a aT m n : R) :
  env Voe0 = Fin a -> env VT0 = Fin aT -> env Vm = Fin m -> env Vn = Fin n ->
  0 < aT -> 0 < m -> a < aT -> (forall k, n <> IZR k) -> eval (N:=XNum) env SymKep.q = NaN.
Proof.
  intros E1 E2 E3 E4 HT Hm Ha Hn.
  assert (S : eval (N:=XNum) env SymKep.soe0 = NaN).
  { unfold SymKep.soe0. cbn [eval]. unfold SymKep.a, SymKep.aT, Em, En, EInt. cbn [eval]. rewrite E1, E2, E3, E4. xnum.
    cbn [xsub xmul]. assert (M : 0 < m * aT) by (apply Rmult_lt_0_compat; assumption).
    assert (D : xdiv (Fin (a - aT)) (Fin (m * aT)) = Fin ((a - aT) / (m * aT))).
    { cbn. destruct (Reqb_spec (m * aT) 0); [lra|reflexivity]. }
    rewrite D, xpow_neg by (try exact Hn; unfold Rdiv; assert (0 < / (m * aT)) by (apply Rinv_0_lt_compat, M); nra).
    nans. reflexivity. }
  unfold SymKep.q. cbn [eval]. rewrite S. xnum. nans. reflexivity.
Qed.
