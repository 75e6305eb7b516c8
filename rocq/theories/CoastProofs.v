(** Coasting steps leave the slow elements alone (extended reals). *)
From Coq Require Import Reals ZArith List Bool Lia Lra.
From Verif Require Import RMath Num Base Elements Integrate Eom Convergence Lyapunov Perturb Qlaw Trace
  Spec XSpec SolveProofs GateProofs XTrace XSolve.
Import ListNotations.
Local Open Scope R_scope.

Lemma xfr a b : b <> 0%Z -> exists x, fr (N:=XNum) a b = Fin x.
Proof.
  intros H. unfold fr. cbn [ndiv nofZ XNum car xdiv]. rewrite x_eqb0 by exact H. eauto.
Qed.

Definition still (d : vec6 XNum) : Prop := slow d = mk5 (N:=XNum) (Fin 0) (Fin 0) (Fin 0) (Fin 0) (Fin 0).

Lemma still_inv d : still d -> exists x, d = mk6 (N:=XNum) (Fin 0) (Fin 0) (Fin 0) (Fin 0) (Fin 0) x.
Proof. destruct d as [a b c e f g]. unfold still. cbn. intros H. injection H as -> -> -> -> ->. eauto. Qed.

Lemma still_scal c d : still d -> still (v6scal (N:=XNum) (Fin c) d).
Proof.
  intros H. apply still_inv in H as [x ->]. unfold still. cbn. rewrite Rmult_0_r. reflexivity.
Qed.
Lemma still_add d e : still d -> still e -> still (v6add d e).
Proof.
  intros H1 H2. apply still_inv in H1 as [x ->]. apply still_inv in H2 as [y ->]. unfold still. cbn.
  rewrite Rplus_0_r. reflexivity.
Qed.
Lemma slow_add y d : finite6 y -> still d -> slow (v6add y d) = slow y.
Proof.
  intros (a & b & c & e & f & x & ->) H. apply still_inv in H as [z ->]. cbn. rewrite !Rplus_0_r. reflexivity.
Qed.
Lemma slow_sub y d : finite6 y -> still d -> slow (v6sub y d) = slow y.
Proof.
  intros (a & b & c & e & f & x & ->) H. apply still_inv in H as [z ->]. cbn. rewrite !Rminus_0_r. reflexivity.
Qed.
Lemma finite_slow y y' : slow y' = slow y -> finite6 y -> finite6 y'.
Proof.
  intros H (a & b & c & e & f & x & ->). destruct y' as [a' b' c' e' f' x']. cbn in H.
  injection H as -> -> -> -> ->. unfold finite6. eauto 10.
Qed.
Lemma slow_add' y d : finite6 y -> still d -> finite6 (v6add y d) /\ slow (v6add y d) = slow y.
Proof. intros F S. pose proof (slow_add y d F S) as E. split; [eapply finite_slow; eauto|exact E]. Qed.
Lemma slow_sub' y d : finite6 y -> still d -> finite6 (v6sub y d) /\ slow (v6sub y d) = slow y.
Proof. intros F S. pose proof (slow_sub y d F S) as E. split; [eapply finite_slow; eauto|exact E]. Qed.

Section I.
Context {P : Type}.
Variable rhs : ereal -> vec6 XNum -> P -> Res (vec6 XNum).
Variable prm : P.
Hypothesis Hrhs : forall t y d, rhs t y prm = Ok d -> still d.

Lemma rk4_still t h y y' : finite6 y -> rk4 (N:=XNum) rhs t (Fin h) y prm = Ok y' -> slow y' = slow y.
Proof.
  intros F. unfold rk4.
  destruct (rhs t y prm) as [k1|] eqn:E1; [|discriminate]. cbn [bind].
  match goal with |- context [rhs ?a ?b prm] => destruct (rhs a b prm) as [k2|] eqn:E2; [|discriminate] end. cbn [bind].
  match goal with |- context [rhs ?a ?b prm] => destruct (rhs a b prm) as [k3|] eqn:E3; [|discriminate] end. cbn [bind].
  match goal with |- context [rhs ?a ?b prm] => destruct (rhs a b prm) as [k4|] eqn:E4; [|discriminate] end. cbn [bind].
  apply Hrhs in E1, E2, E3, E4. intros H. injection H as <-.
  assert (E6 : ndiv (Num:=XNum) (Fin h) (nofZ (Num:=XNum) 6) = Fin (h / 6)).
  { cbn. destruct (Reqb_spec 6 0); [exfalso; lra|reflexivity]. }
  apply slow_add; [exact F|]. refine (eq_ind_r (fun c => still (v6scal (N:=XNum) c _)) _ E6).
  apply still_scal. apply still_add; [|exact E4]. apply still_add; [|apply still_scal; exact E3].
  apply still_add; [exact E1|apply still_scal; exact E2].
Qed.

Lemma rkf45_still t h y tol y' hn : finite6 y ->
  rkf45 (N:=XNum) rhs t (Fin h) y prm tol = Ok (y', hn) -> slow y' = slow y.
Proof.
  intros F. unfold rkf45.
  destruct (rhs t y prm) as [k1|] eqn:E1; [|discriminate]. cbn [bind].
  match goal with |- context [rhs ?a ?b prm] => destruct (rhs a b prm) as [k2|] eqn:E2; [|discriminate] end. cbn [bind].
  match goal with |- context [rhs ?a ?b prm] => destruct (rhs a b prm) as [k3|] eqn:E3; [|discriminate] end. cbn [bind].
  match goal with |- context [rhs ?a ?b prm] => destruct (rhs a b prm) as [k4|] eqn:E4; [|discriminate] end. cbn [bind].
  match goal with |- context [rhs ?a ?b prm] => destruct (rhs a b prm) as [k5|] eqn:E5; [|discriminate] end. cbn [bind].
  match goal with |- context [rhs ?a ?b prm] => destruct (rhs a b prm) as [k6|] eqn:E6; [|discriminate] end. cbn [bind].
  match goal with |- context [jdiv ?a ?b] => destruct (jdiv a b) as [q|]; [|discriminate] end. cbn [bind].
  match goal with |- Ok (?Y, _) = _ -> _ => intros H; assert (Hy : Y = y') by congruence; rewrite <- Hy; clear H Hy end.
  apply Hrhs in E1, E3, E4, E5.
  destruct (xfr 25 216 ltac:(lia)) as [c1 ->]. destruct (xfr 1408 2565 ltac:(lia)) as [c2 ->].
  destruct (xfr 2197 4101 ltac:(lia)) as [c3 ->]. destruct (xfr 1 5 ltac:(lia)) as [c4 ->].
  pose proof (still_scal c1 _ (still_scal h _ E1)) as S1. pose proof (still_scal c2 _ (still_scal h _ E3)) as S3.
  pose proof (still_scal c3 _ (still_scal h _ E4)) as S4. pose proof (still_scal c4 _ (still_scal h _ E5)) as S5.
  destruct (slow_add' _ _ F S1) as [F1 Q1]. destruct (slow_add' _ _ F1 S3) as [F2 Q2].
  destruct (slow_add' _ _ F2 S4) as [F3 Q3]. rewrite (slow_sub _ _ F3 S5), Q3, Q2. exact Q1.
Qed.
End I.

Lemma dot0 a b c : dot3 (N:=XNum) (mk3 (N:=XNum) (Fin a) (Fin b) (Fin c)) (v3add v3zero v3zero) = Fin 0.
Proof. cbn. f_equal. ring. Qed.

Lemma still_rate psi r5 rate : finite_psi psi ->
  still (add_rate (psi_dot (N:=XNum) psi r5 (v3add v3zero v3zero)) rate).
Proof.
  intros (a0&a1&a2&a3&a4&b0&b1&b2&b3&b4&c0&c1&c2&c3&c4&->). unfold add_rate, psi_dot.
  rewrite !dot0. unfold still. cbn. rewrite Rplus_0_r. reflexivity.
Qed.

Lemma eom_still et mu psi t y d : finite_psi psi ->
  eom_of (N:=XNum) et t y (mkparams mu v3zero psi v3zero) = Ok d -> still d.
Proof.
  intros Hp. destruct y as [y0 y1 y2 y3 y4 y5]. destruct et; cbn [eom_of].
  - unfold eom_kep_gauss. cbn [op_mu op_u op_psi op_ptrb].
    repeat match goal with |- context [jdiv ?a ?b] => destruct (jdiv a b); [|discriminate]; cbn [bind] end.
    intros H. injection H as <-. apply still_rate. exact Hp.
  - unfold eom_mee_with_a_gauss. cbn [op_mu op_u op_psi op_ptrb].
    repeat match goal with |- context [jdiv ?a ?b] => destruct (jdiv a b); [|discriminate]; cbn [bind] end.
    intros H. injection H as <-. apply still_rate. exact Hp.
Qed.

(** Clamping twice is clamping once, in extended-real arithmetic. *)
Lemma xltb_irr x : xltb x x = false.
Proof. destruct x; auto. apply Rltb_false. lra. Qed.
Lemma xltb_asym x y : xltb x y = true -> xltb y x = false.
Proof. destruct x, y; simpl; try discriminate; auto. rewrite Rltb_true, Rltb_false. lra. Qed.
Lemma clamp_idem (lo x hi : ereal) : clamp1 (N:=XNum) lo (clamp1 (N:=XNum) lo x hi) hi = clamp1 (N:=XNum) lo x hi.
Proof.
  unfold clamp1, pymin, pymax. cbn [nltb XNum car].
  destruct (xltb lo x) eqn:E1.
  - destruct (xltb hi x) eqn:E2.
    + destruct (xltb lo hi) eqn:E3; [rewrite xltb_irr; reflexivity|].
      destruct (xltb hi lo) eqn:E4; [reflexivity|].
      destruct lo, hi, x; simpl in *; try discriminate; auto;
        rewrite Rltb_false in E3, E4; f_equal; lra.
    + rewrite E1, E2. reflexivity.
  - destruct (xltb hi lo) eqn:E2.
    + rewrite (xltb_asym _ _ E2), E2. reflexivity.
    + rewrite xltb_irr, E2. reflexivity.
Qed.

Lemma safety_idem oe lo hi (z : vec6 XNum) : slow z = slow (elements_safety (N:=XNum) oe lo hi) ->
  slow (elements_safety (N:=XNum) z lo hi) = slow z.
Proof.
  destruct oe as [a b c d e f], lo as [l0 l1 l2 l3 l4], hi as [h0 h1 h2 h3 h4], z as [z0 z1 z2 z3 z4 z5].
  cbn [elements_safety slow]. intros H. injection H as -> -> -> -> ->. rewrite !clamp_idem. reflexivity.
Qed.

Lemma ctl_coast {N : Num} (o : qlaw N) p ea er s pl acc c : control o p ea er s pl acc = Ok (Ctl c) -> c_thr c = 0%Z ->
  c_u c = v3zero /\ exists al be u q qd, lyap_call o p acc (l_oe s) = Ok (al, be, u, c_psi c, q, qd).
Proof.
  unfold control. destruct (pl_duty pl).
  - destruct (lyap_call o p acc (l_oe s)) as [[[[[[al be] u] psi] q] qd]|e]; [|discriminate].
    cbn [bind]. cbv zeta. intros H T.
    destruct (nisnan al || nisnan be)%bool.
    + destruct (Z.ltb _ _); [discriminate|]. injection H as <-. split; [reflexivity|]. cbn. eauto 10.
    + destruct (nltb _ _ || nltb _ _)%bool.
      * destruct (evaluate_osculating_qdot o p (l_oe s) acc) as [[M mn]|]; [|discriminate].
        injection H as <-. cbn [c_thr c_u c_psi] in *. destruct (nltb _ _ || nltb _ _)%bool; [|discriminate]. split; eauto 10.
      * injection H as <-. discriminate.
  - destruct (lyap_call o p acc (l_oe s)) as [[[[[[al be] u] psi] q] qd]|e]; [|discriminate].
    cbn [bind]. intros H _. injection H as <-. split; [reflexivity|]. cbn. eauto 10.
Qed.

Section L.
Variables (o : qlaw XNum) (p : problem XNum) (ea er : eta_arg XNum).

Lemma iter_coast et s g dt : built et o -> q_ptrb o = None -> iter o p ea er s g -> c_thr (g_c g) = 0%Z ->
  pl_dt (g_pl g) = Fin dt -> finite6 (l_oe (g_s g)) ->
  (forall acc al be u psi q qd, lyap_call o p acc (l_oe (g_s g)) = Ok (al, be, u, psi, q, qd) -> finite_psi psi) ->
  slow (g_oe g) = slow (l_oe (g_s g)).
Proof.
  intros (B1 & B2 & _) Hpt [Hs Hp Hc Hpt' Hpr Hb Hab] T D F Hpsi.
  destruct (ctl_coast _ _ _ _ _ _ _ _ Hc T) as (U & al & be & u & q & qd & L). apply Hpsi in L.
  unfold perturbation in Hpt'. rewrite Hpt in Hpt'. injection Hpt' as Hpt'.
  unfold propagate in Hpr. rewrite U, <- Hpt', D, B2 in Hpr.
  destruct (q_integ o).
  - destruct (rk4 _ _ _ _ _) as [oe'|] eqn:R; [|discriminate]. cbn [bind] in Hpr. injection Hpr as Ho _ _ _.
    rewrite <- Ho. eapply (rk4_still _ _ (fun t y d => eom_still et _ _ t y d L)); [exact F|exact R].
  - destruct (rkf45 _ _ _ _ _ _) as [[oe' hn]|] eqn:R; [|discriminate]. cbn [bind] in Hpr. injection Hpr as Ho _ _ _.
    rewrite <- Ho. eapply (rkf45_still _ _ (fun t y d => eom_still et _ _ t y d L)); [exact F|exact R].
Qed.

(** The state recorded after row [k]. *)
Lemma next_state gs oel code conv k g : ended o p ea er gs oel code conv -> nth_error gs k = Some g ->
  exists z, nth_error (h_states (mkh p gs oel)) (S k) = Some z /\ (z = g_oe g \/ z = guarded o (g_oe g)).
Proof.
  intros He Hk. assert (Hlt : (k < length gs)%nat) by (apply nth_error_Some; congruence).
  assert (G : forall gs s, tr o p ea er gs s -> forall k g, nth_error gs k = Some g ->
     (forall g', nth_error gs (S k) = Some g' -> l_oe (g_s g') = guarded o (g_oe g)) /\
     (S k = length gs -> l_oe s = g_oe g)).
  { clear. induction 1 as [|gs s g0 s' Htr IH Hg Hit Hex]; intros k g Hk; [destruct k; discriminate|].
    destruct (exit_next_hist o p _ _ Hex) as [n ->].
    assert (Hlt : (k < length (gs ++ [g0]))%nat) by (apply nth_error_Some; congruence).
    rewrite app_length in Hlt. simpl in Hlt.
    destruct (Nat.eq_dec k (length gs)) as [->|Hne].
    - rewrite nth_error_app2, Nat.sub_diag in Hk by lia. injection Hk as <-. split; [|reflexivity].
      intros g' Hg'. assert (S (length gs) < length (gs ++ [g0]))%nat by (apply nth_error_Some; congruence).
      rewrite app_length in H. simpl in H. lia.
    - rewrite nth_error_app1 in Hk by lia. destruct (IH k g Hk) as [A B]. split.
      + intros g' Hg'. destruct (Nat.eq_dec (S k) (length gs)) as [E|E].
        * rewrite nth_error_app2, E, Nat.sub_diag in Hg' by lia. injection Hg' as <-.
          rewrite (it_s _ _ _ _ _ _ Hit). specialize (B E). unfold safety, guarded.
          destruct (q_etype o); cbn; rewrite B; reflexivity.
        * rewrite nth_error_app1 in Hg' by lia. auto.
      + rewrite app_length. simpl. lia. }
  assert (Hst : forall gs oel k g', nth_error gs k = Some g' ->
     nth_error (h_states (mkh p gs oel)) k = Some (l_oe (g_s g'))).
  { clear. intros gs oel k g' H. cbn [h_states mkh]. rewrite nth_error_app1.
    - apply map_nth_error with (f := fun g => l_oe (g_s g)). exact H.
    - rewrite map_length. apply nth_error_Some. congruence. }
  assert (Hlast : forall (gs : list (grow XNum)) oel, nth_error (h_states (mkh p gs oel)) (length gs) = Some oel).
  { clear. intros gs oel. cbn [h_states mkh]. rewrite nth_error_app2; rewrite map_length; [|lia].
    rewrite Nat.sub_diag. reflexivity. }
  destruct He as [gs s Htr Hg|gs s g1 code conv s' Htr Hg Hit Hex|gs s pl Htr Hg H1 H2].
  - destruct (G _ _ Htr k g Hk) as [A B]. destruct (Nat.eq_dec (S k) (length gs)) as [E|E].
    + exists (l_oe s). rewrite E, Hlast. split; [reflexivity|]. left. auto.
    + destruct (nth_error gs (S k)) as [g'|] eqn:E'; [|apply nth_error_None in E'; lia].
      exists (l_oe (g_s g')). split; [apply Hst; exact E'|]. right. auto.
  - assert (E1 : length (gs ++ [g1]) = S (length gs)) by (rewrite app_length; simpl; lia).
    destruct (Nat.eq_dec k (length gs)) as [->|Hne].
    + rewrite nth_error_app2, Nat.sub_diag in Hk by lia. injection Hk as <-.
      exists (g_oe g1). rewrite <- E1, Hlast. auto.
    + rewrite nth_error_app1 in Hk by lia. destruct (G _ _ Htr k g Hk) as [A B].
      destruct (Nat.eq_dec (S k) (length gs)) as [E|E].
      * exists (l_oe (g_s g1)). split; [apply Hst; rewrite nth_error_app2, E, Nat.sub_diag by lia; reflexivity|].
        right. rewrite (it_s _ _ _ _ _ _ Hit). unfold safety, guarded.
        destruct (q_etype o); cbn; rewrite (B E); reflexivity.
      * destruct (nth_error gs (S k)) as [g'|] eqn:E'; [|apply nth_error_None in E'; lia].
        exists (l_oe (g_s g')). split; [apply Hst; rewrite nth_error_app1 by lia; exact E'|]. right. auto.
  - destruct (G _ _ Htr k g Hk) as [A B]. destruct (Nat.eq_dec (S k) (length gs)) as [E|E].
    + exists (l_oe (safety o s)). rewrite E, Hlast. split; [reflexivity|]. right. unfold safety, guarded.
      destruct (q_etype o); cbn; rewrite (B E); reflexivity.
    + destruct (nth_error gs (S k)) as [g'|] eqn:E'; [|apply nth_error_None in E'; lia].
      exists (l_oe (g_s g')). split; [apply Hst; exact E'|]. right. auto.
Qed.
End L.

(** The loop iteration behind a recorded coasting step. *)
Lemma coast_row (o : qlaw XNum) p ea er a : regular o p a ->
  forall fuel o' h k z, ran fuel o ea er p o' h -> throttle h k 0 -> nth_error (h_states h) k = Some z ->
  exists s g dt z', iter o p ea er s g /\ l_oe (g_s g) = z /\ c_thr (g_c g) = 0%Z /\ pl_dt (g_pl g) = Fin dt /\
    nth_error (h_states h) (S k) = Some z' /\ (z' = g_oe g \/ z' = guarded o (g_oe g)).
Proof.
  intros Hreg fuel o' h k z R T Hz.
  destruct Hreg as (Hfin & Hsun & smin & smax & S1 & S2 & S3).
  assert (Hst : q_integ o = RKF45 -> q_step_min o = Fin smin /\ q_step_max o = Fin smax /\ smin <= smax)
    by (intros _; repeat split; auto; apply S3).
  destruct (ran_reals_gs o p ea er a smin smax Hfin Hsun Hst _ _ _ R)
    as (gs & oel & code & conv & rs & st & He & -> & Hch & Hm).
  unfold throttle in T. cbn [h_controls mkh] in T. rewrite map_map in T. cbn [snd] in T.
  destruct (nth_error gs k) as [g|] eqn:Hg.
  2:{ apply nth_error_None in Hg. assert (nth_error (map (fun g : grow XNum => c_thr (g_c g)) gs) k = None)
        by (apply nth_error_None; rewrite map_length; exact Hg). congruence. }
  rewrite (map_nth_error (fun g : grow XNum => c_thr (g_c g)) k gs Hg) in T. injection T as T.
  assert (Hz' : nth_error (h_states (mkh p gs oel)) k = Some (l_oe (g_s g))).
  { cbn [h_states mkh]. rewrite nth_error_app1.
    - apply map_nth_error with (f := fun g => l_oe (g_s g)). exact Hg.
    - rewrite map_length. apply nth_error_Some. congruence. }
  rewrite Hz' in Hz. injection Hz as <-.
  assert (Hit : exists s, iter o p ea er s g).
  { destruct He as [gs s Htr Hgd|gs s g1 code conv s' Htr Hgd Hit Hex|gs s pl Htr Hgd H1 H2].
    - destruct (tr_nth _ _ _ _ _ _ Htr k g Hg) as (sk & s' & _ & _ & X & _). eauto.
    - destruct (Nat.lt_ge_cases k (length gs)) as [Hlt|Hge].
      + rewrite nth_error_app1 in Hg by assumption.
        destruct (tr_nth _ _ _ _ _ _ Htr k g Hg) as (sk & s1 & _ & _ & X & _). eauto.
      + rewrite nth_error_app2 in Hg by assumption. destruct (k - length gs)%nat as [|[|]]; try discriminate.
        injection Hg as <-. eauto.
    - destruct (tr_nth _ _ _ _ _ _ Htr k g Hg) as (sk & s' & _ & _ & X & _). eauto. }
  destruct Hit as [s Hit].
  assert (D : exists dt, pl_dt (g_pl g) = Fin dt).
  { destruct (nth_error rs k) as [r|] eqn:Hr.
    2:{ apply nth_error_None in Hr. assert (length gs = length rs) by (clear - Hm; induction Hm; simpl; congruence).
        assert (k < length gs)%nat by (apply nth_error_Some; congruence). lia. }
    exists (r_dt r). apply (rm_dt g r). clear - Hm Hg Hr. revert k Hg Hr.
    induction Hm as [|x y l l' M _ IH]; intros [|k] Hg Hr; try discriminate; simpl in *; [congruence|eauto]. }
  destruct D as [dt D].
  destruct (next_state o p ea er gs oel code conv k g He Hg) as (z' & Z1 & Z2).
  exists s, g, dt, z'. split; [exact Hit|]. split; [reflexivity|]. split; [exact T|]. split; [exact D|]. split; [exact Z1|exact Z2].
Qed.

Lemma C22_lem et (o : qlaw XNum) p ea er a : regular o p a -> built et o -> q_ptrb o = None ->
  forall fuel o' h k z, ran fuel o ea er p o' h -> throttle h k 0 ->
  nth_error (h_states h) k = Some z -> finite6 z ->
  (forall acc al be u psi q qd, lyap_call o p acc z = Ok (al, be, u, psi, q, qd) -> finite_psi psi) ->
  exists z', nth_error (h_states h) (S k) = Some z' /\ slow z' = slow z.
Proof.
  intros Hreg B Hpt fuel o' h k z R T Hz F Hpsi.
  destruct (coast_row o p ea er a Hreg fuel o' h k z R T Hz) as (s & g & dt & z' & Hit & <- & Tg & D & Z1 & Z2).
  pose proof (iter_coast o p ea er et s g dt B Hpt Hit Tg D F Hpsi) as E.
  exists z'. split; [exact Z1|]. destruct Z2 as [-> | ->]; [exact E|].
  unfold guarded. destruct (q_etype o) eqn:Et; [|exact E].
  rewrite <- E. apply (safety_idem (l_oe s) (q_oe_min o) (q_oe_max o)). rewrite E.
  rewrite (it_s _ _ _ _ _ _ Hit). unfold safety. rewrite Et. reflexivity.
Qed.
