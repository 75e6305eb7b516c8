(** Effectivities over the anomaly grid, Sundman steps. *)
From Coq Require Import Reals Lra Lia ZArith List Bool Psatz.
From Verif Require Import RMath RLib DLib Num Base Elements Convergence Lyapunov Symbolic SymKep SymMee PlotHelper Perturb Qlaw Spec RSpec LawSpec MaxSpec EffSpec
  ElemProofs PlotProofs DiffProofs CtlProofs KepQ MeeQ LawProofs GaussProofs.
Import ListNotations.
Local Open Scope R_scope.

(** ** The control gradient is 2 pi periodic in the anomaly *)
Definition lin3 (P : psi_t RNum) (d : vec5 RNum) : vec3 RNum :=
  let 'mkpsi c0 c1 c2 := P in vec (dot5R c0 d) (dot5R c1 d) (dot5R c2 d).
Lemma grad_lin psi q env : shape35 psi -> eval3 (N:=RNum) env (usym psi q) = lin3 (evalpsi (N:=RNum) env psi) (eval5 (N:=RNum) env (dqdoe q)).
Proof.
  intros (p00 & p01 & p02 & p03 & p04 & p10 & p11 & p12 & p13 & p14 & p20 & p21 & p22 & p23 & p24 & ->). reflexivity.
Qed.
Lemma dq_fixed q p oe l : forallb (fun e => negb (occurs Voe5 e)) (dqdoe q) = true ->
  eval5 (N:=RNum) (env_of p (with_anomaly l oe)) (dqdoe q) = eval5 (N:=RNum) (env_of p oe) (dqdoe q).
Proof.
  unfold dqdoe, oe_vars. cbn [map forallb]. intros H. repeat rewrite andb_true_iff in H. destruct H as (H0 & H1 & H2 & H3 & H4 & _).
  assert (K : forall e, negb (occurs Voe5 e) = true -> reval (env_of p (with_anomaly l oe)) e = reval (env_of p oe) e).
  { intros e He. apply (eval_absent _ _ Voe5); [destruct (occurs Voe5 e); [discriminate|reflexivity]|].
    intros v Hv. destruct oe. destruct v; try reflexivity; congruence. }
  cbn [eval5]. rewrite !K by assumption. reflexivity.
Qed.
Lemma kep_dq5 : forallb (fun e => negb (occurs Voe5 e)) (dqdoe SymKep.q) = true.
Proof. vm_compute. reflexivity. Qed.
Lemma mee_dq5 : forallb (fun e => negb (occurs Voe5 e)) (dqdoe SymMee.q) = true.
Proof. vm_compute. reflexivity. Qed.
Definition psi_of (et : etype) := match et with Keplerian => SymKep.psi | MeeWithA => SymMee.psi end.
Definition qsym_of (et : etype) := match et with Keplerian => SymKep.q | MeeWithA => SymMee.q end.
Lemma lyap_et et : lyap_of_etype (N:=RNum) et = lyap_of (N:=RNum) (psi_of et) (qsym_of et).
Proof. destruct et; reflexivity. Qed.
Lemma dqdt_et et : dqdt_of_etype (N:=RNum) et = dqdt_of (N:=RNum) (psi_of et) (qsym_of et).
Proof. destruct et; reflexivity. Qed.
Lemma shape_et et : shape35 (psi_of et).
Proof. destruct et; [exact shape_kep|exact shape_mee]. Qed.
Lemma dq5_et et : forallb (fun e => negb (occurs Voe5 e)) (dqdoe (qsym_of et)) = true.
Proof. destruct et; [exact kep_dq5|exact mee_dq5]. Qed.
Lemma grad_val et L oe l : gradient_at et L oe l =
  lin3 (evalpsi (N:=RNum) (env_of L (with_anomaly l oe)) (psi_of et)) (eval5 (N:=RNum) (env_of L oe) (dqdoe (qsym_of et))).
Proof.
  unfold gradient_at. rewrite lyap_et, ask_lyap. cbn [lo_u]. rewrite grad_lin by apply shape_et. rewrite dq_fixed by apply dq5_et. reflexivity.
Qed.
Lemma turn l : cos (l + 2 * PI) = cos l /\ sin (l + 2 * PI) = sin l.
Proof. rewrite cos_plus, sin_plus, cos_2PI, sin_2PI. split; ring. Qed.
Lemma grad_period et L oe l : regular et L oe -> gradient_at et L oe (l + 2 * PI) = gradient_at et L oe l.
Proof.
  intros [Sd K]. rewrite !grad_val. f_equal. assert (Hmu : 0 < g_mu L) by (unfold sound in Sd; destruct (g_w L); apply Sd).
  destruct oe as [a x2 x3 x4 x5 x6]. cbn in a, x2, x3, x4, x5, x6. unfold with_anomaly. destruct (turn l) as [C S]. destruct et; cbn [psi_of].
  - destruct K as ((Ha & He & Hi) & _). rewrite !evalpsi_kep by assumption. unfold kep_psi. rewrite C, S.
    replace (x5 + (l + 2 * PI)) with (x5 + l + 2 * PI) by ring. destruct (turn (x5 + l)) as [C' S']. rewrite C', S'. reflexivity.
  - destruct K as ((Ha & He) & _ & Hf). cbn [v6_1] in Hf. rewrite !evalpsi_mee by assumption. unfold mee_psi. rewrite C, S. reflexivity.
Qed.
Lemma here et L oe : gradient_at et L oe (v6_5 oe) = match ask (lyap_of_etype (N:=RNum) et) L oe with Ok out => lo_u out | Err _ => null end.
Proof. unfold gradient_at. destruct oe. reflexivity. Qed.
(** dQ/dt of fun_eval_dqdt *)
Lemma dqdt_val et L oe l : gradient_at et L oe l <> null ->
  ask (dqdt_of_etype (N:=RNum) et) L (with_anomaly l oe) = Ok (g_f L * norm (gradient_at et L oe l)).
Proof.
  unfold gradient_at. rewrite lyap_et, ask_lyap, dqdt_et. cbn [lo_u]. unfold ask, dqdt_of.
  change (@list_to_vec5 RNum (list5 (g_T L))) with (list_to_vec5 (N:=RNum) (list5 (g_T L))). rewrite list5_back.
  change (mkenv _ _ _ _ _ _ _ _ _ _ _ _) with (env_of L (with_anomaly l oe)). set (env := env_of L (with_anomaly l oe)).
  destruct (shape_et et) as (p00 & p01 & p02 & p03 & p04 & p10 & p11 & p12 & p13 & p14 & p20 & p21 & p22 & p23 & p24 & E). rewrite E.
  set (q := qsym_of et). destruct (eval3 (N:=RNum) env (usym _ q)) as [x y z] eqn:ED. cbn in x, y, z. intros HD.
  change (@mk3 RNum x y z) with (vec x y z) in *. destruct (norm_sq (vec x y z)) as [Nq Np].
  assert (Nn : norm (vec x y z) <> 0).
  { intros Z. apply HD. rewrite Z in Nq. unfold dot, dot3, vec in Nq. cbn in Nq.
    assert (x = 0) by nra. assert (y = 0) by nra. assert (z = 0) by nra. subst. reflexivity. }
  unfold usym, dqdoe, oe_vars in ED. cbn [map edot5 eval3] in ED.
  pose proof (f_equal (@v3_0 RNum) ED) as Ex. pose proof (f_equal (@v3_1 RNum) ED) as Ey. pose proof (f_equal (@v3_2 RNum) ED) as Ez.
  unfold vec in Ex, Ey, Ez. cbn [v3_0 v3_1 v3_2] in Ex, Ey, Ez. rewrite !ev_add, !ev_mul in Ex, Ey, Ez.
  set (d0 := reval env (diff Voe0 q)) in *. set (d1 := reval env (diff Voe1 q)) in *. set (d2 := reval env (diff Voe2 q)) in *.
  set (d3 := reval env (diff Voe3 q)) in *. set (d4 := reval env (diff Voe4 q)) in *. clear ED.
  f_equal. unfold dqdt_expr, usym, dqdoe, oe_vars. cbn [map edot5].
  rewrite !ev_mul, !ev_add, !ev_mul, !ev_add, !ev_mul, !ev_div, !ev_sqrt, !ev_add, !ev_sq, !ev_add, !ev_mul.
  change (reval env Eacc) with (g_f L). fold d0 d1 d2 d3 d4. rewrite Ex, Ey, Ez.
  change (sqrt (x * x + y * y + z * z)) with (norm (vec x y z)).
  transitivity (g_f L * (dot (vec x y z) (vec x y z) / norm (vec x y z))); [|rewrite <- Nq; change (@eq (@car RNum)) with (@eq R); field; exact Nn].
  clear Nq Np HD. set (nn := norm (vec x y z)) in *. clearbody nn. unfold dot, dot3, vec. cbn [v3_0 v3_1 v3_2]. 
  change (@eq (@car RNum)) with (@eq R). change (@nadd RNum) with Rplus. change (@nmul RNum) with Rmult.
  transitivity (g_f L * ((x / nn) * x + (y / nn) * y + (z / nn) * z)); [|field; exact Nn].
  set (X := x / nn). set (Y := y / nn). set (Z := z / nn). clearbody X Y Z. rewrite <- Ex, <- Ey, <- Ez. ring.
Qed.

(** the pair (max, min) over the grid *)
Lemma pts_in oe n x : (0 < n)%nat -> @In R x (tl (linspace (N:=RNum) (v6_5 oe) (v6_5 oe + 2 * PI) (S n))) <-> exists k, (1 <= k <= n)%nat /\ x = grid_point oe n k.
Proof.
  intros Hn. destruct n as [|n]; [lia|]. set (l := v6_5 oe). cbn in l.
  assert (N0 : INR (S n) <> 0) by (apply not_0_INR; lia).
  set (xs := tl (linspace (N:=RNum) l (l + 2 * PI) (S (S n))) : list R).
  assert (G : forall j, (j < S n)%nat -> @nth R j xs 0 = grid_point oe (S n) (S j)).
  { intros j Hj. assert (E := linspace_nth l (l + 2 * PI) (S (S n)) (S j) 0 ltac:(lia) ltac:(lia)).
    replace (S (S n) - 1)%nat with (S n) in E by lia. unfold xs.
    destruct (linspace (N:=RNum) l (l + 2 * PI) (S (S n))) as [|x0 xs'] eqn:EL; [discriminate (f_equal (@length _) EL)|].
    cbn [tl]. cbn [nth] in E. etransitivity; [exact E|]. unfold grid_point. fold l. change (@eq (@car RNum)) with (@eq R). field. exact N0. }
  assert (Len : @length R xs = S n).
  { pose proof (linspace_length l (l + 2 * PI) (S (S n))) as E. unfold xs. destruct (linspace (N:=RNum) l (l + 2 * PI) (S (S n))); [discriminate E|]. cbn [tl]. apply eq_add_S in E. exact E. }
  clearbody xs. split.
  - intros H. apply (In_nth _ _ 0) in H as (j & Hj & E). rewrite Len in Hj. exists (S j). split; [lia|]. rewrite <- E. apply G, Hj.
  - intros (k & Hk & ->). destruct k as [|j]; [lia|]. rewrite <- (G j) by lia. apply nth_In. rewrite Len. lia.
Qed.
Lemma qdot_grid et o p T acc oe : q_dqdt o = dqdt_of_etype (N:=RNum) et -> p_oeT p = list5 T -> (0 < q_grid o)%nat ->
  let L := law_of o p T acc in
  (forall k, (1 <= k <= q_grid o)%nat -> gradient_at et L oe (grid_point oe (q_grid o) k) <> null) ->
  exists M m, evaluate_osculating_qdot (N:=RNum) o p oe acc = Ok (M, m) /\
    let v k := acc * norm (gradient_at et L oe (grid_point oe (q_grid o) k)) in
    ((exists k, (1 <= k <= q_grid o)%nat /\ v k = M) /\ forall k, (1 <= k <= q_grid o)%nat -> v k <= M) /\
    ((exists k, (1 <= k <= q_grid o)%nat /\ v k = m) /\ forall k, (1 <= k <= q_grid o)%nat -> m <= v k).
Proof.
  intros HD HT Hn L HG. set (n := q_grid o) in *.
  set (pts := tl (linspace (N:=RNum) (v6_5 oe) (v6_5 oe + 2 * PI) (S n)) : list R).
  set (w := fun x : R => acc * norm (gradient_at et L oe x)).
  assert (E : mapM (fun an => q_dqdt o (q_mu o) acc (with_anomaly an oe) (p_oeT p) (q_rpmin o) (q_m o)
      (q_n o) (q_r o) (q_b o) (q_k o) (q_wp o) (p_woe p)) pts = Ok (map w pts)).
  { apply mapM_ok. intros x Hx. apply pts_in in Hx as (k & Hk & ->); [|exact Hn]. rewrite HD, HT. apply (dqdt_val et L oe), HG, Hk. }
  assert (NE : map w pts <> []).
  { intros Z. apply (f_equal (@length R)) in Z. rewrite map_length in Z.
    assert (In (grid_point oe n 1) pts) as I by (apply pts_in; [exact Hn|exists 1%nat; split; [lia|reflexivity]]). destruct pts; [exact I|discriminate Z]. }
  destruct (pymaxl_ok _ NE) as (M & EM & [M1 M2]). destruct (pyminl_ok _ NE) as (m & Em & [m1 m2]).
  exists M, m. split.
  - unfold evaluate_osculating_qdot. destruct oe as [o0 o1 o2 o3 o4 o5]. cbn [v6_5] in pts.
    change (nadd o5 (nmul (nofZ 2) npi)) with (o5 + 2 * PI). fold n. fold pts.
    unfold with_anomaly, elems in E. cbn [car RNum] in *. rewrite E. cbn [bind]. rewrite EM. cbn [bind]. rewrite Em. reflexivity.
  - cbv zeta. assert (K : forall x, In x (map w pts) <-> exists k, (1 <= k <= n)%nat /\ w (grid_point oe n k) = x).
    { intros x. rewrite in_map_iff. split.
      - intros (y & Ey & Hy). apply pts_in in Hy as (k & Hk & ->); [|exact Hn]. eauto.
      - intros (k & Hk & E'). exists (grid_point oe n k). split; [exact E'|]. apply pts_in; eauto. }
    split; split.
    + apply K in M1. exact M1.
    + intros k Hk. apply M2, K. eauto.
    + apply K in m1. exact m1.
    + intros k Hk. apply m2, K. eauto.
Qed.
Lemma law_ask {A} (fn : R -> R -> vec6 RNum -> list (@car RNum) -> R -> R -> R -> R -> R -> R -> R -> vec5 RNum -> A) (o : qlaw RNum) (p : problem RNum) T (acc : R) (oe : vec6 RNum) : p_oeT p = list5 T ->
  fn (q_mu o) acc oe (p_oeT p) (q_rpmin o) (q_m o) (q_n o) (q_r o) (q_b o) (q_k o) (q_wp o) (p_woe p) = ask fn (law_of o p T acc) oe.
Proof. intros ->. reflexivity. Qed.
Lemma angles_inv et L oe al be u P qv qd : ask (lyapunov_control_angles (N:=RNum) (lyap_of_etype et)) L oe = Ok (al, be, u, P, qv, qd) ->
  qd = g_f L * norm (gradient_at et L oe (v6_5 oe)) /\ gradient_at et L oe (v6_5 oe) <> null.
Proof.
  rewrite here, lyap_et, ask_lyap. cbn [lo_u]. intros H.
  assert (D : v3_0 (eval3 (N:=RNum) (env_of L oe) (usym (psi_of et) (qsym_of et))) <> 0 \/ v3_1 (eval3 (N:=RNum) (env_of L oe) (usym (psi_of et) (qsym_of et))) <> 0).
  { unfold ask, lyapunov_control_angles in H. fold (ask (lyap_of (N:=RNum) (psi_of et) (qsym_of et)) L oe) in H. rewrite ask_lyap in H. cbn [bind lo_u] in H.
    destruct (eval3 (N:=RNum) (env_of L oe) (usym (psi_of et) (qsym_of et))) as [x y z]. cbn in x, y, z. cbn [v3_0 v3_1].
    destruct (Req_dec x 0) as [X|X]; [|left; exact X]. destruct (Req_dec y 0) as [Y|Y]; [|right; exact Y]. exfalso. subst x y.
    unfold u_to_thrust_angles in H. cbn [v3_0 v3_1 v3_2] in H. unfold v3divs in H. cbn [v3_0 v3_1 v3_2] in H.
    match type of H with context [jdiv ?n ?d] => replace d with 0 in H end.
    - rewrite jdivR0 in H. discriminate H.
    - symmetry. transitivity (sqrt 0); [|apply sqrt_0]. change (@nsqrt RNum) with sqrt. f_equal. unfold sq. cbn. unfold Rdiv. ring. }
  destruct L as [mu f T rpmin m n r b k wp w]. destruct T as [t0 t1 t2 t3 t4].
  destruct (qdot_lem (psi_of et) (qsym_of et) mu f oe (@mk5 RNum t0 t1 t2 t3 t4) rpmin m n r b k wp w (shape_et et)) as (al' & be' & u' & P' & qv' & qd' & E1 & _ & E3 & _).
  { exact D. }
  unfold ask in H. cbn [g_mu g_f g_T g_rpmin g_m g_n g_r g_b g_k g_wp g_w list5] in H. rewrite E1 in H. apply Ok_inj in H.
  injection H as _ _ _ _ _ <-. split; [exact E3|]. unfold env_of in *. cbn [g_mu g_f g_T g_rpmin g_m g_n g_r g_b g_k g_wp g_w] in *.
  intros Z. rewrite Z in D. cbn in D. destruct D as [D|D]; lra.
Qed.
(** ** Effectivities recorded by one step *)
Lemma speed_sign et L oe n k : speed et L oe n k = if Rlt_dec (g_f L) 0 then - (g_f L * norm (gradient_at et L oe (grid_point oe n k))) else g_f L * norm (gradient_at et L oe (grid_point oe n k)).
Proof. unfold speed. destruct (Rlt_dec (g_f L) 0) as [H|H]; [rewrite Rabs_left by lra|rewrite Rabs_pos_eq by lra]; ring. Qed.
Lemma speed_now et L oe n : (0 < n)%nat -> regular et L oe -> speed et L oe n n = Rabs (g_f L) * norm (gradient_at et L oe (v6_5 oe)).
Proof.
  intros Hn Rg. unfold speed. f_equal. f_equal. unfold grid_point. assert (INR n <> 0) by (apply not_0_INR; lia).
  replace (v6_5 oe + 2 * PI * INR n / INR n) with (v6_5 oe + 2 * PI) by (change (@eq (@car RNum)) with (@eq R); field; assumption). apply grad_period, Rg.
Qed.
Lemma norm_pos_grad (u : vec3 RNum) : u <> null -> 0 < norm u.
Proof.
  intros H. destruct (norm_sq u) as [Q P]. destruct P as [P|P]; [exact P|exfalso]. apply H. rewrite <- P in Q. destruct u as [x y z]. cbn in x, y, z.
  unfold dot, dot3 in Q. cbn in Q. assert (x = 0) by nra. assert (y = 0) by nra. assert (z = 0) by nra. subst. reflexivity.
Qed.
Lemma eff_lem et o p T ea er s pl acc c : q_lyap o = lyap_of_etype (N:=RNum) et -> q_dqdt o = dqdt_of_etype (N:=RNum) et -> p_oeT p = list5 T -> (0 < q_grid o)%nat ->
  let L := law_of o p T acc in let oe := l_oe s in let n := q_grid o in
  regular et L oe -> (forall k, (1 <= k <= n)%nat -> gradient_at et L oe (grid_point oe n k) <> null) ->
  pl_duty pl = true -> 0 < threshold ea (l_t s) oe (l_mass s) (l_batt s) \/ 0 < threshold er (l_t s) oe (l_mass s) (l_batt s) ->
  control (N:=RNum) o p ea er s pl acc = Ok (Ctl c) ->
  exists best worst, strongest et L oe n best /\ weakest et L oe n worst /\ 0 < worst /\
    (0 < acc -> c_qdot c = speed et L oe n n /\
       c_etas c = (Rabs (c_qdot c / best), Rabs ((c_qdot c - worst) / (best - worst)))) /\
    (acc < 0 -> c_qdot c = - speed et L oe n n /\
       c_etas c = (Rabs (c_qdot c / - worst), Rabs ((c_qdot c - - best) / (- worst - - best)))) /\
    c_thr c = (if Rlt_dec (fst (c_etas c)) (threshold ea (l_t s) oe (l_mass s) (l_batt s)) then 0
               else if Rlt_dec (snd (c_etas c)) (threshold er (l_t s) oe (l_mass s) (l_batt s)) then 0 else 1)%Z.
Proof.
  intros HL HQ HT Hn L oe n Rg HG Hd He HC.
  pose proof (qdot_grid et o p T acc oe HQ HT Hn HG) as K. cbv zeta in K. fold L n in K.
  destruct K as (M & m & EV & [(kM & kM1 & kM2) MM] & [(km & km1 & km2) mm]).
  unfold control in HC. rewrite Hd in HC. unfold lyap_call in HC. rewrite HL in HC.
  rewrite (law_ask (lyapunov_control_angles (N:=RNum) (lyap_of_etype et)) o p T acc (l_oe s) HT) in HC. fold oe L in HC.
  destruct (ask (lyapunov_control_angles (N:=RNum) (lyap_of_etype et)) L oe) as [[[[[[al be] u] P] qv] qd]|] eqn:EA; [|discriminate HC].
  apply angles_inv in EA as [EQ EN]. change (g_f L) with acc in EQ. cbn [bind] in HC.
  change (nisnan al) with false in HC. change (nisnan be) with false in HC. cbn [orb] in HC.
  change (@eta_now RNum) with (@threshold RNum) in HC.
  set (va := threshold ea (l_t s) oe (l_mass s) (l_batt s)) in *. set (vr := threshold er (l_t s) oe (l_mass s) (l_batt s)) in *.
  assert (C : ((@nltb RNum 0 vr) || (@nltb RNum 0 va))%bool = true).
  { apply orb_true_iff. destruct He as [He|He]; [right|left]; apply Rltb_true; exact He. }
  change (nofZ (Num:=RNum) 0) with 0 in HC. rewrite C in HC. rewrite EV in HC. cbn [bind] in HC.
  apply Ok_inj in HC. injection HC as <-. cbn [c_qdot c_etas c_thr fst snd].
  assert (A0 : acc <> 0). { destruct Rg as [Sd _]. unfold sound, L in Sd. cbn [law_of g_w g_f] in Sd. destruct (p_woe p). apply Sd. }
  pose proof (speed_now et L oe n Hn Rg) as SN. change (g_f L) with acc in SN.
  assert (TH : forall x y : R, (if ((@nltb RNum x va) || (@nltb RNum y vr))%bool then 0 else 1)%Z = (if Rlt_dec x va then 0 else if Rlt_dec y vr then 0 else 1)%Z).
  { intros x y. change (@nltb RNum) with Rltb. destruct (Rlt_dec x va) as [H|H].
    - rewrite (proj2 (Rltb_true x va) H). reflexivity.
    - rewrite (proj2 (Rltb_false x va)) by lra. cbn [orb]. destruct (Rlt_dec y vr) as [H'|H'].
      + rewrite (proj2 (Rltb_true y vr) H'). reflexivity.
      + rewrite (proj2 (Rltb_false y vr)) by lra. reflexivity. }
  destruct (Rtotal_order acc 0) as [Neg|[Z|Pos]]; [|contradiction|].
  - exists (- m), (- M).
    assert (SP : forall k, speed et L oe n k = - (acc * norm (gradient_at et L oe (grid_point oe n k)))).
    { intros k. rewrite speed_sign. change (g_f L) with acc. destruct (Rlt_dec acc 0); [reflexivity|lra]. }
    split; [split; [exists km; split; [exact km1|rewrite SP, km2; reflexivity]|intros k Hk; rewrite SP; specialize (mm k Hk); lra]|].
    split; [split; [exists kM; split; [exact kM1|rewrite SP, kM2; reflexivity]|intros k Hk; rewrite SP; specialize (MM k Hk); lra]|].
    split; [rewrite <- kM2; pose proof (norm_pos_grad _ (HG kM kM1)); nra|].
    split; [intros H; lra|]. split.
    + intros _. rewrite SN, EQ, Rabs_left by exact Neg. split; [change (@eq (@car RNum)) with (@eq R); ring|]. rewrite !Ropp_involutive. reflexivity.
    + apply TH.
  - exists M, m.
    assert (SP : forall k, speed et L oe n k = acc * norm (gradient_at et L oe (grid_point oe n k))).
    { intros k. rewrite speed_sign. change (g_f L) with acc. destruct (Rlt_dec acc 0); [lra|reflexivity]. }
    split; [split; [exists kM; split; [exact kM1|rewrite SP, kM2; reflexivity]|intros k Hk; rewrite SP; exact (MM k Hk)]|].
    split; [split; [exists km; split; [exact km1|rewrite SP, km2; reflexivity]|intros k Hk; rewrite SP; exact (mm k Hk)]|].
    split; [rewrite <- km2; pose proof (norm_pos_grad _ (HG km km1)); nra|].
    split.
    + intros _. rewrite SN, EQ, Rabs_pos_eq by lra. split; reflexivity.
    + split; [intros H; lra|]. apply TH.
Qed.

Lemma ratio_lem x b : 0 <= x <= b -> 0 < b -> 0 <= Rabs (x / b) <= 1 /\ (Rabs (x / b) = 1 <-> x = b) /\ (Rabs (x / b) = 0 <-> x = 0).
Proof.
  intros [H1 H2] Hb. assert (P : 0 <= x / b) by (apply Rmult_le_pos; [lra|apply Rlt_le, Rinv_0_lt_compat, Hb]). rewrite Rabs_pos_eq by exact P.
  assert (E : x / b * b = x) by (field; lra). split; [split; [exact P|apply (Rmult_le_reg_r b); lra]|]. split; split; intros K.
  - rewrite K in E. lra.
  - rewrite K. field. lra.
  - rewrite K in E. lra.
  - rewrite K. field. lra.
Qed.
Lemma best_now et L oe n best : (0 < n)%nat -> strongest et L oe n best -> speed et L oe n n <= best.
Proof. intros Hn [_ H]. apply H. lia. Qed.
Lemma worst_now et L oe n worst : (0 < n)%nat -> weakest et L oe n worst -> worst <= speed et L oe n n.
Proof. intros Hn [_ H]. apply H. lia. Qed.
Lemma C30_forward_lem et o p T ea er s pl acc c : q_lyap o = lyap_of_etype (N:=RNum) et -> q_dqdt o = dqdt_of_etype (N:=RNum) et -> p_oeT p = list5 T -> (0 < q_grid o)%nat ->
  let L := law_of o p T acc in let oe := l_oe s in let n := q_grid o in
  regular et L oe -> (forall k, (1 <= k <= n)%nat -> gradient_at et L oe (grid_point oe n k) <> null) ->
  pl_duty pl = true -> 0 < threshold ea (l_t s) oe (l_mass s) (l_batt s) \/ 0 < threshold er (l_t s) oe (l_mass s) (l_batt s) ->
  control (N:=RNum) o p ea er s pl acc = Ok (Ctl c) -> 0 < acc ->
  exists best worst, strongest et L oe n best /\ weakest et L oe n worst /\ c_qdot c = speed et L oe n n /\
    0 <= fst (c_etas c) <= 1 /\ (fst (c_etas c) = 1 <-> c_qdot c = best) /\
    (worst < best -> 0 <= snd (c_etas c) <= 1 /\ (snd (c_etas c) = 1 <-> c_qdot c = best) /\ (snd (c_etas c) = 0 <-> c_qdot c = worst)).
Proof.
  intros HL HQ HT Hn L oe n Rg HG Hd He HC Ha.
  destruct (eff_lem et o p T ea er s pl acc c HL HQ HT Hn Rg HG Hd He HC) as (best & worst & SB & SW & WP & K & _ & _).
  destruct (K Ha) as [E1 E2]. clear K HC. fold L oe n in E1, SB, SW.
  pose proof (best_now et L oe n best Hn SB) as B1. pose proof (worst_now et L oe n worst Hn SW) as B2. rewrite <- E1 in B1, B2.
  exists best, worst. split; [exact SB|]. split; [exact SW|]. split; [exact E1|]. rewrite E2. cbn [fst snd].
  destruct (ratio_lem (c_qdot c) best) as (R1 & R2 & _); [split; lra|lra|].
  split; [exact R1|]. split; [exact R2|]. intros Lt.
  destruct (ratio_lem (c_qdot c - worst) (best - worst)) as (S1 & S2 & S3); [split; lra|lra|].
  split; [exact S1|]. split; [etransitivity; [exact S2|]; split; intros; lra|]. etransitivity; [exact S3|]; split; intros; lra.
Qed.
Lemma back_lem q best worst : 0 < worst -> worst <= - q <= best ->
  1 <= Rabs (q / - worst) /\ (Rabs (q / - worst) = 1 <-> - q = worst) /\
  (worst < best -> 0 <= Rabs ((q - - best) / (- worst - - best)) <= 1 /\ (Rabs ((q - - best) / (- worst - - best)) = 1 <-> - q = worst) /\ (Rabs ((q - - best) / (- worst - - best)) = 0 <-> - q = best)).
Proof.
  intros WP HB. set (v := - q) in *. assert (EV : q = - v) by (unfold v; ring). rewrite EV. clearbody v. clear EV q.
  replace (- v / - worst) with (v / worst) by (field; lra).
  assert (P : 1 <= v / worst). { apply (Rmult_le_reg_r worst); [exact WP|]. unfold Rdiv. rewrite Rmult_assoc, Rinv_l by lra. lra. }
  rewrite (Rabs_pos_eq (v / worst)) by lra. split; [exact P|]. split.
  { split; intros H; [|rewrite H; field; lra]. apply (Rmult_eq_compat_r worst) in H. unfold Rdiv in H. rewrite Rmult_assoc, Rinv_l in H by lra. lra. }
  intros Lt. replace ((- v - - best) / (- worst - - best)) with ((best - v) / (best - worst)) by (field; lra).
  destruct (ratio_lem (best - v) (best - worst)) as (S1 & S2 & S3); [split; lra|lra|].
  split; [exact S1|]. split; [etransitivity; [exact S2|]; split; intros; lra|]. etransitivity; [exact S3|]; split; intros; lra.
Qed.
Lemma C30_backward_lem et o p T ea er s pl acc c : q_lyap o = lyap_of_etype (N:=RNum) et -> q_dqdt o = dqdt_of_etype (N:=RNum) et -> p_oeT p = list5 T -> (0 < q_grid o)%nat ->
  let L := law_of o p T acc in let oe := l_oe s in let n := q_grid o in
  regular et L oe -> (forall k, (1 <= k <= n)%nat -> gradient_at et L oe (grid_point oe n k) <> null) ->
  pl_duty pl = true -> 0 < threshold ea (l_t s) oe (l_mass s) (l_batt s) \/ 0 < threshold er (l_t s) oe (l_mass s) (l_batt s) ->
  control (N:=RNum) o p ea er s pl acc = Ok (Ctl c) -> acc < 0 ->
  exists best worst, strongest et L oe n best /\ weakest et L oe n worst /\ c_qdot c = - speed et L oe n n /\
    1 <= fst (c_etas c) /\ (fst (c_etas c) = 1 <-> - c_qdot c = worst) /\
    (worst < best -> 0 <= snd (c_etas c) <= 1 /\ (snd (c_etas c) = 1 <-> - c_qdot c = worst) /\ (snd (c_etas c) = 0 <-> - c_qdot c = best)).
Proof.
  intros HL HQ HT Hn L oe n Rg HG Hd He HC Ha.
  destruct (eff_lem et o p T ea er s pl acc c HL HQ HT Hn Rg HG Hd He HC) as (best & worst & SB & SW & WP & _ & K & _).
  destruct (K Ha) as [E1 E2]. clear K HC. fold L oe n in E1, SB, SW.
  pose proof (best_now et L oe n best Hn SB) as B1. pose proof (worst_now et L oe n worst Hn SW) as B2.
  assert (E3 : - c_qdot c = speed et L oe n n) by (rewrite E1; apply Ropp_involutive). rewrite <- E3 in B1, B2.
  exists best, worst. split; [exact SB|]. split; [exact SW|]. split; [exact E1|]. rewrite E2. cbn [fst snd].
  exact (back_lem (c_qdot c) best worst WP (conj B2 B1)).
Qed.

Lemma control_runs et o p T ea er s pl acc : q_lyap o = lyap_of_etype (N:=RNum) et -> q_dqdt o = dqdt_of_etype (N:=RNum) et -> p_oeT p = list5 T -> (0 < q_grid o)%nat ->
  let L := law_of o p T acc in let oe := l_oe s in let n := q_grid o in
  (forall k, (1 <= k <= n)%nat -> gradient_at et L oe (grid_point oe n k) <> null) ->
  (v3_0 (gradient_at et L oe (v6_5 oe)) <> 0 \/ v3_1 (gradient_at et L oe (v6_5 oe)) <> 0) ->
  pl_duty pl = true -> exists c, control (N:=RNum) o p ea er s pl acc = Ok (Ctl c).
Proof.
  intros HL HQ HT Hn L oe n HG HD Hd.
  pose proof (qdot_grid et o p T acc oe HQ HT Hn HG) as K. cbv zeta in K. destruct K as (M & m & EV & _).
  unfold control. rewrite Hd. unfold lyap_call. rewrite HL.
  rewrite (law_ask (lyapunov_control_angles (N:=RNum) (lyap_of_etype et)) o p T acc (l_oe s) HT). fold oe L.
  rewrite here, lyap_et, ask_lyap in HD. cbn [lo_u] in HD.
  assert (A : exists al be u P qv qd, ask (lyapunov_control_angles (N:=RNum) (lyap_of_etype et)) L oe = Ok (al, be, u, P, qv, qd)).
  { rewrite lyap_et. destruct L as [mu f T' rpmin m' n' r b k wp w]. destruct T' as [t0 t1 t2 t3 t4].
    destruct (qdot_lem (psi_of et) (qsym_of et) mu f oe (@mk5 RNum t0 t1 t2 t3 t4) rpmin m' n' r b k wp w (shape_et et) HD) as (al' & be' & u' & P' & qv' & qd' & E1 & _).
    exists al', be', u', P', qv', qd'. exact E1. }
  destruct A as (al & be & u & P & qv & qd & ->). cbn [bind].
  change (nisnan al) with false. change (nisnan be) with false. cbn [orb]. rewrite EV. cbn [bind].
  match goal with |- context [if ?b then _ else _] => destruct b end; eexists; reflexivity.
Qed.
