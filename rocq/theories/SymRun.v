(** One run simulates another: if two problems are related by a map [phi] on states and by changes of scale of time,
    mass, acceleration, Q and dQ/dt that every part of an iteration respects, then so are their histories. *)
From Coq Require Import Reals Lra Lia ZArith List Bool.
From Verif Require Import RMath RLib Num Base Elements Integrate Eom Convergence Lyapunov Perturb PlotHelper Qlaw NanProofs ScaleSpec DimProofs ScaleProofs.
Import ListNotations.
Local Open Scope R_scope.

Lemma last_map {A B} (f : A -> B) l d : last (map f l) (f d) = f (last l d).
Proof. induction l as [|x [|y l] IH]; auto. Qed.
Lemma removelast_map {A B} (f : A -> B) l : removelast (map f l) = map f (removelast l).
Proof. induction l as [|x [|y l] IH]; auto. cbn [map removelast] in *. rewrite IH. reflexivity. Qed.
Lemma replace_last_map {A B} (f : A -> B) l x : replace_last (map f l) (f x) = map f (replace_last l x).
Proof. unfold replace_last. rewrite removelast_map, map_app. reflexivity. Qed.

Section Run.
Variables (o o' : qlaw XNum) (p p' : problem XNum) (ea ea' er er' : eta_arg XNum).
Variable phi : vec6 XNum -> vec6 XNum.
Variable psim : psi_t XNum -> psi_t XNum.
Variables (QS DS A T M : R).
Hypothesis HD : 0 < DS.
Hypothesis HA : 0 < A.
Hypothesis HT : 0 < T.
Hypothesis HM : 0 < M.

Definition hist_to (h : hist XNum) : hist XNum :=
  @mkhist XNum (map (xscale QS) (h_Qs h)) (map (xscale DS) (h_dQdts h)) (map (xscale T) (h_times h)) (map phi (h_states h))
    (map (xscale M) (h_masses h)) (h_controls h) (h_etas h) (h_bounds h) (h_battery h).
Definition ls_to (s : lstate XNum) : lstate XNum :=
  @mkls XNum (xscale T (l_t s)) (phi (l_oe s)) (xscale M (l_mass s)) (l_batt s) (l_nrel s) (l_nnan s) (l_duty s)
    (xscale T (l_ton s)) (xscale T (l_toff s)) (l_chg s) (l_ab s) (hist_to (l_hist s)).
Definition out_to (r : outcome XNum) : outcome XNum :=
  match r with Next s => Next (ls_to s) | Stop c v s => Stop c v (ls_to s) | Fail e s => Fail e (ls_to s) end.
Definition res_to (r : lres XNum) : lres XNum :=
  match r with LEnd s => LEnd (ls_to s) | LStop c v s => LStop c v (ls_to s) | LFail e s => LFail e (ls_to s) | LFuel s => LFuel (ls_to s) end.
Definition plan_to (pl : plan_t XNum) : plan_t XNum :=
  @mkplan XNum (xscale T (pl_dt pl)) (pl_duty pl) (xscale T (pl_ton pl)) (xscale T (pl_toff pl)) (pl_chg pl).
Definition ctl_to (c : ctl_t XNum) : ctl_t XNum :=
  @mkctl XNum (c_ab c) (c_thr c) (v3s A (c_u c)) (psim (c_psi c)) (xscale QS (c_q c)) (xscale DS (c_qdot c)) (c_etas c) (c_bounds c) (c_nnan c).
Definition angles_to (r : ereal * ereal * vec3 XNum * psi_t XNum * ereal * ereal) :=
  let '(al, be, v, psi, q, qd) := r in (al, be, v, psim psi, xscale QS q, xscale DS qd).

Hypothesis Eet : q_etype o' = q_etype o.
Hypothesis Enan : q_nan_thr o' = q_nan_thr o.
Hypothesis Erel : q_exit_relaxed o' = q_exit_relaxed o.
Hypothesis Emass0 : p_mass0 p' = xscale M (p_mass0 p).
Hypothesis Etmax : p_tmax p' = xscale (M * A) (p_tmax p).
Hypothesis Etf : p_tf_max p' = xscale T (p_tf_max p).
Hypothesis Emin : p_mass_min p' = xscale M (p_mass_min p).
Hypothesis Edon : p_duty_on p' = xscale T (p_duty_on p).
Hypothesis Edoff : p_duty_off p' = xscale T (p_duty_off p).
Hypothesis Eb0 : p_batt0 p' = p_batt0 p.
Hypothesis Elo : p_cap_lo p' = p_cap_lo p.
Hypothesis Ehi : p_cap_hi p' = p_cap_hi p.
Hypothesis Ech : p_charge p' = xscale (/ T) (p_charge p).
Hypothesis Edis : p_discharge p' = xscale (/ T) (p_discharge p).
Hypothesis Efull : p_full p' = p_full p.
Hypothesis Eoe : p_oe0 p' = phi (p_oe0 p).
Hypothesis Hsafe : q_etype o = Keplerian -> forall x, elements_safety (N:=XNum) (phi x) (q_oe_min o') (q_oe_max o') = phi (elements_safety (N:=XNum) x (q_oe_min o) (q_oe_max o)).
Hypothesis Hstep : forall x, local_step (N:=XNum) o' p' (phi x) = Rmap (xscale T) (local_step (N:=XNum) o p x).
Hypothesis Hlaw : forall a x, lyap_call (N:=XNum) o' p' (xscale A a) (phi x) = Rmap angles_to (lyap_call (N:=XNum) o p a x).
Hypothesis Hosc : forall a x, evaluate_osculating_qdot (N:=XNum) o' p' (phi x) (xscale A a) =
  Rmap (fun q : ereal * ereal => (xscale DS (fst q), xscale DS (snd q))) (evaluate_osculating_qdot (N:=XNum) o p x a).
Hypothesis Hea : forall t x m b, eta_now (N:=XNum) ea' (xscale T t) (phi x) (xscale M m) b = eta_now (N:=XNum) ea t x m b.
Hypothesis Her : forall t x m b, eta_now (N:=XNum) er' (xscale T t) (phi x) (xscale M m) b = eta_now (N:=XNum) er t x m b.
Hypothesis Hptrb : forall t x, match q_ptrb o' with Some f => f (xscale T t) (phi x) (q_etype o) | None => Ok v3zero end =
  Rmap (v3s A) (match q_ptrb o with Some f => f t x (q_etype o) | None => Ok v3zero end).
Definition prop_to (r : vec6 XNum * ereal * ereal * ereal) := let '(x, t, m, dt) := r in (phi x, xscale T t, xscale M m, xscale T dt).
Hypothesis Hprop : forall s pl c w, propagate o' p' (ls_to s) (plan_to pl) (ctl_to c) (v3s A w) = Rmap prop_to (propagate o p s pl c w).
Hypothesis Hcheck : forall x, q_check o' (phi x) (p_oeT p') (p_woe p') (q_tol o') = q_check o x (p_oeT p) (p_woe p) (q_tol o).
Hypothesis Hcheck2 : forall x, q_check o' (phi x) (p_oeT p') (p_woe p') (q_tol_relaxed o') = q_check o x (p_oeT p) (p_woe p) (q_tol_relaxed o).

Let PiT : 0 < / T. Proof. apply Rinv_0_lt_compat. exact HT. Qed.
Lemma dis_dt c x : xmul (xscale (/ T) c) (xscale T x) = xmul c x.
Proof. rewrite xs_mul by assumption. replace (/ T * T) with 1 by (field; lra). apply xs_1. Qed.

Lemma init_to : init_state p' = ls_to (init_state p).
Proof.
  unfold init_state, ls_to, hist_to. cbn [l_t l_oe l_mass l_batt l_nrel l_nnan l_duty l_ton l_toff l_chg l_ab l_hist h_Qs h_dQdts h_times h_states h_masses h_controls h_etas h_bounds h_battery map].
  change (nofZ (Num:=XNum) 0) with (Fin 0). rewrite xs_0, Eoe, Emass0, Eb0. reflexivity.
Qed.
Lemma guard_to s : guard p' (ls_to s) = guard p s.
Proof.
  unfold guard, ls_to, hist_to. cbn [l_hist h_times]. change (nofZ (Num:=XNum) 0) with (Fin 0). rewrite <- (xs_0 T) at 1. rewrite last_map, Etf.
  change (nabs (Num:=XNum)) with xabs. change (nltb (Num:=XNum)) with xltb. rewrite !xs_abs, xs_ltb by exact HT. reflexivity.
Qed.
Lemma safety_to s : safety o' (ls_to s) = ls_to (safety o s).
Proof.
  unfold safety. rewrite Eet. destruct (q_etype o) eqn:E; [|reflexivity]. unfold ls_to. cbn [l_t l_oe l_mass l_batt l_nrel l_nnan l_duty l_ton l_toff l_chg l_ab l_hist].
  rewrite (Hsafe eq_refl). unfold hist_to. cbn [h_Qs h_dQdts h_times h_states h_masses h_controls h_etas h_bounds h_battery]. rewrite replace_last_map. reflexivity.
Qed.
Lemma duty_to t d ton toff : duty_phase p' (xscale T t) d (xscale T ton) (xscale T toff) =
  let '(d', ton', toff') := duty_phase p t d ton toff in (d', xscale T ton', xscale T toff').
Proof.
  unfold duty_phase. rewrite Edon, Edoff. change (nltb (Num:=XNum)) with xltb. change (nsub (Num:=XNum)) with xsub.
  rewrite xs_sub, xs_ltb by exact HT. destruct (xltb (p_duty_on p) (xsub t ton) && d)%bool; rewrite xs_sub, xs_ltb by exact HT;
  match goal with |- context [if ?b then _ else _] => destruct b end; reflexivity.
Qed.
Lemma batt_to t b dt d toff chg : battery_phase p' (xscale T t) b (xscale T dt) d (xscale T toff) chg =
  let '(dt', d', toff', chg') := battery_phase p t b dt d toff chg in (xscale T dt', d', xscale T toff', chg').
Proof.
  unfold battery_phase. rewrite Elo, Edis. destruct (nleb (Num:=XNum) b _); [reflexivity|]. change (nmul (Num:=XNum)) with xmul. rewrite dis_dt.
  match goal with |- context [if ?b then _ else _] => destruct b end; [|reflexivity].
  change (ndiv (Num:=XNum)) with xdiv. f_equal. f_equal. f_equal.
  rewrite <- (xs_1 (nsub (Num:=XNum) b (p_cap_lo p))) at 1. rewrite xs_div by lra. replace (1 / / T) with T by (field; lra). reflexivity.
Qed.
Lemma plan_sim s : plan o' p' (ls_to s) = Rmap plan_to (plan o p s).
Proof.
  unfold plan, ls_to. cbn [l_t l_oe l_batt l_duty l_ton l_toff l_chg]. rewrite Hstep, rmap_bind, bind_rmap. apply bind_ext. intros dt0.
  rewrite duty_to. destruct (duty_phase p (l_t s) (l_duty s) (l_ton s) (l_toff s)) as [[d1 ton] toff1]. rewrite batt_to.
  destruct (battery_phase p (l_t s) (l_batt s) dt0 d1 toff1 (l_chg s)) as [[[dt d2] toff] chg]. cbn [Rmap plan_to pl_dt pl_duty pl_ton pl_toff pl_chg].
  unfold recharge_phase. rewrite Efull, Ehi. reflexivity.
Qed.
Lemma acc_to dt m : accel_thrust p' (xscale T dt) (xscale M m) = xscale A (accel_thrust p dt m).
Proof.
  unfold accel_thrust. rewrite Etmax.
  assert (E : npsign (N:=XNum) (xscale T dt) = npsign (N:=XNum) dt).
  { unfold npsign. change (nltb (Num:=XNum)) with xltb. change (nofZ (Num:=XNum)) with (fun z => Fin (IZR z)). cbv beta.
    assert (Z1 : xltb (xscale T dt) (Fin 0) = xltb dt (Fin 0)) by (rewrite <- (xs_0 T) at 1; apply xs_ltb; exact HT).
    assert (Z2 : xltb (Fin 0) (xscale T dt) = xltb (Fin 0) dt) by (rewrite <- (xs_0 T) at 1; apply xs_ltb; exact HT).
    rewrite Z1, Z2. destruct dt as [r| | |]; try reflexivity. cbn [xltb].
    destruct (Rltb_spec r 0), (Rltb_spec 0 r); try reflexivity. assert (r = 0) by lra. subst r. apply xs_0. }
  rewrite E. change (nmul (Num:=XNum)) with xmul. change (ndiv (Num:=XNum)) with xdiv.
  rewrite (pr (M * A)) by (apply Rmult_lt_0_compat; assumption). rewrite xs_div by (try apply Rmult_lt_0_compat; assumption). f_equal. field. lra.
Qed.
Lemma zero_to : v3s A v3zero = v3zero.
Proof. unfold v3zero, v3s. change (nofZ (Num:=XNum) 0) with (Fin 0). rewrite xs_0. reflexivity. Qed.
Definition cres_to (c : ctl_res (N:=XNum)) : ctl_res (N:=XNum) := match c with Ctl c => Ctl (ctl_to c) | NanBreak => NanBreak end.
Lemma control_sim s pl a : control o' p' ea' er' (ls_to s) (plan_to pl) (xscale A a) = Rmap cres_to (control o p ea er s pl a).
Proof.
  unfold control, ls_to, plan_to. cbn [l_t l_oe l_mass l_batt l_nnan l_ab pl_duty]. destruct (pl_duty pl).
  - rewrite Hlaw, rmap_bind, bind_rmap. apply bind_ext. intros [[[[[al be] v] psi] q] qd]. cbn [angles_to].
    destruct (nisnan (Num:=XNum) al || nisnan (Num:=XNum) be)%bool.
    + rewrite Enan. destruct (Z.ltb (q_nan_thr o) (l_nnan s + 1)); [reflexivity|]. cbn [Rmap cres_to]. unfold ctl_to. cbn [c_ab c_thr c_u c_psi c_q c_qdot c_etas c_bounds c_nnan]. rewrite zero_to. reflexivity.
    + rewrite Hea, Her.
      assert (U : forall d, v3scal (N:=XNum) (xscale A a) d = v3s A (v3scal (N:=XNum) a d)).
      { intros [x y z]. unfold v3scal, v3s. change (nmul (Num:=XNum)) with xmul. rewrite !ScaleProofs.pl by exact HA. reflexivity. }
      rewrite U.
      match goal with |- context [if ?b then bind _ _ else _] => destruct b end.
      * rewrite Hosc, rmap_bind, bind_rmap. apply bind_ext. intros [q1 q2]. cbn [fst snd].
        change (ndiv (Num:=XNum)) with xdiv. change (nsub (Num:=XNum)) with xsub. rewrite !xs_sub, !xs_div by exact HD.
        replace (DS / DS) with 1 by (field; lra). rewrite !xs_1. cbn [Rmap cres_to]. unfold ctl_to. cbn [c_ab c_thr c_u c_psi c_q c_qdot c_etas c_bounds c_nnan].
        match goal with |- context [if ?b then 0%Z else 1%Z] => destruct b end; rewrite ?zero_to; reflexivity.
      * reflexivity.
  - rewrite Hlaw, rmap_bind, bind_rmap. apply bind_ext. intros [[[[[al be] v] psi] q] qd]. cbn [angles_to Rmap cres_to]. unfold ctl_to.
    cbn [c_ab c_thr c_u c_psi c_q c_qdot c_etas c_bounds c_nnan]. rewrite zero_to. reflexivity.
Qed.
Lemma ptrb_sim s : perturbation o' (ls_to s) = Rmap (v3s A) (perturbation o s).
Proof. unfold perturbation, ls_to. cbn [l_t l_oe]. rewrite Eet. apply Hptrb. Qed.
Lemma update_to b dt d chg : battery_update p' b (xscale T dt) d chg = battery_update p b dt d chg.
Proof. unfold battery_update. rewrite Elo, Ehi, Edis, Ech. change (nmul (Num:=XNum)) with xmul. rewrite !dis_dt. reflexivity. Qed.
Lemma exit_sim s : exit_check o' p' (ls_to s) = out_to (exit_check o p s).
Proof.
  unfold exit_check. change (l_oe (ls_to s)) with (phi (l_oe s)). rewrite Hcheck, Hcheck2.
  destruct (q_check o (l_oe s) (p_oeT p) (p_woe p) (q_tol o)) as [[|]|]; try reflexivity.
  destruct (q_check o (l_oe s) (p_oeT p) (p_woe p) (q_tol_relaxed o)) as [rel|]; [|reflexivity].
  rewrite Erel, Emin. cbv zeta. change (l_nrel (ls_to s)) with (l_nrel s). generalize (if rel then (l_nrel s + 1)%Z else l_nrel s). intros k.
  change (l_nrel (with_nrel (ls_to s) k)) with k. change (l_nrel (with_nrel s k)) with k.
  change (l_mass (with_nrel (ls_to s) k)) with (xscale M (l_mass s)). change (l_mass (with_nrel s k)) with (l_mass s).
  change (nleb (Num:=XNum)) with xleb. rewrite xs_leb by exact HM.
  destruct (rel && _)%bool; [reflexivity|]. destruct (xleb (l_mass s) (p_mass_min p)); reflexivity.
Qed.
Lemma push3_to h t x m : push3 (hist_to h) (xscale T t) (phi x) (xscale M m) = hist_to (push3 h t x m).
Proof. unfold push3, hist_to. cbn [h_Qs h_dQdts h_times h_states h_masses h_controls h_etas h_bounds h_battery]. rewrite !map_app. reflexivity. Qed.
Lemma push6_to h al be c b : push6 (hist_to h) al be (ctl_to c) b = hist_to (push6 h al be c b).
Proof. unfold push6, hist_to, ctl_to. cbn [h_Qs h_dQdts h_times h_states h_masses h_controls h_etas h_bounds h_battery c_q c_qdot c_thr c_etas c_bounds]. rewrite !map_app. reflexivity. Qed.

Lemma step_sim s0 : step o' p' ea' er' (ls_to s0) = out_to (step o p ea er s0).
Proof.
  unfold step. rewrite safety_to. set (s := safety o s0). clearbody s. rewrite plan_sim. destruct (plan o p s) as [pl|e]; [|reflexivity]. cbn [Rmap].
  change (pl_dt (plan_to pl)) with (xscale T (pl_dt pl)). change (l_mass (ls_to s)) with (xscale M (l_mass s)). rewrite acc_to. cbv zeta.
  rewrite control_sim. destruct (control o p ea er s pl _) as [[c|]|e]; [|reflexivity|reflexivity]. cbn [Rmap cres_to].
  rewrite ptrb_sim. destruct (perturbation o s) as [w|e]; [|reflexivity]. cbn [Rmap].
  rewrite Hprop. destruct (propagate o p s pl c w) as [[[[x t] m] dtb]|e]; [|reflexivity]. cbn [Rmap prop_to].
  change (l_batt (ls_to s)) with (l_batt s). change (pl_duty (plan_to pl)) with (pl_duty pl). change (pl_chg (plan_to pl)) with (pl_chg pl). rewrite update_to.
  destruct (battery_update p (l_batt s) dtb (pl_duty pl) (pl_chg pl)) as [b' chg']. change (c_ab (ctl_to c)) with (c_ab c).
  change (l_hist (ls_to s)) with (hist_to (l_hist s)). rewrite push3_to. destruct (c_ab c) as [[al be]|] eqn:CA; [|reflexivity].
  rewrite push6_to. rewrite <- exit_sim. reflexivity.
Qed.
Lemma loop_sim fuel : forall s, loop fuel o' p' ea' er' (ls_to s) = res_to (loop fuel o p ea er s).
Proof.
  induction fuel as [|n IH]; intros s; cbn [loop]; rewrite guard_to; destruct (guard p s); try reflexivity.
  rewrite step_sim. destruct (step o p ea er s); try reflexivity. cbn [out_to]. apply IH.
Qed.
End Run.

(** the hypothesis on [propagate] for the fixed step *)
Section Rk4.
Variables (o o' : qlaw XNum) (p p' : problem XNum) (phi : vec6 XNum -> vec6 XNum) (psim : psi_t XNum -> psi_t XNum) (QS DS A T M : R).
Hypothesis HT : 0 < T.
Hypothesis HM : 0 < M.
Lemma propagate_sim s pl c w : q_integ o = RK4 -> q_integ o' = RK4 -> p_mdot p' = xscale (M / T) (p_mdot p) ->
  (forall t h x v psi w,
  rk4 (N:=XNum) (q_eom o') (xscale T t) (xscale T h) (phi x) (@mkparams XNum (q_mu o') (v3s A v) (psim psi) (v3s A w)) =
  Rmap phi (rk4 (N:=XNum) (q_eom o) t h x (@mkparams XNum (q_mu o) v psi w))) ->
  propagate o' p' (ls_to phi QS DS T M s) (plan_to T pl) (ctl_to psim QS DS A c) (v3s A w) = Rmap (prop_to phi T M) (propagate o p s pl c w).
Proof.
  intros Eig Eig' Emdot Hrk4. unfold propagate. rewrite Eig, Eig'. unfold ls_to, plan_to, ctl_to. cbn [l_t l_oe l_mass pl_dt c_u c_psi c_thr]. rewrite Hrk4, rmap_bind, bind_rmap. apply bind_ext. intros x.
  cbn [Rmap prop_to]. change (nadd (Num:=XNum)) with xadd. change (nsub (Num:=XNum)) with xsub. change (nmul (Num:=XNum)) with xmul.
  rewrite xs_add, Emdot. rewrite xs_mul by (try apply Rdiv_lt_0_compat; assumption). replace (M / T * T) with M by (field; lra). rewrite xs_sub.
  destruct (Z.eqb (c_thr c) 1); reflexivity.
Qed.
End Rk4.
