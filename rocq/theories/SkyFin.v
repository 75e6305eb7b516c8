(** Built-in perturbations of finite floats are those of the reals (C98). *)
From Coq Require Import Reals Lra Lia ZArith String List Bool.
From Verif Require Import RMath RLib Num Base Elements Convergence Lyapunov Perturb RSpec ExportSpec LawSpec Qlaw Spec NanProofs ElemProofs PtrbProofs UnitProofs ScaleProofs MirrorSpec MirrorProofs FlatProofs FinSpec SkySpec SkyProofs.
Import ListNotations.
Local Open Scope R_scope.

Lemma jdiv_fin (x y : R) : jdiv (N:=XNum) (Fin x) (Fin y) = Rmap Fin (jdiv (N:=RNum) x y).
Proof.
  unfold jdiv. change (neqb (Num:=XNum) (Fin y) (nofZ (Num:=XNum) 0)) with (Reqb y 0). change (neqb (Num:=RNum) y (nofZ (Num:=RNum) 0)) with (Reqb y 0).
  destruct (Reqb y 0) eqn:E; [reflexivity|]. cbn [Rmap]. change (ndiv (Num:=XNum)) with xdiv. change (ndiv (Num:=RNum)) with Rdiv. cbn [xdiv]. rewrite E. reflexivity.
Qed.
Lemma xdiv_fin (x y : R) : y <> 0 -> xdiv (Fin x) (Fin y) = Fin (x / y).
Proof. intros H. cbn [xdiv]. rewrite (proj2 (Reqb_false y 0) H). reflexivity. Qed.
Lemma xsqrt_fin (x : R) : 0 <= x -> xsqrt (Fin x) = Fin (sqrt x).
Proof. intros H. cbn [xsqrt]. rewrite (proj2 (Rltb_false x 0) H). reflexivity. Qed.
Lemma add_fin u v : v3add (N:=XNum) (fin3 u) (fin3 v) = fin3 (v3add (N:=RNum) u v).
Proof. destruct u, v. reflexivity. Qed.
Lemma sub_fin u v : v3sub (N:=XNum) (fin3 u) (fin3 v) = fin3 (v3sub (N:=RNum) u v).
Proof. destruct u, v. reflexivity. Qed.
Lemma scal_fin3 c v : v3scal (N:=XNum) (Fin c) (fin3 v) = fin3 (v3scal (N:=RNum) c v).
Proof. destruct v. reflexivity. Qed.
Lemma divs_fin c v : c <> 0 -> v3divs (N:=XNum) (fin3 v) (Fin c) = fin3 (v3divs (N:=RNum) v c).
Proof. intros H. destruct v. cbn [fin3 v3divs]. change (ndiv (Num:=XNum)) with xdiv. rewrite !xdiv_fin by exact H. reflexivity. Qed.
Lemma dot_fin u v : dot3 (N:=XNum) (fin3 u) (fin3 v) = Fin (dot3 (N:=RNum) u v).
Proof. destruct u, v. reflexivity. Qed.
Lemma cross_fin u v : cross3 (N:=XNum) (fin3 u) (fin3 v) = fin3 (cross3 (N:=RNum) u v).
Proof. destruct u, v. reflexivity. Qed.
Lemma dot_self (u : vec3 RNum) : 0 <= dot3 (N:=RNum) u u.
Proof. destruct u as [x y z]. cbn. nra. Qed.
Lemma norm_fin u : norm3 (N:=XNum) (fin3 u) = Fin (norm3 (N:=RNum) u).
Proof. unfold norm3. rewrite dot_fin. apply xsqrt_fin, dot_self. Qed.
Lemma matvec_fin m v : matvec (N:=XNum) (finm m) (fin3 v) = fin3 (matvec (N:=RNum) m v).
Proof. destruct m as [a b c]. cbn [finm matvec]. rewrite !dot_fin. reflexivity. Qed.
Lemma rot3_fin (x : R) : rotmat3 (N:=XNum) (Fin x) = finm (rotmat3 (N:=RNum) x).
Proof. reflexivity. Qed.
Lemma rot1_fin (x : R) : rotmat1 (N:=XNum) (Fin x) = finm (rotmat1 (N:=RNum) x).
Proof. reflexivity. Qed.
Lemma fin_parts s : rpart (fin6 s) = fin3 (rpart s) /\ vpart (fin6 s) = fin3 (vpart s).
Proof. destruct s. split; reflexivity. Qed.

(** conversions *)
Lemma kep2sv_fin a e i ra om ta mu : 0 <= a * mu * (1 - e * e) ->
  kep2sv (N:=XNum) (fin6 (elems a e i ra om ta)) (Fin mu) = Rmap fin6 (kep2sv (N:=RNum) (elems a e i ra om ta) mu).
Proof.
  intros H. unfold kep2sv, elems. cbn [fin6]. cbv zeta.
  change (nsqrt (Num:=XNum) (nmul (Num:=XNum) (nmul (Num:=XNum) (Fin a) (Fin mu)) (nsub (Num:=XNum) (nofZ (Num:=XNum) 1) (sq (N:=XNum) (Fin e))))) with (xsqrt (Fin (a * mu * (1 - e * e)))).
  rewrite xsqrt_fin by exact H. 
  change (nsqrt (Num:=RNum) (nmul (Num:=RNum) (nmul (Num:=RNum) a mu) (nsub (Num:=RNum) (nofZ (Num:=RNum) 1) (sq (N:=RNum) e)))) with (sqrt (a * mu * (1 - e * e))).
  generalize (sqrt (a * mu * (1 - e * e))). intros hh.
  change (sq (N:=XNum) (Fin hh)) with (Fin (hh * hh)). change (sq (N:=RNum) hh) with (hh * hh).
  change (nmul (Num:=XNum) (Fin mu) (nadd (Num:=XNum) (nofZ (Num:=XNum) 1) (nmul (Num:=XNum) (Fin e) (ncos (Num:=XNum) (Fin ta))))) with (Fin (mu * (1 + e * cos ta))).
  change (nmul (Num:=RNum) mu (nadd (Num:=RNum) (nofZ (Num:=RNum) 1) (nmul (Num:=RNum) e (ncos (Num:=RNum) ta)))) with (mu * (1 + e * cos ta)).
  rewrite !jdiv_fin. rewrite rmap_bind, bind_rmap. apply bind_ext. intros c. rewrite rmap_bind, bind_rmap. apply bind_ext. intros d.
  change (@mk3 XNum (ncos (Num:=XNum) (Fin ta)) (nsin (Num:=XNum) (Fin ta)) (nofZ (Num:=XNum) 0)) with (fin3 (@mk3 RNum (cos ta) (sin ta) 0)).
  change (@mk3 XNum (nopp (Num:=XNum) (nsin (Num:=XNum) (Fin ta))) (nadd (Num:=XNum) (Fin e) (ncos (Num:=XNum) (Fin ta))) (nofZ (Num:=XNum) 0)) with (fin3 (@mk3 RNum (- sin ta) (e + cos ta) 0)).
  change (@mk3 RNum (ncos (Num:=RNum) ta) (nsin (Num:=RNum) ta) (nofZ (Num:=RNum) 0)) with (@mk3 RNum (cos ta) (sin ta) 0).
  change (@mk3 RNum (nopp (Num:=RNum) (nsin (Num:=RNum) ta)) (nadd (Num:=RNum) e (ncos (Num:=RNum) ta)) (nofZ (Num:=RNum) 0)) with (@mk3 RNum (- sin ta) (e + cos ta) 0).
  rewrite !scal_fin3. generalize (v3scal (N:=RNum) c (@mk3 RNum (cos ta) (sin ta) 0)), (v3scal (N:=RNum) d (@mk3 RNum (- sin ta) (e + cos ta) 0)). intros r v.
  change (neqb (Num:=XNum) (Fin om) (nofZ (Num:=XNum) 0)) with (Reqb om 0). change (neqb (Num:=RNum) om (nofZ (Num:=RNum) 0)) with (Reqb om 0).
  change (neqb (Num:=XNum) (Fin i) (nofZ (Num:=XNum) 0)) with (Reqb i 0). change (neqb (Num:=RNum) i (nofZ (Num:=RNum) 0)) with (Reqb i 0).
  change (neqb (Num:=XNum) (Fin ra) (nofZ (Num:=XNum) 0)) with (Reqb ra 0). change (neqb (Num:=RNum) ra (nofZ (Num:=RNum) 0)) with (Reqb ra 0).
  change (nopp (Num:=XNum) (Fin om)) with (Fin (- om)). change (nopp (Num:=XNum) (Fin i)) with (Fin (- i)). change (nopp (Num:=XNum) (Fin ra)) with (Fin (- ra)).
  change (nopp (Num:=RNum)) with Ropp.
  rewrite !rot3_fin, rot1_fin. destruct (Reqb om 0), (Reqb i 0), (Reqb ra 0); cbn [negb]; rewrite ?matvec_fin; cbn [Rmap];
    match goal with |- Ok (concat33 (fin3 ?x) (fin3 ?y)) = _ => destruct x, y; reflexivity end.
Qed.
Lemma mee2kep_fin p f g h k l : mee2kep (N:=XNum) (fin6 (elems p f g h k l)) = Rmap fin6 (mee2kep (N:=RNum) (elems p f g h k l)).
Proof.
  unfold mee2kep, elems. cbn [fin6].
  change (nsub (Num:=XNum) (nsub (Num:=XNum) (nofZ (Num:=XNum) 1) (sq (N:=XNum) (Fin f))) (sq (N:=XNum) (Fin g))) with (Fin (1 - f * f - g * g)).
  change (nsub (Num:=RNum) (nsub (Num:=RNum) (nofZ (Num:=RNum) 1) (sq (N:=RNum) f)) (sq (N:=RNum) g)) with (1 - f * f - g * g).
  rewrite jdiv_fin, rmap_bind, bind_rmap. apply bind_ext. intros a. cbv zeta. cbn [Rmap fin6].
  change (nsqrt (Num:=XNum) (nadd (Num:=XNum) (sq (N:=XNum) (Fin f)) (sq (N:=XNum) (Fin g)))) with (xsqrt (Fin (f * f + g * g))).
  change (nsqrt (Num:=XNum) (nadd (Num:=XNum) (sq (N:=XNum) (Fin h)) (sq (N:=XNum) (Fin k)))) with (xsqrt (Fin (h * h + k * k))).
  rewrite !xsqrt_fin by nra. reflexivity.
Qed.
(** the Keplerian elements through which a state is computed *)
Definition via (et : etype) (oe : vec6 RNum) : Res (vec6 RNum) := match et with Keplerian => Ok oe | MeeWithA => mee_with_a2kep (N:=RNum) oe end.
Lemma via_ok et oe : elliptic et oe -> exists k, via et oe = Ok k /\ elliptic Keplerian k.
Proof.
  destruct et; intros H; [exists oe; split; [reflexivity|exact H]|]. destruct oe as [a f g h k l]. cbn [elliptic] in H. destruct H as [Ha He].
  destruct (mee_e f g) as [E1 E2]. unfold via, mee_with_a2kep. cbn [mee_with_a2mee].
  change (mk6 (nmul (Num:=RNum) a (nsub (Num:=RNum) (nsub (Num:=RNum) (nofZ (Num:=RNum) 1) (sq (N:=RNum) f)) (sq (N:=RNum) g))) f g h k l)
    with (elems (a * (1 - f * f - g * g)) f g h k l).
  change (@car RNum) with R in *. rewrite mee2kep_eq by lra. eexists. split; [reflexivity|]. unfold elems. cbn [elliptic]. rewrite E2.
  replace (a * (1 - f * f - g * g) / (1 - (f * f + g * g))) with a by (field; lra). split; [exact Ha|]. split; [exact E1|].
  rewrite <- sqrt_1. apply sqrt_lt_1; nra.
Qed.
Lemma state_fin et oe mu : 0 < mu -> elliptic et oe -> exists s, state_of (N:=RNum) et oe mu = Ok s /\ state_of (N:=XNum) et (fin6 oe) (Fin mu) = Ok (fin6 s) /\
  norm3 (N:=RNum) (rpart s) <> 0 /\ norm3 (N:=RNum) (cross3 (N:=RNum) (rpart s) (vpart s)) <> 0.
Proof.
  intros M H. destruct (via_ok et oe H) as ([a e i ra om ta] & V & K). pose proof K as (Ha & He).
  assert (E : state_of (N:=RNum) et oe mu = kep2sv (N:=RNum) (elems a e i ra om ta) mu).
  { destruct et; cbn [state_of]; [injection V as ->; reflexivity|]. destruct oe as [a0 f g h k l]. unfold mee_with_a2sv. unfold via, mee_with_a2kep in V. cbn [mee_with_a2mee] in V. rewrite V. reflexivity. }
  assert (X : state_of (N:=XNum) et (fin6 oe) (Fin mu) = kep2sv (N:=XNum) (fin6 (elems a e i ra om ta)) (Fin mu)).
  { destruct et; cbn [state_of]; [injection V as ->; reflexivity|]. destruct oe as [a0 f g h k l]. unfold mee_with_a2sv. cbn [fin6].
    unfold via, mee_with_a2kep in V. cbn [mee_with_a2mee] in V.
    change (@mk6 XNum (nmul (Num:=XNum) (Fin a0) (nsub (Num:=XNum) (nsub (Num:=XNum) (nofZ (Num:=XNum) 1) (sq (N:=XNum) (Fin f))) (sq (N:=XNum) (Fin g)))) (Fin f) (Fin g) (Fin h) (Fin k) (Fin l)) with (fin6 (elems (a0 * (1 - f * f - g * g)) f g h k l)).
    rewrite mee2kep_fin.
    change (mee2kep (N:=RNum) (elems (a0 * (1 - f * f - g * g)) f g h k l) = Ok (@mk6 RNum a e i ra om ta)) in V. rewrite V. reflexivity. }
  rewrite E, X. rewrite kep2sv_fin. 2:{ apply Rmult_le_pos; [apply Rmult_le_pos; lra|nra]. }
  pose proof (state_regular Keplerian mu (elems a e i ra om ta) M K) as (N1 & N2).
  rewrite kep2sv_closed by (try assumption; lra). eexists. split; [reflexivity|]. split; [reflexivity|]. split; [exact N1|exact N2].
Qed.

Lemma battin_fin r s (m : R) : perturbation_third_body_battin (N:=XNum) (fin3 r) (fin3 s) (Fin m) = Rmap fin3 (perturbation_third_body_battin (N:=RNum) r s m).
Proof.
  unfold perturbation_third_body_battin. cbv zeta. change (nofZ (Num:=XNum) 2) with (Fin 2). rewrite scal_fin3, !sub_fin, !dot_fin, jdiv_fin, rmap_bind, bind_rmap.
  change (nofZ (Num:=RNum) 2) with 2.
  destruct (Req_dec (dot3 (N:=RNum) s s) 0) as [Z|Z].
  { rewrite Z, jdivR0. reflexivity. }
  rewrite jdivR by exact Z. cbn [bind].
  set (q := dot3 (N:=RNum) r (v3sub (N:=RNum) r (v3scal (N:=RNum) 2 s)) / dot3 (N:=RNum) s s).
  assert (Q : 0 <= 1 + q).
  { assert (D : 1 + q = dot3 (N:=RNum) (v3sub (N:=RNum) r s) (v3sub (N:=RNum) r s) / dot3 (N:=RNum) s s).
    { unfold q. apply Rmult_eq_reg_r with (dot3 (N:=RNum) s s); [|exact Z]. rewrite Rmult_plus_distr_r. unfold Rdiv. rewrite !Rmult_assoc, !Rinv_l by exact Z. destruct r, s. cbn. ring. }
    rewrite D. pose proof (dot_self s). pose proof (dot_self (v3sub (N:=RNum) r s)). apply Rmult_le_pos; [assumption|]. left. apply Rinv_0_lt_compat. lra. }
  clearbody q.
  change (nadd (Num:=XNum) (nofZ (Num:=XNum) 1) (Fin q)) with (Fin (1 + q)). change (nadd (Num:=RNum) (nofZ (Num:=RNum) 1) q) with (1 + q).
  change (nsqrt (Num:=XNum) (Fin (1 + q))) with (xsqrt (Fin (1 + q))). rewrite xsqrt_fin by exact Q. change (nsqrt (Num:=RNum) (1 + q)) with (sqrt (1 + q)). generalize (sqrt (1 + q)). intros w.
  change (nadd (Num:=XNum) (nadd (Num:=XNum) (nofZ (Num:=XNum) 3) (nmul (Num:=XNum) (nofZ (Num:=XNum) 3) (Fin q))) (sq (N:=XNum) (Fin q))) with (Fin (3 + 3 * q + q * q)).
  change (nadd (Num:=XNum) (nofZ (Num:=XNum) 1) (cube (N:=XNum) (Fin w))) with (Fin (1 + cube (N:=RNum) w)).
  rewrite jdiv_fin, rmap_bind, bind_rmap. apply bind_ext. intros c.
  change (nsqrt (Num:=XNum) (Fin (dot3 (N:=RNum) (v3sub (N:=RNum) r s) (v3sub (N:=RNum) r s)))) with (xsqrt (Fin (dot3 (N:=RNum) (v3sub (N:=RNum) r s) (v3sub (N:=RNum) r s)))).
  rewrite xsqrt_fin by apply dot_self. change (nsqrt (Num:=RNum)) with sqrt. generalize (sqrt (dot3 (N:=RNum) (v3sub (N:=RNum) r s) (v3sub (N:=RNum) r s))). intros d.
  change (nopp (Num:=XNum) (Fin m)) with (Fin (- m)). change (cube (N:=XNum) (Fin d)) with (Fin (cube (N:=RNum) d)). rewrite jdiv_fin, rmap_bind, bind_rmap. apply bind_ext. intros k.
  change (nmul (Num:=XNum) (Fin q) (Fin c)) with (Fin (q * c)). rewrite scal_fin3, add_fin, scal_fin3. reflexivity.
Qed.
Lemma J2_fin r T (m J Re : R) : perturbation_J2 (N:=XNum) (fin3 r) (finm T) (Fin m) (Fin J) (Fin Re) = Rmap fin3 (perturbation_J2 (N:=RNum) r T m J Re).
Proof.
  unfold perturbation_J2. cbv zeta. rewrite norm_fin. generalize (norm3 (N:=RNum) r). intros d.
  change (nmul (Num:=XNum) (nmul (Num:=XNum) (nmul (Num:=XNum) (nofZ (Num:=XNum) (-3)) (Fin m)) (Fin J)) (sq (N:=XNum) (Fin Re))) with (Fin (-3 * m * J * (Re * Re))).
  change (nmul (Num:=XNum) (nofZ (Num:=XNum) 2) (pow5 (N:=XNum) (Fin d))) with (Fin (2 * pow5 (N:=RNum) d)). rewrite jdiv_fin, rmap_bind, bind_rmap. apply bind_ext. intros c.
  rewrite matvec_fin. destruct (matvec (N:=RNum) T r) as [x y z]. cbn [fin3 Rmap]. f_equal.
  assert (E : mtrans (N:=XNum) (finm T) = finm (mtrans (N:=RNum) T)) by (destruct T as [[a b e] [f g h] [i j k]]; reflexivity). rewrite E.
  rewrite <- matvec_fin. reflexivity.
Qed.
Lemma rtn_fin r v : norm3 (N:=RNum) r <> 0 -> norm3 (N:=RNum) (cross3 (N:=RNum) r v) <> 0 -> pxformECI2RTN (N:=XNum) (fin3 r) (fin3 v) = finm (pxformECI2RTN (N:=RNum) r v).
Proof. intros H1 H2. unfold pxformECI2RTN. cbv zeta. rewrite cross_fin, !norm_fin, !divs_fin, cross_fin by assumption. reflexivity. Qed.
Lemma loop_fin sp spx (po : ptrb_obj RNum) (et : R) r : float_sky sp spx -> pt_LU po <> 0 -> forall l acc,
  third_body_loop (N:=XNum) spx (float_settings po) (Fin et) (fin3 r) (map (fun x => (Fin (fst x), snd x)) l) (fin3 acc) = Rmap fin3 (third_body_loop (N:=RNum) sp po et r l acc).
Proof.
  intros (F1 & F2 & F3) HL l. induction l as [|[m ID] l IH]; intros acc; cbn [map third_body_loop fst snd]; [reflexivity|].
  change (pt_frame (float_settings po)) with (pt_frame po). change (pt_obs (float_settings po)) with (pt_obs po). change (pt_LU (float_settings po)) with (Fin (pt_LU po)).
  rewrite F1, divs_fin by exact HL. rewrite battin_fin, rmap_bind, bind_rmap. apply bind_ext. intros w. rewrite add_fin. apply IH.
Qed.
Lemma combine_fin gs : forall ns : list string, combine (map Fin gs) ns = map (fun x => (Fin (fst x), snd x)) (combine gs ns).
Proof. induction gs as [|g gs IH]; intros [|n ns]; cbn [map combine fst snd]; try reflexivity. rewrite IH. reflexivity. Qed.
Lemma C98_fin_norm (sp : spice RNum) spx (po : ptrb_obj RNum) (t : R) oe et s : float_sky sp spx -> pt_LU po <> 0 -> 0 < pt_obs_mu po -> elliptic et oe ->
  state_of (N:=RNum) et oe (pt_obs_mu po) = Ok s ->
  (pt_use_SRP po = true -> norm3 (N:=RNum) (v3sub (N:=RNum) (rpart s) (v3divs (N:=RNum) (sp_pos sp "10"%string (pt_et_ref po + t * pt_TU po) (pt_frame po) (pt_obs po)) (pt_LU po))) <> 0) ->
  get_perturbations_RTN (N:=XNum) spx (float_settings po) (Fin t) (fin6 oe) et = Rmap fin3 (get_perturbations_RTN (N:=RNum) sp po t oe et).
Proof.
  intros F HL M H CS HS. destruct (state_fin et oe (pt_obs_mu po) M H) as (s' & E & E' & N1 & N2). rewrite CS in E. apply ok_inj in E. subst s'.
  unfold get_perturbations_RTN. change (pt_obs_mu (float_settings po)) with (Fin (pt_obs_mu po)). unfold state_of in CS, E'. rewrite CS, E'. cbn [bind]. cbv zeta.
  destruct (fin_parts s) as [P1 P2]. rewrite P1, P2. cbn [float_settings pt_gms pt_names]. fold (float_settings po).
  destruct (pt_gms po) as [gs|]; [|reflexivity]. destruct (pt_names po) as [ns|]; [|reflexivity]. cbn [option_map].
  change (nadd (Num:=XNum) (pt_et_ref (float_settings po)) (nmul (Num:=XNum) (Fin t) (pt_TU (float_settings po)))) with (Fin (pt_et_ref po + t * pt_TU po)).
  change (nadd (Num:=RNum) (pt_et_ref po) (nmul (Num:=RNum) t (pt_TU po))) with (pt_et_ref po + t * pt_TU po). 
  revert HS. generalize (pt_et_ref po + t * pt_TU po). intros ee HS. rewrite combine_fin. change (v3zero (N:=XNum)) with (fin3 (v3zero (N:=RNum))).
  rewrite (loop_fin sp spx po ee _ F HL), rmap_bind, bind_rmap. apply bind_ext. intros a1. destruct F as (F1 & F2 & F3).
  change (pt_use_J2 (float_settings po)) with (pt_use_J2 po). change (pt_use_SRP (float_settings po)) with (pt_use_SRP po).
  change (pt_frame (float_settings po)) with (pt_frame po). change (pt_frame_PA (float_settings po)) with (pt_frame_PA po). change (pt_obs (float_settings po)) with (pt_obs po).
  change (pt_LU (float_settings po)) with (Fin (pt_LU po)). change (pt_J2 (float_settings po)) with (Fin (pt_J2 po)). change (pt_Re (float_settings po)) with (Fin (pt_Re po)). change (pt_k_srp (float_settings po)) with (Fin (pt_k_srp po)).
  rewrite F1, F2, F3.
  assert (J : (if pt_use_J2 po then bind (perturbation_J2 (N:=XNum) (fin3 (rpart s)) (finm (sp_pxform sp (pt_frame po) (pt_frame_PA po) ee)) (Fin (pt_obs_mu po)) (Fin (pt_J2 po)) (Fin (pt_Re po))) (fun w => Ok (v3add (N:=XNum) (fin3 a1) w)) else Ok (fin3 a1)) =
    Rmap fin3 (if pt_use_J2 po then bind (perturbation_J2 (N:=RNum) (rpart s) (sp_pxform sp (pt_frame po) (pt_frame_PA po) ee) (pt_obs_mu po) (pt_J2 po) (pt_Re po)) (fun w => Ok (v3add (N:=RNum) a1 w)) else Ok a1)).
  { destruct (pt_use_J2 po); [|reflexivity]. rewrite J2_fin, rmap_bind, bind_rmap. apply bind_ext. intros w. cbn [Rmap]. rewrite add_fin. reflexivity. }
  rewrite J, rmap_bind, bind_rmap. apply bind_ext. intros a2. cbn [Rmap]. f_equal. rewrite rtn_fin by assumption.
  destruct (pt_use_SRP po) eqn:U; [|apply matvec_fin]. specialize (HS eq_refl).
  rewrite divs_fin, sub_fin by exact HL. unfold perturbation_SRP. rewrite norm_fin.
  change (ndiv (Num:=XNum) (Fin (sp_AU_km sp)) (Fin (pt_LU po))) with (xdiv (Fin (sp_AU_km sp)) (Fin (pt_LU po))). rewrite xdiv_fin by exact HL.
  match goal with |- context [v3divs (N:=XNum) (v3scal (N:=XNum) ?k _) (cube (N:=XNum) (Fin ?d))] => change k with (Fin (pt_k_srp po * ((sp_AU_km sp / pt_LU po) * (sp_AU_km sp / pt_LU po)))); change (cube (N:=XNum) (Fin d)) with (Fin (d * d * d)) end.
  rewrite scal_fin3, divs_fin, add_fin, matvec_fin; [reflexivity|].
  intros Z. apply Rmult_integral in Z. destruct Z as [Z|Z]; [apply Rmult_integral in Z; destruct Z as [Z|Z]|]; exact (HS Z).
Qed.
Lemma norm_0 u : norm3 (N:=RNum) u = 0 -> u = vec 0 0 0.
Proof.
  intros H. pose proof (dot_self u) as D. apply (sqrt_eq_0 _ D) in H. destruct u as [x y z]. cbn in H. change (@car RNum) with R in *. unfold vec. f_equal; nra.
Qed.
Lemma divs_scale v (k : R) : v3divs (N:=RNum) v k = scale (/ k) v.
Proof. destruct v. unfold scale. cbn. unfold Rdiv. f_equal; apply Rmult_comm. Qed.
Lemma C98_fin_lem (sp : spice RNum) spx (po : ptrb_obj RNum) (t : R) oe et : float_sky sp spx -> pt_LU po <> 0 -> 0 < pt_obs_mu po -> elliptic et oe -> clear_of_sun sp po t et oe ->
  get_perturbations_RTN (N:=XNum) spx (float_settings po) (Fin t) (fin6 oe) et =
  match get_perturbations_RTN (N:=RNum) sp po t oe et with Ok v => Ok (fin3 v) | Err e => Err e end.
Proof.
  intros F HL M H HS. destruct (state_fin et oe (pt_obs_mu po) M H) as (s & E & _).
  refine (C98_fin_norm sp spx po t oe et s F HL M H E _). intros U Z. apply (HS U s E). rewrite <- divs_scale. apply norm_0. exact Z.
Qed.

(** the perturbation of C96 for the built-in object *)
Lemma flip_fin et oe : fin6 (flip_elements et oe) = reflect et (fin6 oe).
Proof. destruct oe, et; reflexivity. Qed.
Lemma flip_elliptic et oe : elliptic et oe -> elliptic et (flip_elements et oe).
Proof. destruct oe, et; intros H; exact H. Qed.
Lemma flip_scale (k : R) v : scale k (flip v) = flip (scale k v).
Proof. destruct v. unfold scale. cbn [flip]. f_equal. rring. Qed.
Lemma flip_sub' u v : sub (flip u) (flip v) = flip (sub u v).
Proof. exact (flip_sub u v). Qed.
Lemma flip_clear (sp : spice RNum) (po : ptrb_obj RNum) (t : R) et oe : 0 < pt_obs_mu po -> elliptic et oe -> clear_of_sun sp po t et oe -> clear_of_sun (flip_sky sp) po t et (flip_elements et oe).
Proof.
  intros M H C U s' E'. destruct (Ok_kep et oe (pt_obs_mu po) M H) as (s & E1 & E2). unfold state_of in E'. rewrite E2 in E'. apply ok_inj in E'. subst s'.
  rewrite flip_r. cbn [flip_sky sp_pos]. rewrite flip_scale, flip_sub'. intros Z. apply (C U s E1).
  match goal with |- ?x = _ => destruct x as [p q w] end. cbn [flip] in Z. injection Z as -> -> Z. unfold vec. f_equal. change (@car RNum) with R in *. lra.
Qed.
Lemma C98_mirror_lem (sp : spice RNum) spx spm (po : ptrb_obj RNum) (t : R) oe et : float_sky sp spx -> float_sky (flip_sky sp) spm -> pt_LU po <> 0 -> 0 < pt_obs_mu po -> elliptic et oe -> clear_of_sun sp po t et oe ->
  ptrb_reflect et (built_in spx (float_settings po)) (Fin t) (reflect et (fin6 oe)) et = built_in spm (float_settings po) (Fin t) (reflect et (fin6 oe)) et.
Proof.
  intros F Fm HL M H C. unfold ptrb_reflect, built_in. rewrite unreflect_reflect, (C98_fin_lem sp spx po t oe et F HL M H C).
  rewrite <- flip_fin, (C98_fin_lem (flip_sky sp) spm po t (flip_elements et oe) et Fm HL M (flip_elliptic et oe H) (flip_clear sp po t et oe M H C)).
  rewrite C98_flip_lem by assumption. destruct (get_perturbations_RTN (N:=RNum) sp po t oe et) as [[x y z]|]; reflexivity.
Qed.
Lemma C98_run_lem (sp : spice XNum) po (o : qlaw XNum) p ea er fuel a f g rest : built MeeWithA o -> q_problem o = Some p ->
  flat (p_oe0 p) -> p_oeT p = a :: f :: g :: Fin 0 :: Fin 0 :: rest -> ea <> EtaOther (N:=XNum) ->
  q_ptrb o = Some (built_in sp po) -> bodies_in_plane sp po -> sun_in_plane sp po -> axis_normal sp po ->
  forall o' h, solve fuel o ea er = Returns o' \/ (exists e, solve fuel o ea er = Raises e o') -> q_hist o' = Some h ->
    Forall flat (h_states h) /\ Forall level (h_controls h).
Proof.
  intros B P F T A Q HB HS HA. refine (C97_lem o p ea er fuel a f g rest B P F T _ A). intros fn t oe v E Fl V. rewrite Q in E. injection E as <-.
  exact (C98_flat_lem sp po t oe v HB HS HA Fl V).
Qed.
