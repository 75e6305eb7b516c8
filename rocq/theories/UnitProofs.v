(** Perturbations in canonical and in physical units. *)
From Coq Require Import Reals Lra List Bool String Psatz Nsatz.
From Verif Require Import RMath RLib Num Base Elements Perturb RSpec ExportSpec ElemProofs PtrbProofs UnitSpec.
Import ListNotations.
Local Open Scope R_scope.

Lemma norm_scale_pos k u : 0 < k -> norm (scale k u) = k * norm u.
Proof. intros H. rewrite norm_scale, Rabs_right by lra. reflexivity. Qed.
Lemma scale_scale a b u : scale a (scale b u) = scale (a * b) u.
Proof. destruct u. unfold scale. cbn. f_equal; ring. Qed.
Lemma scale_add k u v : scale k (add u v) = add (scale k u) (scale k v).
Proof. destruct u, v. unfold scale, add. cbn. f_equal; ring. Qed.
Lemma sub_scale k u v : sub (scale k u) (scale k v) = scale k (sub u v).
Proof. destruct u, v. unfold scale, sub. cbn. f_equal; ring. Qed.
Lemma scale_null k : scale k null = null.
Proof. unfold scale, null, vec. cbn. f_equal; ring. Qed.
Lemma apply_scale m k u : apply m (scale k u) = scale k (apply m u).
Proof. destruct m as [[? ? ?] [? ? ?] [? ? ?]], u. unfold apply, scale, dot, vec. cbn. f_equal; ring. Qed.
Lemma cross_scale a b u v : cross (scale a u) (scale b v) = scale (a * b) (cross u v).
Proof. destruct u, v. unfold cross, scale. cbn. f_equal; ring. Qed.
Lemma divs_scale u k : v3divs (N:=RNum) u k = scale (/ k) u.
Proof. destruct u. unfold scale. cbn. unfold Rdiv. f_equal; ring. Qed.
Lemma transpose_scale m k u : transpose_apply m (scale k u) = scale k (transpose_apply m u).
Proof. destruct m as [[? ? ?] [? ? ?] [? ? ?]], u. unfold transpose_apply, scale. cbn. f_equal; ring. Qed.

Lemma px_rtn r v : pxformECI2RTN (N:=RNum) r v = rtn r v.
Proof. unfold pxformECI2RTN, rtn. rewrite !divs_scale. reflexivity. Qed.
Lemma rtn_scale k q r v : 0 < k -> 0 < q -> norm r <> 0 -> norm (cross r v) <> 0 -> rtn (scale k r) (scale q v) = rtn r v.
Proof.
  intros Hk Hq Hr Hh. unfold rtn. cbv zeta.
  replace (scale (/ norm (scale k r)) (scale k r)) with (scale (/ norm r) r).
  2:{ rewrite norm_scale_pos, scale_scale by exact Hk. f_equal. field. split; lra. }
  replace (scale (/ norm (cross (scale k r) (scale q v))) (cross (scale k r) (scale q v))) with (scale (/ norm (cross r v)) (cross r v)); [reflexivity|].
  rewrite cross_scale, norm_scale_pos, scale_scale by nra. f_equal. field. repeat split; lra.
Qed.
Lemma third_scale k m r s mu : 0 < k -> norm s <> 0 -> norm (sub r s) <> 0 ->
  third_body (scale k r) (scale k s) (mu * m) = scale (m / (k * k)) (third_body r s mu).
Proof.
  intros Hk Hs Hd. unfold third_body. rewrite sub_scale, !norm_scale_pos by exact Hk.
  set (S := norm s) in *. set (D := norm (sub r s)) in *. clearbody S D. destruct r, s. unfold scale, add, sub. cbn.
  f_equal; field; repeat split; lra.
Qed.
Lemma srp_scale k c p AU d : 0 < k -> norm d <> 0 ->
  perturbation_SRP (N:=RNum) (scale k d) (AU * k) (p * c) = scale c (sun_pressure p AU d).
Proof.
  intros Hk Hd. unfold perturbation_SRP, sun_pressure. change (norm3 (N:=RNum)) with norm.
  rewrite norm_scale_pos by exact Hk. set (D := norm d) in *. clearbody D.
  change (cube (N:=RNum)) with (fun x : R => x * x * x). cbv beta. destruct d. unfold scale. cbn. f_equal; field; lra.
Qed.
Lemma vsum_scale {A} (f g : A -> vec3 RNum) k l : (forall x, In x l -> f x = scale k (g x)) ->
  vsum (map f l) = scale k (vsum (map g l)).
Proof.
  unfold vsum. induction l as [|x l IH]; intros H; cbn [map fold_right].
  - rewrite scale_null. reflexivity.
  - rewrite IH by (intros; apply H; right; assumption). rewrite H by (left; reflexivity).
    rewrite scale_add. reflexivity.
Qed.
Lemma den_pos (x y l : R) : x * x + y * y < 1 -> 0 < 1 + x * cos l + y * sin l.
Proof. intros He. pose proof (sin2_cos2 l) as Q. unfold Rsqr in Q.
  pose proof (Rle_0_sqr (x + cos l)) as A. pose proof (Rle_0_sqr (y + sin l)) as B. unfold Rsqr in A, B. lra. Qed.
Lemma cart_scale et LU TU GM oe : 0 < LU -> 0 < TU -> 0 < GM -> elliptic et oe ->
  cart_state et (GM / (LU * (LU / TU * (LU / TU)))) (in_units LU oe) =
  concat33 (scale (/ LU) (rpart (cart_state et GM oe))) (scale (TU / LU) (vpart (cart_state et GM oe))).
Proof.
  intros HL HT HG He. destruct oe as [a x y z w l].
  assert (S : forall q, 0 < q -> sqrt (GM / (LU * (LU / TU * (LU / TU))) / (a / LU * q)) = TU / LU * sqrt (GM / (a * q))).
  { intros q Hq. assert (0 < a) by (destruct et; cbn in He; lra).
    assert (0 < GM / (a * q)) by (apply Rdiv_lt_0_compat; nra).
    assert (0 < TU / LU) by (apply Rdiv_lt_0_compat; lra).
    replace (GM / (LU * (LU / TU * (LU / TU))) / (a / LU * q)) with ((TU / LU * (TU / LU)) * (GM / (a * q))) by (field; repeat split; lra).
    rewrite sqrt_mult by nra. rewrite sqrt_square by lra. reflexivity. }
  destruct et; cbn [in_units cart_state elems]; destruct He as [Ha He].
  - unfold kep_r, kep_v. rewrite S by nra. unfold in_plane, vec, scale. cbn.
    assert (0 < 1 + x * cos l) by (destruct (COS_bound l), He; nra).
    f_equal; field; lra.
  - unfold mee_r, mee_v. replace (1 - x * x - y * y) with (1 - (x * x + y * y)) by ring. rewrite S by lra.
    unfold vec, scale. cbn. assert (0 < 1 + z * z + w * w) by nra.
    assert (0 < 1 + x * cos l + y * sin l).
    { apply den_pos, He. }
    f_equal; field; repeat split; lra.
Qed.

(** ** The textbook states are not degenerate *)
Lemma mee_norm (a f g h k l : R) : 0 < a -> f * f + g * g < 1 ->
  norm (mee_r a f g h k l) = a * (1 - f * f - g * g) / (1 + f * cos l + g * sin l).
Proof.
  intros Ha He. pose proof (den_pos f g l He) as D. set (rho := a * (1 - f * f - g * g) / (1 + f * cos l + g * sin l)).
  assert (0 < rho) by (apply Rdiv_lt_0_compat; nra). apply sqrt_pos_of; [lra|].
  assert (0 < 1 + h * h + k * k) by nra. unfold mee_r. fold rho. cbn.
  pose proof (sin2_cos2 l) as Q. unfold Rsqr in Q. set (s := sin l) in *. set (c := cos l) in *. clearbody s c rho.
  apply Rmult_eq_reg_r with ((1 + h * h + k * k) * (1 + h * h + k * k)); [|nra].
  transitivity (rho * rho * ((c + (h * h - k * k) * c + 2 * h * k * s) * (c + (h * h - k * k) * c + 2 * h * k * s) +
    (s - (h * h - k * k) * s + 2 * h * k * c) * (s - (h * h - k * k) * s + 2 * h * k * c) + 4 * ((h * s - k * c) * (h * s - k * c)))); [field; lra|].
  replace ((c + (h * h - k * k) * c + 2 * h * k * s) * (c + (h * h - k * k) * c + 2 * h * k * s) +
    (s - (h * h - k * k) * s + 2 * h * k * c) * (s - (h * h - k * k) * s + 2 * h * k * c) + 4 * ((h * s - k * c) * (h * s - k * c)))
    with ((s * s + c * c) * ((1 + h * h + k * k) * (1 + h * h + k * k))) by ring. rewrite Q. ring.
Qed.
Lemma mee_momentum (mu a f g h k l : R) :
  cross (mee_r a f g h k l) (mee_v mu a f g h k l) =
  scale (a * (1 - f * f - g * g) / (1 + f * cos l + g * sin l) * sqrt (mu / (a * (1 - f * f - g * g))) * (1 + f * cos l + g * sin l) / (1 + h * h + k * k))
    (vec (2 * k) (- (2 * h)) (1 - h * h - k * k)).
Proof.
  assert (0 < 1 + h * h + k * k) by nra. unfold mee_r, mee_v, cross, scale, vec. cbn.
  set (rho := a * (1 - f * f - g * g) / (1 + f * cos l + g * sin l)). set (q := sqrt _).
  pose proof (sin2_cos2 l) as Q. unfold Rsqr in Q. set (s := sin l) in *. set (c := cos l) in *. clearbody s c rho q.
  assert (W : / (1 + h * h + k * k) * (1 + h * h + k * k) = 1) by (apply Rinv_l; lra). unfold Rdiv.
  set (w := / (1 + h * h + k * k)) in *. clearbody w. f_equal; nsatz.
Qed.
Lemma state_regular et mu oe : 0 < mu -> elliptic et oe ->
  norm (rpart (cart_state et mu oe)) <> 0 /\ norm (cross (rpart (cart_state et mu oe)) (vpart (cart_state et mu oe))) <> 0.
Proof.
  intros Hmu He. destruct oe as [a x y z w l], et; destruct He as [Ha He]; cbn [cart_state]; change (@car RNum) with R in *;
    [destruct (parts (kep_r a x y z w l) (kep_v mu a x y z w l)) as [-> ->]|destruct (parts (mee_r a x y z w l) (mee_v mu a x y z w l)) as [-> ->]].
  - destruct (C46_lem mu a x y z w l Hmu Ha He) as (r & v & E & Er & _ & Eh).
    rewrite kep2sv_closed in E by assumption. 
    match type of E with Ok ?x = Ok ?y => assert (E' : x = y) by congruence end. clear E. rename E' into E.
    destruct (parts (kep_r a x y z w l) (kep_v mu a x y z w l)) as [F1 F2]. rewrite E in F1, F2.
    destruct (parts r v) as [G1 G2]. rewrite F1 in G1. rewrite F2 in G2. subst r v. clear E F1 F2.
    destruct He as [He He']. assert (0 < a * (1 - x * x)) by (apply Rmult_lt_0_compat; [exact Ha|nra]).
    assert (0 < 1 + x * cos l) by (destruct (COS_bound l); nra).
    split; [rewrite Er; apply Rgt_not_eq, Rdiv_lt_0_compat; assumption|].
    rewrite Eh, norm_scale_pos by (apply sqrt_lt_R0; nra).
    replace (norm (plane_normal y z)) with 1; [rewrite Rmult_1_r; apply Rgt_not_eq, sqrt_lt_R0; nra|].
    symmetry. apply sqrt_pos_of; [lra|]. cbn. pose proof (sin2_cos2 y) as Y. pose proof (sin2_cos2 z) as Z. unfold Rsqr in Y, Z. nsatz.
  - pose proof (den_pos x y l He) as D. assert (0 < a * (1 - x * x - y * y)) by nra.
    split; [rewrite mee_norm by assumption; apply Rgt_not_eq, Rdiv_lt_0_compat; lra|].
    rewrite mee_momentum. assert (0 < 1 + z * z + w * w) by nra.
    rewrite norm_scale_pos.
    + apply Rmult_integral_contrapositive_currified.
      * apply Rgt_not_eq, Rdiv_lt_0_compat; [|lra]. apply Rmult_lt_0_compat; [|lra].
        apply Rmult_lt_0_compat; [apply Rdiv_lt_0_compat; lra|apply sqrt_lt_R0, Rdiv_lt_0_compat; lra].
      * apply norm_nz. cbn. intros E. assert (w = 0) by nra. assert (z = 0) by nra. subst. nra.
    + apply Rdiv_lt_0_compat; [|lra]. apply Rmult_lt_0_compat; [|lra].
      apply Rmult_lt_0_compat; [apply Rdiv_lt_0_compat; lra|apply sqrt_lt_R0, Rdiv_lt_0_compat; lra].
Qed.

(** ** The J2 term as coded, in km and seconds *)
Definition J2_km (LU mu J2 Re : R) (r p : vec3 RNum) : vec3 RNum :=
  let 'mk3 x y z := p in
  scale (-3 * mu * J2 * Re ^ 2 / (2 * norm r ^ 5))
    (vec ((1 - 5 * (z / LU) ^ 2) * x) ((1 - 5 * (z / LU) ^ 2) * y) ((3 - 5 * (z / LU) ^ 2) * z)).
Lemma J2_scale LU TU GM J2 Re T r : 0 < LU -> 0 < TU -> norm r <> 0 ->
  perturbation_J2 (N:=RNum) (scale (/ LU) r) T (GM / (LU * (LU / TU * (LU / TU)))) J2 (Re / LU) =
  Ok (scale (TU * TU / LU) (transpose_apply T (J2_km LU GM J2 Re r (apply T r)))).
Proof.
  intros HL HT Hr. assert (0 < / LU) by (apply Rinv_0_lt_compat, HL). pose proof (norm_pos r Hr).
  rewrite J2_value; [|rewrite norm_scale_pos by assumption; apply Rgt_not_eq; nra]. f_equal.
  rewrite <- transpose_scale, apply_scale. f_equal. destruct (apply T r) as [x y z]. unfold J2_closed, J2_km.
  rewrite norm_scale_pos by assumption. set (n := norm r) in *. clearbody n.
  unfold scale, vec. cbn. f_equal; field; repeat split; lra.
Qed.

Lemma combine_map {A B} (f : A -> B) l : combine (map f l) l = map (fun x => (f x, x)) l.
Proof. induction l; cbn; congruence. Qed.
Lemma units_exact (sp : spice RNum) (et_ref LU TU : R) obs fr frp ns (J2 Re P Cr Am : R) uj us et oe (s : R) :
  0 < LU -> 0 < TU -> 0 < sp_gm sp obs -> elliptic et oe -> faithful et oe ->
  let r := rpart (cart_state et (sp_gm sp obs) oe) in let v := vpart (cart_state et (sp_gm sp obs) oe) in
  let pos ID := sp_pos sp ID (et_ref + s) fr obs in
  (forall ID, In ID ns -> norm (pos ID) <> 0 /\ norm (sub r (pos ID)) <> 0) ->
  (us = true -> norm (sub r (pos "10"%string)) <> 0) ->
  exists u,
    get_perturbations_by_name (N:=RNum) sp (ptrb_init (N:=RNum) sp et_ref LU TU obs fr frp (Some ns) None J2 Re P Cr Am uj us)
      (s / TU) (in_units LU oe) (name_of et) = Ok u /\
    scale (LU / TU ^ 2) u = physical sp (et_ref + s) obs fr ns us (P * Cr * Am / 1000) r v
      (if uj then transpose_apply (sp_pxform sp fr frp (et_ref + s)) (J2_km LU (sp_gm sp obs) J2 Re r (apply (sp_pxform sp fr frp (et_ref + s)) r)) else null).
Proof.
  intros HL HT HG He Hf r v pos HB HS.
  assert (HL' : 0 < / LU) by (apply Rinv_0_lt_compat, HL). assert (HT' : 0 < TU / LU) by (apply Rdiv_lt_0_compat; lra).
  destruct (state_regular et (sp_gm sp obs) oe HG He) as [Nr Nh]. fold r v in Nr, Nh.
  set (o := ptrb_init (N:=RNum) sp et_ref LU TU obs fr frp (Some ns) None J2 Re P Cr Am uj us).
  assert (Et : (pt_et_ref o : R) + s / TU * pt_TU o = et_ref + s) by (cbn; field; lra).
  assert (Emu : pt_obs_mu o = sp_gm sp obs / (LU * (LU / TU * (LU / TU))) :> R) by reflexivity.
  assert (Pos : forall ID, body_pos sp o (et_ref + s) ID = scale (/ LU) (pos ID)) by (intros; apply divs_scale).
  pose proof (cart_scale et LU TU (sp_gm sp obs) oe HL HT HG He) as CS. fold r v in CS.
  assert (Hmu : 0 < pt_obs_mu o). { rewrite Emu. apply Rdiv_lt_0_compat; [exact HG|]. assert (0 < LU / TU) by (apply Rdiv_lt_0_compat; lra). apply Rmult_lt_0_compat; [exact HL|apply Rmult_lt_0_compat; assumption]. }
  eexists. split.
  - eapply (C62_lem sp o (s / TU) (in_units LU oe) (name_of et) (scale (/ LU) r) (scale (TU / LU) v)
      (map (fun ID => sp_gm sp ID / (LU * (LU / TU * (LU / TU)))) ns) ns
      (scale (TU * TU / LU) (transpose_apply (sp_pxform sp fr frp (et_ref + s)) (J2_km LU (sp_gm sp obs) J2 Re r (apply (sp_pxform sp fr frp (et_ref + s)) r))))).
    + rewrite <- CS. rewrite <- Emu. clear CS. destruct oe as [a x y z w l], et; cbn [in_units elems cart_state name_of]; destruct He as [Ha He]; [left|right]; (split; [reflexivity|]).
      * apply kep2sv_closed; [exact Hmu|apply Rdiv_lt_0_compat; assumption|exact He].
      * destruct (C50_pos (a / LU) x y z w l (pt_obs_mu o)) as (st & H1 & H2 & _); [exact Hmu|apply Rdiv_lt_0_compat; assumption|exact He|].
        rewrite H1. f_equal. apply H2, Hf.
    + reflexivity.
    + reflexivity.
    + intros mu3 ID HI. apply in_combine_r in HI. rewrite Et, Pos, sub_scale, !norm_scale_pos by exact HL'.
      destruct (HB ID HI). split; apply Rmult_integral_contrapositive_currified; lra.
    + intros _. rewrite Et. change (pt_frame o) with fr. change (pt_frame_PA o) with frp. change (pt_J2 o) with J2.
      change (pt_Re o) with (Re / LU). rewrite Emu. apply J2_scale; assumption.
  - rewrite Et, px_rtn, rtn_scale by assumption. rewrite <- apply_scale. unfold physical. f_equal.
    rewrite !scale_add. f_equal; [|f_equal].
    + rewrite combine_map, map_map,  (vsum_scale _ (fun ID => third_body r (pos ID) (sp_gm sp ID)) (TU * TU / LU)).
      * rewrite scale_scale. replace (LU / TU ^ 2 * (TU * TU / LU)) with 1 by (field; lra).
        destruct (vsum _). unfold scale. cbn. f_equal; ring.
      * intros ID HI. cbn [fst snd]. rewrite Pos. destruct (HB ID HI).
        replace (sp_gm sp ID / (LU * (LU / TU * (LU / TU)))) with (sp_gm sp ID * (TU * TU / (LU * LU * LU))) by (field; lra).
        rewrite third_scale by assumption. f_equal. field. lra.
    + change (pt_use_J2 o) with uj. destruct uj; [|apply scale_null].
      rewrite scale_scale. replace (LU / TU ^ 2 * (TU * TU / LU)) with 1 by (field; lra).
      destruct (transpose_apply _ _). unfold scale. cbn. f_equal; ring.
    + change (pt_use_SRP o) with us. destruct us; [|apply scale_null].
      rewrite Pos, sub_scale. change (pt_LU o) with LU.
      replace (pt_k_srp o) with (P * Cr * Am / 1000 * (TU * TU / LU)) by (cbn; field; lra).
      change ((sp_AU_km sp : R) / LU) with ((sp_AU_km sp : R) * / LU).
      rewrite srp_scale by (try assumption; apply HS; reflexivity). rewrite scale_scale.
      replace (LU / TU ^ 2 * (TU * TU / LU)) with 1 by (field; lra).
      destruct (sun_pressure _ _ _). unfold scale. cbn. f_equal; ring.
Qed.

Lemma J2_km_true LU GM J2 Re T r : norm r <> 0 -> 0 < LU -> rotation T -> v3_2 (apply T r) = 0 \/ norm r = LU ->
  gradient (fun p => J2_potential GM J2 Re (apply T p)) r (transpose_apply T (J2_km LU GM J2 Re r (apply T r))).
Proof.
  intros Hr HL HT K. apply gradient_rotated. pose proof (rotation_norm T r HT) as En.
  replace (J2_km LU GM J2 Re r (apply T r)) with (J2_grad GM J2 Re (apply T r)); [apply J2_gradient; rewrite En; exact Hr|].
  destruct (apply T r) as [x y z]. unfold J2_grad, J2_km. rewrite En. cbn [v3_2] in K. unfold scale, vec. cbn [v3scal].
  change (nmul (Num:=RNum)) with Rmult. destruct K as [K|K].
  - rewrite K. f_equal; field; lra.
  - rewrite K. f_equal; field; lra.
Qed.
Lemma C81_partial_lem (sp : spice RNum) (et_ref LU TU : R) obs fr frp ns (J2 Re P Cr Am : R) uj us et oe (s : R) :
  0 < LU -> 0 < TU -> 0 < sp_gm sp obs -> elliptic et oe -> faithful et oe ->
  let r := rpart (cart_state et (sp_gm sp obs) oe) in let v := vpart (cart_state et (sp_gm sp obs) oe) in
  let pos ID := sp_pos sp ID (et_ref + s) fr obs in let T := sp_pxform sp fr frp (et_ref + s) in
  (forall ID, In ID ns -> norm (pos ID) <> 0 /\ norm (sub r (pos ID)) <> 0) ->
  (us = true -> norm (sub r (pos "10"%string)) <> 0) ->
  (uj = true -> rotation T /\ (v3_2 (apply T r) = 0 \/ norm r = LU)) ->
  forall j2, (if uj then gradient (fun p => J2_potential (sp_gm sp obs) J2 Re (apply T p)) r j2 else j2 = null) ->
  exists u,
    get_perturbations_by_name (N:=RNum) sp (ptrb_init (N:=RNum) sp et_ref LU TU obs fr frp (Some ns) None J2 Re P Cr Am uj us)
      (s / TU) (in_units LU oe) (name_of et) = Ok u /\
    scale (LU / TU ^ 2) u = physical sp (et_ref + s) obs fr ns us (P * Cr * Am / 1000) r v j2.
Proof.
  intros HL HT HG He Hf r v pos T HB HS HJ j2 Hj.
  destruct (units_exact sp et_ref LU TU obs fr frp ns J2 Re P Cr Am uj us et oe s HL HT HG He Hf HB HS) as (u & Hu & E).
  exists u. split; [exact Hu|]. rewrite E. fold r v T. f_equal. destruct uj; [|symmetry; exact Hj].
  destruct (HJ eq_refl) as [HR K]. destruct (state_regular et (sp_gm sp obs) oe HG He) as [Nr _]. fold r in Nr.
  eapply gradient_unique; [apply J2_km_true; assumption|exact Hj].
Qed.

(** a polar orbit above the pole *)
Definition flat_spice : spice RNum := @mkspice RNum (fun _ => 1) (fun _ _ _ _ => null) (fun _ _ _ => ident) 1.
Definition polar : vec6 RNum := elems 1 0 (PI / 2) 0 0 (PI / 2).
Lemma polar_state : cart_state Keplerian 1 polar = concat33 (vec 0 0 1) (vec (-1) 0 0).
Proof.
  unfold polar, elems, cart_state, kep_r, kep_v, in_plane, vec. rewrite Rplus_0_l, cos_PI2, sin_PI2, cos_0, sin_0.
  replace (1 / (1 * (1 - 0 * 0))) with 1 by field. rewrite sqrt_1. cbn. f_equal; field.
Qed.
Lemma norm_001 : norm (vec 0 0 1) = 1.
Proof. apply sqrt_pos_of; [lra|]. cbn. ring. Qed.
Lemma C81_refuted_lem : exists (sp : spice RNum) (J2 Re : R) oe LU LU' u u', 0 < LU /\ 0 < LU' /\ elliptic Keplerian oe /\
  (let run L := get_perturbations_by_name (N:=RNum) sp (ptrb_init (N:=RNum) sp 0 L 1 "399" "J2000" "ITRF93" (Some []) None J2 Re 0 0 0 true false)
      0 (in_units L oe) "keplerian" in run LU = Ok u /\ run LU' = Ok u') /\
  scale (LU / 1 ^ 2) u <> scale (LU' / 1 ^ 2) u'.
Proof.
  assert (He : elliptic Keplerian polar) by (cbn; lra).
  assert (X : forall L, 0 < L -> exists u,
    get_perturbations_by_name (N:=RNum) flat_spice (ptrb_init (N:=RNum) flat_spice 0 L 1 "399" "J2000" "ITRF93" (Some []) None 1 1 0 0 0 true false)
      0 (in_units L polar) "keplerian" = Ok u /\ v3_0 (scale (L / 1 ^ 2) u) = -3 / 2 * (3 - 5 * (1 / L) ^ 2)).
  { intros L HL. destruct (units_exact flat_spice 0 L 1 "399" "J2000" "ITRF93" [] 1 1 0 0 0 true false Keplerian polar 0) as (u & Hu & E);
      try lra; try exact He; try exact I; try (cbn; lra); try (intros; contradiction); try discriminate.
    exists u. split; [rewrite <- Hu; f_equal; cbn; field|]. rewrite E. clear E Hu.
    cbn [sp_gm flat_spice sp_pxform]. rewrite polar_state. destruct (parts (vec 0 0 1) (vec (-1) 0 0)) as [-> ->].
    unfold physical. rewrite apply_ident. cbn [map vsum fold_right]. unfold J2_km, rtn. rewrite norm_001.
    unfold transpose_apply, vec, scale, add, null. cbn. field. lra. }
  destruct (X 1 ltac:(lra)) as (u & Hu & E). destruct (X 2 ltac:(lra)) as (u' & Hu' & E').
  exists flat_spice, 1, 1, polar, 1, 2, u, u'. split; [lra|]. split; [lra|]. split; [exact He|]. split; [split; assumption|].
  intros F. rewrite F, E' in E. lra.
Qed.
