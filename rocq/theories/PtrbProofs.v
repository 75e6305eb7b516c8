(** Perturbing accelerations over the reals. *)
From Coq Require Import Reals Lra Lia ZArith List Bool Psatz Nsatz String.
From Verif Require Import RMath RLib DLib Num Base Elements Perturb RSpec ElemProofs.
Import ListNotations.
Local Open Scope R_scope.

Lemma norm_pos u : norm u <> 0 -> 0 < norm u.
Proof. pose proof (norm_sq u). lra. Qed.
Lemma norm_nz u : dot u u <> 0 -> norm u <> 0.
Proof. intros H E. destruct (norm_sq u) as [Q _]. rewrite E in Q. lra. Qed.

Lemma C58_lem (r s : vec3 RNum) (mu3 : R) : norm s <> 0 -> norm (sub r s) <> 0 ->
  perturbation_third_body_battin (N:=RNum) r s mu3 = Ok (third_body r s mu3).
Proof.
  intros Hs Hd. pose proof (norm_pos s Hs) as Ps. pose proof (norm_pos _ Hd) as Pd.
  destruct (norm_sq s) as [Qs _]. destruct (norm_sq (sub r s)) as [Qd _].
  set (S := norm s) in *. set (D := norm (sub r s)) in *.
  unfold perturbation_third_body_battin.
  change (v3sub (N:=RNum)) with sub. change (dot3 (N:=RNum)) with dot. change (v3scal (N:=RNum)) with scale.
  change (nsqrt (Num:=RNum) (dot (sub r s) (sub r s))) with D.
  assert (Hss : dot s s <> 0) by (rewrite <- Qs; apply Rgt_not_eq; nra).
  rewrite jdivR by exact Hss. cbn [bind]. change (nofZ (Num:=RNum)) with IZR.
  assert (Eq : dot r (sub r (scale 2 s)) / dot s s = D * D / (S * S) - 1).
  { rewrite Qd, <- Qs. replace (dot r (sub r (scale 2 s))) with (dot (sub r s) (sub r s) - S * S).
    - field. lra.
    - rewrite Qs. destruct r, s. cbn. ring. }
  rewrite Eq. set (q := D * D / (S * S) - 1).
  change (nadd (Num:=RNum)) with Rplus. change (nmul (Num:=RNum)) with Rmult. change (nopp (Num:=RNum)) with Ropp.
  change (sq (N:=RNum) q) with (q * q). change (cube (N:=RNum)) with (fun x : R => x * x * x). cbv beta.
  change (nsqrt (Num:=RNum)) with sqrt.
  assert (Hc : 0 < D / S) by (apply Rdiv_lt_0_compat; assumption).
  assert (E1 : sqrt (1 + q) = D / S). { apply sqrt_pos_of; [lra|]. unfold q. field. lra. }
  rewrite E1. set (c := D / S) in *.
  assert (Hc3 : 0 < 1 + c * c * c) by (assert (0 < c * c * c) by (apply Rmult_lt_0_compat; nra); lra).
  rewrite jdivR by lra. cbn [bind].
  rewrite jdivR by (apply Rgt_not_eq, Rmult_lt_0_compat; nra). cbn [bind].
  f_equal. change (ndiv (Num:=RNum)) with Rdiv. change (v3add (N:=RNum)) with add.
  assert (E2 : q * ((3 + 3 * q + q * q) / (1 + c * c * c)) = c * c * c - 1).
  { replace q with (c * c - 1) by (unfold q, c; field; lra). field. lra. }
  unfold third_body. fold D S. change (nmul (Num:=RNum)) with Rmult. rewrite E2.
  unfold add, sub, scale in *. destruct r as [x y z], s as [a b d]. cbn in *.
  unfold c. f_equal; field; split; lra.
Qed.

(** ** J2 *)
Lemma apply_matvec m v : matvec (N:=RNum) m v = apply m v.
Proof. destruct m. reflexivity. Qed.
Lemma rotation_norm m v : rotation m -> norm (apply m v) = norm v.
Proof.
  destruct m as [[a b c] [d e f] [g h i]]. intros (X & Y & Z & XY & YZ & ZX & C). unfold norm, norm3. cbn.
  destruct v as [x y z]. unfold dot, cross in *. cbn in *. injection C as C1 C2 C3. f_equal.
  subst g h i.
  (* columns are orthonormal too *)
  nsatz.
Qed.

Definition J2_closed (mu J2 Re : R) (r p : vec3 RNum) : vec3 RNum :=
  let 'mk3 x y z := p in
  let c := -3 * mu * J2 * (Re * Re) / (2 * (norm r * norm r * norm r * norm r * norm r)) in
  vec (c * ((1 - 5 * (z * z)) * x)) (c * ((1 - 5 * (z * z)) * y)) (c * ((3 - 5 * (z * z)) * z)).
Definition transpose_apply (m : mat3 RNum) (v : vec3 RNum) : vec3 RNum := matvec (N:=RNum) (mtrans (N:=RNum) m) v.
Lemma transpose_dot m v u : dot (transpose_apply m v) u = dot v (apply m u).
Proof. destruct m as [[a b c] [d e f] [g h i]], v, u. unfold dot, transpose_apply. cbn. ring. Qed.

Lemma J2_value (r : vec3 RNum) T (mu J2 Re : R) : norm r <> 0 ->
  perturbation_J2 (N:=RNum) r T mu J2 Re = Ok (transpose_apply T (J2_closed mu J2 Re r (apply T r))).
Proof.
  intros H. pose proof (norm_pos r H) as P. unfold perturbation_J2. change (norm3 (N:=RNum)) with norm.
  change (pow5 (N:=RNum) (norm r)) with (norm r * norm r * norm r * norm r * norm r).
  rewrite jdivR.
  - cbn [bind]. rewrite apply_matvec. destruct (apply T r) as [x y z]. reflexivity.
  - apply Rgt_not_eq. change (nmul (Num:=RNum)) with Rmult. apply Rmult_lt_0_compat; [cbn; lra|].
    repeat apply Rmult_lt_0_compat; exact P.
Qed.

(** The gradient of the disturbing potential. *)
Definition J2_grad (mu J2 Re : R) (p : vec3 RNum) : vec3 RNum :=
  let 'mk3 x y z := p in
  let R := norm p in
  let c := -3 * mu * J2 * Re ^ 2 / (2 * R ^ 5) in
  vec (c * ((1 - 5 * z ^ 2 / R ^ 2) * x)) (c * ((1 - 5 * z ^ 2 / R ^ 2) * y)) (c * ((3 - 5 * z ^ 2 / R ^ 2) * z)).

Lemma dnorm p u : norm p <> 0 -> derivable_pt_lim (fun t => norm (add p (scale t u))) 0 (dot p u / norm p).
Proof.
  intros H. pose proof (norm_pos p H) as P. destruct (norm_sq p) as [Q _].
  destruct p as [x y z], u as [a b c].
  set (g := fun t => (x + t * a) * (x + t * a) + (y + t * b) * (y + t * b) + (z + t * c) * (z + t * c)).
  assert (G0 : g 0 = norm (mk3 x y z) * norm (mk3 x y z)).
  { rewrite Q. unfold g, dot. cbn. ring. }
  replace (dot (mk3 x y z) (mk3 a b c) / norm (mk3 x y z)) with (/ (2 * sqrt (g 0)) * (2 * (x * a + y * b + z * c))).
  - apply (derivable_pt_lim_comp g sqrt).
    + replace (2 * (x * a + y * b + z * c)) with
        ((a * (x + 0 * a) + (x + 0 * a) * a) + (b * (y + 0 * b) + (y + 0 * b) * b) + (c * (z + 0 * c) + (z + 0 * c) * c)) by ring.
      unfold g.
      apply (derivable_pt_lim_plus (fun t => (x + t * a) * (x + t * a) + (y + t * b) * (y + t * b)) (fun t => (z + t * c) * (z + t * c))).
      * apply (derivable_pt_lim_plus (fun t => (x + t * a) * (x + t * a)) (fun t => (y + t * b) * (y + t * b)));
          [apply (derivable_pt_lim_mult (fun t => x + t * a) (fun t => x + t * a))|apply (derivable_pt_lim_mult (fun t => y + t * b) (fun t => y + t * b))]; apply d_lin.
      * apply (derivable_pt_lim_mult (fun t => z + t * c) (fun t => z + t * c)); apply d_lin.
    + apply derivable_pt_lim_sqrt. rewrite G0. nra.
  - rewrite G0, sqrt_square by lra. unfold dot. cbn. field. exact H.
Qed.
Lemma add0 p u : add p (scale 0 u) = p.
Proof. destruct p, u. unfold add, scale. cbn. f_equal; ring. Qed.

Lemma J2_gradient mu J2 Re p : norm p <> 0 -> gradient (J2_potential mu J2 Re) p (J2_grad mu J2 Re p).
Proof.
  intros H u. pose proof (norm_pos p H) as P. pose proof (dnorm p u H) as DN.
  set (nn := fun t => norm (add p (scale t u))) in DN.
  assert (N0 : nn 0 = norm p) by (unfold nn; rewrite add0; reflexivity).
  destruct p as [x y z], u as [a b c]. set (R := norm (mk3 x y z)) in *.
  assert (H3 : nn 0 ^ 3 <> 0) by (rewrite N0; apply pow_nonzero, H).
  assert (H5 : nn 0 ^ 5 <> 0) by (rewrite N0; apply pow_nonzero, H).
  apply (dext (fun t => (- (mu * J2 * Re ^ 2 / 2)) * (3 * (z + t * c) ^ 2 / nn t ^ 5 - 1 / nn t ^ 3))).
  { intros t. unfold J2_potential, nn. reflexivity. }
  pose proof (d_pow nn 0 _ DN 3) as D3. pose proof (d_pow nn 0 _ DN 5) as D5.
  pose proof (d_pow (fun t => z + t * c) 0 _ (d_lin z c 0) 2) as Dz.
  pose proof (derivable_pt_lim_scal _ 3 _ _ Dz) as Dz3.
  pose proof (derivable_pt_lim_div _ _ _ _ _ Dz3 D5 H5) as Q1.
  pose proof (derivable_pt_lim_div (fun _ => 1) _ _ _ _ (derivable_pt_lim_const 1 0) D3 H3) as Q2.
  pose proof (derivable_pt_lim_scal _ (- (mu * J2 * Re ^ 2 / 2)) _ _ (derivable_pt_lim_minus _ _ _ _ _ Q1 Q2)) as F.
  unfold mult_real_fct, div_fct, minus_fct in F.
  match type of F with derivable_pt_lim _ _ ?l => replace (dot (J2_grad mu J2 Re (mk3 x y z)) (mk3 a b c)) with l; [exact F|] end.
  rewrite N0. clear - P. unfold J2_grad. fold R. unfold dot. cbn [dot3 vec nadd nmul RNum]. unfold Rsqr.
  set (d := x * a + y * b + z * c). simpl INR. simpl pred. rewrite Rmult_0_l, Rplus_0_r.
  unfold d. field. lra.
Qed.

Lemma apply_add m p t u : apply m (add p (scale t u)) = add (apply m p) (scale t (apply m u)).
Proof. destruct m as [[? ? ?] [? ? ?] [? ? ?]], p, u. unfold apply, add, scale, dot, vec. cbn. f_equal; ring. Qed.
Lemma gradient_rotated U m r a : gradient U (apply m r) a -> gradient (fun p => U (apply m p)) r (transpose_apply m a).
Proof.
  intros G u. rewrite transpose_dot.
  apply (dext (fun t => U (add (apply m r) (scale t (apply m u))))); [|apply G].
  intros t. rewrite apply_add. reflexivity.
Qed.

Lemma J2_agree mu J2 Re r p : norm p = norm r -> norm r <> 0 -> (norm r = 1 \/ v3_2 p = 0) ->
  J2_closed mu J2 Re r p = J2_grad mu J2 Re p.
Proof.
  intros E H K. destruct p as [x y z]. unfold J2_closed, J2_grad. rewrite E.
  destruct K as [K|K].
  - rewrite K. f_equal; field.
  - cbn in K. rewrite K. f_equal; field; exact H.
Qed.
Lemma C59_partial_lem (r : vec3 RNum) T (mu J2 Re : R) : norm r <> 0 -> rotation T ->
  norm r = 1 \/ v3_2 (apply T r) = 0 ->
  exists a, perturbation_J2 (N:=RNum) r T mu J2 Re = Ok a /\ gradient (fun p => J2_potential mu J2 Re (apply T p)) r a.
Proof.
  intros H HT K. eexists. split; [apply J2_value, H|]. apply gradient_rotated.
  rewrite (J2_agree mu J2 Re r (apply T r)); [|apply rotation_norm, HT|exact H|exact K].
  apply J2_gradient. rewrite rotation_norm; assumption.
Qed.
Lemma gradient_unique U r a b : gradient U r a -> gradient U r b -> a = b.
Proof.
  intros A B. destruct a as [x y z], b as [x' y' z'].
  assert (E : forall u, dot (mk3 x y z) u = dot (mk3 x' y' z') u).
  { intros u. eapply uniqueness_limite; [apply A|apply B]. }
  pose proof (E (vec 1 0 0)) as E1. pose proof (E (vec 0 1 0)) as E2. pose proof (E (vec 0 0 1)) as E3.
  unfold dot, vec in *. cbn in *. f_equal; lra.
Qed.
Definition ident : mat3 RNum := @mkm RNum (vec 1 0 0) (vec 0 1 0) (vec 0 0 1).
Lemma ident_rotation : rotation ident.
Proof. unfold rotation, ident, dot, cross, vec. cbn. repeat split; try ring. f_equal; ring. Qed.
Lemma apply_ident v : apply ident v = v.
Proof. destruct v. unfold apply, ident, dot, vec. cbn. f_equal; ring. Qed.
Lemma norm_002 : norm (vec 0 0 2) = 2.
Proof. apply sqrt_pos_of; [lra|]. cbn. ring. Qed.
Lemma C59_refuted_lem : exists (r : vec3 RNum) T (mu J2 Re : R) a, norm r <> 0 /\ rotation T /\
  perturbation_J2 (N:=RNum) r T mu J2 Re = Ok a /\ ~ gradient (fun p => J2_potential mu J2 Re (apply T p)) r a.
Proof.
  exists (vec 0 0 2), ident, 1, 1, 1. eexists.
  assert (H : norm (vec 0 0 2) <> 0) by (rewrite norm_002; lra).
  split; [exact H|]. split; [exact ident_rotation|]. split; [apply J2_value, H|].
  intros G.
  assert (G2 : gradient (fun p => J2_potential 1 1 1 (apply ident p)) (vec 0 0 2) (transpose_apply ident (J2_grad 1 1 1 (apply ident (vec 0 0 2))))).
  { apply gradient_rotated, J2_gradient. rewrite apply_ident. exact H. }
  pose proof (gradient_unique _ _ _ _ G G2) as E. rewrite apply_ident in E.
  unfold J2_closed, J2_grad in E. rewrite norm_002 in E. cbn in E. injection E as E. lra.
Qed.

(** ** Solar radiation pressure *)
Lemma norm_scale k v : norm (scale k v) = Rabs k * norm v.
Proof.
  destruct (norm_sq v) as [Q P]. apply sqrt_pos_of; [apply Rmult_le_pos; [apply Rabs_pos|exact P]|].
  transitivity ((k * k) * dot v v); [destruct v; unfold scale, dot; cbn; ring|].
  rewrite <- Q. assert (Rabs k * Rabs k = k * k) by (rewrite <- Rabs_mult; apply Rabs_right; nra). nra.
Qed.
Lemma C60_lem (r : vec3 RNum) (AU k : R) : norm r <> 0 -> 0 <= k ->
  let a := perturbation_SRP (N:=RNum) r AU k in
  norm a = k * (AU / norm r) ^ 2 /\ a = scale (norm a / norm r) r /\ 0 <= norm a / norm r.
Proof.
  intros H Hk a. pose proof (norm_pos r H) as P.
  assert (E : a = scale (k * (AU * AU) / (norm r * norm r * norm r)) r).
  { unfold a, perturbation_SRP. change (norm3 (N:=RNum)) with norm. destruct r as [x y z]. unfold scale.
    cbn [v3scal v3divs]. change (cube (N:=RNum)) with (fun x : R => x * x * x). cbv beta. set (n := norm _) in *.
    cbn. f_equal; field; exact H. }
  assert (N : norm a = k * (AU / norm r) ^ 2).
  { rewrite E, norm_scale, Rabs_right; [field; exact H|].
    apply Rle_ge, Rmult_le_pos; [nra|]. apply Rlt_le, Rinv_0_lt_compat. repeat apply Rmult_lt_0_compat; exact P. }
  split; [exact N|]. split.
  - rewrite N, E at 1. f_equal. field. exact H.
  - rewrite N. apply Rmult_le_pos; [|apply Rlt_le, Rinv_0_lt_compat, P]. apply Rmult_le_pos; [exact Hk|apply pow2_ge_0].
Qed.

(** ** RTN frame *)
Lemma C61_lem (r v : vec3 RNum) : norm r <> 0 -> norm (cross r v) <> 0 ->
  let m := pxformECI2RTN (N:=RNum) r v in
  rotation m /\ apply m r = vec (norm r) 0 0 /\ apply m (cross r v) = vec 0 0 (norm (cross r v)) /\
  (exists x y, apply m v = vec x y 0 /\ 0 < y) /\ (forall u, norm (apply m u) = norm u).
Proof.
  intros Hr Hh m. pose proof (norm_pos r Hr) as Pr. pose proof (norm_pos _ Hh) as Ph.
  destruct (norm_sq r) as [Qr _]. destruct (norm_sq (cross r v)) as [Qh _].
  set (R := norm r) in *. set (H := norm (cross r v)) in *.
  assert (Rm : rotation m).
  { unfold m, pxformECI2RTN. change (norm3 (N:=RNum)) with norm. change (cross3 (N:=RNum)) with cross. fold R H. clearbody R H.
    destruct r as [x y z], v as [a b c]. unfold rotation, dot, cross in *. cbn in *.
    set (h0 := y * c - z * b) in *. set (h1 := z * a - x * c) in *. set (h2 := x * b - y * a) in *.
    assert (O : h0 * x + h1 * y + h2 * z = 0) by (unfold h0, h1, h2; ring).
    repeat split.
    - transitivity ((x * x + y * y + z * z) / (R * R)); [field; exact Hr|]. rewrite <- Qr. field. exact Hr.
    - transitivity (((x * x + y * y + z * z) * (h0 * h0 + h1 * h1 + h2 * h2) - (h0 * x + h1 * y + h2 * z) * (h0 * x + h1 * y + h2 * z)) / (R * R * (H * H))); [field; split; assumption|].
      rewrite O, <- Qr, <- Qh. field. split; assumption.
    - transitivity ((h0 * h0 + h1 * h1 + h2 * h2) / (H * H)); [field; exact Hh|]. rewrite <- Qh. field. exact Hh.
    - field; split; assumption.
    - field; split; assumption.
    - transitivity ((h0 * x + h1 * y + h2 * z) / (R * H)); [field; split; assumption|]. rewrite O. field. split; assumption.
    - f_equal.
      + transitivity ((h0 * (x * x + y * y + z * z) - x * (h0 * x + h1 * y + h2 * z)) / (R * R * H)); [field; split; assumption|].
        rewrite O, <- Qr. field. split; assumption.
      + transitivity ((h1 * (x * x + y * y + z * z) - y * (h0 * x + h1 * y + h2 * z)) / (R * R * H)); [field; split; assumption|].
        rewrite O, <- Qr. field. split; assumption.
      + transitivity ((h2 * (x * x + y * y + z * z) - z * (h0 * x + h1 * y + h2 * z)) / (R * R * H)); [field; split; assumption|].
        rewrite O, <- Qr. field. split; assumption. }
  split; [exact Rm|].
  split; [|split; [|split; [|intros u; apply rotation_norm, Rm]]]; clear Rm;
    unfold m, pxformECI2RTN; change (norm3 (N:=RNum)) with norm; change (cross3 (N:=RNum)) with cross; fold R H; clear m; clearbody R H;
    destruct r as [x y z], v as [a b c]; unfold apply, dot, cross, vec in *; cbn in *;
    set (h0 := y * c - z * b) in *; set (h1 := z * a - x * c) in *; set (h2 := x * b - y * a) in *;
    assert (O : h0 * x + h1 * y + h2 * z = 0) by (unfold h0, h1, h2; ring);
    assert (O2 : h0 * a + h1 * b + h2 * c = 0) by (unfold h0, h1, h2; ring).
  - f_equal.
    + transitivity ((x * x + y * y + z * z) / R); [field; exact Hr|]. rewrite <- Qr. field. exact Hr.
    + field; split; assumption.
    + transitivity ((h0 * x + h1 * y + h2 * z) / H); [field; exact Hh|]. rewrite O. field. exact Hh.
  - f_equal.
    + transitivity ((h0 * x + h1 * y + h2 * z) / R); [field; exact Hr|]. rewrite O. field. exact Hr.
    + field; split; assumption.
    + transitivity ((h0 * h0 + h1 * h1 + h2 * h2) / H); [field; exact Hh|]. rewrite <- Qh. field. exact Hh.
  - do 2 eexists. split.
    + f_equal. transitivity ((h0 * a + h1 * b + h2 * c) / H); [field; exact Hh|]. rewrite O2. field. exact Hh.
    + replace ((h1 / H * (z / R) - h2 / H * (y / R)) * a + (h2 / H * (x / R) - h0 / H * (z / R)) * b + (h0 / H * (y / R) - h1 / H * (x / R)) * c)
        with ((h0 * h0 + h1 * h1 + h2 * h2) / (H * R)).
      2:{ transitivity ((h0 * (y * c - z * b) + h1 * (z * a - x * c) + h2 * (x * b - y * a)) / (H * R)); [reflexivity|field; split; assumption]. }
      rewrite <- Qh. apply Rdiv_lt_0_compat; nra.
Qed.

(** ** Assembly *)
Lemma add_assoc u v w : add u (add v w) = add (add u v) w.
Proof. destruct u, v, w. unfold add. cbn. f_equal; ring. Qed.
Lemma add_null_r u : add u null = u.
Proof. destruct u. unfold add, null, vec. cbn. f_equal; ring. Qed.
Lemma add_null_l u : add null u = u.
Proof. destruct u. unfold add, null, vec. cbn. f_equal; ring. Qed.
Definition body_pos (sp : spice RNum) (o : ptrb_obj RNum) (et : R) (ID : string) : vec3 RNum :=
  v3divs (N:=RNum) (sp_pos sp ID et (pt_frame o) (pt_obs o)) (pt_LU o).
Lemma third_loop sp o et r l acc :
  (forall mu3 ID, In (mu3, ID) l -> norm (body_pos sp o et ID) <> 0 /\ norm (sub r (body_pos sp o et ID)) <> 0) ->
  third_body_loop (N:=RNum) sp o et r l acc =
  Ok (add acc (vsum (map (fun b => third_body r (body_pos sp o et (snd b)) (fst b)) l))).
Proof.
  revert acc. induction l as [|[mu3 ID] l IH]; intros acc H; cbn [third_body_loop map vsum fold_right].
  - rewrite add_null_r. reflexivity.
  - destruct (H mu3 ID) as [H1 H2]; [left; reflexivity|].
    change (v3divs (sp_pos sp ID et (pt_frame o) (pt_obs o)) (pt_LU o)) with (body_pos sp o et ID).
    rewrite (C58_lem r _ mu3 H1 H2). cbn [bind]. rewrite IH by (intros; eapply H; right; eassumption).
    f_equal. cbn [fst snd]. rewrite add_assoc. reflexivity.
Qed.

Lemma C62_lem (sp : spice RNum) (o : ptrb_obj RNum) (t : R) (oe : vec6 RNum) name r v gs ns j2 :
  (name = "keplerian"%string /\ kep2sv (N:=RNum) oe (pt_obs_mu o) = Ok (concat33 r v) \/
   name = "mee_with_a"%string /\ mee_with_a2sv (N:=RNum) oe (pt_obs_mu o) = Ok (concat33 r v)) ->
  pt_gms o = Some gs -> pt_names o = Some ns ->
  let et := (pt_et_ref o : R) + t * pt_TU o in
  (forall mu3 ID, In (mu3, ID) (combine gs ns) ->
     norm (body_pos sp o et ID) <> 0 /\ norm (sub r (body_pos sp o et ID)) <> 0) ->
  (pt_use_J2 o = true ->
   perturbation_J2 (N:=RNum) r (sp_pxform sp (pt_frame o) (pt_frame_PA o) et) (pt_obs_mu o) (pt_J2 o) (pt_Re o) = Ok j2) ->
  get_perturbations_by_name (N:=RNum) sp o t oe name =
  Ok (apply (pxformECI2RTN (N:=RNum) r v)
        (add (vsum (map (fun b => third_body r (body_pos sp o et (snd b)) (fst b)) (combine gs ns)))
        (add (if pt_use_J2 o then j2 else null)
             (if pt_use_SRP o then perturbation_SRP (N:=RNum) (sub r (body_pos sp o et "10")) ((sp_AU_km sp : R) / pt_LU o) (pt_k_srp o) else null)))).
Proof.
  intros HS HG HN et HB HJ.
  assert (K : forall E, match E with Keplerian => kep2sv (N:=RNum) oe (pt_obs_mu o) | MeeWithA => mee_with_a2sv (N:=RNum) oe (pt_obs_mu o) end = Ok (concat33 r v) ->
    get_perturbations_RTN (N:=RNum) sp o t oe E = Ok (apply (pxformECI2RTN (N:=RNum) r v)
        (add (vsum (map (fun b => third_body r (body_pos sp o et (snd b)) (fst b)) (combine gs ns)))
        (add (if pt_use_J2 o then j2 else null)
             (if pt_use_SRP o then perturbation_SRP (N:=RNum) (sub r (body_pos sp o et "10")) ((sp_AU_km sp : R) / pt_LU o) (pt_k_srp o) else null))))).
  { intros E HE. unfold get_perturbations_RTN. rewrite HE. cbn [bind]. destruct (parts r v) as [-> ->].
    rewrite HG, HN. change (nadd (Num:=RNum) (pt_et_ref o) (nmul (Num:=RNum) t (pt_TU o))) with et.
    change (v3zero (N:=RNum)) with null. rewrite third_loop by exact HB. cbn [bind]. rewrite add_null_l.
    rewrite add_assoc.
    destruct (pt_use_J2 o); [rewrite HJ by reflexivity|]; destruct (pt_use_SRP o); cbn [bind]; rewrite ?add_null_r, apply_matvec; reflexivity. }
  unfold get_perturbations_by_name. destruct HS as [[-> HS]|[-> HS]]; cbn [String.eqb Ascii.eqb Bool.eqb]; [apply (K Keplerian HS)|apply (K MeeWithA HS)].
Qed.
Lemma C62_unknown_lem {N : Num} (sp : spice N) o t oe name : name <> "keplerian"%string -> name <> "mee_with_a"%string ->
  get_perturbations_by_name (N:=N) sp o t oe name = Err ValueError.
Proof.
  intros H1 H2. unfold get_perturbations_by_name. apply String.eqb_neq in H1, H2. rewrite H1, H2. reflexivity.
Qed.
Lemma C62_none_lem {N : Num} (sp : spice N) et_ref LU TU obs fr frp gms J2 Re P Cr Am uj us t oe s :
  let o := ptrb_init sp et_ref LU TU obs fr frp None gms J2 Re P Cr Am uj us in
  kep2sv (N:=N) oe (pt_obs_mu o) = Ok s ->
  get_perturbations_by_name (N:=N) sp o t oe "keplerian" = Err TypeError.
Proof.
  intros o H. unfold get_perturbations_by_name. cbn [String.eqb Ascii.eqb Bool.eqb].
  unfold get_perturbations_RTN. rewrite H. cbn [bind]. unfold o. cbn. destruct gms; reflexivity.
Qed.
Lemma C62_given_lem (sp : spice RNum) (et_ref LU TU : R) obs fr frp ns gs (J2 Re P Cr Am t : R) (oe : vec6 RNum) r v :
  let o := ptrb_init (N:=RNum) sp et_ref LU TU obs fr frp (Some ns) (Some gs) J2 Re P Cr Am false false in
  let pos ID := scale (/ LU) (sp_pos sp ID (et_ref + t * TU) fr obs) in
  kep2sv (N:=RNum) oe (pt_obs_mu o) = Ok (concat33 r v) ->
  (forall mu3 ID, In (mu3, ID) (combine gs ns) -> norm (pos ID) <> 0 /\ norm (sub r (pos ID)) <> 0) ->
  get_perturbations_by_name (N:=RNum) sp o t oe "keplerian" =
  Ok (apply (pxformECI2RTN (N:=RNum) r v) (vsum (map (fun b => third_body r (pos (snd b)) (fst b)) (combine gs ns)))).
Proof.
  intros o pos HS HB.
  assert (E : forall ID, body_pos sp o (et_ref + t * TU) ID = pos ID).
  { intros ID. unfold body_pos, pos, o. cbn [pt_frame pt_obs pt_LU ptrb_init]. destruct (sp_pos sp ID (et_ref + t * TU) fr obs) as [x y z].
    cbn. unfold Rdiv. f_equal; ring. }
  rewrite (C62_lem sp o t oe "keplerian" r v gs ns null); [|left; split; [reflexivity|exact HS]|reflexivity|reflexivity| |discriminate].
  - cbn [pt_use_J2 pt_use_SRP o ptrb_init]. rewrite !add_null_r. f_equal. f_equal. f_equal. apply map_ext. intros [g ID]. cbn [fst snd].
    change (pt_et_ref o + t * pt_TU o) with (et_ref + t * TU). rewrite <- E. reflexivity.
  - intros mu3 ID I. change (pt_et_ref o + t * pt_TU o) with (et_ref + t * TU). rewrite !E. apply (HB mu3 ID I).
Qed.
