(** Built-in perturbations: reflection in the reference plane (C98). *)
From Coq Require Import Reals Lra Lia ZArith String List Bool.
From Verif Require Import RMath RLib Num Base Elements Convergence Lyapunov Perturb RSpec ExportSpec LawSpec Qlaw Spec ElemProofs ScaleProofs TurnCases MirrorSpec MirrorRuns FlatProofs SkySpec.
Import ListNotations.
Local Open Scope R_scope.

(** ** the plane *)
Lemma ok_inj {A} (a b : A) : Ok a = Ok b -> b = a.
Proof. intros E. injection E as E. symmetry. exact E. Qed.
Lemma n_0 : nought (Fin 0).
Proof. left. reflexivity. Qed.
Lemma n_nan : nought NaN.
Proof. right. reflexivity. Qed.
Lemma n_add x y : nought x -> nought y -> nought (xadd x y).
Proof. intros [-> | ->] [-> | ->]; cbn; try apply n_nan. left. f_equal. ring. Qed.
Lemma n_sub x y : nought x -> nought y -> nought (xsub x y).
Proof. intros [-> | ->] [-> | ->]; cbn; try apply n_nan. left. f_equal. ring. Qed.
Lemma xinf_0 : xinf 0 = NaN.
Proof. unfold xinf. rewrite (proj2 (Rltb_false 0 0)) by lra. reflexivity. Qed.
Lemma xsgn_0 : xsgn (Fin 0) = 0.
Proof. unfold xsgn. rewrite (proj2 (Rltb_false 0 0)) by lra. reflexivity. Qed.
Lemma n_mul_r x y : nought y -> nought (xmul x y).
Proof.
  intros [-> | ->]; [|destruct x; apply n_nan]. destruct x; cbn [xmul]; try apply n_nan.
  - left. f_equal. ring.
  - rewrite xsgn_0, Rmult_0_r, xinf_0. apply n_nan.
  - rewrite xsgn_0, Rmult_0_r, xinf_0. apply n_nan.
Qed.
Lemma n_mul_l x y : nought x -> nought (xmul x y).
Proof.
  intros [-> | ->]; [|destruct y; apply n_nan]. destruct y; cbn [xmul]; try apply n_nan.
  - left. f_equal. ring.
  - rewrite xsgn_0, Rmult_0_l, xinf_0. apply n_nan.
  - rewrite xsgn_0, Rmult_0_l, xinf_0. apply n_nan.
Qed.
Lemma n_div x y : nought x -> nought (xdiv x y).
Proof.
  intros [-> | ->]; [|destruct y; apply n_nan]. destruct y as [r| | |]; cbn [xdiv]; try apply n_nan; try apply n_0.
  destruct (Reqb r 0) eqn:E; [rewrite xsgn_0, xinf_0; apply n_nan|]. left. f_equal. apply Reqb_false in E. field. exact E.
Qed.
Ltac noughts := repeat first [assumption | apply n_0 | apply n_nan | apply n_add | apply n_sub | apply n_div | (apply n_mul_l; solve [noughts]) | (apply n_mul_r; solve [noughts])].

Lemma xadd_nan_l y : xadd NaN y = NaN. Proof. reflexivity. Qed.
Lemma xadd_nan_r x : xadd x NaN = NaN. Proof. destruct x; reflexivity. Qed.
Lemma xmul_nan_l y : xmul NaN y = NaN. Proof. reflexivity. Qed.

(** z components of a converted orbit of inclination zero *)
Lemma kep2sv_flat a e i ra om ta mu s : nought i -> kep2sv (N:=XNum) (@mk6 XNum a e i ra om ta) mu = Ok s -> nought (v6_2 s) /\ nought (v6_5 s).
Proof.
  intros Hi. unfold kep2sv. cbv zeta.
  match goal with |- bind ?d _ = _ -> _ => destruct d as [c|] end; [|discriminate]. cbn [bind].
  match goal with |- bind ?d _ = _ -> _ => destruct d as [c'|] end; [|discriminate]. cbn [bind].
  assert (R3 : forall (phi : @car XNum) (v : vec3 XNum), nought (v3_2 v) -> nought (v3_2 (matvec (rotmat3 (N:=XNum) phi) v))).
  { intros phi [x y z] H. cbn [v3_2] in H. cbn [matvec rotmat1 rotmat3 dot3 v3_2 v3scal v3divs v3add v3sub nadd nmul nsub ndiv nopp nofZ XNum]. noughts. }
  assert (R1 : forall v : vec3 XNum, nought (v3_2 v) -> nought (v3_2 (matvec (rotmat1 (N:=XNum) (nopp (Num:=XNum) NaN)) v))).
  { intros [x y z] H. cbn [matvec rotmat1 rotmat3 dot3 v3_2 v3scal v3divs v3add v3sub nadd nmul nsub ndiv nopp nofZ XNum]. cbn [xopp ncos nsin XNum xlift]. rewrite ?xmul_nan_l, ?xadd_nan_r, ?xadd_nan_l. apply n_nan. }
  set (r0 := v3scal (N:=XNum) c _). set (v0 := v3scal (N:=XNum) c' _).
  assert (Z0 : nought (v3_2 r0) /\ nought (v3_2 v0)) by (split; unfold r0, v0; cbn [matvec rotmat1 rotmat3 dot3 v3_2 v3scal v3divs v3add v3sub nadd nmul nsub ndiv nopp nofZ XNum]; noughts). clearbody r0 v0.
  assert (Z1 : exists r1 v1, (if negb (neqb (Num:=XNum) om (nofZ (Num:=XNum) 0)) then (matvec (rotmat3 (N:=XNum) (nopp (Num:=XNum) om)) r0, matvec (rotmat3 (N:=XNum) (nopp (Num:=XNum) om)) v0) else (r0, v0)) = (r1, v1) /\ nought (v3_2 r1) /\ nought (v3_2 v1)).
  { destruct (negb _); do 2 eexists; (split; [reflexivity|]); split; try apply R3; apply Z0. }
  destruct Z1 as (r1 & v1 & -> & Z1).
  assert (Z2 : exists r2 v2, (if negb (neqb (Num:=XNum) i (nofZ (Num:=XNum) 0)) then (matvec (rotmat1 (N:=XNum) (nopp (Num:=XNum) i)) r1, matvec (rotmat1 (N:=XNum) (nopp (Num:=XNum) i)) v1) else (r1, v1)) = (r2, v2) /\ nought (v3_2 r2) /\ nought (v3_2 v2)).
  { destruct Hi as [-> | ->].
    - assert (E : neqb (Num:=XNum) (Fin 0) (nofZ (Num:=XNum) 0) = true) by (cbn; apply Reqb_true; reflexivity). rewrite E. cbn [negb]. do 2 eexists. split; [reflexivity|]. exact Z1.
    - cbn [negb neqb XNum xeqb]. do 2 eexists. split; [reflexivity|]. split; apply R1; apply Z1. }
  destruct Z2 as (r2 & v2 & -> & Z2).
  assert (Z3 : exists r3 v3, (if negb (neqb (Num:=XNum) ra (nofZ (Num:=XNum) 0)) then (matvec (rotmat3 (N:=XNum) (nopp (Num:=XNum) ra)) r2, matvec (rotmat3 (N:=XNum) (nopp (Num:=XNum) ra)) v2) else (r2, v2)) = (r3, v3) /\ nought (v3_2 r3) /\ nought (v3_2 v3)).
  { destruct (negb _); do 2 eexists; (split; [reflexivity|]); split; try apply R3; apply Z2. }
  destruct Z3 as (r3 & v3 & -> & Z3). intros E. apply ok_inj in E. subst. destruct r3, v3. exact Z3.
Qed.
Lemma atan2_01 : Ratan2 0 1 = 0.
Proof.
  unfold Ratan2. rewrite (proj2 (Rltb_true 0 1)) by lra. unfold Rdiv. rewrite Rmult_0_l. apply atan_0.
Qed.
Lemma mee2sv_flat oe mu s : flat oe -> mee_with_a2sv (N:=XNum) oe mu = Ok s -> nought (v6_2 s) /\ nought (v6_5 s).
Proof.
  destruct oe as [a f g h k l]. intros [Hh Hk]. cbn [v6_3 v6_4] in Hh, Hk. unfold mee_with_a2sv, mee2kep.
  match goal with |- bind (bind ?d _) _ = _ -> _ => destruct d as [c|] end; [|discriminate]. cbn [bind]. cbv zeta.
  apply kep2sv_flat. destruct Hh as [-> | ->]; [destruct Hk as [-> | ->]|].
  - left. unfold sq. cbn [natan2 nmul nsqrt nadd nsub nofZ XNum xmul xadd xsub xsqrt]. rewrite (proj2 (Rltb_false _ 0)) by lra. cbn [xmul xatan2].
    f_equal. replace (0 * 0 + 0 * 0) with 0 by ring. rewrite sqrt_0. replace (2 * 0) with 0 by ring. replace (1 - 0 * 0 - 0 * 0) with 1 by ring. apply atan2_01.
  - right. reflexivity.
  - right. reflexivity.
Qed.

Definition z0 (v : vec3 XNum) : Prop := nought (v3_2 v).
Lemma z0_divs v k : z0 v -> z0 (v3divs (N:=XNum) v k).
Proof. destruct v. unfold z0. cbn [matvec rotmat1 rotmat3 dot3 v3_2 v3scal v3divs v3add v3sub nadd nmul nsub ndiv nopp nofZ XNum]. intros H. noughts. Qed.
Lemma z0_add u v : z0 u -> z0 v -> z0 (v3add (N:=XNum) u v).
Proof. destruct u, v. unfold z0. cbn [matvec rotmat1 rotmat3 dot3 v3_2 v3scal v3divs v3add v3sub nadd nmul nsub ndiv nopp nofZ XNum]. intros H K. noughts. Qed.
Lemma z0_sub u v : z0 u -> z0 v -> z0 (v3sub (N:=XNum) u v).
Proof. destruct u, v. unfold z0. cbn [matvec rotmat1 rotmat3 dot3 v3_2 v3scal v3divs v3add v3sub nadd nmul nsub ndiv nopp nofZ XNum]. intros H K. noughts. Qed.
Lemma z0_scal c v : z0 v -> z0 (v3scal (N:=XNum) c v).
Proof. destruct v. unfold z0. cbn [matvec rotmat1 rotmat3 dot3 v3_2 v3scal v3divs v3add v3sub nadd nmul nsub ndiv nopp nofZ XNum]. intros H. noughts. Qed.
Lemma battin_flat r s m v : z0 r -> z0 s -> perturbation_third_body_battin (N:=XNum) r s m = Ok v -> z0 v.
Proof.
  intros Hr Hs. unfold perturbation_third_body_battin. cbv zeta.
  do 3 (match goal with |- bind ?d _ = _ -> _ => destruct d as [?|] end; [|discriminate]; cbn [bind]).
  intros E. apply ok_inj in E. subst. apply z0_scal, z0_add; [exact Hr|apply z0_scal; exact Hs].
Qed.
Lemma J2_flat r a b d e c m J Re v : z0 r ->
  perturbation_J2 (N:=XNum) r (mkm (@mk3 XNum a b (Fin 0)) (@mk3 XNum d e (Fin 0)) (@mk3 XNum (Fin 0) (Fin 0) c)) m J Re = Ok v -> z0 v.
Proof.
  intros Hr. unfold perturbation_J2. cbv zeta. match goal with |- bind ?x _ = _ -> _ => destruct x as [co|] end; [|discriminate]. cbn [bind].
  destruct r as [x y z]. unfold z0 in Hr. cbn [v3_2] in Hr. cbn [matvec dot3 mtrans v3scal]. intros E. apply ok_inj in E. subst. unfold z0. cbn [v3_2].
  cbn [nadd nmul nsub nofZ XNum]. apply n_add; [apply n_add; apply n_mul_l; apply n_0|]. apply n_mul_r, n_mul_r, n_mul_r.
  apply n_add; [apply n_add; apply n_mul_l; apply n_0|]. apply n_mul_r. exact Hr.
Qed.
Lemma rtn_flat r v a : z0 r -> z0 v -> z0 a -> z0 (matvec (N:=XNum) (pxformECI2RTN (N:=XNum) r v) a).
Proof.
  destruct r as [x y z], v as [u w q], a as [p s t]. unfold z0. cbn [v3_2]. intros Hr Hv Ha. unfold pxformECI2RTN. cbv zeta. cbn [cross3]. unfold v3divs at 2.
  cbn [matvec v3_2]. cbn [v3divs dot3]. cbn [nadd nmul nsub ndiv XNum].
  apply n_add; [apply n_add|]; [apply n_mul_l|apply n_mul_l|apply n_mul_r; exact Ha]; apply n_div, n_sub; first [apply n_mul_l; assumption | apply n_mul_r; assumption].
Qed.
Lemma loop_flat (sp : spice XNum) (po : ptrb_obj XNum) (et : @car XNum) r l : z0 r -> (forall (m : @car XNum) ID, In (m, ID) l -> v3_2 (sp_pos sp ID et (pt_frame po) (pt_obs po)) = Fin 0) ->
  forall acc v, z0 acc -> third_body_loop (N:=XNum) sp po et r l acc = Ok v -> z0 v.
Proof.
  intros Hr. induction l as [|[m ID] l IH]; intros HB acc v Ha; cbn [third_body_loop].
  - intros E. apply ok_inj in E. subst. exact Ha.
  - destruct (perturbation_third_body_battin _ _ m) as [w|] eqn:W; [|discriminate]. cbn [bind]. apply IH; [intros m' ID' I; apply (HB m'); right; exact I|].
    apply z0_add; [exact Ha|]. refine (battin_flat _ _ _ _ Hr _ W). apply z0_divs. unfold z0. rewrite (HB m ID (or_introl eq_refl)). apply n_0.
Qed.
Lemma C98_flat_lem sp po t oe v : bodies_in_plane sp po -> sun_in_plane sp po -> axis_normal sp po -> flat oe ->
  get_perturbations_RTN (N:=XNum) sp po t oe MeeWithA = Ok v -> nought (v3_2 v).
Proof.
  intros HB HS HA F. unfold get_perturbations_RTN. destruct (mee_with_a2sv oe (pt_obs_mu po)) as [rv|] eqn:E; [|discriminate]. cbn [bind]. cbv zeta.
  destruct (mee2sv_flat _ _ _ F E) as [Zr Zv].
  assert (Hr : z0 (rpart rv)) by (destruct rv; exact Zr). assert (Hv : z0 (vpart rv)) by (destruct rv; exact Zv). clear E Zr Zv F.
  destruct (pt_gms po) as [gs|]; [|discriminate]. destruct (pt_names po) as [ns|] eqn:EN; [|discriminate].
  match goal with |- context [third_body_loop sp po ?e _ _ _] => generalize e; intros et end.
  destruct (third_body_loop sp po et (rpart rv) (combine gs ns) v3zero) as [a1|] eqn:L; [|discriminate]. cbn [bind].
  assert (Z1 : z0 a1).
  { refine (loop_flat sp po et _ _ Hr _ _ _ _ L); [|unfold z0; cbn; apply n_0]. intros m ID I. apply (HB ns ID et EN). exact (in_combine_r _ _ _ _ I). }
  clear L.
  match goal with |- bind ?d _ = _ -> _ => destruct d as [a2|] eqn:J end; [|discriminate]. cbn [bind].
  assert (Z2 : z0 a2).
  { destruct (pt_use_J2 po) eqn:U; [|apply ok_inj in J; subst; exact Z1]. destruct (HA U et) as (a & b & d & e & c & ET). rewrite ET in J.
    destruct (perturbation_J2 _ _ _ _ _) as [w|] eqn:W; [|discriminate]. cbn [bind] in J. apply ok_inj in J; subst. apply z0_add; [exact Z1|]. exact (J2_flat _ _ _ _ _ _ _ _ _ _ Hr W). }
  clear J. intros E. apply ok_inj in E. subst. apply rtn_flat; [exact Hr|exact Hv|].
  destruct (pt_use_SRP po) eqn:U; [|exact Z2]. apply z0_add; [exact Z2|]. unfold perturbation_SRP. apply z0_divs, z0_scal, z0_sub; [exact Hr|]. apply z0_divs. unfold z0. rewrite (HS U). apply n_0.
Qed.

(** ** the mirror *)
Lemma Ok_kep et oe mu : 0 < mu -> elliptic et oe -> exists s, (match et with Keplerian => kep2sv (N:=RNum) oe mu | MeeWithA => mee_with_a2sv (N:=RNum) oe mu end) = Ok s /\
  (match et with Keplerian => kep2sv (N:=RNum) (flip_elements et oe) mu | MeeWithA => mee_with_a2sv (N:=RNum) (flip_elements et oe) mu end) = Ok (cart_reflect s).
Proof.
  intros M H. destruct oe as [a x y z w l]. destruct et; cbn [elliptic] in H; cbn [flip_elements].
  - exact (C96_kep a x y z w l mu M (proj1 H) (proj2 H)).
  - destruct H as [Ha He]. exact (C96_mee a x y z w l mu M Ha He).
Qed.
Lemma flip_r s : rpart (cart_reflect s) = flip (rpart s).
Proof. destruct s. reflexivity. Qed.
Lemma flip_v s : vpart (cart_reflect s) = flip (vpart s).
Proof. destruct s. reflexivity. Qed.
Ltac rring := change (@eq (@car RNum)) with (@eq R); ring.
Ltac rn := cbn [flip flip_rotation matvec mtrans dot3 cross3 v3scal v3divs v3add v3sub v3_0 v3_1 v3_2 nadd nmul nsub ndiv nopp nofZ RNum].
Lemma flip_dot u v : dot3 (N:=RNum) (flip u) (flip v) = dot3 (N:=RNum) u v.
Proof. destruct u, v. rn. rring. Qed.
Lemma flip_norm u : norm3 (N:=RNum) (flip u) = norm3 (N:=RNum) u.
Proof. unfold norm3. rewrite flip_dot. reflexivity. Qed.
Lemma flip_sub u v : v3sub (N:=RNum) (flip u) (flip v) = flip (v3sub (N:=RNum) u v).
Proof. destruct u, v. rn. f_equal. rring. Qed.
Lemma flip_add u v : v3add (N:=RNum) (flip u) (flip v) = flip (v3add (N:=RNum) u v).
Proof. destruct u, v. rn. f_equal. rring. Qed.
Lemma flip_scal c v : v3scal (N:=RNum) c (flip v) = flip (v3scal (N:=RNum) c v).
Proof. destruct v. rn. f_equal. rring. Qed.
Lemma flip_divs c v : v3divs (N:=RNum) (flip v) c = flip (v3divs (N:=RNum) v c).
Proof. destruct v. rn. f_equal. unfold Rdiv. rring. Qed.
Lemma battin_flip r s m : perturbation_third_body_battin (N:=RNum) (flip r) (flip s) m = Rmap flip (perturbation_third_body_battin (N:=RNum) r s m).
Proof.
  unfold perturbation_third_body_battin. cbv zeta. rewrite flip_scal, !flip_sub, !flip_dot. rewrite bind_rmap. apply bind_ext. intros q. rewrite bind_rmap. apply bind_ext. intros c.
  rewrite bind_rmap. apply bind_ext. intros k. cbn [Rmap]. rewrite flip_scal, flip_add, flip_scal. reflexivity.
Qed.
Lemma flip_apply T v : matvec (N:=RNum) (flip_rotation T) (flip v) = flip (matvec (N:=RNum) T v).
Proof. destruct T as [[a b c] [d e f] [g h i]], v as [x y z]. rn. f_equal; rring. Qed.
Lemma flip_trans T : mtrans (flip_rotation T) = flip_rotation (mtrans (N:=RNum) T).
Proof. destruct T as [[a b c] [d e f] [g h i]]. reflexivity. Qed.
Lemma J2_flip r T m J Re : perturbation_J2 (N:=RNum) (flip r) (flip_rotation T) m J Re = Rmap flip (perturbation_J2 (N:=RNum) r T m J Re).
Proof.
  unfold perturbation_J2. cbv zeta. rewrite flip_norm, bind_rmap. apply bind_ext. intros c. rewrite flip_apply, flip_trans. destruct (matvec (N:=RNum) T r) as [x y z]. cbn [flip].
  cbn [Rmap]. f_equal. rewrite <- flip_apply. f_equal. unfold sq. rn. f_equal; rring.
Qed.
Lemma SRP_flip r AU k : perturbation_SRP (N:=RNum) (flip r) AU k = flip (perturbation_SRP (N:=RNum) r AU k).
Proof. unfold perturbation_SRP. rewrite flip_norm, flip_scal, flip_divs. reflexivity. Qed.
Lemma cross_flip u v : cross3 (N:=RNum) (flip u) (flip v) = v3scal (N:=RNum) (-1) (flip (cross3 (N:=RNum) u v)).
Proof. destruct u, v. rn. f_equal; rring. Qed.
Lemma norm_neg v : norm3 (N:=RNum) (v3scal (N:=RNum) (-1) v) = norm3 (N:=RNum) v.
Proof. unfold norm3. f_equal. destruct v. rn. rring. Qed.
Lemma rtn_flip r v a : matvec (N:=RNum) (pxformECI2RTN (N:=RNum) (flip r) (flip v)) (flip a) = flip (matvec (N:=RNum) (pxformECI2RTN (N:=RNum) r v) a).
Proof.
  unfold pxformECI2RTN. cbv zeta. rewrite cross_flip, norm_neg, !flip_norm. generalize (norm3 (N:=RNum) (cross3 (N:=RNum) r v)), (norm3 (N:=RNum) r). intros n m.
  generalize (cross3 (N:=RNum) r v). intros h. destruct r as [x y z], h as [p q t], a as [a b c]. rn. f_equal; unfold Rdiv; rring.
Qed.
Lemma loop_flip sp po et r l : forall acc, third_body_loop (N:=RNum) (flip_sky sp) po et (flip r) l (flip acc) = Rmap flip (third_body_loop (N:=RNum) sp po et r l acc).
Proof.
  induction l as [|[m ID] l IH]; intros acc; cbn [third_body_loop]; [reflexivity|]. cbn [flip_sky sp_pos]. rewrite flip_divs, battin_flip, rmap_bind, bind_rmap. apply bind_ext. intros w.
  rewrite flip_add. apply IH.
Qed.
Lemma flip_zero : v3zero (N:=RNum) = flip (v3zero (N:=RNum)).
Proof. unfold v3zero. rn. f_equal. change (@eq (@car RNum)) with (@eq R). ring. Qed.
Lemma C98_flip_lem (sp : spice RNum) (po : ptrb_obj RNum) (t : R) oe et : 0 < pt_obs_mu po -> elliptic et oe ->
  get_perturbations_RTN (N:=RNum) (flip_sky sp) po t (flip_elements et oe) et =
  match get_perturbations_RTN (N:=RNum) sp po t oe et with Ok v => Ok (flip v) | Err e => Err e end.
Proof.
  intros M H. change (get_perturbations_RTN (N:=RNum) (flip_sky sp) po t (flip_elements et oe) et = Rmap flip (get_perturbations_RTN (N:=RNum) sp po t oe et)).
  destruct (Ok_kep et oe (pt_obs_mu po) M H) as (s & E & E').
  unfold get_perturbations_RTN. rewrite E, E'. cbn [bind]. cbv zeta. rewrite flip_r, flip_v.
  destruct (pt_gms po) as [gs|]; [|reflexivity]. destruct (pt_names po) as [ns|]; [|reflexivity].
  rewrite flip_zero at 1. rewrite loop_flip, rmap_bind, bind_rmap. apply bind_ext. intros a1.
  assert (J : forall a, (if pt_use_J2 po then bind (perturbation_J2 (N:=RNum) (flip (rpart s)) (sp_pxform (flip_sky sp) (pt_frame po) (pt_frame_PA po) a) (pt_obs_mu po) (pt_J2 po) (pt_Re po)) (fun w => Ok (v3add (N:=RNum) (flip a1) w)) else Ok (flip a1)) =
    Rmap flip (if pt_use_J2 po then bind (perturbation_J2 (N:=RNum) (rpart s) (sp_pxform sp (pt_frame po) (pt_frame_PA po) a) (pt_obs_mu po) (pt_J2 po) (pt_Re po)) (fun w => Ok (v3add (N:=RNum) a1 w)) else Ok a1)).
  { intros a. destruct (pt_use_J2 po); [|reflexivity]. cbn [flip_sky sp_pxform]. rewrite J2_flip, rmap_bind, bind_rmap. apply bind_ext. intros w. cbn [Rmap]. rewrite flip_add. reflexivity. }
  rewrite J, rmap_bind, bind_rmap. apply bind_ext. intros a2. cbn [Rmap]. f_equal. cbn [flip_sky sp_pos sp_AU_km].
  destruct (pt_use_SRP po); [|apply rtn_flip]. rewrite flip_divs, flip_sub, SRP_flip, flip_add. apply rtn_flip.
Qed.
