(** The Gauss equations of the model are Newton's equations. *)
From Coq Require Import Reals Lra Lia ZArith List Bool Nsatz.
From Verif Require Import RMath RLib DLib Num Base Elements Eom Lyapunov Symbolic SymKep SymMee RSpec GaussSpec LawSpec ElemProofs DiffProofs KepQ MeeQ LawProofs.
Import ListNotations.
Local Open Scope R_scope.

(** ** Calculus of vector functions *)
Lemma dvec_ext F G t d : (forall s, F s = G s) -> dvec F t d -> dvec G t d.
Proof.
  intros E (A & B & C). repeat split; [eapply dext; [|exact A]|eapply dext; [|exact B]|eapply dext; [|exact C]];
    intros s; cbn beta; rewrite E; reflexivity.
Qed.
Lemma dvec_val F t d d' : d = d' -> dvec F t d -> dvec F t d'.
Proof. intros <-. auto. Qed.
Lemma dvec_add F G t d e : dvec F t d -> dvec G t e -> dvec (fun s => add (F s) (G s)) t (add d e).
Proof.
  intros (A & B & C) (A' & B' & C'). repeat split.
  - eapply dext; [|eapply dval; [|exact (d_plus _ _ _ _ _ A A')]]; [intros s; cbn beta; destruct (F s), (G s); reflexivity|destruct d, e; reflexivity].
  - eapply dext; [|eapply dval; [|exact (d_plus _ _ _ _ _ B B')]]; [intros s; cbn beta; destruct (F s), (G s); reflexivity|destruct d, e; reflexivity].
  - eapply dext; [|eapply dval; [|exact (d_plus _ _ _ _ _ C C')]]; [intros s; cbn beta; destruct (F s), (G s); reflexivity|destruct d, e; reflexivity].
Qed.
Lemma dvec_scale k F t k' d : dlim k t k' -> dvec F t d ->
  dvec (fun s => scale (k s) (F s)) t (add (scale k' (F t)) (scale (k t) d)).
Proof.
  intros K (A & B & C). repeat split.
  - eapply dext; [|eapply dval; [|exact (d_mult _ _ _ _ _ K A)]]; [intros s; cbn beta; destruct (F s); reflexivity|destruct d, (F t); reflexivity].
  - eapply dext; [|eapply dval; [|exact (d_mult _ _ _ _ _ K B)]]; [intros s; cbn beta; destruct (F s); reflexivity|destruct d, (F t); reflexivity].
  - eapply dext; [|eapply dval; [|exact (d_mult _ _ _ _ _ K C)]]; [intros s; cbn beta; destruct (F s); reflexivity|destruct d, (F t); reflexivity].
Qed.
Lemma v3_eq (u v : vec3 RNum) : v3_0 u = v3_0 v -> v3_1 u = v3_1 v -> v3_2 u = v3_2 v -> u = v.
Proof. destruct u, v. cbn. intros -> -> ->. reflexivity. Qed.
Lemma vec_eta (u : vec3 RNum) : u = vec (v3_0 u) (v3_1 u) (v3_2 u).
Proof. destruct u; reflexivity. Qed.
Ltac vring := repeat match goal with u : vec3 RNum |- _ => destruct u end;
  unfold add, sub, scale, vec; cbn; f_equal; ring.

(** ** Motion in a rotating frame A, B, W *)
Section Frame.
Variables (A B W : R -> vec3 RNum) (L rho ur ut : R -> R) (t x y z L' rho' ur' ut' : R).
Hypotheses (HA : dvec A t (sub (scale z (B t)) (scale y (W t)))) (HB : dvec B t (sub (scale x (W t)) (scale z (A t)))).
Hypotheses (HL : dlim L t L') (Hrho : dlim rho t rho') (Hur : dlim ur t ur') (Hut : dlim ut t ut').
Definition Rh s := add (scale (cos (L s)) (A s)) (scale (sin (L s)) (B s)).
Definition Th s := add (scale (- sin (L s)) (A s)) (scale (cos (L s)) (B s)).
Lemma dRh : dvec Rh t (add (scale (L' + z) (Th t)) (scale (x * sin (L t) - y * cos (L t)) (W t))).
Proof.
  eapply dvec_val; [|apply dvec_add; apply dvec_scale; [exact (d_cos _ _ _ HL)|exact HA|exact (d_sin _ _ _ HL)|exact HB]].
  unfold Th. generalize (A t), (B t), (W t). intros a b w. vring.
Qed.
Lemma dTh : dvec Th t (add (scale (- (L' + z)) (Rh t)) (scale (x * cos (L t) + y * sin (L t)) (W t))).
Proof.
  eapply dvec_val; [|apply dvec_add; apply dvec_scale; [exact (d_opp _ _ _ (d_sin _ _ _ HL))|exact HA|exact (d_cos _ _ _ HL)|exact HB]].
  unfold Rh. generalize (A t), (B t), (W t). intros a b w. vring.
Qed.
Lemma dpos : rho' = ur t -> rho t * (L' + z) = ut t -> x * sin (L t) = y * cos (L t) ->
  dvec (fun s => scale (rho s) (Rh s)) t (add (scale (ur t) (Rh t)) (scale (ut t) (Th t))).
Proof.
  intros E1 E2 E3. eapply dvec_val; [|apply dvec_scale; [exact Hrho|exact dRh]].
  rewrite E1, <- E2, E3. generalize (Rh t), (Th t), (W t). intros a b w. vring.
Qed.
Lemma dvel (Fr Ft Fn g : R) : ur' - ut t * (L' + z) = Fr - g -> ut' + ur t * (L' + z) = Ft ->
  x * sin (L t) = y * cos (L t) -> ut t * (x * cos (L t) + y * sin (L t)) = Fn ->
  dvec (fun s => add (scale (ur s) (Rh s)) (scale (ut s) (Th s))) t
    (add (scale (- g) (Rh t)) (add (add (scale Fr (Rh t)) (scale Ft (Th t))) (scale Fn (W t)))).
Proof.
  intros E1 E2 E3 E4. eapply dvec_val; [|apply dvec_add; apply dvec_scale; [exact Hur|exact dRh|exact Hut|exact dTh]].
  rewrite E3, <- E2, <- E4. replace Fr with (ur' - ut t * (L' + z) + g) by lra.
  generalize (Rh t), (Th t), (W t). intros a b w. vring.
Qed.
End Frame.

(** orthonormal frame algebra at one instant *)
Lemma cross_AB A B W : cross A B = W -> dot A A = 1 -> dot B B = 1 -> dot A B = 0 -> cross W A = B /\ cross W B = scale (-1) A /\ dot W W = 1.
Proof.
  destruct A as [a1 a2 a3], B as [b1 b2 b3]. intros <- HA HB HAB. unfold cross, dot, scale in *. cbn in *.
  repeat split; [f_equal; nsatz|f_equal; nsatz|nsatz].
Qed.
Lemma scale_inv k u : 0 < k -> scale (/ k) (scale k u) = u.
Proof. intros H. destruct u. unfold scale. cbn. f_equal; field; lra. Qed.
Lemma scale_grav mu k u : 0 < k -> scale (- mu / k ^ 3) (scale k u) = scale (- (mu / (k * k))) u.
Proof. intros H. destruct u. unfold scale. cbn. f_equal; field; lra. Qed.
Lemma rtn_frame A B W c s rho ur ut mu F : cross A B = W -> dot A A = 1 -> dot B B = 1 -> dot A B = 0 ->
  c * c + s * s = 1 -> 0 < rho -> 0 < ut ->
  let R := add (scale c A) (scale s B) in let T := add (scale (- s) A) (scale c B) in
  pushed mu (scale rho R) (add (scale ur R) (scale ut T)) F =
  add (scale (- (mu / (rho * rho))) R) (add (add (scale (v3_0 F) R) (scale (v3_1 F) T)) (scale (v3_2 F) W)).
Proof.
  intros HW HA HB HAB Hcs Hr Ht R T.
  destruct (cross_AB A B W HW HA HB HAB) as (C1 & C2 & WW).
  assert (NR : norm (scale rho R) = rho).
  { unfold norm, norm3. cbn. change (@nsqrt RNum) with sqrt. apply sqrt_pos_of; [lra|].
    unfold R. clear - HA HB HAB Hcs. destruct A as [a1 a2 a3], B as [b1 b2 b3]. unfold dot, cross, add, scale in *. cbn in *.
    nsatz. }
  assert (CR : cross (scale rho R) (add (scale ur R) (scale ut T)) = scale (rho * ut) W).
  { rewrite <- HW. unfold R, T. destruct A as [a1 a2 a3], B as [b1 b2 b3]. clear - Hcs.
    unfold cross, add, scale. cbn. f_equal; nsatz. }
  assert (P : 0 < rho * ut) by (apply Rmult_lt_0_compat; assumption).
  assert (NW : norm (scale (rho * ut) W) = rho * ut).
  { clear - WW P. set (k := rho * ut) in *. clearbody k. unfold norm, norm3. change (@nsqrt RNum) with sqrt. apply sqrt_pos_of; [lra|].
    destruct W as [w1 w2 w3]. unfold dot, scale in *. cbn in *.
    transitivity (k * k * (w1 * w1 + w2 * w2 + w3 * w3)); [ring|]. rewrite WW. ring. }
  assert (WR : cross W R = T).
  { unfold R, T. transitivity (add (scale c (cross W A)) (scale s (cross W B))).
    - clear. destruct A, B, W. unfold cross, add, scale. cbn. f_equal; ring.
    - rewrite C1, C2. clear. destruct A, B. unfold add, scale. cbn. f_equal; ring. }
  unfold pushed, from_rtn. rewrite CR, NR, NW.
  rewrite !scale_inv by assumption.
  rewrite WR. destruct F as [fx fy fz]. cbn [v3_0 v3_1 v3_2]. f_equal.
  apply scale_grav, Hr.
Qed.

(** ** Keplerian elements *)
Definition nhat (i ra : R) : vec3 RNum := in_plane i ra 1 0.
Definition mhat (i ra : R) : vec3 RNum := in_plane i ra 0 1.
Lemma frame_kep i ra : cross (nhat i ra) (mhat i ra) = plane_normal i ra /\ dot (nhat i ra) (nhat i ra) = 1 /\
  dot (mhat i ra) (mhat i ra) = 1 /\ dot (nhat i ra) (mhat i ra) = 0.
Proof.
  unfold nhat, mhat. rewrite !dot_in_plane, cross_in_plane. repeat split; try ring.
  unfold scale, plane_normal, vec. cbn. f_equal; ring.
Qed.
Lemma d_frame_kep (i ra : R -> R) t i' ra' : dlim i t i' -> dlim ra t ra' ->
  dvec (fun s => nhat (i s) (ra s)) t
    (sub (scale (ra' * cos (i t)) (mhat (i t) (ra t))) (scale (ra' * sin (i t)) (plane_normal (i t) (ra t)))) /\
  dvec (fun s => mhat (i s) (ra s)) t
    (sub (scale i' (plane_normal (i t) (ra t))) (scale (ra' * cos (i t)) (nhat (i t) (ra t)))).
Proof.
  intros Di Dr. pose proof (d_cos _ _ _ Di) as Ci. pose proof (d_sin _ _ _ Di) as Si.
  pose proof (d_cos _ _ _ Dr) as Cr. pose proof (d_sin _ _ _ Dr) as Sr. pose proof (sincos (i t)) as I2.
  unfold nhat, mhat, in_plane, plane_normal, sub, scale, vec.
  split; (split; [|split]); cbn [v3_0 v3_1 v3_2 v3sub v3scal];
    change (nmul (Num:=RNum)) with Rmult; change (nsub (Num:=RNum)) with Rminus.
  - apply (dext (fun s => cos (ra s))); [intros s; ring|]. eapply dval; [|exact Cr]. cbv beta; change (@eq (@car RNum)) with (@eq R). nsatz.
  - apply (dext (fun s => sin (ra s))); [intros s; ring|]. eapply dval; [|exact Sr]. cbv beta; change (@eq (@car RNum)) with (@eq R). nsatz.
  - apply (dext (fun s => 0)); [intros s; ring|]. eapply dval; [|apply d_const]. cbv beta; change (@eq (@car RNum)) with (@eq R). ring.
  - apply (dext (fun s => - (sin (ra s) * cos (i s)))); [intros s; ring|]. eapply dval; [|exact (d_opp _ _ _ (d_mult _ _ _ _ _ Sr Ci))]. cbv beta; change (@eq (@car RNum)) with (@eq R). ring.
  - apply (dext (fun s => cos (ra s) * cos (i s))); [intros s; ring|]. eapply dval; [|exact (d_mult _ _ _ _ _ Cr Ci)]. cbv beta; change (@eq (@car RNum)) with (@eq R). ring.
  - apply (dext (fun s => sin (i s))); [intros s; ring|]. eapply dval; [|exact Si]. cbv beta; change (@eq (@car RNum)) with (@eq R). ring.
Qed.

(** the algebra of the in-plane part: h, p, w = 1 + e cos ta, rho = p / w *)
Section KepAlg.
Variables (h p e c s Fr Ft om' : R).
Hypotheses (Hh : h <> 0) (Hp : p <> 0) (He : e <> 0) (Hs : s * s + c * c = 1) (Hw : 1 + e * c <> 0).
Let w := 1 + e * c.
Let rho := p / w.
Let e' := p / h * s * Fr + ((p + rho) * c + rho * e) / h * Ft.
Let ta' := p * c / (e * h) * Fr + - (p + rho) * s / (e * h) * Ft + h / (rho * rho).
Lemma ka1 : e' * c - e * s * ta' = 2 * p * Ft / h - e * s * h / (rho * rho).
Proof.
  unfold e', ta'. assert (W : rho * (e * c) = p - rho) by (unfold rho, w; field; exact Hw).
  assert (R : rho <> 0) by (unfold rho; apply Rmult_integral_contrapositive_currified; [exact Hp|apply Rinv_neq_0_compat; exact Hw]).
  clearbody rho. transitivity (((p + rho) * (s * s + c * c) + rho * (e * c)) * Ft / h - e * s * h / (rho * rho)).
  - field. auto.
  - rewrite W, Hs. field. auto.
Qed.
Lemma ka2 : e' * s + e * c * ta' = p * Fr / h + rho * e * s * Ft / h + e * c * h / (rho * rho).
Proof.
  unfold e', ta'.
  assert (R : rho <> 0) by (unfold rho; apply Rmult_integral_contrapositive_currified; [exact Hp|apply Rinv_neq_0_compat; exact Hw]).
  clearbody rho. transitivity (p * (s * s + c * c) * Fr / h + rho * e * s * Ft / h + e * c * h / (rho * rho)).
  - field. auto.
  - rewrite Hs. field. auto.
Qed.
End KepAlg.
Lemma ka3 (h a e c s Fr Ft : R) : h <> 0 -> a <> 0 -> 1 - e * e <> 0 -> 1 + e * c <> 0 ->
  let p := a * (1 - e * e) in let rho := p / (1 + e * c) in
  (2 * (a * a) / h * e * s * Fr + 2 * (a * a) / h * p / rho * Ft) * (1 - e * e)
  - a * (2 * e * (p / h * s * Fr + ((p + rho) * c + rho * e) / h * Ft)) = 2 * p * rho * Ft / h.
Proof. intros Hh Ha He Hw p rho. unfold rho, p. field. repeat split; assumption. Qed.
Lemma kep_r_polar a e i ra om ta :
  kep_r a e i ra om ta = scale (a * (1 - e * e) / (1 + e * cos ta))
    (add (scale (cos (om + ta)) (nhat i ra)) (scale (sin (om + ta)) (mhat i ra))).
Proof. unfold kep_r, nhat, mhat, in_plane, add, scale, vec. cbn. f_equal; ring. Qed.
Lemma kep_v_polar mu a e i ra om ta : let c := sqrt (mu / (a * (1 - e * e))) in
  kep_v mu a e i ra om ta =
  add (scale (c * (e * sin ta)) (add (scale (cos (om + ta)) (nhat i ra)) (scale (sin (om + ta)) (mhat i ra))))
      (scale (c * (1 + e * cos ta)) (add (scale (- sin (om + ta)) (nhat i ra)) (scale (cos (om + ta)) (mhat i ra)))).
Proof.
  intros c. unfold kep_v. fold c.
  assert (S : sin om = sin (om + ta) * cos ta - cos (om + ta) * sin ta) by (rewrite <- sin_minus; f_equal; ring).
  assert (C : cos om = cos (om + ta) * cos ta + sin (om + ta) * sin ta) by (rewrite <- cos_minus; f_equal; ring).
  rewrite S, C. clearbody c. unfold nhat, mhat, in_plane, add, scale, vec. cbn. f_equal; ring.
Qed.

Section KepMotion.
Variables (mu : R) (a e i ra om ta : R -> R) (t : R) (Fr Ft Fn : R).
Hypotheses (Hmu : 0 < mu) (Ha : 0 < a t) (He : 0 < e t < 1) (Hi : sin (i t) <> 0).
Let P := a t * (1 - e t * e t).
Let w := 1 + e t * cos (ta t).
Let rho := P / w.
Let h := sqrt (a t * mu * (1 - e t * e t)).
Let c := sqrt (mu / P).
Let th := om t + ta t.
Hypotheses
  (Da : dlim a t (2 * (a t * a t) / h * e t * sin (ta t) * Fr + 2 * (a t * a t) / h * P / rho * Ft))
  (De : dlim e t (P / h * sin (ta t) * Fr + ((P + rho) * cos (ta t) + rho * e t) / h * Ft))
  (Di : dlim i t (rho * cos th / h * Fn))
  (Dra : dlim ra t (rho * sin th / (h * sin (i t)) * Fn))
  (Dom : dlim om t (- P / (e t * h) * cos (ta t) * Fr + (P + rho) * sin (ta t) / (e t * h) * Ft
                    + - rho * sin th * cos (i t) / (h * sin (i t)) * Fn))
  (Dta : dlim ta t (P * cos (ta t) / (e t * h) * Fr + - (P + rho) * sin (ta t) / (e t * h) * Ft + h / (rho * rho))).

Lemma km_w : 0 < w. Proof. apply ecos_pos. lra. Qed.
Lemma km_ee : 0 < 1 - e t * e t. Proof. apply ee_pos. lra. Qed.
Lemma km_P : 0 < P. Proof. apply Rmult_lt_0_compat; [exact Ha|exact km_ee]. Qed.
Lemma km_rho : 0 < rho. Proof. apply Rdiv_lt_0_compat; [exact km_P|exact km_w]. Qed.
Lemma km_h : 0 < h. Proof. apply sqrt_lt_R0. repeat apply Rmult_lt_0_compat; [exact Ha|exact Hmu|exact km_ee]. Qed.
Lemma km_hh : h * h = mu * P.
Proof. unfold h. rewrite sqrt_sqrt; [unfold P; ring|]. apply Rlt_le. repeat apply Rmult_lt_0_compat; [exact Ha|exact Hmu|exact km_ee]. Qed.
Lemma km_c : c = h / P.
Proof.
  pose proof km_P as Pp. pose proof km_h as Hp. unfold c. apply sqrt_pos_of; [apply Rlt_le, Rdiv_lt_0_compat; assumption|].
  replace (h / P * (h / P)) with (h * h / (P * P)) by (field; lra). rewrite km_hh. field. lra.
Qed.
Lemma km_dP : dlim (fun s => a s * (1 - e s * e s)) t (2 * P * rho * Ft / h).
Proof.
  pose proof km_w as W. pose proof km_ee as E. pose proof km_h as H.
  eapply dval; [|exact (d_mult a (fun s => 1 - e s * e s) t _ _ Da (d_minus (fun _ => 1) (fun s => e s * e s) t _ _ (d_const 1 t) (d_mult e e t _ _ De De)))].
  unfold rho, P, w in *. rewrite <- (ka3 h (a t) (e t) (cos (ta t)) (sin (ta t)) Fr Ft) by lra.
  cbv beta zeta. field. repeat split; lra.
Qed.
Lemma km_dw : dlim (fun s => 1 + e s * cos (ta s)) t (2 * P * Ft / h - e t * sin (ta t) * h / (rho * rho)).
Proof.
  pose proof km_w as W. pose proof km_P as Pp. pose proof km_h as H. pose proof km_rho as R0.
  pose proof (ka1 h P (e t) (cos (ta t)) (sin (ta t)) Fr Ft) as K. fold w in K. fold rho in K.
  rewrite <- K by (try apply sincos; unfold w in *; lra).
  eapply dval; [|exact (d_plus (fun _ => 1) (fun s => e s * cos (ta s)) t _ _ (d_const 1 t) (d_mult e (fun s => cos (ta s)) t _ _ De (d_cos ta t _ Dta)))].
  cbv beta. fold w rho. ring.
Qed.
Lemma km_drho : dlim (fun s => a s * (1 - e s * e s) / (1 + e s * cos (ta s))) t (c * (e t * sin (ta t))).
Proof.
  pose proof km_w as W. pose proof km_P as Pp. pose proof km_h as H.
  eapply dval; [|apply (d_div _ _ t _ _ km_dP km_dw); cbv beta; fold w; lra].
  cbv beta. fold P w. rewrite km_c. unfold rho. field. repeat split; lra.
Qed.
Lemma km_dc : dlim (fun s => sqrt (mu / (a s * (1 - e s * e s)))) t (- rho * Ft / P).
Proof.
  pose proof km_P as Pp. pose proof km_h as H.
  assert (MP : 0 < mu / P) by (apply Rdiv_lt_0_compat; assumption).
  eapply dval; [|apply (d_sqrt (fun s => mu / (a s * (1 - e s * e s))) t); [|cbv beta; fold P; exact MP]].
  2:{ apply (d_div (fun _ => mu) _ t _ _ (d_const mu t) km_dP). cbv beta. fold P. lra. }
  cbv beta. fold P. fold c. rewrite km_c. assert (M : mu = h * h / P) by (rewrite km_hh; field; lra).
  rewrite M. field. repeat split; lra.
Qed.
Lemma km_dur : dlim (fun s => sqrt (mu / (a s * (1 - e s * e s))) * (e s * sin (ta s))) t
  (Fr + mu * (e t * cos (ta t)) / (rho * rho)).
Proof.
  pose proof km_w as W. pose proof km_P as Pp. pose proof km_h as H. pose proof km_rho as R0.
  pose proof (ka2 h P (e t) (cos (ta t)) (sin (ta t)) Fr Ft) as K.
  eapply dval; [|exact (d_mult _ _ t _ _ km_dc (d_mult e (fun s => sin (ta s)) t _ _ De (d_sin ta t _ Dta)))].
  cbv beta. fold P. fold c. rewrite km_c. fold w in K. fold rho in K.
  assert (M : mu = h * h / P) by (rewrite km_hh; field; lra).
  match goal with |- ?A * ?B + ?C * (?D * ?E + ?G * (?I * ?J)) = _ =>
    replace (D * E + G * (I * J)) with (P * Fr / h + rho * e t * sin (ta t) * Ft / h + e t * cos (ta t) * h / (rho * rho)) end.
  - rewrite M. field. repeat split; lra.
  - rewrite <- K by (try apply sincos; unfold w in *; lra). ring.
Qed.
Lemma km_dut : dlim (fun s => sqrt (mu / (a s * (1 - e s * e s))) * (1 + e s * cos (ta s))) t
  (Ft - h * e t * sin (ta t) / P * (h / (rho * rho))).
Proof.
  pose proof km_w as W. pose proof km_P as Pp. pose proof km_h as H.
  eapply dval; [|exact (d_mult _ _ t _ _ km_dc km_dw)].
  cbv beta. fold P w. fold c. rewrite km_c. unfold rho. field. repeat split; lra.
Qed.
Lemma kep_newton_lem :
  dvec (fun s => kep_r (a s) (e s) (i s) (ra s) (om s) (ta s)) t (kep_v mu (a t) (e t) (i t) (ra t) (om t) (ta t)) /\
  dvec (fun s => kep_v mu (a s) (e s) (i s) (ra s) (om s) (ta s)) t
    (pushed mu (kep_r (a t) (e t) (i t) (ra t) (om t) (ta t)) (kep_v mu (a t) (e t) (i t) (ra t) (om t) (ta t)) (vec Fr Ft Fn)).
Proof.
  pose proof km_w as W. pose proof km_P as Pp. pose proof km_h as H. pose proof km_rho as R0.
  destruct (d_frame_kep i ra t _ _ Di Dra) as [HA HB].
  destruct (frame_kep (i t) (ra t)) as (F1 & F2 & F3 & F4).
  pose proof (d_plus om ta t _ _ Dom Dta) as HL.
  set (z := rho * sin th / (h * sin (i t)) * Fn * cos (i t)) in *.
  match type of HL with dlim _ _ ?l => set (L' := l) in * end.
  assert (Phi : L' + z = h / (rho * rho)) by (unfold L', z; field; repeat split; lra).
  assert (Perp : rho * cos th / h * Fn * sin (om t + ta t) = rho * sin th / (h * sin (i t)) * Fn * sin (i t) * cos (om t + ta t))
    by (fold th; field; repeat split; lra).
  assert (Cp : 0 < c) by (rewrite km_c; apply Rdiv_lt_0_compat; assumption).
  split.
  - eapply dvec_ext; [intros s; symmetry; apply kep_r_polar|]. rewrite kep_v_polar. cbv zeta. fold P. fold c. fold w.
    apply (dpos (fun s => nhat (i s) (ra s)) (fun s => mhat (i s) (ra s)) (fun s => plane_normal (i s) (ra s)) (fun s => om s + ta s)
      (fun s => a s * (1 - e s * e s) / (1 + e s * cos (ta s))) (fun s => c * (e t * sin (ta t))) (fun s => c * w) t _ _ _ L' _ HA HB HL km_drho).
    + reflexivity.
    + cbv beta. fold P w. fold rho. fold z. rewrite Phi, km_c. unfold rho. field. repeat split; lra.
    + exact Perp.
  - eapply dvec_ext; [intros s; symmetry; apply kep_v_polar|]. rewrite kep_r_polar, kep_v_polar. cbv zeta. fold P. fold c. fold w. fold rho.
    rewrite (rtn_frame _ _ _ _ _ _ _ _ mu (vec Fr Ft Fn) F1 F2 F3 F4);
      [|pose proof (sincos (om t + ta t)); lra|exact R0|apply Rmult_lt_0_compat; assumption].
    cbn [vec v3_0 v3_1 v3_2].
    apply (dvel (fun s => nhat (i s) (ra s)) (fun s => mhat (i s) (ra s)) (fun s => plane_normal (i s) (ra s)) (fun s => om s + ta s)
      (fun s => sqrt (mu / (a s * (1 - e s * e s))) * (e s * sin (ta s))) (fun s => sqrt (mu / (a s * (1 - e s * e s))) * (1 + e s * cos (ta s)))
      t _ _ _ L' _ _ HA HB HL km_dur km_dut); cbv beta; fold P; fold c; fold w; fold z.
    + rewrite Phi, km_c. assert (M : mu = h * h / P) by (rewrite km_hh; field; lra). rewrite M at 1 2. unfold rho, w in *. field. repeat split; lra.
    + rewrite Phi, km_c. field. repeat split; lra.
    + exact Perp.
    + fold th. rewrite km_c. transitivity (h / P * w * (rho / h) * Fn * (sin th * sin th + cos th * cos th)); [field; repeat split; lra|].
      rewrite sincos. unfold rho. field. repeat split; lra.
Qed.
End KepMotion.

(** ** The equations of motion in terms of these formulas *)
Lemma near_gt f t l c : dlim f t l -> c < f t -> near t (fun s => c < f s).
Proof.
  intros D H. apply d_cont in D. destruct (D (f t - c)) as (d & Hd & K); [lra|]. exists d. split; [exact Hd|].
  intros s Hs. destruct (Req_dec s t) as [->|N]; [exact H|].
  assert (X : Rabs (f s - f t) < f t - c). { apply (K s). split; [split; [exact I|congruence]|exact Hs]. }
  apply Rabs_def2 in X. lra.
Qed.
Lemma near_lt f t l c : dlim f t l -> f t < c -> near t (fun s => f s < c).
Proof.
  intros D H. destruct (near_gt (fun s => - f s) t (- l) (- c) (d_opp _ _ _ D)) as (d & Hd & K); [lra|].
  exists d. split; [exact Hd|]. intros s Hs. specialize (K s Hs). cbv beta in K. lra.
Qed.
Lemma near_and t P Q : near t P -> near t Q -> near t (fun s => P s /\ Q s).
Proof.
  intros (d & Hd & K) (d' & Hd' & K'). exists (Rmin d d'). split; [apply Rmin_pos; assumption|].
  intros s Hs. split; [apply K|apply K']; eapply Rlt_le_trans; eauto; [apply Rmin_l|apply Rmin_r].
Qed.
Lemma near_imp t (P Q : R -> Prop) : (forall s, P s -> Q s) -> near t P -> near t Q.
Proof. intros I (d & Hd & K). exists d. split; auto. Qed.

Definition kep_psi (mu a e i ra om ta : R) : psi_t RNum :=
  let p := a * (1 - e * e) in let h := sqrt (a * mu * (1 - e * e)) in let r := p / (1 + e * cos ta) in
  mkpsi (N:=RNum)
    (@mk5 RNum (2 * (a * a) / h * e * sin ta) (p / h * sin ta) 0 0 (- p / (e * h) * cos ta))
    (@mk5 RNum (2 * (a * a) / h * p / r) (((p + r) * cos ta + r * e) / h) 0 0 ((p + r) * sin ta / (e * h)))
    (@mk5 RNum 0 0 (r * cos (om + ta) / h) (r * sin (om + ta) / (h * sin i)) (- r * sin (om + ta) * cos i / (h * sin i))).
Lemma hh_r mu a e ta : 0 < mu -> 0 < a -> 0 < e < 1 ->
  sqrt (a * mu * (1 - e * e)) * sqrt (a * mu * (1 - e * e)) / (mu * (1 + e * cos ta)) = a * (1 - e * e) / (1 + e * cos ta).
Proof.
  intros Hmu Ha He. assert (E : 0 < 1 - e * e) by (apply ee_pos; lra). assert (W : 0 < 1 + e * cos ta) by (apply ecos_pos; lra).
  rewrite sqrt_sqrt; [field; split; lra|]. apply Rlt_le. repeat apply Rmult_lt_0_compat; assumption.
Qed.
Lemma evalpsi_kep p a e i ra om ta : 0 < g_mu p -> 0 < a -> 0 < e < 1 ->
  evalpsi (N:=RNum) (env_of p (elems a e i ra om ta)) SymKep.psi = kep_psi (g_mu p) a e i ra om ta.
Proof.
  intros Hmu Ha He. unfold kep_psi. cbv zeta. rewrite <- (hh_r (g_mu p) a e ta Hmu Ha He), (Rplus_comm om ta). reflexivity.
Qed.
Lemma eom_kep_val t mu a e i ra om ta u P ptrb : 0 < mu -> 0 < a -> 0 < e < 1 ->
  let p := a * (1 - e * e) in let h := sqrt (a * mu * (1 - e * e)) in let r := p / (1 + e * cos ta) in
  eom_kep_gauss (N:=RNum) t (elems a e i ra om ta) (mkparams (N:=RNum) mu u P ptrb) =
  Ok (add_rate (N:=RNum) (psi_dot (N:=RNum) P (vec (p * cos ta / (e * h)) (- (p + r) * sin ta / (e * h)) 0) (add u ptrb)) (h / (r * r))).
Proof.
  intros Hmu Ha He p h r. assert (E : 0 < 1 - e * e) by (apply ee_pos; lra). assert (W : 0 < 1 + e * cos ta) by (apply ecos_pos; lra).
  assert (Pp : 0 < p) by (apply Rmult_lt_0_compat; assumption).
  assert (H : 0 < h) by (apply sqrt_lt_R0; repeat apply Rmult_lt_0_compat; assumption).
  assert (R0 : 0 < r) by (apply Rdiv_lt_0_compat; assumption).
  unfold eom_kep_gauss, elems. cbn [op_mu op_u op_psi op_ptrb].
  rewrite (jdivR _ (mu * (1 + e * cos ta))) by (apply Rgt_not_eq, Rmult_lt_0_compat; assumption). cbn [bind].
  change (sq (N:=RNum) (nsqrt (Num:=RNum) _)) with (sqrt (a * mu * (1 - e * e)) * sqrt (a * mu * (1 - e * e))).
  rewrite hh_r by assumption. fold r.
  rewrite (jdivR _ (e * h)) by (apply Rgt_not_eq, Rmult_lt_0_compat; [tauto|assumption]). cbn [bind].
  rewrite (jdivR _ (e * h)) by (apply Rgt_not_eq, Rmult_lt_0_compat; [tauto|assumption]). cbn [bind].
  rewrite (jdivR _ (r * r)) by (apply Rgt_not_eq, Rmult_lt_0_compat; assumption). cbn [bind]. reflexivity.
Qed.
Lemma Ok_inj {A} (x y : A) : Ok x = Ok y -> x = y.
Proof. intros H. injection H as H. exact H. Qed.
Lemma kep_motion_lem p out oe t u ptrb : 0 < g_mu p -> kep_state oe -> ask (lyap_keplerian (N:=RNum)) p oe = Ok out ->
  exists d, eom_kep_gauss (N:=RNum) t oe (mkparams (N:=RNum) (g_mu p) u (lo_psi out) ptrb) = Ok d /\
    forall path t0, path t0 = oe -> velocity6 path t0 d ->
      newton (fun x => kep2sv (N:=RNum) x (g_mu p)) (g_mu p) (add u ptrb) path t0.
Proof.
  intros Hmu K HO. unfold lyap_keplerian in HO. rewrite ask_lyap in HO. apply Ok_inj in HO. subst out. cbn [lo_psi].
  destruct oe as [a e i ra om ta]. destruct K as (Ha & He & Hi). cbn in a, e, i, ra, om, ta.
  change (@mk6 RNum a e i ra om ta) with (elems a e i ra om ta) in *.
  rewrite evalpsi_kep by assumption. rewrite eom_kep_val by assumption. eexists. split; [reflexivity|].
  intros path t0 Ep V. set (F := add u ptrb) in *. clearbody F. destruct F as [Fr Ft Fn]. cbn in Fr, Ft, Fn.
  change (@mk3 RNum Fr Ft Fn) with (vec Fr Ft Fn).
  set (A := fun s => v6_0 (path s) : R). set (E := fun s => v6_1 (path s) : R). set (I := fun s => v6_2 (path s) : R).
  set (RA := fun s => v6_3 (path s) : R). set (OM := fun s => v6_4 (path s) : R). set (TA := fun s => v6_5 (path s) : R).
  assert (EA : a = A t0) by (unfold A; rewrite Ep; reflexivity). assert (EE : e = E t0) by (unfold E; rewrite Ep; reflexivity).
  assert (EI : i = I t0) by (unfold I; rewrite Ep; reflexivity). assert (ER : ra = RA t0) by (unfold RA; rewrite Ep; reflexivity).
  assert (EO : om = OM t0) by (unfold OM; rewrite Ep; reflexivity). assert (ET : ta = TA t0) by (unfold TA; rewrite Ep; reflexivity).
  destruct V as (D0 & D1 & D2 & D3 & D4 & D5).
  change (dlim A t0 (v6_0 (add_rate (N:=RNum) (psi_dot (N:=RNum) (kep_psi (g_mu p) a e i ra om ta) (vec (a * (1 - e * e) * cos ta / (e * sqrt (a * g_mu p * (1 - e * e)))) (- (a * (1 - e * e) + a * (1 - e * e) / (1 + e * cos ta)) * sin ta / (e * sqrt (a * g_mu p * (1 - e * e)))) 0) (vec Fr Ft Fn)) (sqrt (a * g_mu p * (1 - e * e)) / (a * (1 - e * e) / (1 + e * cos ta) * (a * (1 - e * e) / (1 + e * cos ta))))))) in D0.
  exists (fun s => kep_r (A s) (E s) (I s) (RA s) (OM s) (TA s)), (fun s => kep_v (g_mu p) (A s) (E s) (I s) (RA s) (OM s) (TA s)).
  split.
  - refine (near_imp _ _ _ _ (near_and _ _ _ (near_gt A t0 _ 0 D0 _) (near_and _ _ _ (near_gt E t0 _ 0 D1 _) (near_lt E t0 _ 1 D1 _)))); [|rewrite <- EA; exact Ha|rewrite <- EE; apply He|rewrite <- EE; apply He].
    intros s (H1 & H2 & H3). rewrite <- kep2sv_closed by (try assumption; lra). f_equal. unfold A, E, I, RA, OM, TA, elems. destruct (path s); reflexivity.
  - cbv beta. apply kep_newton_lem; rewrite <- ?EA, <- ?EE, <- ?EI, <- ?ER, <- ?EO, <- ?ET; try assumption; try lra;
      unfold kep_psi, add_rate, psi_dot, dot3, vec in *; cbn in D0, D1, D2, D3, D4, D5;
      [eapply dval; [|exact D0]|eapply dval; [|exact D1]|eapply dval; [|exact D2]|eapply dval; [|exact D3]|eapply dval; [|exact D4]|eapply dval; [|exact D5]];
      change (@eq (@car RNum)) with (@eq R); ring.
Qed.

(** ** Equinoctial elements *)
Definition fhat (h k : R) : vec3 RNum := scale (/ (1 + h * h + k * k)) (vec (1 + h * h - k * k) (2 * h * k) (- 2 * k)).
Definition ghat (h k : R) : vec3 RNum := scale (/ (1 + h * h + k * k)) (vec (2 * h * k) (1 - h * h + k * k) (2 * h)).
Definition what (h k : R) : vec3 RNum := scale (/ (1 + h * h + k * k)) (vec (2 * k) (- 2 * h) (1 - h * h - k * k)).
Lemma frame_mee h k : cross (fhat h k) (ghat h k) = what h k /\ dot (fhat h k) (fhat h k) = 1 /\
  dot (ghat h k) (ghat h k) = 1 /\ dot (fhat h k) (ghat h k) = 0.
Proof.
  pose proof (one_sq_pos h k) as S2. unfold fhat, ghat, what, cross, dot, scale, vec. cbn.
  repeat split; try (f_equal); field; lra.
Qed.
Lemma d_quot_S (n : R -> R) (h k : R -> R) t n' h' k' : dlim n t n' -> dlim h t h' -> dlim k t k' ->
  dlim (fun s => / (1 + h s * h s + k s * k s) * n s) t
   (/ (1 + h t * h t + k t * k t) * (n' - 2 * (h t * h' + k t * k') / (1 + h t * h t + k t * k t) * n t)).
Proof.
  intros Dn Dh Dk. pose proof (one_sq_pos (h t) (k t)) as S2.
  apply (dext (fun s => n s / (1 + h s * h s + k s * k s))); [intros s; unfold Rdiv; ring|].
  eapply dval; [|eapply (d_div n (fun s => 1 + h s * h s + k s * k s) t _ _ Dn); [|lra]].
  2:{ exact (d_plus _ _ t _ _ (d_plus _ _ t _ _ (d_const 1 t) (d_mult h h t _ _ Dh Dh)) (d_mult k k t _ _ Dk Dk)). }
  cbv beta. field. lra.
Qed.
Lemma d_frame_mee (h k : R -> R) t h' k' : dlim h t h' -> dlim k t k' ->
  let S2 := 1 + h t * h t + k t * k t in
  dvec (fun s => fhat (h s) (k s)) t
    (sub (scale (2 * (k t * h' - h t * k') / S2) (ghat (h t) (k t))) (scale (2 * k' / S2) (what (h t) (k t)))) /\
  dvec (fun s => ghat (h s) (k s)) t
    (sub (scale (2 * h' / S2) (what (h t) (k t))) (scale (2 * (k t * h' - h t * k') / S2) (fhat (h t) (k t)))).
Proof.
  intros Dh Dk S2. pose proof (one_sq_pos (h t) (k t)) as HS. fold S2 in HS.
  pose proof (d_mult h h t _ _ Dh Dh) as Dhh. pose proof (d_mult k k t _ _ Dk Dk) as Dkk. pose proof (d_mult _ k t _ _ (d_mult _ h t _ _ (d_const 2 t) Dh) Dk) as Dhk.
  unfold fhat, ghat, what, sub, scale, vec.
  split; (split; [|split]); cbn [v3_0 v3_1 v3_2 v3sub v3scal];
    change (nmul (Num:=RNum)) with Rmult; change (nsub (Num:=RNum)) with Rminus;
    (eapply dval; [|apply d_quot_S; [|exact Dh|exact Dk]]).
  all: try first [exact Dhk | exact (d_minus _ _ t _ _ (d_plus _ _ t _ _ (d_const 1 t) Dhh) Dkk)
    | exact (d_plus _ _ t _ _ (d_minus _ _ t _ _ (d_const 1 t) Dhh) Dkk)
    | exact (d_mult _ _ t _ _ (d_const 2 t) Dh) | exact (d_mult _ _ t _ _ (d_const (-2) t) Dk)].
  all: cbv beta; change (@eq (@car RNum)) with (@eq R); fold S2; set (hh := h t) in *; set (kk := k t) in *; clearbody hh kk;
    unfold S2 in *; clear - HS; field; lra.
Qed.

(** positions and velocities from the semilatus rectum *)
Definition rad (P f g h k l : R) : vec3 RNum :=
  scale (P / (1 + f * cos l + g * sin l)) (add (scale (cos l) (fhat h k)) (scale (sin l) (ghat h k))).
Definition vel (mu P f g h k l : R) : vec3 RNum := let c := sqrt (mu / P) in
  add (scale (c * (f * sin l - g * cos l)) (add (scale (cos l) (fhat h k)) (scale (sin l) (ghat h k))))
      (scale (c * (1 + f * cos l + g * sin l)) (add (scale (- sin l) (fhat h k)) (scale (cos l) (ghat h k)))).
Lemma rad_mee a f g h k l : f * f + g * g < 1 -> rad (a * (1 - f * f - g * g)) f g h k l = mee_r a f g h k l.
Proof.
  intros He. pose proof (one_sq_pos h k) as S2. unfold rad, mee_r, fhat, ghat, add, scale, vec. cbn.
  unfold Rdiv. f_equal; ring.
Qed.
Lemma vel_mee mu a f g h k l : vel mu (a * (1 - f * f - g * g)) f g h k l = mee_v mu a f g h k l.
Proof.
  unfold vel, mee_v. set (c := sqrt _). clearbody c. pose proof (one_sq_pos h k) as S2. pose proof (sincos l) as C.
  unfold fhat, ghat, add, scale, vec. cbn. set (x := cos l) in *. set (y := sin l) in *. clearbody x y.
  set (i := / (1 + h * h + k * k)). unfold Rdiv. fold i. clearbody i.
  f_equal; change (@eq (@car RNum)) with (@eq R); clear S2; nsatz.
Qed.

Section MeeMotion.
Variables (mu : R) (Pf f g h k l : R -> R) (t : R) (Fr Ft Fn del : R).
Let P := Pf t.
Let c0 := cos (l t).
Let s0 := sin (l t).
Let w := 1 + f t * c0 + g t * s0.
Let us := f t * s0 - g t * c0.
Let rho := P / w.
Let q := sqrt (P / mu).
Let c := sqrt (mu / P).
Let S2 := 1 + h t * h t + k t * k t.
Let X := h t * s0 - k t * c0.
Hypotheses (Hmu : 0 < mu) (HP : 0 < P) (He : f t * f t + g t * g t < 1).
Hypotheses
  (DP : dlim Pf t (2 * q * rho * Ft + del))
  (Df : dlim f t (q * s0 * Fr + q / w * ((w + 1) * c0 + f t) * Ft + q / w * (- g t * X) * Fn))
  (Dg : dlim g t (- q * c0 * Fr + q / w * ((w + 1) * s0 + g t) * Ft + q / w * (f t * X) * Fn))
  (Dh : dlim h t (q / w * (1 / 2) * S2 * c0 * Fn))
  (Dk : dlim k t (q / w * (1 / 2) * S2 * s0 * Fn))
  (Dl : dlim l t (q / w * X * Fn + sqrt (mu * P) * (w / P * (w / P)))).
Lemma mm_w : 0 < w.
Proof.
  pose proof (sincos (l t)) as C. fold c0 s0 in C. unfold w.
  assert (Hx : (f t * c0 + g t * s0) * (f t * c0 + g t * s0) < 1).
  { apply Rle_lt_trans with (f t * f t + g t * g t); [|exact He].
    replace ((f t * c0 + g t * s0) * (f t * c0 + g t * s0)) with ((f t * f t + g t * g t) * (s0 * s0 + c0 * c0) - us * us) by (unfold us; ring).
    rewrite C. pose proof (Rle_0_sqr us) as U. unfold Rsqr in U. lra. }
  nra.
Qed.
Lemma mm_rho : 0 < rho. Proof. apply Rdiv_lt_0_compat; [exact HP|exact mm_w]. Qed.
Lemma mm_q : 0 < q. Proof. apply sqrt_lt_R0, Rdiv_lt_0_compat; assumption. Qed.
Lemma mm_qq : P = mu * (q * q).
Proof. unfold q. rewrite sqrt_sqrt; [field; lra|]. apply Rlt_le, Rdiv_lt_0_compat; assumption. Qed.
Lemma mm_H : sqrt (mu * P) = mu * q.
Proof.
  pose proof mm_q as Q. apply sqrt_pos_of; [apply Rlt_le, Rmult_lt_0_compat; assumption|].
  rewrite mm_qq. ring.
Qed.
Lemma mm_c : c = / q.
Proof.
  pose proof mm_q as Q. apply sqrt_pos_of; [apply Rlt_le, Rinv_0_lt_compat, Q|]. rewrite mm_qq. field. lra.
Qed.
Lemma mm_dw : dlim (fun s => 1 + f s * cos (l s) + g s * sin (l s)) t (2 * q * Ft - us * (w * w) / (mu * (q * q * q))).
Proof.
  pose proof mm_w as W. pose proof mm_q as Q. pose proof (sincos (l t)) as C. fold c0 s0 in C.
  eapply dval; [|exact (d_plus _ _ t _ _ (d_plus _ _ t _ _ (d_const 1 t) (d_mult f (fun s => cos (l s)) t _ _ Df (d_cos l t _ Dl))) (d_mult g (fun s => sin (l s)) t _ _ Dg (d_sin l t _ Dl)))].
  cbv beta. fold c0 s0. rewrite mm_H, mm_qq.
  transitivity (q / w * ((w + 1) * (s0 * s0 + c0 * c0) + (f t * c0 + g t * s0)) * Ft - us * (w * w) / (mu * (q * q * q))).
  - unfold us. field. repeat split; lra.
  - rewrite C. replace (f t * c0 + g t * s0) with (w - 1) by (unfold w; ring). field. repeat split; lra.
Qed.
Lemma mm_dus : dlim (fun s => f s * sin (l s) - g s * cos (l s)) t
  (q * Fr + q / w * us * Ft + (w - 1) * (w * w) / (mu * (q * q * q))).
Proof.
  pose proof mm_w as W. pose proof mm_q as Q. pose proof (sincos (l t)) as C. fold c0 s0 in C.
  eapply dval; [|exact (d_minus _ _ t _ _ (d_mult f (fun s => sin (l s)) t _ _ Df (d_sin l t _ Dl)) (d_mult g (fun s => cos (l s)) t _ _ Dg (d_cos l t _ Dl)))].
  cbv beta. fold c0 s0. rewrite mm_H, mm_qq.
  replace (w - 1) with (f t * c0 + g t * s0) by (unfold w; ring).
  transitivity (q * (s0 * s0 + c0 * c0) * Fr + q / w * us * Ft + (f t * c0 + g t * s0) * (w * w) / (mu * (q * q * q))).
  - unfold us. field. repeat split; lra.
  - rewrite C. field. repeat split; lra.
Qed.
Lemma mm_drho : dlim (fun s => Pf s / (1 + f s * cos (l s) + g s * sin (l s))) t (c * us + del / w).
Proof.
  pose proof mm_w as W. pose proof mm_q as Q.
  eapply dval; [|apply (d_div _ _ t _ _ DP mm_dw); cbv beta; fold c0 s0; fold w; lra].
  cbv beta. fold P c0 s0. fold w. rewrite mm_c. unfold rho. rewrite mm_qq. field. repeat split; lra.
Qed.
Lemma mee_newton_lem : del = 0 ->
  dvec (fun s => rad (Pf s) (f s) (g s) (h s) (k s) (l s)) t (vel mu P (f t) (g t) (h t) (k t) (l t)) /\
  dvec (fun s => vel mu (Pf s) (f s) (g s) (h s) (k s) (l s)) t
    (pushed mu (rad P (f t) (g t) (h t) (k t) (l t)) (vel mu P (f t) (g t) (h t) (k t) (l t)) (vec Fr Ft Fn)).
Proof.
  intros Del. pose proof mm_w as W. pose proof mm_q as Q. pose proof mm_rho as R0. pose proof (sincos (l t)) as C. fold c0 s0 in C.
  pose proof (one_sq_pos (h t) (k t)) as HS. fold S2 in HS.
  assert (Dc : dlim (fun s => sqrt (mu / Pf s)) t (- / (mu * (q * q)) * (P / w) * Ft)).
  { eapply dval; [|apply (d_sqrt (fun s => mu / Pf s) t); [|apply Rdiv_lt_0_compat; [exact Hmu|exact HP]]].
    2:{ apply (d_div (fun _ => mu) Pf t _ _ (d_const mu t) DP). fold P. lra. }
    cbv beta. fold P. fold c. rewrite mm_c, Del. unfold rho. rewrite mm_qq. field. repeat split; lra. }
  destruct (d_frame_mee h k t _ _ Dh Dk) as [HA HB]. fold S2 in HA, HB.
  destruct (frame_mee (h t) (k t)) as (F1 & F2 & F3 & F4).
  match type of HA with dvec _ _ (sub (scale ?zz _) (scale ?yy _)) => set (z := zz) in *; set (y := yy) in * end.
  match type of HB with dvec _ _ (sub (scale ?xx _) _) => set (x := xx) in * end.
  match type of Dl with dlim _ _ ?v => set (L' := v) in * end.
  assert (Phi : L' + z = w * w / (mu * (q * q * q))).
  { unfold L', z, X. rewrite mm_H, mm_qq. field. repeat split; lra. }
  assert (Perp : x * sin (l t) = y * cos (l t)) by (unfold x, y; fold c0 s0; field; repeat split; lra).
  assert (Cp : 0 < c) by (rewrite mm_c; apply Rinv_0_lt_compat, Q).
  split.
  - apply (dpos (fun s => fhat (h s) (k s)) (fun s => ghat (h s) (k s)) (fun s => what (h s) (k s)) l
      (fun s => Pf s / (1 + f s * cos (l s) + g s * sin (l s))) (fun _ => c * us) (fun _ => c * w) t _ _ _ L' _ HA HB Dl mm_drho).
    + rewrite Del. field. lra.
    + cbv beta. fold P c0 s0. fold w. fold rho. rewrite Phi, mm_c. unfold rho. rewrite mm_qq. field. repeat split; lra.
    + exact Perp.
  - unfold rad at 1. unfold vel at 2. cbv zeta. fold P c0 s0. fold w us rho c.
    rewrite (rtn_frame _ _ _ _ _ _ _ _ mu (vec Fr Ft Fn) F1 F2 F3 F4); [|lra|exact R0|apply Rmult_lt_0_compat; assumption].
    cbn [vec v3_0 v3_1 v3_2].
    apply (dvel (fun s => fhat (h s) (k s)) (fun s => ghat (h s) (k s)) (fun s => what (h s) (k s)) l
      (fun s => sqrt (mu / Pf s) * (f s * sin (l s) - g s * cos (l s))) (fun s => sqrt (mu / Pf s) * (1 + f s * cos (l s) + g s * sin (l s)))
      t _ _ _ L' _ _ HA HB Dl (d_mult _ _ t _ _ Dc mm_dus) (d_mult _ _ t _ _ Dc mm_dw)); cbv beta; fold P c0 s0; fold c w us.
    + rewrite Phi, mm_c. unfold rho. rewrite mm_qq. field. repeat split; lra.
    + rewrite Phi, mm_c. rewrite mm_qq. field. repeat split; lra.
    + exact Perp.
    + unfold x, y. rewrite mm_c. transitivity (Fn * (s0 * s0 + c0 * c0)); [|rewrite C; ring]. field. repeat split; lra.
Qed.
(** A wrong rate of the semilatus rectum moves the body with the wrong speed. *)
Lemma mee_wrong_lem (v : vec3 RNum) : del <> 0 -> v = vel mu P (f t) (g t) (h t) (k t) (l t) ->
  ~ dvec (fun s => rad (Pf s) (f s) (g s) (h s) (k s) (l s)) t v.
Proof.
  intros Hd -> (D0 & D1 & D2). pose proof mm_w as W. pose proof mm_q as Q. pose proof mm_rho as R0. pose proof (sincos (l t)) as C. fold c0 s0 in C.
  set (r := fun s => rad (Pf s) (f s) (g s) (h s) (k s) (l s)) in *.
  pose proof (d_plus _ _ t _ _ (d_plus _ _ t _ _ (d_mult _ _ t _ _ D0 D0) (d_mult _ _ t _ _ D1 D1)) (d_mult _ _ t _ _ D2 D2)) as D.
  pose proof (d_mult _ _ t _ _ mm_drho mm_drho) as D'.
  destruct (frame_mee (h t) (k t)) as (_ & F2 & F3 & F4).
  assert (NN : forall s, v3_0 (r s) * v3_0 (r s) + v3_1 (r s) * v3_1 (r s) + v3_2 (r s) * v3_2 (r s) =
    (Pf s / (1 + f s * cos (l s) + g s * sin (l s))) * (Pf s / (1 + f s * cos (l s) + g s * sin (l s)))).
  { intros s. destruct (frame_mee (h s) (k s)) as (_ & G2 & G3 & G4). unfold r, rad. set (rr := Pf s / _). clearbody rr.
    pose proof (sincos (l s)) as Cs. clear - G2 G3 G4 Cs. destruct (fhat (h s) (k s)) as [a1 a2 a3], (ghat (h s) (k s)) as [b1 b2 b3].
    unfold dot, add, scale in *. cbn in *. nsatz. }
  assert (E : (v3_0 (r t) * v3_0 (vel mu P (f t) (g t) (h t) (k t) (l t)) + v3_1 (r t) * v3_1 (vel mu P (f t) (g t) (h t) (k t) (l t))
      + v3_2 (r t) * v3_2 (vel mu P (f t) (g t) (h t) (k t) (l t))) = rho * (c * us)).
  { unfold r, rad, vel. cbv zeta. fold P c0 s0. fold w us rho c. clear - F2 F3 F4 C.
    set (ut := c * w). set (ur := c * us). clearbody rho ut ur. destruct (fhat (h t) (k t)) as [a1 a2 a3], (ghat (h t) (k t)) as [b1 b2 b3].
    unfold dot, add, scale in *. cbn in *. clearbody c0 s0. nsatz. }
  apply (dext _ _ t _ NN) in D. pose proof (uniqueness_limite _ _ _ _ D D') as U. cbv beta in U. fold P c0 s0 in U. fold w rho in U.
  set (vv := vel mu P (f t) (g t) (h t) (k t) (l t)) in *. clearbody vv. clear D D' D0 D1 D2 NN.
  assert (Z : rho * (del / w) = 0).
  { change (rad P (f t) (g t) (h t) (k t) (l t)) with (r t) in U. clear - U E.
    generalize dependent (r t). intros [x0 x1 x2] E U. destruct vv as [y0 y1 y2]. cbn [v3_0 v3_1 v3_2] in *. cbn in x0, x1, x2, y0, y1, y2.
    set (zz := del / w) in *. set (b := c * us) in *. clearbody rho zz b. lra. }
  apply Hd. apply Rmult_integral in Z. destruct Z as [Z|Z]; [lra|]. apply (Rmult_eq_reg_r (/ w)); [unfold Rdiv in Z; lra|]. apply Rinv_neq_0_compat. lra.
Qed.
End MeeMotion.

(** The quadrant lost by atan(g/f): the angle is right for f > 0 and off by pi for f < 0. *)
Definition side (f : R) : R := if Rlt_dec 0 f then 1 else -1.
Lemma atan_quadrant f g l : f <> 0 ->
  sqrt (f * f + g * g) * sin (l - atan (g / f)) = side f * (f * sin l - g * cos l) /\
  sqrt (f * f + g * g) * cos (l - atan (g / f)) = side f * (f * cos l + g * sin l).
Proof.
  intros Hf. rewrite sin_minus, cos_minus, cos_atan, sin_atan.
  set (m := side f * f). assert (M : 0 < m) by (unfold m, side; destruct (Rlt_dec 0 f); lra).
  assert (Q : sqrt (1 + (g / f)²) = sqrt (f * f + g * g) / m).
  { apply sqrt_pos_of.
    - apply Rmult_le_pos; [apply sqrt_pos|apply Rlt_le, Rinv_0_lt_compat, M].
    - replace (sqrt (f * f + g * g) / m * (sqrt (f * f + g * g) / m)) with (sqrt (f * f + g * g) * sqrt (f * f + g * g) / (m * m)) by (field; lra).
      rewrite sqrt_sqrt by nra. unfold Rsqr. unfold m, side. destruct (Rlt_dec 0 f); field; lra. }
  rewrite Q. assert (E : 0 < sqrt (f * f + g * g)) by (apply sqrt_lt_R0; nra).
  assert (SS : side f * side f = 1) by (unfold side; destruct (Rlt_dec 0 f); lra).
  assert (SM : m / f = side f) by (unfold m; field; exact Hf).
  split.
  - transitivity (sin l * m - cos l * g * (m / f)); [field; repeat split; lra|]. rewrite SM. unfold m. ring.
  - transitivity (cos l * m + sin l * g * (m / f)); [field; repeat split; lra|]. rewrite SM. unfold m. ring.
Qed.

Definition mee_psi (mu a f g h k l : R) : psi_t RNum :=
  let p := a * (1 - f * f - g * g) in let q := sqrt (p / mu) in let w := 1 + f * cos l + g * sin l in
  let x := h * sin l - k * cos l in let s2 := 1 + h * h + k * k in
  mkpsi (N:=RNum)
    (@mk5 RNum (2 * (a * a) / (mu * q) * (side f * (f * sin l - g * cos l))) (q * sin l) (- q * cos l) 0 0)
    (@mk5 RNum (2 * (a * a) / (mu * q) * (1 + side f * (w - 1))) (q / w * ((w + 1) * cos l + f)) (q / w * ((w + 1) * sin l + g)) 0 0)
    (@mk5 RNum 0 (q / w * (- g * x)) (q / w * (f * x)) (q / w * (1 / 2) * s2 * cos l) (q / w * (1 / 2) * s2 * sin l)).
Lemma w_bound f g l : f * f + g * g < 1 -> -1 < f * cos l + g * sin l < 1.
Proof.
  intros He. pose proof (sincos l) as C.
  assert (Hx : (f * cos l + g * sin l) * (f * cos l + g * sin l) < 1).
  { apply Rle_lt_trans with (f * f + g * g); [|exact He].
    replace ((f * cos l + g * sin l) * (f * cos l + g * sin l)) with ((f * f + g * g) * (sin l * sin l + cos l * cos l) - (f * sin l - g * cos l) * (f * sin l - g * cos l)) by ring.
    rewrite C. pose proof (Rle_0_sqr (f * sin l - g * cos l)) as U. unfold Rsqr in U. lra. }
  split; nra.
Qed.
Lemma w_side f g l : f * f + g * g < 1 -> 0 < 1 + side f * (f * cos l + g * sin l).
Proof. intros He. pose proof (w_bound f g l He). unfold side. destruct (Rlt_dec 0 f); lra. Qed.
Lemma mee_H mu a f g : 0 < mu -> 0 < a -> f * f + g * g < 1 ->
  let e := sqrt (f * f + g * g) in sqrt (a * mu * (1 - e * e)) = mu * sqrt (a * (1 - f * f - g * g) / mu) /\
  sqrt (a * mu * (1 - e * e)) * sqrt (a * mu * (1 - e * e)) = mu * (a * (1 - f * f - g * g)).
Proof.
  intros Hmu Ha He e. assert (P : 0 < a * (1 - f * f - g * g)) by (apply Rmult_lt_0_compat; lra).
  assert (EE : e * e = f * f + g * g) by (unfold e; apply sqrt_sqrt; nra). rewrite EE.
  assert (Q : 0 < a * (1 - f * f - g * g) / mu) by (apply Rdiv_lt_0_compat; assumption).
  assert (X : 0 <= a * mu * (1 - (f * f + g * g))).
  { replace (a * mu * (1 - (f * f + g * g))) with (mu * (a * (1 - f * f - g * g))) by ring. apply Rlt_le, Rmult_lt_0_compat; assumption. }
  split.
  - apply sqrt_pos_of; [apply Rmult_le_pos; [lra|apply sqrt_pos]|].
    replace (mu * sqrt (a * (1 - f * f - g * g) / mu) * (mu * sqrt (a * (1 - f * f - g * g) / mu))) with
      (mu * mu * (sqrt (a * (1 - f * f - g * g) / mu) * sqrt (a * (1 - f * f - g * g) / mu))) by ring.
    rewrite sqrt_sqrt by lra. field. lra.
  - rewrite sqrt_sqrt by exact X. ring.
Qed.
Lemma evalpsi_mee p a f g h k l : 0 < g_mu p -> 0 < a -> f * f + g * g < 1 -> f <> 0 ->
  evalpsi (N:=RNum) (env_of p (elems a f g h k l)) SymMee.psi = mee_psi (g_mu p) a f g h k l.
Proof.
  intros Hmu Ha He Hf. destruct (mee_H (g_mu p) a f g Hmu Ha He) as [H1 H2]. destruct (atan_quadrant f g l Hf) as [A1 A2].
  pose proof (w_side f g l He) as W. set (mu := g_mu p) in *. set (P := a * (1 - f * f - g * g)) in *.
  assert (HP : 0 < P) by (apply Rmult_lt_0_compat; lra).
  set (e := sqrt (f * f + g * g)) in *. set (H := sqrt (a * mu * (1 - e * e))) in *.
  assert (Q : 0 < sqrt (P / mu)) by (apply sqrt_lt_R0, Rdiv_lt_0_compat; assumption).
  unfold mee_psi. cbv zeta. fold P. set (q := sqrt (P / mu)) in *.
  transitivity (mkpsi (N:=RNum)
    (@mk5 RNum (2 * (a * a) / H * e * sin (l - atan (g / f))) (q * sin l) (- q * cos l) 0 0)
    (@mk5 RNum (2 * (a * a) / H * P / (H * H / (mu * (1 + e * cos (l - atan (g / f)))))) (q / (1 + f * cos l + g * sin l) * (((1 + f * cos l + g * sin l) + 1) * cos l + f)) (q / (1 + f * cos l + g * sin l) * (((1 + f * cos l + g * sin l) + 1) * sin l + g)) 0 0)
    (@mk5 RNum 0 (q / (1 + f * cos l + g * sin l) * (- g * (h * sin l - k * cos l))) (q / (1 + f * cos l + g * sin l) * (f * (h * sin l - k * cos l))) (q / (1 + f * cos l + g * sin l) * (1 / 2) * (1 + h * h + k * k) * cos l) (q / (1 + f * cos l + g * sin l) * (1 / 2) * (1 + h * h + k * k) * sin l))).
  - reflexivity.
  - do 2 f_equal; rewrite ?H2, ?Rmult_assoc, ?A1, ?A2, ?H1.
    + field. lra.
    + replace (1 + f * cos l + g * sin l - 1) with (f * cos l + g * sin l) by ring. field. repeat split; lra.
Qed.
Lemma eom_mee_val t mu a f g h k l u P ptrb : 0 < mu -> 0 < a -> f * f + g * g < 1 -> f <> 0 ->
  let p := a * (1 - f * f - g * g) in let q := sqrt (p / mu) in let w := 1 + f * cos l + g * sin l in
  eom_mee_with_a_gauss (N:=RNum) t (elems a f g h k l) (mkparams (N:=RNum) mu u P ptrb) =
  Ok (add_rate (N:=RNum) (psi_dot (N:=RNum) P (vec 0 0 (q / w * (h * sin l - k * cos l))) (add u ptrb)) (sqrt (mu * p) * (w / p * (w / p)))).
Proof.
  intros Hmu Ha He Hf p q w. destruct (atan_quadrant f g l Hf) as [_ A2].
  pose proof (w_side f g l He) as W. pose proof (w_bound f g l He) as W'.
  assert (HP : 0 < p) by (apply Rmult_lt_0_compat; lra). assert (Hw : 0 < w) by (unfold w; lra).
  unfold eom_mee_with_a_gauss, elems. cbn [op_mu op_u op_psi op_ptrb].
  rewrite (jdivR g f Hf). cbn [bind].
  rewrite (jdivR _ (mu * (1 + sqrt (f * f + g * g) * cos (l - atan (g / f))))) by (rewrite A2; apply Rgt_not_eq, Rmult_lt_0_compat; assumption).
  cbn [bind]. rewrite (jdivR _ mu) by lra. cbn [bind].
  rewrite (jdivR _ w) by lra. cbn [bind].
  assert (EP : a * (1 - sqrt (f * f + g * g) * sqrt (f * f + g * g)) = p) by (rewrite sqrt_sqrt by nra; unfold p; ring).
  change (nmul (Num:=RNum) a (nsub (Num:=RNum) (nofZ (Num:=RNum) 1) (sq (N:=RNum) (nsqrt (Num:=RNum) (nadd (Num:=RNum) (sq (N:=RNum) f) (sq (N:=RNum) g)))))) with (a * (1 - sqrt (f * f + g * g) * sqrt (f * f + g * g))).
  rewrite EP. rewrite (jdivR _ p) by lra. cbn [bind]. reflexivity.
Qed.
Lemma eom_mee_f0 t mu a g h k l u P ptrb :
  eom_mee_with_a_gauss (N:=RNum) t (elems a 0 g h k l) (mkparams (N:=RNum) mu u P ptrb) = Err ZeroDivisionError.
Proof. unfold eom_mee_with_a_gauss, elems. cbn [op_mu op_u op_psi op_ptrb]. rewrite jdivR0. reflexivity. Qed.
(** rate of the semilatus rectum *)
Lemma mee_dP (a f g : R -> R) mu c s t a' f' g' Fr Ft X3 : 
  let e2 := f t * f t + g t * g t in let P := a t * (1 - f t * f t - g t * g t) in let q := sqrt (P / mu) in
  let w := 1 + f t * c + g t * s in
  s * s + c * c = 1 -> 0 < mu -> 0 < a t -> e2 < 1 -> 0 < w ->
  f' = q * s * Fr + q / w * ((w + 1) * c + f t) * Ft + q / w * (- g t * X3) ->
  g' = - q * c * Fr + q / w * ((w + 1) * s + g t) * Ft + q / w * (f t * X3) ->
  dlim a t a' -> dlim f t f' -> dlim g t g' ->
  dlim (fun x => a x * (1 - f x * f x - g x * g x)) t
    (2 * q * (P / w) * Ft + (a' - 2 * (a t * a t) / (mu * q) * ((f t * s - g t * c) * Fr + w * Ft)) * (1 - f t * f t - g t * g t)).
Proof.
  intros e2 P q w C Hmu Ha He Hw Ef Eg Da Df Dg.
  assert (HP : 0 < P) by (apply Rmult_lt_0_compat; [exact Ha|unfold e2 in He; lra]).
  assert (Q : 0 < q) by (apply sqrt_lt_R0, Rdiv_lt_0_compat; assumption).
  assert (QQ : q * q = P / mu) by (apply sqrt_sqrt, Rlt_le, Rdiv_lt_0_compat; assumption).
  eapply dval; [|exact (d_mult a _ t _ _ Da (d_minus _ _ t _ _ (d_minus _ _ t _ _ (d_const 1 t) (d_mult f f t _ _ Df Df)) (d_mult g g t _ _ Dg Dg)))].
  cbv beta.
  assert (EL : f t * f' + g t * g' = q * (f t * s - g t * c) * Fr + q / w * (w * w - (1 - e2)) * Ft).
  { rewrite Ef, Eg. transitivity (q * (f t * s - g t * c) * Fr + q / w * ((w + 1) * (f t * c + g t * s) + e2) * Ft); [unfold e2; field; lra|].
    replace (f t * c + g t * s) with (w - 1) by (unfold w; ring). field. lra. }
  replace (a' * (1 - f t * f t - g t * g t) + a t * (0 - (f' * f t + f t * f') - (g' * g t + g t * g')))
    with (a' * (1 - f t * f t - g t * g t) - 2 * a t * (f t * f' + g t * g')) by ring.
  rewrite EL. assert (PM : P = mu * (q * q)) by (rewrite QQ; field; lra).
  assert (KE : 1 - f t * f t - g t * g t = mu * (q * q) / a t) by (rewrite <- PM; unfold P; field; lra).
  replace (1 - e2) with (1 - f t * f t - g t * g t) by (unfold e2; ring). rewrite KE, PM. field. repeat split; lra.
Qed.

Section MeeBind.
Variables (mu a f g h k l Fr Ft Fn : R) (path : R -> vec6 RNum) (t0 : R) (d : vec6 RNum).
Let A := fun s => v6_0 (path s) : R.
Let F := fun s => v6_1 (path s) : R.
Let G := fun s => v6_2 (path s) : R.
Let H := fun s => v6_3 (path s) : R.
Let K := fun s => v6_4 (path s) : R.
Let L := fun s => v6_5 (path s) : R.
Let p := a * (1 - f * f - g * g).
Let q := sqrt (p / mu).
Let w := 1 + f * cos l + g * sin l.
Let X := h * sin l - k * cos l.
Let S2 := 1 + h * h + k * k.
Let del := 2 * (a * a) / (mu * q) * (side f - 1) * ((f * sin l - g * cos l) * Fr + (f * cos l + g * sin l) * Ft) * (1 - f * f - g * g).
Hypotheses (Hmu : 0 < mu) (Ha : 0 < a) (He : f * f + g * g < 1) (Hf : f <> 0).
Hypothesis Ep : path t0 = elems a f g h k l.
Hypothesis V : velocity6 path t0 (add_rate (N:=RNum) (psi_dot (N:=RNum) (mee_psi mu a f g h k l) (vec 0 0 (q / w * X)) (vec Fr Ft Fn)) (sqrt (mu * p) * (w / p * (w / p)))).
Lemma mb_all : 
  dlim (fun s => A s * (1 - F s * F s - G s * G s)) t0 (2 * q * (p / w) * Ft + del) /\
  dlim F t0 (q * sin l * Fr + q / w * ((w + 1) * cos l + f) * Ft + q / w * (- g * X) * Fn) /\
  dlim G t0 (- q * cos l * Fr + q / w * ((w + 1) * sin l + g) * Ft + q / w * (f * X) * Fn) /\
  dlim H t0 (q / w * (1 / 2) * S2 * cos l * Fn) /\ dlim K t0 (q / w * (1 / 2) * S2 * sin l * Fn) /\
  dlim L t0 (q / w * X * Fn + sqrt (mu * p) * (w / p * (w / p))) /\ A t0 = a /\ F t0 = f /\ G t0 = g /\ H t0 = h /\ K t0 = k /\ L t0 = l.
Proof.
  destruct V as (D0 & D1 & D2 & D3 & D4 & D5).
  assert (EA : A t0 = a) by (unfold A; rewrite Ep; reflexivity). assert (EF : F t0 = f) by (unfold F; rewrite Ep; reflexivity).
  assert (EG : G t0 = g) by (unfold G; rewrite Ep; reflexivity). assert (EH : H t0 = h) by (unfold H; rewrite Ep; reflexivity).
  assert (EK : K t0 = k) by (unfold K; rewrite Ep; reflexivity). assert (EL : L t0 = l) by (unfold L; rewrite Ep; reflexivity).
  unfold mee_psi, add_rate, psi_dot, dot3, vec in *. fold p in D0, D1, D2, D3, D4, D5. fold q w X S2 in D0, D1, D2, D3, D4, D5.
  cbn in D0, D1, D2, D3, D4, D5. fold w in D0, D1, D2, D3, D4, D5.
  assert (DF : dlim F t0 (q * sin l * Fr + q / w * ((w + 1) * cos l + f) * Ft + q / w * (- g * X) * Fn)).
  { eapply dval; [|exact D1]. change (@eq (@car RNum)) with (@eq R). ring. }
  assert (DG : dlim G t0 (- q * cos l * Fr + q / w * ((w + 1) * sin l + g) * Ft + q / w * (f * X) * Fn)).
  { eapply dval; [|exact D2]. change (@eq (@car RNum)) with (@eq R). ring. }
  pose proof (w_bound f g l He) as W. assert (Hw : 0 < w) by (unfold w; lra).
  assert (HP : 0 < p) by (apply Rmult_lt_0_compat; lra).
  assert (Q : 0 < q) by (apply sqrt_lt_R0, Rdiv_lt_0_compat; assumption).
  repeat match goal with |- _ /\ _ => split end; try assumption.
  - pose proof (fun a' f' g' => mee_dP A F G mu (cos l) (sin l) t0 a' f' g' Fr Ft (X * Fn)) as M. cbv zeta in M.
    rewrite EA, EF, EG in M. fold p in M. fold q w in M.
    eapply dval; [|refine (M _ _ _ (sincos l) Hmu Ha He Hw _ _ D0 DF DG); ring].
    unfold del. cbv beta. f_equal. f_equal. unfold w. field. lra.
  - eapply dval; [|exact D3]. change (@eq (@car RNum)) with (@eq R). ring.
  - eapply dval; [|exact D4]. change (@eq (@car RNum)) with (@eq R). ring.
  - eapply dval; [|exact D5]. change (@eq (@car RNum)) with (@eq R). ring.
Qed.
Lemma mee_bind_gen : del = 0 -> newton (mee_cart mu) mu (vec Fr Ft Fn) path t0.
Proof.
  intros Dl. destruct mb_all as (DP & DF & DG & DH & DK & DL & EA & EF & EG & EH & EK & EL).
  assert (HP : 0 < p) by (apply Rmult_lt_0_compat; lra).
  pose proof (mee_newton_lem mu (fun s => A s * (1 - F s * F s - G s * G s)) F G H K L t0 Fr Ft Fn del) as M.
  cbv beta in M. rewrite EA, EF, EG, EH, EK, EL in M. fold p in M. fold q w X S2 in M.
  destruct (M Hmu HP He DP DF DG DH DK DL Dl) as [M1 M2].
  exists (fun s => rad (A s * (1 - F s * F s - G s * G s)) (F s) (G s) (H s) (K s) (L s)), (fun s => vel mu (A s * (1 - F s * F s - G s * G s)) (F s) (G s) (H s) (K s) (L s)).
  split; [|cbv beta; rewrite EA, EF, EG, EH, EK, EL; fold p; split; assumption].
  refine (near_imp _ _ _ _ (near_lt (fun s => F s * F s + G s * G s) t0 _ 1 (d_plus _ _ t0 _ _ (d_mult F F t0 _ _ DF DF) (d_mult G G t0 _ _ DG DG)) _)); [|cbv beta; rewrite EF, EG; exact He].
  intros s Hs. cbv beta in Hs. rewrite rad_mee by exact Hs. rewrite vel_mee. unfold mee_cart, A, F, G, H, K, L. destruct (path s). reflexivity.
Qed.
Lemma mee_bind_right : 0 < f -> newton (mee_cart mu) mu (vec Fr Ft Fn) path t0.
Proof. intros Pf. apply mee_bind_gen. unfold del, side. destruct (Rlt_dec 0 f); [ring|lra]. Qed.
Lemma mee_bind_free : Fr = 0 -> Ft = 0 -> newton (mee_cart mu) mu (vec Fr Ft Fn) path t0.
Proof.
  intros Z1 Z2. apply mee_bind_gen. unfold del. rewrite Z1, Z2. ring.
Qed.
Lemma mee_bind_wrong : f < 0 -> (f * sin l - g * cos l) * Fr + (f * cos l + g * sin l) * Ft <> 0 -> ~ newton (mee_cart mu) mu (vec Fr Ft Fn) path t0.
Proof.
  intros Pf Nz (r & v & (dd & Hd & Near) & D1 & _). destruct mb_all as (DP & DF & DG & DH & DK & DL & EA & EF & EG & EH & EK & EL).
  assert (HP : 0 < p) by (apply Rmult_lt_0_compat; lra).
  assert (Q : 0 < q) by (apply sqrt_lt_R0, Rdiv_lt_0_compat; assumption).
  assert (Dl : del <> 0).
  { unfold del, side. destruct (Rlt_dec 0 f); [lra|]. replace (2 * (a * a) / (mu * q) * (-1 - 1)) with (- (4 * (a * a) / (mu * q))) by (field; lra).
    assert (0 < 4 * (a * a) / (mu * q)) by (apply Rdiv_lt_0_compat; repeat apply Rmult_lt_0_compat; lra).
    apply Rmult_integral_contrapositive_currified; [apply Rmult_integral_contrapositive_currified|]; [lra|exact Nz|lra]. }
  pose proof (mee_wrong_lem mu (fun s => A s * (1 - F s * F s - G s * G s)) F G H K L t0 Fr Ft Fn del) as M.
  cbv beta in M. rewrite EA, EF, EG, EH, EK, EL in M. fold p in M. fold q w X S2 in M.
  assert (Both : exists d', 0 < d' /\ forall s, Rabs (s - t0) < d' -> r s = rad (A s * (1 - F s * F s - G s * G s)) (F s) (G s) (H s) (K s) (L s) /\
      v s = vel mu (A s * (1 - F s * F s - G s * G s)) (F s) (G s) (H s) (K s) (L s)).
  { destruct (near_lt (fun s => F s * F s + G s * G s) t0 _ 1 (d_plus _ _ t0 _ _ (d_mult F F t0 _ _ DF DF) (d_mult G G t0 _ _ DG DG))) as (d' & Hd' & N');
      [cbv beta; rewrite EF, EG; exact He|].
    exists (Rmin dd d'). split; [apply Rmin_pos; assumption|]. intros s Hs.
    assert (S1 : Rabs (s - t0) < dd) by (eapply Rlt_le_trans; [exact Hs|apply Rmin_l]).
    assert (S3 : Rabs (s - t0) < d') by (eapply Rlt_le_trans; [exact Hs|apply Rmin_r]).
    specialize (Near s S1). specialize (N' s S3). cbv beta in N', Near.
    rewrite rad_mee by exact N'. rewrite vel_mee. unfold mee_cart, A, F, G, H, K, L in *. destruct (path s) as [x0 x1 x2 x3 x4 x5]. cbn [v6_0 v6_1 v6_2 v6_3 v6_4 v6_5].
    apply Ok_inj in Near. set (rr := mee_r _ _ _ _ _ _) in *. set (vv := mee_v _ _ _ _ _ _ _) in *. clearbody rr vv. clear - Near.
    destruct rr, vv, (r s), (v s). unfold concat33 in Near. injection Near as -> -> -> -> -> ->. auto. }
  destruct Both as (d' & Hd' & Both).
  apply (M Hmu HP He DP DF DG DL (v t0) Dl).
  - destruct (Both t0) as [_ B]; [rewrite Rminus_eq_0, Rabs_R0; exact Hd'|]. rewrite B, EA, EF, EG, EH, EK, EL. reflexivity.
  - destruct D1 as (X0 & X1 & X2). repeat split.
    + refine (dlocal _ _ t0 _ d' Hd' _ X0). intros s Hs. destruct (Both s Hs) as [B _]. rewrite B. reflexivity.
    + refine (dlocal _ _ t0 _ d' Hd' _ X1). intros s Hs. destruct (Both s Hs) as [B _]. rewrite B. reflexivity.
    + refine (dlocal _ _ t0 _ d' Hd' _ X2). intros s Hs. destruct (Both s Hs) as [B _]. rewrite B. reflexivity.
Qed.
End MeeBind.

Lemma mee_motion_lem p out oe t u ptrb : 0 < g_mu p -> mee_state oe -> 0 < v6_1 oe -> ask (lyap_mee_with_a (N:=RNum)) p oe = Ok out ->
  exists d, eom_mee_with_a_gauss (N:=RNum) t oe (mkparams (N:=RNum) (g_mu p) u (lo_psi out) ptrb) = Ok d /\
    forall path t0, path t0 = oe -> velocity6 path t0 d -> newton (mee_cart (g_mu p)) (g_mu p) (add u ptrb) path t0.
Proof.
  intros Hmu St Hf HO. unfold lyap_mee_with_a in HO. rewrite ask_lyap in HO. apply Ok_inj in HO. subst out. cbn [lo_psi].
  destruct oe as [a f g h k l]. destruct St as (Ha & He). cbn in a, f, g, h, k, l. cbn [v6_1] in Hf.
  change (@mk6 RNum a f g h k l) with (elems a f g h k l) in *. assert (Nf : f <> 0) by lra.
  rewrite evalpsi_mee by assumption. rewrite eom_mee_val by assumption. eexists. split; [reflexivity|].
  intros path t0 Ep V. destruct (add u ptrb) as [Fr Ft Fn]. exact (mee_bind_right (g_mu p) a f g h k l Fr Ft Fn path t0 Hmu Ha He Nf Ep V Hf).
Qed.
Lemma mee_wrong_motion_lem p out oe t u ptrb : 0 < g_mu p -> mee_state oe -> v6_1 oe < 0 -> ask (lyap_mee_with_a (N:=RNum)) p oe = Ok out ->
  let 'mk6 a f g h k l := oe in let F := add u ptrb in
  (f * sin l - g * cos l) * v3_0 F + (f * cos l + g * sin l) * v3_1 F <> 0 ->
  exists d, eom_mee_with_a_gauss (N:=RNum) t oe (mkparams (N:=RNum) (g_mu p) u (lo_psi out) ptrb) = Ok d /\
    forall path t0, path t0 = oe -> velocity6 path t0 d -> ~ newton (mee_cart (g_mu p)) (g_mu p) F path t0.
Proof.
  intros Hmu St Hf HO. unfold lyap_mee_with_a in HO. rewrite ask_lyap in HO. apply Ok_inj in HO. subst out. cbn [lo_psi].
  destruct oe as [a f g h k l]. destruct St as (Ha & He). cbn in a, f, g, h, k, l. cbn [v6_1] in Hf.
  change (@mk6 RNum a f g h k l) with (elems a f g h k l) in *. assert (Nf : f <> 0) by lra. intros HF. set (F := add u ptrb) in *.
  rewrite evalpsi_mee by assumption. rewrite eom_mee_val by assumption. eexists. split; [reflexivity|].
  intros path t0 Ep V. fold F in V. clearbody F. destruct F as [Fr Ft Fn]. exact (mee_bind_wrong (g_mu p) a f g h k l Fr Ft Fn path t0 Hmu Ha He Nf Ep V Hf HF).
Qed.
(** Without any force the equations are those of two-body motion on both sides of f = 0. *)
Lemma mee_free_lem p out oe t : 0 < g_mu p -> mee_state oe -> v6_1 oe <> 0 -> ask (lyap_mee_with_a (N:=RNum)) p oe = Ok out ->
  exists d, eom_mee_with_a_gauss (N:=RNum) t oe (mkparams (N:=RNum) (g_mu p) null (lo_psi out) null) = Ok d /\
    forall path t0, path t0 = oe -> velocity6 path t0 d -> newton (mee_cart (g_mu p)) (g_mu p) null path t0.
Proof.
  intros Hmu St Nf HO. unfold lyap_mee_with_a in HO. rewrite ask_lyap in HO. apply Ok_inj in HO. subst out. cbn [lo_psi].
  destruct oe as [a f g h k l]. destruct St as (Ha & He). cbn in a, f, g, h, k, l. cbn [v6_1] in Nf.
  change (@mk6 RNum a f g h k l) with (elems a f g h k l) in *.
  rewrite evalpsi_mee by assumption. rewrite eom_mee_val by assumption. eexists. split; [reflexivity|].
  intros path t0 Ep V.
  assert (Z : add null null = vec 0 0 0) by (unfold add, null, vec; cbn; f_equal; ring). rewrite Z in V.
  apply (mee_bind_free (g_mu p) a f g h k l 0 0 0 path t0 Hmu Ha He Ep V); ring.
Qed.

(** eom_mee_gauss: state (p,f,g,h,k,L) *)
Lemma eom_meep_val t mu p f g h k l u P ptrb : 0 < mu -> 0 < p -> f * f + g * g < 1 ->
  let q := sqrt (p / mu) in let w := 1 + f * cos l + g * sin l in let X := h * sin l - k * cos l in
  let S2 := 1 + h * h + k * k in let F := add u ptrb in
  eom_mee_gauss (N:=RNum) t (elems p f g h k l) (mkparams (N:=RNum) mu u P ptrb) = Ok (elems
    (2 * q * (p / w) * v3_1 F)
    (q * sin l * v3_0 F + q / w * ((w + 1) * cos l + f) * v3_1 F + q / w * (- g * X) * v3_2 F)
    (- q * cos l * v3_0 F + q / w * ((w + 1) * sin l + g) * v3_1 F + q / w * (f * X) * v3_2 F)
    (q / w * (1 / 2) * S2 * cos l * v3_2 F) (q / w * (1 / 2) * S2 * sin l * v3_2 F)
    (q / w * X * v3_2 F + sqrt (mu * p) * (w / p * (w / p)))).
Proof.
  intros Hmu HP He q w X S2 F. pose proof (w_bound f g l He) as W'. assert (Hw : 0 < w) by (unfold w; lra).
  unfold eom_mee_gauss, elems. cbn [op_mu op_u op_psi op_ptrb]. rewrite (jdivR p mu) by lra. cbn [bind].
  rewrite (jdivR _ w) by lra. cbn [bind]. rewrite (jdivR _ w) by lra. cbn [bind].
  rewrite (jdivR _ w) by lra. cbn [bind]. rewrite (jdivR _ w) by lra. cbn [bind].
  rewrite (jdivR _ p) by lra. cbn [bind]. change (v3add (N:=RNum) u ptrb) with (add u ptrb). fold F. destruct F as [Fr Ft Fn]. cbn in Fr, Ft, Fn.
  change (nsqrt (Num:=RNum) (p / mu)) with q. change (dec (N:=RNum) 5 1) with (5 / 10).
  unfold add_rate, psi_dot, dot3. cbn. fold w X S2 q. change (@eq (@car RNum)) with (@eq R).
  f_equal. unfold Rdiv. f_equal; change (@eq (@car RNum)) with (@eq R); fold w; fold X; field; lra.
Qed.
