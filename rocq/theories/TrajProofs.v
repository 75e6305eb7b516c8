(** Proofs about the trajectory figures (C79). *)
From Coq Require Import Reals Lra Lia ZArith List Bool.
From Verif Require Import RMath RLib Num Base Elements Perturb PlotHelper Qlaw Export PlotMethods Spec RSpec GaussSpec ExportSpec TrajSpec
  ElemProofs ExportProofs PlotProofs PlotMProofs.
Import ListNotations.
Local Open Scope R_scope.

Lemma nth_of {A} (l : list A) j q d : nth_error l j = Some q -> nth j l d = q.
Proof. apply nth_error_nth. Qed.

Lemma map_rpart cols : map v3_0 (map rpart cols) = map (v6_0 (N:=RNum)) cols /\ map v3_1 (map rpart cols) = map (v6_1 (N:=RNum)) cols /\
  map v3_2 (map rpart cols) = map (v6_2 (N:=RNum)) cols.
Proof. rewrite !map_map. repeat split; apply map_ext; intros []; reflexivity. Qed.

(** the orbit through six Keplerian elements *)
Lemma kep_revolution mu a e i r w ta : 0 < mu -> 0 < a -> 0 <= e < 1 ->
  exists cols, get_orbit_coordinates (N:=RNum) (elems a e i r w ta) mu 200 = Ok cols /\
    revolution Keplerian mu (elems a e i r w ta) 200 (map rpart cols) /\
    forall j c, nth_error cols j = Some c -> kep2sv (N:=RNum) (elems a e i r w (2 * PI * INR j / INR 199)) mu = Ok c.
Proof.
  intros Hmu Ha He. destruct (C53_lem a e i r w ta mu 200 (elems 0 0 0 0 0 0) Hmu Ha He) as (cols & E & L & _ & K & _).
  assert (K' : forall j c, nth_error cols j = Some c -> kep2sv (N:=RNum) (elems a e i r w (2 * PI * INR j / INR 199)) mu = Ok c).
  { intros j c Hc. assert (j < 200)%nat by (rewrite <- L; apply nth_error_Some; rewrite Hc; discriminate).
    change (INR 199) with (INR (200 - 1)). rewrite (K j) by lia. f_equal. apply nth_of. exact Hc. }
  exists cols. split; [exact E|]. split; [|exact K'].
  split; [rewrite map_length; exact L|]. exists 0. intros j q Hq.
  rewrite nth_error_map in Hq. destruct (nth_error cols j) as [c|] eqn:Hc; [|discriminate]. injection Hq as <-.
  specialize (K' j c Hc). rewrite kep2sv_closed in K' by assumption. injection K' as <-.
  cbn [on_orbit elems]. unfold elems, cart_state. replace (0 + 2 * PI * INR j / INR (200 - 1)) with (2 * PI * INR j / INR 199) by (cbn [Nat.sub]; ring).
  reflexivity.
Qed.
Lemma mee_revolution mu a f g h k l : 0 < mu -> 0 < a -> f * f + g * g < 1 -> periapsis_kept f g h k ->
  exists kep cols, mee_with_a2kep (N:=RNum) (elems a f g h k l) = Ok kep /\ get_orbit_coordinates (N:=RNum) kep mu 200 = Ok cols /\
    revolution MeeWithA mu (elems a f g h k l) 200 (map rpart cols).
Proof.
  intros Hmu Ha He HP. destruct (mee_e f g) as [E1 E2].
  assert (EQ : exists A e i r w, 0 < A /\ 0 <= e < 1 /\
     forall x, mee_with_a2kep (N:=RNum) (elems a f g h k x) = Ok (elems A e i r w (x - r - w))).
  { do 5 eexists. split; [|split]; [| |intros x; unfold mee_with_a2kep;
      change (mee_with_a2mee (elems a f g h k x)) with (elems (a * (1 - f * f - g * g)) f g h k x); rewrite mee2kep_eq by lra; reflexivity].
    - apply Rdiv_lt_0_compat; [apply Rmult_lt_0_compat; lra|lra].
    - split; [exact E1|]. nra. }
  destruct EQ as (A & e & i & r & w & HA & He' & EQ).
  destruct (kep_revolution mu A e i r w (l - r - w) Hmu HA He') as (cols & C & [L _] & K).
  do 2 eexists. split; [apply EQ|]. split; [exact C|]. split; [exact L|]. exists (r + w). intros j q Hq.
  rewrite nth_error_map in Hq. destruct (nth_error cols j) as [c|] eqn:Hc; [|discriminate]. injection Hq as <-.
  specialize (K j c Hc). set (nu := 2 * PI * INR j / INR 199) in K.
  destruct (C50_pos a f g h k (r + w + nu) mu Hmu Ha He) as (s & S1 & S2 & _). specialize (S2 HP).
  assert (S3 : mee_with_a2sv (N:=RNum) (elems a f g h k (r + w + nu)) mu = Ok c).
  { change (bind (mee_with_a2kep (N:=RNum) (elems a f g h k (r + w + nu))) (fun kep => kep2sv kep mu) = Ok c).
    rewrite EQ. cbn [bind]. replace (r + w + nu - r - w) with nu by ring. exact K. }
  rewrite S1 in S3. injection S3 as <-. rewrite S2. reflexivity.
Qed.

Lemma orbit_drawn et mu oe : 0 < mu -> elliptic et oe -> faithful et oe ->
  exists pts, revolution et mu oe 200 (map rpart pts) /\
    bind (match et with Keplerian => Ok oe | MeeWithA => mee_with_a2kep (N:=RNum) oe end) (fun kp => get_orbit_coordinates (N:=RNum) kp mu 200) = Ok pts.
Proof.
  intros Hmu El Fa. destruct oe as [a x y z w l], et; cbn in El, Fa.
  - destruct (kep_revolution mu a x y z w l) as (cols & C & Rv & _); try tauto. exists cols. split; assumption.
  - destruct (mee_revolution mu a x y z w l) as (kep & cols & M & C & Rv); try tauto. exists cols. split; [exact Rv|].
    change (@mk6 RNum a x y z w l) with (elems a x y z w l). rewrite M. exact C.
Qed.
Lemma reference_ok (o : qlaw RNum) p (T0 T1 T2 T3 T4 : R) : 0 < q_mu o -> 
  elliptic (q_etype o) (p_oe0 p) -> faithful (q_etype o) (p_oe0 p) ->
  elliptic (q_etype o) (elems T0 T1 T2 T3 T4 0) -> faithful (q_etype o) (elems T0 T1 T2 T3 T4 0) ->
  exists c0 cT, reference_orbits (N:=RNum) o p [T0; T1; T2; T3; T4] = Ok (c0, cT) /\
    revolution (q_etype o) (q_mu o) (p_oe0 p) 200 (map rpart c0) /\ revolution (q_etype o) (q_mu o) (elems T0 T1 T2 T3 T4 0) 200 (map rpart cT).
Proof.
  intros Hmu E0 F0 ET FT. destruct (orbit_drawn _ _ _ Hmu E0 F0) as (c0 & R0 & C0). destruct (orbit_drawn _ _ _ Hmu ET FT) as (cT & RT & CT).
  exists c0, cT. split; [|split; assumption]. unfold reference_orbits.
  change (with_zero (N:=RNum) [T0; T1; T2; T3; T4]) with (Ok (elems T0 T1 T2 T3 T4 0)).
  destruct (q_etype o); cbn [bind] in *.
  - rewrite C0. cbn [bind]. rewrite CT. reflexivity.
  - destruct (mee_with_a2kep (p_oe0 p)); [|discriminate]. cbn [bind] in *. rewrite C0. cbn [bind].
    destruct (mee_with_a2kep (elems T0 T1 T2 T3 T4 0)); [|discriminate]. cbn [bind] in *. rewrite CT. reflexivity.
Qed.

Lemma curve3_ok (xs ys zs : list (@car RNum)) : length xs = length ys -> length ys = length zs -> curve3 (N:=RNum) xs ys zs = Ok (Curve3 xs ys zs).
Proof. intros H1 H2. unfold curve3. rewrite H1, H2, !Nat.eqb_refl. reflexivity. Qed.
Section Fig.
Variables (o : qlaw RNum) (p : problem RNum) (T0 T1 T2 T3 T4 : R) (s0 : vec6 RNum) (rest : list (vec6 RNum)).
Hypotheses (Hmu : 0 < q_mu o) (E0 : elliptic (q_etype o) (p_oe0 p)) (F0 : faithful (q_etype o) (p_oe0 p))
  (HT : p_oeT p = [T0; T1; T2; T3; T4])
  (ET : elliptic (q_etype o) (elems T0 T1 T2 T3 T4 0)) (FT : faithful (q_etype o) (elems T0 T1 T2 T3 T4 0)).
Let cart := s0 :: rest.
Let first := rpart s0.
Let final := rpart (last rest s0).

Lemma fig2 : exists P0 PT,
  revolution (q_etype o) (q_mu o) (p_oe0 p) 200 P0 /\ revolution (q_etype o) (q_mu o) (elems T0 T1 T2 T3 T4 0) 200 PT /\
  plot_trajectory_2d (N:=RNum) o p cart = Ok [draw2 P0; draw2 PT; draw2 (map rpart cart); dot2 first; dot2 final].
Proof.
  destruct (reference_ok o p T0 T1 T2 T3 T4 Hmu E0 F0 ET FT) as (c0 & cT & RO & R0 & RT).
  exists (map rpart c0), (map rpart cT). split; [exact R0|]. split; [exact RT|].
  unfold plot_trajectory_2d. rewrite HT.
  match goal with |- bind (reference_orbits o p ?x) _ = _ => assert (TT : x = [T0; T1; T2; T3; T4]) by (destruct (q_etype o); reflexivity); rewrite TT end.
  rewrite RO. cbn [bind]. rewrite !line_ok by (rewrite !map_length; reflexivity). cbn [bind item cart nth_error last_item].
  unfold draw2, dot2, first, final. destruct (map_rpart c0) as (-> & -> & _). destruct (map_rpart cT) as (-> & -> & _).
  destruct (map_rpart cart) as (-> & -> & _). destruct s0, (last rest _). reflexivity.
Qed.
Lemma fig3 b scale : exists P0 PT calls,
  revolution (q_etype o) (q_mu o) (p_oe0 p) 200 P0 /\ revolution (q_etype o) (q_mu o) (elems T0 T1 T2 T3 T4 0) 200 PT /\
  plot_trajectory_3d (N:=RNum) o p cart b scale = Ok ([draw3 (map rpart cart); dot3 first; dot3 final; draw3 P0; draw3 PT], calls) /\
  (b = false -> calls = []) /\
  (b = true -> limits (map v6_0 cart) (map v6_1 cart) (map v6_2 cart) scale calls /\
     (1 <= scale -> forall c, In c cart -> visible calls (rpart c))).
Proof.
  destruct (reference_ok o p T0 T1 T2 T3 T4 Hmu E0 F0 ET FT) as (c0 & cT & RO & R0 & RT).
  exists (map rpart c0), (map rpart cT). unfold plot_trajectory_3d. rewrite HT, RO. cbn [bind].
  rewrite (curve3_ok (map v6_0 cart)) by (rewrite !map_length; reflexivity). cbn [bind item cart nth_error last_item].
  rewrite (curve3_ok (map v6_0 c0)) by (rewrite !map_length; reflexivity). cbn [bind].
  rewrite (curve3_ok (map v6_0 cT)) by (rewrite !map_length; reflexivity). cbn [bind]. fold cart.
  set (X := map (v6_0 (N:=RNum)) cart). set (Y := map (v6_1 (N:=RNum)) cart). set (Z := map (v6_2 (N:=RNum)) cart).
  assert (NX : X <> []) by discriminate. assert (NY : Y <> []) by discriminate. assert (NZ : Z <> []) by discriminate.
  assert (P3 : draw3 (map rpart cart) = Curve3 (N:=RNum) X Y Z) by (unfold draw3; destruct (map_rpart cart) as (-> & -> & ->); reflexivity).
  assert (P30 : draw3 (map rpart c0) = Curve3 (N:=RNum) (map v6_0 c0) (map v6_1 c0) (map v6_2 c0)) by (unfold draw3; destruct (map_rpart c0) as (-> & -> & ->); reflexivity).
  assert (P3T : draw3 (map rpart cT) = Curve3 (N:=RNum) (map v6_0 cT) (map v6_1 cT) (map v6_2 cT)) by (unfold draw3; destruct (map_rpart cT) as (-> & -> & ->); reflexivity).
  assert (D0 : Dot (N:=RNum) (firstn 3 (vec6_to_list s0)) = dot3 first) by (unfold first; destruct s0; reflexivity).
  assert (DT : Dot (N:=RNum) (firstn 3 (vec6_to_list (last rest s0))) = dot3 final) by (unfold final; destruct (last rest s0); reflexivity).
  destruct b.
  - destruct (pymaxl_ok X NX) as (xM & X1 & XM). destruct (pyminl_ok X NX) as (xm & X2 & Xm).
    destruct (pymaxl_ok Y NY) as (yM & Y1 & YM). destruct (pyminl_ok Y NY) as (ym & Y2 & Ym).
    destruct (pymaxl_ok Z NZ) as (zM & Z1 & ZM). destruct (pyminl_ok Z NZ) as (zm & Z2 & Zm).
    rewrite X1, X2, Y1, Y2, Z1, Z2. cbn [bind].
    assert (SM : forall l m n, is_min l m -> is_max l n -> is_min [m; n] m /\ is_max [m; n] n /\ m <= n).
    { intros l m n [I1 P1] [I2 P2]. pose proof (P1 _ I2). repeat split; cbn; auto; intros w [<-|[<-|[]]]; lra. }
    destruct (SM _ _ _ Xm XM) as (A1 & A2 & A3). destruct (SM _ _ _ Ym YM) as (B1 & B2 & B3). destruct (SM _ _ _ Zm ZM) as (C1 & C2 & C3).
    destruct (fold_max [yM - ym; zM - zm] (xM - xm)) as (r & _ & Hr).
    destruct (C64_exact_lem [xm; xM] [ym; yM] [zm; zM] scale xm xM ym yM zm zM r A1 A2 B1 B2 C1 C2 Hr) as [S _]. cbn [fst snd] in S.
    rewrite S. cbn [bind]. eexists. split; [exact R0|]. split; [exact RT|]. split; [rewrite P3, P30, P3T, <- D0, <- DT; reflexivity|].
    split; [discriminate|]. intros _. split.
    { exists xm, xM, ym, yM, zm, zM, r. repeat (split; [assumption|]). reflexivity. }
    intros Hs c Hc. do 7 eexists. split; [reflexivity|].
    pose proof (proj2 Xm _ (in_map _ _ _ Hc)). pose proof (proj2 XM _ (in_map _ _ _ Hc)).
    pose proof (proj2 Ym _ (in_map _ _ _ Hc)). pose proof (proj2 YM _ (in_map _ _ _ Hc)).
    pose proof (proj2 Zm _ (in_map _ _ _ Hc)). pose proof (proj2 ZM _ (in_map _ _ _ Hc)).
    pose proof (proj2 Hr _ (or_introl eq_refl)). pose proof (proj2 Hr _ (or_intror (or_introl eq_refl))).
    pose proof (proj2 Hr _ (or_intror (or_intror (or_introl eq_refl)))).
    assert (r <= scale * r) by nra. destruct c as [c0' c1' c2' c3' c4' c5']. cbn in *. lra.
  - cbn [bind]. eexists. split; [exact R0|]. split; [exact RT|]. split; [rewrite P3, P30, P3T, <- D0, <- DT; reflexivity|].
    split; [reflexivity|discriminate].
Qed.
End Fig.

Lemma far_hidden (xs ys zs : list R) scale calls (rho : R) (q : vec3 RNum) : limits xs ys zs scale calls -> 0 <= scale ->
  (forall x, In x xs -> Rabs x <= rho) -> (forall x, In x ys -> Rabs x <= rho) -> (forall x, In x zs -> Rabs x <= rho) ->
  (1 + scale) * rho < Rabs (v3_0 q) \/ (1 + scale) * rho < Rabs (v3_1 q) \/ (1 + scale) * rho < Rabs (v3_2 q) -> ~ visible calls q.
Proof.
  intros (xm & xM & ym & yM & zm & zM & r & X1 & X2 & Y1 & Y2 & Z1 & Z2 & Hr & ->) Hs Bx By Bz Hq (asp & x0 & x1 & y0 & y1 & z0 & z1 & E & V1 & V2 & V3).
  injection E as _ <- <- <- <- <- <-.
  pose proof (Bx _ (proj1 X1)) as B1. pose proof (Bx _ (proj1 X2)) as B2. pose proof (By _ (proj1 Y1)) as B3. pose proof (By _ (proj1 Y2)) as B4.
  pose proof (Bz _ (proj1 Z1)) as B5. pose proof (Bz _ (proj1 Z2)) as B6.
  assert (AB : forall x, Rabs x <= rho -> - rho <= x <= rho) by (intros x H; unfold Rabs in H; destruct (Rcase_abs x); lra).
  apply AB in B1, B2, B3, B4, B5, B6.
  assert (r <= 2 * rho) by (destruct (proj1 Hr) as [<-|[<-|[<-|[]]]]; lra).
  assert (scale * r <= scale * (2 * rho)) by nra.
  unfold Rabs in Hq. destruct Hq as [Hq|[Hq|Hq]];
    [destruct (Rcase_abs (v3_0 q))|destruct (Rcase_abs (v3_1 q))|destruct (Rcase_abs (v3_2 q))]; lra.
Qed.
