(** Plot helper geometry over the reals. *)
From Coq Require Import Reals Lra Lia ZArith List Bool Psatz Nsatz.
From Verif Require Import RMath RLib Num Base Elements PlotHelper RSpec ElemProofs.
Import ListNotations.
Local Open Scope R_scope.

Lemma sphere_pt (rad : R) c (u v : R) : let q := sub (sphere_point (N:=RNum) rad c u v) c in dot q q = rad * rad.
Proof.
  destruct c as [a b d]. unfold sub, dot. cbn. pose proof (sincos u). pose proof (sincos v). nsatz.
Qed.
Lemma C63_sphere_lem (rad : R) center :
  let c := match center with Some v => v | None => null end in
  let g := get_sphere_coordinates (N:=RNum) rad center in
  length g = 20%nat /\ Forall (fun row => length row = 10%nat) g /\
  forall row q, In row g -> In q row -> dot (sub q c) (sub q c) = rad * rad.
Proof.
  intros c g. unfold g, get_sphere_coordinates. change (center_or_zero center) with c.
  split; [|split].
  - rewrite map_length. apply linspace_length.
  - apply Forall_forall. intros row H. apply in_map_iff in H as (u & <- & _). rewrite map_length. apply linspace_length.
  - intros row q H Hq. apply in_map_iff in H as (u & <- & _). apply in_map_iff in Hq as (v & <- & _). apply sphere_pt.
Qed.
Lemma C63_ellipsoid_lem (rx ry rz : R) center n : rx <> 0 -> ry <> 0 -> rz <> 0 ->
  let '(mk3 c0 c1 c2) := match center with Some v => v | None => null end in
  let g := get_ellipsoid_coordinates (N:=RNum) rx ry rz center n in
  length g = n /\ Forall (fun row => length row = n) g /\
  forall row x y z, In row g -> In (vec x y z) row ->
    ((x - c0) / rx) ^ 2 + ((y - c1) / ry) ^ 2 + ((z - c2) / rz) ^ 2 = 1.
Proof.
  intros Hx Hy Hz. unfold get_ellipsoid_coordinates. change (center_or_zero center) with (match center with Some v => v | None => null end).
  destruct (match center with Some v => v | None => null end) as [c0 c1 c2]. split; [|split].
  - rewrite map_length. apply linspace_length.
  - apply Forall_forall. intros row H. apply in_map_iff in H as (u & <- & _). rewrite map_length. apply linspace_length.
  - intros row x y z H Hq. apply in_map_iff in H as (u & <- & _). apply in_map_iff in Hq as (v & E & _).
    unfold ellipsoid_point, vec in E. cbn in E. injection E as <- <- <-.
    replace ((c0 + rx * (cos u * sin v) - c0) / rx) with (cos u * sin v) by (field; exact Hx).
    replace ((c1 + ry * (sin u * sin v) - c1) / ry) with (sin u * sin v) by (field; exact Hy).
    replace ((c2 + rz * (1 * cos v) - c2) / rz) with (cos v) by (field; exact Hz).
    pose proof (sincos u) as P. pose proof (sincos v) as Q.
    replace ((cos u * sin v) ^ 2 + (sin u * sin v) ^ 2 + cos v ^ 2)
      with ((sin u * sin u + cos u * cos u) * (sin v * sin v) + cos v * cos v) by ring.
    replace (sin u * sin u + cos u * cos u) with 1 by lra. lra.
Qed.

Lemma fold_max xs : forall x : R, exists m, fold_left (pymax (N:=RNum)) xs x = m /\ is_max (x :: xs) m.
Proof.
  induction xs as [|y xs IH]; intros x; cbn [fold_left].
  - exists x. split; [reflexivity|]. split; [left; reflexivity|]. intros z [<-|[]]. lra.
  - destruct (IH (pymax (N:=RNum) x y)) as (m & E & I & M). exists m. split; [exact E|].
    assert (P : pymax (N:=RNum) x y = x /\ y <= x \/ pymax (N:=RNum) x y = y /\ x <= y).
    { unfold pymax. cbn. destruct (Rltb_spec x y); [right|left]; split; try reflexivity; lra. }
    split.
    + destruct I as [<-|I]; [|right; right; exact I]. destruct P as [[-> _]|[-> _]]; [left|right; left]; reflexivity.
    + assert (K := M _ (or_introl eq_refl)). intros z [<-|[<-|Hz]]; [| |apply M; right; exact Hz]; destruct P as [[P1 P2]|[P1 P2]]; rewrite P1 in K; lra.
Qed.
Lemma fold_min xs : forall x : R, exists m, fold_left (pymin (N:=RNum)) xs x = m /\ is_min (x :: xs) m.
Proof.
  induction xs as [|y xs IH]; intros x; cbn [fold_left].
  - exists x. split; [reflexivity|]. split; [left; reflexivity|]. intros z [<-|[]]. lra.
  - destruct (IH (pymin (N:=RNum) x y)) as (m & E & I & M). exists m. split; [exact E|].
    assert (P : pymin (N:=RNum) x y = x /\ x <= y \/ pymin (N:=RNum) x y = y /\ y <= x).
    { unfold pymin. cbn. destruct (Rltb_spec y x); [right|left]; split; try reflexivity; lra. }
    split.
    + destruct I as [<-|I]; [|right; right; exact I]. destruct P as [[-> _]|[-> _]]; [left|right; left]; reflexivity.
    + assert (K := M _ (or_introl eq_refl)). intros z [<-|[<-|Hz]]; [| |apply M; right; exact Hz]; destruct P as [[P1 P2]|[P1 P2]]; rewrite P1 in K; lra.
Qed.
Lemma pymaxl_ok (l : list R) : l <> [] -> exists m, pymaxl (N:=RNum) l = Ok m /\ is_max l m.
Proof. destruct l as [|x xs]; [congruence|]. intros _. destruct (fold_max xs x) as (m & E & M). exists m. split; [cbn; f_equal; exact E|exact M]. Qed.
Lemma pyminl_ok (l : list R) : l <> [] -> exists m, pyminl (N:=RNum) l = Ok m /\ is_min l m.
Proof. destruct l as [|x xs]; [congruence|]. intros _. destruct (fold_min xs x) as (m & E & M). exists m. split; [cbn; f_equal; exact E|exact M]. Qed.

Lemma pymaxR (a b : R) : a <= pymax (N:=RNum) a b /\ b <= pymax (N:=RNum) a b.
Proof. unfold pymax. cbn. destruct (Rltb_spec a b); lra. Qed.

Lemma C64_lem (xl yl zl : list R) (s : R) : xl <> [] -> yl <> [] -> zl <> [] ->
  exists asp x0 x1 y0 y1 z0 z1 len,
    set_equal_axis (N:=RNum) xl yl zl s true = Ok [SetBoxAspect asp asp asp; SetXlim x0 x1; SetYlim y0 y1; SetZlim z0 z1] /\
    set_equal_axis (N:=RNum) xl yl zl s false = Ok [SetXlim x0 x1; SetYlim y0 y1] /\
    x1 - x0 = len /\ y1 - y0 = len /\ z1 - z0 = len /\
    (forall m n, is_min xl m -> is_max xl n -> x0 + x1 = m + n) /\
    (forall m n, is_min yl m -> is_max yl n -> y0 + y1 = m + n) /\
    (forall m n, is_min zl m -> is_max zl n -> z0 + z1 = m + n) /\
    (1 <= s -> (forall x, In x xl -> x0 <= x <= x1) /\ (forall y, In y yl -> y0 <= y <= y1) /\ (forall z, In z zl -> z0 <= z <= z1)).
Proof.
  intros Hx Hy Hz.
  destruct (pymaxl_ok xl Hx) as (xM & E1 & X1). destruct (pyminl_ok xl Hx) as (xm & E2 & X2).
  destruct (pymaxl_ok yl Hy) as (yM & E3 & Y1). destruct (pyminl_ok yl Hy) as (ym & E4 & Y2).
  destruct (pymaxl_ok zl Hz) as (zM & E5 & Z1). destruct (pyminl_ok zl Hz) as (zm & E6 & Z2).
  unfold set_equal_axis. rewrite E1, E2, E3, E4, E5, E6. cbn [bind].
  pose proof (pymaxR (xM - xm) (yM - ym)) as M1. pose proof (pymaxR (pymax (N:=RNum) (xM - xm) (yM - ym)) (zM - zm)) as M2.
  set (mr := pymax (N:=RNum) (pymax (N:=RNum) (xM - xm) (yM - ym)) (zM - zm)) in *.
  change (nsub (Num:=RNum)) with Rminus. fold mr.
  change (nadd (Num:=RNum)) with Rplus. change (nmul (Num:=RNum)) with Rmult. change (ndiv (Num:=RNum)) with Rdiv.
  change (nofZ (Num:=RNum)) with IZR. change (dec (N:=RNum) 5 1) with (5 / 10).
  do 8 eexists. split; [reflexivity|]. split; [reflexivity|].
  split; [reflexivity|]. split; [ring|]. split; [ring|].
  assert (UM : forall l a b, is_max l a -> is_max l b -> a = b).
  { intros l a b [I1 P1] [I2 P2]. specialize (P1 _ I2). specialize (P2 _ I1). lra. }
  assert (Um : forall l a b, is_min l a -> is_min l b -> a = b).
  { intros l a b [I1 P1] [I2 P2]. specialize (P1 _ I2). specialize (P2 _ I1). lra. }
  split; [intros m n A B; rewrite (Um _ _ _ A X2), (UM _ _ _ B X1); field|].
  split; [intros m n A B; rewrite (Um _ _ _ A Y2), (UM _ _ _ B Y1); field|].
  split; [intros m n A B; rewrite (Um _ _ _ A Z2), (UM _ _ _ B Z1); field|].
  intros Hs.
  assert (Hmr : 0 <= mr). { assert (xm <= xM) by (apply X1, X2). lra. }
  assert (mr / 2 <= mr / 2 * s) by nra.
  split; [|split]; intros w Hw.
  - assert (xm <= w <= xM) by (split; [apply X2|apply X1]; exact Hw). lra.
  - assert (ym <= w <= yM) by (split; [apply Y2|apply Y1]; exact Hw). lra.
  - assert (zm <= w <= zM) by (split; [apply Z2|apply Z1]; exact Hw). lra.
Qed.
Lemma is_max_fun l a b : is_max l a -> is_max l b -> a = b.
Proof. intros [I1 P1] [I2 P2]. specialize (P1 _ I2). specialize (P2 _ I1). lra. Qed.
Lemma is_min_fun l a b : is_min l a -> is_min l b -> a = b.
Proof. intros [I1 P1] [I2 P2]. specialize (P1 _ I2). specialize (P2 _ I1). lra. Qed.
Lemma C64_exact_lem (xl yl zl : list R) (s xm xM ym yM zm zM r : R) :
  is_min xl xm -> is_max xl xM -> is_min yl ym -> is_max yl yM -> is_min zl zm -> is_max zl zM ->
  is_max [xM - xm; yM - ym; zM - zm] r ->
  let lim m n := ((m + n) / 2 - s * r / 2, (m + n) / 2 + s * r / 2) in
  set_equal_axis (N:=RNum) xl yl zl s true =
    Ok [SetBoxAspect (N:=RNum) (r / 2) (r / 2) (r / 2); SetXlim (N:=RNum) (fst (lim xm xM)) (snd (lim xm xM));
        SetYlim (N:=RNum) (fst (lim ym yM)) (snd (lim ym yM)); SetZlim (N:=RNum) (fst (lim zm zM)) (snd (lim zm zM))] /\
  set_equal_axis (N:=RNum) xl yl zl s false =
    Ok [SetXlim (N:=RNum) (fst (lim xm xM)) (snd (lim xm xM)); SetYlim (N:=RNum) (fst (lim ym yM)) (snd (lim ym yM))].
Proof.
  intros Hx1 Hx2 Hy1 Hy2 Hz1 Hz2 Hr lim.
  assert (NE : forall l a, is_max l a -> l <> []) by (intros l a [I _] ->; exact I).
  destruct (pymaxl_ok xl (NE _ _ Hx2)) as (a1 & E1 & X1). destruct (pyminl_ok xl (NE _ _ Hx2)) as (a2 & E2 & X2).
  destruct (pymaxl_ok yl (NE _ _ Hy2)) as (a3 & E3 & Y1). destruct (pyminl_ok yl (NE _ _ Hy2)) as (a4 & E4 & Y2).
  destruct (pymaxl_ok zl (NE _ _ Hz2)) as (a5 & E5 & Z1). destruct (pyminl_ok zl (NE _ _ Hz2)) as (a6 & E6 & Z2).
  rewrite (is_max_fun _ _ _ X1 Hx2) in E1. rewrite (is_min_fun _ _ _ X2 Hx1) in E2.
  rewrite (is_max_fun _ _ _ Y1 Hy2) in E3. rewrite (is_min_fun _ _ _ Y2 Hy1) in E4.
  rewrite (is_max_fun _ _ _ Z1 Hz2) in E5. rewrite (is_min_fun _ _ _ Z2 Hz1) in E6.
  unfold set_equal_axis. rewrite E1, E2, E3, E4, E5, E6. cbn [bind].
  change (nsub (Num:=RNum)) with Rminus.
  assert (Em : pymax (N:=RNum) (pymax (N:=RNum) (xM - xm) (yM - ym)) (zM - zm) = r).
  { apply (is_max_fun [xM - xm; yM - ym; zM - zm]); [|exact Hr]. unfold pymax. cbn.
    destruct (Rltb_spec (xM - xm) (yM - ym)); [destruct (Rltb_spec (yM - ym) (zM - zm))|destruct (Rltb_spec (xM - xm) (zM - zm))];
      (split; [cbn; tauto|]); intros w [<-|[<-|[<-|[]]]]; lra. }
  rewrite Em.
  change (nadd (Num:=RNum)) with Rplus. change (nmul (Num:=RNum)) with Rmult. change (ndiv (Num:=RNum)) with Rdiv.
  change (nofZ (Num:=RNum)) with IZR. change (dec (N:=RNum) 5 1) with (5 / 10). unfold lim. cbn [fst snd app].
  assert (L1 : forall m n, (n + m) * (5 / 10) - r / 2 * s = (m + n) / 2 - s * r / 2) by (intros; field).
  assert (L2 : forall m n, (n + m) * (5 / 10) + r / 2 * s = (m + n) / 2 + s * r / 2) by (intros; field).
  rewrite !L1, !L2. split; reflexivity.
Qed.

Lemma linspace_nth_error (x y : R) n j : (2 <= n)%nat -> (j < n)%nat ->
  nth_error (linspace (N:=RNum) x y n) j = Some (x + INR j * ((y - x) / INR (n - 1))).
Proof.
  intros H2 Hj. rewrite (nth_error_nth' _ 0) by (rewrite linspace_length; exact Hj). f_equal. apply linspace_nth; assumption.
Qed.
Lemma C63_sphere_grid_lem (rad : R) center i j : (i < 20)%nat -> (j < 10)%nat ->
  let '(mk3 c0 c1 c2) := match center with Some v => v | None => null end in
  let u := 2 * PI * INR i / 19 in let v := PI * INR j / 9 in
  exists row, nth_error (get_sphere_coordinates (N:=RNum) rad center) i = Some row /\
    nth_error row j = Some (vec (c0 + rad * (cos u * sin v)) (c1 + rad * (sin u * sin v)) (c2 + rad * cos v)).
Proof.
  intros Hi Hj. unfold get_sphere_coordinates, center_or_zero. change null with (v3zero (N:=RNum)). destruct (match center with Some v => v | None => v3zero end) as [c0 c1 c2]. cbv zeta.
  eexists. split; [apply map_nth_error, linspace_nth_error; lia|]. rewrite (map_nth_error _ _ _ (linspace_nth_error _ _ 10 j ltac:(lia) Hj)).
  f_equal. unfold sphere_point, vec. change (nofZ (Num:=RNum) 0) with 0. change (nofZ (Num:=RNum) 2) with 2. change (npi (Num:=RNum)) with PI. change (nmul (Num:=RNum)) with Rmult.
  change (nadd (Num:=RNum)) with Rplus. change (nsin (Num:=RNum)) with sin. change (ncos (Num:=RNum)) with cos.
  replace (INR (20 - 1)) with 19 by (simpl; lra). replace (INR (10 - 1)) with 9 by (simpl; lra).
  replace (0 + INR i * ((2 * PI - 0) / 19)) with (2 * PI * INR i / 19) by field. replace (0 + INR j * ((PI - 0) / 9)) with (PI * INR j / 9) by field.
  f_equal; ring.
Qed.
Lemma C63_ellipsoid_grid_lem (rx ry rz : R) center n i j : (2 <= n)%nat -> (i < n)%nat -> (j < n)%nat ->
  let '(mk3 c0 c1 c2) := match center with Some v => v | None => null end in
  let u := 2 * PI * INR i / INR (n - 1) in let v := PI * INR j / INR (n - 1) in
  exists row, nth_error (get_ellipsoid_coordinates (N:=RNum) rx ry rz center n) i = Some row /\
    nth_error row j = Some (vec (c0 + rx * (cos u * sin v)) (c1 + ry * (sin u * sin v)) (c2 + rz * cos v)).
Proof.
  intros Hn Hi Hj. unfold get_ellipsoid_coordinates, center_or_zero. change null with (v3zero (N:=RNum)). destruct (match center with Some v => v | None => v3zero end) as [c0 c1 c2]. cbv zeta.
  eexists. split; [apply map_nth_error, linspace_nth_error; lia|]. rewrite (map_nth_error _ _ _ (linspace_nth_error _ _ n j Hn Hj)).
  f_equal. unfold ellipsoid_point, vec. change (nofZ (Num:=RNum) 0) with 0. change (nofZ (Num:=RNum) 1) with 1. change (nofZ (Num:=RNum) 2) with 2. change (npi (Num:=RNum)) with PI. change (nmul (Num:=RNum)) with Rmult.
  change (nadd (Num:=RNum)) with Rplus. change (nsin (Num:=RNum)) with sin. change (ncos (Num:=RNum)) with cos.
  assert (INR (n - 1) <> 0) by (apply not_0_INR; lia).
  replace (0 + INR i * ((2 * PI - 0) / INR (n - 1))) with (2 * PI * INR i / INR (n - 1)) by (field; assumption).
  replace (0 + INR j * ((PI - 0) / INR (n - 1))) with (PI * INR j / INR (n - 1)) by (field; assumption).
  f_equal; ring.
Qed.
