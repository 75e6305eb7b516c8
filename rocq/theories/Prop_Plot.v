(** Plot helpers: C63, C64 (real arithmetic). *)
From Coq Require Import Reals Lra ZArith List Bool.
From Verif Require Import RMath RLib Num Base PlotHelper RSpec PlotProofs.
Import ListNotations.
Local Open Scope R_scope.

(** C63 *)
Theorem C63_sphere : forall (rad : R) center,
  let c := match center with Some v => v | None => null end in
  let g := get_sphere_coordinates (N:=RNum) rad center in
  length g = 20%nat /\ Forall (fun row => length row = 10%nat) g /\
  forall row q, In row g -> In q row -> dot (sub q c) (sub q c) = rad * rad.
Proof. exact C63_sphere_lem. Qed.
Print Assumptions C63_sphere.
Theorem C63_ellipsoid : forall (rx ry rz : R) center n, rx <> 0 -> ry <> 0 -> rz <> 0 ->
  let '(mk3 c0 c1 c2) := match center with Some v => v | None => null end in
  let g := get_ellipsoid_coordinates (N:=RNum) rx ry rz center n in
  length g = n /\ Forall (fun row => length row = n) g /\
  forall row x y z, In row g -> In (vec x y z) row ->
    ((x - c0) / rx) ^ 2 + ((y - c1) / ry) ^ 2 + ((z - c2) / rz) ^ 2 = 1.
Proof. exact C63_ellipsoid_lem. Qed.
Print Assumptions C63_ellipsoid.
(** The grid runs once around in longitude and from pole to pole, both ends included. *)
Theorem C63_sphere_grid : forall (rad : R) center i j, (i < 20)%nat -> (j < 10)%nat ->
  let '(mk3 c0 c1 c2) := match center with Some v => v | None => null end in
  let u := 2 * PI * INR i / 19 in let v := PI * INR j / 9 in
  exists row, nth_error (get_sphere_coordinates (N:=RNum) rad center) i = Some row /\
    nth_error row j = Some (vec (c0 + rad * (cos u * sin v)) (c1 + rad * (sin u * sin v)) (c2 + rad * cos v)).
Proof. exact C63_sphere_grid_lem. Qed.
Print Assumptions C63_sphere_grid.
Theorem C63_ellipsoid_grid : forall (rx ry rz : R) center n i j, (2 <= n)%nat -> (i < n)%nat -> (j < n)%nat ->
  let '(mk3 c0 c1 c2) := match center with Some v => v | None => null end in
  let u := 2 * PI * INR i / INR (n - 1) in let v := PI * INR j / INR (n - 1) in
  exists row, nth_error (get_ellipsoid_coordinates (N:=RNum) rx ry rz center n) i = Some row /\
    nth_error row j = Some (vec (c0 + rx * (cos u * sin v)) (c1 + ry * (sin u * sin v)) (c2 + rz * cos v)).
Proof. exact C63_ellipsoid_grid_lem. Qed.
Print Assumptions C63_ellipsoid_grid.
(** the first point is the pole *)
Example C63_example : hd_error (hd [] (get_ellipsoid_coordinates (N:=RNum) 1 2 3 (Some (vec 4 5 6)) 50)) = Some (vec 4 5 9).
Proof.
  unfold get_ellipsoid_coordinates, linspace. cbn [map seq app hd hd_error center_or_zero]. f_equal.
  unfold ellipsoid_point, vec. cbn. rewrite ?Rmult_0_l, ?Rplus_0_r, sin_0, cos_0. f_equal; ring.
Qed.

(** C64 *)
Theorem C64_equal_axes : forall (xl yl zl : list R) (s : R), xl <> [] -> yl <> [] -> zl <> [] ->
  exists asp x0 x1 y0 y1 z0 z1 len,
    set_equal_axis (N:=RNum) xl yl zl s true = Ok [SetBoxAspect asp asp asp; SetXlim x0 x1; SetYlim y0 y1; SetZlim z0 z1] /\
    set_equal_axis (N:=RNum) xl yl zl s false = Ok [SetXlim x0 x1; SetYlim y0 y1] /\
    x1 - x0 = len /\ y1 - y0 = len /\ z1 - z0 = len /\
    (forall m n, is_min xl m -> is_max xl n -> x0 + x1 = m + n) /\
    (forall m n, is_min yl m -> is_max yl n -> y0 + y1 = m + n) /\
    (forall m n, is_min zl m -> is_max zl n -> z0 + z1 = m + n) /\
    (1 <= s -> (forall x, In x xl -> x0 <= x <= x1) /\ (forall y, In y yl -> y0 <= y <= y1) /\ (forall z, In z zl -> z0 <= z <= z1)).
Proof. exact C64_lem. Qed.
Print Assumptions C64_equal_axes.
Theorem C64_exact_limits : forall (xl yl zl : list R) (s xm xM ym yM zm zM r : R),
  is_min xl xm -> is_max xl xM -> is_min yl ym -> is_max yl yM -> is_min zl zm -> is_max zl zM ->
  is_max [xM - xm; yM - ym; zM - zm] r ->
  let lim m n := ((m + n) / 2 - s * r / 2, (m + n) / 2 + s * r / 2) in
  set_equal_axis (N:=RNum) xl yl zl s true =
    Ok [SetBoxAspect (N:=RNum) (r / 2) (r / 2) (r / 2); SetXlim (N:=RNum) (fst (lim xm xM)) (snd (lim xm xM));
        SetYlim (N:=RNum) (fst (lim ym yM)) (snd (lim ym yM)); SetZlim (N:=RNum) (fst (lim zm zM)) (snd (lim zm zM))] /\
  set_equal_axis (N:=RNum) xl yl zl s false =
    Ok [SetXlim (N:=RNum) (fst (lim xm xM)) (snd (lim xm xM)); SetYlim (N:=RNum) (fst (lim ym yM)) (snd (lim ym yM))].
Proof. exact C64_exact_lem. Qed.
Print Assumptions C64_exact_limits.
Example C64_example : is_min [1; 5; 2] 1 /\ is_max [1; 5; 2] 5.
Proof. repeat split; cbn; try tauto; intros x [<-|[<-|[<-|[]]]]; lra. Qed.
