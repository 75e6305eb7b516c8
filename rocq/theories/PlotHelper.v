(** Model of the numerical part of pyqlaw/_plot_helper.py (the matplotlib calls themselves are
    represented by the arguments they receive). *)
From Coq Require Import ZArith List Bool.
From Verif Require Import Num Base.
Import ListNotations.
Local Open Scope num_scope.

Section PlotHelper.
Context {N : Num}.

Definition center_or_zero (c : option (vec3 N)) : vec3 N :=
  match c with Some v => v | None => v3zero end.

(** _plot_helper.py:8-27: the mesh point (x,y,z) at each (u,v) of np.mgrid[0:2pi:20j, 0:pi:10j]
    (a complex step means that many points, both ends included). *)
Definition sphere_point (radius : car) (c : vec3 N) (u v : car) : vec3 N :=
  let 'mk3 c0 c1 c2 := c in
  mk3 (c0 + radius * ncos u * nsin v) (c1 + radius * nsin u * nsin v) (c2 + radius * ncos v).
Definition get_sphere_coordinates (radius : car) (center : option (vec3 N)) : list (list (vec3 N)) :=
  let c := center_or_zero center in
  map (fun u => map (fun v => sphere_point radius c u v) (linspace ($0) npi 10))
      (linspace ($0) ($2 * npi) 20).

(** _plot_helper.py:45-70 *)
Definition ellipsoid_point (rx ry rz : car) (c : vec3 N) (u v : car) : vec3 N :=
  let 'mk3 c0 c1 c2 := c in
  mk3 (c0 + rx * (ncos u * nsin v)) (c1 + ry * (nsin u * nsin v)) (c2 + rz * ($1 * ncos v)).
Definition get_ellipsoid_coordinates (rx ry rz : car) (center : option (vec3 N)) (n : nat)
  : list (list (vec3 N)) :=
  let c := center_or_zero center in
  map (fun u => map (fun v => ellipsoid_point rx ry rz c u v) (linspace ($0) npi n))
      (linspace ($0) ($2 * npi) n).

(** Calls made on the axis object, in order. *)
Inductive ax_call : Type :=
| SetBoxAspect (a b c : car) | SetXlim (lo hi : car) | SetYlim (lo hi : car) | SetZlim (lo hi : car).

(** Python builtin max / min of a list: ValueError on an empty one *)
Definition pymaxl (l : list car) : Res car :=
  match l with [] => Err ValueError | x :: xs => Ok (fold_left pymax xs x) end.
Definition pyminl (l : list car) : Res car :=
  match l with [] => Err ValueError | x :: xs => Ok (fold_left pymin xs x) end.

(** _plot_helper.py:91-115.  [ndarray.max] of three finite numbers. *)
Definition set_equal_axis (xl yl zl : list car) (scale : car) (dim3 : bool) : Res (list ax_call) :=
  do xM <- pymaxl xl; do xm <- pyminl xl;
  do yM <- pymaxl yl; do ym <- pyminl yl;
  do zM <- pymaxl zl; do zm <- pyminl zl;
  let mr := pymax (pymax (xM - xm) (yM - ym)) (zM - zm) / $2 in
  let mid_x := (xM + xm) * dec 5 1 in
  let mid_y := (yM + ym) * dec 5 1 in
  let mid_z := (zM + zm) * dec 5 1 in
  Ok ((if dim3 then [SetBoxAspect mr mr mr] else [])
      ++ [SetXlim (mid_x - mr * scale) (mid_x + mr * scale);
          SetYlim (mid_y - mr * scale) (mid_y + mr * scale)]
      ++ (if dim3 then [SetZlim (mid_z - mr * scale) (mid_z + mr * scale)] else [])).
End PlotHelper.
