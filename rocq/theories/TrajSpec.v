(** Vocabulary of the statements about trajectory figures (C79). *)
From Coq Require Import Reals List.
From Verif Require Import RMath Num Base Perturb PlotHelper PlotMethods RSpec GaussSpec ExportSpec.
Import ListNotations.
Local Open Scope R_scope.

(** [n] positions of the orbit with elements [oe] (in the element set [et]), equally spaced in its angle over one
    revolution, first and last coinciding. *)
Definition on_orbit (et : etype) (mu : R) (oe : vec6 RNum) (l : R) : vec3 RNum :=
  let 'mk6 a x y z w _ := oe in rpart (cart_state et mu (elems a x y z w l)).
Definition revolution (et : etype) (mu : R) (oe : vec6 RNum) (n : nat) (pts : list (vec3 RNum)) : Prop :=
  length pts = n /\ exists l0, forall j q, nth_error pts j = Some q -> q = on_orbit et mu oe (l0 + 2 * PI * INR j / INR (n - 1)).
Definition draw2 (pts : list (vec3 RNum)) : drawing RNum := Line (N:=RNum) (map v3_0 pts) (map v3_1 pts).
Definition draw3 (pts : list (vec3 RNum)) : drawing RNum := Curve3 (N:=RNum) (map v3_0 pts) (map v3_1 pts) (map v3_2 pts).
Definition dot2 (q : vec3 RNum) : drawing RNum := Dot (N:=RNum) [v3_0 q; v3_1 q].
Definition dot3 (q : vec3 RNum) : drawing RNum := Dot (N:=RNum) [v3_0 q; v3_1 q; v3_2 q].
(** Axis calls with limits of one common length, [scale] times the largest extent of the data, centred on the data. *)
Definition limits (xs ys zs : list R) (scale : R) (calls : list (ax_call (N:=RNum))) : Prop :=
  exists xm xM ym yM zm zM r, is_min xs xm /\ is_max xs xM /\ is_min ys ym /\ is_max ys yM /\ is_min zs zm /\ is_max zs zM /\
    is_max [xM - xm; yM - ym; zM - zm] r /\
    calls = [SetBoxAspect (N:=RNum) (r / 2) (r / 2) (r / 2);
             SetXlim (N:=RNum) ((xm + xM) / 2 - scale * r / 2) ((xm + xM) / 2 + scale * r / 2);
             SetYlim (N:=RNum) ((ym + yM) / 2 - scale * r / 2) ((ym + yM) / 2 + scale * r / 2);
             SetZlim (N:=RNum) ((zm + zM) / 2 - scale * r / 2) ((zm + zM) / 2 + scale * r / 2)].
(** the point [q] is inside the limits *)
Definition visible (calls : list (ax_call (N:=RNum))) (q : vec3 RNum) : Prop :=
  exists asp x0 x1 y0 y1 z0 z1, calls = [asp; SetXlim (N:=RNum) x0 x1; SetYlim (N:=RNum) y0 y1; SetZlim (N:=RNum) z0 z1] /\
    x0 <= v3_0 q <= x1 /\ y0 <= v3_1 q <= y1 /\ z0 <= v3_2 q <= z1.
