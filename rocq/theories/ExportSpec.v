(** Vocabulary of the statements about exported results and plots. *)
From Coq Require Import Reals ZArith List Bool.
From Verif Require Import RMath Num Base Perturb PlotMethods RSpec GaussSpec.
Import ListNotations.
Local Open Scope R_scope.

(** The recorded elements describe an ellipse. *)
Definition elliptic (et : etype) (st : vec6 RNum) : Prop :=
  let 'mk6 a x y _ _ _ := st in
  match et with Keplerian => 0 < a /\ 0 <= x < 1 | MeeWithA => 0 < a /\ x * x + y * y < 1 end.
(** Textbook Cartesian state of recorded elements. *)
Definition cart_state (et : etype) (mu : R) (st : vec6 RNum) : vec6 RNum :=
  let 'mk6 a x y z w l := st in
  match et with
  | Keplerian => concat33 (kep_r a x y z w l) (kep_v mu a x y z w l)
  | MeeWithA => concat33 (mee_r a x y z w l) (mee_v mu a x y z w l)
  end.
(** The conversions of this package keep the periapsis direction of [st]. *)
Definition faithful (et : etype) (st : vec6 RNum) : Prop :=
  let 'mk6 _ f g h k _ := st in match et with Keplerian => True | MeeWithA => periapsis_kept f g h k end.

(** [fn] takes the prescribed values [ys] at the abscissae [xs]. *)
Definition through (xs ys : list R) (fn : R -> Res R) : Prop :=
  forall i x y, nth_error xs i = Some x -> nth_error ys i = Some y -> fn x = Ok y.
(** [round] is a rounding to nearest. *)
Definition nearest (round : R -> Res Z) : Prop :=
  forall x, exists z, round x = Ok z /\ Rabs (IZR z - x) <= 1 / 2.

(** Sample [k] of a drawn curve; number of samples. *)
Definition sample {N : Num} (d : drawing N) (k : nat) (x y : car) : Prop :=
  match d with
  | Line xs ys | Steps xs ys => nth_error xs k = Some x /\ nth_error ys k = Some y
  | _ => False
  end.
Definition samples {N : Num} (d : drawing N) (n : nat) : Prop :=
  match d with Line xs ys | Steps xs ys => length xs = n /\ length ys = n | _ => False end.
(** What a step curve shows at abscissa [x]. *)
Definition shown {N : Num} (d : drawing N) (x : car) : option car :=
  match d with Steps xs ys => step_pre None xs ys x | _ => None end.
(** [y] is the angle [x] (radians) in degrees, brought into [0, 360) by whole turns. *)
Definition in_degrees (x y : R) : Prop := (exists n : Z, y = (x + 2 * PI * IZR n) * 180 / PI) /\ 0 <= y < 360.
