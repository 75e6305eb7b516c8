(** Abstract numeric structure the model is written against, and its instances.
    The Python code computes with numpy float64 scalars; [Num] lists the primitive operations it
    uses.  Nothing is assumed about them: a theorem stated for every [N : Num] holds in particular
    for IEEE doubles. *)
From Coq Require Import Reals ZArith QArith Qreduction Qabs Bool.
From Verif Require Import RMath.

Class Num : Type := mkNum {
  car : Type;
  nadd : car -> car -> car; nsub : car -> car -> car;
  nmul : car -> car -> car; ndiv : car -> car -> car;      (* numpy-style division, never raises *)
  nopp : car -> car; nabs : car -> car; nsqrt : car -> car;
  nsin : car -> car; ncos : car -> car; ntan : car -> car;
  natan : car -> car; nacos : car -> car; nexp : car -> car;
  natan2 : car -> car -> car;   (* y x *)
  npow : car -> car -> car;     (* x ** y *)
  nmod : car -> car -> car;     (* x % y *)
  npi : car; ninf : car; nnan : car;
  nofZ : Z -> car;
  nltb : car -> car -> bool; nleb : car -> car -> bool; neqb : car -> car -> bool;
  nisnan : car -> bool
}.

Declare Scope num_scope.
Delimit Scope num_scope with num.
Notation "x + y" := (nadd x y) : num_scope.
Notation "x - y" := (nsub x y) : num_scope.
Notation "x * y" := (nmul x y) : num_scope.
Notation "x / y" := (ndiv x y) : num_scope.
Notation "- x" := (nopp x) : num_scope.
Notation "x <? y" := (nltb x y) : num_scope.
Notation "x <=? y" := (nleb x y) : num_scope.
Notation "x =? y" := (neqb x y) : num_scope.
Notation "$ z" := (nofZ z%Z) (at level 1, z at level 0, format "$ z") : num_scope.

(** Decimal literals m * 10^-e. *)
Definition dec {N : Num} (m : Z) (e : nat) : car := ndiv (nofZ m) (nofZ (10 ^ Z.of_nat e)%Z).
(** x**2, x**3 with literal integer exponents. *)
Definition sq {N : Num} (x : car) : car := nmul x x.
Definition cube {N : Num} (x : car) : car := nmul (nmul x x) x.
(** Python's builtin max(a,b), min(a,b): the first argument unless the second is strictly
    larger / smaller. *)
Definition pymax {N : Num} (a b : car) : car := if nltb a b then b else a.
Definition pymin {N : Num} (a b : car) : car := if nltb b a then b else a.
(** np.clip(x, lo, hi) = minimum(maximum(x,lo),hi); a nan [x] stays nan because every
    comparison with it is false. *)
Definition npclip {N : Num} (x lo hi : car) : car :=
  let m := if nltb x lo then lo else x in if nltb hi m then hi else m.
(** np.sign: -1, 0, 1, and nan on nan. *)
Definition npsign {N : Num} (x : car) : car :=
  if nltb x (nofZ 0) then nofZ (-1) else if nltb (nofZ 0) x then nofZ 1 else x.

(** ** Instance 1: exact real numbers (no nan, no infinities). *)
Definition RNum : Num := {|
  car := R;
  nadd := Rplus; nsub := Rminus; nmul := Rmult; ndiv := Rdiv;
  nopp := Ropp; nabs := Rabs; nsqrt := sqrt;
  nsin := sin; ncos := cos; ntan := tan; natan := atan; nacos := acos; nexp := exp;
  natan2 := Ratan2;
  npow := fun x y => match Rpowo x y with Some z => z | None => 0%R end;
  nmod := Rfmod;
  npi := PI; ninf := 0%R; nnan := 0%R;   (* placeholders: no theorem over RNum observes them *)
  nofZ := IZR;
  nltb := Rltb; nleb := Rleb; neqb := Reqb;
  nisnan := fun _ => false |}.

(** ** Instance 2: extended reals with nan (exact arithmetic, numpy special-value rules;
    zero is unsigned, so x/0 = sign(x)*inf). *)
Inductive ereal : Type := Fin (r : R) | PInf | MInf | NaN.

Definition xsgn (x : ereal) : R :=    (* sign used for infinite results *)
  match x with
  | Fin r => if Rltb r 0 then (-1)%R else if Rltb 0 r then 1%R else 0%R
  | PInf => 1%R | MInf => (-1)%R | NaN => 0%R
  end.
Definition xinf (s : R) : ereal := if Rltb s 0 then MInf else if Rltb 0 s then PInf else NaN.

Definition xopp (x : ereal) : ereal :=
  match x with Fin a => Fin (- a) | PInf => MInf | MInf => PInf | NaN => NaN end.
Definition xadd (x y : ereal) : ereal :=
  match x, y with
  | NaN, _ | _, NaN => NaN
  | Fin a, Fin b => Fin (a + b)
  | PInf, MInf | MInf, PInf => NaN
  | PInf, _ | _, PInf => PInf
  | MInf, _ | _, MInf => MInf
  end.
Definition xsub (x y : ereal) : ereal :=
  match x, y with Fin a, Fin b => Fin (a - b) | _, _ => xadd x (xopp y) end.
Definition xmul (x y : ereal) : ereal :=
  match x, y with
  | NaN, _ | _, NaN => NaN
  | Fin a, Fin b => Fin (a * b)
  | _, _ => xinf (xsgn x * xsgn y)
  end.
Definition xdiv (x y : ereal) : ereal :=
  match x, y with
  | NaN, _ | _, NaN => NaN
  | Fin a, Fin b => if Reqb b 0 then xinf (xsgn x) else Fin (a / b)
  | Fin _, _ => Fin 0
  | _, Fin b => if Reqb b 0 then x else xinf (xsgn x * xsgn y)
  | _, _ => NaN
  end.
Definition xabs (x : ereal) : ereal :=
  match x with Fin a => Fin (Rabs a) | PInf | MInf => PInf | NaN => NaN end.
Definition xsqrt (x : ereal) : ereal :=
  match x with
  | Fin a => if Rltb a 0 then NaN else Fin (sqrt a)
  | PInf => PInf | MInf => NaN | NaN => NaN
  end.
(** functions that are finite on finite arguments and nan elsewhere (sin, cos, tan of inf) *)
Definition xlift (f : R -> R) (x : ereal) : ereal := match x with Fin a => Fin (f a) | _ => NaN end.
Definition xatan (x : ereal) : ereal :=
  match x with Fin a => Fin (atan a) | PInf => Fin (PI / 2) | MInf => Fin (- (PI / 2)) | NaN => NaN end.
Definition xacos (x : ereal) : ereal :=
  match x with Fin a => if Rleb (-1) a && Rleb a 1 then Fin (acos a) else NaN | _ => NaN end.
Definition xexp (x : ereal) : ereal :=
  match x with Fin a => Fin (exp a) | PInf => PInf | MInf => Fin 0 | NaN => NaN end.
(** infinite arguments of atan2 / pow / % are collapsed to nan (not reached by any theorem) *)
Definition xatan2 (y x : ereal) : ereal :=
  match y, x with Fin a, Fin b => Fin (Ratan2 a b) | _, _ => NaN end.
Definition xpow (x y : ereal) : ereal :=
  match x, y with
  | Fin a, Fin b => match Rpowo a b with Some z => Fin z | None => NaN end
  | _, _ => NaN
  end.
Definition xmod (x y : ereal) : ereal :=
  match x, y with Fin a, Fin b => if Reqb b 0 then NaN else Fin (Rfmod a b) | _, _ => NaN end.
Definition xltb (x y : ereal) : bool :=
  match x, y with
  | NaN, _ | _, NaN => false
  | Fin a, Fin b => Rltb a b
  | MInf, MInf => false | MInf, _ => true
  | _, MInf => false
  | PInf, _ => false
  | _, PInf => true
  end.
Definition xeqb (x y : ereal) : bool :=
  match x, y with
  | Fin a, Fin b => Reqb a b
  | PInf, PInf | MInf, MInf => true
  | _, _ => false
  end.
Definition xleb (x y : ereal) : bool := xltb x y || xeqb x y.
Definition xisnan (x : ereal) : bool := match x with NaN => true | _ => false end.

Definition XNum : Num := {|
  car := ereal;
  nadd := xadd; nsub := xsub; nmul := xmul; ndiv := xdiv;
  nopp := xopp; nabs := xabs; nsqrt := xsqrt;
  nsin := xlift sin; ncos := xlift cos; ntan := xlift tan; natan := xatan; nacos := xacos;
  nexp := xexp; natan2 := xatan2; npow := xpow; nmod := xmod;
  npi := Fin PI; ninf := PInf; nnan := NaN;
  nofZ := fun z => Fin (IZR z);
  nltb := xltb; nleb := xleb; neqb := xeqb;
  nisnan := xisnan |}.

(** ** Instance 3: rationals, only used to *run* the bookkeeping of the model on concrete data
    (transcendental operations are stubs; [None] is nan). *)
Definition qlift2 (f : Q -> Q -> Q) (x y : option Q) : option Q :=
  match x, y with Some a, Some b => Some (Qred (f a b)) | _, _ => None end.
Definition qcmp (f : Q -> Q -> bool) (x y : option Q) : bool :=
  match x, y with Some a, Some b => f a b | _, _ => false end.
Definition QNum : Num := {|
  car := option Q;
  nadd := qlift2 Qplus; nsub := qlift2 Qminus; nmul := qlift2 Qmult;
  ndiv := fun x y => match y with
                     | Some b => if Qeq_bool b 0 then None else qlift2 Qdiv x y
                     | None => None end;
  nopp := option_map Qopp; nabs := option_map Qabs; nsqrt := fun x => x;
  nsin := fun x => x; ncos := fun x => x; ntan := fun x => x; natan := fun x => x;
  nacos := fun x => x; nexp := fun x => x;
  natan2 := fun y _ => y; npow := fun x _ => x; nmod := fun x _ => x;
  npi := Some (355 # 113)%Q; ninf := Some (inject_Z (10 ^ 300)); nnan := None;
  nofZ := fun z => Some (inject_Z z);
  nltb := qcmp (fun a b => negb (Qle_bool b a)); nleb := qcmp Qle_bool; neqb := qcmp Qeq_bool;
  nisnan := fun x => match x with None => true | Some _ => false end |}.
