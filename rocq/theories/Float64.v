(** Fourth instance of the numeric structure: IEEE 754 binary64 numbers, round to nearest even.  The arithmetic is that of
    the standard library's specification (Coq.Floats.SpecFloat); a number is a [spec_float] that fits the format (there is
    one nan).  The elementary functions are those of an arbitrary library [libm], of which nothing is assumed.
    Not modelled: x**2 and x**3 are products here; decimal literals m*10^-e are correctly rounded quotients. *)
From Coq Require Import ZArith Bool Floats.SpecFloat.
From Verif Require Import Num.

Record f64 : Type := mkf64 { f_val : spec_float; f_ok : valid_binary 53 1024 f_val = true }.
(** a [spec_float] as a number of the format; FloatProofs shows that the test never fails on results of the operations *)
Definition pack (x : spec_float) : f64 :=
  match bool_dec (valid_binary 53 1024 x) true with
  | left H => mkf64 x H
  | right _ => mkf64 S754_nan eq_refl
  end.

Record libm : Type := mklibm {
  m_sin : f64 -> f64; m_cos : f64 -> f64; m_tan : f64 -> f64; m_atan : f64 -> f64; m_acos : f64 -> f64;
  m_exp : f64 -> f64; m_atan2 : f64 -> f64 -> f64; m_pow : f64 -> f64 -> f64; m_mod : f64 -> f64 -> f64 }.

Definition f_isnan (x : f64) : bool := match f_val x with S754_nan => true | _ => false end.

Definition FNum (L : libm) : Num := {|
  car := f64;
  nadd := fun x y => pack (SFadd 53 1024 (f_val x) (f_val y)); nsub := fun x y => pack (SFsub 53 1024 (f_val x) (f_val y));
  nmul := fun x y => pack (SFmul 53 1024 (f_val x) (f_val y)); ndiv := fun x y => pack (SFdiv 53 1024 (f_val x) (f_val y));
  nopp := fun x => pack (SFopp (f_val x)); nabs := fun x => pack (SFabs (f_val x));
  nsqrt := fun x => pack (SFsqrt 53 1024 (f_val x));
  nsin := m_sin L; ncos := m_cos L; ntan := m_tan L; natan := m_atan L; nacos := m_acos L; nexp := m_exp L;
  natan2 := m_atan2 L; npow := m_pow L; nmod := m_mod L;
  npi := pack (S754_finite false 7074237752028440 (-51)); ninf := pack (S754_infinity false); nnan := pack S754_nan;
  nofZ := fun z => pack (binary_normalize 53 1024 z 0 false);
  nltb := fun x y => SFltb (f_val x) (f_val y); nleb := fun x y => SFleb (f_val x) (f_val y);
  neqb := fun x y => SFeqb (f_val x) (f_val y);
  nisnan := f_isnan |}.
