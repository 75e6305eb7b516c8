(** Vocabulary of the statements about runs in double precision. *)
From Coq Require Import ZArith List Bool Floats.SpecFloat.
From Verif Require Import Num Base Perturb Qlaw Float64.

(** Comparisons of doubles (false when one of them is nan), and being neither infinite nor nan. *)
Definition fle (x y : f64) : Prop := SFleb (f_val x) (f_val y) = true.
Definition flt (x y : f64) : Prop := SFltb (f_val x) (f_val y) = true.
Definition fin (x : f64) : Prop := match f_val x with S754_zero _ | S754_finite _ _ _ => True | _ => False end.
Definition isnan (x : f64) : Prop := f_val x = S754_nan.
Definition f0 : f64 := pack (S754_zero false).

(** A forward problem whose scalar data are finite doubles; the step is fixed. *)
Definition forward64 {L : libm} (o : qlaw (FNum L)) (p : problem (FNum L)) : Prop :=
  q_sundman o = false /\ fin (p_t_step p) /\ fle f0 (p_t_step p) /\
  fin (p_batt0 p) /\ fin (p_cap_lo p) /\ fin (p_cap_hi p) /\ fin (p_discharge p).

(** [x] is the double whose value is [n * 2^e], with [n >= 0]. *)
Definition worth (x : f64) (n e : Z) : Prop :=
  match f_val x with
  | S754_zero _ => n = 0%Z
  | S754_finite false m e' => (Zpos m * 2 ^ (e' - Z.min e e') = n * 2 ^ (e - Z.min e e'))%Z
  | _ => False
  end.
