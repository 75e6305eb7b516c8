(** Vocabulary of the statements about runs backward in time in double precision. *)
From Coq Require Import ZArith List Bool Floats.SpecFloat.
From Verif Require Import Num Base Perturb Qlaw Float64 FloatSpec.

(** The level at or below which solve() takes the battery for empty (_qlaw.py:409). *)
Definition empty_level {L : libm} (p : problem (FNum L)) : f64 := nadd (Num:=FNum L) (p_cap_lo p) (dec (N:=FNum L) 1 12).

(** A backward problem with fixed RK4 steps whose scalar data are finite doubles; the battery drains at a rate that is
    not negative, and both its initial level and its capacity are above the empty level. *)
Definition backward64 {L : libm} (o : qlaw (FNum L)) (p : problem (FNum L)) : Prop :=
  q_sundman o = false /\ q_integ o = RK4 /\ fin (p_t_step p) /\ fle (p_t_step p) f0 /\ fle f0 (p_duty_on p) /\
  fin (p_batt0 p) /\ fin (p_cap_lo p) /\ fin (p_cap_hi p) /\ fin (p_discharge p) /\ fle f0 (p_discharge p) /\
  flt (empty_level p) (p_batt0 p) /\ flt (empty_level p) (p_cap_hi p).
