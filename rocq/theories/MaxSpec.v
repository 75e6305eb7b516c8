(** Vocabulary for "the largest rate over one revolution and all thrust directions". *)
From Coq Require Import Reals ZArith List Bool.
From Verif Require Import RMath RLib Num Base Lyapunov RSpec LawSpec.
Import ListNotations.
Local Open Scope R_scope.

Definition with_anomaly (ta : R) (oe : vec6 RNum) : vec6 RNum := let 'mk6 a b c d e _ := oe in elems a b c d e ta.
(** kinds of acceleration vectors (radial, transverse, normal) *)
Definition any_push (u : vec3 RNum) : Prop := True.
Definition in_plane_push (u : vec3 RNum) : Prop := v3_2 u = 0.
Definition normal_push (u : vec3 RNum) : Prop := v3_0 u = 0 /\ v3_1 u = 0.
(** rate of the slow element selected by [comp] at anomaly [ta] under [u], according to the law's own psi *)
Definition rate_is (fn : lyap_fn RNum) (p : law_args) (oe : vec6 RNum) (comp : vec5 RNum -> R) (ta : R) (u : vec3 RNum) (x : R) : Prop :=
  exists out, ask fn p (with_anomaly ta oe) = Ok out /\ comp (slow_rate (lo_psi out) u) = x.
Definition bounds_rate fn (p : law_args) oe (kind : vec3 RNum -> Prop) comp (N : R) : Prop :=
  forall ta u x, norm u <= g_f p -> kind u -> rate_is fn p oe comp ta u x -> Rabs x <= N.
Definition max_rate fn (p : law_args) oe (kind : vec3 RNum -> Prop) comp (N : R) : Prop :=
  bounds_rate fn p oe kind comp N /\ exists ta u, norm u = g_f p /\ kind u /\ rate_is fn p oe comp ta u N.

(** periapsis penalty and scaling of the semimajor axis term *)
Definition penalty (p : law_args) (a e : R) : R := 1 + g_wp p * exp (g_k p * (1 - a * (1 - e) / g_rpmin p)).
Definition a_scaling (p : law_args) (x : R) : R := npow (Num:=RNum) (1 + npow (Num:=RNum) (x / (g_m p * v5_0 (g_T p))) (g_n p)) (1 / g_r p).
(** what the equinoctial law divides by, and the largest rates of h and k *)
Definition mee_q (p : law_args) (a f g : R) : R := sqrt (a * (1 - f * f - g * g) / g_mu p).
Definition mee_div_f (p : law_args) (a f g : R) : R := 2 * g_f p * mee_q p a f g.
Definition mee_div_h (p : law_args) (a f g h k : R) : R :=
  1 / 2 * g_f p * mee_q p a f g * (1 + h * h + k * k) / (sqrt (1 - g * g) + f).
Definition mee_div_k (p : law_args) (a f g h k : R) : R :=
  1 / 2 * g_f p * mee_q p a f g * (1 + h * h + k * k) / (sqrt (1 - f * f) + g).
Definition mee_max_h (p : law_args) (a f g h k : R) : R :=
  1 / 2 * g_f p * mee_q p a f g * (1 + h * h + k * k) / (sqrt (1 - g * g) - Rabs f).
Definition mee_max_k (p : law_args) (a f g h k : R) : R :=
  1 / 2 * g_f p * mee_q p a f g * (1 + h * h + k * k) / (sqrt (1 - f * f) - Rabs g).
