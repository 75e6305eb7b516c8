(** Vocabulary for the statements about the two control laws (real arithmetic). *)
From Coq Require Import Reals ZArith List Bool.
From Verif Require Import RMath RLib Num Base Lyapunov RSpec.
Import ListNotations.
Local Open Scope R_scope.

(** All arguments of a control law except the state. *)
Record law_args : Type := mklaw {
  g_mu : R; g_f : R; g_T : vec5 RNum; g_rpmin : R; g_m : R; g_n : R; g_r : R; g_b : R; g_k : R; g_wp : R; g_w : vec5 RNum }.
Definition list5 (v : vec5 RNum) : list (@car RNum) := let 'mk5 a b c d e := v in [a; b; c; d; e].
Definition ask {A} (fn : R -> R -> vec6 RNum -> list (@car RNum) -> R -> R -> R -> R -> R -> R -> R -> vec5 RNum -> A)
  (p : law_args) (oe : vec6 RNum) : A :=
  fn (g_mu p) (g_f p) oe (list5 (g_T p)) (g_rpmin p) (g_m p) (g_n p) (g_r p) (g_b p) (g_k p) (g_wp p) (g_w p).
(** Parameters in their natural range. *)
Definition sound (p : law_args) : Prop :=
  let 'mk5 w0 w1 w2 w3 w4 := g_w p in
  0 < g_mu p /\ g_f p <> 0 /\ 0 < v5_0 (g_T p) /\ g_rpmin p <> 0 /\ 0 < g_m p /\ 0 < g_n p /\ g_r p <> 0 /\
  0 <= g_b p /\ 0 <= g_wp p /\ 0 <= w0 /\ 0 <= w1 /\ 0 <= w2 /\ 0 <= w3 /\ 0 <= w4.
(** (a,e,i,...) of an ellipse that is neither circular nor equatorial *)
Definition kep_state (oe : vec6 RNum) : Prop :=
  let 'mk6 a e i _ _ _ := oe in 0 < a /\ 0 < e < 1 /\ 0 < sin i.
(** (a,f,g,...) of an ellipse *)
Definition mee_state (oe : vec6 RNum) : Prop :=
  let 'mk6 a f g _ _ _ := oe in 0 < a /\ f * f + g * g < 1.
(** The Keplerian law raises (a-aT)/(m aT) to the power n_petro: that is a real number for all a only
    when n_petro is an even integer (the default is 4). *)
Definition power_ok (p : law_args) (oe : vec6 RNum) : Prop :=
  v5_0 (g_T p) <= v6_0 oe \/ exists j : Z, g_n p = IZR (2 * j).
(** [x] is irrelevant or equal to its target *)
Definition met (w x y : R) : Prop := w = 0 \/ x = y.
Definition met_angle (w x y : R) : Prop := w = 0 \/ same_angle x y.
(** value of Q as a function of the state *)
Definition Qof (fn : lyap_fn RNum) (p : law_args) (oe : vec6 RNum) : R :=
  match ask fn p oe with Ok out => lo_q out | Err _ => 0 end.
(** [d] holds the partial derivatives of [F] with respect to the first five elements *)
Definition partials (F : vec6 RNum -> R) (oe : vec6 RNum) (d : vec5 RNum) : Prop :=
  let 'mk6 a b c d' e l := oe in let 'mk5 d0 d1 d2 d3 d4 := d in
  derivable_pt_lim (fun t => F (elems t b c d' e l)) a d0 /\
  derivable_pt_lim (fun t => F (elems a t c d' e l)) b d1 /\
  derivable_pt_lim (fun t => F (elems a b t d' e l)) c d2 /\
  derivable_pt_lim (fun t => F (elems a b c t e l)) d' d3 /\
  derivable_pt_lim (fun t => F (elems a b c d' t l)) e d4.
(** At [t0] the first five components of [path] have derivatives [v]; nothing is asked of the sixth. *)
Definition slow_velocity (path : R -> vec6 RNum) (t0 : R) (v : vec5 RNum) : Prop :=
  let 'mk5 v0 v1 v2 v3 v4 := v in
  derivable_pt_lim (fun t => v6_0 (path t)) t0 v0 /\ derivable_pt_lim (fun t => v6_1 (path t)) t0 v1 /\
  derivable_pt_lim (fun t => v6_2 (path t)) t0 v2 /\ derivable_pt_lim (fun t => v6_3 (path t)) t0 v3 /\
  derivable_pt_lim (fun t => v6_4 (path t)) t0 v4.
(** Away from the kinks of the Keplerian Q (absolute values, arccos, and the a = aT point of the power). *)
Definition kep_smooth (p : law_args) (oe : vec6 RNum) : Prop :=
  let 'mk6 a e i ra om _ := oe in let 'mk5 aT _ _ raT omT := g_T p in
  a <> aT /\ cos i <> 0 /\ cos om <> 0 /\ sin om <> 0 /\ sin (ra - raT) <> 0 /\ sin (om - omT) <> 0.
Definition mee_smooth (p : law_args) (oe : vec6 RNum) : Prop :=
  let 'mk6 a f g _ _ _ := oe in a <> v5_0 (g_T p) /\ 0 < f * f + g * g.
