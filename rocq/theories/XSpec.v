(** Vocabulary of the statements about time, mass and battery, over extended reals. *)
From Coq Require Import Reals ZArith List Bool.
From Verif Require Import RMath Num Base Perturb Qlaw.
Import ListNotations.
Local Open Scope R_scope.

(** Scalar parameters of a problem, all finite. *)
Record params : Type := mkpar {
  a_mass0 : R; a_mdot : R; a_tf : R; a_ts : R; a_mmin : R; a_on : R; a_off : R;
  a_b0 : R; a_lo : R; a_hi : R; a_ch : R; a_dis : R; a_full : bool }.

Definition finite_problem (p : problem XNum) (a : params) : Prop :=
  p_mass0 p = Fin (a_mass0 a) /\ p_mdot p = Fin (a_mdot a) /\ p_tf_max p = Fin (a_tf a) /\
  p_t_step p = Fin (a_ts a) /\ p_mass_min p = Fin (a_mmin a) /\ p_duty_on p = Fin (a_on a) /\
  p_duty_off p = Fin (a_off a) /\ p_batt0 p = Fin (a_b0 a) /\ p_cap_lo p = Fin (a_lo a) /\
  p_cap_hi p = Fin (a_hi a) /\ p_charge p = Fin (a_ch a) /\ p_discharge p = Fin (a_dis a) /\
  p_full p = a_full a.

(** Fixed step, finite parameters, finite positive adaptive-step limits (those of the constructor
    are 1e-4 and 2). *)
Definition regular (o : qlaw XNum) (p : problem XNum) (a : params) : Prop :=
  finite_problem p a /\ q_sundman o = false /\
  exists smin smax, q_step_min o = Fin smin /\ q_step_max o = Fin smax /\ 0 < smin <= smax.

(** Entry [k] of a numeric history is the finite number [x]. *)
Definition entry (l : list ereal) (k : nat) (x : R) : Prop := nth_error l k = Some (Fin x).
(** Step [k] was flown with throttle [thr]. *)
Definition throttle {N : Num} (h : hist N) (k : nat) (thr : Z) : Prop :=
  nth_error (map snd (h_controls h)) k = Some thr.

(** Smallest time step a forward run can take: the nominal one, or the time to drain the 1e-12 that
    separates "depleted" from "not depleted". *)
Definition smallest_step (a : params) : R :=
  if Rltb 0 (a_dis a) then Rmin (a_ts a) (1 / 10 ^ 12 / a_dis a) else a_ts a.

(** Finite slow elements; finite Gauss matrix. *)
Definition finite6 (y : vec6 XNum) : Prop := exists a b c d e x,
  y = mk6 (N:=XNum) (Fin a) (Fin b) (Fin c) (Fin d) (Fin e) x.
Definition finite_psi (psi : psi_t XNum) : Prop := exists a0 a1 a2 a3 a4 b0 b1 b2 b3 b4 c0 c1 c2 c3 c4,
  psi = mkpsi (N:=XNum) (mk5 (N:=XNum) (Fin a0) (Fin a1) (Fin a2) (Fin a3) (Fin a4))
              (mk5 (N:=XNum) (Fin b0) (Fin b1) (Fin b2) (Fin b3) (Fin b4))
              (mk5 (N:=XNum) (Fin c0) (Fin c1) (Fin c2) (Fin c3) (Fin c4)).
