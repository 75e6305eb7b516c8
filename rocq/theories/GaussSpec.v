(** Vocabulary for statements about motion: derivatives of vectors, the radial-transverse-normal frame,
    two-body acceleration. *)
From Coq Require Import Reals ZArith List Bool.
From Verif Require Import RMath RLib Num Base RSpec.
Import ListNotations.
Local Open Scope R_scope.

(** [d] is the derivative of the vector function [F] at [t] *)
Definition dvec (F : R -> vec3 RNum) (t : R) (d : vec3 RNum) : Prop :=
  derivable_pt_lim (fun s => v3_0 (F s)) t (v3_0 d) /\ derivable_pt_lim (fun s => v3_1 (F s)) t (v3_1 d) /\
  derivable_pt_lim (fun s => v3_2 (F s)) t (v3_2 d).
Definition velocity6 (path : R -> vec6 RNum) (t : R) (d : vec6 RNum) : Prop :=
  derivable_pt_lim (fun s => v6_0 (path s)) t (v6_0 d) /\ derivable_pt_lim (fun s => v6_1 (path s)) t (v6_1 d) /\
  derivable_pt_lim (fun s => v6_2 (path s)) t (v6_2 d) /\ derivable_pt_lim (fun s => v6_3 (path s)) t (v6_3 d) /\
  derivable_pt_lim (fun s => v6_4 (path s)) t (v6_4 d) /\ derivable_pt_lim (fun s => v6_5 (path s)) t (v6_5 d).
(** inertial vector of the components [F] = (radial, transverse, normal) in the orbit of [r], [v] *)
Definition from_rtn (r v F : vec3 RNum) : vec3 RNum :=
  let R := scale (/ norm r) r in
  let W := scale (/ norm (cross r v)) (cross r v) in
  let T := cross W R in
  let 'mk3 x y z := F in add (add (scale x R) (scale y T)) (scale z W).
(** acceleration of a body attracted by [mu] at the origin and pushed by [F] (rtn components) *)
Definition pushed (mu : R) (r v F : vec3 RNum) : vec3 RNum :=
  add (scale (- mu / norm r ^ 3) r) (from_rtn r v F).
(** [near t0 P]: [P] holds around [t0] *)
Definition near (t0 : R) (P : R -> Prop) : Prop := exists d, 0 < d /\ forall t, Rabs (t - t0) < d -> P t.
(** Around [t0] the Cartesian state [cart (path t)] exists and moves as Newton says. *)
Definition newton (cart : vec6 RNum -> Res (vec6 RNum)) (mu : R) (F : vec3 RNum) (path : R -> vec6 RNum) (t0 : R) : Prop :=
  exists r v, near t0 (fun t => cart (path t) = Ok (concat33 (r t) (v t))) /\
    dvec r t0 (v t0) /\ dvec v t0 (pushed mu (r t0) (v t0) F).

(** textbook Cartesian states of (a,f,g,h,k,L) and of (p,f,g,h,k,L) *)
Definition mee_cart (mu : R) (oe : vec6 RNum) : Res (vec6 RNum) :=
  let 'mk6 a f g h k l := oe in Ok (concat33 (mee_r a f g h k l) (mee_v mu a f g h k l)).
Definition mee_p_cart (mu : R) (oe : vec6 RNum) : Res (vec6 RNum) :=
  let 'mk6 p f g h k l := oe in mee_cart mu (elems (p / (1 - f * f - g * g)) f g h k l).
(** straight motion from [oe] with velocity [d] *)
Definition straight (oe d : vec6 RNum) (t : R) : vec6 RNum := v6add (N:=RNum) oe (v6scal (N:=RNum) t d).
