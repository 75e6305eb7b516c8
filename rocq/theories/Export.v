(** Model of the result accessors of pyqlaw/_qlaw.py: interpolation and Cartesian history, printed
    summary, exported dictionary. *)
From Coq Require Import ZArith List Bool.
From Verif Require Import Num Base Elements Convergence Lyapunov Perturb Qlaw.
Import ListNotations.
Local Open Scope num_scope.

Section Export.
Context {N : Num}.

(** l[i] on a Python list *)
Definition item {A} (l : list A) (i : nat) : Res A :=
  match nth_error l i with Some x => Ok x | None => Err IndexError end.
Definition last_item {A} (l : list A) : Res A :=
  match l with [] => Err IndexError | x :: xs => Ok (List.last xs x) end.

(** The conversion chosen by self.elements_type (lines 674-677 and 682-685) *)
Definition to_cartesian (o : qlaw N) (st : vec6 N) : Res (vec6 N) :=
  match q_etype o with
  | Keplerian => kep2sv st (q_mu o)
  | MeeWithA => mee_with_a2sv st (q_mu o)
  end.

(** _qlaw.py:663-689 with interpolate=False: the columns of cart *)
Definition get_cartesian_history (o : qlaw N) (h : hist N) : Res (list (vec6 N)) :=
  mapM (fun idx => do st <- item (h_states h) idx; to_cartesian o st) (seq 0 (length (h_times h))).

(** scipy's interp1d(x, y, kind): building it and calling it may both fail; what it computes is a
    parameter of the model. *)
Definition interp_fn : Type := list car -> list car -> Res (car -> Res car).

(** _qlaw.py:648-660; the six rows of state_matrix are interpolated separately. *)
Definition interpolate_states (interp1d : interp_fn) (h : hist N) : Res (car -> Res (vec6 N)) :=
  do fa <- interp1d (h_times h) (map v6_0 (h_states h));
  do fe <- interp1d (h_times h) (map v6_1 (h_states h));
  do fi <- interp1d (h_times h) (map v6_2 (h_states h));
  do fr <- interp1d (h_times h) (map v6_3 (h_states h));
  do fo <- interp1d (h_times h) (map v6_4 (h_states h));
  do ft <- interp1d (h_times h) (map v6_5 (h_states h));
  Ok (fun t => do a <- fa t; do e <- fe t; do i <- fi t; do r <- fr t; do om <- fo t; do ta <- ft t;
               Ok (mk6 a e i r om ta)).

(** _qlaw.py:669.  [round]: Python's int(round(x)), which may raise on nan and infinities. *)
Definition default_steps (round : car -> Res Z) (tf : car) : Res Z :=
  do r <- round (tf / dec 1 2); Ok (Z.min 8000 (Z.abs r)).

(** _qlaw.py:665-677 with 686-689: the columns of cart, and t_evals.  A negative number of samples is
    rejected by numpy. *)
Definition get_cartesian_history_interp (interp1d : interp_fn) (round : car -> Res Z) (steps : option Z)
  (o : qlaw N) (h : hist N) : Res (list (vec6 N) * list car) :=
  do f <- interpolate_states interp1d h;
  do tf <- last_item (h_times h);
  do n <- match steps with None => default_steps round tf | Some n => Ok n end;
  do t0 <- item (h_times h) 0;
  if Z.ltb n 0 then Err ValueError else
  let t_evals := linspace t0 tf (Z.to_nat n) in
  do cart <- mapM (fun t => do st <- f t; to_cartesian o st) t_evals;
  Ok (cart, t_evals).

(** _qlaw.py:703-715: the numbers printed by pretty_results: the final slow elements, each with its
    error, then transfer time and final mass. *)
Definition pretty_results (p : problem N) (h : hist N) : Res (list (car * car) * car * car) :=
  do st <- last_item (h_states h);
  do rows <- mapM (fun i => do x <- item (vec6_to_list st) i; do xT <- item (p_oeT p) i; Ok (x, nabs (x - xT)))
                  [0; 1; 2; 3; 4]%nat;
  do tf <- last_item (h_times h);
  do m <- last_item (h_masses h);
  Ok (rows, tf, m).

(** _qlaw.py:728-760: t0, tf, times, states (+ mass), controls; the json file is in Json.v.
    [angles]: save_control_angles. *)
Record saved : Type := mksaved {
  sv_t0 : car; sv_tf : car; sv_times : list car; sv_states : list (list car);
  sv_controls : list (list car) }.
Definition control_rows (h : hist N) : list (car * car * car) :=
  map (fun c => let '(a, b, th) := c in (a, b, nofZ th)) (h_controls h) ++ [($0, $0, $0)].
Definition save_to_dict (h : hist N) (angles : bool) : Res saved :=
  do tf <- last_item (h_times h);
  Ok {| sv_t0 := $0;
        sv_tf := tf;
        sv_times := h_times h;
        sv_states := map (fun om => vec6_to_list (mee_with_a2mee (fst om)) ++ [snd om])
                         (combine (h_states h) (h_masses h));
        sv_controls :=
          map (fun r => let '(a, b, th) := r in
                        if angles then [a; b; th]
                        else [ncos b * nsin a; ncos b * ncos a; nsin b; th]) (control_rows h) |}.
End Export.
Arguments saved : clear implicits.
