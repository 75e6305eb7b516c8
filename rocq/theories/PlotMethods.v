(** Model of pyqlaw/_plot_methods.py: the data handed to matplotlib, curve by curve (figure layout,
    labels, colours and the returned figure objects are not modelled). *)
From Coq Require Import ZArith List Bool.
From Verif Require Import Num Base Elements Convergence Lyapunov Perturb PlotHelper Qlaw Export.
Import ListNotations.
Local Open Scope num_scope.

Section PlotMethods.
Context {N : Num}.

(** What one drawing call receives.  ax.plot and ax.step reject abscissae and ordinates of different
    lengths with a ValueError. *)
Inductive drawing : Type :=
| Line (xs ys : list car)                    (* ax.plot *)
| Steps (xs ys : list car)                   (* ax.step, where='pre' *)
| Level (y : car)                            (* ax.axhline *)
| Band (xs : list car) (lo hi : car)         (* ax.fill_between *)
| Curve3 (xs ys zs : list car)               (* ax.plot in 3d *)
| Dot (pt : list car).                       (* ax.scatter of one point *)
Definition line (xs ys : list car) : Res drawing :=
  if Nat.eqb (length xs) (length ys) then Ok (Line xs ys) else Err ValueError.
Definition steps (xs ys : list car) : Res drawing :=
  if Nat.eqb (length xs) (length ys) then Ok (Steps xs ys) else Err ValueError.
Definition curve3 (xs ys zs : list car) : Res drawing :=
  if Nat.eqb (length xs) (length ys) && Nat.eqb (length ys) (length zs) then Ok (Curve3 xs ys zs) else Err ValueError.

Definition scaled (TU : car) (l : list car) : list car := map (fun x => x * TU) l.
Definition degrees (l : list car) : list car := map (fun x => x * $180 / npi) l.

(** np.concatenate((oeT, [0.0])) given to a function that unpacks six numbers *)
Definition with_zero (l : list car) : Res (vec6 N) :=
  match list_to_vec6 (l ++ [$0]) with Some v => Ok v | None => Err ValueError end.

(** _plot_methods.py:40-56: (oes, target, multipliers, show_band); evaluated for every recorded time
    (with no recorded time at all the code has no target either and raises; solve always records one) *)
Definition plotted_elements (o : qlaw N) (p : problem N) (h : hist N) (to_keplerian : bool)
  : Res (list (vec6 N) * list car * list car * bool) :=
  match to_keplerian, q_etype o with
  | true, MeeWithA =>
      do oes <- mapM (fun idx => do st <- item (h_states h) idx; mee_with_a2kep st) (seq 0 (length (h_times h)));
      do T <- with_zero (p_oeT p);
      do kT <- mee_with_a2kep T;
      let d := $180 / npi in
      Ok (oes, vec5_to_list (slow kT), [$1; $1; d; d; d; d], false)
  | _, _ =>
      do oes <- mapM (fun idx => item (h_states h) idx) (seq 0 (length (h_times h)));
      Ok (oes, p_oeT p, [$1; $1; $1; $1; $1; $1], true)
  end.
(** oes[idx,:] *)
Definition row (k : nat) (oes : list (vec6 N)) : list car :=
  map (fun v => nth k (vec6_to_list v) nnan) oes.

(** _plot_methods.py:58-72: one of the first five axes *)
Definition element_axis (o : qlaw N) (TU : car) (h : hist N) (oes : list (vec6 N)) (T mult : list car)
  (band : bool) (idx : nat) : Res (list drawing) :=
  do Ti <- item T idx;
  do mi <- item mult idx;
  do tol <- item (vec5_to_list (q_tol o)) idx;
  let xs := scaled TU (h_times h) in
  do l <- line xs (map (fun x => x * mi) (row idx oes));
  Ok [ if band then Band xs ((Ti - tol) * mi) ((Ti + tol) * mi) else Level (Ti * mi); l ].

(** _plot_methods.py:18-86: what is drawn in each of the six axes *)
Definition plot_elements_history (o : qlaw N) (p : problem N) (h : hist N)
  (to_keplerian : bool) (TU : car) (plot_mass plot_periapsis : bool) : Res (list (list drawing)) :=
  do prep <- plotted_elements o p h to_keplerian;
  let '(oes, T, mult, band) := prep in
  let xs := scaled TU (h_times h) in
  do axes <- mapM (element_axis o TU h oes T mult band) [0; 1; 2; 3; 4]%nat;
  do peri <- (if plot_periapsis
              then do l <- line xs (map (fun v => v6_0 v * ($1 - v6_1 v)) oes); Ok [l]
              else Ok []);
  do last_ax <- (if plot_mass then line xs (h_masses h)
                 else line xs (map (fun v => nmod (v6_5 v) ($2 * npi) * $180 / npi) oes));
  match axes with
  | a0 :: rest => Ok (((a0 ++ peri) :: rest) ++ [[last_ax]])
  | [] => Ok []
  end.

(** _plot_methods.py:89-114 *)
Definition plot_battery_history (p : problem N) (h : hist N) (TU BU : car) : Res (list drawing) :=
  do l <- line (scaled TU (h_times h)) (scaled BU (h_battery h));
  Ok [l; Level (p_cap_lo p * BU); Level (p_cap_hi p * BU)].

(** _plot_methods.py:117-146 *)
Definition plot_controls (h : hist N) (TU : car) (show_anomaly : bool) : Res (list drawing) :=
  let xs := scaled TU (removelast (h_times h)) in
  do an <- (if show_anomaly
            then do l <- line (scaled TU (h_times h)) (degrees (map (fun v => wrap (v6_5 v)) (h_states h))); Ok [l]
            else Ok []);
  do sa <- steps xs (degrees (map (fun c => fst (fst c)) (h_controls h)));
  do sb <- steps xs (degrees (map (fun c => snd (fst c)) (h_controls h)));
  do st <- steps xs (map (fun c => nofZ (snd c) * $100) (h_controls h));
  Ok (an ++ [sa; sb; st]).

(** _plot_methods.py:161-167 and 196-204: (initial orbit, target orbit).  [oeT]: the target elements as
    the two functions read them. *)
Definition reference_orbits (o : qlaw N) (p : problem N) (oeT : list car) : Res (list (vec6 N) * list (vec6 N)) :=
  match q_etype o with
  | Keplerian =>
      do c0 <- get_orbit_coordinates (p_oe0 p) (q_mu o) 200;
      do T <- with_zero oeT;
      do cT <- get_orbit_coordinates T (q_mu o) 200;
      Ok (c0, cT)
  | MeeWithA =>
      do k0 <- mee_with_a2kep (p_oe0 p);
      do c0 <- get_orbit_coordinates k0 (q_mu o) 200;
      do T <- with_zero oeT;
      do kT <- mee_with_a2kep T;
      do cT <- get_orbit_coordinates kT (q_mu o) 200;
      Ok (c0, cT)
  end.

(** _plot_methods.py:149-176, given cart *)
Definition plot_trajectory_2d (o : qlaw N) (p : problem N) (cart : list (vec6 N)) : Res (list drawing) :=
  do orbs <- reference_orbits o p (match q_etype o with Keplerian => p_oeT p | MeeWithA => firstn 5 (p_oeT p) end);
  let '(c0, cT) := orbs in
  do l0 <- line (map v6_0 c0) (map v6_1 c0);
  do lT <- line (map v6_0 cT) (map v6_1 cT);
  do lc <- line (map v6_0 cart) (map v6_1 cart);
  do first <- item cart 0;
  do fin <- last_item cart;
  Ok [l0; lT; lc; Dot [v6_0 first; v6_1 first]; Dot [v6_0 fin; v6_1 fin]].

(** _plot_methods.py:179-224, given cart; the sphere is in PlotHelper. *)
Definition plot_trajectory_3d (o : qlaw N) (p : problem N) (cart : list (vec6 N)) (plot_sphere : bool)
  (scale : car) : Res (list drawing * list (ax_call)) :=
  do orbs <- reference_orbits o p (p_oeT p);
  let '(c0, cT) := orbs in
  do lc <- curve3 (map v6_0 cart) (map v6_1 cart) (map v6_2 cart);
  do first <- item cart 0;
  do fin <- last_item cart;
  do l0 <- curve3 (map v6_0 c0) (map v6_1 c0) (map v6_2 c0);
  do lT <- curve3 (map v6_0 cT) (map v6_1 cT) (map v6_2 cT);
  do calls <- (if plot_sphere then
                 do xm <- pyminl (map v6_0 cart); do xM <- pymaxl (map v6_0 cart);
                 do ym <- pyminl (map v6_1 cart); do yM <- pymaxl (map v6_1 cart);
                 do zm <- pyminl (map v6_2 cart); do zM <- pymaxl (map v6_2 cart);
                 set_equal_axis [xm; xM] [ym; yM] [zm; zM] scale true
               else Ok []);
  Ok ([lc; Dot (firstn 3 (vec6_to_list first)); Dot (firstn 3 (vec6_to_list fin)); l0; lT], calls).

(** np.array(rows)[:, j] for a list of pairs: an empty list gives a one-dimensional array, which
    cannot be indexed twice *)
Definition column {A} (f : A -> car) (rows : list A) : Res (list car) :=
  match rows with [] => Err IndexError | _ => Ok (map f rows) end.

(** _plot_methods.py:227-249 *)
Definition plot_efficiency (h : hist N) (TU : car) : Res (list drawing) :=
  let xs := scaled TU (removelast (h_times h)) in
  do ea <- column fst (h_etas h); do l1 <- line xs ea;
  do ba <- column fst (h_bounds h); do l2 <- line xs ba;
  do er <- column snd (h_etas h); do l3 <- line xs er;
  do br <- column snd (h_bounds h); do l4 <- line xs br;
  Ok [l1; l2; l3; l4].

(** _plot_methods.py:252-270 *)
Definition plot_Q (h : hist N) (TU : car) : Res (list drawing) :=
  let xs := scaled TU (removelast (h_times h)) in
  do a <- steps xs (h_Qs h);
  do b <- steps xs (h_dQdts h);
  Ok [a; b].

(** The curve drawn by ax.step(xs, ys, where='pre'): "the interval (x[i-1], x[i]] has the value
    y[i]"; the curve starts at (x[0], y[0]) and ends at the last abscissa. *)
Fixpoint step_pre (prev : option car) (xs ys : list car) (t : car) : option car :=
  match xs, ys with
  | x :: xs', y :: ys' =>
      if (match prev with Some q => q <? t | None => x <=? t end && (t <=? x))%bool then Some y
      else step_pre (Some x) xs' ys' t
  | _, _ => None
  end.
End PlotMethods.
Arguments drawing : clear implicits.
