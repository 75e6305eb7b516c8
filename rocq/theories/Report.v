(** Model of what pyqlaw/_qlaw.py prints: the progress table and the closing messages of solve, pretty() and pretty_settings().
    A printed line is the list of values put into it; number formatting and the blank line before the header are not
    modelled. *)
From Coq Require Import ZArith List Bool String.
From Verif Require Import Num Base Elements Convergence Lyapunov Perturb Qlaw Export.
Import ListNotations.
Local Open Scope num_scope.

Section Report.
Context {N : Num}.

(** _qlaw.py:458, 589, 591, 596, 606, 610: the lines solve can print *)
Inductive msg : Type :=
| Header                                                    (* line 589 *)
| Row (idx : Z) (t : car) (dels : list car) (el6 : car)     (* line 591 *)
| AnglesNan                                                 (* "Breaking as angles are nan" *)
| MassOut                                                   (* "Breaking as mass is now under mass_min" *)
| TimeOut                                                   (* "Could not arrive to target elements within time" *)
| TargetReached.                                            (* "Target elements successfully reached!" *)

(** The attributes verbosity and print_frequency (_qlaw.py:140, 199); print_frequency = 0 is outside the model *)
Record voice : Type := mkvoice { v_level : Z; v_freq : Z }.

(** _qlaw.py:586-591: what is printed after step [idx], and whether forming the line raised *)
Definition progress (v : voice) (p : problem N) (idx : Z) (s : lstate N) : list msg * option exn :=
  if Z.leb 2 (v_level v) && Z.eqb (Z.modulo idx (v_freq v)) 0 then
    let hd := if Z.eqb (Z.modulo idx (20 * v_freq v)) 0 then [Header] else [] in
    match mapM (fun i => do x <- item (vec6_to_list (l_oe s)) i; do xT <- item (p_oeT p) i; Ok (x - xT))
               [0; 1; 2; 3; 4]%nat with
    | Ok dels => (hd ++ [Row idx (l_t s) dels (v6_5 (l_oe s))], None)
    | Err e => (hd, Some e)
    end
  else ([], None).

(** What one iteration prints, given how it ended.  Each break of the loop has its own exit code: -3 is line 459 (before
    the state is recorded), 1 and 2 are lines 573-582 (before the progress line), -1 is line 597 (after it). *)
Definition spoken (v : voice) (p : problem N) (idx : Z) (out : outcome N) : list msg * outcome N :=
  let quiet := Z.leb (v_level v) 0 in
  match out with
  | Next s => match progress v p idx s with
              | (l, None) => (l, out)
              | (l, Some e) => (l, Fail e s)
              end
  | Stop code conv s =>
      if Z.eqb code (-3) then (if quiet then [] else [AnglesNan], out)
      else if Z.eqb code (-1) then
        match progress v p idx s with
        | (l, None) => (l ++ (if quiet then [] else [MassOut]), out)
        | (l, Some e) => (l, Fail e s)
        end
      else ([], out)
  | Fail _ _ => ([], out)
  end.

(** The while loop with what it prints; [idx] is the loop counter of lines 371 and 601 *)
Fixpoint tell_loop (fuel : nat) (v : voice) (idx : Z) (o : qlaw N) (p : problem N) (ea er : eta_arg N) (s : lstate N)
  : list msg * lres N :=
  if guard p s then
    match fuel with
    | O => ([], LFuel s)
    | S n =>
        let (l, out) := spoken v p idx (step o p ea er s) in
        match out with
        | Next s' => let (l', r) := tell_loop n v (idx + 1) o p ea er s' in (l ++ l', r)
        | Stop c b s' => (l, LStop c b s')
        | Fail e s' => (l, LFail e s')
        end
    end
  else ([], LEnd s).

(** _qlaw.py:603-610, with the attributes converge and exitcode as the loop left them *)
Definition ending (v : voice) (conv : bool) (code : Z) : list msg :=
  if Z.leb (v_level v) 0 then []
  else if negb conv && Z.eqb code 0 then [TimeOut]
  else if conv then [TargetReached] else [].

(** _qlaw.py:317-611 with what is printed *)
Definition tell (fuel : nat) (v : voice) (o : qlaw N) (ea er : eta_arg N) : list msg * sres N :=
  match q_problem o with
  | None => ([], Raises AssertionError o)
  | Some p =>
      match ea with
      | EtaOther => ([], Raises ValueError o)
      | _ =>
          let (l, r) := tell_loop fuel v 0 o p ea er (init_state p) in
          match r with
          | LEnd s => (l ++ ending v (q_converge o) (q_exitcode o),
                       Returns (finish o p (l_hist s) (q_converge o) (q_exitcode o)))
          | LStop code conv s => (l ++ ending v (conv || q_converge o) code,
                                  Returns (finish o p (l_hist s) (conv || q_converge o) code))
          | LFail e s => (l, Raises e (with_run o (Some (with_oe0 p (l_hist s))) (Some (l_hist s))
                                                (q_converge o) (q_exitcode o)))
          | LFuel _ => (l, Running)
          end
      end
  end.

(** _qlaw.py:174, 182: element_names, set once by the constructor *)
Definition element_names (et : etype) : list string :=
  match et with
  | Keplerian => ["a"; "e"; "i"; "raan"; "omega"; "ta"]%string
  | MeeWithA => ["a"; "f"; "g"; "h"; "k"; "L"]%string
  end.

(** _qlaw.py:692-700: name, initial value, target and weight of the five slow elements.  [names]: the attribute
    element_names.  Before set_problem the attributes are missing, which is outside the model. *)
Definition pretty (names : list string) (p : problem N) : Res (list (string * car * car * car)) :=
  mapM (fun i => do n <- item names i; do x <- item (vec6_to_list (p_oe0 p)) i; do xT <- item (p_oeT p) i;
                 do w <- item (vec5_to_list (p_woe p)) i; Ok (n, x, xT, w)) [0; 1; 2; 3; 4]%nat.

(** _qlaw.py:718-726: element type, element names, integrator, tolerances, relaxed tolerances, relaxed steps before the exit *)
Definition etype_name (et : etype) : string := match et with Keplerian => "keplerian" | MeeWithA => "mee_with_a" end.
Definition integ_name (ig : integ) : string := match ig with RK4 => "rk4" | RKF45 => "rkf45" end.
Definition pretty_settings (names : list string) (o : qlaw N) : string * list string * string * list car * list car * Z :=
  (etype_name (q_etype o), names, integ_name (q_integ o), vec5_to_list (q_tol o), vec5_to_list (q_tol_relaxed o), q_exit_relaxed o).
End Report.
Arguments msg : clear implicits.
