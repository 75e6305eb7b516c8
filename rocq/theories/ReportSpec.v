(** Vocabulary of the statements about what solve() prints. *)
From Coq Require Import ZArith List Bool String.
From Verif Require Import Num Base Perturb Qlaw Export Report Spec.
Import ListNotations.

Section S.
Context {N : Num}.

(** A progress line can be formed: the target has five entries, or the object is one of the library's own, whose
    convergence test has rejected a shorter target before. *)
Definition printable (o : qlaw N) (p : problem N) : Prop :=
  (5 <= List.length (p_oeT p))%nat \/ exists et, built et o.

(** The lines due after step [k], which reached the elements [z] at time [t]: every print_frequency-th step the step
    number, the time, the five gaps to the target and the anomaly, and a header above every twentieth of them. *)
Definition gaps (z : vec6 N) (T : list car) : list car :=
  map (fun xT => nsub (fst xT) (snd xT)) (combine (firstn 5 (vec6_to_list z)) T).
Definition lines_at (v : voice) (p : problem N) (k : nat) (t : car) (z : vec6 N) : list (msg N) :=
  if (2 <=? v_level v)%Z && (Z.of_nat k mod v_freq v =? 0)%Z then
    (if (Z.of_nat k mod (20 * v_freq v) =? 0)%Z then [Header] else []) ++ [Row (Z.of_nat k) t (gaps z (p_oeT p)) (v6_5 z)]
  else [].
Fixpoint table (v : voice) (p : problem N) (k : nat) (l : list (car * vec6 N)) : list (msg N) :=
  match l with
  | [] => []
  | (t, z) :: l' => lines_at v p k t z ++ table v p (S k) l'
  end.

(** The message that goes with an exit code. *)
Definition verdict (code : Z) : msg N :=
  match code with
  | 1 | 2 => TargetReached
  | -1 => MassOut
  | -3 => AnglesNan
  | _ => TimeOut
  end%Z.
Definition closing (v : voice) (code : Z) : list (msg N) := if (v_level v <=? 0)%Z then [] else [verdict code].

(** [later o i o' i']: [o'] came from [o] by set_problem, solve (whether it returns or raises) and assignments to mu and
    integrator; [i], [i'] are the integrator names last given. *)
Inductive later (o : qlaw N) (i : string) : qlaw N -> string -> Prop :=
| la_now : later o i o i
| la_problem o1 o2 j oe0 oeT mass0 tmax mdot tf ts mm woe don doff b0 lo hi ch dis full : later o i o1 j ->
    set_problem o1 oe0 oeT mass0 tmax mdot tf ts mm woe don doff b0 lo hi ch dis full = Ok o2 -> later o i o2 j
| la_solve o1 o2 j fuel ea er : later o i o1 j ->
    (solve fuel o1 ea er = Returns o2 \/ exists e, solve fuel o1 ea er = Raises e o2) -> later o i o2 j
| la_mu o1 o2 j mu : later o i o1 j -> set_mu o1 mu = Ok o2 -> later o i o2 j
| la_integ o1 o2 j s : later o i o1 j -> set_integrator o1 s = Ok o2 -> later o i o2 s.
End S.
