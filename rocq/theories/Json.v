(** Model of the file written by QLaw.save_to_dict, pyqlaw/_qlaw.py:44-53 (NumpyEncoder) and 755-759 (json.dump with indent=4).
    The text is a list of tokens: layout and the spelling of numbers and strings are not modelled.  Opening the file succeeds. *)
From Coq Require Import ZArith List Bool String.
From Verif Require Import Num Base Qlaw Export.
Import ListNotations.
Local Open Scope num_scope.

Section Json.
Context {N : Num}.

(** What is handed to json.dump.  [VFloat] includes numpy.float64, a subclass of float; [VNpInt], [VNpFloat] are the other numpy
    scalars; [VArray v] is an ndarray whose tolist() is [v]; [VOther] is any object of another type.  Keys of dictionaries that are
    neither strings nor convertible to strings are [None]; keys that json converts are given converted. *)
Inductive pyval : Type :=
| VNone | VBool (b : bool) | VInt (z : Z) | VFloat (x : car) | VStr (s : string)
| VList (l : list pyval) | VDict (l : list (option string * pyval))
| VNpInt (z : Z) | VNpFloat (x : car) | VArray (v : pyval) | VOther.

Inductive tok : Type :=
| TOpenL | TCloseL | TOpenD | TCloseD | TComma | TColon | TNull | TBool (b : bool) | TInt (z : Z) | TNum (x : car) | TStr (s : string).

(** Tokens written, and whether TypeError is raised after them: json.dump with an indent writes piece by piece
    (json.encoder._make_iterencode). *)
Definition wr : Type := (list tok * bool)%type.
Definition put (l : list tok) : wr := (l, false).
Definition seqw (a b : wr) : wr := if snd a then a else ((fst a ++ fst b)%list, snd b).

Fixpoint emit (v : pyval) : wr :=
  match v with
  | VNone => put [TNull]
  | VBool b => put [TBool b]
  | VInt z => put [TInt z]
  | VFloat x => put [TNum x]
  | VStr s => put [TStr s]
  | VList l =>
      seqw (put [TOpenL]) (seqw ((fix go (first : bool) (l : list pyval) : wr :=
        match l with
        | [] => put []
        | x :: r => seqw (put (if first then [] else [TComma])) (seqw (emit x) (go false r))
        end) true l) (put [TCloseL]))
  | VDict l =>
      seqw (put [TOpenD]) (seqw ((fix go (first : bool) (l : list (option string * pyval)) : wr :=
        match l with
        | [] => put []
        | (None, _) :: _ => ([], true)                         (* keys must be str, int, float, bool or None *)
        | (Some k, x) :: r => seqw (put (if first then [] else [TComma])) (seqw (put [TStr k; TColon]) (seqw (emit x) (go false r)))
        end) true l) (put [TCloseD]))
  | VNpInt z => put [TInt z]                                   (* lines 47-48 *)
  | VNpFloat x => put [TNum x]                                 (* lines 49-50 *)
  | VArray v => emit v                                         (* lines 51-52 *)
  | VOther => ([], true)                                       (* line 53 *)
  end.

(** _qlaw.py:734-753: the dictionary; [cu]: the argument canonical_units. *)
Definition numbers (l : list car) : pyval := VList (map VFloat l).
Definition guess (d : saved N) (cu : pyval) : pyval :=
  VDict [(Some "t0"%string, VFloat (sv_t0 d)); (Some "tf"%string, VFloat (sv_tf d)); (Some "times"%string, numbers (sv_times d));
         (Some "canonical_units"%string, cu); (Some "states"%string, VList (map numbers (sv_states d)));
         (Some "controls"%string, VArray (VList (map numbers (sv_controls d))))].

(** File system: content of each path. *)
Definition files : Type := string -> option (list tok).
Definition write (fs : files) (path : string) (text : list tok) : files := fun q => if String.eqb q path then Some text else fs q.
(** _qlaw.py:728-760; lines 755-759 with [filepath = Some path].  On an exception the [with] block closes the file. *)
Definition save_to_file (h : hist N) (angles : bool) (cu : pyval) (filepath : option string) (fs : files) : Res (saved N) * files :=
  match save_to_dict h angles with
  | Err e => (Err e, fs)
  | Ok d => match filepath with
            | None => (Ok d, fs)
            | Some path => let '(text, failed) := emit (guess d cu) in
                           ((if failed then Err TypeError else Ok d), write fs path text)
            end
  end.
End Json.
Arguments pyval : clear implicits.
Arguments tok : clear implicits.
Arguments files : clear implicits.
