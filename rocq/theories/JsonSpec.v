(** JSON texts, independently of any encoder. *)
From Coq Require Import ZArith List Bool String.
From Verif Require Import Num Export Json.
Import ListNotations.

Section Spec.
Context {N : Num}.
Inductive jval : Type :=
| JNull | JBool (b : bool) | JInt (z : Z) | JNum (x : car) | JStr (s : string) | JArr (l : list jval) | JObj (l : list (string * jval)).

(** [text v ts]: the tokens [ts] spell the value [v] (grammar of JSON: values, elements, members). *)
Inductive text : jval -> list (tok N) -> Prop :=
| tx_null : text JNull [TNull]
| tx_bool b : text (JBool b) [TBool b]
| tx_int z : text (JInt z) [TInt z]
| tx_num x : text (JNum x) [TNum x]
| tx_str s : text (JStr s) [TStr s]
| tx_arr0 : text (JArr []) [TOpenL; TCloseL]
| tx_arr l ts : elements l ts -> text (JArr l) ([TOpenL] ++ ts ++ [TCloseL])
| tx_obj0 : text (JObj []) [TOpenD; TCloseD]
| tx_obj l ts : members l ts -> text (JObj l) ([TOpenD] ++ ts ++ [TCloseD])
with elements : list jval -> list (tok N) -> Prop :=
| el_one v ts : text v ts -> elements [v] ts
| el_more v l ts us : text v ts -> elements l us -> elements (v :: l) (ts ++ [TComma] ++ us)
with members : list (string * jval) -> list (tok N) -> Prop :=
| mb_one k v ts : text v ts -> members [(k, v)] ([TStr k; TColon] ++ ts)
| mb_more k v l ts us : text v ts -> members l us -> members ((k, v) :: l) ([TStr k; TColon] ++ ts ++ [TComma] ++ us).

(** [shows a v]: [v] has the content of the Python object [a]; a numpy scalar or array counts as the number or list in it. *)
Inductive shows : pyval N -> jval -> Prop :=
| sh_none : shows VNone JNull
| sh_bool b : shows (VBool b) (JBool b)
| sh_int z : shows (VInt z) (JInt z)
| sh_float x : shows (VFloat x) (JNum x)
| sh_str s : shows (VStr s) (JStr s)
| sh_list l l' : Forall2 shows l l' -> shows (VList l) (JArr l')
| sh_dict l l' : Forall2 (fun a b => fst a = Some (fst b) /\ shows (snd a) (snd b)) l l' -> shows (VDict l) (JObj l')
| sh_npint z : shows (VNpInt z) (JInt z)
| sh_npfloat x : shows (VNpFloat x) (JNum x)
| sh_array a v : shows a v -> shows (VArray a) v.

(** The content of the exported dictionary [d], with [j] under canonical_units. *)
Definition rows (l : list (list car)) : jval := JArr (map (fun r => JArr (map JNum r)) l).
Definition record (d : saved N) (j : jval) : jval :=
  JObj [("t0"%string, JNum (sv_t0 d)); ("tf"%string, JNum (sv_tf d)); ("times"%string, JArr (map JNum (sv_times d)));
        ("canonical_units"%string, j); ("states"%string, rows (sv_states d)); ("controls"%string, rows (sv_controls d))].
End Spec.
Arguments jval : clear implicits.
