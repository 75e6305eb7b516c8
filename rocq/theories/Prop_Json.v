(** Properties C112 and C113: the file written by save_to_dict. *)
From Coq Require Import Reals ZArith List Bool String.
From Verif Require Import Num Base Perturb Qlaw Export Json Spec JsonSpec ExportRuns JsonProofs JsonRuns.
Import ListNotations.

(** C112.  When the canonical units can be shown in JSON, the file at the given path becomes a JSON text of the returned
    dictionary, and of nothing else; no other file changes. *)
Theorem C112_file_is_result : forall (N : Num) fuel (o : qlaw N) ea er p o' h angles cu j path fs, ran fuel o ea er p o' h -> shows cu j ->
  exists d fs' ts, save_to_dict h angles = Ok d /\ save_to_file h angles cu (Some path) fs = (Ok d, fs') /\
    fs' path = Some ts /\ (forall q, q <> path -> fs' q = fs q) /\ text (record d j) ts /\ forall v, text v ts -> v = record d j.
Proof. intros N. exact C112_lem. Qed.
Print Assumptions C112_file_is_result.
(** Without a path nothing is written, whatever the units. *)
Theorem C112_no_path : forall (N : Num) fuel (o : qlaw N) ea er p o' h angles cu fs, ran fuel o ea er p o' h ->
  exists d, save_to_dict h angles = Ok d /\ save_to_file h angles cu None fs = (Ok d, fs).
Proof. intros N. exact C112_nofile_lem. Qed.
Print Assumptions C112_no_path.
(** A list of tokens is the JSON text of at most one value, and an object has at most one content. *)
Theorem C112_unambiguous : forall (N : Num) (v1 v2 : jval N) ts, text v1 ts -> text v2 ts -> v1 = v2.
Proof. intros N. exact text_unique. Qed.
Print Assumptions C112_unambiguous.
Theorem C112_content : forall (N : Num) (v : pyval N) j1 j2, shows v j1 -> shows v j2 -> j1 = j2.
Proof. intros N. exact shows_fun. Qed.
Print Assumptions C112_content.
Example C112_example : (exists o' h, ran 1 o_turn (EtaFloat (N:=RNum) 0%R) (EtaFloat (N:=RNum) 0%R) p_turn o' h) /\
  shows units (JObj [("LU"%string, JNum (N:=RNum) 2%R); ("n"%string, JInt 3); ("axis"%string, JArr [JNum (N:=RNum) 1%R; JNum (N:=RNum) 0%R]); ("note"%string, JNull)]).
Proof. split; [destruct run_turn as (o' & h & H & _); exists o', h; exact H|exact C112_case]. Qed.

(** C113.  When the units cannot be shown, TypeError is raised after the file has been overwritten: it then holds t0, tf and
    the times, breaks off inside the units, and is no JSON text ... *)
Theorem C113_failed_save_partial : forall (N : Num) fuel (o : qlaw N) ea er p o' h angles cu path fs, ran fuel o ea er p o' h -> (forall j, ~ shows cu j) ->
  exists d fs' a b, save_to_dict h angles = Ok d /\ save_to_file h angles cu (Some path) fs = (Err TypeError, fs') /\
    (forall q, q <> path -> fs' q = fs q) /\
    fs' path = Some ([TOpenD] ++ a ++ [TComma; TStr "canonical_units"; TColon] ++ b)%list /\
    members [("t0"%string, JNum (sv_t0 d)); ("tf"%string, JNum (sv_tf d)); ("times"%string, JArr (map JNum (sv_times d)))] a /\
    forall v, ~ text v ([TOpenD] ++ a ++ [TComma; TStr "canonical_units"; TColon] ++ b)%list.
Proof. intros N. exact C113_lem. Qed.
Print Assumptions C113_failed_save_partial.
Example C113_example : (exists o' h, ran 1 o_turn (EtaFloat (N:=RNum) 0%R) (EtaFloat (N:=RNum) 0%R) p_turn o' h) /\
  forall j, ~ shows (VDict [(Some "LU"%string, VFloat (N:=RNum) 2%R); (Some "MU"%string, VOther)] : pyval RNum) j.
Proof. split; [destruct run_turn as (o' & h & H & _); exists o', h; exact H|exact C113_case]. Qed.
(** ... so a good file from an earlier save is lost. *)
Theorem C113_failed_save_refuted : exists fuel (o : qlaw RNum) ea er p o' h angles path fs d d' fs1 fs2 ts,
  ran fuel o ea er p o' h /\
  save_to_file h angles units (Some path) fs = (Ok d, fs1) /\
  save_to_file h angles VOther (Some path) fs1 = (Err TypeError, fs2) /\
  fs1 path = Some ts /\ text d' ts /\ fs2 path <> fs1 path /\
  forall ts' v, fs2 path = Some ts' -> ~ text v ts'.
Proof. exact C113_refuted_lem. Qed.
Print Assumptions C113_failed_save_refuted.
