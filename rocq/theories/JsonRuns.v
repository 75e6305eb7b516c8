(** Concrete saves: an overwritten file. *)
From Coq Require Import Reals ZArith List Bool String Lra.
From Verif Require Import RMath Num Base Perturb Qlaw Export Json Spec RSpec JsonSpec ExportProofs ExportRuns JsonProofs.
Import ListNotations.
Local Open Scope R_scope.

Definition units : pyval RNum :=
  VDict [(Some "LU"%string, VNpFloat (N:=RNum) 2); (Some "n"%string, VNpInt 3); (Some "axis"%string, VArray (VList [VFloat (N:=RNum) 1; VFloat (N:=RNum) 0])); (Some "note"%string, VNone)].
Lemma C112_case : shows units (JObj [("LU"%string, JNum (N:=RNum) 2); ("n"%string, JInt 3); ("axis"%string, JArr [JNum (N:=RNum) 1; JNum (N:=RNum) 0]); ("note"%string, JNull)]).
Proof. unfold units. repeat (constructor; cbn [fst snd]; auto). Qed.
Lemma C113_case : forall j, ~ shows (VDict [(Some "LU"%string, VFloat (N:=RNum) 2); (Some "MU"%string, VOther)] : pyval RNum) j.
Proof. intros j H. inversion H as [| | | | | |l l' F| | |]; subst. inversion F as [|? ? ? ? ? F2]; subst. inversion F2 as [|? ? ? ? [_ S] ?]; subst. inversion S. Qed.
Lemma C113_refuted_lem : exists fuel (o : qlaw RNum) ea er p o' h angles path fs d d' fs1 fs2 ts,
  ran fuel o ea er p o' h /\
  save_to_file h angles units (Some path) fs = (Ok d, fs1) /\
  save_to_file h angles VOther (Some path) fs1 = (Err TypeError, fs2) /\
  fs1 path = Some ts /\ text d' ts /\ fs2 path <> fs1 path /\
  forall ts' v, fs2 path = Some ts' -> ~ text v ts'.
Proof.
  destruct run_turn as (o' & h & Rn & _ & _).
  destruct (C112_lem 1 o_turn (EtaFloat (N:=RNum) 0) (EtaFloat (N:=RNum) 0) p_turn o' h true units _ "guess.json" (fun _ => None) Rn C112_case) as (d & fs1 & ts & D & S & P & _ & T & _).
  destruct (C113_lem 1 o_turn (EtaFloat (N:=RNum) 0) (EtaFloat (N:=RNum) 0) p_turn o' h true VOther "guess.json" fs1 Rn) as (d2 & fs2 & a & b & D2 & S2 & _ & P2 & _ & V).
  { intros j H. inversion H. }
  exists 1%nat, o_turn, (EtaFloat (N:=RNum) 0), (EtaFloat (N:=RNum) 0), p_turn, o', h, true, "guess.json"%string, (fun _ => None), d.
  eexists. exists fs1, fs2, ts. split; [exact Rn|]. split; [exact S|]. split; [exact S2|]. split; [exact P|]. split; [exact T|].
  split.
  - rewrite P, P2. intros E. injection E as E. subst ts. exact (V _ T).
  - intros ts' v E. rewrite P2 in E. injection E as <-. apply V.
Qed.
