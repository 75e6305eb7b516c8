(** Two runs with different effectivity thresholds (C95). *)
From Coq Require Import Reals QArith ZArith List Bool Lra.
From Verif Require Import RMath Num Base Elements Qlaw Spec Sim Runs EtaSpec.
Import ListNotations.

(** no threshold before t = 1/2, one half from then on *)
Definition half_later : eta_arg QNum := EtaFun (N:=QNum) (fun (t : car) _ _ _ => if nltb (Num:=QNum) t (qq (1 # 2)) then q0 else qq (1 # 2)).
Lemma C95_runs : (exists o' h, ran 10 o_exitm2 no_eta no_eta p_exitm2 o' h /\ map snd (h_controls h) = [1; 1; 1]%Z) /\
  (exists o' h, ran 10 o_exitm2 half_later no_eta p_exitm2 o' h /\ map snd (h_controls h) = [1; 1; 0]%Z).
Proof. split; run. Qed.
Lemma C95_stricter : stricter no_eta half_later /\ stricter no_eta no_eta.
Proof.
  split; intros t oe m b x; [|exact (fun H => H)]. cbn [threshold_at no_eta half_later]. destruct (nltb (Num:=QNum) t (qq (1 # 2))); [exact (fun H => H)|].
  destruct x as [x|]; [|discriminate]. cbn. unfold q0, qq. rewrite !negb_true_iff. intros H. apply not_true_is_false. intros E.
  apply Qle_bool_iff in E. assert (F : (0 <= x)%Q) by (apply (Qle_trans _ (1 # 2)); [discriminate|exact E]). apply Qle_bool_iff in F. congruence.
Qed.
Definition minus_one : eta_arg QNum := EtaFloat (N:=QNum) (qq (-1)).
Lemma C95_idle_case : idle no_eta /\ idle minus_one /\ (exists o' h, ran 10 o_exitm2 minus_one no_eta p_exitm2 o' h /\ map snd (h_controls h) = [1; 1; 1]%Z).
Proof. split; [intros t oe m b; reflexivity|]. split; [intros t oe m b; reflexivity|]. run. Qed.
