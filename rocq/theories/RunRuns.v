(** Concrete runs meeting the hypotheses of C73 and C75. *)
From Coq Require Import Reals QArith Qreals ZArith List Bool Lia Lra.
From Verif Require Import RMath Num Base Qlaw Spec XSpec RunSpec Sim Runs XRuns.
Import ListNotations.
Local Open Scope R_scope.

Lemma C73_case : exists o' h, ran 10 (toyX RK4 a_cycle) noX noX (probX a_cycle) o' h /\ length (h_controls h) = 7%nat /\
  throttle h 0 1 /\ throttle h 2 0.
Proof.
  destruct run_cycle as (o' & h & R & C & _). exists o', h. split; [exact R|].
  split; [destruct C as (_ & _ & _ & C); rewrite <- (map_length snd), C; reflexivity|].
  split; eapply rec_c; try eassumption; reflexivity.
Qed.

Lemma entry_fun (l : list ereal) (k : nat) (x y : R) : entry l k x -> entry l k y -> x = y.
Proof. unfold entry. intros H1 H2. rewrite H1 in H2. injection H2 as ->. reflexivity. Qed.

Lemma run_duty_all : exists o2 h2, ran 20 (toyX RK4 a_duty) noX noX (probX a_duty) o2 h2 /\
  recorded h2 [0; 1 # 2; 1; 3 # 2; 2; 5 # 2; 3; 7 # 2; 4; 9 # 2; 5]%Q
    [10; 199 # 20; 99 # 10; 197 # 20; 197 # 20; 197 # 20; 197 # 20; 49 # 5; 39 # 4; 97 # 10; 97 # 10]%Q
    [50; 199 # 4; 99 # 2; 197 # 4; 99 # 2; 199 # 4; 50; 199 # 4; 99 # 2; 197 # 4; 99 # 2]%Q [1; 1; 1; 0; 0; 0; 1; 1; 1; 0]%Z /\
  q_exitcode o2 = (-2)%Z.
Proof. toyrun. Qed.

Lemma C75_case_battery : regular (toyX RK4 a_cycle) (probX a_cycle) (parX a_cycle) /\ 0 <= a_on (parX a_cycle) /\ 0 <= a_off (parX a_cycle) /\
  exists o' h, ran 10 (toyX RK4 a_cycle) noX noX (probX a_cycle) o' h /\
    throttle h 2 0 /\ depleted (parX a_cycle) h 2 /\ throttle h 3 0 /\ ~ depleted (parX a_cycle) h 3 /\ recharging (parX a_cycle) h 3.
Proof.
  split; [apply toy_regular|]. split; [simpl; q2r|]. split; [simpl; q2r|].
  destruct run_cycle as (o' & h & R & C & _). exists o', h. split; [exact R|].
  pose proof (rec_b _ _ _ _ _ 2 0%Q C eq_refl) as B2. pose proof (rec_b _ _ _ _ _ 3 (1 # 2)%Q C eq_refl) as B3.
  assert (D2 : depleted (parX a_cycle) h 2).
  { exists (Q2R 0). split; [exact B2|]. simpl. q2r. }
  split; [eapply rec_c; [exact C|reflexivity]|]. split; [exact D2|]. split; [eapply rec_c; [exact C|reflexivity]|]. split.
  - intros (b & E & L). rewrite (entry_fun _ _ _ _ E B3) in L. revert L. simpl. q2r.
  - split; [reflexivity|]. exists 2%nat. split; [lia|]. split; [exact D2|].
    intros j Hj. replace j with 3%nat by lia. exists (Q2R (1 # 2)). split; [exact B3|]. simpl. q2r.
Qed.

Lemma C75_case_duty : regular (toyX RK4 a_duty) (probX a_duty) (parX a_duty) /\ 0 <= a_on (parX a_duty) /\ 0 <= a_off (parX a_duty) /\
  a_full (parX a_duty) = false /\
  exists o' h, ran 20 (toyX RK4 a_duty) noX noX (probX a_duty) o' h /\ throttle h 3 0 /\ forall k, (k < 10)%nat -> ~ depleted (parX a_duty) h k.
Proof.
  split; [apply toy_regular|]. split; [simpl; q2r|]. split; [simpl; q2r|]. split; [reflexivity|].
  destruct run_duty_all as (o' & h & R & C & _). exists o', h. split; [exact R|]. split; [eapply rec_c; [exact C|reflexivity]|].
  intros k Hk (b & E & L).
  destruct C as (_ & _ & C & _). unfold entry in E. rewrite C in E.
  do 10 (destruct k as [|k]; [cbn [nth_error map] in E; injection E as <-; revert L; simpl; q2r|]). lia.
Qed.

(** No full-recharge requirement: the battery is empty at step 2, the duty cycle keeps the thruster off until it is full
    again at step 5, and step 6 thrusts. *)
Definition a_rest : qprob := mkqp 10 (1 # 10) 8 1 (1 # 10) 100 3 (3 # 2) 0 (3 # 2) (1 # 2) 1 false.
Lemma run_rest : exists o2 h2, ran 20 (toyX RK4 a_rest) noX noX (probX a_rest) o2 h2 /\
  recorded h2 [0; 1; 3 # 2; 5 # 2; 7 # 2; 9 # 2; 11 # 2; 13 # 2; 7; 8]%Q
    [10; 99 # 10; 197 # 20; 197 # 20; 197 # 20; 197 # 20; 197 # 20; 39 # 4; 97 # 10; 97 # 10]%Q
    [3 # 2; 1 # 2; 0; 1 # 2; 1; 3 # 2; 3 # 2; 1 # 2; 0; 1 # 2]%Q [1; 1; 0; 0; 0; 0; 1; 1; 0]%Z /\
  q_exitcode o2 = (-2)%Z.
Proof. toyrun. Qed.
Lemma C17_full_case : regular (toyX RK4 a_rest) (probX a_rest) (parX a_rest) /\ a_full (parX a_rest) = false /\
  a_lo (parX a_rest) + 1 / 10 ^ 12 < a_hi (parX a_rest) /\
  exists o' h, ran 20 (toyX RK4 a_rest) noX noX (probX a_rest) o' h /\ throttle h 6 1 /\ depleted (parX a_rest) h 2 /\
    forall i, (i < 6)%nat -> depleted (parX a_rest) h i ->
      exists j, (i < j <= 6)%nat /\ entry (h_battery h) j (a_hi (parX a_rest)).
Proof.
  split; [apply toy_regular|]. split; [reflexivity|]. split; [simpl; q2r|].
  destruct run_rest as (o' & h & R & C & _). exists o', h. split; [exact R|]. split; [eapply rec_c; [exact C|reflexivity]|].
  pose proof (rec_b _ _ _ _ _ 2 0%Q C eq_refl) as B2. split; [exists (Q2R 0); split; [exact B2|simpl; q2r]|].
  intros i Hi _. exists 6%nat. split; [lia|]. exact (rec_b _ _ _ _ _ 6 (3 # 2)%Q C eq_refl).
Qed.
