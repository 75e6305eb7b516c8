(** A run for the statements about accumulated rounding: the step 0.1 up to 1. *)
From Coq Require Import Reals Lra QArith ZArith List Bool String Lia Floats.SpecFloat.
From Verif Require Import Num Base Integrate Eom Lyapunov Perturb Qlaw Trace Spec XSpec SolveProofs Sim Runs XRuns Float64 FloatSpec FloatProofs FloatMono FloatRun FloatRuns FloatDuty FloatTerm FloatTermRuns ErrSpec FloatErr.
Import ListNotations.
Local Open Scope R_scope.

Lemma plain_hyps : forward64 (toyF a_plain) (probF a_plain) /\ ~ flt f0 (p_discharge (probF a_plain)) /\ fin (p_tf_max (probF a_plain)) /\
  fin (p_mass0 (probF a_plain)) /\ fin (p_mdot (probF a_plain)) /\ flt f0 (p_mdot (probF a_plain)) /\ fresh (toyF a_plain).
Proof. split; [ck|]. split; [vm_compute; discriminate|]. repeat (match goal with |- _ /\ _ => split | |- fresh _ => unfold fresh end); solve [exact I|vm_compute; exact I|vm_compute; reflexivity]. Qed.

Lemma real_of_val x s m e : f_val x = S754_finite s m e -> real64 x = (if s then -1 else 1) * IZR (Zpos m) * powerRZ 2 e.
Proof. intros E. unfold real64. rewrite E. reflexivity. Qed.
Lemma plain_drift : exists o2 h2 t m, ran 16 (toyF a_plain) noF noF (probF a_plain) o2 h2 /\ q_exitcode o2 = (-2)%Z /\ List.length (h_controls h2) = 11%nat /\
  (forall t, In t (h_times h2) -> fin t) /\ nth_error (h_times h2) 10 = Some t /\ nth_error (h_masses h2) 10 = Some m /\ fle f0 m /\ thrusts h2 10 = 10%nat /\
  real64 t = 10 * real64 (p_t_step (probF a_plain)) - 3 / 2 * u53 /\
  Rabs (real64 (p_tf_max (probF a_plain))) = 1 /\
  real64 m <> real64 (p_mass0 (probF a_plain)) - 10 * (real64 (p_mdot (probF a_plain)) * real64 (p_t_step (probF a_plain))).
Proof.
  assert (H : exists o2 h2, ran 16 (toyF a_plain) noF noF (probF a_plain) o2 h2 /\ q_exitcode o2 = (-2)%Z /\ List.length (h_controls h2) = 11%nat /\
    map (fun t => SFleb (f_val t) (f_val (dbl 2))) (h_times h2) = repeat true 12 /\
    map (fun t => SFleb (S754_zero false) (f_val t)) (h_times h2) = repeat true 12 /\
    option_map f_val (nth_error (h_times h2) 10) = Some (S754_finite false 9007199254740991 (-53)) /\
    option_map f_val (nth_error (h_masses h2) 10) = Some (S754_finite false 5573204538870990 (-49)) /\ thrusts h2 10 = 10%nat).
  { runF. }
  destruct H as (o2 & h2 & R & X & Lc & T1 & T2 & Et & Em & Th).
  destruct (nth_error (h_times h2) 10) as [t|] eqn:Nt; [|discriminate Et]. injection Et as Et.
  destruct (nth_error (h_masses h2) 10) as [m|] eqn:Nm; [|discriminate Em]. injection Em as Em.
  exists o2, h2, t, m. split; [exact R|]. split; [exact X|]. split; [exact Lc|]. split.
  { intros w Hw. apply In_nth_error in Hw as [k Hk].
    assert (K : forall f, map f (h_times h2) = repeat true 12 -> f w = true).
    { intros f E. assert (In (f w) (map f (h_times h2))) as Hi by (apply in_map; eapply nth_error_In; eassumption). rewrite E in Hi. apply repeat_spec in Hi. exact Hi. }
    apply K in T1. apply K in T2. unfold fin. destruct (f_val w) as [|[|]| |]; try exact I; discriminate. }
  split; [exact Nt|]. split; [exact Nm|]. split; [unfold fle; rewrite Em; reflexivity|]. split; [exact Th|].
  assert (Es : f_val (p_t_step (probF a_plain)) = S754_finite false 7205759403792794 (-56)) by (vm_compute; reflexivity).
  assert (Ed : f_val (p_mdot (probF a_plain)) = S754_finite false 7205759403792794 (-56)) by (vm_compute; reflexivity).
  assert (E0 : f_val (p_mass0 (probF a_plain)) = S754_finite false 5629499534213120 (-49)) by (vm_compute; reflexivity).
  assert (Ef : f_val (p_tf_max (probF a_plain)) = S754_finite false 4503599627370496 (-52)) by (vm_compute; reflexivity).
  rewrite (real_of_val _ _ _ _ Et), (real_of_val _ _ _ _ Em), (real_of_val _ _ _ _ Es), (real_of_val _ _ _ _ Ed), (real_of_val _ _ _ _ E0), (real_of_val _ _ _ _ Ef).
  assert (U : u53 = powerRZ 2 (-53)) by reflexivity.
  assert (P56 : powerRZ 2 (-56) = u53 / 8) by (unfold u53; replace (-56)%Z with (-53 + -3)%Z by lia; rewrite p2_add; change (powerRZ 2 (-3)) with (/ (2 * (2 * (2 * 1)))); lra).
  assert (P49 : powerRZ 2 (-49) = u53 * 16) by (unfold u53; replace (-49)%Z with (-53 + 4)%Z by lia; rewrite p2_add; change (powerRZ 2 4) with (2 * (2 * (2 * (2 * 1)))); lra).
  assert (P52 : powerRZ 2 (-52) = u53 * 2) by (unfold u53; replace (-52)%Z with (-53 + 1)%Z by lia; rewrite p2_add; change (powerRZ 2 1) with (2 * 1); lra).
  pose proof u53_eq as K. change (IZR (2 ^ 53)) with 9007199254740992 in K. rewrite <- U, P56, P49, P52. clear P56 P49 P52 U. pose proof u53_pos as Up.
  split; [lra|]. split; [rewrite Rabs_right; lra|]. assert (u53 = / 9007199254740992) as -> by (apply Rmult_eq_reg_r with 9007199254740992; lra).
  intros E. lra.
Qed.
