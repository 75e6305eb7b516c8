(** A concrete orbit on which none of the four divisors bounds its rate. *)
From Coq Require Import Reals Lra ZArith List Bool.
From Verif Require Import RMath RLib Num Base Lyapunov SymKep SymMee RSpec LawSpec MaxSpec LawRuns MaxProofs.
Local Open Scope R_scope.
Lemma C39_refuted_lem : exists p (a f g h k l : R),
  let oe := elems a f g h k l in let fn := lyap_mee_with_a (N:=RNum) in
  sound p /\ 0 < g_f p /\ mee_state oe /\ f <> 0 /\
  ~ bounds_rate fn p oe any_push v5_1 (mee_div_f p a f g) /\ ~ bounds_rate fn p oe any_push v5_2 (mee_div_f p a f g) /\
  ~ bounds_rate fn p oe any_push v5_3 (mee_div_h p a f g h k) /\ ~ bounds_rate fn p oe any_push v5_4 (mee_div_k p a f g h k).
Proof.
  exists p_mee, 1, (1 / 2), (1 / 2), 0, 0, 0. intros oe fn.
  assert (M : 0 < g_mu p_mee) by (cbn; lra). assert (F : 0 < g_f p_mee) by (cbn; lra).
  assert (E : 1 / 2 * (1 / 2) + 1 / 2 * (1 / 2) < 1) by lra. assert (Z : 1 / 2 <> 0) by lra. assert (A : 0 < 1) by lra.
  split; [exact p_kep_sound|]. split; [exact F|]. split; [exact (conj A E)|]. split; [exact Z|].
  split; [intros B; apply (f_lem p_mee 1 (1 / 2) (1 / 2) 0 0 0 M F A E Z) in B; lra|].
  split; [exact (g_lem p_mee 1 (1 / 2) (1 / 2) 0 0 0 M F A E Z)|].
  split; [intros B; apply (h_lem p_mee 1 (1 / 2) (1 / 2) 0 0 0 M F A E Z) in B; lra|].
  intros B; apply (k_lem p_mee 1 (1 / 2) (1 / 2) 0 0 0 M F A E Z) in B; lra.
Qed.
