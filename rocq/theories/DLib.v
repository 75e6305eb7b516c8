(** Derivatives of real functions: the standard rules, stated for lambda terms. *)
From Coq Require Import Reals Lra.
Local Open Scope R_scope.

Notation dlim := derivable_pt_lim.

Lemma dext f g x l : (forall t, f t = g t) -> dlim f x l -> dlim g x l.
Proof. intros E H eps He. destruct (H eps He) as [d Hd]. exists d. intros h. rewrite <- !E. apply Hd. Qed.
Lemma dval f x l l' : l = l' -> dlim f x l -> dlim f x l'.
Proof. intros <-. auto. Qed.
(** Only the values near x matter. *)
Lemma dlocal f g x l d : 0 < d -> (forall t, Rabs (t - x) < d -> f t = g t) -> dlim f x l -> dlim g x l.
Proof.
  intros Hd E H eps He. destruct (H eps He) as [d' Hd'].
  assert (Hm : 0 < Rmin d d') by (apply Rmin_pos; [exact Hd|apply cond_pos]).
  exists (mkposreal _ Hm). simpl. intros h Hh Hlt.
  rewrite <- !E.
  - apply Hd'; [exact Hh|]. eapply Rlt_le_trans; [exact Hlt|apply Rmin_r].
  - rewrite Rminus_eq_0, Rabs_R0. exact Hd.
  - replace (x + h - x) with h by ring. eapply Rlt_le_trans; [exact Hlt|apply Rmin_l].
Qed.

Section Rules.
Variables (f g : R -> R) (x l m : R).
Hypotheses (F : dlim f x l) (G : dlim g x m).
Lemma d_plus : dlim (fun t => f t + g t) x (l + m).
Proof. apply (derivable_pt_lim_plus f g); assumption. Qed.
Lemma d_minus : dlim (fun t => f t - g t) x (l - m).
Proof. apply (derivable_pt_lim_minus f g); assumption. Qed.
Lemma d_mult : dlim (fun t => f t * g t) x (l * g x + f x * m).
Proof. apply (derivable_pt_lim_mult f g); assumption. Qed.
Lemma d_opp : dlim (fun t => - f t) x (- l).
Proof. apply (derivable_pt_lim_opp f); assumption. Qed.
Lemma d_scal c : dlim (fun t => c * f t) x (c * l).
Proof. apply (derivable_pt_lim_scal f); assumption. Qed.
Lemma d_div : g x <> 0 -> dlim (fun t => f t / g t) x ((l * g x - m * f x) / (g x * g x)).
Proof. intros H. apply (derivable_pt_lim_div f g); assumption. Qed.
Lemma d_inv : f x <> 0 -> dlim (fun t => / f t) x (- l / (f x * f x)).
Proof.
  intros H. apply (dext (fun t => 1 / f t)); [intros; unfold Rdiv; ring|].
  apply (dval _ _ ((0 * f x - l * 1) / (f x * f x))); [field; exact H|].
  apply (derivable_pt_lim_div (fun _ => 1) f); [apply derivable_pt_lim_const|exact F|exact H].
Qed.
Lemma d_sqrt : 0 < f x -> dlim (fun t => sqrt (f t)) x (l / (2 * sqrt (f x))).
Proof.
  intros H. apply (dval _ _ (/ (2 * sqrt (f x)) * l)); [unfold Rdiv; ring|].
  apply (derivable_pt_lim_comp f sqrt); [exact F|apply derivable_pt_lim_sqrt, H].
Qed.
Lemma d_sin : dlim (fun t => sin (f t)) x (cos (f x) * l).
Proof. apply (derivable_pt_lim_comp f sin); [exact F|apply derivable_pt_lim_sin]. Qed.
Lemma d_cos : dlim (fun t => cos (f t)) x (- sin (f x) * l).
Proof. apply (derivable_pt_lim_comp f cos); [exact F|apply derivable_pt_lim_cos]. Qed.
Lemma d_exp : dlim (fun t => exp (f t)) x (exp (f x) * l).
Proof. apply (derivable_pt_lim_comp f exp); [exact F|apply derivable_pt_lim_exp]. Qed.
Lemma d_atan : dlim (fun t => atan (f t)) x (/ (1 + f x * f x) * l).
Proof.
  apply (dval _ _ (/ (1 + f x ^ 2) * l)); [do 3 f_equal; ring|].
  apply (derivable_pt_lim_comp f atan); [exact F|apply derivable_pt_lim_atan].
Qed.
Lemma d_pow n : dlim (fun t => f t ^ n) x (INR n * f x ^ pred n * l).
Proof. apply (derivable_pt_lim_comp f (fun y => y ^ n)); [exact F|apply derivable_pt_lim_pow]. Qed.
Lemma d_tan : cos (f x) <> 0 -> dlim (fun t => tan (f t)) x ((1 + tan (f x) * tan (f x)) * l).
Proof.
  intros H. apply (dext (fun t => sin (f t) / cos (f t))); [reflexivity|].
  pose proof (derivable_pt_lim_div (fun t => sin (f t)) (fun t => cos (f t)) x (cos (f x) * l) (- sin (f x) * l)) as D.
  eapply dval; [|apply D; [apply d_sin|apply d_cos|exact H]].
  unfold tan, Rsqr. field. exact H.
Qed.
End Rules.
Lemma d_const c x : dlim (fun _ => c) x 0.
Proof. apply derivable_pt_lim_const. Qed.
Lemma d_id x : dlim (fun t => t) x 1.
Proof. apply derivable_pt_lim_id. Qed.
Lemma d_lin a b x : dlim (fun t => a + t * b) x b.
Proof.
  eapply dval; [|apply (d_plus (fun _ => a) (fun t => t * b)); [apply d_const|apply (d_mult (fun t => t) (fun _ => b)); [apply d_id|apply d_const]]].
  ring.
Qed.
(** A differentiable function stays away from a value it does not take. *)
Lemma d_cont f x l : dlim f x l -> continuity_pt f x.
Proof. intros H. apply derivable_continuous_pt. exists l. exact H. Qed.
