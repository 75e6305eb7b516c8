(** Q and its derivatives for the two laws. *)
From Coq Require Import Reals Lra Lia ZArith List Bool.
From Verif Require Import RMath RLib DLib Num Base Lyapunov Symbolic SymKep SymMee RSpec LawSpec DiffProofs CtlProofs KepQ MeeQ.
Import ListNotations.
Local Open Scope R_scope.

Definition env_of (p : law_args) (oe : vec6 RNum) : var -> R :=
  mkenv (N:=RNum) (g_mu p) (g_f p) oe (g_T p) (g_rpmin p) (g_m p) (g_n p) (g_r p) (g_b p) (g_k p) (g_wp p) (g_w p).
Lemma list5_back T : list_to_vec5 (list5 T) = Some T.
Proof. destruct T; reflexivity. Qed.
Lemma ask_lyap psi q p oe : ask (lyap_of (N:=RNum) psi q) p oe =
  Ok {| lo_u := eval3 (N:=RNum) (env_of p oe) (usym psi q); lo_psi := evalpsi (N:=RNum) (env_of p oe) psi;
        lo_q := reval (env_of p oe) q; lo_dqdoe := eval5 (N:=RNum) (env_of p oe) (dqdoe q) |}.
Proof.
  unfold ask, lyap_of. change (@list_to_vec5 RNum (list5 (g_T p))) with (list_to_vec5 (N:=RNum) (list5 (g_T p))).
  rewrite list5_back. reflexivity.
Qed.
Lemma Qof_lyap psi q p oe : Qof (lyap_of (N:=RNum) psi q) p oe = reval (env_of p oe) q.
Proof. unfold Qof. rewrite ask_lyap. reflexivity. Qed.

Lemma partials_lem psi q p oe : smooth (env_of p oe) q ->
  partials (Qof (lyap_of (N:=RNum) psi q) p) oe (eval5 (N:=RNum) (env_of p oe) (dqdoe q)).
Proof.
  intros S. destruct oe as [a b c d e l]. unfold partials, dqdoe, oe_vars. cbn [map eval5].
  assert (K : forall x F, is_oe x = true -> (forall t v, env_of p (F t) v = upd (env_of p (elems a b c d e l)) x t v) ->
    dlim (fun t => Qof (lyap_of (N:=RNum) psi q) p (F t)) (env_of p (elems a b c d e l) x) (reval (env_of p (elems a b c d e l)) (diff x q))).
  { intros x F Hx HF. eapply dext; [|apply diff_correct; [exact Hx|exact S]].
    intros t. cbn beta. rewrite Qof_lyap. apply eval_ext. intros v. symmetry. apply HF. }
  repeat split.
  - apply (K Voe0); [reflexivity|]. intros t []; reflexivity.
  - apply (K Voe1); [reflexivity|]. intros t []; reflexivity.
  - apply (K Voe2); [reflexivity|]. intros t []; reflexivity.
  - apply (K Voe3); [reflexivity|]. intros t []; reflexivity.
  - apply (K Voe4); [reflexivity|]. intros t []; reflexivity.
Qed.

Lemma eval_absent env env' x e : occurs x e = false -> (forall v, v <> x -> env v = env' v) -> reval env e = reval env' e.
Proof.
  intros O H. induction e; cbn [occurs] in O; try (apply orb_false_elim in O as [O1 O2]); cbn [eval];
    try (rewrite IHe by exact O; reflexivity); try (rewrite IHe1, IHe2 by assumption; reflexivity); try reflexivity.
  apply H. intros ->. destruct (var_eq_dec x x); [discriminate|congruence].
Qed.
Definition set5 (l : R) (oe : vec6 RNum) : vec6 RNum := let 'mk6 a b c d e _ := oe in elems a b c d e l.
Lemma chain_lem psi q p path t0 v : occurs Voe5 q = false -> smooth (env_of p (path t0)) q -> slow_velocity path t0 v ->
  dlim (fun t => Qof (lyap_of (N:=RNum) psi q) p (path t)) t0 (dot5R (eval5 (N:=RNum) (env_of p (path t0)) (dqdoe q)) v).
Proof.
  intros O S. destruct v as [v0 v1 v2 v3 v4]. intros (D0 & D1 & D2 & D3 & D4).
  set (l := v6_5 (path t0)). set (gamma := fun t => env_of p (set5 l (path t))).
  assert (G0 : forall w, gamma t0 w = env_of p (path t0) w).
  { intros w. unfold gamma, l. destruct (path t0). destruct w; reflexivity. }
  assert (E0 : forall g, reval (gamma t0) g = reval (env_of p (path t0)) g) by (intros g; apply eval_ext, G0).
  assert (SS : smooth (gamma t0) q).
  { clear - S E0. induction q; cbn [smooth] in *; rewrite ?E0; try tauto; intuition. }
  set (delta := fun w => match w with Voe0 => v0 | Voe1 => v1 | Voe2 => v2 | Voe3 => v3 | Voe4 => v4 | _ => 0 end).
  assert (PA : path_at gamma t0 delta).
  { split.
    - intros w t Hw. unfold gamma. destruct w; try discriminate Hw; reflexivity.
    - intros w Hw. destruct w; try discriminate Hw; unfold gamma, delta.
      + eapply dext; [|exact D0]. intros t. cbn beta. destruct (path t); reflexivity.
      + eapply dext; [|exact D1]. intros t. cbn beta. destruct (path t); reflexivity.
      + eapply dext; [|exact D2]. intros t. cbn beta. destruct (path t); reflexivity.
      + eapply dext; [|exact D3]. intros t. cbn beta. destruct (path t); reflexivity.
      + eapply dext; [|exact D4]. intros t. cbn beta. destruct (path t); reflexivity.
      + apply (dext (fun _ => l)); [|apply d_const]. intros t. cbn beta. destruct (path t); reflexivity. }
  eapply dext; [|eapply dval; [|exact (path_diff gamma t0 delta q PA SS)]].
  - intros t. cbn beta. rewrite Qof_lyap. apply (eval_absent _ _ Voe5 q O).
    intros w Hw. unfold gamma. destruct (path t); destruct w; try reflexivity; congruence.
  - unfold total, dqdoe, oe_vars, dot5R. cbn [map eval5]. rewrite !E0, (diff_absent _ Voe5 q O). unfold delta.
    set (x0 := reval _ (diff Voe0 q)). set (x1 := reval _ (diff Voe1 q)). set (x2 := reval _ (diff Voe2 q)).
    set (x3 := reval _ (diff Voe3 q)). set (x4 := reval _ (diff Voe4 q)). clearbody x0 x1 x2 x3 x4.
    change (@eq (@car RNum)) with (@eq R). ring.
Qed.

Lemma qdot_gen psi q p oe out : shape35 psi -> occurs Voe5 q = false -> smooth (env_of p oe) q ->
  ask (lyap_of (N:=RNum) psi q) p oe = Ok out -> v3_0 (lo_u out) <> 0 \/ v3_1 (lo_u out) <> 0 ->
  exists alpha beta u P qv qdot,
    ask (lyapunov_control_angles (N:=RNum) (lyap_of psi q)) p oe = Ok (alpha, beta, u, P, qv, qdot) /\
    ask (dqdt_of (N:=RNum) psi q) p oe = Ok qdot /\
    qdot = g_f p * norm (lo_u out) /\
    forall path t0, path t0 = oe -> slow_velocity path t0 (slow_rate P (scale (g_f p) (direction alpha beta))) ->
      dlim (fun t => Qof (lyap_of (N:=RNum) psi q) p (path t)) t0 (- qdot).
Proof.
  intros Sh O S HF HD. rewrite ask_lyap in HF. injection HF as <-. cbn [lo_u] in *.
  destruct (qdot_lem psi q (g_mu p) (g_f p) oe (g_T p) (g_rpmin p) (g_m p) (g_n p) (g_r p) (g_b p) (g_k p) (g_wp p) (g_w p) Sh HD)
    as (al & be & u & P & qv & qd & E1 & E2 & E3 & _ & _ & E6).
  exists al, be, u, P, qv, qd. split; [exact E1|]. split; [exact E2|]. split; [exact E3|].
  intros path t0 Ep Hv. rewrite <- E6. subst oe. apply chain_lem; assumption.
Qed.

(** ** Instances *)
Lemma kep_S p oe : sound p -> kep_state oe -> power_ok p oe -> kep_smooth p oe -> smooth (env_of p oe) SymKep.q.
Proof.
  destruct p as [mu f [aT eT iT raT omT] rpmin m n r b k wp [w0 w1 w2 w3 w4]]. destruct oe as [a e i ra om ta].
  intros (H1 & H2 & H3 & H4 & H5 & H6 & H7 & H8 & H9 & W0 & W1 & W2 & W3 & W4) (K1 & K2 & K3) P (S1 & S2 & S3 & S4 & S5 & S6).
  cbn [g_T g_mu g_f g_rpmin g_m g_n g_r g_b g_k g_wp g_w] in *. apply S_q; assumption.
Qed.
Lemma mee_S p oe : sound p -> mee_state oe -> mee_smooth p oe -> smooth (env_of p oe) SymMee.q.
Proof.
  destruct p as [mu acc [aT fT gT hT kT] rpmin m n r b kk wp [w0 w1 w2 w3 w4]]. destruct oe as [a f g h k l].
  intros (H1 & H2 & H3 & H4 & H5 & H6 & H7 & H8 & H9 & W0 & W1 & W2 & W3 & W4) (K1 & K2) (S1 & S2).
  cbn [g_T g_mu g_f g_rpmin g_m g_n g_r g_b g_k g_wp g_w] in *. apply S_mq; assumption.
Qed.

Lemma C35_kep_lem p a e i ra om ta aT eT iT raT omT w0 w1 w2 w3 w4 :
  g_T p = @mk5 RNum aT eT iT raT omT -> g_w p = @mk5 RNum w0 w1 w2 w3 w4 ->
  let oe := elems a e i ra om ta in
  sound p -> kep_state oe -> power_ok p oe ->
  exists out, ask (lyap_keplerian (N:=RNum)) p oe = Ok out /\ 0 <= lo_q out /\
    (lo_q out = 0 <-> met w0 a aT /\ met w1 e eT /\ met w2 i iT /\ met_angle w3 ra raT /\ met_angle w4 om omT).
Proof.
  intros ET EW oe. destruct p as [mu f T rpmin m n r b k wp W]. cbn [g_T g_w] in ET, EW. subst T W.
  intros (H1 & H2 & H3 & H4 & H5 & H6 & H7 & H8 & H9 & W0 & W1 & W2 & W3 & W4) (K1 & K2 & K3) P.
  cbn [g_T g_mu g_f g_rpmin g_m g_n g_r g_b g_k g_wp g_w] in *.
  eexists. split; [unfold lyap_keplerian; apply ask_lyap|]. cbn [lo_q]. unfold env_of, oe. cbn [g_T g_mu g_f g_rpmin g_m g_n g_r g_b g_k g_wp g_w].
  rewrite ev_q by assumption. apply Q_sign; assumption.
Qed.
Lemma C35_mee_lem p a f g h k l aT fT gT hT kT w0 w1 w2 w3 w4 :
  g_T p = @mk5 RNum aT fT gT hT kT -> g_w p = @mk5 RNum w0 w1 w2 w3 w4 ->
  let oe := elems a f g h k l in
  sound p -> mee_state oe ->
  exists out, ask (lyap_mee_with_a (N:=RNum)) p oe = Ok out /\ 0 <= lo_q out /\
    (lo_q out = 0 <-> met w0 a aT /\ met w1 f fT /\ met w2 g gT /\ met w3 h hT /\ met w4 k kT).
Proof.
  intros ET EW oe. destruct p as [mu acc T rpmin m n r b kk wp W]. cbn [g_T g_w] in ET, EW. subst T W.
  intros (H1 & H2 & H3 & H4 & H5 & H6 & H7 & H8 & H9 & W0 & W1 & W2 & W3 & W4) (K1 & K2).
  cbn [g_T g_mu g_f g_rpmin g_m g_n g_r g_b g_k g_wp g_w] in *.
  eexists. split; [unfold lyap_mee_with_a; apply ask_lyap|]. cbn [lo_q]. unfold env_of, oe. cbn [g_T g_mu g_f g_rpmin g_m g_n g_r g_b g_k g_wp g_w].
  rewrite ev_mq by assumption. apply mQ_sign; assumption.
Qed.

Lemma C36_kep_lem p oe : sound p -> kep_state oe -> power_ok p oe -> kep_smooth p oe ->
  exists out, ask (lyap_keplerian (N:=RNum)) p oe = Ok out /\ partials (Qof (lyap_keplerian (N:=RNum)) p) oe (lo_dqdoe out).
Proof.
  intros. eexists. split; [unfold lyap_keplerian; apply ask_lyap|]. apply partials_lem, kep_S; assumption.
Qed.
Lemma C36_mee_lem p oe : sound p -> mee_state oe -> mee_smooth p oe ->
  exists out, ask (lyap_mee_with_a (N:=RNum)) p oe = Ok out /\ partials (Qof (lyap_mee_with_a (N:=RNum)) p) oe (lo_dqdoe out).
Proof.
  intros. eexists. split; [unfold lyap_mee_with_a; apply ask_lyap|]. apply partials_lem, mee_S; assumption.
Qed.
Lemma C37_kep_lem p oe out : sound p -> kep_state oe -> power_ok p oe -> kep_smooth p oe ->
  ask (lyap_keplerian (N:=RNum)) p oe = Ok out -> v3_0 (lo_u out) <> 0 \/ v3_1 (lo_u out) <> 0 ->
  exists alpha beta u P qv qdot,
    ask (lyapunov_control_angles (N:=RNum) lyap_keplerian) p oe = Ok (alpha, beta, u, P, qv, qdot) /\
    ask (dqdt_keplerian (N:=RNum)) p oe = Ok qdot /\
    qdot = g_f p * norm (lo_u out) /\
    forall path t0, path t0 = oe -> slow_velocity path t0 (slow_rate P (scale (g_f p) (direction alpha beta))) ->
      dlim (fun t => Qof (lyap_keplerian (N:=RNum)) p (path t)) t0 (- qdot).
Proof. intros. apply qdot_gen; try assumption; [apply shape_kep|reflexivity|apply kep_S; assumption]. Qed.
Lemma C37_mee_lem p oe out : sound p -> mee_state oe -> mee_smooth p oe ->
  ask (lyap_mee_with_a (N:=RNum)) p oe = Ok out -> v3_0 (lo_u out) <> 0 \/ v3_1 (lo_u out) <> 0 ->
  exists alpha beta u P qv qdot,
    ask (lyapunov_control_angles (N:=RNum) lyap_mee_with_a) p oe = Ok (alpha, beta, u, P, qv, qdot) /\
    ask (dqdt_mee_with_a (N:=RNum)) p oe = Ok qdot /\
    qdot = g_f p * norm (lo_u out) /\
    forall path t0, path t0 = oe -> slow_velocity path t0 (slow_rate P (scale (g_f p) (direction alpha beta))) ->
      dlim (fun t => Qof (lyap_mee_with_a (N:=RNum)) p (path t)) t0 (- qdot).
Proof. intros. apply qdot_gen; try assumption; [apply shape_mee|reflexivity|apply mee_S; assumption]. Qed.
