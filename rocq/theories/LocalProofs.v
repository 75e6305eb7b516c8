(** C118: a perturbation model matters only where steps start. *)
From Coq Require Import Reals Lra Lia ZArith QArith Qreals String List Bool.
From Verif Require Import XTrace RMath RLib Num Base Elements Perturb Qlaw Trace Spec SolveProofs LocalSpec RSpec ExportSpec MirrorSpec FinSpec SkySpec SkyProofs SkyFin Sim XSpec XRuns RestartRuns.
Import ListNotations.

Section L.
Context {N : Num}.
Variables (o : qlaw N) (p : problem N) (ea er : eta_arg N) (m : option (ptrb_fn (N:=N))).
Notation tr := (tr o p ea er).
Notation iter := (iter o p ea er).
Notation mkh := (mkh p).
Notation ended := (ended o p ea er).
Let o' := with_model m o.

Lemma perturbation_felt (x : qlaw N) s : perturbation x s = felt (q_ptrb x) (l_t s) (l_oe s) (q_etype x).
Proof. reflexivity. Qed.
(** a returning loop adds rows to those it started with *)
Lemma loop_rows fuel : forall gs s, tr gs s ->
  match loop fuel o p ea er s with
  | LEnd sf | LStop _ _ sf => exists rest oel code conv, ended (gs ++ rest) oel code conv /\ l_hist sf = mkh (gs ++ rest) oel
  | _ => True end.
Proof.
  induction fuel as [|n IH]; intros gs s Htr; cbn [loop].
  - destruct (guard p s) eqn:Hg; [exact I|]. exists [], (l_oe s), None, false. rewrite app_nil_r. split; [constructor; assumption|]. eapply tr_hist; eassumption.
  - destruct (guard p s) eqn:Hg.
    2:{ exists [], (l_oe s), None, false. rewrite app_nil_r. split; [constructor; assumption|]. eapply tr_hist; eassumption. }
    pose proof (step_cases o p ea er s) as SC. destruct (step o p ea er s) as [s1|code conv s1|e s1] eqn:Hst; [| |exact I].
    + inversion SC as [g Hit Heq| | |]. assert (T1 : tr (gs ++ [g]) s1) by (eapply tr_snoc; eauto). specialize (IH _ _ T1).
      destruct (loop n o p ea er s1); try exact I; destruct IH as (rest & oel & cd & cv & E & H); exists (g :: rest), oel, cd, cv; rewrite <- app_assoc in E, H; split; assumption.
    + inversion SC as [g Hit Heq|pl H1 H2 Heq| |].
      * exists [g], (g_oe g), (Some code), conv. split; [econstructor; eassumption|]. rewrite (exit_stop_hist _ _ _ _ _ _ Heq).
        eapply post_hist; [|eassumption]. eapply tr_hist; eassumption.
      * subst. exists [], (l_oe (safety o s)), (Some (-3)%Z), false. rewrite app_nil_r. split; [econstructor; eassumption|].
        apply safety_hist. eapply tr_hist; eassumption.
Qed.
Lemma row_start gs g rest oel code conv s : ended (gs ++ g :: rest) oel code conv -> iter s g ->
  nth_error (h_times (mkh (gs ++ g :: rest) oel)) (length gs) = Some (l_t (safety o s)) /\
  nth_error (h_states (mkh (gs ++ g :: rest) oel)) (length gs) = Some (l_oe (safety o s)) /\
  (length gs < length (h_controls (mkh (gs ++ g :: rest) oel)))%nat.
Proof.
  intros E Hit. assert (Hn : nth_error (gs ++ g :: rest) (length gs) = Some g) by (rewrite nth_error_app2, Nat.sub_diag by lia; reflexivity).
  destruct (ended_facts o p ea er _ _ _ _ E _ _ Hn) as (sk & _ & F). destruct F as [Fi _ Ft _ _ _ _ _ Fo _ _ _ _ _].
  rewrite Ft, Fo. rewrite <- (it_s _ _ _ _ _ _ Hit). split; [|split; [reflexivity|]].
  - rewrite (it_s _ _ _ _ _ _ Fi). destruct (safety_fields o sk) as [-> _]. reflexivity.
  - cbn [Trace.mkh h_controls]. rewrite map_length, app_length. cbn [length]. lia.
Qed.
Lemma step_same s : felt m (l_t (safety o s)) (l_oe (safety o s)) (q_etype o) = felt (q_ptrb o) (l_t (safety o s)) (l_oe (safety o s)) (q_etype o) ->
  step o' p ea er s = step o p ea er s.
Proof.
  intros H. unfold step. change (safety o' s) with (safety o s). cbv zeta. change (plan o' p (safety o s)) with (plan o p (safety o s)).
  destruct (plan o p (safety o s)) as [pl|e]; [|reflexivity].
  change (control o' p ea er (safety o s) pl) with (control o p ea er (safety o s) pl).
  destruct (control o p ea er (safety o s) pl _) as [[c|]|e]; try reflexivity.
  rewrite !perturbation_felt. change (q_ptrb o') with m. change (q_etype o') with (q_etype o). rewrite H. reflexivity.
Qed.
Lemma step_nan s pl : plan o p (safety o s) = Ok pl ->
  control o p ea er (safety o s) pl (accel_thrust p (pl_dt pl) (l_mass (safety o s))) = Ok NanBreak ->
  step o' p ea er s = Stop (-3) false (safety o s).
Proof.
  intros H1 H2. unfold step. change (safety o' s) with (safety o s). cbv zeta. change (plan o' p (safety o s)) with (plan o p (safety o s)). rewrite H1.
  change (control o' p ea er (safety o s) pl) with (control o p ea er (safety o s) pl). rewrite H2. reflexivity.
Qed.
Lemma loop_same fuel : forall gs s, tr gs s ->
  match loop fuel o p ea er s with
  | LEnd sf | LStop _ _ sf => agree_along m (q_ptrb o) (q_etype o) (l_hist sf) -> loop fuel o' p ea er s = loop fuel o p ea er s
  | _ => True end.
Proof.
  induction fuel as [|n IH]; intros gs s Htr.
  - cbn [loop]. destruct (guard p s); [exact I|]. intros _. reflexivity.
  - cbn [loop]. destruct (guard p s) eqn:Hg; [|intros _; reflexivity].
    pose proof (step_cases o p ea er s) as SC. destruct (step o p ea er s) as [s1|code conv s1|e s1] eqn:Hst; [| |exact I].
    + inversion SC as [g Hit Heq| | |]. assert (T1 : tr (gs ++ [g]) s1) by (eapply tr_snoc; eauto). specialize (IH _ _ T1).
      pose proof (loop_rows n _ _ T1) as L1.
      destruct (loop n o p ea er s1) as [sf|c v sf| |] eqn:El; try exact I; intros A; specialize (IH A);
        destruct L1 as (rest & oel & cd & cv & E & H); rewrite <- app_assoc in E, H; cbn [app] in E, H;
        destruct (row_start gs g rest oel cd cv s E Hit) as (R1 & R2 & R3); rewrite <- H in R1, R2, R3;
        rewrite (step_same s (A _ _ _ R3 R1 R2)), Hst; exact IH.
    + intros A. inversion SC as [g Hit Heq|pl H1 H2 Heq| |].
      * assert (E : ended (gs ++ [g]) (g_oe g) (Some code) conv) by (econstructor; eassumption).
        destruct (row_start gs g [] _ _ _ s E Hit) as (R1 & R2 & R3).
        assert (H : l_hist s1 = mkh (gs ++ [g]) (g_oe g)).
        { rewrite (exit_stop_hist _ _ _ _ _ _ Heq). eapply post_hist; [|eassumption]. eapply tr_hist; eassumption. }
        rewrite <- H in R1, R2, R3. rewrite (step_same s (A _ _ _ R3 R1 R2)), Hst. reflexivity.
      * subst. rewrite (step_nan s pl H1 H2). reflexivity.
Qed.
Lemma C118_lem fuel o1 h : ran fuel o ea er p o1 h -> agree_along m (q_ptrb o) (q_etype o) h ->
  solve fuel (with_model m o) ea er = Returns (with_model m o1).
Proof.
  intros (H1 & Hp & Hh) A. unfold solve in *. change (q_problem (with_model m o)) with (q_problem o). rewrite Hp in *.
  pose proof (loop_same fuel [] (init_state p) (tr_nil _ _ _ _)) as LS. fold o'.
  assert (G : forall ea0, ea0 = ea -> match loop fuel o p ea er (init_state p) with
       | LEnd s => Returns (finish o p (l_hist s) (q_converge o) (q_exitcode o))
       | LStop code conv s => Returns (finish o p (l_hist s) (conv || q_converge o) code)
       | LFail e s => Raises e (with_run o (Some (with_oe0 p (l_hist s))) (Some (l_hist s)) (q_converge o) (q_exitcode o))
       | LFuel _ => Running
       end = Returns o1 ->
       match loop fuel o' p ea er (init_state p) with
       | LEnd s => Returns (finish o' p (l_hist s) (q_converge o') (q_exitcode o'))
       | LStop code conv s => Returns (finish o' p (l_hist s) (conv || q_converge o') code)
       | LFail e s => Raises e (with_run o' (Some (with_oe0 p (l_hist s))) (Some (l_hist s)) (q_converge o') (q_exitcode o'))
       | LFuel _ => Running
       end = Returns (with_model m o1)).
  { intros _ _ Hl. destruct (loop fuel o p ea er (init_state p)) as [s|code conv s|e s|s]; try discriminate; injection Hl as <-; injection Hh as <-;
      rewrite (LS A); reflexivity. }
  specialize (G ea eq_refl). destruct ea; [exact (G H1)|exact (G H1)|discriminate].
Qed.
End L.

Local Open Scope R_scope.
Lemma empty_zero (sp : spice XNum) (po : ptrb_obj XNum) mu (t : @car XNum) oe et : empty_model po -> pt_obs_mu po = Fin mu -> 0 < mu -> elliptic et oe ->
  get_perturbations_RTN sp po t (fin6 oe) et = Ok (v3zero (N:=XNum)).
Proof.
  intros (G & J & S) Em Hm He. destruct (state_fin et oe mu Hm He) as (s & _ & X & N1 & N2). unfold get_perturbations_RTN. rewrite Em, J, S.
  unfold state_of in X. rewrite X. cbn [bind].
  assert (Z : match pt_gms po, pt_names po with
              | Some gs, Some ns => third_body_loop sp po (nadd (Num:=XNum) (pt_et_ref po) (nmul (Num:=XNum) t (pt_TU po))) (rpart (fin6 s)) (combine gs ns) v3zero
              | _, _ => Err TypeError end = Ok (v3zero (N:=XNum))).
  { destruct G as (gs & ns & -> & -> & [-> | ->]); [reflexivity|]. destruct gs; reflexivity. }
  rewrite Z. cbn [bind]. destruct (fin_parts s) as [-> ->]. rewrite rtn_fin by assumption.
  change (v3zero (N:=XNum)) with (fin3 (v3zero (N:=RNum))). rewrite matvec_fin. do 2 f_equal.
  destruct (pxformECI2RTN (N:=RNum) (rpart s) (vpart s)) as [[a b c] [d e f] [g h i]]. unfold matvec, v3zero, dot3. cbn. f_equal; ring.
Qed.
Lemma C118_empty_lem (o : qlaw XNum) p ea er fuel o1 h (sp : spice XNum) (po : ptrb_obj XNum) mu : ran fuel o ea er p o1 h -> q_ptrb o = None ->
  empty_model po -> pt_obs_mu po = Fin mu -> 0 < mu ->
  (forall k st, (k < length (h_controls h))%nat -> nth_error (h_states h) k = Some st -> exists oe, st = fin6 oe /\ elliptic (q_etype o) oe) ->
  solve fuel (with_model (Some (built_in sp po)) o) ea er = Returns (with_model (Some (built_in sp po)) o1).
Proof.
  intros R Np E Em Hm Hs. eapply C118_lem; [exact R|]. intros k t oe Hk _ Ho. rewrite Np. cbn [felt]. unfold built_in.
  destruct (Hs k oe Hk Ho) as (x & -> & El). exact (empty_zero sp po mu t x _ E Em Hm El).
Qed.

(** Examples.  A model that fails after time 1000; the empty model on a one-step run. *)
Definition until1000 : ptrb_fn (N:=XNum) := fun t _ _ => if nleb (Num:=XNum) t (Fin 1000) then Ok (v3zero (N:=XNum)) else Err ValueError.
Lemma until_case : exists o1 h, ran 10 (toyX RK4 a_cycle) noX noX (probX a_cycle) o1 h /\
  agree_along (Some until1000) (q_ptrb (toyX RK4 a_cycle)) (q_etype (toyX RK4 a_cycle)) h /\ length (h_controls h) = 7%nat /\
  felt (Some until1000) (Fin 1001) (v6of (N:=XNum) (Fin 1)) MeeWithA <> felt (q_ptrb (toyX RK4 a_cycle)) (Fin 1001) (v6of (N:=XNum) (Fin 1)) MeeWithA.
Proof.
  destruct run_cycle as (o1 & h & R & C & _). exists o1, h. split; [exact R|].
  assert (Lc : length (h_controls h) = 7%nat) by (destruct C as (_ & _ & _ & E); rewrite <- (map_length snd), E; reflexivity).
  split; [|split; [exact Lc|]].
  - intros k t oe Hk Ht _. rewrite Lc in Hk. cbn [felt toyX toyX_from withp with_run toy q_ptrb]. unfold until1000.
    assert (B : exists q : Q, t = fq q /\ Q2R q <= 1000).
    { destruct C as (E & _). rewrite E in Ht. do 7 (destruct k as [|k]; [cbn in Ht; injection Ht as <-; eexists; split; [reflexivity|unfold Q2R; simpl; lra]|]). lia. }
    destruct B as (q & -> & B). change (nleb (Num:=XNum) (fq q) (Fin 1000)) with (xleb (Fin (Q2R q)) (Fin 1000)). rewrite XTrace.xleb_fin. apply Rleb_true in B. rewrite B. reflexivity.
  - cbn [felt toyX toyX_from withp with_run toy q_ptrb]. unfold until1000. change (nleb (Num:=XNum) (Fin 1001) (Fin 1000)) with (xleb (Fin 1001) (Fin 1000)).
    rewrite XTrace.xleb_fin. destruct (Rleb 1001 1000) eqn:F; [apply Rleb_true in F; lra|discriminate].
Qed.

Definition a_single : qprob := mkqp 10 (1 # 10) 1 1 (1 # 10) 100 0 50 0 100 (1 # 2) (1 # 2) false.
Lemma run_single : forall z, exists o2 h2, ran 10 (toyX_from RK4 z a_single) noX noX (probX_from z a_single) o2 h2 /\
  recorded h2 [0; 1]%Q [10; 99 # 10]%Q [50; 99 # 2]%Q [1]%Z /\ q_exitcode o2 = (-2)%Z.
Proof. toyrun_from. Qed.
Definition nothing : ptrb_obj XNum := @mkptrb XNum (Fin 0) (Fin 1) (Fin 1) "399" "J2000" "ITRF93" (Some []) (Some []) (Fin 1) (Fin 1) (Fin 1) false false (Fin 1).
Definition oe_half : vec6 RNum := elems 2 (1 / 2) 0 0 0 0.
Lemma empty_case : exists o1 h, ran 10 (toyX_from RK4 (fin6 oe_half) a_single) noX noX (probX_from (fin6 oe_half) a_single) o1 h /\
  q_ptrb (toyX_from RK4 (fin6 oe_half) a_single) = None /\ empty_model nothing /\ pt_obs_mu nothing = Fin 1 /\ length (h_controls h) = 1%nat /\
  forall k st, (k < length (h_controls h))%nat -> nth_error (h_states h) k = Some st ->
    exists oe, st = fin6 oe /\ elliptic (q_etype (toyX_from RK4 (fin6 oe_half) a_single)) oe.
Proof.
  destruct (run_single (fin6 oe_half)) as (o1 & h & R & C & _). exists o1, h. split; [exact R|]. split; [reflexivity|].
  split; [split; [exists [], []; auto|split; reflexivity]|]. split; [reflexivity|].
  assert (Lc : length (h_controls h) = 1%nat) by (destruct C as (_ & _ & _ & E); rewrite <- (map_length snd), E; reflexivity).
  split; [exact Lc|]. intros k st Hk Hs. rewrite Lc in Hk. assert (k = 0%nat) by lia. subst k. exists oe_half.
  destruct (ran_row _ _ _ _ _ _ _ 0 R ltac:(lia)) as (gs & oel & code & conv & sk & g & En & Eh & Hg & Htr & F).
  cbn [firstn] in Htr. assert (Es : sk = init_state (probX_from (fin6 oe_half) a_single)) by (inversion Htr as [E0|gs1 s1 g1 s1' T1 G1 I1 X1 E1]; [reflexivity|destruct gs1; discriminate]).
  pose proof (rf_oe _ _ _ _ _ _ _ _ F) as Fo. rewrite Hs in Fo. injection Fo as ->. rewrite (it_s _ _ _ _ _ _ (rf_iter _ _ _ _ _ _ _ _ F)), Es.
  split; [reflexivity|]. unfold oe_half, elems. cbn. lra.
Qed.
