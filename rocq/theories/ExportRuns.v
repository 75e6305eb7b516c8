(** Concrete runs for the statements about exported results, and C72. *)
From Coq Require Import Reals QArith Qreals Lra Lia ZArith String List Bool Psatz.
From Verif Require Import RMath RLib Num Base Elements Integrate Eom Convergence Lyapunov Perturb PlotHelper Qlaw Export PlotMethods Spec RSpec XSpec GaussSpec ExportSpec
  SolveProofs ExitProofs StateProofs ElemProofs ConvProofs ExportProofs PlotMProofs XTrace Sim Runs XRuns.
Import ListNotations.
Local Open Scope R_scope.

(** ** C72 *)
Lemma last_state {A} (l : list A) rest z : l = rest ++ [z] -> last_item l = Ok z.
Proof.
  intros ->. destruct (last_item_some (rest ++ [z])) as (x & -> & E); [destruct rest; discriminate|].
  rewrite app_length in E. cbn in E. rewrite nth_error_app2 in E by lia. replace (length rest + 1 - 1 - length rest)%nat with 0%nat in E by lia.
  injection E as ->. reflexivity.
Qed.
Lemma C72_lem et fuel (o : qlaw RNum) ea er p o' h : q_check o = check_of (N:=RNum) et -> fresh o -> ran fuel o ea er p o' h -> q_exitcode o' = 1%Z ->
  exists rows tf m, pretty_results (N:=RNum) p h = Ok (rows, tf, m) /\ length rows = 5%nat /\
    nth_error (h_times h) (length (h_times h) - 1) = Some tf /\ nth_error (h_masses h) (length (h_masses h) - 1) = Some m /\
    forall i x err w tol T, nth_error rows i = Some (x, err) -> nth_error (vec5_to_list (p_woe p)) i = Some w ->
      nth_error (vec5_to_list (q_tol o)) i = Some tol -> nth_error (p_oeT p) i = Some T -> w <> 0 ->
      err = Rabs (x - T) /\ (et = MeeWithA \/ (i < 3)%nat -> err <= tol) /\ (exists k : Z, Rabs (T - x - 2 * PI * IZR k) <= tol).
Proof.
  intros B F Rn X. destruct (C02_lem o p ea er fuel o' h F Rn X) as (_ & rest & z & Hz & M).
  unfold strict in M. rewrite B in M. apply check_meets in M.
  destruct (ran_lengths o p ea er _ _ _ Rn) as (n & T & _ & Ms & _).
  destruct (last_item_some (h_times h)) as (tf & LT & ET); [intros E; rewrite E in T; discriminate|].
  destruct (last_item_some (h_masses h)) as (m & LM & EM); [intros E; rewrite E in Ms; discriminate|].
  destruct z as [o0 o1 o2 o3 o4 o5], (p_woe p) as [w0 w1 w2 w3 w4] eqn:EW, (q_tol o) as [t0 t1 t2 t3 t4] eqn:Etol.
  unfold meets in M. destruct M as (T0 & T1 & T2 & T3 & T4 & rest' & HT & M). 
  unfold pretty_results. rewrite (last_state _ _ _ Hz). cbn [bind]. rewrite HT. cbn [mapM item vec6_to_list nth_error bind]. rewrite LT, LM. cbn [bind].
  eexists _, tf, m. split; [reflexivity|]. split; [reflexivity|]. split; [exact ET|]. split; [exact EM|].
  assert (NR : forall w tol T x : R, Spec.near (N:=RNum) w tol (nabs (Num:=RNum) (nsub (Num:=RNum) T x)) -> w <> 0 -> Rabs (x - T) <= tol /\ exists k : Z, Rabs (T - x - 2 * PI * IZR k) <= tol).
  { intros w tol T' x H Hw. destruct H as [H|H]; [apply Reqb_true in H; contradiction|]. apply Rleb_true in H.
    split; [rewrite Rabs_minus_sym; exact H|]. exists 0%Z. rewrite Rmult_0_r, Rminus_0_r. exact H. }
  assert (NA : forall w tol T x : R, Spec.near (N:=RNum) w tol (nabs (Num:=RNum) (nacos (Num:=RNum) (ncos (Num:=RNum) (nsub (Num:=RNum) T x)))) -> w <> 0 -> exists k : Z, Rabs (T - x - 2 * PI * IZR k) <= tol).
  { intros w tol T' x H Hw. apply near_angle in H. destruct H as [H|H]; [contradiction|exact H]. }
  intros i x err w tol Ti Hi Hw Htol HTi Hw0.
  destruct i as [|[|[|[|[|i]]]]]; cbn in Hi, Hw, Htol, HTi; try (destruct i; discriminate Hi);
    injection Hi as <- <-; injection Hw as <-; injection Htol as <-; injection HTi as <-; (split; [reflexivity|]);
    destruct M as (M0 & M1 & M2 & M34).
  - destruct (NR _ _ _ _ M0 Hw0). split; [intros _|]; assumption.
  - destruct (NR _ _ _ _ M1 Hw0). split; [intros _|]; assumption.
  - destruct (NR _ _ _ _ M2 Hw0). split; [intros _|]; assumption.
  - destruct et; destruct M34 as [M3 M4].
    + split; [intros [D|D]; [discriminate|lia]|]. exact (NA _ _ _ _ M3 Hw0).
    + destruct (NR _ _ _ _ M3 Hw0). split; [intros _|]; assumption.
  - destruct et; destruct M34 as [M3 M4].
    + split; [intros [D|D]; [discriminate|lia]|]. exact (NA _ _ _ _ M4 Hw0).
    + destruct (NR _ _ _ _ M4 Hw0). split; [intros _|]; assumption.
Qed.

(** ** Objects made by the constructor and set_problem *)
Definition name_of (et : etype) : String.string :=
  match et with Keplerian => "keplerian"%string | MeeWithA => "mee_with_a"%string end.
Lemma made et a e i r w l (T0 T1 T2 T3 T4 tf : R) : exists (o : qlaw RNum) p, reachable o /\ built et o /\ fresh o /\ q_problem o = Some p /\ q_mu o = 1 /\
  p_oe0 p = elems a e i r w l /\ p_oeT p = [T0; T1; T2; T3; T4] /\ p_tf_max p = tf /\ p_mass0 p = 1.
Proof.
  assert (I : exists o, init (N:=RNum) 1 1 1 3 4 2 1 1 (name_of et) "rk4" 100 None None None 10 false None 10 5 = Ok o /\ q_mu o = 1 /\ fresh o).
  { unfold init. cbn [nleb RNum nofZ nltb].
    destruct (Rleb_spec 1 10); [|lra]. destruct (Rltb_spec 0 1); [|lra]. destruct et; cbn; eexists; (split; [reflexivity|]); split; try reflexivity; split; reflexivity. }
  destruct I as (oi & I & Mu & F). destruct (init_built _ _ _ _ _ _ _ _ _ _ _ _ _ _ _ _ _ _ _ _ I) as (et' & Et & B & _).
  assert (et' = et) by (destruct et; injection Et as <-; reflexivity). subst et'.
  assert (S : exists o, set_problem (N:=RNum) oi [a; e; i; r; w; l] [T0; T1; T2; T3; T4] 1 1 0 tf 1 (1 / 10) None 100 0 1 0 1 0 0 false = Ok o).
  { unfold set_problem. cbn [list_to_vec6]. change (nleb (Num:=RNum) (dec (N:=RNum) 1 2) (1 / 10)) with (Rleb (1 / 100) (1 / 10)).
    destruct (Rleb_spec (1 / 100) (1 / 10)); [|lra]. cbn [negb bind]. eexists. reflexivity. }
  destruct S as (o & S). pose proof (set_problem_built _ _ _ _ _ _ _ _ _ _ _ _ _ _ _ _ _ _ _ _ B S) as B'.
  assert (RE : reachable o) by (eapply re_problem; [eapply re_init; exact I|exact S]).
  unfold set_problem in S. cbn [list_to_vec6] in S. change (nleb (Num:=RNum) (dec (N:=RNum) 1 2) (1 / 10)) with (Rleb (1 / 100) (1 / 10)) in S.
  destruct (Rleb_spec (1 / 100) (1 / 10)); [|lra]. cbn [negb bind] in S. inversion S; subst o.
  eexists _, _. split; [exact RE|]. split; [exact B'|]. split; [exact F|]. split; [reflexivity|]. split; [exact Mu|]. repeat split; reflexivity.
Qed.
(** A run that ends before its first step. *)
Lemma no_steps (o : qlaw RNum) p v er : q_problem o = Some p -> p_tf_max p = 0 ->
  exists o' h, ran 0 o (EtaFloat (N:=RNum) v) er p o' h /\ h_times h = [0] /\ h_states h = [p_oe0 p] /\ h_masses h = [p_mass0 p] /\ h_controls h = [].
Proof.
  intros P T. unfold ran, solve. rewrite P. cbn [loop].
  assert (G : guard p (init_state p) = false).
  { unfold guard. rewrite T. cbn. apply Rltb_false. lra. }
  rewrite G. eexists _, _. split; [split; [reflexivity|split; reflexivity]|]. repeat split; reflexivity.
Qed.

(** ** C65, C66, C70: what goes wrong *)
Lemma C65_refuted_lem : exists fuel (o : qlaw RNum) ea er p o' h d row q f g hh k l m,
  reachable o /\ built Keplerian o /\ ran fuel o ea er p o' h /\ save_to_dict (N:=RNum) h true = Ok d /\
  nth_error (h_states h) 0 = Some (elems 1 0 (1 / 2) 0 0 0) /\ nth_error (sv_states d) 0 = Some row /\ row = [q; f; g; hh; k; l; m] /\
  mee_p_cart (q_mu o) (elems q f g hh k l) <> Ok (cart_state Keplerian (q_mu o) (elems 1 0 (1 / 2) 0 0 0)).
Proof.
  destruct (made Keplerian 1 0 (1 / 2) 0 0 0 1 0 0 0 0 0) as (o & p & RE & B & _ & P & Mu & P0 & _ & PT & _).
  destruct (no_steps o p 0 (EtaFloat (N:=RNum) 0) P PT) as (o' & h & Rn & T & S & M & C).
  destruct (C65_lengths_lem RNum _ _ _ _ _ _ _ true Rn) as (d & D & _).
  exists 0%nat, o, (EtaFloat (N:=RNum) 0), (EtaFloat (N:=RNum) 0), p, o', h, d, [1 * (1 - 0 * 0 - 1 / 2 * (1 / 2)); 0; 1 / 2; 0; 0; 0; p_mass0 p].
  eexists _, _, _, _, _, _, _.
  split; [exact RE|]. split; [exact B|]. split; [exact Rn|]. split; [exact D|].
  assert (S0 : nth_error (h_states h) 0 = Some (elems 1 0 (1 / 2) 0 0 0)) by (rewrite S, P0; reflexivity).
  split; [exact S0|]. split; [apply (saved_state h true d 0 1 0 (1 / 2) 0 0 0 (p_mass0 p) D S0); rewrite M; reflexivity|]. split; [reflexivity|].
  rewrite Mu. intros E. unfold mee_p_cart, mee_cart, elems, cart_state in E. inversion E as [[E0 E1 E2 E3 E4 E5]]. clear E1 E2 E3 E4 E5.
  revert E0. cbn. rewrite ?sin_0, ?cos_0, ?Rplus_0_l, ?sin_0, ?cos_0. intros E0.
  field_simplify in E0. lra.
Qed.

Lemma C66_refuted_lem : exists fuel (o : qlaw RNum) ea er p o' h cols st c,
  reachable o /\ built MeeWithA o /\ 0 < q_mu o /\ ran fuel o ea er p o' h /\ (forall st, In st (h_states h) -> elliptic MeeWithA st) /\
  get_cartesian_history (N:=RNum) o' h = Ok cols /\
  nth_error (h_states h) 0 = Some st /\ nth_error cols 0 = Some c /\ c <> cart_state MeeWithA (q_mu o) st.
Proof.
  destruct (made MeeWithA 1 0 (1 / 2) 0 0 0 1 0 0 0 0 0) as (o & p & RE & B & _ & P & Mu & P0 & _ & PT & _).
  destruct (no_steps o p 0 (EtaFloat (N:=RNum) 0) P PT) as (o' & h & Rn & T & S & M & C).
  assert (Et : q_etype o = MeeWithA) by apply B.
  assert (El : forall st, In st (h_states h) -> elliptic MeeWithA st).
  { intros st. rewrite S, P0. intros [<-|[]]. cbn. lra. }
  destruct (C66_columns_lem _ _ _ _ _ _ _ Rn) as (cols & H & _ & K); [rewrite Mu; lra|rewrite Et; exact El|].
  assert (S0 : nth_error (h_states h) 0 = Some (elems 1 0 (1 / 2) 0 0 0)) by (rewrite S, P0; reflexivity).
  destruct (K _ _ S0) as (c & Hc & _ & Ne).
  exists 0%nat, o, (EtaFloat (N:=RNum) 0), (EtaFloat (N:=RNum) 0), p, o', h, cols. eexists. exists c.
  split; [exact RE|]. split; [exact B|]. split; [rewrite Mu; lra|]. split; [exact Rn|]. split; [exact El|]. split; [exact H|]. split; [exact S0|]. split; [exact Hc|].
  rewrite Et in Ne. apply Ne. cbn. intros [K1|[K1|[K1 _]]]; lra.
Qed.
(** the hypotheses of the positive statement *)
Lemma C66_case : exists fuel (o : qlaw RNum) ea er p o' h st, reachable o /\ built MeeWithA o /\ 0 < q_mu o /\ ran fuel o ea er p o' h /\
  (forall st, In st (h_states h) -> elliptic MeeWithA st) /\ nth_error (h_states h) 0 = Some st /\ faithful MeeWithA st.
Proof.
  destruct (made MeeWithA 1 0 (1 / 2) (1 / 3) 0 0 1 0 0 0 0 0) as (o & p & RE & B & _ & P & Mu & P0 & _ & PT & _).
  destruct (no_steps o p 0 (EtaFloat (N:=RNum) 0) P PT) as (o' & h & Rn & T & S & M & C).
  exists 0%nat, o, (EtaFloat (N:=RNum) 0), (EtaFloat (N:=RNum) 0), p, o', h. eexists.
  split; [exact RE|]. split; [exact B|]. split; [rewrite Mu; lra|]. split; [exact Rn|].
  split; [intros st; rewrite S, P0; intros [<-|[]]; cbn; lra|]. rewrite S, P0. split; [reflexivity|]. cbn. left. lra.
Qed.
Lemma C70_refuted_lem : exists fuel (o : qlaw RNum) ea er p o' h axes tgt c peri x y,
  reachable o /\ built MeeWithA o /\ ran fuel o ea er p o' h /\ (forall st, In st (h_states h) -> elliptic MeeWithA st) /\
  plot_elements_history (N:=RNum) o' p h false 1 false true = Ok axes /\ nth_error axes 0 = Some [tgt; c; peri] /\
  sample peri 0 x y /\
  (forall a f g hh k l, nth_error (h_states h) 0 = Some (elems a f g hh k l) -> y <> a * (1 - sqrt (f * f + g * g))).
Proof.
  destruct (made MeeWithA 1 0 (1 / 2) 0 0 0 1 0 0 0 0 0) as (o & p & RE & B & _ & P & Mu & P0 & PTg & PT & _).
  destruct (no_steps o p 0 (EtaFloat (N:=RNum) 0) P PT) as (o' & h & Rn & T & S & M & C).
  destruct (C70_native_lem _ _ _ _ _ _ _ false 1 false true Rn) as (axes & A & _ & _ & Pr & _); [left; reflexivity|rewrite PTg; cbn; lia|].
  destruct (Pr eq_refl) as (tgt & c & peri & N0 & K).
  assert (S0 : nth_error (h_states h) 0 = Some (elems 1 0 (1 / 2) 0 0 0)) by (rewrite S, P0; reflexivity).
  assert (T0 : nth_error (h_times h) 0 = Some 0) by (rewrite T; reflexivity).
  exists 0%nat, o, (EtaFloat (N:=RNum) 0), (EtaFloat (N:=RNum) 0), p, o', h, axes, tgt, c, peri, (0 * 1), (1 * (1 - 0)).
  split; [exact RE|]. split; [exact B|]. split; [exact Rn|].
  split; [intros st; rewrite S, P0; intros [<-|[]]; cbn; lra|]. split; [exact A|]. split; [exact N0|].
  split; [exact (K _ _ _ T0 S0)|]. intros a f g hh k l E. rewrite S0 in E. inversion E; subst. intros Q.
  apply peri_native in Q; lra.
Qed.

(** ** C71 *)
Lemma throttle_row (h : hist XNum) k z : throttle h k z -> exists al be, nth_error (h_controls h) k = Some (al, be, z).
Proof.
  unfold throttle. intros H. destruct (nth_error (h_controls h) k) as [[[al be] z']|] eqn:E.
  - rewrite (map_nth_error snd _ _ E) in H. cbn in H. exists al, be. congruence.
  - apply nth_error_None in E. assert (k < length (map snd (h_controls h)))%nat by (apply nth_error_Some; congruence). rewrite map_length in *. lia.
Qed.
Lemma C71_refuted_lem : exists fuel (o : qlaw XNum) ea er p a o' h first ca cb ct k t t' tau,
  regular o p a /\ ran fuel o ea er p o' h /\ 0 < a_ts a /\ plot_controls (N:=XNum) h (Fin 1) false = Ok (first ++ [ca; cb; ct]) /\
  entry (h_times h) k t /\ entry (h_times h) (S k) t' /\ t < tau < t' /\ throttle h k 1 /\ shown ct (Fin tau) = Some (Fin 0).
Proof.
  destruct run_cycle as (o' & h & Rn & C & _).
  assert (Re : regular (toyX RK4 a_cycle) (probX a_cycle) (parX a_cycle)) by apply toy_regular.
  assert (Ts : 0 < a_ts (parX a_cycle)) by (simpl; q2r).
  destruct (C71_lem _ _ _ _ _ _ _ _ 1 false Re Rn Ts ltac:(lra)) as (first & ca & cb & ct & E & K).
  assert (E1 : entry (h_times h) 1 (Q2R 1)) by (apply (rec_t _ _ _ _ _ _ _ C); reflexivity).
  assert (E2 : entry (h_times h) 2 (Q2R (3 # 2))) by (apply (rec_t _ _ _ _ _ _ _ C); reflexivity).
  destruct (throttle_row h 2 0) as (al & be & Row); [apply (rec_c _ _ _ _ _ _ _ C); reflexivity|].
  destruct (K 1%nat (Q2R 1) (Q2R (3 # 2)) (5 / 4) E1 E2) as [K1 _]; [q2r|].
  destruct (K1 _ _ _ Row) as (_ & _ & K3).
  exists 10%nat, (toyX RK4 a_cycle), noX, noX, (probX a_cycle), (parX a_cycle), o', h, first, ca, cb, ct, 1%nat, (Q2R 1), (Q2R (3 # 2)), (5 / 4).
  split; [exact Re|]. split; [exact Rn|]. split; [exact Ts|]. split; [exact E|]. split; [exact E1|]. split; [exact E2|]. split; [q2r|].
  split; [apply (rec_c _ _ _ _ _ _ _ C); reflexivity|]. rewrite Rmult_1_r in K3. rewrite K3. f_equal. f_equal. ring.
Qed.

(** ** C66: a short run has no samples, and nothing can be drawn *)
Lemma no_samples_no_plot {N : Num} (o : qlaw N) p b scale : exists e, plot_trajectory_3d o p [] b scale = Err e.
Proof.
  unfold plot_trajectory_3d. destruct (reference_orbits o p (p_oeT p)) as [[c0 cT]|e]; [|eexists; reflexivity].
  eexists. reflexivity.
Qed.
Lemma C66_short_lem fuel (o : qlaw RNum) ea er p o' h (interp1d : interp_fn (N:=RNum)) round cart tev b scale tf :
  ran fuel o ea er p o' h -> nearest round -> nth_error (h_times h) (length (h_times h) - 1) = Some tf -> Rabs tf < 1 / 200 ->
  get_cartesian_history_interp (N:=RNum) interp1d round None o' h = Ok (cart, tev) ->
  cart = [] /\ exists e, plot_trajectory_3d (N:=RNum) o' p cart b scale = Err e.
Proof.
  intros Rn Ro T L G. unfold get_cartesian_history_interp in G.
  destruct (interpolate_states (N:=RNum) interp1d h) as [f|]; [|discriminate]. cbn [bind] in G.
  destruct (last_item (h_times h)) as [tf'|] eqn:E; [|discriminate]. cbn [bind] in G.
  assert (tf' = tf).
  { destruct (last_item_some (h_times h)) as (x & E1 & E2); [destruct (h_times h); [discriminate|congruence]|]. congruence. }
  subst tf'. destruct (C66_steps_lem round tf Ro) as (n & D & Z & _). rewrite D in G. cbn [bind] in G. rewrite (Z L) in G.
  destruct (item (h_times h) 0); [|discriminate]. cbn in G. inversion G; subst. split; [reflexivity|apply no_samples_no_plot].
Qed.

(** ** C72 for Keplerian angles: a run that converges at once, one turn away from its target *)
Definition still : eom_fn (N:=RNum) := fun _ _ _ => Ok (@mk6 RNum 0 0 0 0 0 0).
Definition ahead : lyap_fn RNum := fun _ _ _ _ _ _ _ _ _ _ _ _ =>
  Ok (@mklyap RNum (@mk3 RNum 0 1 0) (@mkpsi RNum (@mk5 RNum 0 0 0 0 0) (@mk5 RNum 0 0 0 0 0) (@mk5 RNum 0 0 0 0 0)) 1 (@mk5 RNum 0 0 0 0 0)).
Definition p_turn : problem RNum :=
  @mkproblem RNum (elems 1 (1 / 2) (1 / 2) (1 + 2 * PI) 1 0) [1; 1 / 2; 1 / 2; 1; 1] 1 1 0 10 1 (1 / 10) (@mk5 RNum 1 1 1 1 1) 100 0 1 0 1 0 0 false.
Definition o_turn : qlaw RNum :=
  @mkqlaw RNum 1 1 1 3 4 2 (1 / 100) 0 Keplerian RK4 2
    (@mk5 RNum (1 / 1000) (1 / 1000) (1 / 1000) (1 / 1000) (1 / 1000)) (@mk5 RNum (1 / 100) (1 / 100) (1 / 100) (1 / 100) (1 / 100)) 200%Z
    (@mk5 RNum (1 / 100) (1 / 100) (1 / 100) (1 / 100) (1 / 100)) (@mk5 RNum 100 (9 / 10) 100 100 100) 10%Z
    still ahead (fun _ _ _ _ _ _ _ _ _ _ _ _ => Ok 1) (check_of (N:=RNum) Keplerian)
    (1 / 10000) 2 (1 / 100000) false None (Some p_turn) None false 0%Z.
Ltac plain x := lazymatch x with context [Rltb] => fail | context [Rleb] => fail | context [Reqb] => fail | _ => idtac end.
Ltac rdec := repeat (match goal with
  | |- context [Rltb ?a ?b] => plain a; plain b; destruct (Rltb_spec a b); try lra
  | |- context [Rleb ?a ?b] => plain a; plain b; destruct (Rleb_spec a b); try lra
  | |- context [Reqb ?a ?b] => plain a; plain b; destruct (Reqb_spec a b); try lra end; cbn [andb orb negb]).
Lemma turn_safe : elements_safety (N:=RNum) (p_oe0 p_turn) (q_oe_min o_turn) (q_oe_max o_turn) = p_oe0 p_turn.
Proof.
  pose proof PI_RGT_0. pose proof PI_4. cbn. unfold clamp1, pymin, pymax. cbn. unfold elems. f_equal; rdec; reflexivity.
Qed.
Lemma turn_safety : safety (N:=RNum) o_turn (init_state p_turn) = init_state p_turn.
Proof.
  unfold safety. cbn [q_etype o_turn]. change (l_oe (init_state p_turn)) with (p_oe0 p_turn).
  match goal with |- context [elements_safety ?a ?b ?c] => change (elements_safety a b c) with (elements_safety (N:=RNum) (p_oe0 p_turn) (q_oe_min o_turn) (q_oe_max o_turn)) end.
  rewrite turn_safe. reflexivity.
Qed.
Lemma turn_plan : plan (N:=RNum) o_turn p_turn (init_state p_turn) = Ok (@mkplan RNum 1 true 0 0 false).
Proof.
  unfold plan, local_step, duty_phase, battery_phase, recharge_phase. cbn. rdec. reflexivity.
Qed.
Lemma turn_control acc : exists c, control (N:=RNum) o_turn p_turn (EtaFloat (N:=RNum) 0) (EtaFloat (N:=RNum) 0) (init_state p_turn) (@mkplan RNum 1 true 0 0 false) acc = Ok (Ctl c) /\
  exists al be, c_ab c = Some (al, be).
Proof.
  unfold control. cbn [pl_duty]. unfold lyap_call, lyapunov_control_angles, o_turn, q_lyap, ahead. cbn [bind lo_u].
  unfold u_to_thrust_angles. cbn [v3divs v3_0 v3_1 v3_2]. 
  assert (S1 : nsqrt (Num:=RNum) (nadd (Num:=RNum) (nadd (Num:=RNum) (sq (N:=RNum) 0) (sq (N:=RNum) 1)) (sq (N:=RNum) 0)) = 1).
  { cbn. replace (0 * 0 + 1 * 1 + 0 * 0) with 1 by ring. apply sqrt_1. }
  rewrite S1.
  assert (S2 : nsqrt (Num:=RNum) (nadd (Num:=RNum) (sq (N:=RNum) (ndiv (Num:=RNum) 0 1)) (sq (N:=RNum) (ndiv (Num:=RNum) 1 1))) = 1).
  { cbn. replace (0 / 1 * (0 / 1) + 1 / 1 * (1 / 1)) with 1 by field. apply sqrt_1. }
  rewrite S2. unfold jdiv. cbn. rdec. cbn. rdec. eexists. split; [reflexivity|]. eexists _, _. reflexivity.
Qed.
Lemma turn_check : q_check o_turn (p_oe0 p_turn) (p_oeT p_turn) (p_woe p_turn) (q_tol o_turn) = Ok true.
Proof.
  assert (M : meets Keplerian (p_oe0 p_turn) (p_oeT p_turn) (p_woe p_turn) (q_tol o_turn)).
  { cbn. exists 1, (1 / 2), (1 / 2), 1, 1, []. split; [reflexivity|]. unfold Spec.near. cbn.
    assert (Z : forall x, x = 0 -> Rleb (Rabs x) (1 / 1000) = true).
    { intros x ->. rewrite Rabs_R0. apply Rleb_true. lra. }
    repeat split; right; apply Z; try lra.
    - replace (1 - (1 + 2 * PI)) with (- (2 * PI)) by ring. rewrite cos_neg, cos_2PI. apply acos_1.
    - replace (1 - 1) with 0 by ring. rewrite cos_0. apply acos_1. }
  exact (proj2 (check_meets _ _ _ _ _) M).
Qed.
Lemma turn_step : exists s, step (N:=RNum) o_turn p_turn (EtaFloat (N:=RNum) 0) (EtaFloat (N:=RNum) 0) (init_state p_turn) = Stop 1 true s /\
    h_states (l_hist s) = [p_oe0 p_turn; p_oe0 p_turn].
Proof.
  unfold step. rewrite turn_safety, turn_plan. cbn [pl_dt].
  destruct (turn_control (accel_thrust (N:=RNum) p_turn 1 (l_mass (init_state p_turn)))) as (c & -> & al & be & Ab).
  change (perturbation o_turn (init_state p_turn)) with (Ok (v3zero (N:=RNum))). cbn match beta.
  assert (P : exists t m, propagate (N:=RNum) o_turn p_turn (init_state p_turn) (@mkplan RNum 1 true 0 0 false) c (v3zero (N:=RNum)) = Ok (p_oe0 p_turn, t, m, 1)).
  { unfold propagate. cbn [q_integ o_turn]. unfold rk4, still. cbn. eexists _, _. unfold elems.
    match goal with |- Ok (?a, _, _, _) = _ => replace a with (p_oe0 p_turn) end; [reflexivity|].
    cbn. unfold elems. f_equal; change (@eq (@car RNum)) with (@eq R); field. }
  destruct P as (t & m & ->). destruct (battery_update _ _ _ _ _) as [b ch]. rewrite Ab.
  unfold exit_check. cbn [l_oe]. rewrite turn_check. eexists. split; [reflexivity|]. reflexivity.
Qed.
Lemma run_turn : exists o' h, ran 1 o_turn (EtaFloat (N:=RNum) 0) (EtaFloat (N:=RNum) 0) p_turn o' h /\ q_exitcode o' = 1%Z /\
  h_states h = [p_oe0 p_turn; p_oe0 p_turn].
Proof.
  destruct turn_step as (s & St & Hs). unfold ran, solve. cbn [q_problem o_turn].
  cbn [loop]. assert (G : guard (N:=RNum) p_turn (init_state p_turn) = true).
  { unfold guard. cbn. apply Rltb_true. rewrite Rabs_R0, Rabs_pos_eq; lra. }
  rewrite G. fold o_turn. rewrite St. eexists _, _. split; [split; [reflexivity|split; reflexivity]|]. split; [reflexivity|exact Hs].
Qed.
Lemma C72_refuted_lem : exists fuel (o : qlaw RNum) ea er p o' h rows tf m x,
  q_check o = check_of (N:=RNum) Keplerian /\ fresh o /\ ran fuel o ea er p o' h /\ q_exitcode o' = 1%Z /\ v5_3 (p_woe p) = 1 /\ v5_3 (q_tol o) = 1 / 1000 /\
  pretty_results (N:=RNum) p h = Ok (rows, tf, m) /\ nth_error rows 3 = Some (x, 2 * PI).
Proof.
  destruct run_turn as (o' & h & Rn & X & S).
  assert (F : fresh o_turn) by (split; reflexivity).
  destruct (C72_lem Keplerian 1 o_turn _ _ p_turn o' h eq_refl F Rn X) as (rows & tf & m & Pr & L & _ & _ & K).
  destruct (nth_error rows 3) as [[x err]|] eqn:E; [|apply nth_error_None in E; lia].
  exists 1%nat, o_turn, (EtaFloat (N:=RNum) 0), (EtaFloat (N:=RNum) 0), p_turn, o', h, rows, tf, m, x.
  split; [reflexivity|]. split; [exact F|]. split; [exact Rn|]. split; [exact X|]. split; [reflexivity|]. split; [reflexivity|]. split; [exact Pr|].
  destruct (K 3%nat x err 1 (1 / 1000) 1 E eq_refl eq_refl eq_refl ltac:(lra)) as (-> & _).
  assert (x = 1 + 2 * PI).
  { unfold pretty_results in Pr. rewrite S in Pr. cbn in Pr. match type of Pr with bind ?x _ = _ => destruct x; [|discriminate Pr] end. cbn in Pr.
    match type of Pr with bind ?x _ = _ => destruct x; [|discriminate Pr] end. cbn in Pr. 
    assert (Q : nth_error rows 3 = Some (1 + 2 * PI, Rabs (1 + 2 * PI - 1))) by (apply (f_equal (fun r => match r with Ok (l, _, _) => nth_error l 3 | Err _ => None end)) in Pr; symmetry in Pr; exact Pr).
    rewrite E in Q. apply (f_equal (fun r => match r with Some (a, _) => a | None => 0 end)) in Q. exact Q. }
  rewrite E. f_equal. f_equal. pose proof PI_RGT_0. rewrite H. change (Rabs (1 + 2 * PI - 1) = 2 * PI). rewrite Rabs_pos_eq; lra.
Qed.

(** ** C69 *)
Lemma C69_refuted_lem : exists fuel (o : qlaw RNum) ea er p o' h, reachable o /\ ran fuel o ea er p o' h /\
  forall TU, plot_efficiency (N:=RNum) h TU = Err IndexError.
Proof.
  destruct (made MeeWithA 1 0 (1 / 2) 0 0 0 1 0 0 0 0 0) as (o & p & RE & B & _ & P & Mu & P0 & _ & PT & _).
  destruct (no_steps o p 0 (EtaFloat (N:=RNum) 0) P PT) as (o' & h & Rn & T & S & M & C).
  exists 0%nat, o, (EtaFloat (N:=RNum) 0), (EtaFloat (N:=RNum) 0), p, o', h. split; [exact RE|]. split; [exact Rn|].
  intros TU. apply (efficiency_empty _ _ _ _ _ _ _ Rn). rewrite C. reflexivity.
Qed.
