(** What solve() prints: C101-C103. *)
From Coq Require Import ZArith List Bool Lia String.
From Verif Require Import Num Base Elements Integrate Eom Convergence Lyapunov Perturb Qlaw Export Report Trace Spec SolveProofs ReportSpec.
Import ListNotations.

Section S.
Context {N : Num}.
Variables (v : voice) (o : qlaw N) (p : problem N) (ea er : eta_arg N).
Notation tr := (tr o p ea er).
Notation iter := (iter o p ea er).

Lemma progress_ok k s : (5 <= List.length (p_oeT p))%nat ->
  progress v p (Z.of_nat k) s = (lines_at v p k (l_t s) (l_oe s), None).
Proof.
  intros H. unfold progress, lines_at.
  destruct ((2 <=? v_level v)%Z && (Z.of_nat k mod v_freq v =? 0)%Z); [|reflexivity].
  destruct (p_oeT p) as [|T0 [|T1 [|T2 [|T3 [|T4 T]]]]]; cbn [List.length] in H; try lia.
  destruct (l_oe s) as [a b c d e f]. cbn [mapM item nth_error vec6_to_list bind gaps combine firstn map fst snd v6_5].
  destruct (Z.of_nat k mod (20 * v_freq v) =? 0)%Z; reflexivity.
Qed.

(** once a convergence test has answered, the target is long enough *)
Definition readable : Prop := forall z tol b, q_check o z (p_oeT p) (p_woe p) tol = Ok b -> (5 <= List.length (p_oeT p))%nat.
Lemma printable_readable : printable o p -> readable.
Proof.
  intros [H|(et & _ & _ & _ & _ & C)] z tol b E; [exact H|]. rewrite C in E.
  destruct (p_oeT p) as [|T0 [|T1 [|T2 [|T3 [|T4 T]]]]]; cbn [List.length];
    [destruct et; discriminate E..|lia].
Qed.

Lemma exit_next_readable s s' : readable -> exit_check o p s = Next s' -> (5 <= List.length (p_oeT p))%nat.
Proof. intros R E. pose proof (exit_cases o p s) as C. rewrite E in C. inversion C; subst. eapply R; eassumption. Qed.
Lemma exit_stop_readable s c b s' : readable -> exit_check o p s = Stop c b s' -> (5 <= List.length (p_oeT p))%nat.
Proof. intros R E. pose proof (exit_cases o p s) as C. rewrite E in C. inversion C; subst; eapply R; eassumption. Qed.

Lemma spoken_step k s : readable -> snd (spoken v p (Z.of_nat k) (step o p ea er s)) = step o p ea er s.
Proof.
  intros R. pose proof (step_cases o p ea er s) as SC.
  destruct (step o p ea er s) as [s1|code conv s1|e s1]; [| |reflexivity]; cbn [spoken].
  - inversion SC as [g Hit Heq| | |]. assert (L := exit_next_readable _ _ R Heq). rewrite progress_ok by exact L. reflexivity.
  - destruct (Z.eqb code (-3)); [reflexivity|]. destruct (Z.eqb code (-1)) eqn:E1; [|reflexivity].
    inversion SC as [g Hit Heq|pl H1 H2 Heq| |]; [|subst; discriminate E1].
    assert (L := exit_stop_readable _ _ _ _ R Heq). rewrite progress_ok by exact L. reflexivity.
Qed.

Lemma tell_loop_same fuel : readable -> forall k s, snd (tell_loop fuel v (Z.of_nat k) o p ea er s) = loop fuel o p ea er s.
Proof.
  intros R. induction fuel as [|n IH]; intros k s; cbn [tell_loop loop]; destruct (guard p s); try reflexivity.
  pose proof (spoken_step k s R) as E. destruct (spoken v p (Z.of_nat k) (step o p ea er s)) as [l out]. cbn [snd] in E. subst out.
  destruct (step o p ea er s) as [s1|code conv s1|e s1]; [|reflexivity|reflexivity].
  specialize (IH (S k) s1). replace (Z.of_nat k + 1)%Z with (Z.of_nat (S k)) by lia.
  destruct (tell_loop n v (Z.of_nat (S k)) o p ea er s1) as [l' r]. exact IH.
Qed.

Lemma tell_same fuel : q_problem o = Some p -> printable o p -> snd (tell fuel v o ea er) = solve fuel o ea er.
Proof.
  intros P Pr. apply printable_readable in Pr. unfold tell, solve. rewrite P.
  pose proof (tell_loop_same fuel Pr 0 (init_state p)) as E. cbn [Z.of_nat] in E.
  destruct ea as [x|f|]; [| |reflexivity];
  (destruct (tell_loop fuel v 0 o p _ er (init_state p)) as [l r]; cbn [snd] in E; rewrite <- E; destruct r; reflexivity).
Qed.

Lemma table_app l1 l2 k : table v p k (l1 ++ l2) = table v p k l1 ++ table v p (k + List.length l1) l2.
Proof.
  revert k. induction l1 as [|[t z] l1 IH]; intros k; cbn [app table List.length].
  - rewrite Nat.add_0_r. reflexivity.
  - rewrite IH, <- app_assoc. f_equal. f_equal. f_equal. lia.
Qed.

Definition reached (gs : list (grow N)) : list (car * vec6 N) := map (fun g => (g_t g, g_oe g)) gs.

(** what has been printed when the loop is left *)
Definition hush (m : msg N) : list (msg N) := if (v_level v <=? 0)%Z then [] else [m].
Inductive tell_case : list (msg N) -> lres N -> Prop :=
| tc_end gs s : tr gs s -> guard p s = false -> tell_case (table v p 0 (reached gs)) (LEnd s)
| tc_conv gs s g code s' : tr gs s -> guard p s = true -> iter s g -> exit_check o p (post g) = Stop code true s' ->
    tell_case (table v p 0 (reached gs)) (LStop code true s')
| tc_mass gs s g s' : tr gs s -> guard p s = true -> iter s g -> exit_check o p (post g) = Stop (-1) false s' ->
    tell_case (table v p 0 (reached (gs ++ [g])) ++ hush MassOut) (LStop (-1) false s')
| tc_nan gs s pl : tr gs s -> guard p s = true -> plan o p (safety o s) = Ok pl ->
    control o p ea er (safety o s) pl (accel_thrust p (pl_dt pl) (l_mass (safety o s))) = Ok NanBreak ->
    tell_case (table v p 0 (reached gs) ++ hush AnglesNan) (LStop (-3) false (safety o s))
| tc_fail l e s : tell_case l (LFail e s)
| tc_fuel l s : tell_case l (LFuel s).

Lemma table_snoc gs g : table v p 0 (reached (gs ++ [g])) = table v p 0 (reached gs) ++ lines_at v p (List.length gs) (g_t g) (g_oe g).
Proof.
  unfold reached. rewrite map_app, table_app, map_length. cbn [map table]. rewrite app_nil_r. reflexivity.
Qed.

Lemma tell_loop_cases fuel : readable -> forall gs s, tr gs s ->
  let (l, r) := tell_loop fuel v (Z.of_nat (List.length gs)) o p ea er s in tell_case (table v p 0 (reached gs) ++ l) r.
Proof.
  intros R. induction fuel as [|n IH]; intros gs s Htr; cbn [tell_loop]; destruct (guard p s) eqn:Hg.
  - apply tc_fuel.
  - rewrite app_nil_r. apply tc_end; assumption.
  - pose proof (step_cases o p ea er s) as SC.
    destruct (step o p ea er s) as [s1|code conv s1|e s1] eqn:Hst; cbn [spoken].
    + inversion SC as [g Hit Heq| | |]. assert (L := exit_next_readable _ _ R Heq).
      try rewrite Heq. cbv beta iota. rewrite progress_ok by exact L.
      assert (T : tr (gs ++ [g]) s1) by (eapply tr_snoc; eassumption).
      specialize (IH _ _ T). rewrite app_length in IH. cbn [List.length] in IH.
      replace (Z.of_nat (List.length gs) + 1)%Z with (Z.of_nat (List.length gs + 1)) by lia.
      destruct (exit_next_hist _ _ _ _ Heq) as [m E1].
      assert (E2 : lines_at v p (List.length gs) (l_t s1) (l_oe s1) = lines_at v p (List.length gs) (g_t g) (g_oe g))
        by (rewrite E1; reflexivity).
      rewrite E2. destruct (tell_loop n v (Z.of_nat (List.length gs + 1)) o p ea er s1) as [l' r].
      rewrite app_assoc, <- table_snoc. exact IH.
    + inversion SC as [g Hit Heq|pl H1 H2 Heq| |].
      * pose proof (exit_cases o p (post g)) as C. pose proof Heq as Heq'. rewrite Heq in C.
        assert (L := exit_stop_readable _ _ _ _ R Heq). rewrite ?Heq. cbv beta iota.
        destruct conv.
        -- assert (E : (code = 1 \/ code = 2)%Z) by (inversion C; subst; auto).
           replace (Z.eqb code (-3)) with false by (destruct E as [-> | ->]; reflexivity).
           replace (Z.eqb code (-1)) with false by (destruct E as [-> | ->]; reflexivity).
           rewrite app_nil_r. eapply tc_conv; eassumption.
        -- assert (E : code = (-1)%Z) by (inversion C; subst; reflexivity). subst code. cbn [Z.eqb Pos.eqb].
           rewrite progress_ok by exact L.
           assert (E2 : lines_at v p (List.length gs) (l_t s1) (l_oe s1) = lines_at v p (List.length gs) (g_t g) (g_oe g))
             by (inversion C; subst; reflexivity).
           rewrite E2, app_assoc, <- table_snoc. eapply tc_mass; eassumption.
      * subst. cbn [Z.eqb Pos.eqb]. eapply tc_nan; eassumption.
    + apply tc_fail.
  - rewrite app_nil_r. apply tc_end; assumption.
Qed.

Lemma combine_maps {A B C} (f : A -> B) (g : A -> C) l : combine (map f l) (map g l) = map (fun a => (f a, g a)) l.
Proof. induction l as [|x l IH]; [reflexivity|]. cbn. rewrite IH. reflexivity. Qed.

(** C102, C103 *)
Lemma C103_lem fuel o' h : fresh o -> printable o p -> ran fuel o ea er p o' h ->
  exists zs, raws o (p_oe0 p) h zs /\ List.length zs = List.length (h_controls h) /\
    fst (tell fuel v o ea er) =
      table v p 0 (firstn (if q_converge o' then List.length zs - 1 else List.length zs)%nat (combine (tl (h_times h)) zs))
      ++ closing v (q_exitcode o').
Proof.
  intros [F1 F2] Pr (Hs & Hp & Hh). pose proof (tell_same fuel Hp Pr) as Same. rewrite Hs in Same.
  apply printable_readable in Pr. pose proof (tell_loop_cases fuel Pr [] _ (tr_nil o p ea er)) as TC.
  assert (Key : forall gs oel code conv, ended o p ea er gs oel code conv -> h = mkh p gs oel ->
     exists zs, raws o (p_oe0 p) h zs /\ List.length zs = List.length (h_controls h) /\ zs = map g_oe gs /\
       combine (tl (h_times h)) zs = reached gs).
  { intros gs oel code conv E ->. exists (map g_oe gs). split; [eapply ended_raws; eassumption|].
    unfold mkh. cbn [h_controls h_times tl]. rewrite !map_length. split; [reflexivity|]. split; [reflexivity|]. apply combine_maps. }
  unfold tell in Same |- *. rewrite Hp in Same |- *. cbn [List.length Z.of_nat reached map table app] in TC.
  assert (Red : ea <> EtaOther) by (intros ->; unfold solve in Hs; rewrite Hp in Hs; discriminate Hs).
  assert (Hd : forall (A : Type) (x : A) y, match ea with EtaOther => x | _ => y end = y) by (intros; destruct ea; congruence).
  rewrite Hd in Same |- *. clear Hd Hs.
  destruct (tell_loop fuel v 0 o p ea er (init_state p)) as [l r].
  destruct r as [s|code conv s|e s|s]; cbn [fst snd] in Same |- *; try discriminate Same; injection Same as <-;
    cbn [finish with_run q_hist] in Hh; injection Hh as <-.
  - inversion TC as [gs s1 Htr Hg| | | | |]; subst.
    destruct (Key gs (l_oe s) None false) as (zs & A & B & C & D); [constructor; assumption|eapply tr_hist; eassumption|].
    exists zs. split; [exact A|]. split; [exact B|]. cbn [finish with_run q_converge q_exitcode]. rewrite F1, F2, D.
    rewrite firstn_all2 by (subst zs; unfold reached; rewrite !map_length; lia).
    unfold closing, ending. cbn [negb andb Z.eqb]. reflexivity.
  - inversion TC as [|gs s0 g c1 s1 Htr Hg Hit Hex|gs s0 g s1 Htr Hg Hit Hex|gs s0 pl Htr Hg H1 H2| |]; subst.
    + destruct (Key (gs ++ [g]) (g_oe g) (Some code) true) as (zs & A & B & C & D);
        [econstructor; eassumption| |].
      { rewrite (exit_stop_hist _ _ _ _ _ _ Hex). eapply post_hist; [|eassumption]. eapply tr_hist; eassumption. }
      exists zs. split; [exact A|]. split; [exact B|]. cbn [finish with_run q_converge q_exitcode orb negb andb]. rewrite D.
      subst zs. rewrite map_length, app_length. cbn [List.length]. unfold reached at 2. rewrite map_app.
      rewrite firstn_app, map_length. replace (List.length gs + 1 - 1)%nat with (List.length gs) by lia.
      rewrite Nat.sub_diag, firstn_O, app_nil_r. rewrite firstn_all2 by (rewrite map_length; lia).
      f_equal. pose proof (exit_cases o p (post g)) as EC. rewrite Hex in EC.
      assert (E : (code = 1 \/ code = 2)%Z) by (inversion EC; subst; auto).
      unfold ending, closing. destruct E as [-> | ->]; reflexivity.
    + destruct (Key (gs ++ [g]) (g_oe g) (Some (-1)%Z) false) as (zs & A & B & C & D);
        [econstructor; eassumption| |].
      { rewrite (exit_stop_hist _ _ _ _ _ _ Hex). eapply post_hist; [|eassumption]. eapply tr_hist; eassumption. }
      exists zs. split; [exact A|]. split; [exact B|]. cbn [finish with_run q_converge q_exitcode orb]. rewrite D, F1.
      cbn [negb andb Z.eqb]. rewrite firstn_all2 by (subst zs; unfold reached; rewrite !map_length; lia).
      unfold ending, closing, hush. cbn [negb andb Z.eqb]. destruct (v_level v <=? 0)%Z; rewrite !app_nil_r; reflexivity.
    + destruct (Key gs (l_oe (safety o s0)) (Some (-3)%Z) false) as (zs & A & B & C & D); [econstructor; eassumption| |].
      { apply safety_hist. eapply tr_hist; eassumption. }
      exists zs. split; [exact A|]. split; [exact B|]. cbn [finish with_run q_converge q_exitcode orb]. rewrite D, F1.
      cbn [negb andb Z.eqb]. rewrite firstn_all2 by (subst zs; unfold reached; rewrite !map_length; lia).
      unfold ending, closing, hush. cbn [negb andb Z.eqb]. destruct (v_level v <=? 0)%Z; rewrite !app_nil_r; reflexivity.
Qed.
End S.

Section T.
Context {N : Num}.

Lemma C101_lem v fuel (o : qlaw N) ea er : (forall p, q_problem o = Some p -> printable o p) ->
  snd (tell fuel v o ea er) = solve fuel o ea er.
Proof.
  intros H. destruct (q_problem o) as [p|] eqn:E; [exact (tell_same v o p ea er fuel E (H p eq_refl))|].
  unfold tell, solve. rewrite E. reflexivity.
Qed.

Lemma table_kinds v (p : problem N) l : forall k m, In m (table v p k l) -> m = Header \/
  exists j t z, nth_error l j = Some (t, z) /\ m = Row (Z.of_nat (k + j)) t (gaps z (p_oeT p)) (v6_5 z) /\
    (Z.of_nat (k + j) mod v_freq v)%Z = 0%Z.
Proof.
  induction l as [|[t z] l IH]; intros k m H; [destruct H|]. cbn [table] in H. apply in_app_or in H as [H|H].
  - unfold lines_at in H. destruct (2 <=? v_level v)%Z; cbn [andb] in H; [|destruct H].
    destruct (Z.eqb_spec (Z.of_nat k mod v_freq v) 0) as [D|D]; [|destruct H].
    apply in_app_or in H as [H|[H|[]]].
    + destruct (Z.of_nat k mod (20 * v_freq v) =? 0)%Z; [|destruct H]. destruct H as [H|[]]. auto.
    + right. exists 0%nat, t, z. rewrite Nat.add_0_r. repeat split; auto.
  - destruct (IH _ _ H) as [E|(j & t' & z' & A & B & C)]; [auto|]. right. exists (S j), t', z'.
    rewrite <- Nat.add_succ_comm. auto.
Qed.
Lemma table_quiet v (p : problem N) l : (v_level v < 2)%Z -> forall k, table v p k l = [].
Proof.
  intros H. induction l as [|[t z] l IH]; intros k; [reflexivity|]. cbn [table]. rewrite IH. unfold lines_at.
  destruct (Z.leb_spec 2 (v_level v)); [lia|]. reflexivity.
Qed.

Lemma C102_lem v fuel (o : qlaw N) ea er p o' h : fresh o -> printable o p -> ran fuel o ea er p o' h ->
  ((v_level v <= 0)%Z -> fst (tell fuel v o ea er) = []) /\
  (v_level v = 1%Z -> fst (tell fuel v o ea er) = [verdict (q_exitcode o')]) /\
  ((2 <= v_level v)%Z -> exists before, fst (tell fuel v o ea er) = before ++ [verdict (q_exitcode o')] /\
     forall m, In m before -> m = Header \/ exists k t d e, m = Row k t d e).
Proof.
  intros F P R. destruct (C103_lem v o p ea er fuel o' h F P R) as (zs & _ & _ & ->).
  unfold closing. split; [|split].
  - intros H. rewrite table_quiet by lia. destruct (Z.leb_spec (v_level v) 0); [reflexivity|lia].
  - intros H. rewrite table_quiet by lia. destruct (Z.leb_spec (v_level v) 0); [lia|reflexivity].
  - intros H. eexists. split; [destruct (Z.leb_spec (v_level v) 0); [lia|reflexivity]|].
    intros m Hm. destruct (table_kinds _ _ _ _ _ Hm) as [E|(j & t & z & _ & E & _)]; [auto|]. right. rewrite E. eauto.
Qed.

Lemma nth_error_firstn {A} (l : list A) n k x : nth_error (firstn n l) k = Some x -> nth_error l k = Some x.
Proof.
  revert l k. induction n as [|n IH]; intros l k H; [destruct k; discriminate H|].
  destruct l as [|y l]; [destruct k; discriminate H|]. destruct k; [exact H|]. cbn in H |- *. apply IH. exact H.
Qed.
Lemma nth_error_combine {A B} (l : list A) (l' : list B) k x y : nth_error (combine l l') k = Some (x, y) ->
  nth_error l k = Some x /\ nth_error l' k = Some y.
Proof.
  revert l' k. induction l as [|a l IH]; intros l' k H; [destruct k; discriminate H|].
  destruct l' as [|b l']; [destruct k; discriminate H|]. destruct k; [injection H as -> ->; split; reflexivity|]. exact (IH l' k H).
Qed.

Lemma C103_rows_lem v fuel (o : qlaw N) ea er p o' h : fresh o -> printable o p -> ran fuel o ea er p o' h ->
  q_etype o = MeeWithA -> forall k t d e, In (Row k t d e) (fst (tell fuel v o ea er)) ->
  (k mod v_freq v = 0)%Z /\ exists j z, k = Z.of_nat j /\ nth_error (h_times h) (S j) = Some t /\
    nth_error (h_states h) (S j) = Some z /\ d = gaps z (p_oeT p) /\ e = v6_5 z.
Proof.
  intros F P R Et k t d e H. destruct (C103_lem v o p ea er fuel o' h F P R) as (zs & W & _ & E). rewrite E in H.
  apply in_app_or in H as [H|H].
  - apply table_kinds in H as [H|(j & t' & z & A & B & C)]; [discriminate H|]. injection B as -> -> -> ->.
    cbn [Nat.add] in C |- *. split; [exact C|]. exists j, z. split; [reflexivity|].
    apply nth_error_firstn, nth_error_combine in A as [A1 A2].
    split; [destruct (h_times h); [destruct j; discriminate A1|exact A1]|]. split; [|split; reflexivity].
    assert (Hs : h_states h = p_oe0 p :: zs).
    { destruct W as (ini & lz & W1 & W2). unfold guarded in W2. rewrite Et in W2. rewrite map_id in W2. rewrite W1. destruct W2; assumption. }
    rewrite Hs. exact A2.
  - exfalso. unfold closing in H. destruct (v_level v <=? 0)%Z; [destruct H|]. destruct H as [H|[]]. unfold verdict in H.
    destruct (q_exitcode o') as [|[q|q|]|[[q|q|]|q|]]; try discriminate H. destruct q; discriminate H.
Qed.

(** C104 *)
Lemma C104_lem et (o o' : qlaw N) oe0 oeT mass0 tmax mdot tf ts mm woe don doff b0 lo hi ch dis full p :
  set_problem o oe0 oeT mass0 tmax mdot tf ts mm woe don doff b0 lo hi ch dis full = Ok o' -> q_problem o' = Some p ->
  pretty (element_names et) p =
    if Nat.leb 5 (List.length oeT) then
      Ok (map (fun i => (nth i (element_names et) ""%string, nth i oe0 (nofZ 0), nth i oeT (nofZ 0),
                         match woe with Some w => nth i w (nofZ 0) | None => nofZ 1 end)) [0; 1; 2; 3; 4]%nat)
    else Err IndexError.
Proof.
  intros H P. unfold set_problem in H.
  destruct (list_to_vec6 oe0) as [v|] eqn:E0; [|discriminate H].
  destruct (negb (nleb (dec 1 2) mm)); [discriminate H|].
  assert (X0 : oe0 = vec6_to_list v).
  { destruct oe0 as [|x0 [|x1 [|x2 [|x3 [|x4 [|x5 [|]]]]]]]; try discriminate E0. injection E0 as <-. reflexivity. }
  match type of H with bind ?w _ = _ => destruct w as [w'|] eqn:Ew; [|discriminate H] end. cbn [bind] in H. injection H as <-.
  cbn [with_run q_problem] in P. injection P as <-. unfold pretty. cbn [p_oe0 p_oeT p_woe].
  assert (Xw : forall i, (i < 5)%nat -> nth_error (vec5_to_list w') i = Some (match woe with Some w => nth i w (nofZ 0) | None => nofZ 1 end)).
  { intros i Hi. destruct woe as [w|].
    - destruct w as [|x0 [|x1 [|x2 [|x3 [|x4 [|]]]]]]; try discriminate Ew. injection Ew as <-.
      destruct i as [|[|[|[|[|]]]]]; try reflexivity. lia.
    - injection Ew as <-. destruct i as [|[|[|[|[|]]]]]; try reflexivity. lia. }
  assert (XT : forall i, (i < 5)%nat ->
    nth_error (if Nat.eqb (List.length oeT) 6 then firstn 5 oeT else oeT) i = nth_error oeT i).
  { intros i Hi. destruct (Nat.eqb_spec (List.length oeT) 6); [|reflexivity].
    destruct oeT as [|x0 [|x1 [|x2 [|x3 [|x4 [|x5 [|]]]]]]]; try discriminate. destruct i as [|[|[|[|[|]]]]]; try reflexivity. lia. }
  subst oe0. destruct v as [v0 v1 v2 v3 v4 v5].
  unfold mapM, item. rewrite !Xw, !XT by lia.
  destruct (Nat.leb_spec 5 (List.length oeT)) as [L|L].
  - destruct oeT as [|x0 [|x1 [|x2 [|x3 [|x4 T]]]]]; cbn [List.length] in L; try lia. destruct et; reflexivity.
  - destruct oeT as [|x0 [|x1 [|x2 [|x3 [|x4 T]]]]]; cbn [List.length] in L; try (destruct et; reflexivity). lia.
Qed.
End T.
