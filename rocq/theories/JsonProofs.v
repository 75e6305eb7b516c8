(** The tokens written by save_to_dict are a JSON text of its result; JSON texts are unambiguous. *)
From Coq Require Import ZArith List Bool String Lia.
From Verif Require Import Num Base Perturb Qlaw Export Json Spec JsonSpec ExportProofs.
Import ListNotations.

Scheme text_ind3 := Induction for text Sort Prop with elements_ind3 := Induction for elements Sort Prop with members_ind3 := Induction for members Sort Prop.
Combined Scheme text_mut from text_ind3, elements_ind3, members_ind3.

Section J.
Context {N : Num}.

(** ** Unambiguous *)
Lemma text_head v ts : text (N:=N) v ts -> exists x r, ts = x :: r /\ x <> TCloseL /\ x <> TCloseD /\ x <> TComma.
Proof. intros H. destruct H; eexists _, _; (split; [reflexivity|]); repeat split; discriminate. Qed.
Lemma elements_head l ts : elements (N:=N) l ts -> exists x r, ts = x :: r /\ x <> TCloseL.
Proof.
  intros H. destruct H as [v ts H|v l ts us H _]; destruct (text_head _ _ H) as (x & r & -> & A & _); eexists _, _; (split; [reflexivity|exact A]).
Qed.
Lemma members_head l ts : members (N:=N) l ts -> exists k r, ts = TStr k :: r.
Proof. intros H. destruct H; eexists _, _; reflexivity. Qed.
Lemma text_prefix :
  (forall v ts, text (N:=N) v ts -> forall v2 ts2 r1 r2, text v2 ts2 -> ts ++ r1 = ts2 ++ r2 -> v = v2 /\ ts = ts2 /\ r1 = r2) /\
  (forall l ts, elements (N:=N) l ts -> forall l2 ts2 r1 r2, elements l2 ts2 -> ts ++ TCloseL :: r1 = ts2 ++ TCloseL :: r2 -> l = l2 /\ ts = ts2 /\ r1 = r2) /\
  (forall l ts, members (N:=N) l ts -> forall l2 ts2 r1 r2, members l2 ts2 -> ts ++ TCloseD :: r1 = ts2 ++ TCloseD :: r2 -> l = l2 /\ ts = ts2 /\ r1 = r2).
Proof.
  apply (text_mut N (fun v ts _ => forall v2 ts2 r1 r2, text v2 ts2 -> ts ++ r1 = ts2 ++ r2 -> v = v2 /\ ts = ts2 /\ r1 = r2)
    (fun l ts _ => forall l2 ts2 r1 r2, elements l2 ts2 -> ts ++ TCloseL :: r1 = ts2 ++ TCloseL :: r2 -> l = l2 /\ ts = ts2 /\ r1 = r2)
    (fun l ts _ => forall l2 ts2 r1 r2, members l2 ts2 -> ts ++ TCloseD :: r1 = ts2 ++ TCloseD :: r2 -> l = l2 /\ ts = ts2 /\ r1 = r2)).
  1-5: (intros; match goal with H : text _ _ |- _ => destruct H end; cbn in *; try discriminate;
        match goal with H : _ :: _ = _ :: _ |- _ => injection H; intros; subst; auto end).
  - intros v2 ts2 r1 r2 H E. destruct H as [| | | | | |l ts H| |l ts H]; try (cbn in E; discriminate E).
    + cbn in E. injection E as ->. auto.
    + destruct (elements_head _ _ H) as (x & r & -> & A). cbn in E. injection E as X _. congruence.
  - intros l ts He IH v2 ts2 r1 r2 H E. destruct H as [| | | | | |l' ts' H| |l' ts' H]; try (cbn in E; discriminate E).
    + destruct (elements_head _ _ He) as (x & r & -> & A). cbn in E. injection E as X _. congruence.
    + cbn in E. injection E as E. rewrite <- !app_assoc in E. cbn in E. destruct (IH _ _ _ _ H E) as (-> & -> & ->). auto.
  - intros v2 ts2 r1 r2 H E. destruct H as [| | | | | |l ts H| |l ts H]; try (cbn in E; discriminate E).
    + cbn in E. injection E as ->. auto.
    + destruct (members_head _ _ H) as (x & r & ->). cbn in E. discriminate E.
  - intros l ts He IH v2 ts2 r1 r2 H E. destruct H as [| | | | | |l' ts' H| |l' ts' H]; try (cbn in E; discriminate E).
    + destruct (members_head _ _ He) as (x & r & ->). cbn in E. discriminate E.
    + cbn in E. injection E as E. rewrite <- !app_assoc in E. cbn in E. destruct (IH _ _ _ _ H E) as (-> & -> & ->). auto.
  - intros v ts Hv IH l2 ts2 r1 r2 H E. destruct H as [v' ts' H|v' l' ts' us' H H'].
    + destruct (IH _ _ _ _ H E) as (-> & -> & X). injection X as ->. auto.
    + rewrite <- !app_assoc in E. destruct (IH _ _ _ _ H E) as (_ & _ & X). discriminate X.
  - intros v l ts us Hv IHv Hl IHl l2 ts2 r1 r2 H E. destruct H as [v' ts' H|v' l' ts' us' H H'].
    + rewrite <- !app_assoc in E. destruct (IHv _ _ _ _ H E) as (_ & _ & X). discriminate X.
    + rewrite <- !app_assoc in E. destruct (IHv _ _ _ _ H E) as (-> & -> & X). cbn in X. injection X as X.
      destruct (IHl _ _ _ _ H' X) as (-> & -> & ->). auto.
  - intros k v ts Hv IH l2 ts2 r1 r2 H E. destruct H as [k' v' ts' H|k' v' l' ts' us' H H'].
    + cbn in E. injection E as -> E. destruct (IH _ _ _ _ H E) as (-> & -> & X). injection X as ->. auto.
    + cbn in E. injection E as -> E. rewrite <- !app_assoc in E. destruct (IH _ _ _ _ H E) as (_ & _ & X). discriminate X.
  - intros k v l ts us Hv IHv Hl IHl l2 ts2 r1 r2 H E. destruct H as [k' v' ts' H|k' v' l' ts' us' H H'].
    + cbn in E. injection E as -> E. rewrite <- !app_assoc in E. destruct (IHv _ _ _ _ H E) as (_ & _ & X). discriminate X.
    + cbn in E. injection E as -> E. rewrite <- !app_assoc in E. destruct (IHv _ _ _ _ H E) as (-> & -> & X). cbn in X. injection X as X.
      destruct (IHl _ _ _ _ H' X) as (-> & -> & ->). auto.
Qed.
Lemma text_unique v1 v2 ts : text (N:=N) v1 ts -> text v2 ts -> v1 = v2.
Proof. intros A B. apply (proj1 text_prefix _ _ A _ _ [] [] B eq_refl). Qed.

(** ** Balanced *)
Definition lv (t : tok N) : Z := match t with TOpenL | TOpenD => 1 | TCloseL | TCloseD => -1 | _ => 0 end.
Fixpoint depth (ts : list (tok N)) : Z := match ts with [] => 0 | t :: r => lv t + depth r end.
Lemma depth_app a b : depth (a ++ b) = (depth a + depth b)%Z.
Proof. induction a as [|x a IH]; cbn [app depth]; [lia|]. rewrite IH. lia. Qed.
Lemma text_balanced : (forall v ts, text (N:=N) v ts -> depth ts = 0%Z) /\ (forall l ts, elements (N:=N) l ts -> depth ts = 0%Z) /\ (forall l ts, members (N:=N) l ts -> depth ts = 0%Z).
Proof.
  apply (text_mut N (fun v ts _ => depth ts = 0%Z) (fun l ts _ => depth ts = 0%Z) (fun l ts _ => depth ts = 0%Z));
    intros; rewrite ?depth_app; cbn [depth lv app] in *; rewrite ?depth_app; cbn [depth lv] in *; lia.
Qed.

(** ** The encoder *)
Section Ind.
Variable P : pyval N -> Prop.
Hypotheses (H1 : P VNone) (H2 : forall b, P (VBool b)) (H3 : forall z, P (VInt z)) (H4 : forall x, P (VFloat x)) (H5 : forall s, P (VStr s))
  (H6 : forall l, Forall P l -> P (VList l)) (H7 : forall l, Forall (fun kv => P (snd kv)) l -> P (VDict l)) (H8 : forall z, P (VNpInt z))
  (H9 : forall x, P (VNpFloat x)) (H10 : forall v, P v -> P (VArray v)) (H11 : P VOther).
Fixpoint pyval_ind' (v : pyval N) : P v :=
  match v with
  | VNone => H1 | VBool b => H2 b | VInt z => H3 z | VFloat x => H4 x | VStr s => H5 s
  | VList l => H6 l ((fix go l := match l return Forall P l with [] => Forall_nil _ | x :: r => Forall_cons _ (pyval_ind' x) (go r) end) l)
  | VDict l => H7 l ((fix go l := match l return Forall (fun kv => P (snd kv)) l with [] => Forall_nil _ | kv :: r => Forall_cons _ (pyval_ind' (snd kv)) (go r) end) l)
  | VNpInt z => H8 z | VNpFloat x => H9 x | VArray v => H10 v (pyval_ind' v) | VOther => H11
  end.
End Ind.

Definition emits (first : bool) (l : list (pyval N)) : wr (N:=N) :=
  (fix go (first : bool) (l : list (pyval N)) : wr :=
        match l with
        | [] => put []
        | x :: r => seqw (put (if first then [] else [TComma])) (seqw (emit x) (go false r))
        end) first l.
Definition emitd (first : bool) (l : list (option string * pyval N)) : wr (N:=N) :=
  (fix go (first : bool) (l : list (option string * pyval N)) : wr :=
        match l with
        | [] => put []
        | (None, _) :: _ => ([], true)
        | (Some k, x) :: r => seqw (put (if first then [] else [TComma])) (seqw (put [TStr k; TColon]) (seqw (emit x) (go false r)))
        end) first l.
Lemma emit_list l : emit (VList l) = seqw (put [TOpenL]) (seqw (emits true l) (put [TCloseL])).
Proof. reflexivity. Qed.
Lemma emit_dict l : emit (VDict l) = seqw (put [TOpenD]) (seqw (emitd true l) (put [TCloseD])).
Proof. reflexivity. Qed.
Lemma seqw_put a w : seqw (N:=N) (put a) w = (a ++ fst w, snd w)%list.
Proof. reflexivity. Qed.

(** what was written when no exception came, and when one came *)
Definition good (v : pyval N) (w : wr (N:=N)) : Prop :=
  if snd w then (forall j, ~ shows v j) /\ (0 <= depth (fst w))%Z else exists j, shows v j /\ text j (fst w).

Lemma emits_good l : Forall (fun v => good v (emit v)) l -> forall first,
  if snd (emits first l) then (forall l', ~ Forall2 shows l l') /\ (0 <= depth (fst (emits first l)))%Z
  else exists l', Forall2 shows l l' /\
    match l with [] => fst (emits first l) = [] | _ => exists ts, elements l' ts /\ fst (emits first l) = (if first then [] else [TComma]) ++ ts end.
Proof.
  induction 1 as [|x l Hx Hl IH]; intros first.
  - cbn. exists []. auto.
  - change (emits first (x :: l)) with (seqw (put (if first then [] else [TComma])) (seqw (emit x) (emits false l))). rewrite seqw_put. cbn [snd fst].
    unfold good in Hx. unfold seqw. destruct (snd (emit x)) eqn:E.
    + rewrite E. destruct Hx as [A B]. split.
      * intros l' H. inversion H; subst. eapply A; eassumption.
      * rewrite depth_app. destruct first; cbn [depth lv]; lia.
    + cbn [snd fst]. destruct Hx as (j & Sj & Tj). specialize (IH false). destruct (snd (emits false l)) eqn:E2.
      * destruct IH as [A B]. split.
        -- intros l' H. inversion H; subst. eapply A; eassumption.
        -- rewrite !depth_app, (proj1 text_balanced _ _ Tj). destruct first; cbn [depth lv]; lia.
      * destruct IH as (l' & F & R). exists (j :: l'). split; [constructor; assumption|].
        destruct l as [|y l].
        -- inversion F; subst. rewrite R, app_nil_r. exists (fst (emit x)). split; [constructor; exact Tj|reflexivity].
        -- destruct R as (us & Eu & ->). exists (fst (emit x) ++ [TComma] ++ us). split; [apply el_more; assumption|reflexivity].
Qed.
Lemma emitd_good l : Forall (fun kv => good (snd kv) (emit (snd kv))) l -> forall first,
  if snd (emitd first l) then (forall l', ~ Forall2 (fun a b => fst a = Some (fst b) /\ shows (snd a) (snd b)) l l') /\ (0 <= depth (fst (emitd first l)))%Z
  else exists l', Forall2 (fun a b => fst a = Some (fst b) /\ shows (snd a) (snd b)) l l' /\
    match l with [] => fst (emitd first l) = [] | _ => exists ts, members l' ts /\ fst (emitd first l) = (if first then [] else [TComma]) ++ ts end.
Proof.
  induction 1 as [|[[k|] x] l Hx Hl IH]; intros first.
  - cbn. exists []. auto.
  - change (emitd first ((Some k, x) :: l)) with (seqw (put (if first then [] else [TComma])) (seqw (put [TStr k; TColon]) (seqw (emit x) (emitd false l)))).
    rewrite !seqw_put. cbn [snd fst] in *.
    unfold good in Hx. unfold seqw. destruct (snd (emit x)) eqn:E.
    + rewrite E. destruct Hx as [A B]. split.
      * intros l' H. inversion H as [|? [k' j] ? ? [_ S] _]; subst. eapply A; eassumption.
      * rewrite !depth_app. destruct first; cbn [depth lv]; lia.
    + cbn [snd fst]. destruct Hx as (j & Sj & Tj). specialize (IH false). destruct (snd (emitd false l)) eqn:E2.
      * destruct IH as [A B]. split.
        -- intros l' H. inversion H; subst. eapply A; eassumption.
        -- rewrite !depth_app, (proj1 text_balanced _ _ Tj). destruct first; cbn [depth lv]; lia.
      * destruct IH as (l' & F & R). exists ((k, j) :: l'). split; [constructor; [split; [reflexivity|exact Sj]|assumption]|].
        destruct l as [|y l].
        -- inversion F; subst. rewrite R, app_nil_r. exists ([TStr k; TColon] ++ fst (emit x)). split; [constructor; exact Tj|reflexivity].
        -- destruct R as (us & Eu & ->). exists ([TStr k; TColon] ++ fst (emit x) ++ [TComma] ++ us). split; [apply mb_more; assumption|reflexivity].
  - cbn. split; [|lia]. intros l' H. inversion H as [|? [k' j] ? ? [S _] _]; subst. discriminate S.
Qed.
Lemma emit_good v : good v (emit v).
Proof.
  induction v using pyval_ind'; try (unfold good; cbn; eexists; split; constructor).
  - rewrite emit_list, seqw_put. pose proof (emits_good _ H true) as E. unfold good. unfold seqw. destruct (snd (emits true l)) eqn:X; cbn [snd fst].
    + rewrite X. destruct E as [A B]. split; [intros j Hj; inversion Hj; subst; eapply A; eassumption|]. rewrite depth_app. cbn [depth lv]. lia.
    + destruct E as (l' & F & R). exists (JArr l'). split; [constructor; exact F|]. destruct l as [|y l].
      * inversion F; subst. rewrite R. apply tx_arr0.
      * destruct R as (ts & Et & ->). apply (tx_arr _ _ Et).
  - rewrite emit_dict, seqw_put. pose proof (emitd_good _ H true) as E. unfold good. unfold seqw. destruct (snd (emitd true l)) eqn:X; cbn [snd fst].
    + rewrite X. destruct E as [A B]. split; [intros j Hj; inversion Hj; subst; eapply A; eassumption|]. rewrite depth_app. cbn [depth lv]. lia.
    + destruct E as (l' & F & R). exists (JObj l'). split; [constructor; exact F|]. destruct l as [|y l].
      * inversion F; subst. rewrite R. apply tx_obj0.
      * destruct R as (ts & Et & ->). apply (tx_obj _ _ Et).
  - unfold good in *. cbn [emit]. destruct (snd (emit v)).
    + destruct IHv as [A B]. split; [|exact B]. intros j Hj. inversion Hj; subst. eapply A; eassumption.
    + destruct IHv as (j & A & B). exists j. split; [constructor; exact A|exact B].
  - unfold good. cbn. split; [|lia]. intros j Hj. inversion Hj.
Qed.
End J.

Section Save.
Context {N : Num}.
Lemma Forall2_map_r {A B} (P : A -> B -> Prop) (f : A -> B) l : (forall x, P x (f x)) -> Forall2 P l (map f l).
Proof. intros H. induction l; cbn; constructor; auto. Qed.
Lemma shows_numbers (l : list (car (Num:=N))) : shows (numbers l) (JArr (map JNum l)).
Proof. unfold numbers. constructor. induction l; cbn; constructor; auto; constructor. Qed.
Lemma shows_rows (l : list (list (car (Num:=N)))) : shows (VList (map numbers l)) (JArr (map (fun r => JArr (map JNum r)) l)).
Proof. constructor. induction l; cbn; constructor; auto. apply shows_numbers. Qed.
Lemma shows_guess d cu (j : jval N) : shows cu j -> shows (guess d cu) (record d j).
Proof.
  intros H. unfold guess, record. constructor. repeat (constructor; [split; [reflexivity|cbn [snd]]|]); [constructor|constructor| |exact H| | |constructor].
  - apply shows_numbers.
  - apply shows_rows.
  - constructor. apply shows_rows.
Qed.
Lemma Forall2_fun {A B} (P : A -> B -> Prop) l : Forall (fun x => forall a b, P x a -> P x b -> a = b) l ->
  forall l1 l2, Forall2 P l l1 -> Forall2 P l l2 -> l1 = l2.
Proof.
  induction 1 as [|x l Hx Hl IH]; intros l1 l2 A1 A2; inversion A1; inversion A2; subst; [reflexivity|]. f_equal; [eapply Hx; eassumption|]. apply IH; assumption.
Qed.
Lemma shows_fun (v : pyval N) : forall j1 j2, shows v j1 -> shows v j2 -> j1 = j2.
Proof.
  induction v using pyval_ind'; intros j1 j2 A B; inversion A; inversion B; subst; try congruence.
  - f_equal. eapply Forall2_fun; eassumption.
  - f_equal. eapply Forall2_fun; [|eassumption|eassumption]. eapply Forall_impl; [|exact H]. cbn. intros [k x] IH [k1 a] [k2 b] [K1 S1] [K2 S2]. cbn in *.
    rewrite (IH _ _ S1 S2). congruence.
  - eauto.
Qed.

Lemma C112_lem fuel (o : qlaw N) ea er p o' h angles cu j path fs : ran fuel o ea er p o' h -> shows cu j ->
  exists d fs' ts, save_to_dict h angles = Ok d /\ save_to_file h angles cu (Some path) fs = (Ok d, fs') /\
    fs' path = Some ts /\ (forall q, q <> path -> fs' q = fs q) /\ text (record d j) ts /\ forall v, text v ts -> v = record d j.
Proof.
  intros R S. destruct (C65_lengths_lem N _ _ _ _ _ _ _ angles R) as (d & D & _).
  pose proof (emit_good (guess d cu)) as G. pose proof (shows_guess d cu j S) as Sg. unfold good in G.
  destruct (emit (guess d cu)) as [ts b] eqn:E. cbn [fst snd] in G. destruct b; [destruct G as [G _]; destruct (G _ Sg)|].
  destruct G as (j' & Sj & Tj). rewrite (shows_fun _ _ _ Sj Sg) in Tj.
  exists d, (write fs path ts), ts. split; [exact D|]. unfold save_to_file. rewrite D, E. split; [reflexivity|].
  unfold write. rewrite String.eqb_refl. split; [reflexivity|]. split.
  - intros q H. destruct (String.eqb_spec q path); congruence.
  - split; [exact Tj|]. intros v Tv. exact (text_unique _ _ _ Tv Tj).
Qed.
Lemma C112_nofile_lem fuel (o : qlaw N) ea er p o' h angles cu fs : ran fuel o ea er p o' h ->
  exists d, save_to_dict h angles = Ok d /\ save_to_file h angles cu None fs = (Ok d, fs).
Proof.
  intros R. destruct (C65_lengths_lem N _ _ _ _ _ _ _ angles R) as (d & D & _). exists d. split; [exact D|]. unfold save_to_file. rewrite D. reflexivity.
Qed.

Lemma seqw_false (a b : wr (N:=N)) : snd a = false -> seqw a b = ((fst a ++ fst b)%list, snd b).
Proof. intros H. unfold seqw. rewrite H. reflexivity. Qed.
Lemma emit_text v (j : jval N) : shows v j -> snd (emit v) = false /\ text j (fst (emit v)).
Proof.
  intros S. pose proof (emit_good v) as G. unfold good in G. destruct (snd (emit v)).
  - destruct G as [G _]. destruct (G _ S).
  - destruct G as (j' & S' & T). rewrite (shows_fun _ _ _ S S'). auto.
Qed.
Lemma C113_lem fuel (o : qlaw N) ea er p o' h angles cu path fs : ran fuel o ea er p o' h -> (forall j, ~ shows cu j) ->
  exists d fs' a b, save_to_dict h angles = Ok d /\ save_to_file h angles cu (Some path) fs = (Err TypeError, fs') /\
    (forall q, q <> path -> fs' q = fs q) /\
    fs' path = Some ([TOpenD] ++ a ++ [TComma; TStr "canonical_units"; TColon] ++ b) /\
    members [("t0"%string, JNum (sv_t0 d)); ("tf"%string, JNum (sv_tf d)); ("times"%string, JArr (map JNum (sv_times d)))] a /\
    forall v, ~ text v ([TOpenD] ++ a ++ [TComma; TStr "canonical_units"; TColon] ++ b).
Proof.
  intros R S. destruct (C65_lengths_lem N _ _ _ _ _ _ _ angles R) as (d & D & _).
  pose proof (emit_good cu) as G. unfold good in G. destruct (snd (emit cu)) eqn:Ec; [|destruct G as (j & G & _); destruct (S _ G)].
  destruct G as [_ G]. destruct (emit_text _ _ (shows_numbers (sv_times d))) as [Fn Tn].
  set (a := ([TStr "t0"; TColon] ++ [TNum (sv_t0 d)] ++ [TComma] ++ [TStr "tf"; TColon] ++ [TNum (sv_tf d)] ++ [TComma] ++ [TStr "times"; TColon] ++ fst (emit (numbers (sv_times d))))).
  assert (E : emit (guess d cu) = ([TOpenD] ++ a ++ [TComma; TStr "canonical_units"; TColon] ++ fst (emit cu), true)).
  { unfold guess. rewrite emit_dict, seqw_put.
    set (rest := [(Some "states"%string, VList (map numbers (sv_states d))); (Some "controls"%string, VArray (VList (map numbers (sv_controls d))))]).
    change (emitd true ((Some "t0"%string, VFloat (sv_t0 d)) :: (Some "tf"%string, VFloat (sv_tf d)) :: (Some "times"%string, numbers (sv_times d)) :: (Some "canonical_units"%string, cu) :: rest))
      with (seqw (put []) (seqw (put [TStr "t0"; TColon]) (seqw (put [TNum (sv_t0 d)]) (seqw (put [TComma]) (seqw (put [TStr "tf"; TColon]) (seqw (put [TNum (sv_tf d)])
             (seqw (put [TComma]) (seqw (put [TStr "times"; TColon]) (seqw (emit (numbers (sv_times d))) (seqw (put [TComma]) (seqw (put [TStr "canonical_units"; TColon]) (seqw (emit cu) (emitd false rest))))))))))))).
    assert (Ecu : seqw (emit cu) (emitd false rest) = (fst (emit cu), true)) by (unfold seqw; rewrite Ec; rewrite <- Ec; apply surjective_pairing).
    rewrite Ecu. rewrite (seqw_false (emit (numbers (sv_times d)))) by exact Fn. rewrite !seqw_put. unfold seqw. cbn [fst snd]. unfold a. rewrite <- !app_assoc. reflexivity. }
  assert (M : members [("t0"%string, JNum (sv_t0 d)); ("tf"%string, JNum (sv_tf d)); ("times"%string, JArr (map JNum (sv_times d)))] a).
  { unfold a. apply (mb_more "t0" _ _ [TNum (sv_t0 d)]); [constructor|]. apply (mb_more "tf" _ _ [TNum (sv_tf d)]); [constructor|]. apply mb_one. exact Tn. }
  exists d, (write fs path (fst (emit (guess d cu)))), a, (fst (emit cu)). split; [exact D|]. unfold save_to_file. rewrite D, E. cbn [fst].
  split; [reflexivity|]. unfold write. rewrite String.eqb_refl. split; [intros q H; destruct (String.eqb_spec q path); congruence|].
  split; [reflexivity|]. split; [exact M|].
  intros v T. apply (proj1 text_balanced) in T. rewrite !depth_app, (proj2 (proj2 text_balanced) _ _ M) in T. cbn [depth lv] in T. lia.
Qed.
End Save.
