(** The effectivity thresholds act only through the throttle (C95). *)
From Coq Require Import Reals Lra ZArith List Bool Lia.
From Verif Require Import RMath Num Base Elements Integrate Eom Convergence Lyapunov Perturb Qlaw Spec Trace XTrace CutSpec CutProofs EtaSpec.
Import ListNotations.

Lemma starts_firstn {A} (a b : list A) n : starts a b -> (n <= length a)%nat -> firstn n b = firstn n a.
Proof. intros [r ->] H. rewrite firstn_app. replace (n - length a)%nat with 0%nat by lia. rewrite firstn_O, app_nil_r. reflexivity. Qed.
Lemma starts_nth {A} (a b : list A) k x : starts a b -> nth_error a k = Some x -> nth_error b k = Some x.
Proof. intros [r ->] H. rewrite nth_error_app1; [exact H|]. apply nth_error_Some. congruence. Qed.
Lemma nth_snoc {A} (l : list A) x : nth_error (l ++ [x]) (length l) = Some x.
Proof. rewrite nth_error_app2, Nat.sub_diag by lia. reflexivity. Qed.

Section Eta.
Context {N : Num}.
Variables (o : qlaw N) (p : problem N).

Definition bare (h : hist N) : hist N :=
  {| h_Qs := h_Qs h; h_dQdts := h_dQdts h; h_times := h_times h; h_states := h_states h; h_masses := h_masses h;
     h_controls := h_controls h; h_etas := []; h_bounds := []; h_battery := h_battery h |}.
Definition core (s : lstate N) : lstate N := with_hist s (bare (l_hist s)).
Lemma core_safety s : core (safety o s) = safety o (core s).
Proof. unfold safety. destruct (q_etype o); reflexivity. Qed.
Lemma core_flight s s' : core s = core s' -> same_flight (l_hist s) (l_hist s').
Proof.
  intros H. assert (B : bare (l_hist s) = bare (l_hist s')) by (change (l_hist (core s) = l_hist (core s')); rewrite H; reflexivity).
  unfold same_flight. change (h_times (bare (l_hist s)) = h_times (bare (l_hist s')) /\ h_states (bare (l_hist s)) = h_states (bare (l_hist s')) /\
    h_masses (bare (l_hist s)) = h_masses (bare (l_hist s')) /\ h_battery (bare (l_hist s)) = h_battery (bare (l_hist s')) /\
    h_controls (bare (l_hist s)) = h_controls (bare (l_hist s')) /\ h_Qs (bare (l_hist s)) = h_Qs (bare (l_hist s')) /\ h_dQdts (bare (l_hist s)) = h_dQdts (bare (l_hist s'))).
  rewrite B. repeat split.
Qed.
Lemma guard_core s s' : core s = core s' -> guard p s = guard p s'.
Proof. intros H. change (guard p (core s) = guard p (core s')). rewrite H. reflexivity. Qed.
Lemma plan_core s s' : core s = core s' -> plan o p s = plan o p s'.
Proof. intros H. change (plan o p (core s) = plan o p (core s')). rewrite H. reflexivity. Qed.
Lemma control_core ea er s s' pl acc : core s = core s' -> control o p ea er s pl acc = control o p ea er s' pl acc.
Proof. intros H. change (control o p ea er (core s) pl acc = control o p ea er (core s') pl acc). rewrite H. reflexivity. Qed.
Lemma ptrb_core s s' : core s = core s' -> perturbation o s = perturbation o s'.
Proof. intros H. change (perturbation o (core s) = perturbation o (core s')). rewrite H. reflexivity. Qed.

(** two answers of the control part to one state *)
Record twins (c c' : ctl_t N) : Prop := mktwins {
  tw_ab : c_ab c = c_ab c'; tw_psi : c_psi c = c_psi c'; tw_q : c_q c = c_q c'; tw_qd : c_qdot c = c_qdot c'; tw_n : c_nnan c = c_nnan c';
  tw_u : c_thr c = c_thr c' -> c_u c = c_u c' }.
Section Two.
Variables (ea er fa fr : eta_arg N).
Lemma control_two s pl acc r r' : control o p ea er s pl acc = Ok r -> control o p fa fr s pl acc = Ok r' ->
  (r = NanBreak /\ r' = NanBreak) \/ exists c c', r = Ctl c /\ r' = Ctl c' /\ twins c c'.
Proof.
  unfold control. destruct (pl_duty pl).
  2:{ destruct (lyap_call o p acc (l_oe s)) as [[[[[[al be] u] psi] q] qd]|]; [|discriminate]. cbn [bind].
      intros H H'. injection H as <-. injection H' as <-. right. eexists _, _. split; [reflexivity|]. split; [reflexivity|]. split; reflexivity. }
  destruct (lyap_call o p acc (l_oe s)) as [[[[[[al be] u] psi] q] qd]|]; [|discriminate]. cbn [bind].
  destruct (nisnan al || nisnan be).
  - cbv zeta. destruct (Z.ltb (q_nan_thr o) (l_nnan s + 1)); intros H H'; injection H as <-; injection H' as <-; [left; auto|].
    right. eexists _, _. split; [reflexivity|]. split; [reflexivity|]. split; reflexivity.
  - cbv zeta. destruct (evaluate_osculating_qdot o p (l_oe s) acc) as [[mn mx]|e]; cbn [bind].
    + intros H H'. right. destruct (_ || _) in H; destruct (_ || _) in H'; injection H as <-; injection H' as <-;
        (eexists _, _; split; [reflexivity|]; split; [reflexivity|]; split; try reflexivity; cbn [c_thr c_u];
         repeat match goal with |- context [if ?b then v3zero else _] => destruct b end; cbn; try reflexivity; discriminate).
    + intros H H'. right. destruct (_ || _) in H; [discriminate|]. destruct (_ || _) in H'; [discriminate|]. injection H as <-; injection H' as <-.
      eexists _, _. split; [reflexivity|]. split; [reflexivity|]. split; reflexivity.
Qed.

Lemma rows s s' g g' : core s = core s' -> iter o p ea er s g -> iter o p fa fr s' g' ->
  core (safety o s) = core (safety o s') /\ g_al g = g_al g' /\ g_be g = g_be g' /\ c_q (g_c g) = c_q (g_c g') /\ c_qdot (g_c g) = c_qdot (g_c g') /\
  (c_thr (g_c g) = c_thr (g_c g') -> core (post g) = core (post g')).
Proof.
  intros C I I'. assert (C' : core (safety o s) = core (safety o s')) by (rewrite !core_safety, C; reflexivity). split; [exact C'|].
  destruct I as [A1 A2 A3 A4 A5 A6 A7], I' as [B1 B2 B3 B4 B5 B6 B7]. rewrite <- A1, <- B1 in C'.
  destruct g as [s1 pl1 c1 w1 x1 t1 m1 d1 b1 k1 al1 be1], g' as [s2 pl2 c2 w2 x2 t2 m2 d2 b2 k2 al2 be2].
  cbn [g_s g_pl g_c g_ptrb g_oe g_t g_m g_dtb g_b g_chg g_al g_be] in *. clear A1 B1.
  rewrite (plan_core _ _ C') in A2. rewrite B2 in A2. injection A2 as <-.
  assert (EM : l_mass s1 = l_mass s2) by (change (l_mass (core s1) = l_mass (core s2)); rewrite C'; reflexivity).
  assert (EB : l_batt s1 = l_batt s2) by (change (l_batt (core s1) = l_batt (core s2)); rewrite C'; reflexivity).
  rewrite (control_core _ _ _ _ _ _ C'), EM in A3. destruct (control_two _ _ _ _ _ A3 B3) as [[H _]|(c & c' & H1 & H2 & T)]; [discriminate|].
  injection H1 as <-. injection H2 as <-. destruct T as [T1 T2 T3 T4 T5 T6].
  rewrite T1, B7 in A7. injection A7 as <- <-. repeat (split; [assumption || reflexivity|]).
  intros Et. specialize (T6 Et). rewrite (ptrb_core _ _ C') in A4. rewrite B4 in A4. injection A4 as <-.
  assert (EP : propagate o p s1 pl2 c1 w2 = propagate o p s2 pl2 c2 w2).
  { change (propagate o p (core s1) pl2 c1 w2 = propagate o p (core s2) pl2 c2 w2). rewrite C'. unfold propagate. rewrite T2, T6, Et. reflexivity. }
  rewrite EP, B5 in A5. injection A5 as <- <- <- <-. rewrite EB, B6 in A6. injection A6 as <- <-.
  unfold post, core, with_hist. cbn [g_s g_pl g_c g_oe g_t g_m g_b g_chg g_al g_be l_t l_oe l_mass l_batt l_nrel l_nnan l_duty l_ton l_toff l_chg l_ab l_hist].
  assert (ER : l_nrel s1 = l_nrel s2) by (change (l_nrel (core s1) = l_nrel (core s2)); rewrite C'; reflexivity). rewrite ER, T5.
  f_equal. destruct (core_flight _ _ C') as (F1 & F2 & F3 & F4 & F5 & F6 & F7).
  unfold bare, push6, push3. cbn [h_Qs h_dQdts h_times h_states h_masses h_controls h_etas h_bounds h_battery]. rewrite F1, F2, F3, F4, F5, F6, F7, T3, T4, Et. reflexivity.
Qed.

Lemma exit_core s s' : core s = core s' ->
  match exit_check o p s, exit_check o p s' with
  | Next z, Next z' => core z = core z' | Stop c v z, Stop c' v' z' => c = c' /\ v = v' /\ core z = core z' | Fail _ _, Fail _ _ => True | _, _ => False end.
Proof.
  intros C. assert (K : forall z, exit_check o p (core z) = match exit_check o p z with Next y => Next (core y) | Stop c v y => Stop c v (core y) | Fail e y => Fail e (core y) end).
  { intros z. unfold exit_check. change (l_oe (core z)) with (l_oe z). destruct (q_check o (l_oe z) (p_oeT p) (p_woe p) (q_tol o)) as [[|]|]; try reflexivity.
    destruct (q_check o (l_oe z) (p_oeT p) (p_woe p) (q_tol_relaxed o)) as [r|]; [|reflexivity]. cbv zeta.
    change (l_nrel (core z)) with (l_nrel z). cbn [l_nrel with_nrel l_mass core with_hist].
    destruct (r && _); [reflexivity|]. destruct (nleb (l_mass z) (p_mass_min p)); reflexivity. }
  pose proof (K s) as K1. rewrite C, (K s') in K1. destruct (exit_check o p s), (exit_check o p s'); try discriminate; try exact I; repeat split; congruence.
Qed.

Record sized (k : nat) (s : lstate N) : Prop := mksized {
  sz_t : length (h_times (l_hist s)) = S k; sz_s : length (h_states (l_hist s)) = S k; sz_m : length (h_masses (l_hist s)) = S k;
  sz_b : length (h_battery (l_hist s)) = S k; sz_c : length (h_controls (l_hist s)) = k; sz_q : length (h_Qs (l_hist s)) = k; sz_d : length (h_dQdts (l_hist s)) = k }.
Lemma sized_safe k s : tidy s -> sized k s -> sized k (safety o s).
Proof.
  intros [i T] [S1 S2 S3 S4 S5 S6 S7]. destruct (safe_hist o s) as (E1 & E2 & E3 & E4 & E5 & E6 & _ & _). split; rewrite ?E1, ?E2, ?E3, ?E4, ?E5, ?E6; try assumption.
  rewrite (tidy_safe o s i T). rewrite T in S2. rewrite app_length in *. exact S2.
Qed.
Lemma sized_core k s s' : core s = core s' -> sized k s -> sized k s'.
Proof. intros C [S1 S2 S3 S4 S5 S6 S7]. destruct (core_flight _ _ C) as (F1 & F2 & F3 & F4 & F5 & F6 & F7). split; rewrite <- ?F1, <- ?F2, <- ?F3, <- ?F4, <- ?F5, <- ?F6, <- ?F7; assumption. Qed.
Lemma tidy_core s s' : core s = core s' -> tidy s -> tidy s'.
Proof.
  intros C [i T]. exists i. destruct (core_flight _ _ C) as (_ & F2 & _). rewrite <- F2, T. f_equal. f_equal. change (l_oe (core s) = l_oe (core s')). rewrite C. reflexivity.
Qed.
Lemma sized_post k s g ha hr : tidy s -> sized k s -> iter o p ha hr s g -> sized (S k) (post g).
Proof.
  intros T Z I. pose proof (sized_safe k s T Z) as [S1 S2 S3 S4 S5 S6 S7]. rewrite <- (it_s _ _ _ _ _ _ I) in *.
  split; unfold post; cbn [l_hist push6 push3 h_Qs h_dQdts h_times h_states h_masses h_controls h_battery]; rewrite app_length; cbn [length]; lia.
Qed.
End Two.

(** a step that does not end in an exception or a nan break *)
Lemma step_row ea er s r : step o p ea er s = r -> (forall e z, r <> Fail e z) ->
  (exists g, iter o p ea er s g /\ r = exit_check o p (post g)) \/
  (r = Stop (-3) false (safety o s) /\ exists pl, plan o p (safety o s) = Ok pl /\
     control o p ea er (safety o s) pl (accel_thrust p (pl_dt pl) (l_mass (safety o s))) = Ok NanBreak).
Proof.
  intros E F. pose proof (step_cases o p ea er s) as C. rewrite E in C. inversion C as [g I X|pl P1 P2 X|e X|t' oe' m' pl c pt dtb Y1 Y2 Y3 Y4 Y5 X]; subst.
  - left. exists g. auto.
  - right. split; [reflexivity|]. eauto.
  - exfalso. eapply F. symmetry. exact X.
  - exfalso. eapply F. symmetry. exact X.
Qed.
(** what the run finally records begins with the row *)
Lemma row_begins n ea er s e g : tidy s -> iter o p ea er s g ->
  match exit_check o p (post g) with Next z => ended (loop n o p ea er z) e | Stop _ _ z => e = z | Fail _ _ => False end ->
  begins o (l_hist (post g)) (l_hist e).
Proof.
  intros T I H. pose proof (post_tidy o p ea er s g T I) as TP. pose proof (exit_cases o p (post g)) as X. destruct (exit_check o p (post g)) as [z|c v z|ex z] eqn:E; [| |contradiction].
  - destruct (exit_next_hist o p _ _ E) as [k ->]. apply (mono o p ea er n (with_nrel (post g) k) e TP H).
  - destruct (exit_stop_hist o p _ _ _ _ E) as [E1 _]. subst e. rewrite E1. apply begins_refl, TP.
Qed.

Lemma part ea er fa fr k s s' g g' e e' : tidy s -> sized k s -> core s = core s' -> iter o p ea er s g -> iter o p fa fr s' g' ->
  begins o (l_hist (post g)) (l_hist e) -> begins o (l_hist (post g')) (l_hist e') -> c_thr (g_c g) <> c_thr (g_c g') ->
  part_at k (l_hist e) (l_hist e') (c_thr (g_c g)) (c_thr (g_c g')).
Proof.
  intros T Z C I I' B B' D. destruct (rows _ _ _ _ s s' g g' C I I') as (CS & A1 & A2 & A3 & A4 & _).
  pose proof (sized_safe k s T Z) as ZS. rewrite <- (it_s _ _ _ _ _ _ I) in CS, ZS. rewrite <- (it_s _ _ _ _ _ _ I') in CS.
  pose proof (sized_core k _ _ CS ZS) as ZS'. destruct (core_flight _ _ CS) as (F1 & F2 & F3 & F4 & F5 & F6 & F7).
  destruct ZS as [S1 S2 S3 S4 S5 S6 S7], ZS' as [U1 U2 U3 U4 U5 U6 U7].
  destruct B as (B1 & B2 & B3 & B4 & B5 & B6 & _ & _ & i & z & z1 & r & B9 & B10 & _).
  destruct B' as (D1 & D2 & D3 & D4 & D5 & D6 & _ & _ & i' & z' & z1' & r' & D9 & D10 & _).
  unfold post in B1, B2, B3, B4, B5, B6, B9, D1, D2, D3, D4, D5, D6, D9.
  cbn [l_hist push6 push3 h_Qs h_dQdts h_times h_states h_masses h_controls h_battery] in B1, B2, B3, B4, B5, B6, B9, D1, D2, D3, D4, D5, D6, D9.
  apply app_inj_tail in B9 as [<- _]. apply app_inj_tail in D9 as [<- _].
  split; [|split; [exact D|]].
  - repeat split.
    + rewrite (starts_firstn _ _ (S k) B1), (starts_firstn _ _ (S k) D1) by (rewrite app_length; lia). rewrite !firstn_app, S1, U1, Nat.sub_diag, F1. reflexivity.
    + rewrite B10, D10, !firstn_app, S2, U2, Nat.sub_diag, F2. reflexivity.
    + rewrite (starts_firstn _ _ (S k) B2), (starts_firstn _ _ (S k) D2) by (rewrite app_length; lia). rewrite !firstn_app, S3, U3, Nat.sub_diag, F3. reflexivity.
    + rewrite (starts_firstn _ _ (S k) B4), (starts_firstn _ _ (S k) D4) by (rewrite app_length; lia). rewrite !firstn_app, S4, U4, Nat.sub_diag, F4. reflexivity.
    + rewrite (starts_firstn _ _ k B3), (starts_firstn _ _ k D3) by (rewrite app_length; lia). rewrite !firstn_app, S5, U5, Nat.sub_diag, F5. reflexivity.
    + rewrite (starts_firstn _ _ (S k) B5), (starts_firstn _ _ (S k) D5) by (rewrite app_length; cbn; lia). rewrite A3, F6. reflexivity.
    + rewrite (starts_firstn _ _ (S k) B6), (starts_firstn _ _ (S k) D6) by (rewrite app_length; cbn; lia). rewrite A4, F7. reflexivity.
  - exists (g_al g), (g_be g). rewrite <- A1, <- A2 in D3. split; [apply (starts_nth _ _ _ _ B3)|apply (starts_nth _ _ _ _ D3)].
    + rewrite <- S5 at 1. apply nth_snoc.
    + rewrite <- U5 at 1. apply nth_snoc.
Qed.

Section Runs.
Variables (ea er fa fr : eta_arg N).
(** ends of two loops that went the same way *)
Definition alike (r r' : lres N) : Prop :=
  match r, r' with LEnd s, LEnd s' => core s = core s' | LStop c v s, LStop c' v' s' => c = c' /\ v = v' /\ core s = core s' | _, _ => False end.
(** a row at which the two control parts chose differently *)
Definition parted (a b : Z) : Prop := exists s pl acc c c', control o p ea er s pl acc = Ok (Ctl c) /\ control o p fa fr s pl acc = Ok (Ctl c') /\ c_thr c = a /\ c_thr c' = b.

Lemma two f1 : forall f2 k s s' e e', tidy s -> sized k s -> core s = core s' ->
  ended (loop f1 o p ea er s) e -> ended (loop f2 o p fa fr s') e' ->
  alike (loop f1 o p ea er s) (loop f2 o p fa fr s') \/ exists k a b, part_at k (l_hist e) (l_hist e') a b /\ parted a b.
Proof.
  induction f1 as [|f1 IH]; intros f2 k s s' e e' T Z C E E'.
  { cbn [loop] in *. destruct (guard p s) eqn:G; [destruct E as [E|(? & ? & E)]; discriminate|]. pose proof G as G'. rewrite (guard_core _ _ C) in G'. left.
    destruct f2; cbn [loop]; rewrite G'; exact C. }
  cbn [loop] in *. destruct (guard p s) eqn:G; pose proof G as G'; rewrite (guard_core _ _ C) in G'.
  2:{ left. destruct f2; cbn [loop]; rewrite G'; exact C. }
  destruct f2 as [|f2]; cbn [loop] in *; rewrite G' in *; [destruct E' as [E'|(? & ? & E')]; discriminate|].
  destruct (step_row ea er s _ eq_refl) as [(g & I & Eg)|(Eg & pl & P1 & P2)].
  { intros ex z F. rewrite F in E. destruct E as [E|(? & ? & E)]; discriminate. }
  - destruct (step_row fa fr s' _ eq_refl) as [(g' & I' & Eg')|(Eg' & pl' & P1' & P2')].
    { intros ex z F. rewrite F in E'. destruct E' as [E'|(? & ? & E')]; discriminate. }
    + rewrite Eg in *. rewrite Eg' in *.
      destruct (rows _ _ _ _ s s' g g' C I I') as (CS & _ & _ & _ & _ & CP).
      pose proof (post_tidy o p ea er s g T I) as TP.
      destruct (Z.eq_dec (c_thr (g_c g)) (c_thr (g_c g'))) as [Et|Nt].
      * specialize (CP Et). pose proof (exit_core _ _ CP) as X. destruct (exit_check o p (post g)) as [z|cd v z|ex z] eqn:Xg, (exit_check o p (post g')) as [z'|cd' v' z'|ex' z'] eqn:Xg'; try contradiction.
        -- destruct (exit_next_hist o p _ _ Xg) as [m Hm]. subst z. pose proof (sized_post k s g ea er T Z I) as [Q1 Q2 Q3 Q4 Q5 Q6 Q7].
           assert (ZN : sized (S k) (with_nrel (post g) m)) by (split; assumption).
           assert (TN : tidy (with_nrel (post g) m)) by exact TP. exact (IH f2 (S k) _ _ e e' TN ZN X E E').
        -- left. exact X.
        -- destruct E as [E|(? & ? & E)]; discriminate.
      * right. exists k, (c_thr (g_c g)), (c_thr (g_c g')). split.
        -- apply (part ea er fa fr k s s' g g'); try assumption.
           ++ apply (row_begins f1 ea er s); try assumption. destruct (exit_check o p (post g)) as [z|cd v z|ex z]; [exact E| |].
              ** destruct E as [E|(? & ? & E)]; [discriminate|]. injection E as _ _ <-. reflexivity.
              ** destruct E as [E|(? & ? & E)]; discriminate.
           ++ apply (row_begins f2 fa fr s'); try assumption; [apply (tidy_core s s' C T)|]. destruct (exit_check o p (post g')) as [z|cd v z|ex z]; [exact E'| |].
              ** destruct E' as [E'|(? & ? & E')]; [discriminate|]. injection E' as _ _ <-. reflexivity.
              ** destruct E' as [E'|(? & ? & E')]; discriminate.
        -- exists (g_s g), (g_pl g), (accel_thrust p (pl_dt (g_pl g)) (l_mass (g_s g))), (g_c g), (g_c g').
           rewrite <- (it_s _ _ _ _ _ _ I), <- (it_s _ _ _ _ _ _ I') in CS.
           assert (EP : g_pl g = g_pl g'). { pose proof (it_plan _ _ _ _ _ _ I) as A. pose proof (it_plan _ _ _ _ _ _ I') as A'. rewrite (plan_core _ _ CS), A' in A. injection A as ->. reflexivity. }
           assert (EM : l_mass (g_s g) = l_mass (g_s g')) by (change (l_mass (core (g_s g)) = l_mass (core (g_s g'))); rewrite CS; reflexivity).
           split; [exact (it_ctl _ _ _ _ _ _ I)|]. split; [|split; reflexivity].
           rewrite (control_core _ _ _ _ _ _ CS), EP, EM. exact (it_ctl _ _ _ _ _ _ I').
    + exfalso. destruct (it_plan _ _ _ _ _ _ I). pose proof (it_ctl _ _ _ _ _ _ I) as A. pose proof (it_plan _ _ _ _ _ _ I) as A0. rewrite (it_s _ _ _ _ _ _ I) in A, A0.
      assert (CS : core (safety o s) = core (safety o s')) by (rewrite !core_safety, C; reflexivity).
      rewrite (plan_core _ _ CS), P1' in A0. injection A0 as A0. rewrite <- A0 in A.
      assert (EM : l_mass (safety o s) = l_mass (safety o s')) by (change (l_mass (core (safety o s)) = l_mass (core (safety o s'))); rewrite CS; reflexivity).
      rewrite (control_core _ _ _ _ _ _ CS), EM in A. destruct (control_two _ _ _ _ _ _ _ _ _ A P2') as [[H _]|(c & c' & _ & H & _)]; discriminate.
  - destruct (step_row fa fr s' _ eq_refl) as [(g' & I' & Eg')|(Eg' & pl' & P1' & P2')].
    { intros ex z F. rewrite F in E'. destruct E' as [E'|(? & ? & E')]; discriminate. }
    + exfalso. pose proof (it_ctl _ _ _ _ _ _ I') as A. pose proof (it_plan _ _ _ _ _ _ I') as A0. rewrite (it_s _ _ _ _ _ _ I') in A, A0.
      assert (CS : core (safety o s) = core (safety o s')) by (rewrite !core_safety, C; reflexivity).
      rewrite (plan_core _ _ CS), A0 in P1. injection P1 as <-.
      assert (EM : l_mass (safety o s) = l_mass (safety o s')) by (change (l_mass (core (safety o s)) = l_mass (core (safety o s'))); rewrite CS; reflexivity).
      rewrite (control_core _ _ _ _ _ _ CS), EM in P2. destruct (control_two _ _ _ _ _ _ _ _ _ P2 A) as [[_ H]|(c & c' & H & _ & _)]; discriminate.
    + left. rewrite Eg, Eg'. cbn. split; [reflexivity|]. split; [reflexivity|]. rewrite !core_safety, C. reflexivity.
Qed.

Lemma sized_init : sized 0 (init_state p).
Proof. split; reflexivity. Qed.

Lemma C95_gen f1 f2 o1 h1 o2 h2 : ran f1 o ea er p o1 h1 -> ran f2 o fa fr p o2 h2 ->
  (same_flight h1 h2 /\ q_exitcode o1 = q_exitcode o2 /\ q_converge o1 = q_converge o2) \/ exists k a b, part_at k h1 h2 a b /\ parted a b.
Proof.
  intros R1 R2. destruct (ran_ended _ _ _ _ _ _ _ R1) as (s1 & E1 & G1). destruct (ran_ended _ _ _ _ _ _ _ R2) as (s2 & E2 & G2).
  destruct (two f1 f2 0%nat (init_state p) (init_state p) s1 s2 (tidy_init p) sized_init eq_refl E1 E2) as [A|A].
  - left. destruct R1 as (R1 & P1 & Q1), R2 as (R2 & P2 & Q2). unfold solve in R1, R2. rewrite P1 in R1. rewrite P2 in R2.
    assert (L1 : match loop f1 o p ea er (init_state p) with
      | LEnd s => Returns (finish o p (l_hist s) (q_converge o) (q_exitcode o)) | LStop code conv s => Returns (finish o p (l_hist s) (conv || q_converge o) code)
      | LFail e s => Raises e (with_run o (Some (with_oe0 p (l_hist s))) (Some (l_hist s)) (q_converge o) (q_exitcode o)) | LFuel _ => Running end = Returns o1)
      by (destruct ea; [exact R1|exact R1|discriminate]).
    assert (L2 : match loop f2 o p fa fr (init_state p) with
      | LEnd s => Returns (finish o p (l_hist s) (q_converge o) (q_exitcode o)) | LStop code conv s => Returns (finish o p (l_hist s) (conv || q_converge o) code)
      | LFail e s => Raises e (with_run o (Some (with_oe0 p (l_hist s))) (Some (l_hist s)) (q_converge o) (q_exitcode o)) | LFuel _ => Running end = Returns o2)
      by (destruct fa; [exact R2|exact R2|discriminate]).
    clear R1 R2. unfold alike in A. destruct (loop f1 o p ea er (init_state p)) as [x|c v x| |], (loop f2 o p fa fr (init_state p)) as [y|c' v' y| |]; try contradiction.
    + injection L1 as <-. injection L2 as <-. assert (h1 = l_hist x) by (injection Q1 as <-; reflexivity). assert (h2 = l_hist y) by (injection Q2 as <-; reflexivity). 
      split; [replace h1 with (l_hist x) by (symmetry; assumption); replace h2 with (l_hist y) by (symmetry; assumption); apply core_flight, A|]. split; reflexivity.
    + destruct A as (-> & -> & A). injection L1 as <-. injection L2 as <-. assert (h1 = l_hist x) by (injection Q1 as <-; reflexivity). assert (h2 = l_hist y) by (injection Q2 as <-; reflexivity). 
      split; [replace h1 with (l_hist x) by (symmetry; assumption); replace h2 with (l_hist y) by (symmetry; assumption); apply core_flight, A|]. split; reflexivity.
  - right. rewrite G1, G2. exact A.
Qed.
End Runs.
End Eta.

Section Order.
Context {N : Num}.
Variables (o : qlaw N) (p : problem N) (ea er fa fr : eta_arg N).
Lemma parted_order a b : stricter ea fa -> stricter er fr -> a <> b -> parted o p ea er fa fr a b -> a = 1%Z /\ b = 0%Z.
Proof.
  intros La Lr D (s & pl & acc & c & c' & E & E' & <- & <-). unfold control in E, E'. destruct (pl_duty pl).
  2:{ exfalso. apply D. destruct (lyap_call o p acc (l_oe s)) as [[[[[[al be] u] psi] q] qd]|]; [|discriminate]. injection E as <-. injection E' as <-. reflexivity. }
  destruct (lyap_call o p acc (l_oe s)) as [[[[[[al be] u] psi] q] qd]|]; [|discriminate]. cbn [bind] in E, E'.
  destruct (nisnan al || nisnan be).
  { exfalso. apply D. cbv zeta in E, E'. destruct (Z.ltb _ _); [discriminate|]. injection E as <-. injection E' as <-. reflexivity. }
  cbv zeta in E, E'.
  change (eta_now ea (l_t s) (l_oe s) (l_mass s) (l_batt s)) with (threshold_at ea (l_t s) (l_oe s) (l_mass s) (l_batt s)) in E.
  change (eta_now er (l_t s) (l_oe s) (l_mass s) (l_batt s)) with (threshold_at er (l_t s) (l_oe s) (l_mass s) (l_batt s)) in E.
  change (eta_now fa (l_t s) (l_oe s) (l_mass s) (l_batt s)) with (threshold_at fa (l_t s) (l_oe s) (l_mass s) (l_batt s)) in E'.
  change (eta_now fr (l_t s) (l_oe s) (l_mass s) (l_batt s)) with (threshold_at fr (l_t s) (l_oe s) (l_mass s) (l_batt s)) in E'.
  specialize (La (l_t s) (l_oe s) (l_mass s) (l_batt s)). specialize (Lr (l_t s) (l_oe s) (l_mass s) (l_batt s)).
  set (x := threshold_at ea _ _ _ _) in *. set (y := threshold_at er _ _ _ _) in *. set (x' := threshold_at fa _ _ _ _) in *. set (y' := threshold_at fr _ _ _ _) in *.
  assert (Lo : forall v w, nltb v x || nltb w y = true -> nltb v x' || nltb w y' = true).
  { intros v w H. apply orb_true_iff in H. apply orb_true_iff. destruct H; [left; apply La; assumption|right; apply Lr; assumption]. }
  destruct (evaluate_osculating_qdot o p (l_oe s) acc) as [[mn mx]|e]; cbn [bind] in E, E'.
  - destruct (nltb (nofZ 0) y || nltb (nofZ 0) x) eqn:G.
    + rewrite orb_comm in G. rewrite orb_comm, (Lo _ _ G) in E'. injection E as <-. injection E' as <-. cbn [c_thr] in *.
      destruct (nltb (nabs (qd / mn)%num) x || nltb (nabs ((qd - mx) / (mn - mx))%num) y) eqn:F.
      * exfalso. apply D. rewrite (Lo _ _ F). reflexivity.
      * destruct (nltb (nabs (qd / mn)%num) x' || nltb (nabs ((qd - mx) / (mn - mx))%num) y'); [auto|]. exfalso. apply D. reflexivity.
    + injection E as <-. cbn [c_thr] in *. destruct (nltb (nofZ 0) y' || nltb (nofZ 0) x') in E'; injection E' as <-; cbn [c_thr] in *.
      * destruct (_ || _) in D |- *; [auto|]. exfalso. apply D. reflexivity.
      * exfalso. apply D. reflexivity.
  - destruct (nltb (nofZ 0) y || nltb (nofZ 0) x); [discriminate|]. destruct (nltb (nofZ 0) y' || nltb (nofZ 0) x'); [discriminate|].
    injection E as <-. injection E' as <-. exfalso. apply D. reflexivity.
Qed.
Lemma C95_order_lem f1 f2 o1 h1 o2 h2 : stricter ea fa -> stricter er fr -> ran f1 o ea er p o1 h1 -> ran f2 o fa fr p o2 h2 ->
  (same_flight h1 h2 /\ q_exitcode o1 = q_exitcode o2 /\ q_converge o1 = q_converge o2) \/ exists k, part_at k h1 h2 1 0.
Proof.
  intros La Lr R1 R2. destruct (C95_gen o p ea er fa fr f1 f2 o1 h1 o2 h2 R1 R2) as [H|(k & a & b & H & P)]; [left; exact H|right].
  exists k. destruct (parted_order a b La Lr (proj1 (proj2 H)) P) as [-> ->]. exact H.
Qed.
Lemma thr01 ha hr s pl acc c : control o p ha hr s pl acc = Ok (Ctl c) -> c_thr c = 0%Z \/ c_thr c = 1%Z.
Proof.
  unfold control. destruct (pl_duty pl).
  2:{ destruct (lyap_call o p acc (l_oe s)) as [[[[[[al be] u] psi] q] qd]|]; [|discriminate]. intros E. injection E as <-. auto. }
  destruct (lyap_call o p acc (l_oe s)) as [[[[[[al be] u] psi] q] qd]|]; [|discriminate]. cbn [bind].
  destruct (nisnan al || nisnan be).
  { cbv zeta. destruct (Z.ltb _ _); [discriminate|]. intros E. injection E as <-. auto. }
  cbv zeta. destruct (_ || _).
  - destruct (evaluate_osculating_qdot o p (l_oe s) acc) as [[mn mx]|e]; [|discriminate]. cbn [bind]. intros E. injection E as <-. cbn [c_thr].
    destruct (_ || _); auto.
  - intros E. injection E as <-. auto.
Qed.
Lemma C95_lem f1 f2 o1 h1 o2 h2 : ran f1 o ea er p o1 h1 -> ran f2 o fa fr p o2 h2 ->
  (same_flight h1 h2 /\ q_exitcode o1 = q_exitcode o2 /\ q_converge o1 = q_converge o2) \/ exists k, part_at k h1 h2 1 0 \/ part_at k h1 h2 0 1.
Proof.
  intros R1 R2. destruct (C95_gen o p ea er fa fr f1 f2 o1 h1 o2 h2 R1 R2) as [H|(k & a & b & H & P)]; [left; exact H|right]. exists k.
  destruct P as (s & pl & acc & c & c' & E & E' & Ea & Eb). pose proof (proj1 (proj2 H)) as D.
  destruct (thr01 _ _ _ _ _ _ E) as [A|A]; destruct (thr01 _ _ _ _ _ _ E') as [B|B]; rewrite Ea in A; rewrite Eb in B; rewrite A, B in *; auto; exfalso; apply D; reflexivity.
Qed.
Lemma C95_idle_lem f1 f2 o1 h1 o2 h2 : idle ea -> idle er -> idle fa -> idle fr -> ran f1 o ea er p o1 h1 -> ran f2 o fa fr p o2 h2 ->
  same_flight h1 h2 /\ q_exitcode o1 = q_exitcode o2 /\ q_converge o1 = q_converge o2.
Proof.
  intros Ia Ir Ja Jr R1 R2. destruct (C95_gen o p ea er fa fr f1 f2 o1 h1 o2 h2 R1 R2) as [H|(k & a & b & H & P)]; [exact H|exfalso].
  apply (proj1 (proj2 H)). destruct P as (s & pl & acc & c & c' & E & E' & <- & <-). unfold control in E, E'. destruct (pl_duty pl).
  2:{ destruct (lyap_call o p acc (l_oe s)) as [[[[[[al be] u] psi] q] qd]|]; [|discriminate]. injection E as <-. injection E' as <-. reflexivity. }
  destruct (lyap_call o p acc (l_oe s)) as [[[[[[al be] u] psi] q] qd]|]; [|discriminate]. cbn [bind] in E, E'.
  destruct (nisnan al || nisnan be).
  { cbv zeta in E, E'. destruct (Z.ltb _ _); [discriminate|]. injection E as <-. injection E' as <-. reflexivity. }
  cbv zeta in E, E'. specialize (Ia (l_t s) (l_oe s) (l_mass s) (l_batt s)). specialize (Ir (l_t s) (l_oe s) (l_mass s) (l_batt s)).
  specialize (Ja (l_t s) (l_oe s) (l_mass s) (l_batt s)). specialize (Jr (l_t s) (l_oe s) (l_mass s) (l_batt s)).
  unfold threshold_at in *. unfold eta_now in *. rewrite Ia, Ir in E. rewrite Ja, Jr in E'. injection E as <-. injection E' as <-. reflexivity.
Qed.
End Order.

(** constants over the extended reals *)
Lemma C95_const_lem (a b : R) : (a <= b)%R -> stricter (N:=XNum) (EtaFloat (N:=XNum) (Fin a)) (EtaFloat (N:=XNum) (Fin b)).
Proof.
  intros L t oe m bt x H. cbn in H |- *. destruct x as [x| | |]; cbn in *; try discriminate; [|reflexivity]. apply Rltb_true in H. apply Rltb_true. lra.
Qed.
Lemma C95_nonpos_lem (a : R) : (a <= 0)%R -> idle (N:=XNum) (EtaFloat (N:=XNum) (Fin a)).
Proof. intros L t oe m bt. cbn. apply Rltb_false. lra. Qed.
