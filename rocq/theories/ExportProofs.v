(** Proofs about exported results (C65, C66). *)
From Coq Require Import Reals Lra Lia ZArith List Bool Psatz.
From Verif Require Import RMath RLib Num Base Elements Convergence Lyapunov Perturb Qlaw Export Spec RSpec GaussSpec ExportSpec
  SolveProofs ExitProofs ElemProofs.
Import ListNotations.
Local Open Scope R_scope.

(** ** Lists *)
Lemma item_some {A} (l : list A) i x : nth_error l i = Some x -> item l i = Ok x.
Proof. intros H. unfold item. rewrite H. reflexivity. Qed.
Lemma last_shift {A} (l : list A) a b : List.last (b :: l) a = List.last l b.
Proof.
  revert a b. induction l as [|c l IH]; intros a b; [reflexivity|].
  transitivity (List.last (c :: l) a); [reflexivity|]. rewrite (IH a c), (IH b c). reflexivity.
Qed.
Lemma last_item_some {A} (l : list A) : l <> [] -> exists x, last_item l = Ok x /\ nth_error l (length l - 1) = Some x.
Proof.
  destruct l as [|a l]; [congruence|]. intros _. exists (List.last l a). split; [reflexivity|].
  cbn [length]. replace (S (length l) - 1)%nat with (length l) by lia.
  revert a. induction l as [|b l IH]; intros a; [reflexivity|]. cbn [length nth_error]. rewrite last_shift. apply IH.
Qed.
Lemma mapM_inv {A B} (f : A -> Res B) l ys : mapM f l = Ok ys -> Forall2 (fun x y => f x = Ok y) l ys.
Proof.
  revert ys. induction l as [|x l IH]; cbn [mapM]; intros ys H.
  - inversion H. constructor.
  - destruct (f x) eqn:F; [|discriminate]. cbn [bind] in H. destruct (mapM f l); [|discriminate]. cbn [bind] in H.
    inversion H; subst. constructor; [exact F|]. apply IH. reflexivity.
Qed.
Lemma Forall2_nth {A B} (P : A -> B -> Prop) l m i x : Forall2 P l m -> nth_error l i = Some x ->
  exists y, nth_error m i = Some y /\ P x y.
Proof.
  intros F. revert i. induction F as [|a b l m H F IH]; intros [|i] E; try discriminate.
  - injection E as ->. exists b. split; [reflexivity|exact H].
  - apply IH, E.
Qed.
Lemma Forall2_len {A B} (P : A -> B -> Prop) l m : Forall2 P l m -> length l = length m.
Proof. induction 1; cbn; congruence. Qed.
Lemma mapM_item {A B} (f : A -> Res B) l n : length l = n ->
  mapM (fun i => do x <- item l i; f x) (seq 0 n) = mapM f l.
Proof.
  intros <-. enough (G : forall pre, mapM (fun i => do x <- item (pre ++ l) i; f x) (seq (length pre) (length l)) = mapM f l).
  { exact (G []). }
  induction l as [|a l IH]; intros pre; [reflexivity|]. cbn [length seq mapM].
  unfold item at 1. rewrite nth_error_app2 by lia. rewrite Nat.sub_diag. cbn [nth_error bind].
  destruct (f a); [|reflexivity]. cbn [bind].
  specialize (IH (pre ++ [a])). rewrite <- app_assoc in IH. cbn [app] in IH.
  rewrite app_length in IH. cbn [length] in IH. rewrite Nat.add_1_r in IH. rewrite IH. reflexivity.
Qed.
Lemma combine_nth {A B} (l : list A) (m : list B) i x y : nth_error l i = Some x -> nth_error m i = Some y ->
  nth_error (combine l m) i = Some (x, y).
Proof.
  revert m i. induction l as [|a l IH]; intros [|b m] [|i]; cbn; try discriminate.
  - congruence.
  - apply IH.
Qed.

(** ** The object after a run *)
Lemma ran_settings {N : Num} fuel (o : qlaw N) ea er p o' h : ran fuel o ea er p o' h ->
  q_etype o' = q_etype o /\ q_mu o' = q_mu o /\ q_tol o' = q_tol o.
Proof.
  intros (H & Hp & _). unfold solve in H. rewrite Hp in H.
  destruct ea; [| |discriminate]; destruct (loop _ _ _ _ _ _); inversion H; subst; repeat split.
Qed.

(** ** C65 *)
Lemma C65_lengths_lem (N : Num) fuel (o : qlaw N) ea er p o' h angles : ran fuel o ea er p o' h ->
  exists d, save_to_dict h angles = Ok d /\ sv_times d = h_times h /\
    length (sv_states d) = length (sv_times d) /\ length (sv_controls d) = length (sv_times d) /\
    nth_error (sv_times d) 0 = Some (sv_t0 d) /\ nth_error (sv_times d) (length (sv_times d) - 1) = Some (sv_tf d).
Proof.
  intros R. destruct (ran_lengths o p ea er _ _ _ R) as (n & T & S & M & _ & C & _).
  destruct (ran_first o p ea er _ _ _ R) as (T0 & _).
  destruct (last_item_some (h_times h)) as (tf & L & E); [intros E; rewrite E in T; discriminate|].
  unfold save_to_dict. rewrite L. cbn [bind]. eexists. split; [reflexivity|]. cbn [sv_times sv_states sv_controls sv_t0 sv_tf].
  split; [reflexivity|]. split; [rewrite map_length, combine_length; lia|].
  split; [unfold control_rows; rewrite map_length, app_length, map_length; cbn [length]; lia|]. split; assumption.
Qed.

Section Saved.
Variables (fuel : nat) (o : qlaw RNum) (ea er : eta_arg RNum) (p : problem RNum) (o' : qlaw RNum) (h : hist RNum).
Hypothesis R : ran fuel o ea er p o' h.

Lemma saved_state angles d i a f g hh k l m : save_to_dict (N:=RNum) h angles = Ok d ->
  nth_error (h_states h) i = Some (elems a f g hh k l) -> nth_error (h_masses h) i = Some m ->
  nth_error (sv_states d) i = Some [a * (1 - f * f - g * g); f; g; hh; k; l; m].
Proof.
  intros D S M. unfold save_to_dict in D. destruct (last_item (h_times h)) as [tf|] eqn:T; [|discriminate]. cbn [bind] in D.
  inversion D; subst; clear D. cbn [sv_states].
  rewrite (map_nth_error _ _ _ (combine_nth _ _ _ _ _ S M)). reflexivity.
Qed.
Lemma saved_control d i al be thr : save_to_dict (N:=RNum) h false = Ok d -> nth_error (h_controls h) i = Some (al, be, thr) ->
  nth_error (sv_controls d) i = Some [cos be * sin al; cos be * cos al; sin be; IZR thr].
Proof.
  intros D C. unfold save_to_dict in D. destruct (last_item (h_times h)) as [tf|] eqn:T; [|discriminate]. cbn [bind] in D.
  inversion D; subst; clear D. cbn [sv_controls].
  assert (E : nth_error (control_rows h) i = Some (al, be, IZR thr)).
  { unfold control_rows. rewrite nth_error_app1.
    - rewrite (map_nth_error _ _ _ C). reflexivity.
    - rewrite map_length. apply nth_error_Some. rewrite C. discriminate. }
  rewrite (map_nth_error _ _ _ E). reflexivity.
Qed.
Lemma saved_control_last d : save_to_dict (N:=RNum) h false = Ok d ->
  nth_error (sv_controls d) (length (h_controls h)) = Some [0; 1; 0; 0].
Proof.
  intros D. unfold save_to_dict in D. destruct (last_item (h_times h)) as [tf|] eqn:T; [|discriminate]. cbn [bind] in D.
  inversion D; subst; clear D. cbn [sv_controls].
  assert (E : nth_error (control_rows h) (length (h_controls h)) = Some (0, 0, 0)).
  { unfold control_rows. rewrite nth_error_app2 by (rewrite map_length; lia). rewrite map_length, Nat.sub_diag. reflexivity. }
  rewrite (map_nth_error _ _ _ E). change (Some [cos 0 * sin 0; cos 0 * cos 0; sin 0; 0] = Some [0; 1; 0; 0]).
  rewrite cos_0, sin_0, Rmult_0_r, Rmult_1_r. reflexivity.
Qed.
End Saved.

Lemma times_over (x y : R) : y <> 0 -> x * y / y = x.
Proof. intros. field. assumption. Qed.
Lemma C65_mee_lem fuel (o : qlaw RNum) ea er p o' h angles d i st m :
  ran fuel o ea er p o' h -> q_etype o = MeeWithA -> save_to_dict (N:=RNum) h angles = Ok d ->
  nth_error (h_states h) i = Some st -> nth_error (h_masses h) i = Some m -> elliptic MeeWithA st ->
  exists q f g hh k l, nth_error (sv_states d) i = Some [q; f; g; hh; k; l; m] /\
    mee_p_cart (q_mu o) (elems q f g hh k l) = Ok (cart_state MeeWithA (q_mu o) st).
Proof.
  intros R _ D S M E. destruct st as [a f g hh k l]. exists (a * (1 - f * f - g * g)), f, g, hh, k, l.
  split; [exact (saved_state h angles d i a f g hh k l m D S M)|].
  cbn in E. unfold mee_p_cart, elems. cbv beta iota. rewrite (times_over a (1 - f * f - g * g)); [reflexivity|]. intros Z. destruct E as [_ E]. apply (Rlt_irrefl 1).
  replace 1 with (f * f + g * g) at 1; [exact E|]. symmetry. apply Rminus_diag_uniq. rewrite <- Z. unfold Rminus. rewrite Ropp_plus_distr. symmetry; apply Rplus_assoc.
Qed.
Lemma C65_controls_lem fuel (o : qlaw RNum) ea er p o' h d : ran fuel o ea er p o' h -> save_to_dict (N:=RNum) h false = Ok d ->
  (forall i al be thr, nth_error (h_controls h) i = Some (al, be, thr) ->
     exists ur ut un, nth_error (sv_controls d) i = Some [ur; ut; un; IZR thr] /\ ur * ur + ut * ut + un * un = 1 /\
       ur = cos be * sin al /\ ut = cos be * cos al /\ un = sin be) /\
  nth_error (sv_controls d) (length (h_controls h)) = Some [0; 1; 0; 0].
Proof.
  intros R D. split; [|exact (saved_control_last h d D)]. intros i al be thr C.
  exists (cos be * sin al), (cos be * cos al), (sin be). split; [exact (saved_control h d i al be thr D C)|]. repeat split.
  pose proof (sin2_cos2 al) as A. pose proof (sin2_cos2 be) as B. unfold Rsqr in *. nra.
Qed.
Lemma C65_angles_lem (N : Num) fuel (o : qlaw N) ea er p o' h d : ran fuel o ea er p o' h -> save_to_dict h true = Ok d ->
  (forall i al be thr, nth_error (h_controls h) i = Some (al, be, thr) -> nth_error (sv_controls d) i = Some [al; be; nofZ thr]) /\
  nth_error (sv_controls d) (length (h_controls h)) = Some [nofZ 0; nofZ 0; nofZ 0].
Proof.
  intros _ D. unfold save_to_dict in D. destruct (last_item (h_times h)) as [tf|] eqn:T; [|discriminate]. cbn [bind] in D.
  inversion D; subst; clear D. cbn [sv_controls]. split.
  - intros i al be thr C. assert (E : nth_error (control_rows h) i = Some (al, be, nofZ thr)).
    { unfold control_rows. rewrite nth_error_app1.
      - rewrite (map_nth_error _ _ _ C). reflexivity.
      - rewrite map_length. apply nth_error_Some. rewrite C. discriminate. }
    rewrite (map_nth_error _ _ _ E). reflexivity.
  - assert (E : nth_error (control_rows h) (length (h_controls h)) = Some (nofZ 0, nofZ 0, nofZ 0)).
    { unfold control_rows. rewrite nth_error_app2 by (rewrite map_length; lia). rewrite map_length, Nat.sub_diag. reflexivity. }
    rewrite (map_nth_error _ _ _ E). reflexivity.
Qed.
(** Keplerian states are written through the equinoctial formula. *)
Lemma C65_kep_lem fuel (o : qlaw RNum) ea er p o' h angles d i a e inc raan om ta m :
  ran fuel o ea er p o' h -> q_etype o = Keplerian -> save_to_dict (N:=RNum) h angles = Ok d ->
  nth_error (h_states h) i = Some (elems a e inc raan om ta) -> nth_error (h_masses h) i = Some m ->
  nth_error (sv_states d) i = Some [a * (1 - e * e - inc * inc); e; inc; raan; om; ta; m] /\
  (a <> 0 -> inc <> 0 -> a * (1 - e * e - inc * inc) <> a * (1 - e * e)).
Proof.
  intros R _ D S M. split; [exact (saved_state h angles d i a e inc raan om ta m D S M)|]. intros Ha Hi E.
  assert (a * (inc * inc) = 0) by lra. apply Rmult_integral in H as [H|H]; [auto|]. apply Rmult_integral in H as [H|H]; auto.
Qed.

(** ** C66 *)
Lemma cart_ok (o : qlaw RNum) st : 0 < q_mu o -> elliptic (q_etype o) st ->
  exists c, to_cartesian (N:=RNum) o st = Ok c /\
    (faithful (q_etype o) st -> c = cart_state (q_etype o) (q_mu o) st) /\ (~ faithful (q_etype o) st -> c <> cart_state (q_etype o) (q_mu o) st).
Proof.
  intros Hmu E. unfold to_cartesian. destruct st as [a x y z w l], (q_etype o); cbn in E |- *.
  - eexists. split; [apply kep2sv_closed; tauto|]. split; [reflexivity|tauto].
  - destruct (C50_pos a x y z w l (q_mu o)) as (s & H1 & H2 & H3); try tauto.
    exists s. split; [exact H1|]. split; assumption.
Qed.
Lemma C66_columns_lem fuel (o : qlaw RNum) ea er p o' h : ran fuel o ea er p o' h -> 0 < q_mu o ->
  (forall st, In st (h_states h) -> elliptic (q_etype o) st) ->
  exists cols, get_cartesian_history (N:=RNum) o' h = Ok cols /\ length cols = length (h_times h) /\
    forall i st, nth_error (h_states h) i = Some st -> exists c, nth_error cols i = Some c /\
      (faithful (q_etype o) st -> c = cart_state (q_etype o) (q_mu o) st) /\
      (~ faithful (q_etype o) st -> c <> cart_state (q_etype o) (q_mu o) st).
Proof.
  intros R Hmu E. destruct (ran_lengths o p ea er _ _ _ R) as (n & T & S & _).
  destruct (ran_settings _ _ _ _ _ _ _ R) as (Et & Em & _).
  unfold get_cartesian_history. rewrite mapM_item by lia. rewrite <- Et, <- Em in *.
  assert (X : exists cols, mapM (to_cartesian (N:=RNum) o') (h_states h) = Ok cols).
  { clear T S R. induction (h_states h) as [|st l IH]; [eexists; reflexivity|]. cbn [mapM].
    destruct (cart_ok o' st Hmu) as (c & -> & _); [apply E; left; reflexivity|]. cbn [bind].
    destruct IH as (cs & ->); [intros; apply E; right; assumption|]. eexists. reflexivity. }
  destruct X as (cols & X). exists cols. split; [exact X|]. apply mapM_inv in X.
  split; [rewrite <- (Forall2_len _ _ _ X); lia|]. intros i st Hi.
  destruct (Forall2_nth _ _ _ _ _ X Hi) as (c & Hc & K). exists c. split; [exact Hc|].
  destruct (cart_ok o' st Hmu) as (c' & K' & F1 & F2); [apply E, (nth_error_In _ _ Hi)|].
  rewrite K in K'. inversion K'; subst. split; assumption.
Qed.

Lemma C66_steps_any_lem (N : Num) round (tf : car) n : default_steps (N:=N) round tf = Ok n -> (0 <= n <= 8000)%Z.
Proof. unfold default_steps. destruct (round _); [|discriminate]. cbn [bind]. intros H. inversion H. lia. Qed.
Lemma abs_IZR z : IZR (Z.abs z) = Rabs (IZR z).
Proof. apply abs_IZR. Qed.
Lemma C66_steps_lem round tf : nearest round -> exists n, default_steps (N:=RNum) round tf = Ok n /\
  (Rabs tf < 1 / 200 -> n = 0%Z) /\ (1 / 200 < Rabs tf -> (0 < n)%Z) /\
  (Rabs tf < 80 - 1 / 200 -> Rabs (IZR n - 100 * Rabs tf) <= 1 / 2).
Proof.
  intros H. unfold default_steps.
  change (ndiv (Num:=RNum) tf (dec (N:=RNum) 1 2)) with (tf / (1 / 100)).
  replace (tf / (1 / 100)) with (100 * tf) by field. destruct (H (100 * tf)) as (z & -> & Hz). cbn [bind].
  exists (Z.min 8000 (Z.abs z)). split; [reflexivity|].
  assert (B : Rabs (IZR (Z.abs z) - 100 * Rabs tf) <= 1 / 2).
  { rewrite abs_IZR. replace (100 * Rabs tf) with (Rabs (100 * tf)) by (rewrite Rabs_mult, (Rabs_pos_eq 100); lra).
    eapply Rle_trans; [apply Rabs_triang_inv2|exact Hz]. }
  set (y := Z.abs z) in *. assert (P : (0 <= y)%Z) by (unfold y; lia). clearbody y.
  pose proof (Rle_abs (IZR y - 100 * Rabs tf)) as U. pose proof (Rle_abs (- (IZR y - 100 * Rabs tf))) as L. rewrite Rabs_Ropp in L.
  pose proof (Rabs_pos tf) as A. split; [|split]; intros Ht.
  - assert (IZR y < 1) by lra. assert (y < 1)%Z by (apply lt_IZR; assumption). lia.
  - assert (0 < IZR y) by lra. assert (0 < y)%Z by (apply lt_IZR; assumption). lia.
  - assert (IZR y < 8001) by lra. assert (y < 8001)%Z by (apply lt_IZR; assumption).
    rewrite Z.min_r by lia. exact B.
Qed.

(** interpolated history *)
Lemma linspace_len {N : Num} (a b : car) n : length (linspace a b n) = n.
Proof.
  unfold linspace. destruct n as [|[|n]]; try reflexivity. rewrite app_length, map_length, seq_length. cbn [length]. lia.
Qed.
Lemma linspace_first {N : Num} (a b : car) n : (2 <= n)%nat -> exists s, nth_error (linspace a b n) 0 = Some (nadd a (nmul (nofZ 0) s)).
Proof. intros H. destruct n as [|[|n]]; try lia. cbn. eexists. reflexivity. Qed.
Lemma linspace_last {N : Num} (a b : car) n : (2 <= n)%nat -> nth_error (linspace a b n) (n - 1) = Some b.
Proof.
  intros H. destruct n as [|[|n]]; try lia. unfold linspace. replace (S (S n) - 1)%nat with (S n) by lia.
  rewrite nth_error_app2; rewrite map_length, seq_length; [|lia]. rewrite Nat.sub_diag. reflexivity.
Qed.
Lemma nth_states (h : hist RNum) i st : nth_error (h_states h) i = Some st ->
  nth_error (map (v6_0 (N:=RNum)) (h_states h)) i = Some (v6_0 st) /\ nth_error (map (v6_1 (N:=RNum)) (h_states h)) i = Some (v6_1 st) /\
  nth_error (map (v6_2 (N:=RNum)) (h_states h)) i = Some (v6_2 st) /\ nth_error (map (v6_3 (N:=RNum)) (h_states h)) i = Some (v6_3 st) /\
  nth_error (map (v6_4 (N:=RNum)) (h_states h)) i = Some (v6_4 st) /\ nth_error (map (v6_5 (N:=RNum)) (h_states h)) i = Some (v6_5 st).
Proof. intros H. repeat split; apply (map_nth_error _ _ _ H). Qed.
Lemma interp_nodes (interp1d : interp_fn (N:=RNum)) h f :
  (forall xs ys fn, interp1d xs ys = Ok fn -> through xs ys fn) -> interpolate_states (N:=RNum) interp1d h = Ok f ->
  forall i t st, nth_error (h_times h) i = Some t -> nth_error (h_states h) i = Some st -> f t = Ok st.
Proof.
  intros I F i t st T S. unfold interpolate_states in F. destruct (nth_states h i st S) as (S0 & S1 & S2 & S3 & S4 & S5).
  destruct (interp1d (h_times h) (map v6_0 (h_states h))) as [f0|] eqn:E0; [|discriminate]. cbn [bind] in F.
  destruct (interp1d (h_times h) (map v6_1 (h_states h))) as [f1|] eqn:E1; [|discriminate]. cbn [bind] in F.
  destruct (interp1d (h_times h) (map v6_2 (h_states h))) as [f2|] eqn:E2; [|discriminate]. cbn [bind] in F.
  destruct (interp1d (h_times h) (map v6_3 (h_states h))) as [f3|] eqn:E3; [|discriminate]. cbn [bind] in F.
  destruct (interp1d (h_times h) (map v6_4 (h_states h))) as [f4|] eqn:E4; [|discriminate]. cbn [bind] in F.
  destruct (interp1d (h_times h) (map v6_5 (h_states h))) as [f5|] eqn:E5; [|discriminate]. cbn [bind] in F.
  injection F as <-.
  rewrite (I _ _ _ E0 i t _ T S0), (I _ _ _ E1 i t _ T S1), (I _ _ _ E2 i t _ T S2), (I _ _ _ E3 i t _ T S3), (I _ _ _ E4 i t _ T S4), (I _ _ _ E5 i t _ T S5).
  cbn [bind]. destruct st; reflexivity.
Qed.
Lemma C66_interp_lem fuel (o : qlaw RNum) ea er p o' h (interp1d : interp_fn (N:=RNum)) round steps cart tev :
  ran fuel o ea er p o' h -> (forall xs ys fn, interp1d xs ys = Ok fn -> through xs ys fn) ->
  get_cartesian_history_interp (N:=RNum) interp1d round steps o' h = Ok (cart, tev) ->
  exists n tf, nth_error (h_times h) (length (h_times h) - 1) = Some tf /\
    (match steps with Some k => k = Z.of_nat n | None => default_steps (N:=RNum) round tf = Ok (Z.of_nat n) end) /\
    length cart = n /\ length tev = n /\
    ((2 <= n)%nat -> nth_error tev 0 = Some 0 /\ nth_error tev (n - 1) = Some tf /\
      (forall st, nth_error (h_states h) 0 = Some st -> exists c, nth_error cart 0 = Some c /\ to_cartesian (N:=RNum) o' st = Ok c) /\
      (forall st, nth_error (h_states h) (length (h_times h) - 1) = Some st -> exists c, nth_error cart (n - 1) = Some c /\ to_cartesian (N:=RNum) o' st = Ok c)).
Proof.
  intros R I G. destruct (ran_lengths o p ea er _ _ _ R) as (m & T & S & _).
  destruct (ran_first o p ea er _ _ _ R) as (T0 & _).
  destruct (last_item_some (h_times h)) as (tf & L & E); [intros E; rewrite E in T; discriminate|].
  unfold get_cartesian_history_interp in G. destruct (interpolate_states interp1d h) as [f|] eqn:F; [|discriminate].
  cbn [bind] in G. rewrite L in G. cbn [bind] in G.
  destruct (match steps with None => default_steps (N:=RNum) round tf | Some n => Ok n end) as [n|] eqn:K; [|discriminate]. cbn [bind] in G.
  rewrite (item_some _ _ _ T0) in G. cbn [bind] in G. destruct (Z.ltb_spec n 0) as [|P]; [discriminate|].
  destruct (mapM _ _) as [c|] eqn:M in G; [|discriminate]. cbn [bind] in G. injection G as -> <-.
  pose proof (mapM_inv _ _ _ M) as M2. pose proof (interp_nodes _ _ _ I F) as Nd.
  exists (Z.to_nat n), tf. split; [exact E|]. rewrite Z2Nat.id by exact P.
  split; [destruct steps; [injection K as ->; reflexivity|exact K]|].
  split; [rewrite <- (Forall2_len _ _ _ M2); apply linspace_len|]. split; [apply linspace_len|].
  intros N2. destruct (linspace_first (N:=RNum) (nofZ (Num:=RNum) 0) tf _ N2) as (s & Hs).
  assert (Hs' : nth_error (linspace (N:=RNum) (nofZ (Num:=RNum) 0) tf (Z.to_nat n)) 0 = Some 0).
  { rewrite Hs. f_equal. cbn. ring. }
  pose proof (linspace_last (N:=RNum) (nofZ (Num:=RNum) 0) tf _ N2) as Hl.
  split; [exact Hs'|]. split; [exact Hl|]. split; intros st Hst.
  - destruct (Forall2_nth _ _ _ _ _ M2 Hs') as (c & Hc & Q). exists c. split; [exact Hc|].
    pose proof (Nd _ _ _ T0 Hst : f 0 = Ok st) as X. cbv beta in Q. rewrite X in Q. exact Q.
  - destruct (Forall2_nth _ _ _ _ _ M2 Hl) as (c & Hc & Q). exists c. split; [exact Hc|].
    rewrite (Nd _ _ _ E Hst) in Q. exact Q.
Qed.
