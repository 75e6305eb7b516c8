(** Proofs about the plotted data (C69 - C72). *)
From Coq Require Import Reals Lra Lia ZArith List Bool Psatz.
From Verif Require Import RMath RLib Num Base Elements Convergence Lyapunov Perturb PlotHelper Qlaw Export PlotMethods Spec RSpec GaussSpec ExportSpec
  SolveProofs ExitProofs ElemProofs ExportProofs.
Import ListNotations.

Lemma removelast_len {A} (l : list A) n : length l = S n -> length (removelast l) = n.
Proof.
  intros H. destruct (exists_last (l:=l)) as (l' & x & ->); [intros ->; discriminate|].
  rewrite removelast_last. rewrite app_length in H. cbn in H. lia.
Qed.
Lemma removelast_nth {A} (l : list A) k x : (S k < length l)%nat -> nth_error l k = Some x -> nth_error (removelast l) k = Some x.
Proof.
  intros H E. destruct (exists_last (l:=l)) as (l' & y & ->); [intros ->; cbn in H; lia|].
  rewrite removelast_last. rewrite app_length in H. cbn in H. rewrite nth_error_app1 in E by lia. exact E.
Qed.

Section Any.
Context {N : Num}.
Lemma line_ok (xs ys : list car) : length xs = length ys -> line xs ys = Ok (Line xs ys).
Proof. intros H. unfold line. rewrite H, Nat.eqb_refl. reflexivity. Qed.
Lemma steps_ok (xs ys : list car) : length xs = length ys -> steps xs ys = Ok (Steps xs ys).
Proof. intros H. unfold steps. rewrite H, Nat.eqb_refl. reflexivity. Qed.

Lemma scaled_nth TU (l : list car) k t : nth_error l k = Some t -> nth_error (scaled TU l) k = Some (nmul t TU).
Proof. intros H. exact (map_nth_error (fun x => nmul x TU) k l H). Qed.
End Any.

Section Run.
Context {N : Num}.
Variables (fuel : nat) (o : qlaw N) (ea er : eta_arg N) (p : problem N) (o' : qlaw N) (h : hist N).
Hypothesis R : ran fuel o ea er p o' h.

Ltac sizes := let n' := fresh in let T' := fresh in
  destruct (ran_lengths o p ea er _ _ _ R) as (n' & T' & ? & ? & ? & ? & ? & ? & ? & ?);
  unfold scaled, degrees; rewrite ?map_length, ?(removelast_len _ _ T'); congruence.

Lemma battery_plot TU BU : exists c, plot_battery_history p h TU BU = Ok [c; Level (nmul (p_cap_lo p) BU); Level (nmul (p_cap_hi p) BU)] /\
  samples c (length (h_times h)) /\
  forall k t b, nth_error (h_times h) k = Some t -> nth_error (h_battery h) k = Some b -> sample c k (nmul t TU) (nmul b BU).
Proof.
  unfold plot_battery_history. rewrite line_ok by sizes. cbn [bind]. eexists. split; [reflexivity|]. split.
  - cbn. split; sizes.
  - intros k t b Ht Hb. split; [exact (map_nth_error _ _ _ Ht)|exact (map_nth_error _ _ _ Hb)].
Qed.
Lemma Q_plot TU : exists cq cd, plot_Q h TU = Ok [cq; cd] /\ samples cq (length (h_controls h)) /\ samples cd (length (h_controls h)) /\
  forall k t q d, nth_error (h_times h) k = Some t -> nth_error (h_Qs h) k = Some q -> nth_error (h_dQdts h) k = Some d ->
    sample cq k (nmul t TU) q /\ sample cd k (nmul t TU) d.
Proof.
  unfold plot_Q. rewrite (steps_ok _ (h_Qs h)) by sizes. cbn [bind]. rewrite (steps_ok _ (h_dQdts h)) by sizes. cbn [bind].
  eexists _, _. split; [reflexivity|]. split; [cbn; split; sizes|]. split; [cbn; split; sizes|].
  intros k t q d Ht Hq Hd. destruct (ran_lengths o p ea er _ _ _ R) as (n & T & S & M & B & C & E & Bd & Q & D).
  assert (K : nth_error (scaled TU (removelast (h_times h))) k = Some (nmul t TU)).
  { apply scaled_nth, removelast_nth; [|exact Ht]. rewrite T. rewrite <- Nat.succ_lt_mono.
    rewrite <- Q. apply nth_error_Some. rewrite Hq. discriminate. }
  split; split; assumption.
Qed.
Lemma efficiency_plot TU : (0 < length (h_controls h))%nat -> exists c1 c2 c3 c4, plot_efficiency h TU = Ok [c1; c2; c3; c4] /\
  forall k t ea_k er_k ba br, nth_error (h_times h) k = Some t -> nth_error (h_etas h) k = Some (ea_k, er_k) ->
    nth_error (h_bounds h) k = Some (ba, br) ->
    sample c1 k (nmul t TU) ea_k /\ sample c2 k (nmul t TU) ba /\ sample c3 k (nmul t TU) er_k /\ sample c4 k (nmul t TU) br.
Proof.
  intros P. destruct (ran_lengths o p ea er _ _ _ R) as (n & T & S & M & B & C & E & Bd & Q & D).
  assert (CE : forall f : car * car -> car, column f (h_etas h) = Ok (map f (h_etas h))).
  { intros f. unfold column. destruct (h_etas h); [cbn in E; lia|reflexivity]. }
  assert (CB : forall f : car * car -> car, column f (h_bounds h) = Ok (map f (h_bounds h))).
  { intros f. unfold column. destruct (h_bounds h); [cbn in Bd; lia|reflexivity]. }
  unfold plot_efficiency. rewrite !CE, !CB. cbn [bind].
  rewrite (line_ok _ (map fst (h_etas h))) by sizes. cbn [bind]. rewrite (line_ok _ (map fst (h_bounds h))) by sizes. cbn [bind].
  rewrite (line_ok _ (map snd (h_etas h))) by sizes. cbn [bind]. rewrite (line_ok _ (map snd (h_bounds h))) by sizes. cbn [bind].
  eexists _, _, _, _. split; [reflexivity|]. intros k t x y u v Ht He Hb.
  assert (K : nth_error (scaled TU (removelast (h_times h))) k = Some (nmul t TU)).
  { apply scaled_nth, removelast_nth; [|exact Ht]. rewrite T. rewrite <- Nat.succ_lt_mono.
    rewrite <- E. apply nth_error_Some. rewrite He. discriminate. }
  repeat split; try exact K; try exact (map_nth_error _ _ _ He); exact (map_nth_error _ _ _ Hb).
Qed.
Lemma efficiency_empty TU : length (h_controls h) = 0%nat -> plot_efficiency h TU = Err IndexError.
Proof.
  intros P. destruct (ran_lengths o p ea er _ _ _ R) as (n & T & S & M & B & C & E & Bd & Q & D).
  unfold plot_efficiency. destruct (h_etas h); [reflexivity|cbn in E; lia].
Qed.
Lemma controls_plot TU an : exists first ca cb ct, plot_controls h TU an = Ok (first ++ [ca; cb; ct]) /\
  (an = true -> exists c, first = [c] /\ samples c (length (h_times h))) /\
  samples ca (length (h_controls h)) /\ samples cb (length (h_controls h)) /\ samples ct (length (h_controls h)) /\
  forall k t al be thr, nth_error (h_times h) k = Some t -> nth_error (h_controls h) k = Some (al, be, thr) ->
    sample ca k (nmul t TU) (ndiv (nmul al (nofZ 180)) npi) /\ sample cb k (nmul t TU) (ndiv (nmul be (nofZ 180)) npi) /\
    sample ct k (nmul t TU) (nmul (nofZ thr) (nofZ 100)).
Proof.
  unfold plot_controls.
  assert (X : exists first, (if an then do l <- line (scaled TU (h_times h)) (degrees (map (fun v => wrap (v6_5 v)) (h_states h))); Ok [l] else Ok []) = Ok first /\
     (an = true -> exists c, first = [c] /\ samples c (length (h_times h)))).
  { destruct an; [|exists []; split; [reflexivity|discriminate]]. rewrite line_ok by sizes. cbn [bind]. eexists. split; [reflexivity|].
    intros _. eexists. split; [reflexivity|]. cbn. split; sizes. }
  destruct X as (first & -> & F). cbn [bind].
  rewrite (steps_ok _ (degrees (map (fun c => fst (fst c)) (h_controls h)))) by sizes. cbn [bind].
  rewrite (steps_ok _ (degrees (map (fun c => snd (fst c)) (h_controls h)))) by sizes. cbn [bind].
  rewrite (steps_ok _ (map (fun c => nmul (nofZ (snd c)) (nofZ 100)) (h_controls h))) by sizes. cbn [bind].
  eexists first, _, _, _. split; [reflexivity|]. split; [exact F|].
  split; [cbn; split; sizes|]. split; [cbn; split; sizes|]. split; [cbn; split; sizes|].
  intros k t al be thr Ht Hc. destruct (ran_lengths o p ea er _ _ _ R) as (n & T & S & M & B & C & E & Bd & Q & D).
  assert (K : nth_error (scaled TU (removelast (h_times h))) k = Some (nmul t TU)).
  { apply scaled_nth, removelast_nth; [|exact Ht]. rewrite T. rewrite <- Nat.succ_lt_mono.
    rewrite <- C. apply nth_error_Some. rewrite Hc. discriminate. }
  unfold degrees. rewrite !map_map. repeat split; try exact K; exact (map_nth_error _ _ _ Hc).
Qed.
End Run.

(** ** C71: what the step curves show *)
From Verif Require Import XSpec XTrace XProofs XSolve.
Local Open Scope R_scope.
Definition rising (l : list R) : Prop := forall i x y, nth_error l i = Some x -> nth_error l (S i) = Some y -> x < y.
Lemma rising_tl x l : rising (x :: l) -> rising l.
Proof. intros H i. exact (H (S i)). Qed.
Lemma rising_le l x k a : rising (x :: l) -> nth_error (x :: l) k = Some a -> x <= a.
Proof.
  revert x l a. induction k as [|k IH]; intros x l a H E; [injection E as ->; lra|].
  destruct l as [|y l]; [destruct k; discriminate|]. pose proof (H 0%nat x y eq_refl eq_refl) as L.
  pose proof (IH y l a (rising_tl _ _ H) E). lra.
Qed.
Lemma xltb_F a b : nltb (Num:=XNum) (Fin a) (Fin b) = Rltb a b. Proof. reflexivity. Qed.
Lemma xleb_F a b : nleb (Num:=XNum) (Fin a) (Fin b) = Rleb a b. Proof. exact (XTrace.xleb_fin a b). Qed.
Lemma step_pre_next prev xs ys k a b y t : rising xs -> nth_error xs k = Some a -> nth_error xs (S k) = Some b ->
  nth_error ys (S k) = Some y -> a < t <= b ->
  step_pre (N:=XNum) prev (map Fin xs) ys (Fin t) = Some y.
Proof.
  revert prev xs ys. induction k as [|k IH]; intros prev xs ys Rs Ea Eb Ey Ht.
  - destruct xs as [|x [|x2 xs]]; try discriminate. injection Ea as ->. injection Eb as ->.
    destruct ys as [|y0 [|y1 ys]]; try discriminate. injection Ey as ->. cbn [map step_pre].
    rewrite ?xleb_F.
    rewrite (proj2 (Rleb_false t a)) by lra. rewrite andb_false_r. rewrite xltb_F.
    rewrite ?xleb_F.
    rewrite (proj2 (Rltb_true a t)), (proj2 (Rleb_true t b)) by lra. reflexivity.
  - destruct xs as [|x xs]; [discriminate|]. destruct ys as [|y0 ys]; [discriminate|]. cbn [map step_pre].
    pose proof (rising_le _ _ _ _ Rs Ea) as L.
    rewrite ?xleb_F.
    rewrite (proj2 (Rleb_false t x)) by lra. rewrite andb_false_r.
    apply IH; try assumption. exact (rising_tl _ _ Rs).
Qed.
Lemma step_pre_after prev xs ys t : (forall x, In x xs -> x < t) -> step_pre (N:=XNum) prev (map Fin xs) ys (Fin t) = None.
Proof.
  revert prev ys. induction xs as [|x xs IH]; intros prev ys H; [reflexivity|]. destruct ys as [|y ys]; [reflexivity|]. cbn [map step_pre].
  rewrite ?xleb_F.
  pose proof (H x (or_introl eq_refl)). rewrite (proj2 (Rleb_false t x)) by lra. rewrite andb_false_r. apply IH. intros z Hz. apply H. right. exact Hz.
Qed.

Definition real_of (x : ereal) : R := match x with Fin r => r | _ => 0 end.
Lemma ran_times (o : qlaw XNum) p ea er a fuel o' h : regular o p a -> ran fuel o ea er p o' h -> 0 < a_ts a ->
  exists rs, h_times h = map Fin rs /\ rising rs.
Proof.
  intros Hreg R Hts. exists (map real_of (h_times h)).
  destruct (ran_lengths o p ea er _ _ _ R) as (n & T & _ & _ & _ & C & _).
  pose proof (C12_lem o p ea er a Hreg _ _ _ R Hts) as G. rewrite C in G.
  assert (F : forall k, (k < length (h_times h))%nat -> exists t, nth_error (h_times h) k = Some (Fin t)).
  { intros k Hk. destruct (Nat.lt_ge_cases k n) as [K|K].
    - destruct (G k K) as (t & t' & E & _). exists t. exact E.
    - replace k with n by lia. destruct n as [|n].
      + destruct (ran_first o p ea er _ _ _ R) as (T0 & _). exists 0. exact T0.
      + destruct (G n ltac:(lia)) as (t & t' & _ & E & _). exists t'. exact E. }
  split.
  - clear -F. revert F. generalize (h_times h). intros l. induction l as [|x l IH]; intros F; [reflexivity|]. cbn [map]. f_equal.
    + destruct (F 0%nat ltac:(cbn; lia)) as (t & E). injection E as ->. reflexivity.
    + apply IH. intros k Hk. apply (F (S k)). apply -> Nat.succ_lt_mono. exact Hk.
  - intros i x y Hx Hy. assert (K : (S i < length (h_times h))%nat).
    { rewrite <- (map_length real_of). apply nth_error_Some. rewrite Hy. discriminate. }
    destruct (G i ltac:(lia)) as (t & t' & E & E' & _ & L & _).
    rewrite (map_nth_error real_of _ _ E) in Hx. rewrite (map_nth_error real_of _ _ E') in Hy. injection Hx as <-. injection Hy as <-. exact (proj1 L).
Qed.
Lemma rising_scale TU l : 0 < TU -> rising l -> rising (map (fun x => x * TU) l).
Proof.
  intros P H i x y Hx Hy. 
  destruct (nth_error l i) as [a|] eqn:Ea; [|rewrite nth_error_map, Ea in Hx; discriminate].
  destruct (nth_error l (S i)) as [b|] eqn:Eb; [|rewrite nth_error_map, Eb in Hy; discriminate].
  rewrite nth_error_map, Ea in Hx. rewrite nth_error_map, Eb in Hy. injection Hx as <-. injection Hy as <-.
  apply Rmult_lt_compat_r; [exact P|]. exact (H i a b Ea Eb).
Qed.
Lemma rising_removelast l : rising l -> rising (removelast l).
Proof.
  intros H i x y Hx Hy. destruct l as [|z l]; [destruct i; discriminate|].
  destruct (exists_last (l:=z :: l)) as (l' & w & E); [discriminate|]. rewrite E in *. rewrite removelast_last in *.
  apply (H i x y); rewrite nth_error_app1; try assumption; apply nth_error_Some; congruence.
Qed.
Lemma map_removelast {A B} (f : A -> B) l : map f (removelast l) = removelast (map f l).
Proof. induction l as [|x [|y l] IH]; try reflexivity. change (removelast (x :: y :: l)) with (x :: removelast (y :: l)). cbn [map] in *. rewrite IH. reflexivity. Qed.
Lemma map_Fin_nth rs k x : nth_error (map Fin rs) k = Some (Fin x) -> nth_error rs k = Some x.
Proof. rewrite nth_error_map. destruct (nth_error rs k); [|discriminate]. intros E. injection E as ->. reflexivity. Qed.

Lemma C71_lem (o : qlaw XNum) p ea er a fuel o' h TU an : regular o p a -> ran fuel o ea er p o' h -> 0 < a_ts a -> 0 < TU ->
  exists first ca cb ct, plot_controls (N:=XNum) h (Fin TU) an = Ok (first ++ [ca; cb; ct]) /\
    forall k t t' tau, entry (h_times h) k t -> entry (h_times h) (S k) t' -> t < tau < t' ->
      (forall al be thr, nth_error (h_controls h) (S k) = Some (al, be, thr) ->
         shown ca (Fin (tau * TU)) = Some (ndiv (Num:=XNum) (nmul (Num:=XNum) al (Fin 180)) (Fin PI)) /\
         shown cb (Fin (tau * TU)) = Some (ndiv (Num:=XNum) (nmul (Num:=XNum) be (Fin 180)) (Fin PI)) /\
         shown ct (Fin (tau * TU)) = Some (Fin (IZR thr * 100))) /\
      (S k = length (h_controls h) ->
         shown ca (Fin (tau * TU)) = None /\ shown cb (Fin (tau * TU)) = None /\ shown ct (Fin (tau * TU)) = None).
Proof.
  intros Hreg R Hts HTU. destruct (ran_times o p ea er a fuel o' h Hreg R Hts) as (rs & Et & Rs).
  destruct (ran_lengths o p ea er _ _ _ R) as (n & T & _ & _ & _ & C & _).
  assert (X : scaled (N:=XNum) (Fin TU) (removelast (h_times h)) = map Fin (map (fun x => x * TU) (removelast rs))).
  { unfold scaled. rewrite Et, <- map_removelast, !map_map. reflexivity. }
  assert (LR : length rs = S n).
  { transitivity (length (h_times h)); [|exact T]. rewrite Et. symmetry. apply (map_length Fin). }
  assert (LX : length (map (fun x => x * TU) (removelast rs)) = n).
  { rewrite map_length. apply removelast_len. exact LR. }
  assert (RX : rising (map (fun x => x * TU) (removelast rs))) by (apply rising_scale; [exact HTU|apply rising_removelast, Rs]).
  unfold plot_controls.
  assert (Y : exists first, (if an then do l <- line (scaled (N:=XNum) (Fin TU) (h_times h)) (degrees (N:=XNum) (map (fun v => wrap (N:=XNum) (v6_5 v)) (h_states h))); Ok [l] else Ok []) = Ok first).
  { destruct an; [|eexists; reflexivity]. rewrite line_ok; [eexists; reflexivity|].
    destruct (ran_lengths o p ea er _ _ _ R) as (m & T2 & S2 & _). unfold scaled, degrees. rewrite !map_length. congruence. }
  destruct Y as (first & ->). cbn [bind]. rewrite X.
  rewrite (steps_ok _ (degrees (map (fun c => fst (fst c)) (h_controls h)))) by (unfold degrees; rewrite !map_length in *; congruence). cbn [bind].
  rewrite (steps_ok _ (degrees (map (fun c => snd (fst c)) (h_controls h)))) by (unfold degrees; rewrite !map_length in *; congruence). cbn [bind].
  rewrite (steps_ok _ (map (fun c => nmul (nofZ (snd c)) (nofZ 100)) (h_controls h))) by (rewrite !map_length in *; congruence). cbn [bind].
  eexists first, _, _, _. split; [reflexivity|]. intros k t t' tau E E' Htau. unfold shown.
  assert (Nk : forall j s, (j < n)%nat -> entry (h_times h) j s -> nth_error (map (fun x => x * TU) (removelast rs)) j = Some (s * TU)).
  { intros j s Hj Es. unfold entry in Es. rewrite Et in Es. apply map_Fin_nth in Es. rewrite nth_error_map.
    rewrite (removelast_nth rs j s); [reflexivity| |exact Es]. lia. }
  assert (M1 : t * TU < tau * TU) by (apply Rmult_lt_compat_r; lra). assert (M2 : tau * TU < t' * TU) by (apply Rmult_lt_compat_r; lra).
  split.
  - intros al be thr Hc. assert (K : (S k < n)%nat) by (rewrite <- C; apply nth_error_Some; rewrite Hc; discriminate).
    repeat split; (eapply step_pre_next; [exact RX|apply (Nk k t); [lia|exact E]|apply (Nk (S k) t'); [lia|exact E']| |lra]);
      unfold degrees; rewrite ?nth_error_map, Hc; reflexivity.
  - intros K. assert (B : forall x, In x (map (fun x => x * TU) (removelast rs)) -> x < tau * TU).
    { intros x Hx. apply In_nth_error in Hx as (j & Hj).
      assert (J : (j < n)%nat) by (rewrite <- LX; apply nth_error_Some; rewrite Hj; discriminate).
      destruct (Nat.eq_dec j k) as [->|J2].
      - rewrite (Nk k t) in Hj; [|lia|exact E]. injection Hj as <-. exact M1.
      - apply Rle_lt_trans with (t * TU); [|exact M1]. apply Rlt_le.
        pose proof (Nk k t ltac:(lia) E) as Hk. clear -RX Hj Hk J J2 K C.
        assert (JK : (j < k)%nat) by lia. clear J J2 K C. revert x Hj. remember (k - S j)%nat as d eqn:D. revert j JK D.
        induction d as [|d IH]; intros j JK D x Hj.
        + replace k with (S j) in Hk by lia. exact (RX j x _ Hj Hk).
        + destruct (nth_error (map (fun x => x * TU) (removelast rs)) (S j)) as [y|] eqn:Ey.
          * apply Rlt_trans with y; [exact (RX j x y Hj Ey)|]. apply (IH (S j)); [lia|lia|exact Ey].
          * apply nth_error_None in Ey. assert (k < length (map (fun x => (x * TU)%R) (removelast rs)))%nat by (apply nth_error_Some; rewrite Hk; discriminate). lia. }
    repeat split; apply step_pre_after, B.
Qed.

(** ** C70: element curves *)
Lemma mee2kep_ellipse a f g hh k l mu : 0 < mu -> 0 < a -> f * f + g * g < 1 ->
  exists i raan om ta, mee_with_a2kep (N:=RNum) (elems a f g hh k l) = Ok (elems a (sqrt (f * f + g * g)) i raan om ta) /\
    (periapsis_kept f g hh k ->
     cart_state Keplerian mu (elems a (sqrt (f * f + g * g)) i raan om ta) = cart_state MeeWithA mu (elems a f g hh k l)).
Proof.
  intros Hmu Ha He. destruct (C50_pos a f g hh k l mu Hmu Ha He) as (s & Hs & K & _).
  assert (P : 0 <= sqrt (f * f + g * g) < 1).
  { split; [apply sqrt_pos|]. rewrite <- sqrt_1. apply sqrt_lt_1; nra. }
  unfold mee_with_a2sv, elems in Hs. unfold mee_with_a2kep, mee_with_a2mee, elems.
  change (sq (N:=RNum) f) with (f * f) in *. change (sq (N:=RNum) g) with (g * g) in *.
  change (nofZ (Num:=RNum) 1) with 1 in *. change (nmul (Num:=RNum)) with Rmult in *. change (nsub (Num:=RNum)) with Rminus in *.
  unfold mee2kep in *. cbv beta iota zeta in *.
  rewrite jdivR in * by (cbn; nra). cbn [bind] in *.
  match goal with |- context [Ok (@mk6 RNum ?a0 ?e0 ?i0 ?r0 ?o0 ?t0)] => set (iv := i0) in *; set (rv := r0) in *; set (ov := o0) in *; set (tv := t0) in * end.
  exists iv, rv, ov, tv. split.
  - f_equal. f_equal. apply times_over. cbn. nra.
  - intros Hk. specialize (K Hk). subst s. cbn [cart_state]. 
    match type of Hs with kep2sv (mk6 ?a0 ?e0 ?i0 ?r0 ?o0 ?t0) _ = _ => 
      replace (@mk6 RNum a0 e0 i0 r0 o0 t0) with (elems a (sqrt (f * f + g * g)) iv rv ov tv) in Hs by (unfold elems; f_equal; symmetry; apply times_over; cbn; nra) end.
    rewrite kep2sv_closed in Hs by assumption. injection Hs. intros. unfold elems, cart_state. congruence.
Qed.
Lemma ran_nonempty_axes {N : Num} fuel (o : qlaw N) ea er p o' h (oes : list (vec6 N)) T mult band TU :
  ran fuel o ea er p o' h -> length oes = length (h_times h) -> (5 <= length T)%nat -> (5 <= length mult)%nat ->
  exists axes, mapM (element_axis o' TU h oes T mult band) [0; 1; 2; 3; 4]%nat = Ok axes /\ length axes = 5%nat /\
    forall j Tj mj, (j < 5)%nat -> nth_error T j = Some Tj -> nth_error mult j = Some mj ->
      exists tgt c, nth_error axes j = Some [tgt; c] /\
        (band = false -> tgt = Level (nmul Tj mj)) /\
        (band = true -> exists tol, nth_error (vec5_to_list (q_tol o)) j = Some tol /\
           tgt = Band (map (fun x => nmul x TU) (h_times h)) (nmul (nsub Tj tol) mj) (nmul (nadd Tj tol) mj)) /\
        forall k t v vj, nth_error (h_times h) k = Some t -> nth_error oes k = Some v -> nth_error (vec6_to_list v) j = Some vj ->
          sample c k (nmul t TU) (nmul vj mj).
Proof.
  intros R L LT LM. destruct (ran_settings _ _ _ _ _ _ _ R) as (_ & _ & Et).
  assert (A : forall j, (j < 5)%nat -> exists Tj mj tol, nth_error T j = Some Tj /\ nth_error mult j = Some mj /\ nth_error (vec5_to_list (q_tol o)) j = Some tol /\
     element_axis o' TU h oes T mult band j = Ok [ if band then Band (scaled TU (h_times h)) (nmul (nsub Tj tol) mj) (nmul (nadd Tj tol) mj) else Level (nmul Tj mj);
        Line (scaled TU (h_times h)) (map (fun x => nmul x mj) (row j oes)) ]).
  { intros j Hj. destruct (nth_error T j) as [Tj|] eqn:E1; [|apply nth_error_None in E1; lia].
    destruct (nth_error mult j) as [mj|] eqn:E2; [|apply nth_error_None in E2; lia].
    destruct (nth_error (vec5_to_list (q_tol o)) j) as [tol|] eqn:E3; [|apply nth_error_None in E3; destruct (q_tol o); cbn in E3; lia].
    exists Tj, mj, tol. split; [reflexivity|]. split; [reflexivity|]. split; [reflexivity|]. unfold element_axis.
    rewrite (item_some _ _ _ E1), (item_some _ _ _ E2). cbn [bind]. rewrite Et, (item_some _ _ _ E3). cbn [bind].
    rewrite line_ok; [reflexivity|]. unfold scaled, row. rewrite !map_length. congruence. }
  destruct (A 0%nat ltac:(lia)) as (T0 & m0 & l0 & X0 & Y0 & Z0 & E0). destruct (A 1%nat ltac:(lia)) as (T1 & m1 & l1 & X1 & Y1 & Z1 & E1).
  destruct (A 2%nat ltac:(lia)) as (T2 & m2 & l2 & X2 & Y2 & Z2 & E2). destruct (A 3%nat ltac:(lia)) as (T3 & m3 & l3 & X3 & Y3 & Z3 & E3).
  destruct (A 4%nat ltac:(lia)) as (T4 & m4 & l4 & X4 & Y4 & Z4 & E4).
  cbn [mapM]. rewrite E0, E1, E2, E3, E4. cbn [bind]. eexists. split; [reflexivity|]. split; [reflexivity|].
  intros j Tj mj Hj HT Hm.
  destruct (A j Hj) as (Tj' & mj' & tol & HT' & Hm' & Htol & Ej). rewrite HT in HT'. rewrite Hm in Hm'. injection HT' as <-. injection Hm' as <-.
  exists (if band then Band (scaled TU (h_times h)) (nmul (nsub Tj tol) mj) (nmul (nadd Tj tol) mj) else Level (nmul Tj mj)),
    (Line (scaled TU (h_times h)) (map (fun x => nmul x mj) (row j oes))). split.
  { destruct j as [|[|[|[|[|j]]]]]; try lia; cbn [nth_error]; congruence. }
  split; [intros ->; reflexivity|]. split; [intros ->; exists tol; split; [exact Htol|reflexivity]|].
  intros k t v vj Ht Hv Hj2. split; [apply scaled_nth, Ht|]. unfold row. rewrite !nth_error_map, Hv. cbn [option_map].
  rewrite (nth_error_nth _ _ nnan Hj2). reflexivity.
Qed.
Lemma elements_plot {N : Num} fuel (o : qlaw N) ea er p o' h tk TU pm pp (oes : list (vec6 N)) T mult band :
  ran fuel o ea er p o' h -> plotted_elements o' p h tk = Ok (oes, T, mult, band) ->
  length oes = length (h_times h) -> (5 <= length T)%nat -> (5 <= length mult)%nat ->
  exists axes, plot_elements_history o' p h tk TU pm pp = Ok axes /\ length axes = 6%nat /\
    (forall j Tj mj, (j < 5)%nat -> nth_error T j = Some Tj -> nth_error mult j = Some mj ->
      exists tgt c rest, nth_error axes j = Some (tgt :: c :: rest) /\
        (band = false -> tgt = Level (nmul Tj mj)) /\
        (band = true -> exists tol, nth_error (vec5_to_list (q_tol o)) j = Some tol /\
           tgt = Band (map (fun x => nmul x TU) (h_times h)) (nmul (nsub Tj tol) mj) (nmul (nadd Tj tol) mj)) /\
        forall k t v vj, nth_error (h_times h) k = Some t -> nth_error oes k = Some v -> nth_error (vec6_to_list v) j = Some vj ->
          sample c k (nmul t TU) (nmul vj mj)) /\
    (pp = true -> exists tgt c peri, nth_error axes 0 = Some [tgt; c; peri] /\
      forall k t v, nth_error (h_times h) k = Some t -> nth_error oes k = Some v ->
        sample peri k (nmul t TU) (nmul (v6_0 v) (nsub (nofZ 1) (v6_1 v)))) /\
    exists lc, nth_error axes 5 = Some [lc] /\ forall k t, nth_error (h_times h) k = Some t ->
      if pm then forall m, nth_error (h_masses h) k = Some m -> sample lc k (nmul t TU) m
      else forall v, nth_error oes k = Some v ->
        sample lc k (nmul t TU) (ndiv (nmul (nmod (v6_5 v) (nmul (nofZ 2) npi)) (nofZ 180)) npi).
Proof.
  intros R PE L LT LM. unfold plot_elements_history. rewrite PE. cbn [bind].
  destruct (ran_nonempty_axes fuel o ea er p o' h oes T mult band TU R L LT LM) as (axes & -> & LA & H). cbn [bind].
  destruct (ran_lengths o p ea er _ _ _ R) as (n & LTm & _ & LMs & _).
  assert (X : exists peri, (if pp then do l <- line (scaled TU (h_times h)) (map (fun v => nmul (v6_0 v) (nsub (nofZ 1) (v6_1 v))) oes); Ok [l] else Ok []) = Ok peri /\
     (pp = true -> exists c, peri = [c] /\ forall k t v, nth_error (h_times h) k = Some t -> nth_error oes k = Some v ->
        sample c k (nmul t TU) (nmul (v6_0 v) (nsub (nofZ 1) (v6_1 v))))).
  { destruct pp; [|eexists; split; [reflexivity|discriminate]]. rewrite line_ok by (unfold scaled; rewrite !map_length; congruence).
    cbn [bind]. eexists. split; [reflexivity|]. intros _. eexists. split; [reflexivity|]. intros k t v Ht Hv. split; [apply scaled_nth, Ht|].
    rewrite nth_error_map, Hv. reflexivity. }
  destruct X as (peri & -> & HP). cbn [bind].
  assert (Y : exists lc, (if pm then line (scaled TU (h_times h)) (h_masses h)
       else line (scaled TU (h_times h)) (map (fun v => ndiv (nmul (nmod (v6_5 v) (nmul (nofZ 2) npi)) (nofZ 180)) npi) oes)) = Ok lc /\
     forall k t, nth_error (h_times h) k = Some t ->
      if pm then forall m, nth_error (h_masses h) k = Some m -> sample lc k (nmul t TU) m
      else forall v, nth_error oes k = Some v ->
        sample lc k (nmul t TU) (ndiv (nmul (nmod (v6_5 v) (nmul (nofZ 2) npi)) (nofZ 180)) npi)).
  { destruct pm; rewrite line_ok by (unfold scaled; rewrite !map_length; congruence); eexists; (split; [reflexivity|]); intros k t Ht.
    - intros m Hm. split; [apply scaled_nth, Ht|exact Hm].
    - intros v Hv. split; [apply scaled_nth, Ht|]. rewrite nth_error_map, Hv. reflexivity. }
  destruct Y as (lc & -> & HL). cbn [bind].
  destruct axes as [|a0 rest]; [discriminate|]. eexists. split; [reflexivity|].
  split; [cbn [length app] in *; rewrite app_length; cbn [length]; lia|].
  assert (LR : length rest = 4%nat) by (cbn in LA; lia). split; [|split].
  - intros j Tj mj Hj HT Hm. destruct (H j Tj mj Hj HT Hm) as (tgt & c & E & B1 & B2 & S).
    destruct j as [|j]; cbn [nth_error] in E.
    + exists tgt, c, peri. split; [injection E as ->; reflexivity|]. auto.
    + exists tgt, c, []. split; [cbn [app nth_error]; rewrite nth_error_app1 by lia; exact E|]. auto.
  - intros P. destruct (HP P) as (c & -> & S).
    destruct T as [|T0 T]; [cbn in LT; lia|]. destruct mult as [|m0 mult]; [cbn in LM; lia|].
    destruct (H 0%nat T0 m0 ltac:(lia) eq_refl eq_refl) as (tgt & c0 & E & _). injection E as ->.
    exists tgt, c0, c. split; [reflexivity|exact S].
  - exists lc. split; [|exact HL]. change (nth_error (rest ++ [[lc]]) 4 = Some [lc]). rewrite nth_error_app2 by lia. rewrite LR. reflexivity.
Qed.

Lemma plotted_native {N : Num} fuel (o : qlaw N) ea er p o' h tk :
  ran fuel o ea er p o' h -> tk = false \/ q_etype o = Keplerian ->
  plotted_elements o' p h tk = Ok (h_states h, p_oeT p, repeat (nofZ 1) 6, true) /\ length (h_states h) = length (h_times h).
Proof.
  intros R K. destruct (ran_settings _ _ _ _ _ _ _ R) as (Et & _). destruct (ran_lengths o p ea er _ _ _ R) as (n & LTm & LS & _).
  split; [|congruence]. unfold plotted_elements.
  assert (M : mapM (fun idx => item (h_states h) idx) (seq 0 (length (h_times h))) = Ok (h_states h)).
  { transitivity (mapM (fun idx => do st <- item (h_states h) idx; Ok st) (seq 0 (length (h_times h)))).
    - generalize (seq 0 (length (h_times h))). intros l. induction l as [|x l IH]; [reflexivity|]. cbn [mapM]. rewrite IH.
      destruct (item (h_states h) x); reflexivity.
    - rewrite mapM_item by congruence. clear. induction (h_states h) as [|x l IH]; [reflexivity|]. cbn [mapM bind]. rewrite IH. reflexivity. }
  destruct K as [->|K]; [rewrite M; reflexivity|]. rewrite Et, K. destruct tk; rewrite M; reflexivity.
Qed.

Lemma repeat6 {A} (x : A) j : (j < 6)%nat -> nth_error (repeat x 6) j = Some x.
Proof. intros H. destruct j as [|[|[|[|[|[|j]]]]]]; try reflexivity. lia. Qed.
Lemma mod_degrees (x : R) : in_degrees x (Rfmod x (2 * PI) * 180 / PI).
Proof.
  pose proof PI_RGT_0 as P. unfold Rfmod. set (n := Int_part (x / (2 * PI))). pose proof (base_Int_part (x / (2 * PI))) as [B1 B2]. fold n in B1, B2.
  assert (X : x = x / (2 * PI) * (2 * PI)) by (field; lra). set (q := x / (2 * PI)) in *.
  split.
  - exists (- n)%Z. rewrite opp_IZR. f_equal. f_equal. ring.
  - rewrite X. replace ((q * (2 * PI) - 2 * PI * IZR n) * 180 / PI) with ((q - IZR n) * 360) by (field; lra). lra.
Qed.
Lemma C70_native_lem fuel (o : qlaw RNum) ea er p o' h tk (TU : R) pm pp :
  ran fuel o ea er p o' h -> tk = false \/ q_etype o = Keplerian -> (5 <= length (p_oeT p))%nat ->
  exists axes, plot_elements_history (N:=RNum) o' p h tk TU pm pp = Ok axes /\ length axes = 6%nat /\
    (forall j Tj tol, (j < 5)%nat -> nth_error (p_oeT p) j = Some Tj -> nth_error (vec5_to_list (q_tol o)) j = Some tol ->
      exists c rest, nth_error axes j = Some (Band (N:=RNum) (map (fun x => x * TU) (h_times h)) (Tj - tol) (Tj + tol) :: c :: rest) /\
        forall k t st x, nth_error (h_times h) k = Some t -> nth_error (h_states h) k = Some st -> nth_error (vec6_to_list st) j = Some x ->
          sample c k (t * TU) x) /\
    (pp = true -> exists tgt c peri, nth_error axes 0 = Some [tgt; c; peri] /\
      forall k t st, nth_error (h_times h) k = Some t -> nth_error (h_states h) k = Some st ->
        sample peri k (t * TU) (v6_0 st * (1 - v6_1 st))) /\
    (pm = true -> exists c, nth_error axes 5 = Some [c] /\ forall k t m, nth_error (h_times h) k = Some t -> nth_error (h_masses h) k = Some m ->
      sample c k (t * TU) m) /\
    (pm = false -> exists c, nth_error axes 5 = Some [c] /\ forall k t st, nth_error (h_times h) k = Some t -> nth_error (h_states h) k = Some st ->
      exists y, in_degrees (v6_5 st) y /\ sample c k (t * TU) y).
Proof.
  intros R K LT. destruct (plotted_native fuel o ea er p o' h tk R K) as (PE & L).
  destruct (elements_plot fuel o ea er p o' h tk TU pm pp _ _ _ _ R PE L LT) as (axes & E & LA & H & HP & lc & E5 & HL); [exact (Nat.le_succ_diag_r 5)|].
  exists axes. split; [exact E|]. split; [exact LA|]. split; [|split; [exact HP|split]].
  - intros j Tj tol Hj HT Htol. destruct (H j Tj 1 Hj HT (repeat6 _ j (Nat.lt_lt_succ_r _ _ Hj))) as (tgt & c & rest & En & _ & B & S).
    destruct (B eq_refl) as (tol' & Htol' & ->). rewrite Htol in Htol'. injection Htol' as <-. exists c, rest. split.
    + rewrite En. do 3 f_equal; cbn; ring.
    + intros k t st x Ht Hst Hx. replace x with (x * 1) by (cbn; ring). exact (S k t st x Ht Hst Hx).
  - intros ->. exists lc. split; [exact E5|]. intros k t m Ht Hm. exact (HL k t Ht m Hm).
  - intros ->. exists lc. split; [exact E5|]. intros k t st Ht Hst. eexists. split; [|exact (HL k t Ht st Hst)]. exact (mod_degrees (v6_5 st)).
Qed.
(** periapsis radius against what the overlay shows for equinoctial elements *)
Lemma peri_native a f g : 0 < a -> (a * (1 - f) = a * (1 - sqrt (f * f + g * g)) <-> g = 0 /\ 0 <= f).
Proof.
  intros Ha. assert (E : a * (1 - f) = a * (1 - sqrt (f * f + g * g)) <-> f = sqrt (f * f + g * g)).
  { split; [intros H; apply Rmult_eq_reg_l in H; lra|intros <-; reflexivity]. }
  rewrite E. split.
  - intros H. pose proof (sqrt_pos (f * f + g * g)) as P. pose proof (sqrt_sqrt (f * f + g * g) ltac:(nra)) as Q. rewrite <- H in Q, P. split; [nra|exact P].
  - intros [-> P]. replace (f * f + 0 * 0) with (f * f) by ring. symmetry. apply sqrt_square, P.
Qed.

Definition shown_unit (j : nat) : R := if Nat.ltb j 2 then 1 else 180 / PI.
Lemma C70_keplerian_lem fuel (o : qlaw RNum) ea er p o' h (TU : R) pm pp T :
  ran fuel o ea er p o' h -> q_etype o = MeeWithA -> 0 < q_mu o ->
  (forall st, In st (h_states h) -> elliptic MeeWithA st) ->
  p_oeT p = firstn 5 (vec6_to_list T) -> v6_5 T = 0 -> elliptic MeeWithA T ->
  exists axes kepT, plot_elements_history (N:=RNum) o' p h true TU pm pp = Ok axes /\ length axes = 6%nat /\
    elliptic Keplerian kepT /\ v6_0 kepT = v6_0 T /\ v6_1 kepT = sqrt (v6_1 T * v6_1 T + v6_2 T * v6_2 T) /\
    (faithful MeeWithA T -> cart_state Keplerian (q_mu o) kepT = cart_state MeeWithA (q_mu o) T) /\
    (forall k t st, nth_error (h_times h) k = Some t -> nth_error (h_states h) k = Some st ->
      exists kep, elliptic Keplerian kep /\ v6_0 kep = v6_0 st /\
        v6_1 kep = sqrt (v6_1 st * v6_1 st + v6_2 st * v6_2 st) /\
        (faithful MeeWithA st -> cart_state Keplerian (q_mu o) kep = cart_state MeeWithA (q_mu o) st) /\
        (forall j x y, (j < 5)%nat -> nth_error (vec6_to_list kep) j = Some x -> nth_error (vec6_to_list kepT) j = Some y ->
           exists c rest, nth_error axes j = Some (Level (N:=RNum) (y * shown_unit j) :: c :: rest) /\ sample c k (t * TU) (x * shown_unit j)) /\
        (exists c y, nth_error axes 5 = Some [c] /\ sample c k (t * TU) y /\
           (pm = true -> nth_error (h_masses h) k = Some y) /\ (pm = false -> in_degrees (v6_5 kep) y)) /\
        (pp = true -> exists tgt c peri, nth_error axes 0 = Some [tgt; c; peri] /\
           sample peri k (t * TU) (v6_0 kep * (1 - v6_1 kep)))).
Proof.
  intros R Et Hmu HE HT HT5 HTE. destruct (ran_settings _ _ _ _ _ _ _ R) as (Et' & _). destruct (ran_lengths o p ea er _ _ _ R) as (n & LTm & LS & LMs0 & _).
  assert (ME : forall st, elliptic MeeWithA st -> exists kep, mee_with_a2kep (N:=RNum) st = Ok kep /\ elliptic Keplerian kep /\ v6_0 kep = v6_0 st /\
     v6_1 kep = sqrt (v6_1 st * v6_1 st + v6_2 st * v6_2 st) /\ (faithful MeeWithA st -> cart_state Keplerian (q_mu o) kep = cart_state MeeWithA (q_mu o) st)).
  { intros [a f g hh k l] [Ha He]. destruct (mee2kep_ellipse a f g hh k l (q_mu o) Hmu Ha He) as (i & raan & om & ta & E & F).
    eexists. split; [exact E|]. split; [|split; [reflexivity|split; [reflexivity|exact F]]]. split; [exact Ha|].
    split; [apply sqrt_pos|]. apply Rlt_le_trans with (sqrt 1); [|rewrite sqrt_1; apply Rle_refl]. apply sqrt_lt_1; [|lra|exact He].
    pose proof (Rle_0_sqr f) as S1. pose proof (Rle_0_sqr g) as S2. unfold Rsqr in S1, S2. apply Rplus_le_le_0_compat; assumption. }
  assert (MM : exists oes, mapM (mee_with_a2kep (N:=RNum)) (h_states h) = Ok oes).
  { clear -HE ME. revert HE. generalize (h_states h). intros l. induction l as [|st l IH]; intros HE; [eexists; reflexivity|]. cbn [mapM].
    destruct (ME st (HE st (or_introl eq_refl))) as (kep & -> & _). cbn [bind]. destruct IH as (ks & ->); [intros; apply HE; right; assumption|]. eexists. reflexivity. }
  destruct MM as (oes & MM). destruct (ME T HTE) as (kT & ET & KT).
  assert (WZ : with_zero (N:=RNum) (p_oeT p) = Ok T).
  { rewrite HT. destruct T as [T0 T1 T2 T3 T4 T5]. cbn in HT5. subst T5. reflexivity. }
  assert (PE : plotted_elements (N:=RNum) o' p h true = Ok (oes, vec5_to_list (slow kT), [1; 1; 180 / PI; 180 / PI; 180 / PI; 180 / PI], false)).
  { unfold plotted_elements. rewrite Et', Et. rewrite mapM_item by congruence. rewrite MM. cbn [bind]. rewrite WZ. cbn [bind]. rewrite ET. reflexivity. }
  pose proof (mapM_inv _ _ _ MM) as MF. pose proof (Forall2_len _ _ _ MF) as LF.
  destruct (elements_plot fuel o ea er p o' h true TU pm pp _ _ _ _ R PE) as (axes & E & LA & H & HP & lc & E5 & HL); [congruence|destruct kT; cbn; lia|cbn; lia|].
  exists axes, kT. split; [exact E|]. split; [exact LA|]. destruct KT as (KT1 & KT2 & KT3 & KT4). split; [exact KT1|]. split; [exact KT2|]. split; [exact KT3|]. split; [exact KT4|].
  intros k t st Ht Hst.
  destruct (Forall2_nth _ _ _ _ _ MF Hst) as (kep & Hk & Ek). destruct (ME st (HE st (nth_error_In _ _ Hst))) as (kep' & Ek' & K1 & K2 & K3 & K4).
  rewrite Ek in Ek'. injection Ek' as <-. exists kep. split; [exact K1|]. split; [exact K2|]. split; [exact K3|]. split; [exact K4|]. split.
  - intros j x Tj Hj Hx HTj'. assert (HTj : nth_error (vec5_to_list (slow kT)) j = Some Tj).
    { destruct kT. destruct j as [|[|[|[|[|j]]]]]; try exact HTj'. lia. }
    assert (U : nth_error [1; 1; 180 / PI; 180 / PI; 180 / PI; 180 / PI] j = Some (shown_unit j)).
    { destruct j as [|[|[|[|[|j]]]]]; try reflexivity. lia. }
    destruct (H j Tj (shown_unit j) Hj HTj U) as (tgt & c & rest & En & B & _ & S).
    rewrite (B eq_refl) in En. exists c, rest. split; [exact En|]. exact (S k t kep x Ht Hk Hx).
  - split; [|intros P; destruct (HP P) as (tgt & c & peri & En & S); exists tgt, c, peri; split; [exact En|]; exact (S k t kep Ht Hk)].
    specialize (HL k t Ht). exists lc. destruct pm.
    + assert (LMs : exists m, nth_error (h_masses h) k = Some m).
      { destruct (nth_error (h_masses h) k) eqn:Z; [eexists; reflexivity|]. apply nth_error_None in Z. assert (X : (k < length (h_times h))%nat) by (apply nth_error_Some; congruence). lia. }
      destruct LMs as (m & Hm). exists m. split; [exact E5|]. split; [exact (HL m Hm)|]. split; [intros _; exact Hm|discriminate].
    + eexists. split; [exact E5|]. split; [exact (HL kep Hk)|]. split; [discriminate|]. intros _. exact (mod_degrees (v6_5 kep)).
Qed.
