(** C100: what becomes of an element that is not a number once it is in the recorded states. *)
From Coq Require Import Reals Lra Lia ZArith List Bool.
From Verif Require Import RMath RLib Num Base Integrate Eom Convergence Lyapunov Perturb Qlaw Spec XSpec RunSpec RunProofs NanProofs PlaneSpec.
Import ListNotations.
Local Open Scope R_scope.

Lemma cases6 j (z : vec6 XNum) : nan_at j z ->
  (j = 0%nat /\ v6_0 z = NaN) \/ (j = 1%nat /\ v6_1 z = NaN) \/ (j = 2%nat /\ v6_2 z = NaN) \/ (j = 3%nat /\ v6_3 z = NaN) \/ (j = 4%nat /\ v6_4 z = NaN) \/ (j = 5%nat /\ v6_5 z = NaN).
Proof.
  unfold nan_at, entries. intros H. destruct j as [|[|[|[|[|[|j]]]]]]; cbn in H; try (injection H as H; tauto). destruct j; discriminate H.
Qed.
Lemma nan_v6add j (x y : vec6 XNum) : nan_at j x -> nan_at j (v6add x y).
Proof.
  intros H. apply cases6 in H. destruct x, y. cbn in H |- *. unfold nan_at, entries.
  decompose [or and] H; subst; reflexivity.
Qed.
Lemma nan_v6sub j (x y : vec6 XNum) : nan_at j x -> nan_at j (v6sub x y).
Proof.
  intros H. apply cases6 in H. destruct x, y. cbn in H |- *. unfold nan_at, entries.
  decompose [or and] H; subst; reflexivity.
Qed.
Lemma nan_rk4 {P} (rhs : ereal -> vec6 XNum -> P -> Res (vec6 XNum)) t h y prm z j : rk4 (N:=XNum) rhs t h y prm = Ok z -> nan_at j y -> nan_at j z.
Proof.
  unfold rk4. intros E H. destruct (rhs t y prm) as [k1|]; [|discriminate]. cbn [bind] in E.
  repeat match type of E with bind ?r _ = _ => destruct r; [|discriminate]; cbn [bind] in E end.
  apply (f_equal (fun r => match r with Ok v => v | Err _ => z end)) in E. rewrite <- E. apply nan_v6add, H.
Qed.
Lemma nan_rkf45 {P} (rhs : ereal -> vec6 XNum -> P -> Res (vec6 XNum)) t h y prm tol z x j : rkf45 (N:=XNum) rhs t h y prm tol = Ok (z, x) -> nan_at j y -> nan_at j z.
Proof.
  unfold rkf45. intros E H. destruct (rhs t y prm) as [k1|]; [|discriminate]. cbn [bind] in E.
  repeat match type of E with bind ?r _ = _ => destruct r; [|discriminate]; cbn [bind] in E end.
  apply (f_equal (fun r => match r with Ok v => fst v | Err _ => z end)) in E. cbn [fst] in E. rewrite <- E. apply nan_v6sub. do 3 apply nan_v6add. exact H.
Qed.

Lemma C100_mee_lem (o : qlaw XNum) p ea er fuel o' h : built MeeWithA o -> ran fuel o ea er p o' h ->
  forall k k' j z z', (k <= k')%nat -> nth_error (h_states h) k = Some z -> nth_error (h_states h) k' = Some z' -> nan_at j z -> nan_at j z'.
Proof.
  intros B R k k' j z z' L Zk. revert z'. destruct (flown_lem o p ea er fuel o' h R) as (zs & Raw & Len & Fl).
  assert (St : h_states h = p_oe0 p :: zs).
  { destruct Raw as (init & lastz & E & H). rewrite E.
    assert (G : forall x, guarded o x = x) by (intros x; unfold guarded; destruct B as [-> _]; reflexivity).
    rewrite (map_ext _ (fun x => x) G), map_id, G in H. destruct H as [-> | ->]; reflexivity. }
  induction L as [|k' L IH]; intros z' Zk' Nz; [rewrite Zk in Zk'; injection Zk' as <-; exact Nz|].
  rewrite St in Zk'. cbn [nth_error] in Zk'. destruct (Fl k' z' Zk') as (hn & t & dt & m & oe & al & be & thr & q & qd & al0 & be0 & D & psi & F & _ & _ & _ & Oe & _ & _ & _ & _ & _ & _ & Ad).
  specialize (IH oe Oe Nz). unfold advanced in Ad. destruct (q_integ o).
  - destruct Ad as [Ad _]. exact (nan_rk4 _ _ _ _ _ _ _ Ad IH).
  - destruct Ad as (x & Ad & _). exact (nan_rkf45 _ _ _ _ _ _ _ _ _ Ad IH).
Qed.

Lemma clamp_nan lo hi : clamp1 (N:=XNum) lo NaN hi = pymin (N:=XNum) lo hi.
Proof. unfold clamp1, pymax. destruct lo; reflexivity. Qed.
Lemma hide_one (o : qlaw XNum) z j : built Keplerian o -> nan_at j z -> nth_error (entries (guarded o z)) j = nth_error (entries (lost o)) j.
Proof.
  intros [E _] H. apply cases6 in H. unfold lost, guarded. rewrite E. destruct z, (q_oe_min o), (q_oe_max o). cbn in H |- *. unfold entries.
  decompose [or and] H; subst; reflexivity.
Qed.
Lemma C100_kep_lem (o : qlaw XNum) p ea er fuel o' h : built Keplerian o -> ran fuel o ea er p o' h ->
  exists zs, raws o (p_oe0 p) h zs /\ forall k j z y, nth_error zs k = Some z -> nth_error (h_states h) (S k) = Some y -> nan_at j z ->
    (S (S k) < length (h_states h))%nat -> nth_error (entries y) j = nth_error (entries (lost o)) j.
Proof.
  intros B R. destruct (flown_lem o p ea er fuel o' h R) as (zs & Raw & _ & _). exists zs. split; [exact Raw|].
  intros k j z y Zk Yk Nz L. destruct Raw as (init & lastz & E & H).
  assert (In : nth_error init (S k) = Some z).
  { assert (X : nth_error (p_oe0 p :: zs) (S k) = Some z) by exact Zk. rewrite E in X. rewrite nth_error_app1 in X; [exact X|].
    destruct H as [H|H]; rewrite H, app_length, map_length in L; cbn in L; lia. }
  assert (G : y = guarded o z).
  { assert (M : nth_error (map (guarded o) init) (S k) = Some (guarded o z)) by (apply map_nth_error, In).
    assert (LL : (S k < length (map (guarded o) init))%nat) by (apply nth_error_Some; rewrite M; discriminate).
    destruct H as [H|H]; rewrite H, nth_error_app1, M in Yk by exact LL; injection Yk as ->; reflexivity. }
  rewrite G. apply hide_one; assumption.
Qed.
