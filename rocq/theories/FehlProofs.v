(** rkf45 on linear systems and on rates that depend on time only. *)
From Coq Require Import Reals Lra List.
From Verif Require Import RMath RLib DLib Num Base Integrate RSpec FehlSpec ElemProofs IntegProofs.
Import ListNotations.
Local Open Scope R_scope.

Ltac vr := cbn; f_equal; apply Rminus_diag_uniq; ring.
Lemma cons2 (a b : R) l m : a = b -> l = m -> a :: l = b :: m.
Proof. intros -> ->. reflexivity. Qed.
Section Lin.
Variables (A : vec6 RNum -> vec6 RNum) (y : vec6 RNum).
Hypothesis L : linear6 A.
Notation vadd := (v6add (N:=RNum)).
Notation vsub := (v6sub (N:=RNum)).
Notation vscal := (v6scal (N:=RNum)).
Fixpoint pw (n : nat) : vec6 RNum := match n with O => y | S m => A (pw m) end.
(** l0 A^n y + l1 A^(n+1) y + ... *)
Fixpoint pe (n : nat) (l : list R) : vec6 RNum :=
  match l with [] => @mk6 RNum 0 0 0 0 0 0 | c :: m => vadd (vscal c (pw n)) (pe (S n) m) end.
Fixpoint zip (l m : list R) : list R :=
  match l, m with [], _ => m | _, [] => l | a :: l', b :: m' => (a + b) :: zip l' m' end.

Lemma A0 : A (@mk6 RNum 0 0 0 0 0 0) = @mk6 RNum 0 0 0 0 0 0.
Proof.
  destruct L as [_ L2].
  assert (E : vscal 0 (@mk6 RNum 0 0 0 0 0 0) = @mk6 RNum 0 0 0 0 0 0) by (vr).
  rewrite <- E at 1. rewrite L2. destruct (A (@mk6 RNum 0 0 0 0 0 0)). vr.
Qed.
Lemma pe_A n l : A (pe n l) = pe (S n) l.
Proof.
  destruct L as [L1 L2]. revert n. induction l as [|c l IH]; intros n; [apply A0|]. cbn [pe]. rewrite L1, L2, IH. reflexivity.
Qed.
Lemma pe_shift n l : pe (S n) l = pe n (0 :: l).
Proof. cbn [pe]. destruct (pw n), (pe (S n) l). vr. Qed.
Lemma pe_scal n k l : vscal k (pe n l) = pe n (map (Rmult k) l).
Proof.
  revert n. induction l as [|c l IH]; intros n; cbn [pe map]; [vr|]. rewrite <- IH.
  destruct (pw n), (pe (S n) l). vr.
Qed.
Lemma pe_add n l m : vadd (pe n l) (pe n m) = pe n (zip l m).
Proof.
  revert n m. induction l as [|c l IH]; intros n [|d m]; cbn [pe zip].
  - vr.
  - destruct (pw n), (pe (S n) m). vr.
  - destruct (pw n), (pe (S n) l). vr.
  - rewrite <- IH. destruct (pw n), (pe (S n) l), (pe (S n) m). vr.
Qed.
Lemma vsub_add (u v : vec6 RNum) : vsub u v = vadd u (vscal (-1) v).
Proof. destruct u, v. vr. Qed.
Lemma pe_y : y = pe 0 [1].
Proof. cbn. destruct y. vr. Qed.

Lemma frR a b : fr (N:=RNum) a b = IZR a / IZR b.
Proof. reflexivity. Qed.

Lemma pe_series n l : pe n l = series A l (pw n).
Proof. revert n. induction l as [|c l IH]; intros n; [reflexivity|]. cbn [pe series]. rewrite (IH (S n)). reflexivity. Qed.
Lemma rkf_linear (P : Type) (p : P) (t h tol : R) :
  let y1 := series A (rkf_y h) y in let d := norm6R (vsub (series A (rkf_z h) y) y1) in
  rkf45 (N:=RNum) (fun (_ : R) v (_ : P) => Ok (A v)) t h y p tol =
  bind (jdiv (N:=RNum) tol d) (fun q => Ok (y1, h * dec (N:=RNum) 84 2 * npow (Num:=RNum) q (fr (N:=RNum) 1 4))).
Proof.
  intros y1 d. unfold rkf45. cbn [bind].
  match goal with |- context [norm6 (vsub ?z ?w)] => set (zn := z); set (yn := w) end.
  assert (Ey : yn = pe 0 (rkf_y h)).
  { unfold yn. rewrite pe_y. rewrite !frR.
    repeat (rewrite vsub_add || rewrite pe_A || rewrite pe_shift || rewrite pe_scal || rewrite pe_add). unfold rkf_y.
    cbn [map zip]. f_equal. cbn. repeat (apply cons2; [field|]). reflexivity. }
  assert (Ez : zn = pe 0 (rkf_z h)).
  { unfold zn. rewrite pe_y. rewrite !frR.
    repeat (rewrite vsub_add || rewrite pe_A || rewrite pe_shift || rewrite pe_scal || rewrite pe_add). unfold rkf_z.
    cbn [map zip]. f_equal. cbn. repeat (apply cons2; [field|]). reflexivity. }
  rewrite Ez, Ey, !pe_series. reflexivity.
Qed.
End Lin.

Lemma rkf_quad (P : Type) (p : P) (g : R -> vec6 RNum) (t h tol : R) (y : vec6 RNum) :
  let add := v6add (N:=RNum) in
  let y1 := add y (quad g (rkf_qy t h)) in let z1 := add y (quad g (rkf_qz t h)) in
  let d := norm6R (v6sub (N:=RNum) z1 y1) in
  rkf45 (N:=RNum) (fun s (_ : vec6 RNum) (_ : P) => Ok (g s)) t h y p tol =
  bind (jdiv (N:=RNum) tol d) (fun q => Ok (y1, h * dec (N:=RNum) 84 2 * npow (Num:=RNum) q (fr (N:=RNum) 1 4))).
Proof.
  intros ad y1 z1 d. unfold rkf45. cbn [bind].
  match goal with |- context [norm6 (v6sub ?z ?w)] => set (zn := z); set (yn := w) end.
  assert (Ey : yn = y1).
  { unfold yn, y1, rkf_qy, quad, ad. rewrite !frR.
    change (nadd (Num:=RNum)) with Rplus. change (nmul (Num:=RNum)) with Rmult.
    replace (t + 3 * h / 8) with (t + 3 / 8 * h) by field.
    destruct (g t), (g (t + 3 / 8 * h)), (g (t + 12 / 13 * h)), (g (t + h)), y. cbn. f_equal; field. }
  assert (Ez : zn = z1).
  { unfold zn, z1, rkf_qz, quad, ad. rewrite !frR.
    change (nadd (Num:=RNum)) with Rplus. change (nmul (Num:=RNum)) with Rmult.
    destruct (g t), (g (t + 3 / 8 * h)), (g (t + 12 / 13 * h)), (g (t + h)), (g (t + 1 / 2 * h)), y. cbn. f_equal; field. }
  rewrite Ez, Ey. reflexivity.
Qed.

Lemma norm_dist (u v : vec6 RNum) : norm6R (v6sub (N:=RNum) u v) = dist6 u v.
Proof. destruct u, v. unfold norm6R, norm6, dist6. cbn. apply f_equal. ring. Qed.
Lemma next_step (tol d h : R) (y1 : vec6 RNum) :
  (0 < d -> 0 < tol -> bind (jdiv (N:=RNum) tol d) (fun q => Ok (y1, h * dec (N:=RNum) 84 2 * npow (Num:=RNum) q (fr (N:=RNum) 1 4)))
     = Ok (y1, h * (84 / 100) * Rpower (tol / d) (1 / 4))) /\
  (d = 0 -> bind (jdiv (N:=RNum) tol d) (fun q => Ok (y1, h * dec (N:=RNum) 84 2 * npow (Num:=RNum) q (fr (N:=RNum) 1 4)))
     = Err ZeroDivisionError).
Proof.
  split.
  - intros Hd Ht. rewrite jdivR by lra. cbn [bind]. do 3 f_equal. change (npow (Num:=RNum)) with (fun x y => match Rpowo x y with Some z => z | None => 0 end).
    cbv beta. unfold Rpowo. replace (Rltb 0 (tol / d)) with true; [reflexivity|]. symmetry. apply Rltb_true. apply Rdiv_lt_0_compat; assumption.
  - intros ->. rewrite jdivR0. reflexivity.
Qed.

Lemma C78_linear_lem (P : Type) (p : P) A (t h tol : R) y : linear6 A ->
  let y1 := series A (rkf_y h) y in let err := dist6 (series A (rkf_z h) y) y1 in
  let step := rkf45 (N:=RNum) (fun (_ : R) v (_ : P) => Ok (A v)) t h y p tol in
  (0 < err -> 0 < tol -> step = Ok (y1, h * (84 / 100) * Rpower (tol / err) (1 / 4))) /\
  (err = 0 -> step = Err ZeroDivisionError).
Proof.
  intros L y1 err step. unfold step. rewrite (rkf_linear A y L). rewrite norm_dist. apply next_step.
Qed.
Lemma C78_time_lem (P : Type) (p : P) (g : R -> vec6 RNum) (t h tol : R) y :
  let y1 := v6add (N:=RNum) y (quad g (rkf_qy t h)) in let err := dist6 (v6add (N:=RNum) y (quad g (rkf_qz t h))) y1 in
  let step := rkf45 (N:=RNum) (fun s (_ : vec6 RNum) (_ : P) => Ok (g s)) t h y p tol in
  (0 < err -> 0 < tol -> step = Ok (y1, h * (84 / 100) * Rpower (tol / err) (1 / 4))) /\
  (err = 0 -> step = Err ZeroDivisionError).
Proof.
  intros y1 err step. unfold step. rewrite rkf_quad. rewrite norm_dist. apply next_step.
Qed.

(** A (a,b,c,..) = (b,c,0,..) from (0,0,1): the solution is (t^2/2, t, 1) *)
Definition chain6 (v : vec6 RNum) : vec6 RNum := let 'mk6 a b c d e f := v in elems b c 0 0 0 0.
Lemma chain6_linear : linear6 chain6.
Proof. split; [intros [] []|intros k []]; unfold chain6, elems; cbn; f_equal; apply Rminus_diag_uniq; ring. Qed.
Lemma chain6_step (P : Type) (p : P) (t h tol : R) : 0 < h -> 0 < tol ->
  exists h', rkf45 (N:=RNum) (fun (_ : R) v (_ : P) => Ok (chain6 v)) t h (elems 0 0 1 0 0 0) p tol =
    Ok (elems (h ^ 3 * (116963 / 233757)) (h * (5612365 / 5610168)) 1 0 0 0, h').
Proof.
  intros Hh Ht. destruct (C78_linear_lem P p chain6 t h tol (elems 0 0 1 0 0 0) chain6_linear) as [H _].
  eexists. rewrite H; [|clear H|exact Ht].
  - assert (E : series chain6 (rkf_y h) (elems 0 0 1 0 0 0) = elems (h ^ 3 * (116963 / 233757)) (h * (5612365 / 5610168)) 1 0 0 0)
      by (unfold rkf_y, series, chain6, elems; cbn; f_equal; field).
    rewrite E. reflexivity.
  - unfold rkf_y, rkf_z, series, chain6, elems. cbn -[pow]. apply sqrt_lt_R0.
    match goal with |- 0 < ?a ^ 2 + ?b ^ 2 + ?c ^ 2 + ?d ^ 2 + ?e ^ 2 + ?f ^ 2 =>
      assert (0 < b ^ 2); [|pose proof (pow2_ge_0 a); pose proof (pow2_ge_0 c); pose proof (pow2_ge_0 d); pose proof (pow2_ge_0 e);
        pose proof (pow2_ge_0 f); lra] end.
    rewrite <- Rsqr_pow2. apply Rsqr_pos_lt. lra.
Qed.
Lemma C78_order_lem : exists A y (sol : R -> vec6 RNum), linear6 A /\ sol 0 = y /\
  (forall s, let 'mk6 a b c d e f := A (sol s) in
     derivable_pt_lim (fun x => let 'mk6 k _ _ _ _ _ := sol x in k) s a /\
     derivable_pt_lim (fun x => let 'mk6 _ k _ _ _ _ := sol x in k) s b /\
     derivable_pt_lim (fun x => let 'mk6 _ _ k _ _ _ := sol x in k) s c /\
     derivable_pt_lim (fun x => let 'mk6 _ _ _ k _ _ := sol x in k) s d /\
     derivable_pt_lim (fun x => let 'mk6 _ _ _ _ k _ := sol x in k) s e /\
     derivable_pt_lim (fun x => let 'mk6 _ _ _ _ _ k := sol x in k) s f) /\
  forall (P : Type) (p : P) t h tol, 0 < h <= 1 / 2 -> 0 < tol -> exists y' h',
    rkf45 (N:=RNum) (fun (_ : R) v (_ : P) => Ok (A v)) t h y p tol = Ok (y', h') /\ h ^ 2 / 5 <= dist6 y' (sol h).
Proof.
  exists chain6, (elems 0 0 1 0 0 0), (fun s => elems (s ^ 2 / 2) s 1 0 0 0). split; [exact chain6_linear|]. split.
  { unfold elems. f_equal; field. } split.
  { intros s. unfold chain6, elems. repeat split; try apply derivable_pt_lim_const; [|apply derivable_pt_lim_id].
    eapply dval; cycle 1; [unfold Rdiv; apply d_mult; [apply d_pow, d_id|apply d_const]|]. cbn. field. }
  intros P p t h tol Hh Ht. destruct (chain6_step P p t h tol) as (h' & E); [lra|exact Ht|]. do 2 eexists. split; [exact E|].
  unfold dist6, elems. 
  match goal with |- _ <= sqrt (?a ^ 2 + ?b ^ 2 + ?c ^ 2 + ?d ^ 2 + ?e ^ 2 + ?f ^ 2) =>
    pose proof (pow2_ge_0 b); pose proof (pow2_ge_0 c); pose proof (pow2_ge_0 d); pose proof (pow2_ge_0 e); pose proof (pow2_ge_0 f);
    apply Rle_trans with (sqrt (a ^ 2)); [|apply sqrt_le_1_alt; lra];
    rewrite <- (sqrt_pow2 (h ^ 2 / 5)) by (pose proof (pow2_ge_0 h); lra); apply sqrt_le_1_alt;
    rewrite <- (Rsqr_pow2 a), <- (Rsqr_pow2 (h ^ 2 / 5)); apply Rsqr_le_abs_1 end.
  rewrite (Rabs_right (h ^ 2 / 5)) by (pose proof (pow2_ge_0 h); lra).
  rewrite Rabs_left1; pose proof (pow2_ge_0 h); assert (h ^ 3 <= h ^ 2 / 2) by (replace (h ^ 3) with (h ^ 2 * h) by ring; nra); lra.
Qed.

(** the solution it compares with integrates polynomials in time of degree four exactly *)
Lemma C78_compared_lem (t h : R) :
  let m n := fold_right (fun ws a => fst ws * snd ws ^ n + a) 0 (rkf_qz t h) in
  m 0%nat = h /\ m 1%nat = ((t + h) ^ 2 - t ^ 2) / 2 /\ m 2%nat = ((t + h) ^ 3 - t ^ 3) / 3 /\
  m 3%nat = ((t + h) ^ 4 - t ^ 4) / 4 /\ m 4%nat = ((t + h) ^ 5 - t ^ 5) / 5.
Proof. intros m. unfold m, rkf_qz. cbn [fold_right fst snd]. repeat split; field. Qed.
