(** Turned axes and whole turns: laws, dynamics and runs. *)
From Coq Require Import Reals Lra Lia ZArith List Bool.
From Verif Require Import RMath RLib Num Base Elements Integrate Eom Convergence Lyapunov Symbolic SymKep SymMee Perturb PlotHelper Qlaw Spec NanProofs ScaleSpec DimProofs ScaleProofs SymRun TurnSpec.
Import ListNotations.
Local Open Scope R_scope.

(** ** shifts *)
Lemma plus_0 x : plus x 0 = x.
Proof. unfold plus. destruct x; cbn; try reflexivity. f_equal. ring. Qed.
Lemma plus_plus x c d : plus (plus x c) d = plus x (c + d).
Proof. unfold plus. destruct x; cbn; try reflexivity. f_equal. ring. Qed.
Lemma plus_eq x c d : c = d -> plus x c = plus x d.
Proof. intros ->. reflexivity. Qed.
Lemma add_plus_l x y c : xadd (plus x c) y = plus (xadd x y) c.
Proof. unfold plus. destruct x, y; cbn; try reflexivity. f_equal. ring. Qed.
Lemma add_plus_r x y c : xadd x (plus y c) = plus (xadd x y) c.
Proof. unfold plus. destruct x, y; cbn; try reflexivity. f_equal. ring. Qed.
Lemma sub_plus_l x y c : xsub (plus x c) y = plus (xsub x y) c.
Proof. unfold plus. destruct x, y; cbn; try reflexivity. f_equal. ring. Qed.
Lemma sub_plus_r x y c : xsub x (plus y c) = plus (xsub x y) (- c).
Proof. unfold plus. destruct x, y; cbn; try reflexivity. f_equal. ring. Qed.
Lemma opp_plus x c : xopp (plus x c) = plus (xopp x) (- c).
Proof. unfold plus. destruct x; cbn; try reflexivity. f_equal. ring. Qed.
Lemma sub_plus2 x y c : xsub (plus x c) (plus y c) = xsub x y.
Proof. rewrite sub_plus_l, sub_plus_r, plus_plus. rewrite <- (plus_0 (xsub x y)) at 2. apply plus_eq. ring. Qed.
Lemma ltb_plus x y c : xltb (plus x c) (plus y c) = xltb x y.
Proof. unfold plus. destruct x, y; cbn; try reflexivity. destruct (Rltb_spec (r + c) (r0 + c)), (Rltb_spec r r0); try reflexivity; lra. Qed.
Lemma cos_turn x k : cos (x + 2 * PI * IZR k) = cos x.
Proof.
  destruct (Z_le_gt_dec 0 k) as [H|H].
  - rewrite <- (Z2Nat.id k H), <- INR_IZR_INZ. replace (2 * PI * INR (Z.to_nat k)) with (2 * INR (Z.to_nat k) * PI) by ring. apply cos_period.
  - rewrite <- (cos_period (x + 2 * PI * IZR k) (Z.to_nat (- k))). f_equal. rewrite INR_IZR_INZ, Z2Nat.id by lia. rewrite opp_IZR. ring.
Qed.
Lemma sin_turn x k : sin (x + 2 * PI * IZR k) = sin x.
Proof.
  destruct (Z_le_gt_dec 0 k) as [H|H].
  - rewrite <- (Z2Nat.id k H), <- INR_IZR_INZ. replace (2 * PI * INR (Z.to_nat k)) with (2 * INR (Z.to_nat k) * PI) by ring. apply sin_period.
  - rewrite <- (sin_period (x + 2 * PI * IZR k) (Z.to_nat (- k))). f_equal. rewrite INR_IZR_INZ, Z2Nat.id by lia. rewrite opp_IZR. ring.
Qed.
Lemma xcos_turn x k : xlift cos (plus x (2 * PI * IZR k)) = xlift cos x.
Proof. unfold plus. destruct x; cbn; try reflexivity. rewrite cos_turn. reflexivity. Qed.
Lemma xsin_turn x k : xlift sin (plus x (2 * PI * IZR k)) = xlift sin x.
Proof. unfold plus. destruct x; cbn; try reflexivity. rewrite sin_turn. reflexivity. Qed.
Lemma tan_pi x : tan (x + PI) = tan x.
Proof.
  unfold tan. rewrite neg_sin, neg_cos. destruct (Req_dec (cos x) 0) as [E|E]; [|field; exact E].
  rewrite E. replace (- 0) with 0 by ring. unfold Rdiv. rewrite Rinv_0. ring.
Qed.
Lemma tan_turn_nat x n : tan (x + PI * INR n) = tan x.
Proof.
  induction n as [|n IH]; [f_equal; cbn; ring|]. rewrite S_INR. replace (x + PI * (INR n + 1)) with (x + PI * INR n + PI) by ring. rewrite tan_pi. exact IH.
Qed.
Lemma tan_turn x k : tan (x + PI * IZR k) = tan x.
Proof.
  destruct (Z_le_gt_dec 0 k) as [H|H].
  - rewrite <- (Z2Nat.id k H), <- INR_IZR_INZ. apply tan_turn_nat.
  - rewrite <- (tan_turn_nat (x + PI * IZR k) (Z.to_nat (- k))). f_equal. rewrite INR_IZR_INZ, Z2Nat.id by lia. rewrite opp_IZR. ring.
Qed.
Lemma xtan_turn x k : xlift tan (xdiv (plus x (2 * PI * IZR k)) (Fin 2)) = xlift tan (xdiv x (Fin 2)).
Proof.
  unfold plus. destruct x; cbn; try reflexivity. destruct (Reqb_spec 2 0) as [E|E]; [lra|]. cbn. f_equal. rewrite <- (tan_turn (r / 2) k). f_equal. field.
Qed.

(** ** which expressions a turn leaves alone: [Same], or shifted by a multiple of the turn of the axes plus whole turns *)
Inductive kind : Type := Same | Turned (r : Z).
Fixpoint kind_of (kv : var -> kind) (e : expr) : option kind :=
  let all_same l := if forallb (fun x => match x with Some Same => true | _ => false end) l then Some Same else None in
  match e with
  | EVar v => Some (kv v)
  | ERat _ _ => Some Same
  | EAdd a b => match kind_of kv a, kind_of kv b with
      | Some Same, Some Same => Some Same
      | Some (Turned r), Some Same => Some (Turned r)
      | Some Same, Some (Turned r) => Some (Turned r)
      | Some (Turned r), Some (Turned r') => Some (Turned (r + r'))
      | _, _ => None end
  | ESub a b => match kind_of kv a, kind_of kv b with
      | Some Same, Some Same => Some Same
      | Some (Turned r), Some Same => Some (Turned r)
      | Some Same, Some (Turned r) => Some (Turned (- r))
      | Some (Turned r), Some (Turned r') => Some (Turned (r - r'))
      | _, _ => None end
  | ESin a | ECos a => match kind_of kv a with Some Same => Some Same | Some (Turned r) => if Z.eqb r 0 then Some Same else None | None => None end
  | EMul a b | EDiv a b | EPow a b => all_same [kind_of kv a; kind_of kv b]
  | EOpp a | ESqrt a | EAcos a | EAtan a | EExp a | ESq a | ECube a => all_same [kind_of kv a]
  end.
Section Kind.
Variable d : R.
Definition has_kind (k : kind) (x x' : ereal) : Prop :=
  match k with Same => x' = x | Turned r => exists n, x' = plus x (IZR r * d + 2 * PI * IZR n) end.
Variable kv : var -> kind.
Variables env env' : var -> ereal.
Hypothesis He : forall v, has_kind (kv v) (env v) (env' v).
Lemma kind_sound e : forall k, kind_of kv e = Some k -> has_kind k (eval (N:=XNum) env e) (eval (N:=XNum) env' e).
Proof.
  induction e as [v|z1 z2|a IHa b IHb|a IHa b IHb|a IHa b IHb|a IHa b IHb|a IHa|a IHa|a IHa|a IHa|a IHa|a IHa|a IHa|a IHa|a IHa|a IHa b IHb]; intros k E; cbn [kind_of forallb] in E;
  repeat match type of E with context [match kind_of kv ?t with _ => _ end] => let F := fresh "F" in destruct (kind_of kv t) as [[|?r]|] eqn:F; cbn [andb] in E; try discriminate end;
  try (injection E as <-); cbn [eval].
  - apply He.
  - cbn. reflexivity.
  - cbn in *. rewrite (IHa _ eq_refl), (IHb _ eq_refl). reflexivity.
  - cbn in *. destruct (IHb _ eq_refl) as (n & ->). rewrite (IHa _ eq_refl). exists n. apply add_plus_r.
  - cbn in *. destruct (IHa _ eq_refl) as (n & ->). rewrite (IHb _ eq_refl). exists n. apply add_plus_l.
  - cbn in *. destruct (IHa _ eq_refl) as (n & ->). destruct (IHb _ eq_refl) as (m & ->). exists (n + m)%Z. rewrite add_plus_l, add_plus_r, plus_plus. apply plus_eq. rewrite !plus_IZR. ring.
  - cbn in *. rewrite (IHa _ eq_refl), (IHb _ eq_refl). reflexivity.
  - cbn in *. destruct (IHb _ eq_refl) as (n & ->). rewrite (IHa _ eq_refl). exists (- n)%Z. rewrite sub_plus_r. apply plus_eq. rewrite !opp_IZR. ring.
  - cbn in *. destruct (IHa _ eq_refl) as (n & ->). rewrite (IHb _ eq_refl). exists n. apply sub_plus_l.
  - cbn in *. destruct (IHa _ eq_refl) as (n & ->). destruct (IHb _ eq_refl) as (m & ->). exists (n - m)%Z. rewrite sub_plus_l, sub_plus_r, plus_plus. apply plus_eq. rewrite !minus_IZR. ring.
  - cbn in *. rewrite (IHa _ eq_refl), (IHb _ eq_refl). reflexivity.
  - cbn in *. rewrite (IHa _ eq_refl), (IHb _ eq_refl). reflexivity.
  - cbn in *. rewrite (IHa _ eq_refl). reflexivity.
  - cbn in *. rewrite (IHa _ eq_refl). reflexivity.
  - cbn in *. rewrite (IHa _ eq_refl). reflexivity.
  - destruct (Z.eqb_spec r 0) as [->|]; [|discriminate]. injection E as <-. cbn in *. destruct (IHa _ eq_refl) as (n & ->). replace (0 * d + 2 * PI * IZR n) with (2 * PI * IZR n) by ring. apply xsin_turn.
  - cbn in *. rewrite (IHa _ eq_refl). reflexivity.
  - destruct (Z.eqb_spec r 0) as [->|]; [|discriminate]. injection E as <-. cbn in *. destruct (IHa _ eq_refl) as (n & ->). replace (0 * d + 2 * PI * IZR n) with (2 * PI * IZR n) by ring. apply xcos_turn.
  - cbn in *. rewrite (IHa _ eq_refl). reflexivity.
  - cbn in *. rewrite (IHa _ eq_refl). reflexivity.
  - cbn in *. rewrite (IHa _ eq_refl). reflexivity.
  - cbn in *. rewrite (IHa _ eq_refl). reflexivity.
  - cbn in *. rewrite (IHa _ eq_refl). reflexivity.
  - cbn in *. rewrite (IHa _ eq_refl), (IHb _ eq_refl). reflexivity.
Qed.
Definition same (e : expr) : bool := match kind_of kv e with Some Same => true | _ => false end.
Lemma same_eval e : same e = true -> eval (N:=XNum) env' e = eval (N:=XNum) env e.
Proof. unfold same. intros E. destruct (kind_of kv e) as [[|]|] eqn:F; try discriminate. exact (kind_sound e _ F). Qed.
Lemma same_eval3 l : forallb same l = true -> eval3 (N:=XNum) env' l = eval3 (N:=XNum) env l.
Proof.
  destruct l as [|a [|b [|c [|]]]]; try reflexivity. cbn [forallb]. intros E. repeat (apply andb_true_iff in E; destruct E as [? E]).
  cbn [eval3]. rewrite !same_eval by assumption. reflexivity.
Qed.
Lemma same_eval5 l : forallb same l = true -> eval5 (N:=XNum) env' l = eval5 (N:=XNum) env l.
Proof.
  destruct l as [|a [|b [|c [|d0 [|e0 [|]]]]]]; try reflexivity. cbn [forallb]. intros E. repeat (apply andb_true_iff in E; destruct E as [? E]).
  cbn [eval5]. rewrite !same_eval by assumption. reflexivity.
Qed.
Lemma same_evalpsi l : forallb (forallb same) l = true -> evalpsi (N:=XNum) env' l = evalpsi (N:=XNum) env l.
Proof.
  destruct l as [|a [|b [|c [|]]]]; try reflexivity. cbn [forallb]. intros E. repeat (apply andb_true_iff in E; destruct E as [? E]).
  cbn [evalpsi]. rewrite !same_eval5 by assumption. reflexivity.
Qed.
End Kind.
Definition kep_kind (v : var) : kind := match v with Voe3 | VT3 => Turned 1 | Voe4 | Voe5 | VT4 => Turned 0 | _ => Same end.
Definition mee_kind (v : var) : kind := match v with Voe5 => Turned 0 | _ => Same end.
Definition law_same (kv : var -> kind) (psi : list (list expr)) (q : expr) : bool :=
  (forallb (same kv) (usym psi q) && forallb (forallb (same kv)) psi && same kv q && forallb (same kv) (dqdoe q) && same kv (dqdt_expr psi q))%bool.
Lemma kep_same : law_same kep_kind SymKep.psi SymKep.q = true.
Proof. vm_compute. reflexivity. Qed.
Lemma mee_same : law_same mee_kind SymMee.psi SymMee.q = true.
Proof. vm_compute. reflexivity. Qed.

Section Turn.
Variable w : turns.
Notation phi := (oe_turn w).

Lemma oe_unturn x : oe_turn (unturn w) (phi x) = x.
Proof.
  destruct x as [a e i ra om ta]. cbn [oe_turn unturn w_axes w_ra w_om w_ta]. rewrite !plus_plus, !opp_IZR. f_equal.
  - rewrite <- (plus_0 ra) at 2. apply plus_eq. ring.
  - rewrite <- (plus_0 om) at 2. apply plus_eq. ring.
  - rewrite <- (plus_0 ta) at 2. apply plus_eq. ring.
Qed.
Lemma add_turn x v : v6add (N:=XNum) (phi x) v = phi (v6add (N:=XNum) x v).
Proof. destruct x, v. cbn [oe_turn v6add]. change (nadd (Num:=XNum)) with xadd. rewrite !add_plus_l. reflexivity. Qed.
Lemma sub_turn x v : v6sub (N:=XNum) (phi x) v = phi (v6sub (N:=XNum) x v).
Proof. destruct x, v. cbn [oe_turn v6sub]. change (nsub (Num:=XNum)) with xsub. rewrite !sub_plus_l. reflexivity. Qed.
Lemma diff_turn x v : v6sub (N:=XNum) (phi x) (phi v) = v6sub (N:=XNum) x v.
Proof. destruct x, v. cbn [oe_turn v6sub]. change (nsub (Num:=XNum)) with xsub. rewrite !sub_plus2. reflexivity. Qed.
Lemma diff_turn' x v : phi (v6sub (N:=XNum) x (phi v)) = v6sub (N:=XNum) x v.
Proof. rewrite <- sub_turn. apply diff_turn. Qed.
Lemma clamp_turn c lo x hi : clamp1 (N:=XNum) (plus lo c) (plus x c) (plus hi c) = plus (clamp1 (N:=XNum) lo x hi) c.
Proof.
  unfold clamp1, pymin, pymax. change (nltb (Num:=XNum)) with xltb. rewrite ltb_plus.
  destruct (xltb lo x); rewrite ltb_plus; match goal with |- context [if ?b then _ else _] => destruct b end; reflexivity.
Qed.
Lemma safety_turn x lo hi : elements_safety (N:=XNum) (phi x) (bound_turn w lo) (bound_turn w hi) = phi (elements_safety (N:=XNum) x lo hi).
Proof. destruct x, lo, hi. cbn [oe_turn bound_turn elements_safety]. rewrite !clamp_turn. reflexivity. Qed.

(** integrators: the right-hand side does not see the turn *)
Lemma rk4_turn (f : eom_fn (N:=XNum)) t h y prm : (forall t x prm, f t (phi x) prm = f t x prm) ->
  rk4 (N:=XNum) f t h (phi y) prm = Rmap phi (rk4 (N:=XNum) f t h y prm).
Proof.
  intros Hf. unfold rk4. rewrite Hf, bind_rmap. apply bind_ext. intros k1. rewrite add_turn, Hf, bind_rmap. apply bind_ext. intros k2.
  rewrite add_turn, Hf, bind_rmap. apply bind_ext. intros k3. rewrite add_turn, Hf, bind_rmap. apply bind_ext. intros k4. rewrite add_turn. reflexivity.
Qed.
Lemma rkf45_turn (f : eom_fn (N:=XNum)) t h y prm tol : (forall t x prm, f t (phi x) prm = f t x prm) ->
  rkf45 (N:=XNum) f t h (phi y) prm tol = Rmap (fun r : vec6 XNum * ereal => (phi (fst r), snd r)) (rkf45 (N:=XNum) f t h y prm tol).
Proof.
  intros Hf. unfold rkf45. cbv zeta. rewrite Hf, bind_rmap. apply bind_ext. intros k1.
  rewrite ?add_turn, ?sub_turn, Hf, bind_rmap. apply bind_ext. intros k2.
  repeat (rewrite ?add_turn, ?sub_turn). rewrite Hf, bind_rmap. apply bind_ext. intros k3.
  repeat (rewrite ?add_turn, ?sub_turn). rewrite Hf, bind_rmap. apply bind_ext. intros k4.
  repeat (rewrite ?add_turn, ?sub_turn). rewrite Hf, bind_rmap. apply bind_ext. intros k5.
  repeat (rewrite ?add_turn, ?sub_turn). rewrite Hf, bind_rmap. apply bind_ext. intros k6.
  repeat (rewrite ?add_turn, ?sub_turn). rewrite diff_turn', bind_rmap. reflexivity.
Qed.
Lemma kep_eom_turn t x prm : eom_kep_gauss (N:=XNum) t (phi x) prm = eom_kep_gauss (N:=XNum) t x prm.
Proof.
  destruct x as [a e i ra om ta]. unfold eom_kep_gauss. cbn [oe_turn]. change (ncos (Num:=XNum)) with (xlift cos). change (nsin (Num:=XNum)) with (xlift sin).
  rewrite xcos_turn, xsin_turn. reflexivity.
Qed.
Lemma ta2ea_turn ta e k : ta2ea (N:=XNum) (plus ta (2 * PI * IZR k)) e = ta2ea (N:=XNum) ta e.
Proof.
  unfold ta2ea. apply bind_ext. intros c. change (ntan (Num:=XNum)) with (xlift tan). change (ndiv (Num:=XNum)) with xdiv. change (nofZ (Num:=XNum) 2) with (Fin 2).
  rewrite xtan_turn. reflexivity.
Qed.

(** grid of the effectivities *)
Lemma grid_turn (s : ereal) c n : tl (linspace (N:=XNum) (plus s c) (nadd (Num:=XNum) (plus s c) (nmul (Num:=XNum) (nofZ (Num:=XNum) 2) (npi (Num:=XNum)))) n) =
  map (fun x => plus x c) (tl (linspace (N:=XNum) s (nadd (Num:=XNum) s (nmul (Num:=XNum) (nofZ (Num:=XNum) 2) (npi (Num:=XNum)))) n)).
Proof.
  change (nadd (Num:=XNum)) with xadd. rewrite add_plus_l. set (e := xadd s _). clearbody e.
  assert (X : linspace (N:=XNum) (plus s c) (plus e c) n = map (fun x => plus x c) (linspace (N:=XNum) s e n)).
  { destruct n as [|[|n]]; [reflexivity|reflexivity|]. unfold linspace. change (nadd (Num:=XNum)) with xadd. change (nsub (Num:=XNum)) with xsub.
    rewrite sub_plus2. cbv zeta. rewrite map_app, map_map. f_equal. apply map_ext. intros i. rewrite add_plus_l. reflexivity. }
  rewrite X. destruct (linspace (N:=XNum) s e n); reflexivity.
Qed.
Lemma mapM_map {A B C} (f : B -> Res C) (g : A -> B) l : mapM f (map g l) = mapM (fun x => f (g x)) l.
Proof. induction l as [|x l IH]; [reflexivity|]. cbn [map mapM]. rewrite IH. reflexivity. Qed.
Lemma mapM_ext {A B} (f g : A -> Res B) l : (forall x, f x = g x) -> mapM f l = mapM g l.
Proof. intros H. induction l as [|x l IH]; [reflexivity|]. cbn [mapM]. rewrite H, IH. reflexivity. Qed.

(** ** laws *)
Lemma target_turn5 l : list_to_vec5 (N:=XNum) (target_turn w l) =
  option_map (fun v : vec5 XNum => let 'mk5 a e i ra om := v in @mk5 XNum a e i (plus ra (w_axes w + 2 * PI * IZR (w_raT w))) (plus om (2 * PI * IZR (w_omT w)))) (list_to_vec5 (N:=XNum) l).
Proof. destruct l as [|a [|b [|c [|d [|e [|f l]]]]]]; reflexivity. Qed.
Lemma law_turn kv psi q mu f oe oe' oeT oeT' rpmin m n r b k wp woe : law_same kv psi q = true ->
  (forall v, has_kind (w_axes w) (kv v) (mkenv (N:=XNum) mu f oe oeT rpmin m n r b k wp woe v) (mkenv (N:=XNum) mu f oe' oeT' rpmin m n r b k wp woe v)) ->
  let E := mkenv (N:=XNum) mu f oe oeT rpmin m n r b k wp woe in let E' := mkenv (N:=XNum) mu f oe' oeT' rpmin m n r b k wp woe in
  eval3 E' (usym psi q) = eval3 E (usym psi q) /\ evalpsi E' psi = evalpsi E psi /\ eval E' q = eval E q /\ eval5 E' (dqdoe q) = eval5 E (dqdoe q) /\
  eval E' (dqdt_expr psi q) = eval E (dqdt_expr psi q).
Proof.
  intros S H E E'. fold E E' in H. clearbody E E'. unfold law_same in S.
  generalize dependent (dqdt_expr psi q). generalize dependent (dqdoe q). generalize dependent (usym psi q). intros us dl dq S.
  repeat (apply andb_true_iff in S; destruct S as [S ?]).
  split; [eapply same_eval3; eassumption|]. split; [eapply same_evalpsi; eassumption|]. split; [eapply same_eval; eassumption|].
  split; [eapply same_eval5; eassumption|eapply same_eval; eassumption].
Qed.
Lemma kep_law_turn mu f oe oeT rpmin m n r b k wp woe :
  lyap_keplerian (N:=XNum) mu f (phi oe) (target_turn w oeT) rpmin m n r b k wp woe = lyap_keplerian (N:=XNum) mu f oe oeT rpmin m n r b k wp woe /\
  dqdt_keplerian (N:=XNum) mu f (phi oe) (target_turn w oeT) rpmin m n r b k wp woe = dqdt_keplerian (N:=XNum) mu f oe oeT rpmin m n r b k wp woe.
Proof.
  unfold lyap_keplerian, dqdt_keplerian, lyap_of, dqdt_of. rewrite target_turn5. destruct (list_to_vec5 oeT) as [[a e i ra om]|]; cbn [option_map]; [|auto].
  match goal with |- context [mkenv (N:=XNum) mu f (phi oe) ?t' rpmin m n r b k wp woe] => set (T' := t') end. set (T := @mk5 XNum a e i ra om).
  destruct (law_turn kep_kind SymKep.psi SymKep.q mu f oe (phi oe) T T' rpmin m n r b k wp woe kep_same) as (E1 & E2 & E3 & E4 & E5).
  - intros v. destruct oe as [o0 o1 o2 o3 o4 o5]. destruct v; cbn [kep_kind has_kind mkenv oe_turn T T' v6_0 v6_1 v6_2 v6_3 v6_4 v6_5 v5_0 v5_1 v5_2 v5_3 v5_4]; try reflexivity; eexists; apply plus_eq.
    + replace (1 * w_axes w) with (w_axes w) by ring. reflexivity.
    + replace (0 * w_axes w) with 0 by ring. rewrite Rplus_0_l. reflexivity.
    + replace (0 * w_axes w) with 0 by ring. rewrite Rplus_0_l. reflexivity.
    + replace (1 * w_axes w) with (w_axes w) by ring. reflexivity.
    + replace (0 * w_axes w) with 0 by ring. rewrite Rplus_0_l. reflexivity.
  - rewrite E1, E2, E3, E4, E5. auto.
Qed.
Lemma dist_turn x y c k k' : xabs (xacos (xlift cos (xsub (plus x (c + 2 * PI * IZR k)) (plus y (c + 2 * PI * IZR k'))))) = xabs (xacos (xlift cos (xsub x y))).
Proof.
  rewrite sub_plus_l, sub_plus_r, plus_plus. f_equal. f_equal. rewrite <- (xcos_turn (xsub x y) (k - k')). f_equal. apply plus_eq. rewrite minus_IZR. ring.
Qed.
Lemma kep_check_turn x t wo tol : check_convergence_keplerian (N:=XNum) (phi x) (target_turn w t) wo tol = check_convergence_keplerian (N:=XNum) x t wo tol.
Proof.
  destruct t as [|t0 [|t1 [|t2 [|t3 [|t4 t]]]]]; try reflexivity. destruct x as [a e i ra om ta]. cbn [target_turn check_convergence_keplerian oe_turn].
  change (nabs (Num:=XNum)) with xabs. change (nacos (Num:=XNum)) with xacos. change (ncos (Num:=XNum)) with (xlift cos). change (nsub (Num:=XNum)) with xsub.
  rewrite dist_turn. replace (2 * PI * IZR (w_om w)) with (0 + 2 * PI * IZR (w_om w)) by ring. replace (2 * PI * IZR (w_omT w)) with (0 + 2 * PI * IZR (w_omT w)) by ring.
  rewrite dist_turn. reflexivity.
Qed.
End Turn.
