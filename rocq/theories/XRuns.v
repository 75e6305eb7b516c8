(** Concrete runs over the extended reals, for the examples beside the theorems. *)
From Coq Require Import Reals QArith Qreals ZArith List Bool Lia Lra.
From Verif Require Import RMath Num Base Integrate Perturb Qlaw Spec XSpec XTrace Sim Runs.
Import ListNotations.

Definition noX : eta_arg XNum := EtaFloat (N:=XNum) (Fin 0).
Definition recorded (h : hist XNum) (ts ms bs : list Q) (thr : list Z) : Prop :=
  h_times h = map fq ts /\ h_masses h = map fq ms /\ h_battery h = map fq bs /\ map snd (h_controls h) = thr.

Lemma map_emb_some l : map emb (map Some l) = map fq l.
Proof. rewrite map_map. reflexivity. Qed.

Lemma toy_run ig a n ts ms bs thr code : ~ (b_dis a == 0)%Q ->
  match solve n (toyQ ig a) no_eta no_eta with
  | Returns o' => match q_hist o' with
      | Some h => h_times h = map Some ts /\ h_masses h = map Some ms /\ h_battery h = map Some bs /\
                  map snd (h_controls h) = thr /\ q_exitcode o' = code
      | None => False end
  | _ => False end ->
  exists o2 h2, ran n (toyX ig a) noX noX (probX a) o2 h2 /\ recorded h2 ts ms bs thr /\ q_exitcode o2 = code.
Proof.
  intros Hd H. apply (ran_of n (toyQ ig a) no_eta no_eta (probQ a)) in H; [|reflexivity].
  destruct H as (o1 & h1 & R & T & M & B & C & X).
  destruct (toy_transfer ig a Hd n o1 h1 R) as (o2 & h2 & R2 & [S1 S2 S3 S4] & E).
  exists o2, h2. split; [exact R2|]. split; [|rewrite E; exact X].
  repeat split; [rewrite S1, T|rewrite S2, M|rewrite S3, B|rewrite S4; exact C]; apply map_emb_some.
Qed.

Ltac toyrun := apply toy_run; [vm_compute; discriminate|vm_compute; repeat split; reflexivity].

(** Q2R of a literal, as a real fraction. *)
Ltac q2r := unfold Q2R, fq in *; simpl; try lra.

Lemma rec_t h ts ms bs thr k q : recorded h ts ms bs thr -> nth_error ts k = Some q -> entry (h_times h) k (Q2R q).
Proof. intros (-> & _) H. unfold entry. apply (map_nth_error fq _ _ H). Qed.
Lemma rec_m h ts ms bs thr k q : recorded h ts ms bs thr -> nth_error ms k = Some q -> entry (h_masses h) k (Q2R q).
Proof. intros (_ & -> & _) H. unfold entry. apply (map_nth_error fq _ _ H). Qed.
Lemma rec_b h ts ms bs thr k q : recorded h ts ms bs thr -> nth_error bs k = Some q -> entry (h_battery h) k (Q2R q).
Proof. intros (_ & _ & -> & _) H. unfold entry. apply (map_nth_error fq _ _ H). Qed.
Lemma rec_c h ts ms bs thr k z : recorded h ts ms bs thr -> nth_error thr k = Some z -> throttle h k z.
Proof. intros (_ & _ & _ & E) H. unfold throttle. rewrite E. exact H. Qed.

(** Battery of 3/2 drained at 1 and charged at 1/2 per unit time, full recharge required:
    thrust, thrust on a shortened step, recharge three steps, thrust again. *)
Definition a_cycle : qprob := mkqp 10 (1 # 10) 6 1 (1 # 10) 100 0 (3 # 2) 0 (3 # 2) (1 # 2) 1 true.
Lemma run_cycle : exists o2 h2, ran 10 (toyX RK4 a_cycle) noX noX (probX a_cycle) o2 h2 /\
  recorded h2 [0; 1; 3 # 2; 5 # 2; 7 # 2; 9 # 2; 11 # 2; 6]
     [10; 99 # 10; 197 # 20; 197 # 20; 197 # 20; 197 # 20; 39 # 4; 97 # 10]
     [3 # 2; 1 # 2; 0; 1 # 2; 1; 3 # 2; 1 # 2; 0] [1; 1; 0; 0; 0; 1; 1]%Z /\ q_exitcode o2 = (-2)%Z.
Proof. toyrun. Qed.

(** Same without the full-recharge requirement: step 3 thrusts for a whole unit of time on 1/2. *)
Definition a_nofull : qprob := mkqp 10 (1 # 10) 4 1 (1 # 10) 100 0 1 0 10 (1 # 2) 1 false.
Lemma run_nofull : exists o2 h2, ran 10 (toyX RK4 a_nofull) noX noX (probX a_nofull) o2 h2 /\
  recorded h2 [0; 1; 2; 3; 4] [10; 99 # 10; 99 # 10; 49 # 5; 49 # 5] [1; 0; 1 # 2; 0; 1 # 2] [1; 0; 1; 0]%Z /\
  q_exitcode o2 = (-2)%Z.
Proof. toyrun. Qed.

(** Duty cycle 1 on / 1 off with step 1/2. *)
Definition a_duty : qprob := mkqp 10 (1 # 10) 5 (1 # 2) (1 # 10) 1 1 50 0 100 (1 # 2) (1 # 2) false.
Lemma run_duty : exists o2 h2, ran 20 (toyX RK4 a_duty) noX noX (probX a_duty) o2 h2 /\
  (exists ts ms bs, recorded h2 ts ms bs [1; 1; 1; 0; 0; 0; 1; 1; 1; 0]%Z /\
   ts = [0; 1 # 2; 1; 3 # 2; 2; 5 # 2; 3; 7 # 2; 4; 9 # 2; 5]%Q).
Proof.
  assert (H : exists ts ms bs thr code, 
    ts = [0; 1 # 2; 1; 3 # 2; 2; 5 # 2; 3; 7 # 2; 4; 9 # 2; 5]%Q /\ thr = [1; 1; 1; 0; 0; 0; 1; 1; 1; 0]%Z /\
    match solve 20 (toyQ RK4 a_duty) no_eta no_eta with
    | Returns o' => match q_hist o' with
        | Some h => h_times h = map Some ts /\ h_masses h = map Some ms /\ h_battery h = map Some bs /\
                    map snd (h_controls h) = thr /\ q_exitcode o' = code
        | None => False end
    | _ => False end).
  { eexists _, [10; 199 # 20; 99 # 10; 197 # 20; 197 # 20; 197 # 20; 197 # 20; 49 # 5; 39 # 4; 97 # 10; 97 # 10]%Q,
      [50; 199 # 4; 99 # 2; 197 # 4; 99 # 2; 199 # 4; 50; 199 # 4; 99 # 2; 197 # 4; 99 # 2]%Q, _, (-2)%Z.
    split; [reflexivity|]. split; [reflexivity|]. vm_compute. repeat split; reflexivity. }
  destruct H as (ts & ms & bs & thr & code & -> & -> & H).
  apply toy_run in H; [|vm_compute; discriminate]. destruct H as (o2 & h2 & R & C & _).
  exists o2, h2. split; [exact R|]. eauto.
Qed.

(** Backward in time, with a duty cycle of 1 on / 1 off that is never enforced. *)
Definition a_back : qprob := mkqp 10 (1 # 10) 4 (-1) (1 # 10) 1 1 50 0 100 (1 # 2) (1 # 2) false.
Lemma run_back : exists o2 h2, ran 10 (toyX RK4 a_back) noX noX (probX a_back) o2 h2 /\
  recorded h2 [0; -1; -2; -3; -4] [10; 101 # 10; 51 # 5; 103 # 10; 52 # 5]
    [50; 101 # 2; 51; 103 # 2; 52] [1; 1; 1; 1]%Z /\ q_exitcode o2 = (-2)%Z.
Proof. toyrun. Qed.

(** rkf45 with t_step = 1/20000: the battery is integrated over 2 per step. *)
Definition a_fehl : qprob := mkqp 10 (1 # 10) (1 # 10000) (1 # 20000) (1 # 10) 100 0 5 0 10 (1 # 10) (1 # 10) false.
Lemma run_fehl : exists o2 h2, ran 10 (toyX RKF45 a_fehl) noX noX (probX a_fehl) o2 h2 /\
  recorded h2 [0; 1 # 20000; 1 # 10000] [10; 1999999 # 200000; 999999 # 100000]
    [5; 24 # 5; 23 # 5] [1; 1]%Z /\ q_exitcode o2 = (-2)%Z.
Proof. toyrun. Qed.

Local Open Scope R_scope.
Lemma C17_refuted_lem : exists (o : qlaw XNum) p a fuel o' h k t t' b,
  regular o p a /\ ran fuel o noX noX p o' h /\ q_integ o = RK4 /\ 0 < a_ts a /\ 0 <= a_dis a /\
  a_lo a <= a_hi a /\ a_b0 a <= a_hi a /\ throttle h k 1 /\
  entry (h_times h) k t /\ entry (h_times h) (S k) t' /\ entry (h_battery h) k b /\
  b - a_dis a * (t' - t) < a_lo a.
Proof.
  destruct run_nofull as (o' & h & R & C & _).
  exists (toyX RK4 a_nofull), (probX a_nofull), (parX a_nofull), 10%nat, o', h, 2%nat, (Q2R 2), (Q2R 3), (Q2R (1 # 2)).
  split; [apply toy_regular|]. split; [exact R|]. split; [reflexivity|].
  split; [simpl; q2r|]. split; [simpl; q2r|]. split; [simpl; q2r|]. split; [simpl; q2r|].
  split; [apply (rec_c _ _ _ _ _ _ _ C); reflexivity|].
  split; [apply (rec_t _ _ _ _ _ _ _ C); reflexivity|].
  split; [apply (rec_t _ _ _ _ _ _ _ C); reflexivity|].
  split; [apply (rec_b _ _ _ _ _ _ _ C); reflexivity|].
  simpl. q2r.
Qed.

Lemma C18_refuted_lem : exists (o : qlaw XNum) p a fuel o' h k t t' b b',
  regular o p a /\ ran fuel o noX noX p o' h /\ q_integ o = RKF45 /\ q_step_min o = Fin (1 / 10 ^ 4) /\
  0 < a_ts a < 1 / 10 ^ 4 /\ 0 < a_dis a /\ 0 < a_ch a /\
  entry (h_times h) k t /\ entry (h_times h) (S k) t' /\ entry (h_battery h) k b /\
  entry (h_battery h) (S k) b' /\ a_lo a < b' < a_hi a /\
  b' <> b - a_dis a * (t' - t) /\ b' <> b + a_ch a * (t' - t).
Proof.
  destruct run_fehl as (o' & h & R & C & _).
  exists (toyX RKF45 a_fehl), (probX a_fehl), (parX a_fehl), 10%nat, o', h, 0%nat, (Q2R 0), (Q2R (1 # 20000)), (Q2R 5), (Q2R (24 # 5)).
  split; [apply toy_regular|]. split; [exact R|]. split; [reflexivity|]. split; [apply xdec_gen|].
  split; [simpl; q2r|]. split; [simpl; q2r|]. split; [simpl; q2r|].
  split; [apply (rec_t _ _ _ _ _ _ _ C); reflexivity|].
  split; [apply (rec_t _ _ _ _ _ _ _ C); reflexivity|].
  split; [apply (rec_b _ _ _ _ _ _ _ C); reflexivity|].
  split; [apply (rec_b _ _ _ _ _ _ _ C); reflexivity|].
  split; [simpl; q2r|]. split; simpl; unfold Q2R; simpl; lra.
Qed.

Lemma C32_refuted_lem : exists (o : qlaw XNum) p a fuel o' h i j ti tj,
  regular o p a /\ ran fuel o noX noX p o' h /\ a_ts a < 0 /\ 0 <= a_on a /\ 0 <= a_off a /\
  (i <= j)%nat /\ (forall m, (i <= m <= j)%nat -> throttle h m 1) /\
  entry (h_times h) i ti /\ entry (h_times h) j tj /\ a_on a < Rabs (tj - ti).
Proof.
  destruct run_back as (o' & h & R & C & _).
  exists (toyX RK4 a_back), (probX a_back), (parX a_back), 10%nat, o', h, 0%nat, 3%nat, (Q2R 0), (Q2R (-3)).
  split; [apply toy_regular|]. split; [exact R|]. split; [simpl; q2r|]. split; [simpl; q2r|]. split; [simpl; q2r|].
  split; [lia|]. split.
  { intros m Hm. apply (rec_c _ _ _ _ _ _ _ C).
    destruct m as [|[|[|[|m]]]]; try reflexivity. lia. }
  split; [apply (rec_t _ _ _ _ _ _ _ C); reflexivity|].
  split; [apply (rec_t _ _ _ _ _ _ _ C); reflexivity|].
  simpl. unfold Q2R. simpl. unfold Rabs. destruct (Rcase_abs _); lra.
Qed.

Lemma C32_example_lem : regular (toyX RK4 a_back) (probX a_back) (parX a_back) /\
  (exists o2 h2, ran 10 (toyX RK4 a_back) noX noX (probX a_back) o2 h2 /\
  recorded h2 [0; -1; -2; -3; -4]%Q [10; 101 # 10; 51 # 5; 103 # 10; 52 # 5]%Q
    [50; 101 # 2; 51; 103 # 2; 52]%Q [1; 1; 1; 1]%Z /\ q_exitcode o2 = (-2)%Z) /\
  (forall acc oe al be u psi q qd,
     lyap_call (toyX RK4 a_back) (probX a_back) acc oe = Ok (al, be, u, psi, q, qd) ->
     nisnan (Num:=XNum) al = false /\ nisnan (Num:=XNum) be = false).
Proof.
  split; [apply toy_regular|]. split; [exact run_back|]. intros acc oe al be u psi q qd H.
  destruct (toyX_lyap RK4 a_back acc oe) as (al' & be' & u' & psi' & q' & qd' & E & A & B).
  rewrite E in H. injection H as <- <- _ _ _ _. auto.
Qed.

(** The two tests of lines 409 and 415 exclude a zero discharge rate. *)
Lemma C19_div_lem (p : problem XNum) b dt lo dis :
  p_cap_lo p = Fin lo -> p_discharge p = Fin dis ->
  nleb (Num:=XNum) (Fin b) (nadd (Num:=XNum) (p_cap_lo p) (dec (N:=XNum) 1 12)) = false ->
  nltb (Num:=XNum) (nsub (Num:=XNum) (Fin b) (nmul (Num:=XNum) (p_discharge p) (Fin dt))) (p_cap_lo p) = true ->
  neqb (Num:=XNum) (p_discharge p) (nofZ 0) = false.
Proof.
  intros El Ed. rewrite El, Ed, xdec_gen. cbn [nleb nltb nadd nsub nmul neqb nofZ XNum car xadd xsub xmul xltb xeqb].
  rewrite xleb_fin. rewrite Rleb_false, Rltb_true, Reqb_false. intros H1 H2 E. subst dis.
  assert (0 < 1 / 10 ^ 12) by (apply Rdiv_lt_0_compat; [lra|apply pow_lt; lra]). lra.
Qed.
