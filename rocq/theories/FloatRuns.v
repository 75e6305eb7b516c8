(** Concrete runs in double precision, for the examples beside the theorems. *)
From Coq Require Import Reals QArith ZArith List Bool String Lia Floats.SpecFloat.
From Verif Require Import RMath Num Base Integrate Perturb Qlaw Spec XSpec XTrace Sim Runs XRuns Float64 FloatSpec FloatProofs FloatRun.
Import ListNotations.

(** A library of elementary functions; the runs below do not depend on what it returns. *)
Definition one64 : f64 := pack (S754_finite false 4503599627370496 (-52)).
Definition lib0 : libm :=
  mklibm (fun _ => f0) (fun _ => one64) (fun _ => f0) (fun _ => f0) (fun _ => f0) (fun _ => one64) (fun _ _ => f0) (fun _ _ => one64) (fun x _ => x).
(** The double nearest to a fraction with small numerator and denominator, which is what the literal 0.1 denotes. *)
Definition dbl (q : Q) : f64 := ndiv (Num:=FNum lib0) (nofZ (Num:=FNum lib0) (Qnum q)) (nofZ (Num:=FNum lib0) (Zpos (Qden q))).
Definition probF (a : qprob) : problem (FNum lib0) :=
  @mkproblem (FNum lib0) (v6of (N:=FNum lib0) (nofZ 1)) (repeat (nofZ (Num:=FNum lib0) 2) 5) (dbl (b_mass0 a)) (nofZ (Num:=FNum lib0) 1) (dbl (b_mdot a))
    (dbl (b_tf a)) (dbl (b_ts a)) (dbl (b_mmin a)) (v5of (N:=FNum lib0) (nofZ 1)) (dbl (b_on a)) (dbl (b_off a))
    (dbl (b_b0 a)) (dbl (b_lo a)) (dbl (b_hi a)) (dbl (b_ch a)) (dbl (b_dis a)) (b_full a).
(** The object of XRuns.toyX, in double precision. *)
Definition toyF (a : qprob) : qlaw (FNum lib0) := withp (toy (N:=FNum lib0) RK4 (nofZ (Num:=FNum lib0) 1)) (probF a).
Definition noF : eta_arg (FNum lib0) := EtaFloat (N:=FNum lib0) f0.


Ltac ck := unfold forward64; repeat match goal with |- _ /\ _ => apply conj end; vm_compute; first [exact I|reflexivity].
Ltac runF := apply ran_of; [reflexivity|]; vm_compute; repeat split; reflexivity.

(** t_step = 0.1 up to tf_max = 1: ten steps in exact arithmetic, eleven in double precision. *)
Definition a_tenth : qprob := mkqp 10 (1 # 10) 1 (1 # 10) (1 # 10) 100 0 1 0 1 (1 # 1000) (1 # 1000) false.
Lemma tenth_exact : exists o2 h2, ran 20 (toyX RK4 a_tenth) noX noX (probX a_tenth) o2 h2 /\
  List.length (h_controls h2) = 10%nat /\ q_exitcode o2 = (-2)%Z.
Proof.
  assert (H : exists ts ms bs thr code, thr = [1; 1; 1; 1; 1; 1; 1; 1; 1; 1]%Z /\ code = (-2)%Z /\
    match solve 20 (toyQ RK4 a_tenth) no_eta no_eta with
    | Returns o' => match q_hist o' with
        | Some h => h_times h = map Some ts /\ h_masses h = map Some ms /\ h_battery h = map Some bs /\
                    map snd (h_controls h) = thr /\ q_exitcode o' = code
        | None => False end
    | _ => False end).
  { eexists [0; 1 # 10; 1 # 5; 3 # 10; 2 # 5; 1 # 2; 3 # 5; 7 # 10; 4 # 5; 9 # 10; 1]%Q,
      [10; 999 # 100; 499 # 50; 997 # 100; 249 # 25; 199 # 20; 497 # 50; 993 # 100; 248 # 25; 991 # 100; 99 # 10]%Q,
      [1; 9999 # 10000; 4999 # 5000; 9997 # 10000; 2499 # 2500; 1999 # 2000; 4997 # 5000; 9993 # 10000; 1249 # 1250; 9991 # 10000; 999 # 1000]%Q, _, _.
    split; [reflexivity|]. split; [reflexivity|]. vm_compute. repeat split; reflexivity. }
  destruct H as (ts & ms & bs & thr & code & -> & -> & H).
  apply toy_run in H; [|vm_compute; discriminate]. destruct H as (o2 & h2 & R & (_ & _ & _ & C) & X).
  exists o2, h2. split; [exact R|]. split; [|exact X]. rewrite <- (map_length snd), C. reflexivity.
Qed.
Lemma tenth_double : exists o2 h2, ran 20 (toyF a_tenth) noF noF (probF a_tenth) o2 h2 /\
  List.length (h_controls h2) = 11%nat /\ q_exitcode o2 = (-2)%Z /\
  option_map f_val (nth_error (h_times h2) 10) = Some (S754_finite false 9007199254740991 (-53)).
Proof. runF. Qed.

(** Thrust for 0.3, rest for 0.1, step 0.1: four thrusting steps in exact arithmetic, three in double precision. *)
Definition a_window : qprob := mkqp 10 (1 # 10) (7 # 10) (1 # 10) (1 # 10) (3 # 10) (1 # 10) 1 0 1 (1 # 1000) (1 # 1000) false.
Lemma window_exact : exists o2 h2, ran 20 (toyX RK4 a_window) noX noX (probX a_window) o2 h2 /\
  map snd (h_controls h2) = [1; 1; 1; 1; 0; 0; 1]%Z.
Proof.
  assert (H : exists ts ms bs thr code, thr = [1; 1; 1; 1; 0; 0; 1]%Z /\ code = (-2)%Z /\
    match solve 20 (toyQ RK4 a_window) no_eta no_eta with
    | Returns o' => match q_hist o' with
        | Some h => h_times h = map Some ts /\ h_masses h = map Some ms /\ h_battery h = map Some bs /\
                    map snd (h_controls h) = thr /\ q_exitcode o' = code
        | None => False end
    | _ => False end).
  { eexists [0; 1 # 10; 1 # 5; 3 # 10; 2 # 5; 1 # 2; 3 # 5; 7 # 10]%Q,
      [10; 999 # 100; 499 # 50; 997 # 100; 249 # 25; 249 # 25; 249 # 25; 199 # 20]%Q,
      [1; 9999 # 10000; 4999 # 5000; 9997 # 10000; 2499 # 2500; 9997 # 10000; 4999 # 5000; 9997 # 10000]%Q, _, _.
    split; [reflexivity|]. split; [reflexivity|]. vm_compute. repeat split; reflexivity. }
  destruct H as (ts & ms & bs & thr & code & -> & -> & H).
  apply toy_run in H; [|vm_compute; discriminate]. destruct H as (o2 & h2 & R & (_ & _ & _ & C) & X).
  exists o2, h2. split; [exact R|exact C].
Qed.
Lemma window_double : exists o2 h2, ran 20 (toyF a_window) noF noF (probF a_window) o2 h2 /\
  map snd (h_controls h2) = [1; 1; 1; 0; 0; 1; 1]%Z.
Proof. runF. Qed.

(** A battery of 2^-30 drained at 2^30 per unit time: the third step is shortened to 2^-60 at time 1. *)
Definition a_stuck : qprob := mkqp 10 (1 # 10) (3 # 2) 1 (1 # 10) 100 0 (1 # 1073741824) 0 (1 # 1073741824) 1 1073741824 false.
Lemma run_stuck : exists o2 h2, ran 20 (toyF a_stuck) noF noF (probF a_stuck) o2 h2 /\
  map snd (h_controls h2) = [1; 0; 1; 0]%Z /\
  (nth_error (h_times h2) 2 = Some one64 /\ nth_error (h_times h2) 3 = Some one64) /\
  (exists m, nth_error (h_masses h2) 2 = Some m /\ nth_error (h_masses h2) 3 = Some m).
Proof.
  assert (H : exists o2 h2, ran 20 (toyF a_stuck) noF noF (probF a_stuck) o2 h2 /\
    map snd (h_controls h2) = [1; 0; 1; 0]%Z /\ map f_val (firstn 2 (skipn 2 (h_times h2))) = [f_val one64; f_val one64] /\
    match map f_val (firstn 2 (skipn 2 (h_masses h2))) with [x; y] => x = y | _ => False end).
  { runF. }
  destruct H as (o2 & h2 & R & C & T & M). exists o2, h2. split; [exact R|]. split; [exact C|].
  split.
  - destruct (h_times h2) as [|t0 [|t1 [|t2 [|t3 l]]]]; try discriminate T. cbn in T. injection T as T2 T3. cbn. rewrite (f64_ext t2 one64 T2), (f64_ext t3 one64 T3). auto.
  - destruct (h_masses h2) as [|t0 [|t1 [|t2 [|t3 l]]]]; try contradiction. cbn in M. exists t2. cbn. rewrite (f64_ext t3 t2 (eq_sym M)). auto.
Qed.
Lemma stuck_forward : forward64 (toyF a_stuck) (probF a_stuck).
Proof. ck. Qed.

(** The run of C10_C19_example in double precision. *)
Lemma cycle_forward : forward64 (toyF a_cycle) (probF a_cycle) /\ fin (p_mass0 (probF a_cycle)) /\ fin (p_mdot (probF a_cycle)) /\
  flt f0 (p_mdot (probF a_cycle)) /\ fin (p_charge (probF a_cycle)) /\ flt f0 (p_charge (probF a_cycle)) /\
  fle (p_cap_lo (probF a_cycle)) (p_cap_hi (probF a_cycle)) /\ q_integ (toyF a_cycle) = RK4.
Proof. ck. Qed.
Lemma cycle_double : exists o2 h2, ran 10 (toyF a_cycle) noF noF (probF a_cycle) o2 h2 /\ map snd (h_controls h2) = [1; 1; 0; 0; 0; 1; 1]%Z /\
  List.length (h_times h2) = 8%nat /\ List.length (h_masses h2) = 8%nat /\ List.length (h_battery h2) = 8%nat.
Proof. runF. Qed.

(** A Keplerian object in double precision whose elements grow until they are clamped at 10. *)
Definition a_grow : qprob := mkqp 10 (1 # 10) 12 1 (1 # 10) 100 0 1 0 1 0 0 false.
Definition toyK : qlaw (FNum lib0) := match set_elements_type (toyF a_grow) "keplerian"%string with Ok o => o | Err _ => toyF a_grow end.
Lemma kep_double : q_etype toyK = Keplerian /\ exists o2 h2, ran 20 toyK noF noF (probF a_grow) o2 h2 /\ List.length (h_controls h2) = 12%nat /\
  (option_map (fun oe : vec6 (FNum lib0) => f_val (v6_1 oe)) (nth_error (h_states h2) 11) = Some (f_val (nofZ (Num:=FNum lib0) 10))).
Proof. split; [reflexivity|]. runF. Qed.
(** A step of 1/8: the grid is exact. *)
Definition a_eighth : qprob := mkqp 10 (1 # 10) 1 (1 # 8) (1 # 10) 100 0 1 0 1 0 0 false.
Lemma eighth_case : forward64 (toyF a_eighth) (probF a_eighth) /\ ~ flt f0 (p_discharge (probF a_eighth)) /\ worth (p_t_step (probF a_eighth)) 1 (-3) /\
  worth (p_tf_max (probF a_eighth)) (Z.of_nat 8 * 1) (-3) /\ fresh (toyF a_eighth) /\
  exists o2 h2, ran 20 (toyF a_eighth) noF noF (probF a_eighth) o2 h2 /\ List.length (h_controls h2) = 8%nat /\ q_exitcode o2 = (-2)%Z.
Proof.
  split; [ck|]. split; [vm_compute; discriminate|]. split; [vm_compute; reflexivity|]. split; [vm_compute; reflexivity|].
  split; [split; reflexivity|]. runF.
Qed.

(** The refutations. *)
Lemma C105_refuted_lem : exists L (o : qlaw (FNum L)) p ea er fuel o' h k t, forward64 o p /\ flt f0 (p_t_step p) /\ ran fuel o ea er p o' h /\
  nth_error (h_times h) k = Some t /\ nth_error (h_times h) (S k) = Some t.
Proof.
  destruct run_stuck as (o2 & h2 & R & _ & (A & B) & _). exists lib0, (toyF a_stuck), (probF a_stuck), noF, noF, 20%nat, o2, h2, 2%nat, one64.
  split; [exact stuck_forward|]. split; [reflexivity|]. auto.
Qed.
Lemma C106_refuted_lem : exists L (o : qlaw (FNum L)) p ea er fuel o' h k m, forward64 o p /\ flt f0 (p_t_step p) /\ fin (p_mdot p) /\ flt f0 (p_mdot p) /\
  ran fuel o ea er p o' h /\ throttle h k 1 /\ nth_error (h_masses h) k = Some m /\ nth_error (h_masses h) (S k) = Some m.
Proof.
  destruct run_stuck as (o2 & h2 & R & C & _ & m & A & B). exists lib0, (toyF a_stuck), (probF a_stuck), noF, noF, 20%nat, o2, h2, 2%nat, m.
  split; [exact stuck_forward|]. split; [reflexivity|]. split; [exact I|]. split; [reflexivity|]. split; [exact R|].
  split; [unfold throttle; rewrite C; reflexivity|]. auto.
Qed.
Lemma C109_count_refuted_lem : exists a fuel o1 h1 o2 h2, b_ts a = (1 # 10)%Q /\ b_tf a = 1%Q /\
  ran fuel (toyX RK4 a) noX noX (probX a) o1 h1 /\ q_exitcode o1 = (-2)%Z /\ List.length (h_controls h1) = 10%nat /\
  ran fuel (toyF a) noF noF (probF a) o2 h2 /\ q_exitcode o2 = (-2)%Z /\ List.length (h_controls h2) = 11%nat.
Proof.
  destruct tenth_exact as (o1 & h1 & R1 & L1 & E1), tenth_double as (o2 & h2 & R2 & L2 & E2 & _).
  exists a_tenth, 20%nat, o1, h1, o2, h2. split; [reflexivity|]. split; [reflexivity|].
  exact (conj R1 (conj E1 (conj L1 (conj R2 (conj E2 L2))))).
Qed.
Lemma C109_schedule_refuted_lem : exists a fuel o1 h1 o2 h2, b_ts a = (1 # 10)%Q /\ b_on a = (3 # 10)%Q /\ b_off a = (1 # 10)%Q /\
  ran fuel (toyX RK4 a) noX noX (probX a) o1 h1 /\ map snd (h_controls h1) = [1; 1; 1; 1; 0; 0; 1]%Z /\
  ran fuel (toyF a) noF noF (probF a) o2 h2 /\ map snd (h_controls h2) = [1; 1; 1; 0; 0; 1; 1]%Z.
Proof.
  destruct window_exact as (o1 & h1 & R1 & L1), window_double as (o2 & h2 & R2 & L2).
  exists a_window, 20%nat, o1, h1, o2, h2. split; [reflexivity|]. split; [reflexivity|]. split; [reflexivity|].
  exact (conj R1 (conj L1 (conj R2 L2))).
Qed.
