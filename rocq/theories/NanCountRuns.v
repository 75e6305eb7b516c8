(** The run of C82 as an example for NanCount. *)
From Coq Require Import Reals ZArith List Bool Lia Lra.
From Verif Require Import RMath Num Base Elements Perturb Qlaw Spec XSpec ExitProofs RunSpec NanSpec NanRun NanCount.
Import ListNotations.
Local Open Scope R_scope.

Lemma nan_free_case : let z := EtaFloat (N:=XNum) (Fin 0) in regular o_low p_low a_low /\ 0 <= a_on a_low /\ 0 <= a_off a_low /\ q_nan_thr o_low = 10%Z /\
  exists o' h ks, ran 11 o_low z z p_low o' h /\ length ks = 10%nat /\ NoDup ks /\
  forall k, In k ks -> throttle h k 0 /\ ~ depleted a_low h k /\ ~ recharging a_low h k /\ ~ resting o_low p_low z z a_low h k /\
    exists t dt m oe, nth_error (h_times h) k = Some t /\ nth_error (h_times h) (S k) = Some (nadd (Num:=XNum) t dt) /\
      nth_error (h_masses h) k = Some m /\ nth_error (h_states h) k = Some oe /\ nan_at o_low p_low (thrust_acc p_low dt m) oe.
Proof.
  intros z. split; [exact low_regular|]. split; [cbn; lra|]. split; [cbn; lra|]. split; [reflexivity|].
  destruct C82_case as (F & B & P & RM & Q).
  destruct (C82_lem o_low p_low z z a_low F B P RM Q ltac:(discriminate) 11%nat ltac:(cbn; lia)) as (o' & h & R & X & _ & Hc & Hs & He).
  change (Z.to_nat (q_nan_thr o_low)) with 10%nat in *.
  destruct (C06_lem o_low p_low z z 11 o' h (conj eq_refl eq_refl) R X ltac:(cbn; lia)) as (ks & L & ND & K & _).
  exists o', h, ks. split; [exact R|]. split; [cbn in L; lia|]. split; [exact ND|]. intros k Hk.
  destruct (K k Hk) as (t & m & oe & b0 & dt & E1 & E2 & E3 & E4 & _ & _ & E5 & E6).
  assert (Lk : (k < 10)%nat).
  { assert (k < length (h_controls h))%nat by (apply nth_error_Some; rewrite E6; discriminate). rewrite Hc, repeat_length in H. exact H. }
  assert (ND' : forall j, (j <= 10)%nat -> ~ depleted a_low h j).
  { intros j Hj (b & Eb & Hb). destruct (He j Hj) as (_ & _ & Ej & _). unfold entry in *. rewrite Ej in Eb. injection Eb as <-. cbn in Hb. lra. }
  split; [unfold throttle; rewrite Hc, nth_error_map, (nth_error_repeat _ Lk); reflexivity|].
  split; [apply ND'; lia|]. split; [intros [Y _]; discriminate Y|]. split; [|exists t, dt, m, oe; repeat split; assumption].
  intros (b & tb & tk & Hb & Eb & Ek & _ & _ & [D|(i & ti & Hi & Ei & Hon & _)]); [apply (ND' b); [lia|exact D]|].
  destruct (He b ltac:(lia)) as (Tb & _). destruct (He i ltac:(lia)) as (Ti & _). unfold entry in *. rewrite Tb in Eb. rewrite Ti in Ei. injection Eb as <-. injection Ei as <-.
  assert (INR b <= 10) by (change 10 with (IZR (Z.of_nat 10)); rewrite INR_IZR_INZ; apply IZR_le; lia). pose proof (pos_INR i). cbn [a_low a_ts a_on] in Hon. lra.
Qed.
