From Verif Require Import Base TimeModel TimeSpec.

Lemma lng_ok x : - two63 <= x < two63 -> lng x = Ok x.
Proof. unfold lng. intros H. replace ((- two63 <=? x) && (x <? two63)) with true by lia. reflexivity. Qed.

Ltac lngs := cbn [obind tv_usec tv_sec]; repeat (rewrite lng_ok by (unfold two63; lia); cbn [obind tv_usec tv_sec]).

Lemma deadline_exact now us : normal now -> sensible now -> 0 <= us < 4611686018427387904 ->
  us + tv_usec now <> 1000000 ->
  exists t, timedwait_deadline now us = Ok t /\ normal_ns t /\ nanos t = (micros now + us) * 1000.
Proof.
  unfold normal, sensible, normal_ns, nanos, micros, timedwait_deadline. intros N S U D.
  rewrite lng_ok by (unfold two63; lia). cbn [obind].
  set (s := us + tv_usec now) in *. assert (0 <= s) by lia.
  pose proof (Z.quot_rem' s 1000000) as Q. pose proof (Z.rem_bound_pos s 1000000 ltac:(lia) ltac:(lia)) as R.
  assert (0 <= Z.quot s 1000000 <= s) by (pose proof (Z.quot_pos s 1000000 ltac:(lia) ltac:(lia)); nia).
  destruct (1000000 <? s) eqn:E.
  - rewrite lng_ok by (unfold two63; lia). cbn [obind]. rewrite lng_ok by (unfold two63; lia). cbn [obind].
    eexists. split; [reflexivity|]. cbn. lia.
  - cbn [obind]. rewrite lng_ok by (unfold two63; lia). cbn [obind].
    eexists. split; [reflexivity|]. cbn. assert (Z.quot s 1000000 = 0) by (apply Z.quot_small; lia). lia.
Qed.
(** A whole second early when the sum is one second exactly. *)
Lemma deadline_early now us : normal now -> sensible now -> us + tv_usec now = 1000000 ->
  exists t, timedwait_deadline now us = Ok t /\ nanos t = (micros now + us - 1000000) * 1000.
Proof.
  unfold normal, sensible, nanos, micros, timedwait_deadline. intros N S D.
  rewrite D. cbn. eexists. split; [reflexivity|]. cbn. lia.
Qed.
Lemma stamp_exact t d : normal t -> sensible t -> 0 <= d < 4611686018427387904 -> tv_usec t + d <> 1000000 ->
  exists t', increase_stamp t d = Ok t' /\ normal t' /\ micros t' = micros t + d.
Proof.
  unfold normal, sensible, micros, increase_stamp. intros N S U D.
  rewrite lng_ok by (unfold two63; lia). cbn [obind].
  set (s := tv_usec t + d) in *. assert (0 <= s) by lia.
  pose proof (Z.quot_rem' s 1000000) as Q. pose proof (Z.rem_bound_pos s 1000000 ltac:(lia) ltac:(lia)) as R.
  assert (0 <= Z.quot s 1000000 <= s) by (pose proof (Z.quot_pos s 1000000 ltac:(lia) ltac:(lia)); nia).
  destruct (1000000 <? s) eqn:E.
  - rewrite lng_ok by (unfold two63; lia). cbn [obind]. eexists. split; [reflexivity|]. cbn. lia.
  - cbn [obind]. eexists. split; [reflexivity|]. cbn. assert (Z.quot s 1000000 = 0) by (apply Z.quot_small; lia). lia.
Qed.

Lemma sub_exact a b : normal a -> normal b -> sensible a -> sensible b ->
  exists r neg b', timeval_substract a b = Ok (r, neg, b') /\ normal r /\ micros r = micros a - micros b
    /\ (neg = true <-> micros a < micros b) /\ micros b' = micros b.
Proof.
  unfold normal, sensible, micros, timeval_substract. intros A B SA SB.
  destruct (tv_usec a <? tv_usec b) eqn:E.
  - rewrite lng_ok by (unfold two63; lia). cbn [obind].
    rewrite (Z.quot_small (tv_usec b - tv_usec a)) by lia. change (s32 (0 + 1)) with 1.
    change (negb ((- two31 <=? 1000000 * 1) && (1000000 * 1 <? two31))) with false. cbv iota.
    rewrite (lng_ok (tv_usec b - _)) by (unfold two63; lia). cbn [obind].
    rewrite lng_ok by (unfold two63; lia). cbn [obind tv_usec tv_sec].
    rewrite lng_ok by (unfold two63; lia). cbn [obind tv_usec tv_sec].
    replace (1000000 <? tv_usec a - (tv_usec b - 1000000 * 1)) with false by lia.
    cbn [obind tv_usec tv_sec]. rewrite lng_ok by (unfold two63; lia). cbn [obind].
    lngs. do 3 eexists. split; [reflexivity|]. cbn. lia.
  - cbn [obind]. rewrite lng_ok by (unfold two63; lia). cbn [obind].
    replace (1000000 <? tv_usec a - tv_usec b) with false by lia. cbn [obind].
    lngs. do 3 eexists. split; [reflexivity|]. cbn. lia.
Qed.

(** With a second argument left by an earlier call the difference is right, but
    it may have a million microseconds. *)
Lemma sub_reused a b : normal a -> -1000000 <= tv_usec b < 1000000 -> sensible a -> sensible b ->
  exists r neg b', timeval_substract a b = Ok (r, neg, b') /\ 0 <= tv_usec r <= 1000000
    /\ micros r = micros a - micros b /\ micros b' = micros b /\ -1000000 <= tv_usec b' < 1000000.
Proof.
  unfold normal, sensible, micros, timeval_substract. intros A B SA SB.
  destruct (tv_usec a <? tv_usec b) eqn:E.
  - rewrite lng_ok by (unfold two63; lia). cbn [obind].
    rewrite (Z.quot_small (tv_usec b - tv_usec a)) by lia. change (s32 (0 + 1)) with 1.
    change (negb ((- two31 <=? 1000000 * 1) && (1000000 * 1 <? two31))) with false. cbv iota.
    rewrite (lng_ok (tv_usec b - _)) by (unfold two63; lia). cbn [obind].
    rewrite lng_ok by (unfold two63; lia). cbn [obind tv_usec tv_sec].
    rewrite lng_ok by (unfold two63; lia). cbn [obind tv_usec tv_sec].
    replace (1000000 <? tv_usec a - (tv_usec b - 1000000 * 1)) with false by lia.
    cbn [obind tv_usec tv_sec]. rewrite lng_ok by (unfold two63; lia). cbn [obind].
    lngs. do 3 eexists. split; [reflexivity|]. cbn. lia.
  - cbn [obind]. rewrite lng_ok by (unfold two63; lia). cbn [obind].
    destruct (1000000 <? tv_usec a - tv_usec b) eqn:F.
    + assert (Q : Z.quot (tv_usec a - tv_usec b) 1000000 = 1).
      { symmetry. apply Z.quot_unique with (r := tv_usec a - tv_usec b - 1000000); lia. }
      rewrite Q. change (s32 1) with 1.
      change (negb ((- two31 <=? 1000000 * 1) && (1000000 * 1 <? two31))) with false. cbv iota.
      rewrite lng_ok by (unfold two63; lia). cbn [obind].
      rewrite lng_ok by (unfold two63; lia). cbn [obind tv_usec tv_sec].
      rewrite lng_ok by (unfold two63; lia). cbn [obind tv_usec tv_sec].
      rewrite lng_ok by (unfold two63; lia). cbn [obind tv_usec tv_sec].
      lngs. do 3 eexists. split; [reflexivity|]. cbn. lia.
    + cbn [obind]. rewrite lng_ok by (unfold two63; lia). cbn [obind].
      rewrite lng_ok by (unfold two63; lia). cbn [obind].
      lngs. do 3 eexists. split; [reflexivity|]. cbn. lia.
Qed.

Lemma deadline_witness : exists now us t,
  normal now /\ sensible now /\ 0 < us /\ timedwait_deadline now us = Ok t /\ nanos t < micros now * 1000.
Proof. exists (mkTV 1000 990000), 10000, (mkTS 1000 0). unfold normal, sensible. cbn. repeat split; auto; lia. Qed.
Lemma stamp_witness : exists t d t',
  normal t /\ sensible t /\ 0 < d /\ increase_stamp t d = Ok t' /\ micros t' < micros t.
Proof. exists (mkTV 1000 600000), 400000, (mkTV 1000 0). unfold normal, sensible. cbn. repeat split; auto; lia. Qed.
Lemma reused_witness : exists a1 a2 b b1 r1 n1 r2 b2,
  normal a1 /\ normal a2 /\ normal b /\
  timeval_substract a1 b = Ok (r1, n1, b1) /\ timeval_substract a2 b1 = Ok (r2, true, b2) /\
  micros a2 = micros b /\ tv_usec r2 = 1000000.
Proof. exists (mkTV 0 100000), (mkTV 0 500000), (mkTV 0 500000), (mkTV 1 (-500000)), (mkTV (-1) 600000), true, (mkTV (-1) 1000000), (mkTV 1 (-500000)). unfold normal, sensible. cbn. repeat split; auto; lia. Qed.
