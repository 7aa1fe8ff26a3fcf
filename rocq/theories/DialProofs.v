(** Proofs about the connect. *)
From Coq Require Import Lia ZifyBool.
From Verif Require Import Base CodecModel HdrProofs GreetModel DialModel DialSpec.

Lemma s32_id : forall v, an_int v -> s32 v = v.
Proof. intros v R. unfold an_int, s32, two31, two32 in *. rewrite Z.mod_small; lia. Qed.
Lemma seconds_bound : forall o, an_int (o_timeout o) -> seconds o <= 2147.
Proof.
  intros o R. unfold seconds. rewrite (s32_id _ R). destruct (o_want o); [|lia]. destruct (Z.ltb_spec 0 (o_timeout o)); [|lia].
  unfold an_int, two31 in R. assert (o_timeout o / 1000000 < 2148); [|lia]. apply Z.div_lt_upper_bound; lia.
Qed.
Lemma seconds_pos : forall o, an_int (o_timeout o) -> 0 < seconds o -> 1000000 <= o_timeout o /\ o_want o = true /\ seconds o = o_timeout o / 1000000.
Proof.
  intros o R P. unfold seconds in *. rewrite (s32_id _ R) in *. destruct (o_want o); [|lia]. destruct (Z.ltb_spec 0 (o_timeout o)); [|lia].
  conj; auto. destruct (Z.lt_ge_cases (o_timeout o) 1000000); [|lia]. rewrite Z.div_small in P; lia.
Qed.
Lemma wait_defined : forall o, an_int (o_timeout o) -> clock_ok o ->
  exists w, wait_on (o_create o) (o_start o) (seconds o) (o_now1 o) (o_now2 o) (o_its o) = Ok w.
Proof.
  intros o R (C & _ & _ & _). unfold wait_on. pose proof (seconds_bound o R). rewrite (s32_id (o_start o)) by (unfold an_int, two31 in *; lia).
  destruct (seconds o <=? 0); eauto. destruct (negb (o_create o)); eauto. destruct (Z.leb_spec two31 (o_start o + seconds o)); [lia|]. eauto.
Qed.
Lemma dial_defined : forall o, an_int (o_timeout o) -> clock_ok o -> -1 <= o_sock o -> ~ reserved o -> dial o <> UB.
Proof.
  intros o R C B NR. unfold dial, failed. destruct (negb (o_res o)); [discriminate|]. destruct (negb (o_known o)); [discriminate|].
  destruct (Z.eqb_spec (o_sock o) (-1)); [discriminate|]. destruct (negb (o_temp o)); [discriminate|].
  assert (S' : sane (o_check o) (o_sock o) = true).
  { unfold sane, reserved in *. destruct (o_check o); auto. assert (2 < o_sock o) by lia.
    destruct (Z.ltb_spec (o_sock o) 0); [lia|]. destruct (Z.eqb_spec (o_sock o) 0); [lia|]. destruct (Z.eqb_spec (o_sock o) 1); [lia|]. destruct (Z.eqb_spec (o_sock o) 2); [lia|]. auto. }
  rewrite S'. cbn [negb]. destruct (match o_connect o with None => false | Some e => _ end); [discriminate|].
  destruct (o_want o && (0 <? seconds o)); [|discriminate]. destruct (wait_defined o R C) as (w & ->). cbn [obind].
  destruct w as [err so rest leak|]; [|discriminate]. destruct (0 <? err); [discriminate|]. destruct ((err =? -6) && negb (so =? 0)); [discriminate|].
  destruct (err =? -2); discriminate.
Qed.

(** * The sockets *)
Ltac dcase :=
  match goal with
  | [ H : (if ?b then _ else _) = Ok _ |- _ ] => destruct b eqn:?
  | [ H : obind ?m _ = Ok _ |- _ ] => destruct m eqn:?; cbn [obind] in H; [|discriminate H]
  | [ H : match ?w with WRet _ _ _ _ => _ | WMore => _ end = Ok _ |- _ ] => destruct w eqn:?
  end.
Lemma dial_sockets : forall o d, -1 <= o_sock o -> dial o = Ok (Some d) ->
  (d_sess d = -1 /\ (exists c, d_code d = Some c) /\ (created o -> d_closed d = 1) /\ (~ created o -> d_closed d = 0)) \/
  (created o /\ d_sess d = o_sock o /\ 0 <= d_sess d /\ d_code d = None /\ d_closed d = 0).
Proof.
  intros o d B H. unfold dial, failed, created in *. repeat dcase; inversion H; subst; cbn;
    repeat match goal with [ H : negb _ = true |- _ ] => apply negb_true_iff in H | [ H : negb _ = false |- _ ] => apply negb_false_iff in H end;
    match goal with
    | [ |- (-1 = -1 /\ _) \/ _ ] =>
        left; split; [reflexivity|]; split; [eauto|];
        split; [intros (A1 & A2 & A3)|intros A1]; try reflexivity; try congruence; try lia; exfalso; apply A1; conj; auto; lia
    | _ => right; conj; auto; lia
    end.
Qed.

(** * The wait *)
Lemma loop_pos : forall start period now1 now2 its err e so rest leak, err <= 0 ->
  wait_loop start period now1 now2 its err = WRet e so rest leak -> 0 < e ->
  (exists i, In i its /\ 0 < i_wait i /\ i_so i = Some 0) /\ now1 < start + period /\ rest = s32 (period - (now2 - start)) /\ leak = false.
Proof.
  intros start period now1 now2. induction its as [|i its IH]; intros err e so rest leak P H E; cbn [wait_loop] in H; [discriminate|].
  assert (W : forall err so', wait_end start period now1 now2 err so' = WRet e so rest leak ->
              now1 < start + period /\ rest = s32 (period - (now2 - start)) /\ leak = false /\ e = err).
  { intros err' so' H'. unfold wait_end in H'. destruct (Z.leb_spec (start + period) now1); inversion H'; subst; [lia|auto]. }
  destruct (start + period <=? i_now i); [apply W in H; lia|].
  destruct (negb (i_add i)); [apply W in H; lia|].
  destruct (i_errno i =? EBADF); [inversion H; lia|].
  assert (R : forall err, err <= 0 -> wait_loop start period now1 now2 its err = WRet e so rest leak ->
     (exists i', In i' (i :: its) /\ 0 < i_wait i' /\ i_so i' = Some 0) /\ now1 < start + period /\ rest = s32 (period - (now2 - start)) /\ leak = false).
  { intros err' P' H'. destruct (IH err' e so rest leak P' H' E) as ((i' & I & A) & B). split; auto. exists i'. split; auto. right; auto. }
  destruct (i_wait i =? -2); [eapply R; [|exact H]; lia|].
  destruct (i_wait i =? -1).
  { destruct ((i_errno i =? EINTR) || (i_errno i =? EAGAIN)); [eapply R; [|exact H]; lia|inversion H; lia]. }
  destruct (i_wait i =? 0); [eapply R; [|exact H]; lia|].
  destruct (Z.ltb_spec 0 (i_wait i)).
  - destruct (i_so i) as [x|] eqn:SO; [|apply W in H; lia]. destruct (Z.eqb_spec x 0) as [->|].
    + apply W in H. destruct H as (H1 & H2 & H3 & _). conj; auto. exists i. split; [left; auto|auto].
    + apply W in H. lia.
  - inversion H; lia.
Qed.
Lemma loop_timeout : forall start period now1 now2 its err so rest leak, Forall (fun i => i_now i <= now1) its ->
  wait_loop start period now1 now2 its err = WRet (-2) so rest leak -> start + period <= now1.
Proof.
  intros start period now1 now2. induction its as [|i its IH]; intros err so rest leak F H; cbn [wait_loop] in H; [discriminate|].
  inversion F as [|? ? F1 F2]; subst.
  assert (W : forall err so', err <> -2 -> wait_end start period now1 now2 err so' = WRet (-2) so rest leak -> start + period <= now1).
  { intros err' so' N H'. unfold wait_end in H'. destruct (Z.leb_spec (start + period) now1); auto. inversion H'. lia. }
  destruct (Z.leb_spec (start + period) (i_now i)); [lia|].
  destruct (negb (i_add i)); [eapply W; [|exact H]; lia|].
  destruct (i_errno i =? EBADF); [inversion H|].
  destruct (i_wait i =? -2); [eapply IH; eauto|].
  destruct (i_wait i =? -1); [destruct ((i_errno i =? EINTR) || (i_errno i =? EAGAIN)); [eapply IH; eauto|inversion H]|].
  destruct (i_wait i =? 0); [eapply IH; eauto|].
  destruct (Z.ltb_spec 0 (i_wait i)); [|inversion H].
  destruct (i_so i) as [x|]; [destruct (x =? 0)|]; (eapply W; [|exact H]; lia).
Qed.
Lemma loop_leak : forall start period now1 now2 its err e so rest leak, Forall (fun i => -2 <= i_wait i) its ->
  wait_loop start period now1 now2 its err = WRet e so rest leak -> leak = false.
Proof.
  intros start period now1 now2. induction its as [|i its IH]; intros err e so rest leak F H; cbn [wait_loop] in H; [discriminate|].
  inversion F as [|? ? F1 F2]; subst.
  assert (W : forall err so', wait_end start period now1 now2 err so' = WRet e so rest leak -> leak = false).
  { intros err' so' H'. unfold wait_end in H'. inversion H'. auto. }
  destruct (start + period <=? i_now i); [eapply W; exact H|].
  destruct (negb (i_add i)); [eapply W; exact H|].
  destruct (i_errno i =? EBADF); [inversion H; auto|].
  destruct (Z.eqb_spec (i_wait i) (-2)); [eapply IH; eauto|].
  destruct (Z.eqb_spec (i_wait i) (-1)); [destruct ((i_errno i =? EINTR) || (i_errno i =? EAGAIN)); [eapply IH; eauto|inversion H; auto]|].
  destruct (Z.eqb_spec (i_wait i) 0); [eapply IH; eauto|].
  destruct (Z.ltb_spec 0 (i_wait i)); [|lia].
  destruct (i_so i) as [x|]; [destruct (x =? 0)|]; (eapply W; exact H).
Qed.
Lemma loop_connects : forall start period now1 now2 pre i post err, Forall (nothing_yet (start + period)) pre -> connects (start + period) i ->
  now1 < start + period ->
  wait_loop start period now1 now2 (pre ++ i :: post) err = WRet (i_wait i) 0 (s32 (period - (now2 - start))) false.
Proof.
  intros start period now1 now2. induction pre as [|j pre IH]; intros i post err F C L.
  - destruct C as (C1 & C2 & C3 & C4 & C5). cbn [app wait_loop]. destruct (Z.leb_spec (start + period) (i_now i)); [lia|]. rewrite C2. cbn [negb].
    destruct (Z.eqb_spec (i_errno i) EBADF); [contradiction|]. destruct (Z.eqb_spec (i_wait i) (-2)); [lia|]. destruct (Z.eqb_spec (i_wait i) (-1)); [lia|].
    destruct (Z.eqb_spec (i_wait i) 0); [lia|]. destruct (Z.ltb_spec 0 (i_wait i)); [|lia]. rewrite C5. cbn [Z.eqb]. unfold wait_end.
    destruct (Z.leb_spec (start + period) now1); [lia|]. reflexivity.
  - inversion F as [|? ? F1 F2]; subst. destruct F1 as (A1 & A2 & A3 & A4). cbn [app wait_loop]. destruct (Z.leb_spec (start + period) (i_now j)); [lia|]. rewrite A2. cbn [negb].
    destruct (Z.eqb_spec (i_errno j) EBADF); [contradiction|]. destruct A4 as [W|[W|(W & B)]]; rewrite W.
    + apply IH; auto.
    + apply IH; auto.
    + assert (Q : (i_errno j =? EINTR) || (i_errno j =? EAGAIN) = true) by (destruct B as [X|X]; rewrite X; reflexivity). rewrite Q. apply IH; auto.
Qed.

(** * The connect *)
Lemma wait_inv : forall create now period now1 now2 its e so rest leak, 0 < period ->
  wait_on create now period now1 now2 its = Ok (WRet e so rest leak) ->
  (e = -3 /\ leak = false) \/ wait_loop (s32 now) period now1 now2 its (-2) = WRet e so rest leak.
Proof.
  intros create now period now1 now2 its e so rest leak P H. unfold wait_on in H. destruct (Z.leb_spec period 0); [lia|].
  destruct (negb create); [inversion H; auto|]. destruct (two31 <=? s32 now + period); [discriminate|]. right. congruence.
Qed.
Lemma dial_connected : forall o d, an_int (o_timeout o) -> ~ 0 < o_timeout o < 1000000 -> blocking_ok o ->
  dial o = Ok (Some d) -> d_code d = None -> handshake o.
Proof.
  intros o d R NS BO H D. unfold dial, failed in H. repeat dcase; inversion H; subst; cbn in D; try discriminate D.
  - apply andb_true_iff in Heqb5. destruct Heqb5 as (_ & P). apply Z.ltb_lt in P. destruct (wait_inv _ _ _ _ _ _ _ _ _ _ P Heqo0) as [(Q & _)|Q]; [lia|].
    assert (E0 : 0 < err) by lia. assert (E1 : -2 <= 0) by lia. destruct (loop_pos _ _ _ _ _ _ _ _ _ _ E1 Q E0) as (I & _). right. exact I.
  - left. destruct (o_connect o) as [e|] eqn:C; auto. exfalso. unfold seconds in Heqb5. rewrite (s32_id _ R) in Heqb5.
    destruct (o_want o); [|discriminate Heqb4]. cbn [negb orb andb] in *.
    destruct (Z.ltb_spec 0 (o_timeout o)).
    + assert (1 <= o_timeout o / 1000000) by (apply Z.div_le_lower_bound; lia). lia.
    + destruct BO as (B1 & B2); [lia|]. rewrite C in B1, B2. unfold EINPROGRESS, EAGAIN in *.
      destruct (Z.eqb_spec e 115); [congruence|]. destruct (Z.eqb_spec e 11); [congruence|]. discriminate Heqb4.
Qed.
Lemma dial_timeout : forall o d, an_int (o_timeout o) -> clock_ok o -> dial o = Ok (Some d) -> d_code d = Some ConnectionTimeout ->
  1000000 <= o_timeout o /\ o_start o + o_timeout o / 1000000 <= o_now1 o.
Proof.
  intros o d R (C1 & C2 & C3 & C4) H D. unfold dial, failed in H. repeat dcase; inversion H; subst; cbn in D; try discriminate D.
  apply andb_true_iff in Heqb5. destruct Heqb5 as (_ & P). apply Z.ltb_lt in P. destruct (seconds_pos o R P) as (P1 & P2 & P3). split; auto.
  apply Z.eqb_eq in Heqb8. subst err. destruct (wait_inv _ _ _ _ _ _ _ _ _ _ P Heqo0) as [(Q & _)|Q]; [lia|].
  rewrite (s32_id (o_start o)) in Q by (unfold an_int, two31 in *; lia). rewrite <- P3. eapply loop_timeout; eauto.
Qed.
Lemma dial_leak : forall o d, Forall (fun i => -2 <= i_wait i) (o_its o) -> dial o = Ok (Some d) -> d_leak d = false.
Proof.
  intros o d F H. unfold dial, failed in H. repeat dcase; inversion H; subst; cbn; auto;
  (apply andb_true_iff in Heqb5; destruct Heqb5 as (_ & P); apply Z.ltb_lt in P;
   destruct (wait_inv _ _ _ _ _ _ _ _ _ _ P Heqo0) as [(_ & Q)|Q]; [auto|eapply loop_leak; eauto]).
Qed.
Lemma dial_reported : forall o pre i post, an_int (o_timeout o) -> 1000000 <= o_timeout o -> clock_ok o -> under_way o ->
  let deadline := o_start o + o_timeout o / 1000000 in
  o_its o = pre ++ i :: post -> Forall (nothing_yet deadline) pre -> connects deadline i -> o_now1 o < deadline ->
  dial o = Ok (Some (mkD (o_sock o) None 0 (deadline - o_now2 o) false)).
Proof.
  intros o pre i post R T CK ((U1 & U2 & U3) & U4 & U5 & U6 & U7 & U8 & U9) deadline E F C L.
  pose proof CK as (C1 & C2 & C3 & C4).
  assert (SE : seconds o = o_timeout o / 1000000).
  { unfold seconds. rewrite U8, (s32_id _ R). destruct (Z.ltb_spec 0 (o_timeout o)); [auto|lia]. }
  assert (P : 0 < seconds o) by (rewrite SE; assert (1 <= o_timeout o / 1000000) by (apply Z.div_le_lower_bound; lia); lia).
  pose proof (seconds_bound o R) as SB.
  unfold dial, failed. rewrite U1, U2. cbn [negb]. destruct (Z.eqb_spec (o_sock o) (-1)); [contradiction|]. rewrite U4. cbn [negb].
  assert (S' : sane (o_check o) (o_sock o) = true).
  { unfold sane, reserved in *. destruct (o_check o); auto. assert (2 < o_sock o) by lia.
    destruct (Z.ltb_spec (o_sock o) 0); [lia|]. destruct (Z.eqb_spec (o_sock o) 0); [lia|]. destruct (Z.eqb_spec (o_sock o) 1); [lia|]. destruct (Z.eqb_spec (o_sock o) 2); [lia|]. auto. }
  rewrite S'. cbn [negb]. rewrite U8.
  assert (RF : match o_connect o with None => false | Some e => negb true || (negb (e =? EINPROGRESS) && negb (e =? EAGAIN)) end = false) by (destruct U9 as [->| ->]; reflexivity).
  rewrite RF. cbn [andb]. destruct (Z.ltb_spec 0 (seconds o)); [|lia].
  unfold wait_on. destruct (Z.leb_spec (seconds o) 0); [lia|]. rewrite U7. cbn [negb]. rewrite (s32_id (o_start o)) by (unfold an_int, two31 in *; lia).
  destruct (Z.leb_spec two31 (o_start o + seconds o)); [lia|]. cbn [obind]. rewrite E. rewrite SE in *. fold deadline.
  rewrite (loop_connects (o_start o) (o_timeout o / 1000000) (o_now1 o) (o_now2 o) pre i post (-2) F C L).
  destruct C as (_ & _ & _ & W & _). destruct (Z.ltb_spec 0 (i_wait i)); [|lia]. rewrite s32_id by (unfold an_int, two31 in *; lia).
  replace (o_timeout o / 1000000 - (o_now2 o - o_start o)) with (deadline - o_now2 o) by (unfold deadline; ring). reflexivity.
Qed.
(** The time left for the greetings. *)
Lemma dial_left : forall o d, an_int (o_timeout o) -> 1000000 <= o_timeout o -> o_want o = true -> clock_ok o -> dial o = Ok (Some d) -> d_code d = None ->
  o_now1 o < o_start o + o_timeout o / 1000000 /\ d_left d = o_start o + o_timeout o / 1000000 - o_now2 o.
Proof.
  intros o d R T W (C1 & C2 & C3 & C4) H D.
  assert (SE : seconds o = o_timeout o / 1000000).
  { unfold seconds. rewrite W, (s32_id _ R). destruct (Z.ltb_spec 0 (o_timeout o)); [auto|lia]. }
  assert (P : 0 < seconds o) by (rewrite SE; assert (1 <= o_timeout o / 1000000) by (apply Z.div_le_lower_bound; lia); lia).
  pose proof (seconds_bound o R) as SB.
  unfold dial, failed in H. repeat dcase; inversion H; subst; cbn in D; try discriminate D.
  - destruct (wait_inv _ _ _ _ _ _ _ _ _ _ P Heqo0) as [(Q & _)|Q]; [lia|].
    assert (E0 : 0 < err) by lia. assert (E1 : -2 <= 0) by lia. destruct (loop_pos _ _ _ _ _ _ _ _ _ _ E1 Q E0) as (_ & L1 & L2 & _).
    rewrite (s32_id (o_start o)) in * by (unfold an_int, two31 in *; lia). rewrite SE in *. split; auto. cbn. rewrite L2, s32_id; [lia|unfold an_int, two31 in *; lia].
  - rewrite W in Heqb5. cbn [andb] in Heqb5. lia.
Qed.
Lemma greet_waits : forall o d s, an_int (o_timeout o) -> 1000000 <= o_timeout o -> o_want o = true -> clock_ok o -> o_now2 o < o_start o + o_timeout o / 1000000 ->
  dial o = Ok (Some d) -> d_code d = None -> gs_up s = true -> forall w left, 0 < w -> 0 < left ->
  exchange_step (ERunning s (d_left d)) (mkE ANothing w left) = Ok (ERunning s left).
Proof.
  intros o d s R T W CK L H D U w left P1 P2. destruct (dial_left o d R T W CK H D) as (_ & Q).
  unfold exchange_step. cbn [e_read obind e_wait e_left]. destruct (Z.ltb_spec 0 (d_left d)); [|lia]. rewrite U. cbn [andb].
  destruct (Z.leb_spec w 0); [lia|]. destruct (Z.leb_spec left 0); [lia|]. reflexivity.
Qed.
(** * The handler *)
Lemma new_told : forall ready args m, (d_sess (m_dial m) = -1 \/ (m_sockname m = true /\ m_nameinfo m = true)) ->
  let x := new_full ready args m in
  x_released x = 1 /\ x_open x = x_up x /\
  (ready = true /\ args = true ->
   (m_threaded m = true -> x_told x = 1) /\ (m_threaded m = false -> x_told x = 0 /\ x_ret x = true) /\
   (x_up x = true <-> d_sess (m_dial m) <> -1 /\ m_greet m = true)).
Proof.
  intros ready args m H x. subst x. unfold new_full, connection_new, new_end.
  destruct ready; cbn [negb orb]; [|conj; auto; intros (X & _); discriminate]. destruct args; cbn [negb]; [|conj; auto; intros (_ & X); discriminate].
  destruct (Z.eqb_spec (d_sess (m_dial m)) (-1)) as [E|E].
  - destruct (m_threaded m); cbn; (conj; auto; intros _; conj; auto; try discriminate; split; [discriminate|intros (X & _); contradiction]).
  - destruct H as [H|(-> & ->)]; [contradiction|]. cbn [negb]. destruct (m_threaded m); cbn; (conj; auto; intros _; conj; auto; try discriminate; split; [auto|intros (_ & X); auto]).
Qed.
(** A clock no int holds. *)
Lemma dial_2038 : forall t now its, 1000000 <= t < two31 -> two31 <= now < two31 + 1000000000 -> its <> [] ->
  Forall (fun i => i_now i = now) its ->
  exists d, dial (mkNet true true 7 true true true t None true now its now now) = Ok (Some d) /\ d_code d = Some ConnectionTimeout.
Proof.
  intros t now its T N NE F. destruct its as [|i its]; [contradiction|]. inversion F; subst.
  assert (S1 : s32 (i_now i) = i_now i - two32).
  { unfold s32, two31, two32 in *. replace (i_now i + 2147483648) with (i_now i - 2147483648 + 1 * 4294967296) by ring. rewrite Z.mod_add, Z.mod_small; lia. }
  assert (D : 1 <= t / 1000000 < 2148) by (split; [apply Z.div_le_lower_bound|apply Z.div_lt_upper_bound]; unfold two31 in *; lia).
  unfold dial. cbn [o_res o_known o_sock o_temp o_check o_want o_timeout o_connect o_create o_start o_its o_now1 o_now2 negb sane Z.eqb Z.ltb Z.compare orb].
  unfold seconds. cbn [o_want o_timeout]. rewrite s32_id by (unfold an_int, two31 in *; lia). destruct (Z.ltb_spec 0 t); [|lia]. cbn [andb].
  destruct (Z.ltb_spec 0 (t / 1000000)); [|lia]. unfold wait_on. destruct (Z.leb_spec (t / 1000000) 0); [lia|]. cbn [negb]. rewrite S1.
  destruct (Z.leb_spec two31 (i_now i - two32 + t / 1000000)); [unfold two31, two32 in *; lia|]. cbn [obind wait_loop].
  destruct (Z.leb_spec (i_now i - two32 + t / 1000000) (i_now i)); [|unfold two31, two32 in *; lia]. unfold wait_end.
  destruct (Z.leb_spec (i_now i - two32 + t / 1000000) (i_now i)); [|unfold two31, two32 in *; lia]. cbn. eexists. split; reflexivity.
Qed.
