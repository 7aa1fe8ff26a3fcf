From Verif Require Import Base SendRawModel StallSpec.
From Coq Require Import Lia.

Lemma zlen_ne : forall (l : bytes), l <> [] -> (zlen l =? 0) = false.
Proof. intros [|x l] H; [contradiction|]. apply Z.eqb_neq. unfold zlen. simpl. lia. Qed.
(** As long as fewer timeouts than tries came the write goes on. *)
Lemma loop_on : forall d n s, stalls n s -> forall tries more wmore rest w, d = true \/ Z.of_nat n < tries ->
  send_loop d (s ++ more) (repeat WTimeout n ++ wmore) tries rest w = send_loop d more wmore (tries - Z.of_nat n) rest w.
Proof.
  intros d n s H. induction H as [|n l H IH|n l H IH]; intros tries more wmore rest w L.
  - simpl. rewrite Z.sub_0_r. reflexivity.
  - simpl. apply IH. assumption.
  - replace (tries - Z.of_nat (S n)) with (tries - 1 - Z.of_nat n) by lia.
    cbn [app repeat send_loop]. destruct d.
    + apply IH. left. reflexivity.
    + destruct L as [L|L]; [discriminate|]. replace (tries - 1 =? 0) with false by (symmetry; apply Z.eqb_neq; lia). apply IH. right. lia.
Qed.
Lemma loop_close : forall n s, stalls n s -> forall tries more wmore rest w, rest <> [] -> 0 < tries <= Z.of_nat n ->
  send_loop false (s ++ more) (repeat WTimeout n ++ wmore) tries rest w = Fin false true w.
Proof.
  intros n s H. induction H as [|n l H IH|n l H IH]; intros tries more wmore rest w R L; [simpl in L; lia|simpl; apply IH; assumption|].
  cbn [app repeat send_loop]. destruct (tries - 1 =? 0) eqn:E.
  - rewrite zlen_ne by assumption. reflexivity.
  - apply Z.eqb_neq in E. apply IH; [assumption|lia].
Qed.
Lemma allowed : forall timeout k, waits_allowed timeout k -> (if 0 <? timeout then timeout else 3) = k /\ 0 < k.
Proof.
  intros timeout k [[A B]|[A B]]; subst k; destruct (Z.ltb_spec 0 timeout); lia.
Qed.
Lemma loop_all : forall d m more waits tries rest w, rest <> [] -> zlen rest <= m -> send_loop d (Sent m :: more) waits tries rest w = Fin true false (w ++ rest).
Proof.
  intros d m more waits tries rest w R L. assert (P : 0 < zlen rest) by (destruct rest; [contradiction|unfold zlen; simpl; lia]).
  cbn [send_loop]. replace (m <=? 0) with false by (symmetry; apply Z.leb_gt; lia).
  rewrite Z.min_r by lia. assert (E : Z.to_nat (zlen rest) = List.length rest) by (unfold zlen; lia). rewrite E, skipn_all, firstn_all. reflexivity.
Qed.

Theorem closes : forall timeout k n s more wmore frame, waits_allowed timeout k -> stalls n s -> k <= Z.of_nat n -> frame <> [] ->
  send_raw timeout false true (s ++ more) (repeat WTimeout n ++ wmore) frame = Fin false true [].
Proof. intros timeout k n s more wmore frame A S L F. destruct (allowed _ _ A) as [E P]. unfold send_raw. rewrite E. apply loop_close; auto. Qed.
Theorem goes_on : forall timeout k n s m more wmore frame, waits_allowed timeout k -> stalls n s -> Z.of_nat n < k -> frame <> [] -> zlen frame <= m ->
  send_raw timeout false true (s ++ Sent m :: more) (repeat WTimeout n ++ wmore) frame = Fin true false frame.
Proof.
  intros timeout k n s m more wmore frame A S L F M. destruct (allowed _ _ A) as [E P]. unfold send_raw. rewrite E.
  rewrite loop_on by auto. apply loop_all; assumption.
Qed.
Theorem never_closes : forall timeout n s m more wmore frame, stalls n s -> frame <> [] -> zlen frame <= m ->
  send_raw timeout true true (s ++ Sent m :: more) (repeat WTimeout n ++ wmore) frame = Fin true false frame.
Proof. intros timeout n s m more wmore frame S F M. unfold send_raw. rewrite loop_on by auto. apply loop_all; assumption. Qed.
(** While the peer does not read the call does not return. *)
Theorem blocked : forall timeout n s frame, stalls n s -> send_raw timeout true true s (repeat WTimeout n) frame = Still [].
Proof.
  intros timeout n s frame S. unfold send_raw. pose proof (loop_on true n s S (if 0 <? timeout then timeout else 3) [] [] frame []) as H.
  rewrite !app_nil_r in H. rewrite H by auto. reflexivity.
Qed.
