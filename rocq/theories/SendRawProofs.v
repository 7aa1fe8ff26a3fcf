From Verif Require Import Base CodecProofs SendRawModel.

Lemma zlen_zero {A} (l : list A) : zlen l = 0 -> l = [].
Proof. destruct l; [reflexivity|]. unfold zlen; cbn [length]; lia. Qed.

Lemma send_loop_spec disable sends : forall waits tries rest w out,
  rest <> [] ->
  send_loop disable sends waits tries rest w = out ->
  match out with
  | Still w' => exists a b, rest = a ++ b /\ w' = w ++ a
  | Fin ok down w' =>
    exists a b, rest = a ++ b /\ w' = w ++ a /\ (ok = true <-> b = []) /\
      (ok = true -> down = false) /\ (ok = false -> down = false -> a <> [])
  end.
Proof.
  induction sends as [|r sends IH]; intros waits tries rest w out Hne H; cbn [send_loop] in H.
  - subst out. exists [], rest. rewrite app_nil_r. auto.
  - assert (Hz : zlen rest =? 0 = false).
    { apply Z.eqb_neq. intros E. apply Hne, zlen_zero, E. }
    assert (Hshut : forall w0, w0 = w -> exists a b, rest = a ++ b /\ w0 = w ++ a /\
        (false = true <-> b = []) /\ (false = true -> true = false) /\ (false = false -> true = false -> a <> [])).
    { intros w0 ->. exists [], rest. rewrite app_nil_r. split; [reflexivity|]. split; [reflexivity|].
      split; [split; [discriminate|contradiction]|]. split; discriminate. }
    assert (Hretry : forall tries rest2 w2 a, rest2 <> [] -> rest = a ++ rest2 -> w2 = w ++ a ->
      match waits with
      | [] => Still w2
      | WReady :: waits' => send_loop disable sends waits' tries rest2 w2
      | WFail :: _ => Fin (zlen rest2 =? 0) true w2
      | WTimeout :: waits' =>
        if disable then send_loop disable sends waits' (tries - 1) rest2 w2
        else if tries - 1 =? 0 then Fin (zlen rest2 =? 0) true w2
        else send_loop disable sends waits' (tries - 1) rest2 w2
      end = out ->
      match out with
      | Still w' => exists a b, rest = a ++ b /\ w' = w ++ a
      | Fin ok down w' =>
        exists a b, rest = a ++ b /\ w' = w ++ a /\ (ok = true <-> b = []) /\
          (ok = true -> down = false) /\ (ok = false -> down = false -> a <> [])
      end).
    { clear H. intros tr rest2 w2 a Hne2 Hr Hw2 E.
      assert (Hz2 : zlen rest2 =? 0 = false).
      { apply Z.eqb_neq. intros E2. apply Hne2, zlen_zero, E2. }
      assert (Hrec : forall wt tr2, send_loop disable sends wt tr2 rest2 w2 = out ->
        match out with
        | Still w' => exists a b, rest = a ++ b /\ w' = w ++ a
        | Fin ok down w' =>
          exists a b, rest = a ++ b /\ w' = w ++ a /\ (ok = true <-> b = []) /\
            (ok = true -> down = false) /\ (ok = false -> down = false -> a <> [])
        end).
      { intros wt tr2 E2. apply IH in E2; [|exact Hne2]. destruct out.
        - destruct E2 as (a2 & b & -> & -> & H1 & H2 & H3). exists (a ++ a2), b.
          subst. repeat rewrite app_assoc. split; [reflexivity|]. split; [reflexivity|].
          split; [exact H1|]. split; [exact H2|]. intros F1 F2 F3. apply app_eq_nil in F3.
          destruct F3 as [_ F3]. exact (H3 F1 F2 F3).
        - destruct E2 as (a2 & b & -> & ->). exists (a ++ a2), b. subst. repeat rewrite app_assoc. auto. }
      assert (Hs2 : forall o2, o2 = Fin false true w2 -> o2 = out ->
        match out with
        | Still w' => exists a b, rest = a ++ b /\ w' = w ++ a
        | Fin ok down w' =>
          exists a b, rest = a ++ b /\ w' = w ++ a /\ (ok = true <-> b = []) /\
            (ok = true -> down = false) /\ (ok = false -> down = false -> a <> [])
        end).
      { intros o2 -> <-. exists a, rest2. split; [exact Hr|]. split; [exact Hw2|].
        split; [split; [discriminate|contradiction]|]. split; discriminate. }
      destruct waits as [|[] waits].
      - rewrite <- E. cbn. exists a, rest2. auto.
      - eapply Hrec; eauto.
      - destruct disable; [eapply Hrec; eauto|].
        destruct (tr - 1 =? 0); [|eapply Hrec; eauto].
        rewrite Hz2 in E. eapply Hs2; eauto.
      - rewrite Hz2 in E. eapply Hs2; eauto. }
    destruct r as [n| | |].
    + destruct (Z.leb_spec n 0).
      * rewrite Hz in H. subst out. apply Hshut. reflexivity.
      * set (k := Z.to_nat (Z.min n (zlen rest))) in *.
        assert (Hk : (0 < k)%nat).
        { unfold k. destruct rest; [congruence|]. rewrite zlen_cons in *. pose proof (zlen_nonneg rest). lia. }
        assert (Hsplit : rest = firstn k rest ++ skipn k rest) by (symmetry; apply firstn_skipn).
        assert (Hane : firstn k rest <> []).
        { destruct rest; [congruence|]. destruct k; [lia|]. discriminate. }
        destruct (Z.eqb_spec (zlen (skipn k rest)) 0) as [E|E].
        -- subst out. exists (firstn k rest), []. apply zlen_zero in E. rewrite E in Hsplit.
           split; [exact Hsplit|]. split; [reflexivity|]. split; [tauto|]. split; [auto|discriminate].
        -- assert (Hne2 : skipn k rest <> []) by (intros F; rewrite F in E; apply E; reflexivity).
           destruct (tries - 1 =? 0).
           ++ subst out. exists (firstn k rest), (skipn k rest).
              split; [exact Hsplit|]. split; [reflexivity|]. split; [split; [discriminate|contradiction]|].
              split; [discriminate|]. intros _ _. exact Hane.
           ++ apply (Hretry (tries - 1) (skipn k rest) (w ++ firstn k rest) (firstn k rest)); auto; rewrite (proj2 (Z.eqb_neq _ _) E); exact H.
    + eapply IH; eauto.
    + apply (Hretry tries rest w []); try exact H; auto. rewrite app_nil_r; reflexivity.
    + rewrite Hz in H. subst out. apply Hshut. reflexivity.
Qed.

Lemma send_raw_spec timeout disable up sends waits frame ok down w :
  frame <> [] ->
  send_raw timeout disable up sends waits frame = Fin ok down w ->
  exists rest, frame = w ++ rest /\ (ok = true <-> rest = []) /\ (ok = true -> down = false) /\
    (ok = false -> down = false -> w <> [] /\ rest <> []).
Proof.
  intros Hne H. unfold send_raw in H. destruct up.
  - apply send_loop_spec in H; [|exact Hne]. destruct H as (a & b & -> & -> & H1 & H2 & H3).
    exists b. split; [reflexivity|]. split; [exact H1|]. split; [exact H2|]. intros F G.
    split; [auto|]. intros E. apply H1 in E. congruence.
  - inversion H; subst. exists frame. split; [reflexivity|]. split; [split; [discriminate|contradiction]|].
    split; discriminate.
Qed.

(** If there are enough tries for the partial writes, the only way to fail is
    to close the connection. *)
Definition is_partial (r : sres) : bool := match r with Sent _ => true | _ => false end.
Definition partials (l : list sres) : Z := Z.of_nat (length (filter is_partial l)).
Definition timeouts (l : list wres) : Z :=
  Z.of_nat (length (filter (fun r => match r with WTimeout => true | _ => false end) l)).

Lemma partials_cons r l : partials (r :: l) = (if is_partial r then 1 else 0) + partials l.
Proof. unfold partials. cbn [filter]. destruct (is_partial r); cbn [length]; lia. Qed.
Lemma timeouts_cons r l : timeouts (r :: l) = (match r with WTimeout => 1 | _ => 0 end) + timeouts l.
Proof. unfold timeouts. cbn [filter]. destruct r; cbn [length]; lia. Qed.

Lemma send_loop_enough disable sends : forall waits tries rest w ok w',
  partials sends + timeouts waits < tries ->
  send_loop disable sends waits tries rest w = Fin ok false w' -> ok = true.
Proof.
  induction sends as [|r sends IH]; intros waits tries rest w ok w' Hp H; cbn [send_loop] in H;
    [discriminate|].
  rewrite partials_cons in Hp.
  assert (Hw0 : forall l, 0 <= timeouts l) by (unfold timeouts; lia).
  assert (Hp0 : 0 <= partials sends) by (unfold partials; lia).
  assert (Hretry : forall tries rest2 w2, partials sends + timeouts waits < tries ->
      match waits with
      | [] => Still w2
      | WReady :: waits' => send_loop disable sends waits' tries rest2 w2
      | WFail :: _ => Fin (zlen rest2 =? 0) true w2
      | WTimeout :: waits' =>
        if disable then send_loop disable sends waits' (tries - 1) rest2 w2
        else if tries - 1 =? 0 then Fin (zlen rest2 =? 0) true w2
        else send_loop disable sends waits' (tries - 1) rest2 w2
      end = Fin ok false w' -> ok = true).
  { intros tr rest2 w2 Hp2 E. destruct waits as [|[] waits]; try discriminate; rewrite timeouts_cons in Hp2.
    - eapply IH; [|exact E]. lia.
    - destruct disable; [eapply IH; [|exact E]; lia|].
      destruct (tr - 1 =? 0); [discriminate|]. eapply IH; [|exact E]. lia. }
  pose proof (Hw0 waits).
  destruct r as [n| | |]; cbn [is_partial] in Hp.
  - destruct (n <=? 0); [discriminate|].
    destruct (zlen (skipn (Z.to_nat (Z.min n (zlen rest))) rest) =? 0) eqn:Ez. { inversion H; reflexivity. }
    destruct (Z.eqb_spec (tries - 1) 0).
    + exfalso. lia.
    + apply (Hretry (tries - 1) (skipn (Z.to_nat (Z.min n (zlen rest))) rest)
               (w ++ firstn (Z.to_nat (Z.min n (zlen rest))) rest)); [lia|].
      rewrite Ez. exact H.
  - eapply IH; [|exact H]. lia.
  - eapply Hretry; [|exact H]. lia.
  - discriminate.
Qed.

Lemma send_raw_enough timeout disable sends waits frame ok w :
  partials sends + timeouts waits < (if 0 <? timeout then timeout else 3) ->
  send_raw timeout disable true sends waits frame = Fin ok false w -> ok = true.
Proof. unfold send_raw. apply send_loop_enough. Qed.

(** Progress: a socket that keeps taking something (no failure) finishes. *)
Lemma send_loop_one disable waits tries frame w n : frame <> [] -> zlen frame <= n ->
  forall sends, send_loop disable (Sent n :: sends) waits tries frame w = Fin true false (w ++ frame).
Proof.
  intros Hne Hn sends. cbn [send_loop].
  assert (0 < zlen frame). { destruct frame; [congruence|]. rewrite zlen_cons. pose proof (zlen_nonneg frame). lia. }
  destruct (Z.leb_spec n 0); [lia|].
  replace (Z.to_nat (Z.min n (zlen frame))) with (length frame) by (unfold zlen in *; lia).
  rewrite skipn_all, firstn_all. reflexivity.
Qed.

(** Whole connection: while every failure closes the connection, the wire holds
    a prefix of the frames in order. *)
Lemma send_frames_prefix timeout disable l : forall up w up',
  Forall (fun x => fst (fst x) <> [] /\
    partials (snd (fst x)) + timeouts (snd x) < (if 0 <? timeout then timeout else 3)) l ->
  send_frames timeout disable up l = Some (w, up') ->
  (exists rest, concat (map (fun x => fst (fst x)) l) = w ++ rest) /\
  (up = true -> up' = true -> w = concat (map (fun x => fst (fst x)) l)) /\
  (up = false -> up' = false /\ w = []).
Proof.
  induction l as [|[[f sends] waits] l IH]; intros up w up' Hall H; cbn [send_frames] in H.
  - inversion H; subst. cbn. split; [exists []; reflexivity|]. split; [auto|]. auto.
  - inversion Hall as [|x xs (Hne & Hen) Hall']; subst. cbn [fst snd] in *.
    destruct (send_raw timeout disable up sends waits f) as [ok down w1|] eqn:E; [|discriminate].
    destruct (send_frames timeout disable (up && negb down) l) as [[w2 up2]|] eqn:E2; [|discriminate].
    inversion H; subst; clear H.
    destruct (IH _ _ _ Hall' E2) as (IH1 & IH2 & IH3).
    destruct (send_raw_spec _ _ _ _ _ _ _ _ _ Hne E) as (rest & Hf & Hok & Hd & _).
    cbn [map concat fst].
    destruct up.
    + cbn [andb] in *. destruct down; cbn [negb] in *.
      * destruct (IH3 eq_refl) as [-> ->]. split; [|split; [intros _ F; discriminate F|discriminate]].
        rewrite app_nil_r. exists (rest ++ concat (map (fun x => fst (fst x)) l)). rewrite Hf, <- app_assoc. reflexivity.
      * assert (ok = true) by (eapply send_raw_enough; eauto). subst ok.
        assert (rest = []) by (apply Hok; reflexivity). subst rest. rewrite app_nil_r in Hf. subst w1.
        split; [|split; [|discriminate]].
        -- destruct IH1 as (r2 & ->). exists r2. rewrite app_assoc. reflexivity.
        -- intros _ F. rewrite (IH2 eq_refl F). reflexivity.
    + unfold send_raw in E. inversion E; subst. cbn [andb] in *. destruct (IH3 eq_refl) as [-> ->]. cbn.
      split; [eexists; reflexivity|]. split; [discriminate|]. auto.
Qed.
