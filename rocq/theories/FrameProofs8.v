(** Consequences and witnesses. *)
From Verif Require Import Base CodecModel MimeModel MimeSpec HdrModel HdrSpec FrameModel FrameSpec MimeProofs HdrProofs FrameProofs FrameProofs2 FrameProofs3 FrameProofs4 FrameProofs5 FrameProofs6 FrameProofs7.

(** * The fragments *)
Record joining (s : fm) (T : list tk) (V : list vf) (a : fargs) (acc n : nat) (seqno : Z) (more : bool) (body : bytes) : Prop := mkJ {
  j_inv : inv s T;
  j_rel : rel (m_heap s) (m_frames s) T V;
  j_len : length T = n;
  j_acc : exists t, nth_error T acc = Some t /\ t_held t = 1 /\ t_gone t = false /\ t_size t = zlen body /\ t_hsize t = 0;
  j_others : forall i t, i <> acc -> nth_error T i = Some t -> t_held t = 0;
  j_val : exists v, nth_error V acc = Some v /\ v_type v = a_type a /\ v_ch v = a_ch a /\ v_msgno v = a_msgno a /\ v_ans v = a_ans a /\
     v_more v = more /\ v_hsize v = 0 /\ v_body v = body /\ (v_seqno v + zlen body) mod two32 = seqno /\ v_seqno v = a_seqno a /\ v_chref v = 0
}.

Lemma upd_get : forall A (l : list A) i j x y, nth_error (upd_nth l i x) j = Some y -> (i = j /\ y = x) \/ (i <> j /\ nth_error l j = Some y).
Proof.
  intros A l i j x y E. destruct (Nat.eq_dec i j) as [<-|D].
  - left. split; auto. pose proof (nth_lt _ _ _ _ E) as L. rewrite upd_nth_length in L. rewrite nth_upd_same in E by auto. congruence.
  - right. rewrite nth_upd_other in E by auto. auto.
Qed.

Lemma joining_step : forall s T V a acc n seqno body c more,
  joining s T V a acc n seqno true body -> (acc < n)%nat -> 0 <= seqno < two32 ->
  Z.of_nat n + 1 < two31 - 2 -> zlen body + zlen c + 6 < two31 -> defined c ->
  exists s' log, frun s [FReceive (frag a seqno more) 0 c; FJoin false acc n; FUnref acc; FUnref n] = Ok (s', log) /\
    joining s' (fold_left track log T) (fold_left vnext log V) a (S n) (S (S n)) ((seqno + zlen c) mod two32) more (body ++ c).
Proof.
  intros s T V a acc n seqno body c more J Lt Sq Rm Sz Dc. destruct J as [I R Ln (t & Ht & H1 & H2 & H3 & H4) Ot (v & Hv & v1 & v2 & v3 & v4 & v5 & v6 & v7 & v8 & v9 & v10)].
  pose proof (zlen_pos _ body) as Pb. pose proof (zlen_pos _ c) as Pc.
  assert (Lv := proj1 R).
  (* receive *)
  assert (A1 : allowed T (FReceive (frag a seqno more) 0 c)).
  { cbn. unfold room. rewrite <- Ln in Rm. unfold zlen in *. conj; auto; lia. }
  destruct (good_receive s T V _ _ _ I R A1) as (s1 & b1 & E1 & I1 & X1 & R1). cbn [explains] in X1. subst b1. cbn [track vnext] in I1, R1.
  set (tn := mkTK 1 true false true true false false (zlen c) 0) in *.
  set (vn := mkVF _ _ _ _ _ _ _ _ _ _ c) in R1.
  assert (Nn : nth_error (T ++ [tn]) n = Some tn) by (rewrite <- Ln; apply nth_app_new).
  assert (Na : nth_error (T ++ [tn]) acc = Some t) by (rewrite nth_error_app1 by lia; exact Ht).
  assert (Vn : nth_error (V ++ [vn]) n = Some vn) by (rewrite <- Ln, <- Lv; apply nth_app_new).
  assert (Va : nth_error (V ++ [vn]) acc = Some v) by (rewrite nth_error_app1 by lia; exact Hv).
  (* join *)
  assert (A2 : allowed (T ++ [tn]) (FJoin false acc n)).
  { split; [unfold room, zlen; rewrite app_length; cbn [length]; lia|]. split; [lia|]. exists t. split; [exact Na|]. split; [lia|]. split; [exact H2|].
    split; [discriminate|]. exists tn. split; [exact Nn|]. cbn [tn t_held t_gone t_size]. split; [lia|]. split; [reflexivity|]. lia. }
  destruct (good_join s1 _ _ _ _ _ I1 R1 A2) as (s2 & b2 & E2 & I2 & X2 & R2). cbn [explains] in X2.
  destruct X2 as (va & vb & Ha & Hb & X2). rewrite Va in Ha. injection Ha as <-. rewrite Vn in Hb. injection Hb as <-.
  assert (Cn : continues v vn).
  { unfold continues. cbn [vn frag v_type v_ch v_msgno v_ans v_seqno a_type a_ch a_msgno a_ans a_seqno]. conj; auto. rewrite v6, v7, Z.add_0_r. auto. }
  destruct X2 as [(_ & ->)|(X2 & _)]; [|contradiction].
  cbn [track vnext] in I2, R2. rewrite Na, Nn in I2, R2. rewrite Va, Vn in R2. rewrite app_length in E2. cbn [length] in E2. rewrite Lv, Ln in E2.
  replace (n + 1)%nat with (S n) in E2 by lia.
  set (ta := mkTK (t_held t) _ _ _ _ _ _ _ _) in *. set (tj := mkTK 1 false false (t_hsize t =? 0) _ _ _ _ _) in *. set (vj := mkVF _ _ _ _ _ _ _ _ _ _ (v_body v ++ v_body vn)) in *.
  set (T2 := upd_nth (T ++ [tn]) acc ta ++ [tj]) in *. set (V2 := (V ++ [vn]) ++ [vj]) in *.
  assert (L2 : length (upd_nth (T ++ [tn]) acc ta) = S n) by (rewrite upd_nth_length, app_length; cbn [length]; lia).
  assert (T2a : nth_error T2 acc = Some ta).
  { unfold T2. rewrite nth_error_app1 by lia. apply nth_upd_same. rewrite app_length. cbn. lia. }
  assert (T2n : nth_error T2 n = Some tn).
  { unfold T2. rewrite nth_error_app1 by lia. rewrite nth_upd_other by lia. exact Nn. }
  (* unref acc *)
  assert (A3 : allowed T2 (FUnref acc)). { exists ta. split; [exact T2a|]. split; [cbn; lia|exact Logic.I]. }
  destruct (good_unref s2 T2 V2 acc I2 R2 A3) as (s3 & b3 & E3 & I3 & X3 & R3). cbn [explains] in X3. subst b3. cbn [track vnext] in I3, R3. rewrite T2a in I3, R3.
  set (T3 := upd_nth T2 acc (with_held ta (t_held ta - 1))) in *.
  assert (T3n : nth_error T3 n = Some tn) by (unfold T3; rewrite nth_upd_other by lia; exact T2n).
  assert (A4 : allowed T3 (FUnref n)). { exists tn. split; [exact T3n|]. split; [cbn; lia|exact Logic.I]. }
  destruct (good_unref s3 T3 V2 n I3 R3 A4) as (s4 & b4 & E4 & I4 & X4 & R4). cbn [explains] in X4. subst b4. cbn [track vnext] in I4, R4. rewrite T3n in I4, R4.
  set (T4 := upd_nth T3 n (with_held tn (t_held tn - 1))) in *.
  exists s4. eexists. cbn [frun]. rewrite E1. cbn [obind]. rewrite E2. cbn [obind]. rewrite E3. cbn [obind]. rewrite E4. cbn [obind]. split; [reflexivity|].
  cbn [fold_left track vnext]. fold tn vn. rewrite Na, Nn, Va, Vn. fold ta tj vj T2 V2. rewrite T2a. fold T3. rewrite T3n. fold T4.
  assert (L4 : length T4 = S (S n)).
  { unfold T4, T3, T2. rewrite !upd_nth_length, app_length, L2. cbn. lia. }
  assert (T4j : nth_error T4 (S n) = Some tj).
  { unfold T4, T3. rewrite !nth_upd_other by lia. unfold T2. rewrite <- L2. apply nth_app_new. }
  constructor; auto.
  - exists tj. split; [exact T4j|]. cbn [tj t_held t_gone t_size t_hsize tn]. conj; auto. unfold zlen in *. rewrite app_length. lia.
  - intros i u Di Hu. unfold T4 in Hu. apply upd_get in Hu. destruct Hu as [(<- & ->)|(Dn & Hu)]; [reflexivity|].
    unfold T3 in Hu. apply upd_get in Hu. destruct Hu as [(<- & ->)|(Da & Hu)]; [cbn; lia|].
    assert (Li : (i < S (S n))%nat). { pose proof (nth_lt _ _ _ _ Hu) as X. unfold T2 in X. rewrite app_length, L2 in X. cbn in X. lia. }
    unfold T2 in Hu. rewrite nth_error_app1 in Hu by lia. rewrite nth_upd_other in Hu by lia.
    rewrite nth_error_app1 in Hu by lia. apply (Ot i u); auto.
  - exists vj. split.
    + unfold V2. assert (X : length (V ++ [vn]) = S n) by (rewrite app_length; cbn; lia). rewrite <- X. apply nth_app_new.
    + cbn [vj vn frag v_type v_ch v_msgno v_ans v_more v_hsize v_body v_seqno v_chref a_more]. conj; auto.
      * rewrite v5. reflexivity.
      * rewrite v7. reflexivity.
      * unfold zlen in *. rewrite app_length. rewrite <- v8.
        rewrite Zplus_mod_idemp_l. f_equal. lia.
Qed.

Lemma frun_app : forall o1 s o2 s1 l1 s2 l2, frun s o1 = Ok (s1, l1) -> frun s1 o2 = Ok (s2, l2) -> frun s (o1 ++ o2) = Ok (s2, l1 ++ l2).
Proof.
  induction o1 as [|o o1 IH]; intros s o2 s1 l1 s2 l2 E1 E2; cbn [frun app] in *.
  - injection E1 as <- <-. exact E2.
  - destruct (fstep s o) as [[s' b]|]; [|discriminate]. cbn [obind] in *. destruct (frun s' o1) as [[s'' l]|] eqn:E; [|discriminate].
    cbn [obind] in E1. injection E1 as <- <-. rewrite (IH _ _ _ _ _ _ E E2). reflexivity.
Qed.

Definition more_of (cs : list bytes) : bool := match cs with [] => false | _ => true end.
Lemma zlen_concat_cons : forall (c : bytes) cs, zlen (concat (c :: cs)) = zlen c + zlen (concat cs).
Proof. intros. unfold zlen. cbn [concat]. rewrite app_length. lia. Qed.

Lemma join_rest_ok : forall cs s T V a acc n seqno body, joining s T V a acc n seqno (more_of cs) body -> (acc < n)%nat -> 0 <= seqno < two32 ->
  Z.of_nat n + 2 * zlen cs < two31 - 2 -> zlen body + zlen (concat cs) + 6 < two31 -> Forall defined cs ->
  exists s' log os k n' q, join_rest a seqno acc n cs = (os, k) /\ frun s os = Ok (s', log) /\
    joining s' (fold_left track log T) (fold_left vnext log V) a k n' q false (body ++ concat cs).
Proof.
  induction cs as [|c cs IH]; intros s T V a acc n seqno body J Lt Sq Rm Sz D.
  - exists s, [], [], acc, n, seqno. cbn. rewrite app_nil_r. conj; auto.
  - inversion D as [|x y D1 D2]; subst. cbn [more_of] in J. rewrite zlen_concat_cons in Sz.
    assert (Zc : zlen (c :: cs) = 1 + zlen cs) by (unfold zlen; cbn [length]; lia). rewrite Zc in Rm.
    pose proof (zlen_pos _ cs). pose proof (zlen_pos _ (concat cs)).
    destruct (joining_step s T V a acc n seqno body c (more_of cs) J Lt Sq) as (s1 & l1 & E1 & J1); auto; try lia.
    destruct (IH s1 _ _ a (S n) (S (S n)) ((seqno + zlen c) mod two32) (body ++ c) J1) as (s2 & l2 & os & k & n' & q & Eo & E2 & J2); auto; try (apply Z.mod_pos_bound; reflexivity); try lia.
    + unfold zlen in *. rewrite app_length. lia.
    + cbn [join_rest]. rewrite Eo. fold (more_of cs). exists s2, (l1 ++ l2), (FReceive (frag a seqno (more_of cs)) 0 c :: FJoin false acc n :: FUnref acc :: FUnref n :: os), k, n', q.
      split; [reflexivity|]. split.
      * apply (frun_app [FReceive (frag a seqno (more_of cs)) 0 c; FJoin false acc n; FUnref acc; FUnref n] s os s1 l1 s2 l2); auto.
      * rewrite !fold_left_app. cbn [concat]. rewrite app_assoc. exact J2.
Qed.

Lemma fragments_joined : forall a c cs, 0 <= a_seqno a < two32 -> 2 * zlen cs + 1 < two31 - 2 -> zlen c + zlen (concat cs) + 6 < two31 ->
  Forall defined (c :: cs) -> exists s log k,
  frun fm0 (join_all a c cs) = Ok (s, log ++ [(FPayload k, OBytes (c ++ concat cs));
     (FInfo k, OInfo (1 + Z.of_nat k) (a_type a) (a_ch a) (a_msgno a) false (a_seqno a) (zlen (c ++ concat cs)) (a_ans a) 0); (FUnref k, OUnit)]) /\
  nothing_left s.
Proof.
  intros a c cs Sq Rm Sz D. inversion D as [|x y D1 D2]; subst. pose proof (zlen_pos _ cs). pose proof (zlen_pos _ c). pose proof (zlen_pos _ (concat cs)).
  assert (A1 : allowed [] (FReceive (frag a (a_seqno a) (more_of cs)) 0 c)).
  { cbn. unfold room, two31 in *. cbn. conj; auto; lia. }
  assert (R0 : rel (m_heap fm0) (m_frames fm0) [] []). { split; [reflexivity|]. intros i f t v N. destruct i; discriminate. }
  destruct (good_receive fm0 [] [] _ _ _ inv0 R0 A1) as (s1 & b1 & E1 & I1 & X1 & R1). cbn [explains length] in X1. subst b1. cbn [track vnext app] in I1, R1.
  set (tn := mkTK 1 true false true true false false (zlen c) 0) in *.
  set (vn := mkVF _ _ _ _ _ _ _ _ _ _ c) in R1.
  assert (J1 : joining s1 [tn] [vn] a 0 1 ((a_seqno a + zlen c) mod two32) (more_of cs) c).
  { constructor; auto.
    - exists tn. conj; reflexivity.
    - intros i t Di Hi. destruct i as [|[|i]]; [contradiction|discriminate|discriminate].
    - exists vn. conj; reflexivity. }
  destruct (join_rest_ok cs s1 [tn] [vn] a 0%nat 1%nat _ c J1) as (s2 & l2 & os & k & n' & q & Eo & E2 & J2); auto; try (apply Z.mod_pos_bound; reflexivity); try (change (Z.of_nat 1) with 1; lia).
  set (T := fold_left track l2 [tn]) in *. set (V := fold_left vnext l2 [vn]) in *.
  destruct J2 as [I2 R2 Ln (t & Ht & H1' & H2' & H3' & H4') Ot (v & Hv & v1 & v2 & v3 & v4 & v5 & v6 & v7 & v8 & v9 & v10)].
  assert (Ua : usable T k (fun _ => True)). { exists t. conj; auto. lia. }
  destruct (good_step s2 T V (FPayload k) I2 R2 Ua) as (s3 & b3 & E3 & I3 & X3 & R3). 
  destruct b3; cbn [explains] in X3; try contradiction. destruct X3 as (w & Hw & ->). rewrite Hv in Hw. injection Hw as <-. cbn [track vnext] in I3, R3.
  destruct (good_step s3 T V (FInfo k) I3 R3 Ua) as (s4 & b4 & E4 & I4 & X4 & R4).
  destruct b4; cbn [explains] in X4; try contradiction. destruct X4 as (w & Hw & -> & -> & -> & -> & -> & -> & -> & -> & ->).
  rewrite Hv in Hw. injection Hw as <-. cbn [track vnext] in I4, R4.
  assert (A5 : allowed T (FUnref k)). { exists t. conj; auto. lia. }
  destruct (good_unref s4 T V k I4 R4 A5) as (s5 & b5 & E5 & I5 & X5 & R5). cbn [explains] in X5. subst b5. cbn [track] in I5. rewrite Ht in I5.
  exists s5, ((FReceive (frag a (a_seqno a) (more_of cs)) 0 c, ONew 0) :: l2), k. split.
  - unfold join_all. rewrite Eo. fold (more_of cs). cbn [frun]. rewrite E1. cbn [obind length].
    rewrite (frun_app os s1 [FPayload k; FInfo k; FUnref k] s2 l2 s5
      [(FPayload k, OBytes (v_body v)); (FInfo k, OInfo (1 + Z.of_nat k) (v_type v) (v_ch v) (v_msgno v) (v_more v) (v_seqno v) (zlen (v_body v)) (v_ans v) (v_chref v)); (FUnref k, OUnit)] E2).
    + cbn [obind app]. rewrite v1, v2, v3, v4, v5, v7, v9, v10. reflexivity.
    + cbn [frun]. rewrite E3. cbn [obind]. rewrite E4. cbn [obind]. rewrite E5. reflexivity.
  - eapply released_nothing; [exact I5|]. intros u Hu. destruct (In_nth_error _ _ Hu) as (i & Hi). apply upd_get in Hi.
    destruct Hi as [(_ & ->)|(Di & Hi)]; [cbn; lia|]. apply (Ot i u); auto.
Qed.
