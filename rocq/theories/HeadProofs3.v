(** The theorems about the headers of messages sent. *)
From Coq Require Import String.
From Verif Require Import Base CodecModel FlowModel MimeModel MimeSpec MimeProofs MimeProofs2 SequencerModel HeadModel HeadSpec HeadProofs HeadProofs2.
Local Open Scope list_scope.
Local Open Scope Z_scope.

(** * With the default encoding *)

Lemma HI0 : forall lib, HI (hst0 lib) (mkConf None []) false.
Proof.
  intros lib. constructor; cbn; auto; [intros a []|].
  intros i r. cbn. split; [|intros x [H|[]]; discriminate].
  destruct i; cbn; (split; [discriminate|intros H; now destruct H]).
Qed.
Lemma HI_run : forall es s c opened, HI s c opened -> steady opened es -> usual_types es ->
  exists s' o', hrun s es = Ok s' /\ HI s' (fold_left conf_step es c) o'.
Proof.
  induction es as [|e es IH]; intros s c opened H S U; cbn [hrun fold_left]; [eauto|].
  assert (F : fine opened e /\ steady (opens opened e) es).
  { destruct e as [| |m t|v|v|i v| |i r msg more]; cbn in *; try (split; [exact Logic.I|exact S]); try tauto.
    destruct S as [-> S]. split; [|exact S]. split; [reflexivity|]. apply U. now left. }
  destruct F as [F S']. destruct (HI_step _ _ _ _ H F) as (s1 & -> & H1). cbn [obind].
  apply (IH _ _ _ H1 S'). intros m t Q. apply U. now right.
Qed.
Lemma in_messages : forall cf a c m, good cf (a, c, m) -> (exists mt, cf = Some (mt, d_encoding) /\ plain mt) \/ cf = None ->
  if a =? 2 then c = m else entity c (match cf with Some x => fields_of x | None => [] end) m.
Proof.
  intros cf a c m G H. cbn in G. destruct (a =? 2); [exact G|]. subst c. destruct H as [(mt & -> & P)| ->]; cbn.
  - now apply lead_entity.
  - apply (en_body t_crlf m). now left.
Qed.
Lemma headers_thm : forall lib es, steady false es -> usual_types es -> exists s, hrun (hst0 lib) es = Ok s /\
  forall i r a c m, In (a, c, m) (snd (messages (h_log s) i r)) ->
  exists cf, nth_error (cf_chans (conf_of es)) i = Some cf /\
  if a =? 2 then c = m else entity c (match cf with Some x => fields_of x | None => [] end) m.
Proof.
  intros lib es S U. destruct (HI_run es _ _ _ (HI0 lib) S U) as (s & o & R & H). exists s. split; [exact R|].
  intros i r a c m M. destruct (i_log _ _ _ H i r) as [_ L]. destruct (L _ (or_intror M)) as (cf & N & G). exists cf. split; [exact N|].
  apply in_messages with (1 := G). destruct cf as [[mt te]|]; [left|now right].
  pose proof (i_chans _ _ _ H) as Q. clear -Q N. revert i N. unfold conf_of in *. cbn in *. induction Q as [|x y l cs K Q IH]; intros [|i] N; try discriminate; cbn in N; [|eauto].
  injection N as ->. cbn in K. exists mt. split; [f_equal; f_equal; tauto|tauto].
Qed.

(** * With another encoding *)

Lemma put_def : forall buf off s, 0 <= off -> off + zlen s <= zlen buf -> exists b, put buf off s = Ok b /\ zlen b = zlen buf.
Proof.
  intros buf off s H1 H2. destruct (put buf off s) as [b|] eqn:E; [exists b; eauto using put_len|].
  unfold put in E. replace ((0 <=? off) && (off + zlen s <=? zlen buf)) with true in E; [discriminate|]. symmetry. apply andb_true_iff. split; apply Z.leb_le; lia.
Qed.
Definition pre (m : bytes) : bytes := if bytes_eqb m octet_stream then [] else t_ctype ++ m ++ t_crlf.
Lemma pre_len : forall m, zlen (pre m) = if shown (Some m) octet_stream then 16 + zlen m else 0.
Proof. intros m. unfold pre, shown. destruct (bytes_eqb m octet_stream); cbn [negb]; [reflexivity|]. rewrite !zlen_app'. change (zlen t_ctype) with 14. change (zlen t_crlf) with 2. lia. Qed.
Definition fits (m t msg : bytes) : Prop := zlen m <= zlen t + zlen msg + 3.
Lemma put_over : forall a (y : bytes) d off s, off = zlen a + d -> 0 <= d -> d + zlen s <= zlen y ->
  exists z, put (a ++ y) off s = Ok (a ++ firstn (Z.to_nat d) y ++ s ++ z) /\ zlen z = zlen y - d - zlen s.
Proof.
  intros a y d off s -> D L. pose proof (zlen_pos s). set (u := firstn (Z.to_nat d) y). set (v := firstn (Z.to_nat (zlen s)) (skipn (Z.to_nat d) y)).
  set (z := skipn (Z.to_nat (zlen s)) (skipn (Z.to_nat d) y)).
  assert (E : y = u ++ v ++ z) by (unfold u, v, z; now rewrite !firstn_skipn).
  assert (LU : zlen u = d) by (unfold u, zlen in *; rewrite firstn_length; lia).
  assert (LV : zlen v = zlen s) by (unfold v, zlen in *; rewrite firstn_length, skipn_length; lia).
  exists z. split.
  - rewrite E at 1. rewrite app_assoc. rewrite put_at; [now rewrite <- app_assoc|rewrite zlen_app'; lia|exact LV].
  - rewrite E, !zlen_app', LU, LV. lia.
Qed.
Lemma content_other : forall m t msg, shown (Some t) t_binary = true -> fits m t msg ->
  exists z, content true (Some m) (Some t) msg = Ok (pre m ++ t_cte ++ firstn (Z.to_nat (zlen t + 2)) (m ++ t_crlf ++ z) ++ t_crlf ++ msg) /\
  zlen t <= zlen m + zlen z.
Proof.
  intros m t msg H F. unfold fits in F. unfold content, headers_size. rewrite H, <- pre_len. cbn [size_opt].
  pose proof (zlen_pos m). pose proof (zlen_pos t). pose proof (zlen_pos msg). pose proof (zlen_pos (pre m)).
  set (n := zlen (pre m) + (29 + zlen t) + 2). replace (0 <? n) with true by (symmetry; apply Z.ltb_lt; lia).
  fold (zs (n + zlen msg + 1)). unfold put_headers. rewrite H.
  assert (P : (if shown (Some m) octet_stream
     then let! buf := put (zs (n + zlen msg + 1)) 0 t_ctype in let! buf0 := put buf 14 m in let! buf1 := put buf0 (14 + zlen m) t_crlf in Ok (buf1, 16 + zlen m)
     else Ok (zs (n + zlen msg + 1), 0)) = Ok (pre m ++ zs (n + zlen msg + 1 - zlen (pre m)), zlen (pre m))).
  { unfold n. clear n. rewrite pre_len in *. unfold pre, shown in *. destruct (bytes_eqb m octet_stream) eqn:E; cbn [negb] in *.
    - cbn [app]. f_equal. f_equal. f_equal. lia.
    - set (k := 16 + zlen m + (29 + zlen t) + 2 + zlen msg + 1).
      change (put (zs k) 0 t_ctype) with (put ([] ++ zs k) 0 t_ctype). rewrite put_end; [|reflexivity|change (zlen t_ctype) with 14; lia]. cbn [obind].
      rewrite put_end; [|reflexivity|change (zlen t_ctype) with 14; lia]. cbn [obind].
      rewrite put_end; [|rewrite !zlen_app'; change (zlen t_ctype) with 14; change (zlen (@nil Z)) with 0; lia|change (zlen t_ctype) with 14; change (zlen t_crlf) with 2; lia]. cbn [obind].
      cbn [app]. rewrite <- !app_assoc. do 6 f_equal. change (zlen t_ctype) with 14. change (zlen t_crlf) with 2. lia. }
  rewrite P. cbn [obind].
  rewrite put_end; [|reflexivity|change (zlen t_cte) with 27; lia]. cbn [obind].
  set (k1 := n + zlen msg + 1 - zlen (pre m) - zlen t_cte).
  assert (K1 : k1 = zlen t + 2 + 2 + zlen msg + 1) by (unfold k1, n; change (zlen t_cte) with 27; lia).
  rewrite put_end; [|rewrite zlen_app'; change (zlen t_cte) with 27; lia|lia]. cbn [obind].
  rewrite put_end; [|rewrite !zlen_app'; change (zlen t_cte) with 27; lia|change (zlen t_crlf) with 2; lia]. cbn [obind].
  set (z := zs (k1 - zlen m - zlen t_crlf)).
  assert (LZ : zlen z = k1 - zlen m - 2) by (unfold z; rewrite zs_len; change (zlen t_crlf) with 2; lia).
  replace ((((pre m ++ t_cte) ++ m) ++ t_crlf) ++ z) with ((pre m ++ t_cte) ++ (m ++ t_crlf ++ z)) by (rewrite <- !app_assoc; reflexivity).
  set (y := m ++ t_crlf ++ z). assert (LY : zlen y = k1) by (unfold y; rewrite !zlen_app'; change (zlen t_crlf) with 2; lia).
  cbn [size_opt]. destruct (put_over (pre m ++ t_cte) y (zlen t + 2) (zlen (pre m) + (29 + zlen t)) t_crlf) as (z1 & -> & L1).
  { rewrite zlen_app'. change (zlen t_cte) with 27. lia. } { lia. } { change (zlen t_crlf) with 2. lia. }
  change (zlen t_crlf) with 2 in L1. cbn [obind].
  set (u := firstn (Z.to_nat (zlen t + 2)) y).
  assert (LU : zlen u = zlen t + 2) by (unfold u; unfold zlen in *; rewrite firstn_length; lia).
  replace ((pre m ++ t_cte) ++ u ++ t_crlf ++ z1) with (((pre m ++ t_cte) ++ u ++ t_crlf) ++ z1) by (rewrite <- !app_assoc; reflexivity).
  destruct (put_over ((pre m ++ t_cte) ++ u ++ t_crlf) z1 0 n msg) as (z2 & -> & L2).
  { rewrite !zlen_app'. change (zlen t_cte) with 27. change (zlen t_crlf) with 2. unfold n. lia. } { lia. } { lia. }
  cbn [obind]. exists z. split; [|lia]. f_equal. change (firstn (Z.to_nat 0) z1) with (@nil Z). cbn [app].
  rewrite app_assoc. rewrite firstn_exact; [rewrite <- !app_assoc; reflexivity|].
  rewrite !zlen_app'. change (zlen t_cte) with 27. change (zlen t_crlf) with 2. unfold n. lia.
Qed.
Lemma content_overflow : forall m t msg, shown (Some t) t_binary = true -> ~ fits m t msg -> content true (Some m) (Some t) msg = UB.
Proof.
  intros m t msg H F. unfold fits in F. unfold content, headers_size. rewrite H, <- pre_len. cbn [size_opt].
  pose proof (zlen_pos m). pose proof (zlen_pos t). pose proof (zlen_pos msg). pose proof (zlen_pos (pre m)).
  set (n := zlen (pre m) + (29 + zlen t) + 2). replace (0 <? n) with true by (symmetry; apply Z.ltb_lt; lia).
  fold (zs (n + zlen msg + 1)). unfold put_headers. rewrite H.
  assert (L0 : zlen (zs (n + zlen msg + 1)) = n + zlen msg + 1) by (rewrite zs_len; lia).
  assert (P : exists b, (if shown (Some m) octet_stream
     then let! buf := put (zs (n + zlen msg + 1)) 0 t_ctype in let! buf0 := put buf 14 m in let! buf1 := put buf0 (14 + zlen m) t_crlf in Ok (buf1, 16 + zlen m)
     else Ok (zs (n + zlen msg + 1), 0)) = Ok (b, zlen (pre m)) /\ zlen b = n + zlen msg + 1).
  { unfold n in *. clear n. rewrite pre_len in *. destruct (shown (Some m) octet_stream); [|eauto].
    set (k := 16 + zlen m + (29 + zlen t) + 2 + zlen msg + 1) in *.
    destruct (put_def (zs k) 0 t_ctype) as (b1 & -> & L1); [lia|change (zlen t_ctype) with 14; lia|]. cbn [obind].
    destruct (put_def b1 14 m) as (b2 & -> & L2); [lia|lia|]. cbn [obind].
    destruct (put_def b2 (14 + zlen m) t_crlf) as (b3 & -> & L3); [lia|change (zlen t_crlf) with 2; lia|]. cbn [obind]. exists b3. split; [reflexivity|lia]. }
  destruct P as (b & P & LB). rewrite P. cbn [obind].
  destruct (put_def b (zlen (pre m)) t_cte) as (b1 & -> & L1); [lia|change (zlen t_cte) with 27; lia|]. cbn [obind].
  destruct (put b1 (zlen (pre m) + 27) m) as [b2|] eqn:E; [|reflexivity]. cbn [obind]. apply put_len in E.
  rewrite put_out; [reflexivity|]. change (zlen t_crlf) with 2. lia.
Qed.
Lemma overflow_thm : forall m t msg, content true (Some m) (Some t) msg = UB <-> t <> d_encoding /\ zlen t + zlen msg + 3 < zlen m.
Proof.
  intros m t msg. destruct (shown (Some t) t_binary) eqn:S.
  - assert (N : t <> d_encoding) by (intros ->; discriminate). split.
    + intros H. split; [exact N|]. apply Z.nle_gt. intros F. destruct (content_other m t msg S F) as (z & E & _). congruence.
    + intros [_ H]. apply content_overflow; [exact S|]. unfold fits. lia.
  - rewrite content_plain by exact S. split; [discriminate|]. intros [N _]. unfold shown in S. apply negb_false_iff, bytes_eqb_true in S. now rewrite binary_d in S.
Qed.

Lemma app_13 : forall (m t x y : bytes), Forall (fun c => 33 <= c <= 126) m -> Forall (fun c => 33 <= c <= 126) t -> m ++ 13 :: x = t ++ 13 :: y -> m = t.
Proof.
  induction m as [|a m IH]; intros [|b t] x y F1 F2 E; cbn in E; [reflexivity| | |].
  - injection E as <- _. inversion F2; subst. lia.
  - injection E as -> _. inversion F1; subst. lia.
  - injection E as <- E. inversion F1; inversion F2; subst. f_equal. eapply IH; eauto.
Qed.
Lemma eol_len : forall e, eol e -> (1 <= zlen e <= 2) /\ (zlen e = 2 -> e = t_crlf).
Proof. intros e [->| ->]; split; try reflexivity; try (vm_compute; split; discriminate); discriminate. Qed.
Lemma one_field : forall c n v hs msg, entity c ((n, v) :: hs) msg -> exists e rest, eol e /\ entity rest hs msg /\ c = n ++ 58 :: v ++ e ++ rest.
Proof. intros c n v hs msg H. inversion H; subst. eauto 10. Qed.
Lemma no_field : forall c msg, entity c [] msg -> exists e, eol e /\ c = e ++ msg.
Proof. intros c msg H. inversion H; subst. eauto. Qed.
Lemma ok_eq : forall {A} (a b : A), Ok a = Ok b -> a = b.
Proof. intros A a b H. now injection H. Qed.
Lemma wrong_thm : forall m t msg c, plain m -> plain t -> t <> d_encoding -> t <> m ->
  content true (Some m) (Some t) msg = Ok c -> ~ entity c (fields_of (m, t)) msg.
Proof.
  intros m t msg c [_ Pm] [_ Pt] N1 N2 E H.
  assert (S : shown (Some t) t_binary = true) by (unfold shown; apply negb_true_iff, not_true_iff_false; intros Q; apply bytes_eqb_true in Q; auto).
  assert (F : fits m t msg). { unfold fits. apply Z.nlt_ge. intros F. assert (U : content true (Some m) (Some t) msg = UB) by (apply overflow_thm; auto). congruence. }
  destruct (content_other m t msg S F) as (z & E1 & LZ). rewrite E in E1. apply ok_eq in E1. subst c.
  set (y := m ++ t_crlf ++ z) in *. set (u := firstn (Z.to_nat (zlen t + 2)) y) in *.
  pose proof (zlen_pos m). pose proof (zlen_pos t). pose proof (zlen_pos msg). pose proof (zlen_pos z).
  assert (LU : zlen u = zlen t + 2). { unfold u. assert (zlen y = zlen m + 2 + zlen z) by (unfold y; rewrite !zlen_app'; change (zlen t_crlf) with 2; lia). unfold zlen in *; rewrite firstn_length; lia. }
  assert (K : u = t ++ t_crlf).
  { unfold fields_of in H. cbn [fst snd] in H. replace (bytes_eqb t d_encoding) with false in H by (symmetry; apply not_true_iff_false; intros Q; apply bytes_eqb_true in Q; auto).
    unfold pre in H. rewrite octet_d in H. destruct (bytes_eqb m d_type); rewrite ?app_nil_l in H; try (match type of H with entity ?c ([?x] ++ [?y]) ?b => change (entity c [x; y] b) in H end).
    - apply one_field in H. destruct H as (e1 & rest & Q1 & H & X). apply no_field in H. destruct H as (e2 & Q2 & ->).
      apply eol_len in Q1, Q2. destruct Q1 as [Q1 Q1'], Q2 as [Q2 Q2'].
      change (ztext "Content-Transfer-Encoding" ++ 58 :: (ztext " " ++ t) ++ e1 ++ e2 ++ msg) with (t_cte ++ t ++ e1 ++ e2 ++ msg) in X.
      apply (app_inv_head t_cte) in X. assert (L : zlen (u ++ t_crlf ++ msg) = zlen (t ++ e1 ++ e2 ++ msg)) by now rewrite X.
      rewrite !zlen_app', LU in L. change (zlen t_crlf) with 2 in L. rewrite Q1', Q2' in X by lia.
      rewrite !app_assoc in X. apply app_inv_tail in X. now apply app_inv_tail in X.
    - apply one_field in H. destruct H as (e0 & rest0 & Q0 & H & X). apply one_field in H. destruct H as (e1 & rest & Q1 & H & ->). apply no_field in H. destruct H as (e2 & Q2 & ->).
      apply eol_len in Q0, Q1, Q2. destruct Q0 as [Q0 Q0'], Q1 as [Q1 Q1'], Q2 as [Q2 Q2'].
      change (ztext "Content-Type" ++ 58 :: (ztext " " ++ m) ++ e0 ++ ztext "Content-Transfer-Encoding" ++ 58 :: (ztext " " ++ t) ++ e1 ++ e2 ++ msg)
        with (t_ctype ++ m ++ e0 ++ t_cte ++ t ++ e1 ++ e2 ++ msg) in X.
      rewrite <- !app_assoc in X. apply (app_inv_head t_ctype) in X. apply (app_inv_head m) in X.
      assert (L : zlen (t_crlf ++ t_cte ++ u ++ t_crlf ++ msg) = zlen (e0 ++ t_cte ++ t ++ e1 ++ e2 ++ msg)) by now rewrite X.
      rewrite !zlen_app', LU in L. change (zlen t_crlf) with 2 in L. rewrite Q0', Q1', Q2' in X by lia. apply (app_inv_head t_crlf) in X. apply (app_inv_head t_cte) in X.
      rewrite !app_assoc in X. apply app_inv_tail in X. now apply app_inv_tail in X. }
  apply N2. symmetry. unfold t_crlf in *.
  apply app_13 with (x := 10 :: z) (y := 10 :: skipn (Z.to_nat (zlen t + 2)) y); [exact Pm|exact Pt|].
  change (m ++ 13 :: 10 :: z) with y. rewrite <- (firstn_skipn (Z.to_nat (zlen t + 2)) y) at 1. fold u. rewrite K, <- app_assoc. reflexivity.
Qed.
