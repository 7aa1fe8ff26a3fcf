(** Lemmas about the headers of messages sent. *)
From Coq Require Import String.
From Verif Require Import Base CodecModel MimeModel MimeSpec MimeProofs HeadModel HeadSpec.
Local Open Scope list_scope.
Local Open Scope Z_scope.

Definition zs (k : Z) : bytes := repeat 0 (Z.to_nat k).
Lemma zs_len : forall k, 0 <= k -> zlen (zs k) = k.
Proof. intros k H. unfold zlen, zs. rewrite repeat_length. lia. Qed.
Lemma zs_skip : forall n k, 0 <= n -> n <= k -> skipn (Z.to_nat n) (zs k) = zs (k - n).
Proof.
  intros n k H1 H2. unfold zs. replace (Z.to_nat k) with (Z.to_nat n + Z.to_nat (k - n))%nat by lia.
  rewrite repeat_app. rewrite skipn_app, repeat_length.
  rewrite skipn_all2 by (rewrite repeat_length; lia). replace (Z.to_nat n - Z.to_nat n)%nat with 0%nat by lia. reflexivity.
Qed.
Lemma zs_split : forall n k, 0 <= n -> n <= k -> zs k = zs n ++ zs (k - n).
Proof. intros n k H1 H2. unfold zs. rewrite <- repeat_app. f_equal. lia. Qed.
Lemma put_at : forall a b z off s, off = zlen a -> zlen b = zlen s -> put (a ++ b ++ z) off s = Ok (a ++ s ++ z).
Proof.
  intros a b z off s H1 H2. subst off. unfold put.
  rewrite !zlen_app', H2. pose proof (zlen_pos a). pose proof (zlen_pos z).
  replace (0 <=? zlen a) with true by (symmetry; apply Z.leb_le; lia).
  replace (zlen a + zlen s <=? zlen a + (zlen s + zlen z)) with true by (symmetry; apply Z.leb_le; lia). cbn [andb].
  f_equal. f_equal.
  - unfold zlen. rewrite Nat2Z.id, firstn_app, firstn_all. replace (_ - _)%nat with 0%nat by lia. cbn. apply app_nil_r.
  - f_equal. unfold zlen in *. replace (Z.to_nat _) with (List.length (a ++ b)) by (rewrite app_length; lia).
    rewrite app_assoc, skipn_app, skipn_all. replace (_ - _)%nat with 0%nat by lia. reflexivity.
Qed.
Lemma put_end : forall a k off s, off = zlen a -> zlen s <= k -> put (a ++ zs k) off s = Ok ((a ++ s) ++ zs (k - zlen s)).
Proof.
  intros a k off s H1 H2. pose proof (zlen_pos s). rewrite (zs_split (zlen s) k) by lia.
  rewrite put_at; [now rewrite <- app_assoc|exact H1|now rewrite zs_len].
Qed.
Lemma put_out : forall buf off s, zlen buf < off + zlen s -> put buf off s = UB.
Proof. intros. unfold put. replace (off + zlen s <=? zlen buf) with false by (symmetry; apply Z.leb_gt; lia). now rewrite andb_false_r. Qed.
Lemma put_len : forall buf off s b, put buf off s = Ok b -> zlen b = zlen buf.
Proof.
  intros buf off s b H. unfold put in H. destruct (_ && _) eqn:E; [|discriminate]. injection H as <-.
  apply andb_true_iff in E. destruct E as [E1 E2]. apply Z.leb_le in E1, E2. pose proof (zlen_pos s).
  unfold zlen in *. rewrite !app_length, firstn_length, skipn_length. lia.
Qed.

(** * What is sent with the default encoding *)

Definition lead (m : bytes) : bytes := if bytes_eqb m octet_stream then t_crlf else t_ctype ++ m ++ t_crlf ++ t_crlf.
Lemma lead_len : forall m te, shown te t_binary = false -> headers_size (Some m) te = zlen (lead m).
Proof.
  intros m te H. unfold headers_size, lead, shown at 1. rewrite H. cbn [size_opt].
  destruct (bytes_eqb m octet_stream); cbn [negb]; [reflexivity|]. rewrite !zlen_app'. change (zlen t_ctype) with 14. change (zlen t_crlf) with 2. lia.
Qed.
Lemma firstn_exact : forall (a b : bytes) n, n = zlen a -> firstn (Z.to_nat n) (a ++ b) = a.
Proof. intros a b n ->. unfold zlen. rewrite Nat2Z.id, firstn_app, firstn_all, Nat.sub_diag. cbn. apply app_nil_r. Qed.
Lemma put_headers_plain : forall m te k, shown te t_binary = false -> zlen (lead m) <= k ->
  put_headers (zs k) (Some m) te = Ok (lead m ++ zs (k - zlen (lead m))).
Proof.
  intros m te k H K. unfold put_headers. rewrite H. unfold lead, shown in *. destruct (bytes_eqb m octet_stream) eqn:E; cbn [negb obind] in *.
  - change (zs k) with ([] ++ zs k). rewrite put_end; [reflexivity|reflexivity|exact K].
  - rewrite !zlen_app' in K. change (zlen t_ctype) with 14 in K. change (zlen t_crlf) with 2 in K. pose proof (zlen_pos m).
    change (put (zs k) 0 t_ctype) with (put ([] ++ zs k) 0 t_ctype). rewrite put_end; [|reflexivity|change (zlen t_ctype) with 14; lia]. cbn [obind].
    rewrite put_end; [|reflexivity|change (zlen t_ctype) with 14; lia]. cbn [obind].
    rewrite put_end; [|rewrite !zlen_app'; change (zlen t_ctype) with 14; change (zlen (@nil Z)) with 0; lia|change (zlen t_ctype) with 14; change (zlen t_crlf) with 2; lia]. cbn [obind].
    rewrite put_end; [|rewrite !zlen_app'; change (zlen t_ctype) with 14; change (zlen t_crlf) with 2; change (zlen (@nil Z)) with 0; lia|change (zlen t_ctype) with 14; change (zlen t_crlf) with 2; lia].
    rewrite !zlen_app'. rewrite <- !app_assoc. cbn [app]. f_equal. f_equal. f_equal. f_equal. f_equal. f_equal. lia.
Qed.
Lemma content_plain : forall m te msg, shown te t_binary = false -> content true (Some m) te msg = Ok (lead m ++ msg).
Proof.
  intros m te msg H. unfold content. rewrite lead_len by exact H. pose proof (zlen_pos msg).
  assert (0 < zlen (lead m)). { unfold lead. destruct (bytes_eqb m octet_stream); [reflexivity|]. rewrite zlen_app'. change (zlen t_ctype) with 14. pose proof (zlen_pos (m ++ t_crlf ++ t_crlf)). lia. }
  replace (0 <? zlen (lead m)) with true by (symmetry; apply Z.ltb_lt; lia).
  fold (zs (zlen (lead m) + zlen msg + 1)).
  rewrite put_headers_plain by (auto; lia). cbn [obind].
  rewrite put_end; [|reflexivity|lia]. cbn [obind]. f_equal. apply firstn_exact. now rewrite zlen_app'.
Qed.
Lemma content_null : forall te msg, shown te t_binary = false -> content true None te msg = Ok (t_crlf ++ msg).
Proof.
  intros te msg H. unfold content, headers_size, put_headers. rewrite H. cbn [shown obind]. change (0 + 0 + 2) with 2. change (0 <? 2) with true. cbv iota.
  pose proof (zlen_pos msg). fold (zs (2 + zlen msg + 1)).
  change (put (zs (2 + zlen msg + 1)) 0 t_crlf) with (put ([] ++ zs (2 + zlen msg + 1)) 0 t_crlf).
  rewrite put_end; [|reflexivity|change (zlen t_crlf) with 2; lia]. cbn [obind].
  rewrite put_end; [|reflexivity|change (zlen t_crlf) with 2; lia]. cbn [obind]. f_equal. apply firstn_exact. rewrite !zlen_app'. change (zlen (@nil Z)) with 0. change (zlen t_crlf) with 2. lia.
Qed.
Lemma content_none : forall msg, content false None None msg = Ok msg.
Proof.
  intros msg. unfold content. change (0 <? 0) with false. cbv iota. cbn [obind]. pose proof (zlen_pos msg). fold (zs (0 + zlen msg + 1)).
  change (zs (0 + zlen msg + 1)) with ([] ++ zs (0 + zlen msg + 1)) at 1. rewrite put_end; [|reflexivity|lia]. cbn [obind]. f_equal. apply firstn_exact. reflexivity.
Qed.

(** It is a MIME entity. *)
Lemma plain_value : forall (v rest : bytes), Forall (fun c => 33 <= c <= 126) v -> line_end rest -> field_value (32 :: v) rest.
Proof.
  intros v rest H L. split; [exact L|]. intros a b E La Hb.
  assert (exists c r, b = c :: r /\ c <> 13 /\ c <> 10) as (c & r & -> & C1 & C2).
  { assert (F : Forall (fun c => c <> 13 /\ c <> 10) (32 :: v)). { constructor; [lia|]. eapply Forall_impl; [|exact H]. intros c Hc. cbn in Hc. lia. }
    assert (exists w, 32 :: v = a ++ w /\ b = w ++ rest) as (w & E1 & E2).
    { clear -E La. revert a E La. generalize (32 :: v). intros u. induction u as [|x u IH]; intros [|y a] E La.
      - exists []. cbn in *. auto.
      - cbn in La. lia.
      - exists (x :: u). auto.
      - cbn in E. injection E as <- E. destruct (IH a E) as (w & -> & ->); [cbn in La; lia|]. exists w. auto. }
    rewrite E1 in F. apply Forall_app in F. destruct F as [_ F]. rewrite E1 in La. rewrite app_length in La. destruct w as [|c w]; [cbn in La; lia|].
    inversion F as [|x y F1 F2]; subst. exists c, (w ++ rest). split; [reflexivity|exact F1]. }
  destruct Hb as [(x & y & E1 & _)|(x & y & E1 & _)]; injection E1; intros; congruence.
Qed.
Lemma octet_d : octet_stream = d_type. Proof. reflexivity. Qed.
Lemma binary_d : t_binary = d_encoding. Proof. reflexivity. Qed.
Lemma lead_entity : forall m msg, plain m -> entity (lead m ++ msg) (fields_of (m, d_encoding)) msg.
Proof.
  intros m msg [P1 P2]. unfold lead, fields_of. cbn [fst snd]. rewrite octet_d. change (bytes_eqb d_encoding d_encoding) with true. cbv iota.
  destruct (bytes_eqb m d_type); rewrite app_nil_r.
  - apply en_body. now left.
  - replace ((t_ctype ++ m ++ t_crlf ++ t_crlf) ++ msg) with (ztext "Content-Type" ++ 58 :: (32 :: m) ++ t_crlf ++ t_crlf ++ msg)
      by (rewrite <- !app_assoc; reflexivity).
    apply en_field.
    + split; [|vm_compute; reflexivity]. change (ztext "Content-Type") with [67;111;110;116;101;110;116;45;84;121;112;101].
      repeat constructor; discriminate.
    + now left.
    + apply plain_value; [exact P2|]. left. exists 13, (10 :: msg). split; [reflexivity|]. intros [H|H]; discriminate.
    + apply en_body. now left.
Qed.
