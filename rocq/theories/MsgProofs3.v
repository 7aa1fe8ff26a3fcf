From Coq Require Import String.
From Verif Require Import Base CodecModel MimeModel MimeSpec GreetModel HdrProofs MsgModel MsgSpec MsgProofs MsgProofs2.
Open Scope list_scope.

Lemma start_received : forall n server p e content, 0 <= n < two31 -> quotable_o server -> quotable p -> cdata_ok content -> e <> EncUnknown ->
  received (start_message n server p e content) (xml_of (start_message n server p e content)) =
    Ok [AStart (mkSP n (Some p) (or_empty content) server e)].
Proof.
  intros n server p e content B Sv Q C E. rewrite start_read; auto. unfold received, identify.
  change (starts_with (asc "<start") (start_message n server p e content)) with true. cbn iota beta.
  unfold get_start, read_start, attr. cbn [x_attrs x_kids attr_in]. change (bytes_eqb (asc "number") (asc "number")) with true. cbn iota beta.
  rewrite (atoi_dec n B). cbn [obind]. destruct server as [s|]; destruct e; try contradiction; reflexivity.
Qed.
Lemma close_received : forall n code lang content, 0 <= n < two31 -> quotable code -> quotable_o lang -> writable_o content ->
  received (close_message n code lang content) (xml_of (close_message n code lang content)) = Ok [AClose n] /\
  get_close (xml_of (close_message n code lang content)) = Ok (Some (n, Some code)).
Proof.
  intros n code lang content B Q L C.
  assert (G : get_close (Some (read_close n code lang content)) = Ok (Some (n, Some code))).
  { unfold get_close, read_close, attr. cbn [x_attrs attr_in]. change (bytes_eqb (asc "number") (asc "number")) with true. cbn iota beta.
    rewrite (atoi_dec n B). reflexivity. }
  rewrite close_read; auto. split; auto. unfold received, identify.
  change (starts_with (asc "<start") (close_message n code lang content)) with false. cbn iota beta.
  change (starts_with (asc "<close") (close_message n code lang content)) with true. cbn iota beta. rewrite G. reflexivity.
Qed.
Lemma error_received : forall code content lang, quotable code -> quotable_o lang -> writable_o content ->
  validate_err (xml_of (error_message code content lang)) true = Some (Some code, or_empty content).
Proof. intros code content lang Q L C. rewrite error_read; auto. Qed.
Lemma reply_received : forall p content, quotable p -> cdata_ok content ->
  exists t, xml_of (start_reply p content) = Some t /\ x_name t = ztext "profile" /\ attr t "uri" = Some p /\ x_text t = or_empty content /\ x_kids t = [].
Proof. intros p content Q C. eexists. split; [apply reply_read; auto|]. conj; reflexivity. Qed.

(** * The kind *)
Lemma name_of_split : forall s n k, name_of s = (n, k) -> s = n ++ k.
Proof.
  induction s as [|c s IH]; intros n k H; cbn [name_of] in H.
  - injection H as <- <-. reflexivity.
  - destruct (in_name c).
    + destruct (name_of s) as [n' k'] eqn:E. injection H as <- <-. cbn [app]. f_equal. apply IH. reflexivity.
    + injection H as <- <-. reflexivity.
Qed.
Lemma elem_of_name : forall f s t k, elem_of f s = Some (t, k) -> exists r, s = 60 :: x_name t ++ r.
Proof.
  intros [|f] s t k H; [discriminate|]. cbn [elem_of] in H. destruct s as [|c s]; [discriminate|].
  assert (c = 60). { destruct c as [|p|p]; try discriminate. repeat (destruct p as [p|p|]; try discriminate). reflexivity. } subst c.
  destruct (name_of s) as [n r] eqn:N. apply name_of_split in N. subst s. destruct n as [|x n]; [discriminate|].
  destruct (attrs_of f r) as [[[l b] k']|]; [|discriminate]. destruct b.
  - injection H as <- <-. exists r. reflexivity.
  - destruct (items_of f k') as [[[c ks] k'']|]; [|discriminate]. destruct (strip _ _); [|discriminate]. injection H as <- <-. exists r. reflexivity.
Qed.
Lemma bytes_eqb_eq : forall a b, bytes_eqb a b = true -> a = b.
Proof.
  induction a as [|x a IH]; intros [|y b] H; cbn in H; try discriminate; auto. apply andb_prop in H. destruct H as (H1 & H2).
  apply Z.eqb_eq in H1. subst. f_equal. auto.
Qed.
Lemma kind_read : forall s t k, xml_of s = Some t -> k <> KUnknown -> x_name t = kind_name k -> identify s (Some t) = (k, false).
Proof.
  intros s t k X K N. unfold xml_of in X. destruct (elem_of (S (List.length s)) (drop_spaces s)) as [[t' k']|] eqn:E; [|discriminate].
  assert (t' = t) by (destruct (drop_spaces k'); congruence). subst t'. destruct (elem_of_name _ _ _ _ E) as (r & R). rewrite N in R.
  destruct s as [|c s]; [discriminate|]. cbn [drop_spaces] in R. unfold identify. rewrite N. destruct (space c) eqn:Sp.
  - assert (St : forall p, starts_with (60 :: p) (c :: s) = false).
    { intros p. cbn [starts_with]. destruct (Z.eqb_spec 60 c) as [<-|D]; [discriminate|reflexivity]. }
    change (asc "<start") with (60 :: asc "start"). change (asc "<close") with (60 :: asc "close"). change (asc "<error") with (60 :: asc "error").
    change (asc "<ok") with (60 :: asc "ok"). rewrite !St. destruct k; try contradiction; reflexivity.
  - rewrite R. destruct k; try contradiction; reflexivity.
Qed.
Lemma number_read : forall s t k n, xml_of s = Some t -> (k = KStart \/ k = KClose) -> x_name t = kind_name k -> number_is t n ->
  exists a, received s (Some t) = Ok [a] /\ match a with AStart p => k = KStart /\ sp_number p = n | AClose m => k = KClose /\ m = n | _ => False end.
Proof.
  intros s t k n X K N (ds & A & Ne & D & V & L). pose proof (kind_read s t k X ltac:(destruct K; subst; discriminate) N) as I.
  destruct ds as [|c ds]; [contradiction|].
  assert (At : atoi (c :: ds) = Ok n). { rewrite atoi_digits; [f_equal; auto| |rewrite V; exact L]. apply Forall_forall. exact D. }
  unfold received. rewrite I. destruct K as [-> | ->].
  - unfold get_start. rewrite A, At. cbn [obind]. destruct (x_kids t); cbn [obind]; eexists; split; try reflexivity; cbn; auto.
  - unfold get_close. rewrite A, At. cbn [obind]. eexists; split; [reflexivity|]. cbn. auto.
Qed.
Lemma unreadable : forall s, received s None = Ok [AErr 500] \/ received s None = Ok [AErr 500; AShut] \/ received s None = Ok [ANothing].
Proof.
  intros s. unfold received, identify. destruct (starts_with (asc "<start") s); [left; reflexivity|]. destruct (starts_with (asc "<close") s); [left; reflexivity|].
  destruct (starts_with (asc "<error") s); [right; right; reflexivity|]. destruct (starts_with (asc "<ok") s); [right; right; reflexivity|]. right. left. reflexivity.
Qed.
Lemma defined_read : forall s doc, (forall t, doc = Some t -> match attr t "number" with Some v => atoi v <> UB | None => False end) -> received s doc <> UB.
Proof.
  intros s doc H. unfold received. destruct (identify s doc) as [k b]. destruct k; try discriminate.
  - unfold get_start. destruct doc as [t|]; [|discriminate]. specialize (H t eq_refl). destruct (attr t "number") as [v|]; [|contradiction].
    destruct (atoi v); [|contradiction]. cbn. destruct (x_kids t); discriminate.
  - unfold get_close. destruct doc as [t|]; [|discriminate]. specialize (H t eq_refl). destruct (attr t "number") as [v|]; [|contradiction].
    destruct (atoi v); [|contradiction]. cbn. discriminate.
Qed.

(** * Witnesses *)
Lemma server_wit : exists n server p e content q, got (start_message n (Some server) p e content) = Ok [AStart q] /\ sp_profile q <> Some p.
Proof.
  exists 3, (asc "x'><profile uri='evil'><![CDATA["), (asc "http://a"), EncNone, (Some (asc "c")). eexists. split; [vm_compute; reflexivity|]. vm_compute. discriminate.
Qed.
Lemma content_wit : exists n p e c q, no_nul c /\ got (start_message n None p e (Some c)) = Ok [AStart q] /\ sp_profile q = Some p /\ sp_content q <> c.
Proof.
  exists 3, (asc "http://a"), EncNone, (asc "a]]></profile><profile uri='b'><![CDATA["). eexists.
  split; [intros H; vm_compute in H; intuition discriminate|]. split; [vm_compute; reflexivity|]. split; [vm_compute; reflexivity|vm_compute; discriminate].
Qed.
Lemma nul_wit : exists n p e c q, no_cdata_end c /\ got (start_message n None p e (Some c)) = Ok [AStart q] /\ sp_content q <> c.
Proof.
  exists 3, (asc "http://a"), EncNone, [97; 0; 98]. eexists.
  split; [|split; [vm_compute; reflexivity|vm_compute; discriminate]].
  intros (a & b & H). destruct a as [|x [|y [|z [|w a]]]]; discriminate.
Qed.
Lemma error_wit : exists code c, no_nul c /\ xml_of (error_message code (Some c) None) = None.
Proof.
  exists (asc "554"), (asc "size < 10 expected"). split; [intros H; vm_compute in H; intuition discriminate|vm_compute; reflexivity].
Qed.
Lemma crash_wit : exists l, l = [asc "<start />"; asc "<close />"; asc "<close number='99999999999' code='200' />"] /\
  forall s, In s l -> xml_of s <> None /\ got s = UB.
Proof.
  eexists. split; [reflexivity|]. intros s H. repeat (destruct H as [<-|H]); try contradiction; (split; [vm_compute; discriminate|vm_compute; reflexivity]).
Qed.
Lemma silent_wit : exists l, l = [asc "<ok />"; asc "<error code='500' />"; asc "<okay"] /\ forall s, In s l -> got s = Ok [ANothing].
Proof. eexists. split; [reflexivity|]. intros s H. repeat (destruct H as [<-|H]); try contradiction; vm_compute; reflexivity. Qed.
Lemma prefix_wit : exists s t q, xml_of s = Some t /\ x_name t <> kind_name KStart /\ got s = Ok [AStart q].
Proof.
  exists (asc "<startled number='3'><profile uri='http://a' /></startled>"). eexists. eexists. split; [vm_compute; reflexivity|].
  split; [vm_compute; discriminate|vm_compute; reflexivity].
Qed.
Lemma number_wit : exists l, l = [(asc "x", 0); (asc "7abc", 7); (asc "-3", -3); ([], 0)] /\ forall v n, In (v, n) l -> exists q,
  got (asc "<start number='" ++ v ++ asc "'><profile uri='http://a' /></start>") = Ok [AStart q] /\ sp_profile q = Some (asc "http://a") /\ sp_number q = n.
Proof.
  eexists. split; [reflexivity|]. intros v n H. repeat (destruct H as [[= <- <-]|H]); try contradiction; (eexists; split; [vm_compute; reflexivity|split; vm_compute; reflexivity]).
Qed.
Lemma noprofile_wit : exists s t q, xml_of s = Some t /\ got s = Ok [AStart q] /\ sp_profile q = None.
Proof. exists (asc "<start number='3' />"). do 2 eexists. split; [vm_compute; reflexivity|]. split; [vm_compute; reflexivity|vm_compute; reflexivity]. Qed.
