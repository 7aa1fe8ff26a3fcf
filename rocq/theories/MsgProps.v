(** Properties of the management messages (C193-C197). *)
From Coq Require Import String.
From Verif Require Import Base CodecModel MimeModel MimeSpec GreetModel HdrProofs MsgModel MsgSpec MsgProofs MsgProofs2 MsgProofs3.
Open Scope list_scope.

(** C193: a start request is read as it was asked. *)
Theorem C193_start_partial : forall n server p e content, 0 <= n < two31 -> quotable_o server -> quotable p -> cdata_ok content -> e <> EncUnknown ->
  received (start_message n server p e content) (xml_of (start_message n server p e content)) =
    Ok [AStart (mkSP n (Some p) (or_empty content) server e)].
Proof. exact start_received. Qed.
Print Assumptions C193_start_partial.
Theorem C193_server_refuted : exists n server p e content q,
  got (start_message n (Some server) p e content) = Ok [AStart q] /\ sp_profile q <> Some p.
Proof. exact server_wit. Qed.
Print Assumptions C193_server_refuted.
Theorem C193_content_refuted : exists n p e c q, no_nul c /\
  got (start_message n None p e (Some c)) = Ok [AStart q] /\ sp_profile q = Some p /\ sp_content q <> c.
Proof. exact content_wit. Qed.
Print Assumptions C193_content_refuted.
Theorem C193_nul_refuted : exists n p e c q, no_cdata_end c /\ got (start_message n None p e (Some c)) = Ok [AStart q] /\ sp_content q <> c.
Proof. exact nul_wit. Qed.
Print Assumptions C193_nul_refuted.
Example C193_ex : 0 <= 3 < two31 /\ quotable_o (Some (ztext "a.example")) /\ quotable (ztext "http://iana.org/beep/TLS") /\
  cdata_ok (Some (ztext "<ready />]]")) /\ EncBase64 <> EncUnknown.
Proof.
  split; [split; [discriminate|reflexivity]|]. split; [intros c H; vm_compute in H; intuition lia|]. split; [intros c H; vm_compute in H; intuition lia|].
  split; [|discriminate]. split.
  - intros (a & b & H). do 12 (destruct a as [|? a]; [discriminate|]). discriminate.
  - intros H. vm_compute in H. intuition discriminate.
Qed.

(** C194: close requests, errors and replies to start requests. *)
Theorem C194_close_partial : forall n code lang content, 0 <= n < two31 -> quotable code -> quotable_o lang -> writable_o content ->
  received (close_message n code lang content) (xml_of (close_message n code lang content)) = Ok [AClose n] /\
  get_close (xml_of (close_message n code lang content)) = Ok (Some (n, Some code)).
Proof. exact close_received. Qed.
Print Assumptions C194_close_partial.
Theorem C194_error_partial : forall code content lang, quotable code -> quotable_o lang -> writable_o content ->
  validate_err (xml_of (error_message code content lang)) true = Some (Some code, or_empty content).
Proof. exact error_received. Qed.
Print Assumptions C194_error_partial.
Theorem C194_reply_partial : forall p content, quotable p -> cdata_ok content ->
  exists t, xml_of (start_reply p content) = Some t /\ x_name t = ztext "profile" /\ attr t "uri" = Some p /\
    x_text t = or_empty content /\ x_kids t = [].
Proof. exact reply_received. Qed.
Print Assumptions C194_reply_partial.
Theorem C194_error_refuted : exists code c, no_nul c /\ xml_of (error_message code (Some c) None) = None.
Proof. exact error_wit. Qed.
Print Assumptions C194_error_refuted.
Example C194_ex : quotable (ztext "554") /\ quotable_o (Some (ztext "en")) /\ writable_o (Some (ztext "it's >")).
Proof. split; [|split]; intros c H; vm_compute in H; intuition lia. Qed.

(** C195: the kind of a message is the one of its element. *)
Theorem C195_kind_partial : forall s t k, xml_of s = Some t -> k <> KUnknown -> x_name t = kind_name k -> identify s (Some t) = (k, false).
Proof. exact kind_read. Qed.
Print Assumptions C195_kind_partial.
Theorem C195_prefix_refuted : exists s t q, xml_of s = Some t /\ x_name t <> kind_name KStart /\ got s = Ok [AStart q].
Proof. exact prefix_wit. Qed.
Print Assumptions C195_prefix_refuted.
Example C195_ex : xml_of (ztext "  <close  code='200' number='3'/>") =
  Some (Elem (kind_name KClose) [(ztext "code", ztext "200"); (ztext "number", ztext "3")] [] []).
Proof. vm_compute. reflexivity. Qed.

(** C196: whatever arrives on channel 0 is answered or ends the session, and does no harm. *)
Theorem C196_defined_partial : forall s doc,
  (forall t, doc = Some t -> match attr t "number" with Some v => atoi v <> UB | None => False end) -> received s doc <> UB.
Proof. exact defined_read. Qed.
Print Assumptions C196_defined_partial.
Theorem C196_unreadable : forall s,
  received s None = Ok [AErr 500] \/ received s None = Ok [AErr 500; AShut] \/ received s None = Ok [ANothing].
Proof. exact unreadable. Qed.
Print Assumptions C196_unreadable.
Theorem C196_crash_refuted : exists l, l = [asc "<start />"; asc "<close />"; asc "<close number='99999999999' code='200' />"] /\
  forall s, In s l -> xml_of s <> None /\ got s = UB.
Proof. exact crash_wit. Qed.
Print Assumptions C196_crash_refuted.
Theorem C196_silent_refuted : exists l, l = [asc "<ok />"; asc "<error code='500' />"; asc "<okay"] /\ forall s, In s l -> got s = Ok [ANothing].
Proof. exact silent_wit. Qed.
Print Assumptions C196_silent_refuted.
Example C196_ex : match xml_of (ztext "<close number='3' code='200' />") with
  | Some t => match attr t "number" with Some v => atoi v = Ok 3 | None => False end
  | None => False
  end.
Proof. vm_compute. reflexivity. Qed.

(** C197: the channel of a request is the number written in it. *)
Theorem C197_number_partial : forall s t k n, xml_of s = Some t -> (k = KStart \/ k = KClose) -> x_name t = kind_name k -> number_is t n ->
  exists a, received s (Some t) = Ok [a] /\
    match a with AStart p => k = KStart /\ sp_number p = n | AClose m => k = KClose /\ m = n | _ => False end.
Proof. exact number_read. Qed.
Print Assumptions C197_number_partial.
Theorem C197_number_refuted : exists l, l = [(asc "x", 0); (asc "7abc", 7); (asc "-3", -3); ([], 0)] /\ forall v n, In (v, n) l -> exists q,
  got (asc "<start number='" ++ v ++ asc "'><profile uri='http://a' /></start>") = Ok [AStart q] /\ sp_profile q = Some (asc "http://a") /\ sp_number q = n.
Proof. exact number_wit. Qed.
Print Assumptions C197_number_refuted.
Theorem C197_profile_refuted : exists s t q, xml_of s = Some t /\ got s = Ok [AStart q] /\ sp_profile q = None.
Proof. exact noprofile_wit. Qed.
Print Assumptions C197_profile_refuted.
Example C197_ex : exists t, xml_of (ztext "<close number='03' code='200'>bye</close>") = Some t /\ x_name t = kind_name KClose /\ number_is t 3.
Proof.
  eexists. split; [vm_compute; reflexivity|]. split; [reflexivity|]. exists [48; 51]. conj; try reflexivity; try discriminate.
  intros c [<-|[<-|[]]]; lia.
Qed.
