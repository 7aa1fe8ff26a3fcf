(** Properties of MIME processing (C24, C25). *)
From Coq Require Import String.
From Verif Require Import Base MimeModel MimeSpec MimeProofs MimeProofs2.

(** C24: for every content a peer can send in one frame, the processing ends
    without reading outside of the memory of the frame, keeps the content, and
    recognises exactly the MIME entities: the payload is then the body;
    otherwise the payload is the whole content and there are no headers. *)
Theorem C24_body : forall c, exists ok f',
  mime_process (mf_new (sock_mem c) (zlen c)) = Ok (Some (ok, f')) /\
  get_content f' = c /\ get_content_size f' = zlen c /\
  (ok = true -> exists hs body, entity c hs body /\ get_payload f' = body) /\
  (ok = false -> (forall hs body, ~ entity c hs body) /\ get_payload f' = c /\ get_mime_header f' = fun _ => None).
Proof. exact process_sock. Qed.
Print Assumptions C24_body.

(** C24: fields and body of a content are unique, so the result is determined. *)
Theorem C24_unique : forall c hs body hs' body', entity c hs body -> entity c hs' body' -> hs = hs' /\ body = body'.
Proof. exact entity_det. Qed.
Print Assumptions C24_unique.

(** C24 for a message joined from fragments, whose block ends one byte after the
    content: proved for contents that are MIME entities. *)
Theorem C24_joined_partial : forall c hs body, entity c hs body -> exists f',
  mime_process (mf_new (join_mem c) (zlen c)) = Ok (Some (true, f')) /\
  get_content f' = c /\ get_payload f' = body /\ get_content_size f' = zlen c /\ mf_size f' = zlen body.
Proof. exact process_joined. Qed.
Print Assumptions C24_joined_partial.

(** C24 is false for joined messages that are not MIME: "a:b" makes the parser
    read past the block, and an empty message has no block at all. *)
Theorem C24_joined_refuted : exists c, c <> [] /\ (forall b, In b c -> is_byte b) /\
  mime_process (mf_new (join_mem c) (zlen c)) = UB /\ mime_process (mf_new (join_mem []) 0) = UB.
Proof.
  exists (ztext "a:b"). split; [discriminate|]. split; [|split; vm_compute; reflexivity].
  intros b I. cbn in I. unfold is_byte. lia.
Qed.
Print Assumptions C24_joined_refuted.

Definition nl : bytes := [13; 10].
(** Two fields, one folded on two lines, and a body with an empty line. *)
Definition case24 : bytes :=
  (ztext "Content-Type: text/plain;" ++ nl ++ ztext "  charset=x" ++ nl ++ ztext "X-a:1" ++ [10] ++
  nl ++ ztext "body" ++ nl ++ nl ++ ztext "end")%list.

Example C24_case : exists hs body, entity case24 hs body /\ body = (ztext "body" ++ nl ++ nl ++ ztext "end")%list /\
  exists f', mime_process (mf_new (sock_mem case24) (zlen case24)) = Ok (Some (true, f')) /\
  get_payload f' = body /\
  get_mime_header f' (ztext "X-A") = Some [(ztext "X-a", ztext "1")] /\
  get_content_type f' = Some (ztext "text/plain;" ++ nl ++ ztext "  charset=x")%list.
Proof.
  destruct (process_sock case24) as (ok & f' & P & _ & _ & T & _).
  assert (R : exists f, mime_process (mf_new (sock_mem case24) (zlen case24)) = Ok (Some (true, f)) /\
     get_payload f = (ztext "body" ++ nl ++ nl ++ ztext "end")%list /\
     get_mime_header f (ztext "X-A") = Some [(ztext "X-a", ztext "1")] /\
     get_content_type f = Some (ztext "text/plain;" ++ nl ++ ztext "  charset=x")%list).
  { eexists. split; [vm_compute; reflexivity|]. repeat split. }
  destruct R as (f & P' & B & X & CT). rewrite P in P'. injection P' as -> ->.
  destruct (T eq_refl) as (hs & body & E & GB). exists hs, body. split; [exact E|]. split; [congruence|].
  exists f. rewrite P. repeat split; auto.
Qed.

Example C24_not_mime : exists f', mime_process (mf_new (sock_mem (ztext "a:b")) 3) = Ok (Some (false, f')) /\
  get_payload f' = ztext "a:b".
Proof. eexists. split; vm_compute; reflexivity. Qed.

(** C25: a header that is not one of the five usual ones is found with all its
    values in order; a usual one is found with its last value only; names are
    compared without case, and the text is the value without blanks around.
    [X] is what the block holds after the content. *)
Theorem C25_lookup : forall c hs body X, X <> [] -> entity c hs body -> exists f',
  mime_process (mf_new (c ++ X) (zlen c)) = Ok (Some (true, f')) /\
  forall name,
    (values hs name = [] -> get_mime_header f' name = None) /\
    (forall x l, values hs name = x :: l -> ~ usual name ->
       exists got, get_mime_header f' name = Some got /\ Forall2 shows (x :: l) got) /\
    (forall x l, values hs name = x :: l -> usual name ->
       exists got, get_mime_header f' name = Some [got] /\ shows (last (x :: l) x) got).
Proof. exact lookup_spec. Qed.
Print Assumptions C25_lookup.

Definition case25 : bytes :=
  (ztext "Content-ID: a" ++ nl ++ ztext "X-b: 1" ++ nl ++ ztext "content-id:b" ++ nl ++ ztext "x-B:2" ++ nl ++ nl)%list.

(** C25 is false of the five usual names: one of the two values is lost. *)
Theorem C25_usual_refuted : exists c hs body name f', entity c hs body /\
  mime_process (mf_new (sock_mem c) (zlen c)) = Ok (Some (true, f')) /\
  zlen (values hs name) = 2 /\ exists got, get_mime_header f' name = Some got /\ zlen got = 1.
Proof.
  assert (R : exists f, mime_process (mf_new (sock_mem case25) (zlen case25)) = Ok (Some (true, f)) /\
     get_mime_header f (ztext "Content-Id") = Some [(ztext "content-id", ztext "b")] /\
     get_mime_header f (ztext "X-B") = Some [(ztext "X-b", ztext "1"); (ztext "x-B", ztext "2")]).
  { eexists. split; [vm_compute; reflexivity|]. split; vm_compute; reflexivity. }
  destruct R as (f & P & G & _).
  assert (H : exists r, mime_parse (sock_mem case25) (zlen case25) = Ok r /\ found r =
     Some ([(ztext "Content-ID", ztext " a"); (ztext "X-b", ztext " 1"); (ztext "content-id", ztext "b"); (ztext "x-B", ztext "2")], 46)).
  { eexists. split; vm_compute; reflexivity. }
  destruct H as (r & H & F). destruct (parse_sock case25) as (r' & H' & _ & E). rewrite H in H'. injection H' as <-.
  destruct (E _ _ F) as (body & EN & _).
  exists case25. eexists. exists body, (ztext "Content-Id"), f. split; [exact EN|]. split; [exact P|].
  split; [vm_compute; reflexivity|]. eexists. split; [exact G|reflexivity].
Qed.
Print Assumptions C25_usual_refuted.

Example C25_case : exists f, mime_process (mf_new (sock_mem case25) (zlen case25)) = Ok (Some (true, f)) /\
  get_mime_header f (ztext "X-B") = Some [(ztext "X-b", ztext "1"); (ztext "x-B", ztext "2")] /\
  get_mime_header f (ztext "y") = None /\ ~ usual (ztext "X-B").
Proof.
  eexists. split; [vm_compute; reflexivity|]. split; [vm_compute; reflexivity|]. split; [vm_compute; reflexivity|].
  intros (u & I & S). cbn in I. repeat (destruct I as [<-|I]; [vm_compute in S; discriminate|]). contradiction.
Qed.

(** C25: the content type of a MIME entity is the text of its last content-type
    field, application/octet-stream if it has none; other contents have none. *)
Theorem C25_content_type : forall c hs body X, X <> [] -> entity c hs body -> exists f',
  mime_process (mf_new (c ++ X) (zlen c)) = Ok (Some (true, f')) /\
  match values hs (ztext "content-type") with
  | [] => get_content_type f' = Some (ztext "application/octet-stream")
  | x :: l => exists t, get_content_type f' = Some t /\ text_of (snd (last (x :: l) x)) t
  end.
Proof. exact content_type_spec. Qed.
Print Assumptions C25_content_type.
Theorem C25_no_content_type : forall c f',
  mime_process (mf_new (sock_mem c) (zlen c)) = Ok (Some (false, f')) -> get_content_type f' = None.
Proof. exact no_content_type. Qed.
Print Assumptions C25_no_content_type.
Example C25_default : exists f, mime_process (mf_new (sock_mem [13; 10; 65]) 3) = Ok (Some (true, f)) /\
  get_content_type f = Some (ztext "application/octet-stream").
Proof. eexists. split; vm_compute; reflexivity. Qed.
