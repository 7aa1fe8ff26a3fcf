From Coq Require Import String.
From Verif Require Import Base CodecModel MimeModel MimeSpec GreetModel HdrProofs MsgModel MsgSpec MsgProofs.
Open Scope list_scope.

Lemma xml_of_elem : forall m s t, (forall f, elem_of (m + f) (60 :: s) = Some (t, [13; 10])) -> (m <= S (List.length s))%nat -> xml_of (60 :: s) = Some t.
Proof.
  intros m s t H L. unfold xml_of. change (drop_spaces (60 :: s)) with (60 :: s). cbn [List.length].
  replace (S (S (List.length s))) with (m + (S (S (List.length s)) - m))%nat by lia. rewrite H. reflexivity.
Qed.

Lemma attr_lang : forall f v k l e k', quotable v -> attrs_of f k = Some (l, e, k') -> existsb (bytes_eqb [120;109;108;58;108;97;110;103]) (map fst l) = false ->
  attrs_of (S f) (32 :: 120 :: 109 :: 108 :: 58 :: 108 :: 97 :: 110 :: 103 :: 61 :: 39 :: v ++ 39 :: k) = Some (([120;109;108;58;108;97;110;103], v) :: l, e, k').
Proof. intros. apply (attr_step f [120;109;108;58;108;97;110;103] v k); auto; try discriminate; namet. Qed.
Lemma attr_code : forall f v k l e k', quotable v -> attrs_of f k = Some (l, e, k') -> existsb (bytes_eqb [99;111;100;101]) (map fst l) = false ->
  attrs_of (S f) (32 :: 99 :: 111 :: 100 :: 101 :: 61 :: 39 :: v ++ 39 :: k) = Some (([99;111;100;101], v) :: l, e, k').
Proof. intros. apply (attr_step f [99;111;100;101] v k); auto; try discriminate; namet. Qed.
Lemma attr_number : forall f v k l e k', quotable v -> attrs_of f k = Some (l, e, k') -> existsb (bytes_eqb [110;117;109;98;101;114]) (map fst l) = false ->
  attrs_of (S f) (32 :: 110 :: 117 :: 109 :: 98 :: 101 :: 114 :: 61 :: 39 :: v ++ 39 :: k) = Some (([110;117;109;98;101;114], v) :: l, e, k').
Proof. intros. apply (attr_step f [110;117;109;98;101;114] v k); auto; try discriminate; namet. Qed.
Lemma attr_server : forall f v k l e k', quotable v -> attrs_of f k = Some (l, e, k') -> existsb (bytes_eqb [115;101;114;118;101;114;78;97;109;101]) (map fst l) = false ->
  attrs_of (S f) (32 :: 115 :: 101 :: 114 :: 118 :: 101 :: 114 :: 78 :: 97 :: 109 :: 101 :: 61 :: 39 :: v ++ 39 :: k) =
    Some (([115;101;114;118;101;114;78;97;109;101], v) :: l, e, k').
Proof. intros. apply (attr_step f [115;101;114;118;101;114;78;97;109;101] v k); auto; try discriminate; namet. Qed.
Ltac attrst := repeat first [reflexivity | assumption | apply attr_uri | apply attr_lang | apply attr_code | apply attr_number | apply attr_server].

(** The end of an element with text. *)
Lemma text_end : forall f c n k, writable c -> items_of (S (S f)) (c ++ 60 :: 47 :: n ++ 62 :: k) = Some (c, [], n ++ 62 :: k).
Proof.
  intros f c n k W. destruct c as [|x c]; [reflexivity|]. apply items_text; auto. discriminate.
Qed.

Definition read_error (code : bytes) (content lang : option bytes) : xml :=
  Elem (asc "error") ((asc "code", code) :: match lang with Some l => [(asc "xml:lang", l)] | None => [] end) (or_empty content) [].
Lemma error_read : forall code content lang, quotable code -> quotable_o lang -> (match content with Some c => writable c | None => True end) ->
  xml_of (error_message code content lang) = Some (read_error code content lang).
Proof.
  intros code content lang Q L C. unfold error_message, read_error, opt. destruct lang as [l|]; cbn [quotable_o] in L; destruct content as [c|]; cbn [or_empty]; lits;
  (apply (xml_of_elem 6); [intros f; cbn [Nat.add]|cbn [List.length]; lia]).
  - eapply (elem_step (S (S (S (S (S f))))) [101;114;114;111;114]); [discriminate|namet|reflexivity| |apply (text_end (S (S (S f))) c [101;114;114;111;114]); auto]. attrst.
  - apply (elem_step_empty (S (S (S (S (S f))))) [101;114;114;111;114]); [discriminate|namet|reflexivity|]. attrst.
  - eapply (elem_step (S (S (S (S (S f))))) [101;114;114;111;114]); [discriminate|namet|reflexivity| |apply (text_end (S (S (S f))) c [101;114;114;111;114]); auto]. attrst.
  - apply (elem_step_empty (S (S (S (S (S f))))) [101;114;114;111;114]); [discriminate|namet|reflexivity|]. attrst.
Qed.

Definition read_close (n : Z) (code : bytes) (lang content : option bytes) : xml :=
  Elem (asc "close") ((asc "number", dec n) :: (asc "code", code) :: match lang with Some l => [(asc "xml:lang", l)] | None => [] end) (or_empty content) [].
Lemma close_read : forall n code lang content, 0 <= n < two31 -> quotable code -> quotable_o lang -> (match content with Some c => writable c | None => True end) ->
  xml_of (close_message n code lang content) = Some (read_close n code lang content).
Proof.
  intros n code lang content B Q L C. pose proof (dec_quotable n B) as D. unfold close_message, read_close, opt.
  destruct lang as [l|]; cbn [quotable_o] in L; destruct content as [c|]; cbn [or_empty]; lits;
  (apply (xml_of_elem 6); [intros f; cbn [Nat.add]|cbn [List.length]; lia]).
  - eapply (elem_step (S (S (S (S (S f))))) [99;108;111;115;101]); [discriminate|namet|reflexivity| |apply (text_end (S (S (S f))) c [99;108;111;115;101]); auto]. attrst.
  - apply (elem_step_empty (S (S (S (S (S f))))) [99;108;111;115;101]); [discriminate|namet|reflexivity|]. attrst.
  - eapply (elem_step (S (S (S (S (S f))))) [99;108;111;115;101]); [discriminate|namet|reflexivity| |apply (text_end (S (S (S f))) c [99;108;111;115;101]); auto]. attrst.
  - apply (elem_step_empty (S (S (S (S (S f))))) [99;108;111;115;101]); [discriminate|namet|reflexivity|]. attrst.
Qed.

Definition read_reply (p : bytes) (content : option bytes) : xml := Elem (asc "profile") [(asc "uri", p)] (or_empty content) [].
Lemma reply_read : forall p content, quotable p -> cdata_ok content -> xml_of (start_reply p content) = Some (read_reply p content).
Proof.
  intros p content Q C. unfold start_reply, read_reply. destruct content as [c|]; cbn [or_empty].
  - destruct C as (C1 & C2). rewrite (cstr_id c C2). lits. apply (xml_of_elem 6); [intros f; cbn [Nat.add]|cbn [List.length]; lia].
    pose proof (items_cdata (S (S (S f))) c ([112;114;111;102;105;108;101] ++ [62;13;10]) C1 C2) as It. revert It. lits. intros It.
    eapply (elem_step (S (S (S (S (S f))))) [112;114;111;102;105;108;101]); [discriminate|namet|reflexivity| |exact It]. attrst.
  - lits. apply (xml_of_elem 6); [intros f; cbn [Nat.add]|cbn [List.length]; lia].
    apply (elem_step_empty (S (S (S (S (S f))))) [112;114;111;102;105;108;101]); [discriminate|namet|reflexivity|]. attrst.
Qed.

Definition read_start (n : Z) (server : option bytes) (p : bytes) (e : encoding) (content : option bytes) : xml :=
  Elem (asc "start") ((asc "number", dec n) :: match server with Some s => [(asc "serverName", s)] | None => [] end)
    [13; 10; 32; 32; 32; 13; 10]
    [Elem (asc "profile") ((asc "uri", p) :: match e with EncBase64 => [(asc "encoding", asc "base64")] | _ => [] end) (or_empty content) []].
Lemma start_read : forall n server p e content, 0 <= n < two31 -> quotable_o server -> quotable p -> cdata_ok content ->
  xml_of (start_message n server p e content) = Some (read_start n server p e content).
Proof.
  intros n server p e content B Sv Q C. pose proof (dec_quotable n B) as D. unfold read_start.
  set (body := asc "<profile uri='" ++ p ++ asc "'" ++ match e with EncBase64 => asc " encoding='base64'" | _ => [] end ++
     match content with None => asc " />" ++ crlf | Some c => asc ">" ++ asc "<![CDATA[" ++ cstr c ++ asc "]]>" ++ asc "</profile>" ++ crlf end ++
     60 :: 47 :: asc "start" ++ 62 :: crlf).
  assert (Bd : exists k, body = 60 :: 112 :: k) by (eexists; reflexivity). destruct Bd as (k & Ek).
  assert (Eq : start_message n server p e content = 60 :: asc "start" ++ (32 :: asc "number" ++ 61 :: 39 :: dec n ++ 39 :: opt " serverName='" server "'" ++ 62 :: [13;10;32;32;32] ++ 60 :: 112 :: k)).
  { rewrite <- Ek. unfold start_message, body. destruct server; cbn [opt]; lits; destruct e, content; lits; reflexivity. }
  rewrite Eq. apply (xml_of_elem 10); [intros f; cbn [Nat.add]|].
  2:{ cbn. lia. }
  eapply (elem_step (S (S (S (S (S (S (S (S (S f))))))))) (asc "start") _ _ ([13;10;32;32;32] ++ 60 :: 112 :: k)); [discriminate|namet|reflexivity| |].
  - destruct server as [s|]; cbn [quotable_o] in Sv; unfold opt; lits; attrst.
  - pose proof (profile_elem f p e content (60 :: 47 :: asc "start" ++ 62 :: crlf) Q C) as P. fold body in P. rewrite Ek in P.
    assert (W5 : writable [13;10;32;32;32]) by (intros x [<-|[<-|[<-|[<-|[<-|[]]]]]]; lia).
    assert (W2 : writable [13;10]) by (intros x [<-|[<-|[]]]; lia).
    apply (items_lead (S (S (S (S (S (S (S (S f)))))))) [13;10;32;32;32] (112 :: k) [13;10]); auto; [discriminate|].
    assert (P' : elem_of (S (S (S (S (S (S (S f))))))) (60 :: 112 :: k) = Some (Elem (asc "profile") ((asc "uri", p) :: match e with EncBase64 => [(asc "encoding", asc "base64")] | _ => [] end) (or_empty content) [], crlf ++ 60 :: 47 :: asc "start" ++ 62 :: crlf)).
    { pose proof (profile_elem (S f) p e content (60 :: 47 :: asc "start" ++ 62 :: crlf) Q C) as P'. fold body in P'. rewrite Ek in P'. exact P'. }
    eapply items_elem; [exact P'|]. apply (items_text (S (S (S (S (S f))))) [13;10] (asc "start" ++ 62 :: crlf)); auto. discriminate.
Qed.
