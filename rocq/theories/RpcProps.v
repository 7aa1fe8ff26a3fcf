(** XML-RPC: calls and responses through the wire, what is accepted, who is called
    and what is answered. *)
From Coq Require Import String.
From Verif Require Import Base CodecModel MimeModel MimeSpec GreetModel HdrModel MsgModel MsgSpec RpcModel RpcSpec RpcProofs3 RpcProofs4.
Open Scope list_scope.

(** A call with any sendable parameters is read with the same name and the same
    parameters in the same places. *)
Theorem C221_call_partial : forall g name vs, writable name -> Forall sendable vs ->
  exists m, marshal_call g (build name vs) = Ok (Some m) /\ parse_call (doc_of m) = Some (call_of name vs).
Proof. intros g name vs W F. rewrite <- build_call. exact (call_round g name vs W F). Qed.
Print Assumptions C221_call_partial.
(** A call whose parameters were not all added is not written. *)
Theorem C221_unfilled : forall g c, List.length (c_params c) <> c_added c -> marshal_call g c = Ok None.
Proof. exact unfilled. Qed.
Print Assumptions C221_unfilled.
Theorem C221_text_refuted : exists s m v, no_nul s /\ marshal_call (fun x => x) (build (ztext "f") [VString s]) = Ok (Some m) /\
  doc_of m = v /\ parse_call v <> Some (build (ztext "f") [VString s]).
Proof. exact cdata_wit. Qed.
Print Assumptions C221_text_refuted.
Theorem C221_double_refuted : exists m, marshal_call (fun x => x) (build (ztext "f") [VDouble (DZ 1234567)]) = Ok (Some m) /\
  parse_call (doc_of m) = Some (build (ztext "f") [VDouble (DZ 1234570)]).
Proof. exact digits_wit. Qed.
Print Assumptions C221_double_refuted.
(** A base64 or a date as a parameter is undefined behaviour, whatever it is. *)
Theorem C221_base64_refuted : exists v, v = VBase64 (ztext "QUJD") /\ forall g name, marshal_call g (build name [v]) = UB /\ marshal_call g (build name [VDate]) = UB.
Proof. eexists. split; [reflexivity|]. intros g name. exact (base64_wit g name _). Qed.
Print Assumptions C221_base64_refuted.
Theorem C221_name_refuted : exists m, marshal_call (fun x => x) (build (ztext "a<b") []) = Ok (Some m) /\ parse_call (doc_of m) = None.
Proof. exact name_wit. Qed.
Print Assumptions C221_name_refuted.
Theorem C221_set_refuted : exists c, fst (call_set (call_new (ztext "f") 1) 0 (Some (VInt 5))) = c /\ param_value c 0 = Some (VInt 5) /\
  marshal_call (fun x => x) c = Ok None.
Proof. exact set_wit. Qed.
Print Assumptions C221_set_refuted.

(** A struct with an array, a negative number and a text with markup. *)
Definition sample : value :=
  VStruct 2 [(ztext "l", VArray 3 [Some (VInt (-2147483648)); Some VNone; Some (VDouble (DZ (-40)))]); (ztext "t", VString (ztext "a<b&c]]"))].
Example C221_ex : sendable sample /\ writable (ztext "sum") /\
  exists m, marshal_call (fun x => x) (build (ztext "sum") [sample; VBool 1]) = Ok (Some m) /\ parse_call (doc_of m) = Some (build (ztext "sum") [sample; VBool 1]).
Proof.
  split; [|split].
  - assert (W : forall t, (t = ztext "l" \/ t = ztext "t") -> writable t) by (intros t [->| ->] c C; cbn in C; lia).
    assert (Q : no_cdata_end (ztext "a<b&c]]")).
    { intros (a & b & E). do 7 (destruct a as [|? a]; [discriminate|injection E as <- E]). destruct a; discriminate. }
    assert (N : no_nul (ztext "a<b&c]]")) by (intros H; repeat (destruct H as [H|H]; [discriminate|]); exact H).
    split; [reflexivity|]. split; [discriminate|]. split; [auto|]. split; [|split; [auto|]; split; [split; [exact Q|exact N]|exact Logic.I]].
    split; [reflexivity|]. split; [cbn [sendable]; unfold int_range, two31; lia|]. split; [exact Logic.I|]. split; [cbn; lia|exact Logic.I].
  - intros c C. cbn in C. lia.
  - eexists. split; [vm_compute; reflexivity|]. vm_compute. reflexivity.
Qed.
Example C221_ex_double : gfmt 1200000 = ztext "1.2e+06" /\ gfmt 1100000 = ztext "1.1e+06" /\ gfmt (-30000000) = ztext "-3e+07" /\
  gfmt 1234565 = ztext "1.23456e+06" /\ gfmt 1234575 = ztext "1.23458e+06" /\ gfmt 9999995 = ztext "1e+07" /\
  gfmt 123456789012 = ztext "1.23457e+11" /\ gfmt 999999 = ztext "999999".
Proof. repeat split; vm_compute; reflexivity. Qed.
Example C221_ex_wire : marshal_call (fun x => x) (build (ztext "f") [VInt 5; VDouble (DZ 12345678)]) =
  Ok (Some (declaration ++ ztext "<methodCall><methodName>f</methodName><params><param><value><i4>5</i4></value></param><param><value><double>1.23457e+07</double></value></param></params></methodCall>")).
Proof. vm_compute. reflexivity. Qed.

(** A response or a fault is given to the caller as it was made. *)
Theorem C222_response_partial : forall g r, answerable r -> exists m, marshal_response g r = Ok (Some m) /\ process_reply (doc_of m) = AResp r.
Proof. exact resp_round. Qed.
Print Assumptions C222_response_partial.
Theorem C222_none_refuted : exists v, v = VNone /\ forall g, marshal_response g (ROk v) = Ok None /\ marshal_response g (ROk VDate) = Ok None.
Proof. exists VNone. split; [reflexivity|exact none_resp]. Qed.
Print Assumptions C222_none_refuted.
(** A fault without text is given as a null response. *)
Theorem C222_fault_refuted : exists s, process_reply (doc_of s) = ANull.
Proof. exact nofault_wit. Qed.
Print Assumptions C222_fault_refuted.
Example C222_ex : answerable (RFault (-3) (ztext "no such <method>")) /\ answerable (ROk (VBase64 (ztext "QUJD"))) /\
  exists m, marshal_response (fun x => x) (RFault (-3) (ztext "no such <method>")) = Ok (Some m) /\ process_reply (doc_of m) = AResp (RFault (-3) (ztext "no such <method>")).
Proof.
  split; [|split].
  - cbn. split; [unfold int_range, two31; lia|]. split.
    + intros (a & b & E). do 16 (destruct a as [|? a]; [discriminate|injection E as <- E]). destruct a; discriminate.
    + intros H. repeat (destruct H as [H|H]; [discriminate|]). exact H.
  - intros c C. cbn in C. lia.
  - eexists. split; [vm_compute; reflexivity|]. vm_compute. reflexivity.
Qed.

(** The texts accepted as an int: the empty one as 0, and the notations of
    numbers, cut to the 32 bits of an int. *)
Theorem C223_int_partial : forall name t v, name = "int"%string \/ name = "i4"%string ->
  parse_value (typed name t) = Some v <->
  exists n, v = VInt n /\ ((t = [] /\ n = 0) \/ exists m, notation t m /\ n = s32 (Z.max (- two63) (Z.min m (two63 - 1)))).
Proof. exact accepted_int. Qed.
Print Assumptions C223_int_partial.
Theorem C223_boolean_partial : forall t v, parse_value (typed "boolean" t) = Some v <->
  exists n, v = VBool n /\ ((t = [] /\ n = 0) \/ exists m, notation t m /\ n = s32 (Z.max (- two63) (Z.min m (two63 - 1)))).
Proof. exact accepted_bool. Qed.
Print Assumptions C223_boolean_partial.
(** Texts are kept; dates are refused; anything is accepted as a double. *)
Theorem C223_text_partial : forall t, parse_value (typed "string" t) = Some (VString t) /\ parse_value (typed "base64" t) = Some (VBase64 t) /\
  parse_value (typed "dateTime.iso8601" t) = None /\ exists d, parse_value (typed "double" t) = Some (VDouble d).
Proof. exact accepted_text. Qed.
Print Assumptions C223_text_partial.
Theorem C223_lax_refuted : exists a b c d, (a, b, c, d) = ([], ztext "4294967297", ztext "7", ztext "abc") /\
  parse_value (typed "int" a) = Some (VInt 0) /\ parse_value (typed "int" b) = Some (VInt 1) /\
  parse_value (typed "boolean" c) = Some (VBool 7) /\ parse_value (typed "double" d) = Some (VDouble (DZ 0)).
Proof. exists [], (ztext "4294967297"), (ztext "7"), (ztext "abc"). exact (Logic.conj eq_refl lax_wit). Qed.
Print Assumptions C223_lax_refuted.
(** What is read as a value or as a call is an element of that name. *)
Theorem C223_value_element_partial : forall t v, parse_value t = Some v -> x_name t = ztext "value".
Proof. exact value_named. Qed.
Print Assumptions C223_value_element_partial.
Theorem C223_call_element_partial : forall d c, parse_call d = Some c -> exists t, d = Some t /\ x_name t = ztext "methodCall".
Proof. exact call_named. Qed.
Print Assumptions C223_call_element_partial.
Theorem C223_untyped_refuted : exists s t, doc_of s = Some t /\ t = Elem (ztext "value") [] (ztext "hello") [] /\ parse_value t = None.
Proof. exact untyped_wit. Qed.
Print Assumptions C223_untyped_refuted.
(** The parameter after one that is not a value takes its place. *)
Theorem C223_shift_refuted : exists s c, parse_call (doc_of s) = Some c /\ c_count c = 2 /\ param_value c 0 = Some (VInt 5) /\ param_value c 1 = None /\
  exists t, doc_of s = Some t /\ exists ps, child (x_kids t) "params" = Some ps /\ map first_value (x_kids ps) = [None; Some (VInt 5)].
Proof. exact shift_wit. Qed.
Print Assumptions C223_shift_refuted.
Example C223_ex : notation (ztext " -12") (-12) /\ parse_value (typed "int" (ztext " -12")) = Some (VInt (-12)) /\ parse_value (typed "int" (ztext "12a")) = None /\
  parse_value (typed "double" (ztext "-2.50e1")) = Some (VDouble (DZ (-25))) /\ parse_value (typed "double" (ztext "1,5")) = Some (VDouble (DTxt (ztext "1.5"))).
Proof.
  split; [|repeat split].
  assert (F : Forall figure (ztext "12")) by (change (ztext "12") with [49; 50]; constructor; [unfold figure; lia|]; constructor; [unfold figure; lia|]; constructor).
  assert (B : Forall blank [32]) by (constructor; [left; reflexivity|constructor]).
  apply (Notation (ztext " -12") (-12) [32] [45] (ztext "12") B F); [discriminate|right; right; split; reflexivity|reflexivity].
Qed.

(** The structs read from an element all parts of which are values can be looked into at any place. *)
Theorem C224_look_partial : forall t n ms i, all_values t -> parse_value t = Some (VStruct n ms) ->
  member_at (VStruct n ms) i <> UB /\ (forall m, In m ms -> whole (snd m)).
Proof. exact look_ok. Qed.
Print Assumptions C224_look_partial.
Theorem C224_inside_partial : forall v i, whole v -> member_at v i <> UB.
Proof. exact any_at. Qed.
Print Assumptions C224_inside_partial.
Theorem C224_hole_refuted : exists s t v, doc_of s = Some t /\ parse_value t = Some v /\ member_count v = 2 /\ member_at v 1 = UB.
Proof. exact hole_wit. Qed.
Print Assumptions C224_hole_refuted.
Theorem C224_int_refuted : exists s c, parse_call (doc_of s) = Some c /\ param_value c 0 = Some (VString (ztext "abc")) /\ param_as_int c 0 = UB.
Proof. exact as_int_wit. Qed.
Print Assumptions C224_int_refuted.
Example C224_ex : exists s t, doc_of s = Some t /\ all_values t /\ parse_value t = Some (VStruct 2 [(ztext "a", VInt 1); (ztext "b", VArray 1 [None])]).
Proof.
  exists (declaration ++ ztext "<value><struct><member><name>a</name><value><int>1</int></value></member><member><name>b</name><value><array><data><x/></data></array></value></member></struct></value>").
  eexists. split; [vm_compute; reflexivity|]. split; [|vm_compute; reflexivity]. cbn. repeat split; discriminate.
Qed.

(** The handlers called are the first ones, in order and once each; all but the last
    had no accepting validation and gave no response; the response is the last's. *)
Theorem C225_order_partial : forall c l, exists k, fst (dispatch 0 l c) = seq 0 k /\ (k <= List.length l)%nat /\
  (forall i n, nth_error l i = Some n -> (S i < k)%nat -> n_validate n <> Some true /\ n_dispatch n c = None) /\
  snd (dispatch 0 l c) = match k with O => None | S j => match nth_error l j with Some n => n_dispatch n c | None => None end end.
Proof. exact called_prefix. Qed.
Print Assumptions C225_order_partial.
(** A handler whose validation refuses the resource is called and its response sent. *)
Theorem C225_refused_refuted : exists l doc m, frame_received (fun x => x) l doc = Ok ([0%nat], Some m) /\ forall n, In n l -> n_validate n = Some false.
Proof. destruct refused_wit as (l & d & H). exists l, d. eexists. exact H. Qed.
Print Assumptions C225_refused_refuted.
(** A call whose reply was deferred is given to the next handler too. *)
Theorem C225_deferred_refuted : exists l doc, frame_received (fun x => x) l doc = Ok ([0%nat; 1%nat], None) /\ List.length l = 2%nat.
Proof. exact both_wit. Qed.
Print Assumptions C225_deferred_refuted.
Example C225_ex : let l := [mkNode (Some false) (fun _ => None); mkNode (Some true) (fun c => Some (ROk (VInt (c_count c)))); mkNode None (fun _ => Some (ROk (VInt 9)))] in
  dispatch 0 l (build (ztext "f") [VInt 1; VInt 2]) = ([0%nat; 1%nat], Some (ROk (VInt 2))).
Proof. reflexivity. Qed.

(** From the call to the response: what the handler answers is what the caller gets. *)
Theorem C226_served_partial : forall g name vs pre n post r, writable name -> Forall sendable vs ->
  Forall (fun m => n_validate m <> Some true /\ n_dispatch m (build name vs) = None) pre -> n_dispatch n (build name vs) = Some r -> answerable r ->
  exists m m', marshal_call g (build name vs) = Ok (Some m) /\
    frame_received g (pre ++ n :: post) (doc_of m) = Ok (seq 0 (S (List.length pre)), Some m') /\ process_reply (doc_of m') = AResp r.
Proof. exact served. Qed.
Print Assumptions C226_served_partial.
(** Nothing is answered to a call that cannot be read. *)
Theorem C226_unread_partial : forall g l doc, parse_call doc = None -> frame_received g l doc = Ok ([], None).
Proof. exact unread_silent. Qed.
Print Assumptions C226_unread_partial.
Theorem C226_unread_refuted : exists s, s = ztext "<methodCall>" /\ forall g l, frame_received g l (doc_of s) = Ok ([], None).
Proof. eexists. split; [reflexivity|]. intros g l. exact (unread_silent g l (doc_of (ztext "<methodCall>")) eq_refl). Qed.
Print Assumptions C226_unread_refuted.
Theorem C226_none_refuted : exists l doc c, parse_call doc = Some c /\ frame_received (fun x => x) l doc = Ok ([0%nat], None) /\
  forall n, In n l -> n_dispatch n c = Some (ROk VNone).
Proof. exact none_wit. Qed.
Print Assumptions C226_none_refuted.
Example C226_ex : let l := [mkNode None (fun _ => None); mkNode None (fun c => match param_value c 0 with Some v => Some (ROk v) | None => Some (RFault 1 []) end)] in
  exists m m', marshal_call (fun x => x) (build (ztext "echo") [VString (ztext "a&b")]) = Ok (Some m) /\
    frame_received (fun x => x) l (doc_of m) = Ok ([0%nat; 1%nat], Some m') /\ process_reply (doc_of m') = AResp (ROk (VString (ztext "a&b"))).
Proof. eexists. eexists. split; [vm_compute; reflexivity|]. split; [vm_compute; reflexivity|]. vm_compute. reflexivity. Qed.
