(** What is accepted, what can be looked into, who is called and what is answered. *)
From Coq Require Import String.
From Verif Require Import Base CodecModel MimeModel MimeSpec GreetModel HdrModel HdrProofs MsgModel MsgSpec MsgProofs MsgProofs2 RpcModel RpcSpec RpcProofs RpcProofs2 RpcProofs3.
Open Scope list_scope.

(** * What is accepted *)
Lemma accepted_int : forall name t v, name = "int"%string \/ name = "i4"%string ->
  parse_value (typed name t) = Some v <-> exists n, v = VInt n /\ ((t = [] /\ n = 0) \/ exists m, notation t m /\ n = s32 (Z.max (- two63) (Z.min m (two63 - 1)))).
Proof.
  intros name t v N. assert (E : parse_value (typed name t) = match int_of t with Some n => Some (VInt n) | None => None end) by (destruct N as [->| ->]; reflexivity).
  rewrite E. split.
  - destruct (int_of t) as [n|] eqn:I; [|discriminate]. intros H. inversion H; subst. exists n. split; auto. apply int_iff in I. exact I.
  - intros (n & -> & H). apply int_iff in H. rewrite H. reflexivity.
Qed.
Lemma accepted_bool : forall t v, parse_value (typed "boolean" t) = Some v <-> exists n, v = VBool n /\ ((t = [] /\ n = 0) \/ exists m, notation t m /\ n = s32 (Z.max (- two63) (Z.min m (two63 - 1)))).
Proof.
  intros t v. assert (E : parse_value (typed "boolean" t) = match int_of t with Some n => Some (VBool n) | None => None end) by reflexivity.
  rewrite E. split.
  - destruct (int_of t) as [n|] eqn:I; [|discriminate]. intros H. inversion H; subst. exists n. split; auto. apply int_iff in I. exact I.
  - intros (n & -> & H). apply int_iff in H. rewrite H. reflexivity.
Qed.
Lemma accepted_text : forall t, parse_value (typed "string" t) = Some (VString t) /\ parse_value (typed "base64" t) = Some (VBase64 t) /\
  parse_value (typed "dateTime.iso8601" t) = None /\ exists d, parse_value (typed "double" t) = Some (VDouble d).
Proof. intros t. repeat split. eexists. reflexivity. Qed.
Lemma lax_wit : parse_value (typed "int" []) = Some (VInt 0) /\ parse_value (typed "int" (ztext "4294967297")) = Some (VInt 1) /\
  parse_value (typed "boolean" (ztext "7")) = Some (VBool 7) /\ parse_value (typed "double" (ztext "abc")) = Some (VDouble (DZ 0)).
Proof. repeat split. Qed.
Lemma untyped_wit : exists s t, doc_of s = Some t /\ t = Elem (ztext "value") [] (ztext "hello") [] /\ parse_value t = None.
Proof. exists (declaration ++ ztext "<value>hello</value>"). eexists. split; [vm_compute; reflexivity|]. split; reflexivity. Qed.
Lemma shift_wit : exists s c, parse_call (doc_of s) = Some c /\ c_count c = 2 /\ param_value c 0 = Some (VInt 5) /\ param_value c 1 = None /\
  exists t, doc_of s = Some t /\ exists ps, child (x_kids t) "params" = Some ps /\ map first_value (x_kids ps) = [None; Some (VInt 5)].
Proof.
  exists (declaration ++ ztext "<methodCall><methodName>f</methodName><params><param><value><int>x</int></value></param><param><value><int>5</int></value></param></params></methodCall>").
  eexists. split; [vm_compute; reflexivity|]. conj; try reflexivity. eexists. split; [vm_compute; reflexivity|]. eexists. split; reflexivity.
Qed.

(** * Looking into a value received *)
Lemma whole_members : forall l n ms, whole (VStruct n ms) -> In l ms -> whole (snd l).
Proof.
  intros l n ms (_ & A) I. induction ms as [|(a, m) ms IH]; [contradiction|]. destruct A as (A1 & A2). destruct I as [<-|I]; auto.
Qed.
Lemma parse_eq : forall n a x cn ca text kids r, parse_value (Elem n a x (Elem cn ca text kids :: r)) =
  if negb (is n "value") then None else
  if is cn "none" then Some VNone else
  match simple_of cn with
  | Some ty => of_text ty text
  | None => if is cn "struct" then match kids with [] => None | _ =>
        Some (VStruct (zlen kids) ((fix go l := match l with [] => [] | Elem _ _ _ (nm :: v :: _) :: r => match parse_value v with Some v => (x_text nm, v) :: go r | None => go r end | _ :: r => go r end) kids)) end
     else if is cn "array" then match kids with
        | Elem dn _ _ items :: _ => if is dn "data" then Some (VArray (zlen items) ((fix go l := match l with [] => [] | v :: r => parse_value v :: go r end) items)) else None
        | [] => None end else None
  end.
Proof. intros. cbn [parse_value]. destruct (is n "value"); reflexivity. Qed.
Definition xml_ind2 (P : xml -> Prop) (H : forall n a x ks, Forall P ks -> P (Elem n a x ks)) : forall t, P t :=
  fix go t := match t with Elem n a x ks => H n a x ks ((fix all l : Forall P l := match l with [] => Forall_nil _ | k :: r => Forall_cons k (go k) (all r) end) ks) end.
(** Something holds of an element and of all inside. *)
Inductive deep (P : xml -> Prop) : xml -> Prop := Deep n a x ks : P (Elem n a x ks) -> Forall (deep P) ks -> deep P (Elem n a x ks).
Lemma deep_here : forall P t, deep P t -> P t.
Proof. intros P t D. inversion D; auto. Qed.
Lemma deep_kids : forall P n a x ks, deep P (Elem n a x ks) -> Forall (deep P) ks.
Proof. intros P n a x ks D. inversion D; auto. Qed.
Lemma of_text_whole : forall ty s v, of_text ty s = Some v -> whole v.
Proof. intros ty s v E. destruct ty; cbn [of_text] in E; try destruct (int_of s); inversion E; exact Logic.I. Qed.
Definition gives_whole (t : xml) : Prop := forall v, all_values t -> parse_value t = Some v -> whole v.
Lemma struct_whole : forall kids, Forall (deep gives_whole) kids ->
  (fix all l := match l with [] => True | Elem _ _ _ (_ :: v :: _) :: r => parse_value v <> None /\ all_values v /\ all r | _ :: _ => False end) kids ->
  let ms := (fix go l := match l with [] => [] | Elem _ _ _ (nm :: v :: _) :: r => match parse_value v with Some v => (x_text nm, v) :: go r | None => go r end | _ :: r => go r end) kids in
  zlen kids = zlen ms /\ (fix all l := match l with [] => True | (_, m) :: r => whole m /\ all r end) ms.
Proof.
  induction kids as [|[n a x [|nm [|v ks]]] kids IH]; intros F A; try contradiction; [split; auto; reflexivity|].
  inversion F as [|? ? F1 F2]; subst. destruct A as (A1 & A2 & A3). destruct (IH F2 A3) as (I1 & I2).
  apply deep_kids in F1. inversion F1 as [|? ? _ F3]; subst. inversion F3 as [|? ? F4 _]; subst. apply deep_here in F4.
  cbn zeta. destruct (parse_value v) as [w|] eqn:E; [|contradiction]. split.
  - unfold zlen in *. cbn [List.length]. rewrite !Nat2Z.inj_succ, I1. reflexivity.
  - split; [apply (F4 w); auto|exact I2].
Qed.
Lemma array_whole : forall items, Forall (deep gives_whole) items -> (fix all l := match l with [] => True | v :: r => all_values v /\ all r end) items ->
  let is := (fix go l := match l with [] => [] | v :: r => parse_value v :: go r end) items in
  zlen items = zlen is /\ (fix all l := match l with [] => True | Some m :: r => whole m /\ all r | None :: r => all r end) is.
Proof.
  induction items as [|v items IH]; intros F A; [split; auto; reflexivity|]. inversion F as [|? ? F1 F2]; subst. destruct A as (A1 & A2). destruct (IH F2 A2) as (I1 & I2).
  apply deep_here in F1. cbn zeta. split.
  - unfold zlen in *. cbn [List.length]. rewrite !Nat2Z.inj_succ, I1. reflexivity.
  - destruct (parse_value v) as [w|] eqn:E; [split; [apply (F1 w); auto|exact I2]|exact I2].
Qed.
Lemma deep_whole : forall t, deep gives_whole t.
Proof.
  induction t as [n a x ks IH] using xml_ind2. constructor; [|exact IH]. intros v A E. destruct ks as [|[cn ca text kids] r].
  - cbn in E. destruct (is n "value"); discriminate.
  - rewrite parse_eq in E. destruct (negb (is n "value")); [discriminate|]. destruct (is cn "none"); [inversion E; exact Logic.I|].
    destruct (simple_of cn) as [ty|]; [eapply of_text_whole; eauto|].
    inversion IH as [|? ? D _]; subst. apply deep_kids in D. cbn [all_values] in A.
    change (bytes_eqb cn (ztext "struct")) with (is cn "struct") in A. change (bytes_eqb cn (ztext "array")) with (is cn "array") in A.
    destruct (is cn "struct").
    + destruct kids as [|k0 kids]; [discriminate|]. inversion E; subst. apply struct_whole; auto.
    + destruct (is cn "array"); [|discriminate]. destruct kids as [|[dn da dx items] kids]; [discriminate|]. destruct (is dn "data"); [|discriminate].
      inversion E; subst. inversion D as [|? ? D1 _]; subst. apply deep_kids in D1. apply array_whole; auto.
Qed.
Lemma whole_at : forall n ms i, whole (VStruct n ms) -> member_at (VStruct n ms) i <> UB.
Proof.
  intros n ms i (-> & _). cbn [member_at]. destruct ((0 <=? i) && (i <? zlen ms)) eqn:B; [|discriminate].
  apply andb_true_iff in B. destruct B as (B1 & B2). apply Z.leb_le in B1. apply Z.ltb_lt in B2.
  destruct (nth_error ms (Z.to_nat i)) eqn:E; [discriminate|]. apply nth_error_None in E. unfold zlen in B2. lia.
Qed.
Lemma look_ok : forall t n ms i, all_values t -> parse_value t = Some (VStruct n ms) -> member_at (VStruct n ms) i <> UB /\ (forall m, In m ms -> whole (snd m)).
Proof.
  intros t n ms i A E. pose proof (deep_here _ t (deep_whole t) _ A E) as W. split; [apply whole_at; exact W|]. intros m I. eapply whole_members; eauto.
Qed.
Lemma any_at : forall v i, whole v -> member_at v i <> UB.
Proof. intros v i W. destruct v; try discriminate. apply whole_at. exact W. Qed.
Lemma hole_wit : exists s t v, doc_of s = Some t /\ parse_value t = Some v /\ member_count v = 2 /\ member_at v 1 = UB.
Proof.
  exists (declaration ++ ztext "<value><struct><member><name>a</name><value><int>1</int></value></member><member><name>b</name><value>text</value></member></struct></value>").
  eexists. eexists. split; [vm_compute; reflexivity|]. split; [vm_compute; reflexivity|]. split; reflexivity.
Qed.
Lemma as_int_wit : exists s c, parse_call (doc_of s) = Some c /\ param_value c 0 = Some (VString (ztext "abc")) /\ param_as_int c 0 = UB.
Proof.
  exists (declaration ++ ztext "<methodCall><methodName>f</methodName><params><param><value><string>abc</string></value></param></params></methodCall>").
  eexists. split; [vm_compute; reflexivity|]. split; reflexivity.
Qed.

(** * Dispatching *)
(** A node passed over: without an accepting validation and without a response. *)
Definition passes (c : call) (n : node) : Prop := n_validate n <> Some true /\ n_dispatch n c = None.
Lemma dispatch_pre : forall c pre i rest, Forall (passes c) pre ->
  dispatch i (pre ++ rest) c = let (h, x) := dispatch (i + List.length pre) rest c in (seq i (List.length pre) ++ h, x).
Proof.
  induction pre as [|n pre IH]; intros i rest F; cbn [app List.length seq].
  - rewrite Nat.add_0_r. destruct (dispatch i rest c); reflexivity.
  - inversion F as [|? ? (P1 & P2) F2]; subst. cbn [dispatch].
    replace (i + S (List.length pre))%nat with (S i + List.length pre)%nat by lia.
    rewrite P2, (IH (S i) rest F2). destruct (dispatch (S i + List.length pre) rest c) as (h, x).
    destruct (n_validate n) as [[|]|]; [contradiction|reflexivity|reflexivity].
Qed.
Lemma dispatch_split : forall c l (i : nat), Forall (passes c) l \/ exists pre n post, l = pre ++ n :: post /\ Forall (passes c) pre /\ ~ passes c n.
Proof.
  induction l as [|n l IH]; intros i; [left; constructor|]. destruct (IH i) as [F|(pre & m & post & -> & F & N)].
  - destruct (n_validate n) as [[|]|] eqn:V; destruct (n_dispatch n c) as [x|] eqn:D;
      first [ left; constructor; [split; [congruence|exact D]|exact F]
            | right; exists [], n, l; split; [reflexivity|]; split; [constructor|]; intros (P1 & P2); congruence ].
  - destruct (n_validate n) as [[|]|] eqn:V; destruct (n_dispatch n c) as [x|] eqn:D;
      first [ right; exists (n :: pre), m, post; split; [reflexivity|]; split; [constructor; [split; [congruence|exact D]|exact F]|exact N]
            | right; exists [], n, (pre ++ m :: post); split; [reflexivity|]; split; [constructor|]; intros (P1 & P2); congruence ].
Qed.
Lemma dispatch_stop : forall c n i rest, ~ passes c n -> dispatch i (n :: rest) c = ([i], n_dispatch n c).
Proof.
  intros c n i rest N. cbn [dispatch]. destruct (n_validate n) as [[|]|] eqn:V; auto; destruct (n_dispatch n c) eqn:D; auto; exfalso; apply N; split; congruence.
Qed.
Lemma dispatch_none : forall c l i, Forall (passes c) l -> dispatch i l c = (seq i (List.length l), None).
Proof. intros c l i F. rewrite <- (app_nil_r l) at 1. rewrite (dispatch_pre c l i [] F). cbn [dispatch]. rewrite app_nil_r. reflexivity. Qed.
Lemma called_prefix : forall c l, exists k, fst (dispatch 0 l c) = seq 0 k /\ (k <= List.length l)%nat /\
  (forall i n, nth_error l i = Some n -> (S i < k)%nat -> passes c n) /\
  snd (dispatch 0 l c) = match k with O => None | S j => match nth_error l j with Some n => n_dispatch n c | None => None end end.
Proof.
  intros c l. destruct (dispatch_split c l 0) as [F|(pre & n & post & -> & F & N)].
  - exists (List.length l). rewrite (dispatch_none c l 0 F). cbn [fst snd]. conj; auto.
    + intros i n E L. rewrite Forall_forall in F. apply F. eapply nth_error_In; eauto.
    + destruct (List.length l) as [|j] eqn:E; auto. destruct (nth_error l j) as [n|] eqn:Q; auto. rewrite Forall_forall in F. apply nth_error_In in Q. symmetry. apply F. exact Q.
  - exists (S (List.length pre)). rewrite (dispatch_pre c pre 0 (n :: post) F), (dispatch_stop c n _ post N). cbn [fst snd]. conj.
    + rewrite seq_S. reflexivity.
    + rewrite app_length. cbn [List.length]. lia.
    + intros i m E L. rewrite nth_error_app1 in E by lia. rewrite Forall_forall in F. apply F. eapply nth_error_In; eauto.
    + rewrite nth_error_app2, Nat.sub_diag by lia. reflexivity.
Qed.
Lemma served : forall g name vs pre n post r, writable name -> Forall sendable vs ->
  Forall (fun m => n_validate m <> Some true /\ n_dispatch m (build name vs) = None) pre -> n_dispatch n (build name vs) = Some r -> answerable r ->
  exists m m', marshal_call g (build name vs) = Ok (Some m) /\
    frame_received g (pre ++ n :: post) (doc_of m) = Ok (seq 0 (S (List.length pre)), Some m') /\ process_reply (doc_of m') = AResp r.
Proof.
  intros g name vs pre n post r W F P D A. destruct (call_round g name vs W F) as (m & M & R). destruct (resp_round g r A) as (m' & M' & R').
  exists m, m'. split; [exact M|]. split; [|exact R'].
  unfold frame_received. rewrite R, (dispatch_pre (build name vs) pre 0 (n :: post) P), dispatch_stop by (intros (_ & Q); congruence).
  rewrite D. rewrite M'. cbn [obind]. rewrite seq_S. reflexivity.
Qed.
Lemma unread_silent : forall g l doc, parse_call doc = None -> frame_received g l doc = Ok ([], None).
Proof. intros g l doc E. unfold frame_received. rewrite E. reflexivity. Qed.
Lemma refused_wit : exists l doc, frame_received (fun x => x) l doc = Ok ([0%nat], Some (prolog ++ wtext (wok_resp (wv (VInt 7))))) /\ forall n, In n l -> n_validate n = Some false.
Proof.
  exists [mkNode (Some false) (fun _ => Some (ROk (VInt 7)))], (doc_of (prolog ++ wtext (wcall (ztext "f") []))).
  split; [vm_compute; reflexivity|]. intros n [<-|[]]. reflexivity.
Qed.
Lemma both_wit : exists l doc, frame_received (fun x => x) l doc = Ok ([0%nat; 1%nat], None) /\ List.length l = 2%nat.
Proof.
  exists [mkNode None (fun _ => None); mkNode None (fun _ => None)], (doc_of (prolog ++ wtext (wcall (ztext "f") []))).
  split; [vm_compute; reflexivity|reflexivity].
Qed.
Lemma none_wit : exists l doc c, parse_call doc = Some c /\ frame_received (fun x => x) l doc = Ok ([0%nat], None) /\
  forall n, In n l -> n_dispatch n c = Some (ROk VNone).
Proof.
  exists [mkNode None (fun _ => Some (ROk VNone))], (doc_of (prolog ++ wtext (wcall (ztext "f") []))). eexists.
  split; [vm_compute; reflexivity|]. split; [vm_compute; reflexivity|]. intros n [<-|[]]. reflexivity.
Qed.
Lemma nofault_wit : exists s, process_reply (doc_of s) = ANull.
Proof.
  exists (declaration ++ ztext "<methodResponse><fault><value><struct><member><name>faultCode</name><value><int>4</int></value></member></struct></value></fault></methodResponse>").
  vm_compute. reflexivity.
Qed.
(** * What does not arrive as it was sent *)
Lemma cdata_wit : exists s m v, no_nul s /\ marshal_call (fun x => x) (build (ztext "f") [VString s]) = Ok (Some m) /\ doc_of m = v /\ parse_call v <> Some (build (ztext "f") [VString s]).
Proof.
  exists (ztext "a]]>b"). eexists. eexists. split; [intros H; repeat (destruct H as [H|H]; [discriminate|]); exact H|].
  split; [vm_compute; reflexivity|]. split; [reflexivity|]. vm_compute. discriminate.
Qed.
Lemma digits_wit : exists m, marshal_call (fun x => x) (build (ztext "f") [VDouble (DZ 1234567)]) = Ok (Some m) /\
  parse_call (doc_of m) = Some (build (ztext "f") [VDouble (DZ 1234570)]).
Proof. eexists. split; [vm_compute; reflexivity|]. vm_compute. reflexivity. Qed.
Lemma base64_wit : forall g name s, marshal_call g (build name [VBase64 s]) = UB /\ marshal_call g (build name [VDate]) = UB.
Proof. intros. split; reflexivity. Qed.
Lemma name_wit : exists m, marshal_call (fun x => x) (build (ztext "a<b") []) = Ok (Some m) /\ parse_call (doc_of m) = None.
Proof. eexists. split; [vm_compute; reflexivity|]. vm_compute. reflexivity. Qed.
(** A call not full is not written; the message then sent is the one of the code's NULL. *)
Lemma unfilled : forall g c, List.length (c_params c) <> c_added c -> marshal_call g c = Ok None.
Proof. intros g c N. unfold marshal_call. destruct (Nat.eqb_spec (List.length (c_params c)) (c_added c)); [contradiction|reflexivity]. Qed.
Lemma set_wit : exists c, fst (call_set (call_new (ztext "f") 1) 0 (Some (VInt 5))) = c /\ param_value c 0 = Some (VInt 5) /\ marshal_call (fun x => x) c = Ok None.
Proof. eexists. split; [reflexivity|]. split; reflexivity. Qed.
Lemma none_resp : forall g, marshal_response g (ROk VNone) = Ok None /\ marshal_response g (ROk VDate) = Ok None.
Proof. intros. split; reflexivity. Qed.

(** The names of the elements. *)
Lemma is_eq a s : is a s = true -> a = asc s.
Proof. unfold is. intros H. apply MimeProofs.bytes_eqb_true. exact H. Qed.
Lemma value_named t v : parse_value t = Some v -> x_name t = ztext "value".
Proof.
  destruct t as [n a k x]. cbn [parse_value x_name]. intros H.
  destruct (is n "value") eqn:E; [|cbn [negb] in H; discriminate]. apply is_eq in E. exact E.
Qed.
Lemma call_named d c : parse_call d = Some c -> exists t, d = Some t /\ x_name t = ztext "methodCall".
Proof.
  destruct d as [t|]; [|discriminate]. cbn [parse_call]. intros H. exists t. split; auto.
  destruct (is (x_name t) "methodCall") eqn:E; [|cbn [negb] in H; discriminate]. apply is_eq in E. exact E.
Qed.
