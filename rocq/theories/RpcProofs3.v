(** Values, calls and responses arrive as they were sent. *)
From Coq Require Import String.
From Verif Require Import Base CodecModel MimeModel MimeSpec GreetModel HdrModel HdrProofs MsgModel MsgSpec MsgProofs MsgProofs2 RpcModel RpcSpec RpcProofs RpcProofs2.
Open Scope list_scope.

Definition value_ind2 (P : value -> Prop) (PI : forall n, P (VInt n)) (PB : forall n, P (VBool n)) (PD : forall d, P (VDouble d))
  (PS : forall s, P (VString s)) (P64 : forall s, P (VBase64 s)) (PT : P VDate)
  (PM : forall n ms, Forall (fun m => P (snd m)) ms -> P (VStruct n ms))
  (PA : forall n is, Forall (fun i => match i with Some v => P v | None => True end) is -> P (VArray n is)) (PN : P VNone) : forall v, P v :=
  fix go v :=
    match v with
    | VInt n => PI n | VBool n => PB n | VDouble d => PD d | VString s => PS s | VBase64 s => P64 s | VDate => PT
    | VStruct n ms => PM n ms ((fix all l : Forall (fun m => P (snd m)) l :=
                                  match l with [] => Forall_nil _ | m :: r => Forall_cons m (go (snd m)) (all r) end) ms)
    | VArray n is => PA n is ((fix all l : Forall (fun i => match i with Some v => P v | None => True end) l :=
                                 match l with
                                 | [] => Forall_nil _
                                 | Some v :: r => Forall_cons (Some v) (go v) (all r)
                                 | None :: r => Forall_cons None Logic.I (all r)
                                 end) is)
    | VNone => PN
    end.

(** The tree of a value. *)
Fixpoint wv (v : value) : wt :=
  match v with
  | VInt n => WKids (asc "value") [WText (asc "i4") (dec n)]
  | VBool n => WKids (asc "value") [WText (asc "boolean") (dec n)]
  | VDouble d => WKids (asc "value") [WText (asc "double") (match d with DZ z => gfmt z | DTxt t => t end)]
  | VString s => WKids (asc "value") [WData (asc "string") s]
  | VBase64 s => WKids (asc "value") [WText (asc "base64") s]
  | VDate | VNone => WKids (asc "value") [WEmpty (asc "none")]
  | VStruct _ ms => WKids (asc "value") [WKids (asc "struct") (map (fun m => WKids (asc "member") [WText (asc "name") (fst m); wv (snd m)]) ms)]
  | VArray _ is => WKids (asc "value") [WKids (asc "array") [WKids (asc "data") (map (fun i => match i with Some v => wv v | None => WEmpty (asc "none") end) is)]]
  end.
Definition sound (v : value) : Prop := sendable v -> (forall g, marshal_value g v = Ok (Some (wtext (wv v)))) /\ wok (wv v) /\ parse_value (wxml (wv v)) = Some v.

Ltac wn := split; [discriminate|namet].
Ltac flat := cbn [wtext flat_map]; unfold opening, closing; repeat match goal with |- context [asc ?s] => let r := eval vm_compute in (asc s) in change (asc s) with r end;
  cbn [app flat_map]; repeat (rewrite <- ?app_assoc; cbn [app]); rewrite ?app_nil_r; repeat (rewrite <- ?app_assoc; cbn [app]).

Lemma struct_sound : forall ms, Forall (fun m => sound (snd m)) ms ->
  (fix all l := match l with [] => True | (nm, m) :: r => writable nm /\ sendable m /\ all r end) ms ->
  (forall g, (fix go l := match l with
             | [] => Ok []
             | (n, m) :: r => let! a := shown (marshal_value g m) in let! b := go r in
                              Ok (asc "<member><name>" ++ n ++ asc "</name>" ++ a ++ asc "</member>" ++ b)
             end) ms = Ok (flat_map wtext (map (fun m => WKids (asc "member") [WText (asc "name") (fst m); wv (snd m)]) ms))) /\
  (fix all l := match l with [] => True | x :: r => wok x /\ all r end) (map (fun m => WKids (asc "member") [WText (asc "name") (fst m); wv (snd m)]) ms) /\
  (fix go l := match l with
               | [] => []
               | Elem _ _ _ (nm :: v :: _) :: r => match parse_value v with Some v => (x_text nm, v) :: go r | None => go r end
               | _ :: r => go r
               end) (map wxml (map (fun m => WKids (asc "member") [WText (asc "name") (fst m); wv (snd m)]) ms)) = ms.
Proof.
  induction ms as [|(nm, m) ms IH]; intros F A.
  - split; [auto|]. split; [exact Logic.I|reflexivity].
  - inversion F as [|? ? F1 F2]; subst. destruct A as (A1 & A2 & A3). destruct (F1 A2) as (M & W & R). destruct (IH F2 A3) as (M' & W' & R').
    cbn [snd] in *. conj.
    + intros g. rewrite M. cbn [shown obind]. rewrite M'. cbn [obind]. cbn [map flat_map fst snd wtext]. f_equal. flat. reflexivity.
    + cbn [map]. split; [|exact W']. cbn [wok fst snd]. split; [wn|]. split; [split; [wn|exact A1]|]. auto.
    + cbn [map wxml fst snd]. rewrite R. cbn [x_text]. f_equal. exact R'.
Qed.
Lemma array_sound : forall is, Forall (fun i => match i with Some v => sound v | None => True end) is ->
  (fix all l := match l with [] => True | Some m :: r => sendable m /\ all r | None :: _ => False end) is ->
  (forall g, (fix go l := match l with
                 | [] => Ok []
                 | None :: _ => UB
                 | Some m :: r => let! a := shown (marshal_value g m) in let! b := go r in Ok (a ++ b)
                 end) is = Ok (flat_map wtext (map (fun i => match i with Some v => wv v | None => WEmpty (asc "none") end) is))) /\
  (fix all l := match l with [] => True | x :: r => wok x /\ all r end) (map (fun i => match i with Some v => wv v | None => WEmpty (asc "none") end) is) /\
  (fix go l := match l with [] => [] | v :: r => parse_value v :: go r end) (map wxml (map (fun i => match i with Some v => wv v | None => WEmpty (asc "none") end) is)) = is.
Proof.
  induction is as [|[m|] is IH]; intros F A; try contradiction.
  - split; [auto|]. split; [exact Logic.I|reflexivity].
  - inversion F as [|? ? F1 F2]; subst. destruct A as (A2 & A3). destruct (F1 A2) as (M & W & R). destruct (IH F2 A3) as (M' & W' & R').
    conj.
    + intros g. rewrite M. cbn [shown obind]. rewrite M'. reflexivity.
    + cbn [map]. split; [exact W|exact W'].
    + cbn [map]. rewrite R. f_equal. exact R'.
Qed.

Lemma value_sound : forall v, sound v.
Proof.
  induction v as [n|n|d|s|s| |n ms IH|n is IH| ] using value_ind2; intros S0; cbn [sendable] in S0; try contradiction; cbn [wv].
  - conj; [intros g; cbn [marshal_value wtext]; do 2 f_equal; flat; reflexivity| |].
    + split; [wn|]. split; [|exact Logic.I]. split; [wn|]. apply dec_writable; auto.
    + cbn [wxml map parse_value]. cbn - [of_text dec]. cbn [of_text]. rewrite int_of_dec; auto.
  - conj; [intros g; cbn [marshal_value wtext]; do 2 f_equal; flat; reflexivity| |].
    + split; [wn|]. split; [|exact Logic.I]. split; [wn|]. apply dec_writable; auto.
    + cbn [wxml map parse_value]. cbn - [of_text dec]. cbn [of_text]. rewrite int_of_dec; auto.
  - destruct d as [z|t]; [|contradiction]. destruct (gfmt_read z S0) as (R & W).
    conj; [intros g; cbn [marshal_value wtext print_double]; do 2 f_equal; flat; reflexivity| |].
    + split; [wn|]. split; [|exact Logic.I]. split; [wn|]. auto.
    + cbn [wxml map parse_value]. cbn - [of_text gfmt]. cbn [of_text]. rewrite R. reflexivity.
  - destruct S0 as (Q & Z0). conj; [intros g; cbn [marshal_value wtext]; do 2 f_equal; flat; reflexivity| |].
    + split; [wn|]. split; [|exact Logic.I]. split; [wn|]. auto.
    + reflexivity.
  - destruct S0 as (-> & NE & A). destruct (struct_sound ms IH A) as (M & W & R). conj.
    + intros g. cbn [marshal_value]. rewrite M. cbn [obind wtext]. do 2 f_equal. cbn [flat_map wtext]. flat. reflexivity.
    + split; [wn|]. split; [|exact Logic.I]. split; [wn|]. exact W.
    + destruct ms as [|m ms]; [contradiction|]. unfold zlen. cbn [wxml map] in *. cbn [parse_value].
      change (is (asc "value") "value") with true. change (is (asc "struct") "none") with false. change (simple_of (asc "struct")) with (@None simple).
      change (is (asc "struct") "struct") with true. cbn [negb]. cbn iota. unfold zlen. cbn [List.length]. rewrite !map_length. do 2 f_equal. exact R.
  - destruct S0 as (-> & A). destruct (array_sound is IH A) as (M & W & R). conj.
    + intros g. cbn [marshal_value]. rewrite M. cbn [obind wtext]. do 2 f_equal. cbn [flat_map wtext]. flat. reflexivity.
    + split; [wn|]. split; [|exact Logic.I]. split; [wn|]. split; [|exact Logic.I]. split; [wn|]. exact W.
    + cbn [wxml map] in *. cbn [parse_value].
      change (RpcModel.is (asc "value") "value") with true. change (RpcModel.is (asc "array") "none") with false. change (simple_of (asc "array")) with (@None simple).
      change (RpcModel.is (asc "array") "struct") with false. change (RpcModel.is (asc "array") "array") with true. change (RpcModel.is (asc "data") "data") with true.
      cbn [negb]. cbn iota. unfold zlen. rewrite !map_length. do 2 f_equal. exact R.
  - conj; [intros g; cbn [marshal_value wtext]; do 2 f_equal; flat; reflexivity| |reflexivity].
    split; [wn|]. split; [|exact Logic.I]. wn.
Qed.

(** * Calls *)
Lemma upd_repeat : forall (A : Type) (d : A) (done : list A) n x, upd_nth (done ++ repeat d (S n)) (List.length done) x = (done ++ [x]) ++ repeat d n.
Proof. induction done as [|y done IH]; intros n x; cbn [List.length app upd_nth repeat]; auto. rewrite <- app_assoc. cbn [app]. f_equal. cbn [repeat] in IH. rewrite IH, <- app_assoc. reflexivity. Qed.
Lemma add_step : forall name done n v, call_add (mkCall name (map Some done ++ repeat None (S n)) (List.length done)) (Some v) =
  (mkCall name (map Some (done ++ [v]) ++ repeat None n) (List.length (done ++ [v])), true).
Proof.
  intros name done n v. unfold call_add. cbn [c_params c_added c_name].
  assert (Q : Nat.eqb (List.length (map Some done ++ repeat None (S n))) (List.length done) = false).
  { apply Nat.eqb_neq. rewrite app_length, map_length, repeat_length. lia. }
  rewrite Q. f_equal. f_equal.
  - replace (List.length done) with (List.length (map Some done)) by apply map_length. rewrite upd_repeat, map_app. reflexivity.
  - rewrite app_length. cbn [List.length]. lia.
Qed.
Lemma add_all : forall vs name done, fold_left (fun c v => fst (call_add c (Some v))) vs (mkCall name (map Some done ++ repeat None (List.length vs)) (List.length done)) = call_of name (done ++ vs).
Proof.
  induction vs as [|v vs IH]; intros name done; cbn [fold_left List.length].
  - cbn [repeat]. rewrite !app_nil_r. reflexivity.
  - rewrite add_step. cbn [fst]. rewrite IH, <- app_assoc. reflexivity.
Qed.
Lemma build_call : forall name vs, build name vs = call_of name vs.
Proof. intros name vs. apply (add_all vs name []). Qed.

Definition wparam (v : value) : wt := WKids (asc "param") [wv v].
Lemma params_sound : forall vs, Forall sendable vs ->
  (forall g, shown_all (fun v => match v with None => UB | Some v => let! a := shown (marshal_value g v) in Ok (asc "<param>" ++ a ++ asc "</param>") end) (map Some vs)
    = Ok (flat_map wtext (map wparam vs))) /\
  (fix all l := match l with [] => True | x :: r => wok x /\ all r end) (map wparam vs) /\
  map first_value (map wxml (map wparam vs)) = map Some vs.
Proof.
  induction vs as [|v vs IH]; intros F.
  - conj; [auto|exact Logic.I|reflexivity].
  - inversion F as [|? ? F1 F2]; subst. destruct (value_sound v F1) as (M & W & R). destruct (IH F2) as (M' & W' & R'). conj.
    + intros g. cbn [map shown_all]. rewrite M. cbn [shown obind]. rewrite M'. cbn [obind flat_map wparam wtext]. f_equal. flat. reflexivity.
    + cbn [map]. split; [|exact W']. split; [wn|]. split; [exact W|exact Logic.I].
    + cbn [map]. f_equal; [|exact R']. cbn [wparam wxml map first_value x_kids]. exact R.
Qed.
Lemma fold_params : forall ps vs c, map first_value ps = map Some vs ->
  fold_left (fun c p => fst (call_add c (first_value p))) ps c = fold_left (fun c v => fst (call_add c (Some v))) vs c.
Proof.
  induction ps as [|p ps IH]; intros [|v vs] c E; try discriminate; auto. cbn [map] in E. cbn [fold_left].
  assert (E1 : first_value p = Some v) by congruence. assert (E2 : map first_value ps = map Some vs) by congruence. rewrite E1. apply IH; auto.
Qed.
Definition wcall (name : bytes) (vs : list value) : wt :=
  WKids (asc "methodCall") (WText (asc "methodName") name :: match vs with [] => [] | _ => [WKids (asc "params") (map wparam vs)] end).
Lemma call_text : forall g name vs, Forall sendable vs -> marshal_call g (call_of name vs) = Ok (Some (prolog ++ wtext (wcall name vs))).
Proof.
  intros g name vs F. destruct (params_sound vs F) as (M & _ & _). unfold marshal_call, call_of. cbn [c_params c_added c_name].
  rewrite map_length, Nat.eqb_refl. cbn [negb]. rewrite M. cbn [obind]. do 2 f_equal. f_equal. destruct vs as [|v vs].
  - cbn [map wcall wtext flat_map]. flat. reflexivity.
  - cbn [map wcall wtext flat_map]. flat. reflexivity.
Qed.
Lemma call_read : forall name vs, writable name -> Forall sendable vs -> parse_call (doc_of (prolog ++ wtext (wcall name vs))) = Some (call_of name vs).
Proof.
  intros name vs W F. destruct (params_sound vs F) as (_ & P & R).
  assert (K : wok (wcall name vs)).
  { split; [wn|]. split; [split; [wn|exact W]|]. destruct vs as [|v vs]; [exact Logic.I|]. split; [|exact Logic.I]. split; [wn|exact P]. }
  rewrite (doc_read _ K). unfold parse_call, wcall. cbn [wxml x_name x_kids map].
  change (is (asc "methodCall") "methodCall") with true. cbn [negb]. cbn iota. cbn [child x_name]. change (is (asc "methodName") "methodName") with true. cbn iota.
  change (is (asc "methodName") "params") with false. cbn iota. cbn [x_text]. f_equal. destruct vs as [|v vs]; [reflexivity|].
  cbn [map child x_name wxml]. change (is (asc "params") "params") with true. cbn iota. cbn [x_kids].
  change (map wxml (map wparam (v :: vs))) with (wxml (wparam v) :: map wxml (map wparam vs)) in R.
  rewrite (fold_params _ (v :: vs) _ R). cbn [List.length]. rewrite !map_length. apply (build_call name (v :: vs)).
Qed.
Lemma call_round : forall g name vs, writable name -> Forall sendable vs ->
  exists m, marshal_call g (build name vs) = Ok (Some m) /\ parse_call (doc_of m) = Some (build name vs).
Proof. intros g name vs W F. rewrite build_call. exists (prolog ++ wtext (wcall name vs)). split; [apply call_text; auto|apply call_read; auto]. Qed.

(** * Responses *)
Definition wok_resp (v : wt) : wt := WKids (asc "methodResponse") [WKids (asc "params") [WKids (asc "param") [v]]].
Lemma ok_read : forall t v, wok t -> parse_value (wxml t) = Some v -> process_reply (doc_of (prolog ++ wtext (wok_resp t))) = AResp (ROk v).
Proof.
  intros t v W R. assert (K : wok (wok_resp t)) by (repeat (split; [wn|]; split; [|exact Logic.I]); exact W).
  rewrite (doc_read _ K). unfold process_reply, wok_resp. cbn [wxml map x_name x_kids]. cbn - [first_value]. cbn [first_value x_kids]. rewrite R. reflexivity.
Qed.
Definition wfault (c : Z) (t : bytes) : wt :=
  WKids (asc "methodResponse") [WKids (asc "fault") [WKids (asc "value") [WKids (asc "struct")
    [WKids (asc "member") [WText (asc "name") (asc "faultCode"); WKids (asc "value") [WText (asc "int") (dec c)]];
     WKids (asc "member") [WText (asc "name") (asc "faultString"); WKids (asc "value") [WData (asc "string") t]]]]]].
Lemma fault_read : forall c t, int_range c -> no_cdata_end t -> no_nul t -> process_reply (doc_of (prolog ++ wtext (wfault c t))) = AResp (RFault c t).
Proof.
  intros c t R Q N.
  assert (K : wok (wfault c t)).
  { assert (W1 : writable (asc "faultCode")) by (intros x X; cbn in X; lia).
    assert (W2 : writable (asc "faultString")) by (intros x X; cbn in X; lia).
    do 3 (split; [wn|]; split; [|exact Logic.I]). split; [wn|].
    split; [|split; [|exact Logic.I]]; (split; [wn|]).
    - split; [split; [wn|exact W1]|]. split; [|exact Logic.I]. split; [wn|]. split; [|exact Logic.I]. split; [wn|]. apply dec_writable; auto.
    - split; [split; [wn|exact W2]|]. split; [|exact Logic.I]. split; [wn|]. split; [|exact Logic.I]. split; [wn|]. auto. }
  rewrite (doc_read _ K). unfold wfault. cbn [wxml map]. unfold process_reply. cbn [x_name x_kids].
  change (is (asc "methodResponse") "methodResponse") with true. change (is (asc "fault") "fault") with true. cbn [negb]. cbn iota.
  unfold first_value. cbn [x_kids].
  assert (P : parse_value (Elem (asc "value") [] [] [Elem (asc "struct") [] []
      [Elem (asc "member") [] [] [Elem (asc "name") [] (asc "faultCode") []; Elem (asc "value") [] [] [Elem (asc "int") [] (dec c) []]];
       Elem (asc "member") [] [] [Elem (asc "name") [] (asc "faultString") []; Elem (asc "value") [] [] [Elem (asc "string") [] t []]]]])
     = Some (VStruct 2 [(asc "faultCode", VInt c); (asc "faultString", VString t)])).
  { cbn - [of_text dec]. cbn [of_text]. rewrite (int_of_dec c R). reflexivity. }
  rewrite P. cbn [response_new]. reflexivity.
Qed.
Lemma resp_round : forall g r, answerable r -> exists m, marshal_response g r = Ok (Some m) /\ process_reply (doc_of m) = AResp r.
Proof.
  intros g [v|c t] A.
  - assert (G : sendable v -> (forall s, v <> VBase64 s) -> v <> VDate -> v <> VNone -> exists m, marshal_response g (ROk v) = Ok (Some m) /\ process_reply (doc_of m) = AResp (ROk v)).
    { intros S0 N1 N2 N3. destruct (value_sound v S0) as (M & W & R). exists (prolog ++ wtext (wok_resp (wv v))). split; [|apply ok_read; auto].
      assert (Q : marshal_response g (ROk v) = let! b := shown (marshal_value g v) in Ok (Some (prolog ++ asc "<methodResponse><params><param>" ++ b ++ asc "</param></params></methodResponse>"))).
      { destruct v; try reflexivity; try contradiction; exfalso; eapply N1; reflexivity. }
      rewrite Q, M. cbn [shown obind]. do 2 f_equal. f_equal. unfold wok_resp. cbn [wtext flat_map]. flat. reflexivity. }
    destruct v as [n|n|d|s|s| |n ms|n is| ]; try (apply G; [exact A|intros; discriminate|discriminate|discriminate]); try contradiction.
    cbn [answerable] in A. exists (prolog ++ wtext (wok_resp (wv (VBase64 s)))). split.
    + cbn [marshal_response]. do 2 f_equal. f_equal. unfold wok_resp. cbn [wtext flat_map wv]. flat. reflexivity.
    + apply ok_read; [|reflexivity]. split; [wn|]. split; [|exact Logic.I]. split; [wn|exact A].
  - destruct A as (R & Q & N). exists (prolog ++ wtext (wfault c t)). split; [|apply fault_read; auto].
    cbn [marshal_response]. do 2 f_equal. f_equal. unfold wfault. cbn [wtext flat_map]. flat. reflexivity.
Qed.
