(** The documents of XML-RPC are read as they were written. *)
From Coq Require Import String.
From Verif Require Import Base CodecModel MimeModel MimeSpec GreetModel HdrModel HdrProofs MsgModel MsgSpec MsgProofs MsgProofs2 RpcModel RpcSpec.
Open Scope list_scope.

(** * A tree and its text *)
Inductive wt := WText (n s : bytes) | WData (n s : bytes) | WKids (n : bytes) (ks : list wt) | WEmpty (n : bytes).
Definition wt_ind2 (P : wt -> Prop) (PT : forall n s, P (WText n s)) (PD : forall n s, P (WData n s))
  (PK : forall n ks, Forall P ks -> P (WKids n ks)) (PE : forall n, P (WEmpty n)) : forall t, P t :=
  fix go t :=
    match t with
    | WText n s => PT n s
    | WData n s => PD n s
    | WKids n ks => PK n ks ((fix all l : Forall P l := match l with [] => Forall_nil _ | x :: r => Forall_cons _ (go x) (all r) end) ks)
    | WEmpty n => PE n
    end.
Definition opening (n : bytes) : bytes := 60 :: n ++ [62].
Definition closing (n : bytes) : bytes := 60 :: 47 :: n ++ [62].
Fixpoint wtext (t : wt) : bytes :=
  match t with
  | WText n s => opening n ++ s ++ closing n
  | WData n s => opening n ++ asc "<![CDATA[" ++ s ++ asc "]]>" ++ closing n
  | WKids n ks => opening n ++ flat_map wtext ks ++ closing n
  | WEmpty n => 60 :: n ++ [32; 47; 62]
  end.
Fixpoint wxml (t : wt) : xml :=
  match t with
  | WText n s => Elem n [] s []
  | WData n s => Elem n [] s []
  | WKids n ks => Elem n [] [] (map wxml ks)
  | WEmpty n => Elem n [] [] []
  end.
Definition wname (n : bytes) : Prop := n <> [] /\ Forall (fun c => in_name c = true) n.
Fixpoint wok (t : wt) : Prop :=
  match t with
  | WText n s => wname n /\ writable s
  | WData n s => wname n /\ no_cdata_end s /\ no_nul s
  | WKids n ks => wname n /\ (fix all l := match l with [] => True | x :: r => wok x /\ all r end) ks
  | WEmpty n => wname n
  end.

Lemma attrs_end : forall f k, attrs_of (S f) (62 :: k) = Some ([], false, k).
Proof. reflexivity. Qed.
Lemma attrs_empty : forall f k, attrs_of (S f) (32 :: 47 :: 62 :: k) = Some ([], true, k).
Proof. reflexivity. Qed.
Lemma wtext_head : forall t, wok t -> exists c r, wtext t = 60 :: c :: r /\ in_name c = true.
Proof.
  assert (G : forall n r, wname n -> exists c k, 60 :: n ++ r = 60 :: c :: k /\ in_name c = true).
  { intros n r (N & F). destruct n as [|c n]; [contradiction|]. exists c, (n ++ r). inversion F; auto. }
  intros t W. destruct t as [n s|n s|n ks|n]; cbn [wok wtext] in *; unfold opening; cbn [app]; rewrite <- ?app_assoc; apply G; tauto.
Qed.
Lemma items_child : forall f c k t k' x ks k'', in_name c = true -> elem_of f (60 :: c :: k) = Some (t, k') -> items_of f k' = Some (x, ks, k'') ->
  items_of (S f) (60 :: c :: k) = Some (x, t :: ks, k'').
Proof.
  intros f c k t k' x ks k'' N E I.
  assert (S1 : strip (ztext "</") (60 :: c :: k) = None).
  { destruct c as [|p|p]; auto. repeat (destruct p as [p|p|]; auto). discriminate N. }
  assert (S2 : strip (ztext "<![CDATA[") (60 :: c :: k) = None).
  { destruct c as [|p|p]; auto. repeat (destruct p as [p|p|]; auto). discriminate N. }
  cbn [items_of]. rewrite S1, S2, E, I. reflexivity.
Qed.
Lemma items_end : forall f k, items_of (S f) (60 :: 47 :: k) = Some ([], [], k).
Proof. reflexivity. Qed.

Definition reads (t : wt) : Prop := wok t -> forall f k, (List.length (wtext t) <= f)%nat -> elem_of f (wtext t ++ k) = Some (wxml t, k).
Lemma wname_len : forall n, wname n -> (1 <= List.length n)%nat.
Proof. intros n (N & _). destruct n; [contradiction|cbn [List.length]; lia]. Qed.
Lemma kids_read : forall ks, Forall reads ks -> (fix all l := match l with [] => True | x :: r => wok x /\ all r end) ks ->
  forall f k, (List.length (flat_map wtext ks) + 1 <= f)%nat -> items_of f (flat_map wtext ks ++ 60 :: 47 :: k) = Some ([], map wxml ks, k).
Proof.
  induction ks as [|t ks IH]; intros F W f k L.
  - cbn [flat_map app map]. cbn [flat_map List.length] in L. destruct f as [|f]; [lia|]. apply items_end.
  - inversion F as [|t' ks' Ft Fks]; subst. destruct W as (Wt & Wks). cbn [flat_map] in *. rewrite app_length in L.
    destruct (wtext_head t Wt) as (c & r & E & N). rewrite <- app_assoc.
    destruct f as [|f]; [lia|]. rewrite E in *. cbn [List.length] in L. cbn [app map].
    eapply items_child; [exact N| |].
    + change (60 :: c :: r ++ flat_map wtext ks ++ 60 :: 47 :: k) with ((60 :: c :: r) ++ flat_map wtext ks ++ 60 :: 47 :: k).
      rewrite <- E. apply Ft; auto. rewrite E. cbn [List.length]. lia.
    + apply IH; auto. lia.
Qed.
Lemma tree_read : forall t, reads t.
Proof.
  induction t as [n s|n s|n ks IH|n] using wt_ind2; intros W f k L; cbn [wok wtext wxml] in *.
  - destruct W as (Wn & Ws). pose proof (wname_len n Wn). destruct Wn as (N & F).
    unfold opening, closing in *. cbn [app List.length] in *. rewrite !app_length in L. cbn [List.length] in L. rewrite !app_length in L. cbn [List.length] in L.
    destruct f as [|[|[|f]]]; try lia. repeat (rewrite <- !app_assoc; cbn [app]).
    eapply elem_step; [exact N|exact F|reflexivity|apply attrs_end|]. apply text_end. exact Ws.
  - destruct W as (Wn & Q & Z0). pose proof (wname_len n Wn). destruct Wn as (N & F).
    unfold opening, closing in *. cbn [app List.length] in *. rewrite !app_length in L. cbn [List.length] in L. rewrite !app_length in L. cbn [List.length] in L.
    destruct f as [|[|[|f]]]; try lia. repeat (rewrite <- !app_assoc; cbn [app]).
    eapply elem_step; [exact N|exact F|reflexivity|apply attrs_end|]. change (asc "]]>") with [93; 93; 62]. cbn [app]. apply items_cdata; auto.
  - destruct W as (Wn & Wk). pose proof (wname_len n Wn). destruct Wn as (N & F).
    unfold opening, closing in *. cbn [app List.length] in *. rewrite !app_length in L. cbn [List.length] in L. rewrite !app_length in L. cbn [List.length] in L.
    destruct f as [|[|f]]; try lia. repeat (rewrite <- !app_assoc; cbn [app]).
    eapply elem_step; [exact N|exact F|reflexivity|apply attrs_end|]. apply kids_read; auto. lia.
  - destruct f as [|[|f]]; cbn [List.length] in L; try (rewrite app_length in L; cbn [List.length] in L; lia).
    cbn [app]. rewrite <- app_assoc. cbn [app]. destruct W as (N & F). apply elem_step_empty; [exact N|exact F|reflexivity|apply attrs_empty].
Qed.
Lemma doc_read : forall t, wok t -> doc_of (prolog ++ wtext t) = Some (wxml t).
Proof.
  intros t W. unfold doc_of. change declaration with prolog. rewrite strip_app. unfold xml_of.
  destruct (wtext_head t W) as (c & r & E & N).
  assert (D : drop_spaces (wtext t) = wtext t) by (rewrite E; reflexivity). rewrite D.
  pose proof (tree_read t W (S (List.length (wtext t))) [] ltac:(lia)) as R. rewrite app_nil_r in R. rewrite R. reflexivity.
Qed.
