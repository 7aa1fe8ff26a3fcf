From Coq Require Import String.
From Verif Require Import Base CodecModel MimeModel MimeSpec GreetModel HdrProofs MsgModel MsgSpec.
Open Scope list_scope.

(** * Pieces of the reader *)
Lemma name_of_app : forall n k, Forall (fun c => in_name c = true) n -> (match k with c :: _ => in_name c = false | [] => True end) -> name_of (n ++ k) = (n, k).
Proof.
  induction n as [|c n IH]; intros k F K; cbn [app name_of].
  - destruct k as [|c k]; cbn [name_of]; auto. rewrite K. reflexivity.
  - inversion F; subst. rewrite H1, IH; auto.
Qed.
Lemma value_of_app : forall v k, quotable v -> value_of 39 (v ++ 39 :: k) = Some (v, k).
Proof.
  induction v as [|c v IH]; intros k Q; cbn [app value_of].
  - reflexivity.
  - destruct (Q c (or_introl eq_refl)) as (a & b & d & e).
    rewrite (proj2 (Z.eqb_neq _ _) a), (proj2 (Z.eqb_neq _ _) b), (proj2 (Z.eqb_neq _ _) d), (proj2 (Z.eqb_neq _ _) e). cbn [orb].
    rewrite IH; auto. intros x X. apply Q. right. exact X.
Qed.
Lemma text_of_app : forall v k, writable v -> text_of (v ++ 60 :: k) = Some (v, 60 :: k).
Proof.
  induction v as [|c v IH]; intros k Q; cbn [app text_of].
  - reflexivity.
  - destruct (Q c (or_introl eq_refl)) as (b & d & e).
    rewrite (proj2 (Z.eqb_neq _ _) b), (proj2 (Z.eqb_neq _ _) d), (proj2 (Z.eqb_neq _ _) e). cbn [orb].
    rewrite IH; auto. intros x X. apply Q. right. exact X.
Qed.
Lemma cdata_of_app : forall v k, no_cdata_end v -> no_nul v -> cdata_of (v ++ 93 :: 93 :: 62 :: k) = Some (v, k).
Proof.
  induction v as [|c v IH]; intros k Q N.
  - reflexivity.
  - assert (E : cdata_of (v ++ 93 :: 93 :: 62 :: k) = Some (v, k)).
    { apply IH.
      - intros (a & b & ->). apply Q. exists (c :: a), b. reflexivity.
      - intros H. apply N. right. exact H. }
    assert (C : c <> 0) by (intros ->; apply N; left; reflexivity).
    cbn [app cdata_of]. rewrite E. rewrite (proj2 (Z.eqb_neq _ _) C).
    destruct (Z.eq_dec c 93) as [->|D].
    + destruct v as [|d v]; [reflexivity|]. cbn [app]. destruct (Z.eq_dec d 93) as [->|D].
      * destruct v as [|e v]; [reflexivity|]. cbn [app]. destruct (Z.eq_dec e 62) as [->|D].
        -- exfalso. apply Q. exists [], v. reflexivity.
        -- destruct e as [|p|p]; auto. repeat (destruct p as [p|p|]; auto). contradiction.
      * destruct d as [|p|p]; auto. repeat (destruct p as [p|p|]; auto). contradiction.
    + destruct c as [|p|p]; auto. repeat (destruct p as [p|p|]; auto). contradiction.
Qed.

Lemma in_name_not : forall c, in_name c = true -> space c = false /\ c <> 47 /\ c <> 62 /\ c <> 61.
Proof.
  intros c H. unfold in_name in H. apply andb_prop in H. destruct H as (H & _). apply andb_prop in H. destruct H as (H1 & H2).
  apply negb_true_iff in H1, H2. split; auto. conj; intros ->; vm_compute in H2; discriminate.
Qed.
Lemma attr_step : forall f n v k l e k', n <> [] -> Forall (fun c => in_name c = true) n -> quotable v ->
  attrs_of f k = Some (l, e, k') -> existsb (bytes_eqb n) (map fst l) = false ->
  attrs_of (S f) (32 :: n ++ 61 :: 39 :: v ++ 39 :: k) = Some ((n, v) :: l, e, k').
Proof.
  intros f n v k l e k' N F Q E X. destruct n as [|c n]; [contradiction|].
  assert (Fc : in_name c = true) by (inversion F; auto). destruct (in_name_not c Fc) as (S1 & S2 & S3 & S4).
  assert (D : drop_spaces (32 :: (c :: n) ++ 61 :: 39 :: v ++ 39 :: k) = c :: n ++ 61 :: 39 :: v ++ 39 :: k).
  { cbn [app drop_spaces]. change (space 32) with true. cbn iota. cbn [drop_spaces]. rewrite S1. reflexivity. }
  assert (Nm : name_of (c :: n ++ 61 :: 39 :: v ++ 39 :: k) = (c :: n, 61 :: 39 :: v ++ 39 :: k)).
  { apply (name_of_app (c :: n)); auto. }
  cbn [attrs_of]. rewrite D. cbn [app]. change (space 32) with true. cbn iota. rewrite Nm. cbn [orb]. change ((39 =? 39) || (39 =? 34)) with true. cbn iota.
  rewrite (value_of_app v k Q), E, X.
  destruct c as [|p|p]; auto. repeat (destruct p as [p|p|]; auto); contradiction.
Qed.

(** * Numbers *)
Definition digit (c : Z) : Prop := 48 <= c <= 57.
Lemma dec_of_spec : forall f n acc, 0 <= n < 10 ^ Z.of_nat f -> (0 < f)%nat ->
  exists ds, dec_of f n acc = ds ++ acc /\ Forall digit ds /\ ds <> [] /\ digits_value ds = n.
Proof.
  induction f as [|f IH]; intros n acc B P; [lia|]. cbn [dec_of]. destruct (Z.ltb_spec n 10) as [L|L].
  - exists [48 + n mod 10]. rewrite Z.mod_small by lia. conj; auto; try discriminate.
    + constructor; [unfold digit; lia|constructor].
    + unfold digits_value. cbn [fold_left]. lia.
  - rewrite Nat2Z.inj_succ, Z.pow_succ_r in B by lia.
    destruct f as [|f].
    { cbn in B. lia. }
    assert (B' : 0 <= n / 10 < 10 ^ Z.of_nat (S f)) by (split; [apply Z.div_pos; lia|apply Z.div_lt_upper_bound; lia]).
    destruct (IH (n / 10) (48 + n mod 10 :: acc) B' ltac:(lia)) as (ds & E & F & N & V).
    exists (ds ++ [48 + n mod 10]). rewrite E. pose proof (Z.mod_pos_bound n 10 ltac:(lia)). conj.
    + rewrite <- app_assoc. reflexivity.
    + apply Forall_app. split; auto. constructor; [unfold digit; lia|constructor].
    + intros H'. apply app_eq_nil in H'. destruct H'. discriminate.
    + unfold digits_value in *. rewrite fold_left_app, V. cbn [fold_left]. pose proof (Z_div_mod_eq_full n 10). lia.
Qed.
Lemma dec_spec : forall n, 0 <= n < two31 -> exists c ds, dec n = c :: ds /\ Forall digit (c :: ds) /\ digits_value (c :: ds) = n.
Proof.
  intros n B. unfold dec. destruct (Z.ltb_spec n 0); [lia|].
  assert (B' : 0 <= n < 10 ^ Z.of_nat 11) by (split; [lia|]; eapply Z.lt_trans; [apply B|]; reflexivity).
  destruct (dec_of_spec 11 n [] B' ltac:(lia)) as (ds & E & F & N & V).
  rewrite app_nil_r in E. destruct ds as [|c ds]; [contradiction|]. exists c, ds. auto.
Qed.
Lemma dec_quotable : forall n, 0 <= n < two31 -> quotable (dec n).
Proof.
  intros n B. destruct (dec_spec n B) as (c & ds & E & F & _). rewrite E. intros x X. rewrite Forall_forall in F. apply F in X. unfold digit in X. lia.
Qed.
Lemma leading_all : forall ds, Forall digit ds -> leading_digits ds = ds.
Proof.
  induction ds as [|c ds IH]; intros F; cbn [leading_digits]; auto. inversion F; subst. unfold digit in H1.
  destruct (Z.leb_spec 48 c); [|lia]. destruct (Z.leb_spec c 57); [|lia]. cbn [andb]. rewrite IH; auto.
Qed.
Lemma atoi_digits : forall c ds, Forall digit (c :: ds) -> digits_value (c :: ds) < two31 -> atoi (c :: ds) = Ok (digits_value (c :: ds)).
Proof.
  intros c ds F L. assert (Hd : digit c) by (inversion F; auto). unfold digit in Hd.
  assert (P : 0 <= digits_value (c :: ds)).
  { unfold digits_value. assert (G : forall l a, Forall digit l -> 0 <= a -> 0 <= fold_left (fun acc d => 10 * acc + (d - 48)) l a).
    { induction l as [|x l IH]; intros a Fx A; cbn [fold_left]; auto. inversion Fx; subst. unfold digit in H1. apply IH; auto. lia. }
    apply G; auto. lia. }
  unfold atoi. cbn [skip_space]. destruct (Z.eqb_spec c 32); [lia|]. destruct (Z.leb_spec c 13); [lia|]. rewrite andb_false_r. cbn [orb].
  assert (M : match c :: ds with 45 :: r => (true, r) | 43 :: r => (false, r) | _ => (false, c :: ds) end = (false, c :: ds)).
  { destruct c as [|p|p]; auto. repeat (destruct p as [p|p|]; auto); lia. }
  rewrite M. rewrite (leading_all _ F). destruct (Z.leb_spec (- two31) (digits_value (c :: ds))); [|unfold two31 in *; lia].
  destruct (Z.ltb_spec (digits_value (c :: ds)) two31); [|lia]. reflexivity.
Qed.
Lemma atoi_dec : forall n, 0 <= n < two31 -> atoi (dec n) = Ok n.
Proof.
  intros n B. destruct (dec_spec n B) as (c & ds & E & F & V). rewrite E, atoi_digits; auto; rewrite V; auto. lia.
Qed.

(** * The messages *)
Ltac lits := repeat match goal with |- context [asc ?s] => let r := eval vm_compute in (asc s) in change (asc s) with r end;
  change crlf with [13; 10]; rewrite <- ?app_assoc; cbn [app]; rewrite <- ?app_assoc; cbn [app].
Ltac namet := repeat constructor.

Lemma cstr_id : forall l, no_nul l -> cstr l = l.
Proof.
  induction l as [|x l IH]; intros H; cbn [cstr]; auto. destruct (Z.eqb_spec x 0) as [->|D].
  - exfalso. apply H. left. reflexivity.
  - rewrite IH; auto. intros H'. apply H. right. exact H'.
Qed.

Lemma elem_step_empty : forall f n k l k', n <> [] -> Forall (fun c => in_name c = true) n ->
  match k with c :: _ => in_name c = false | [] => True end -> attrs_of f k = Some (l, true, k') ->
  elem_of (S f) (60 :: n ++ k) = Some (Elem n l [] [], k').
Proof.
  intros f n k l k' N F K E. cbn [elem_of]. rewrite (name_of_app n k F K). destruct n; [contradiction|]. rewrite E. reflexivity.
Qed.
Lemma strip_app : forall p k, strip p (p ++ k) = Some k.
Proof. induction p as [|x p IH]; intros k; cbn [strip app]; auto. rewrite Z.eqb_refl. apply IH. Qed.
Lemma elem_step : forall f n k l k' c ks k'', n <> [] -> Forall (fun c => in_name c = true) n ->
  match k with c :: _ => in_name c = false | [] => True end -> attrs_of f k = Some (l, false, k') ->
  items_of f k' = Some (c, ks, n ++ 62 :: k'') ->
  elem_of (S f) (60 :: n ++ k) = Some (Elem n l c ks, k'').
Proof.
  intros f n k l k' c ks k'' N F K E I. cbn [elem_of]. rewrite (name_of_app n k F K). destruct n as [|x n]; [contradiction|]. rewrite E, I.
  change ((x :: n) ++ 62 :: k'') with ((x :: n) ++ [62] ++ k''). rewrite (app_assoc (x :: n)), strip_app. reflexivity.
Qed.
Lemma items_cdata : forall f c k, no_cdata_end c -> no_nul c ->
  items_of (S (S f)) (asc "<![CDATA[" ++ c ++ 93 :: 93 :: 62 :: 60 :: 47 :: k) = Some (c, [], k).
Proof.
  intros f c k Q N. cbn [items_of]. lits. change (ztext "</") with [60; 47]. change (ztext "<![CDATA[") with [60;33;91;67;68;65;84;65;91].
  cbn [strip]. cbn. rewrite (cdata_of_app c _ Q N). cbn. rewrite app_nil_r. reflexivity.
Qed.
Lemma items_text : forall f c k, writable c -> c <> [] -> items_of (S (S f)) (c ++ 60 :: 47 :: k) = Some (c, [], k).
Proof.
  intros f c k W N. pose proof (text_of_app c (47 :: k) W) as T. destruct c as [|x c]; [contradiction|].
  destruct (W x (or_introl eq_refl)) as (W1 & W2 & W3).
  assert (S1 : strip (ztext "</") ((x :: c) ++ 60 :: 47 :: k) = None).
  { cbn. destruct x as [|p|p]; auto. repeat (destruct p as [p|p|]; auto). contradiction. }
  assert (S2 : strip (ztext "<![CDATA[") ((x :: c) ++ 60 :: 47 :: k) = None).
  { cbn. destruct x as [|p|p]; auto. repeat (destruct p as [p|p|]; auto). contradiction. }
  cbn [items_of]. rewrite S1, S2. cbn [app] in *. rewrite T. change (strip (ztext "</") (60 :: 47 :: k)) with (Some k).
  destruct x as [|p|p]; try (rewrite app_nil_r; reflexivity). repeat (destruct p as [p|p|]; try (rewrite app_nil_r; reflexivity)). contradiction.
Qed.
Lemma items_lead : forall f c k c' ks k', writable c -> c <> [] -> items_of f (60 :: k) = Some (c', ks, k') ->
  items_of (S f) (c ++ 60 :: k) = Some (c ++ c', ks, k').
Proof.
  intros f c k c' ks k' W N I. pose proof (text_of_app c k W) as T. destruct c as [|x c]; [contradiction|].
  destruct (W x (or_introl eq_refl)) as (W1 & W2 & W3).
  assert (S1 : strip (ztext "</") ((x :: c) ++ 60 :: k) = None).
  { cbn. destruct x as [|p|p]; auto. repeat (destruct p as [p|p|]; auto). contradiction. }
  assert (S2 : strip (ztext "<![CDATA[") ((x :: c) ++ 60 :: k) = None).
  { cbn. destruct x as [|p|p]; auto. repeat (destruct p as [p|p|]; auto). contradiction. }
  cbn [items_of]. rewrite S1, S2. cbn [app] in *. rewrite T. rewrite I.
  destruct x as [|p|p]; try reflexivity. repeat (destruct p as [p|p|]; try reflexivity). contradiction.
Qed.
Lemma items_elem : forall f k t k' c ks k'', elem_of f (60 :: 112 :: k) = Some (t, k') -> items_of f k' = Some (c, ks, k'') ->
  items_of (S f) (60 :: 112 :: k) = Some (c, t :: ks, k'').
Proof. intros f k t k' c ks k'' E I. cbn [items_of]. cbn - [elem_of items_of]. rewrite E, I. reflexivity. Qed.

Definition o_attr (n : string) (v : option bytes) : list (bytes * bytes) := match v with Some s => [(asc n, s)] | None => [] end.

Lemma attr_uri : forall f p k l e k', quotable p -> attrs_of f k = Some (l, e, k') -> existsb (bytes_eqb [117;114;105]) (map fst l) = false ->
  attrs_of (S f) (32 :: 117 :: 114 :: 105 :: 61 :: 39 :: p ++ 39 :: k) = Some (([117;114;105], p) :: l, e, k').
Proof. intros. apply (attr_step f [117;114;105] p k); auto; try discriminate; namet. Qed.

Lemma profile_elem : forall f p e c tail, quotable p -> (match c with Some x => no_cdata_end x /\ no_nul x | None => True end) ->
  elem_of (6 + f) (asc "<profile uri='" ++ p ++ asc "'" ++ match e with EncBase64 => asc " encoding='base64'" | _ => [] end ++
     match c with None => asc " />" ++ crlf | Some c => asc ">" ++ asc "<![CDATA[" ++ cstr c ++ asc "]]>" ++ asc "</profile>" ++ crlf end ++ tail)
  = Some (Elem (asc "profile") ((asc "uri", p) :: match e with EncBase64 => [(asc "encoding", asc "base64")] | _ => [] end) (or_empty c) [], crlf ++ tail).
Proof.
  intros f p e c tail Q C. cbn [Nat.add].
  assert (En : forall g k l b k', attrs_of g k = Some (l, b, k') -> existsb (bytes_eqb [101;110;99;111;100;105;110;103]) (map fst l) = false ->
     attrs_of (S g) (32::101::110::99::111::100::105::110::103::61::39::98::97::115::101::54::52::39::k) =
       Some (([101;110;99;111;100;105;110;103], [98;97;115;101;54;52]) :: l, b, k')).
  { intros g k l b k' E X.
    assert (Qb : quotable [98;97;115;101;54;52]) by (intros x [<-|[<-|[<-|[<-|[<-|[<-|[]]]]]]]; lia).
    apply (attr_step g [101;110;99;111;100;105;110;103] [98;97;115;101;54;52] k); auto; try discriminate; namet. }
  destruct c as [c|].
  - destruct C as (C1 & C2). rewrite (cstr_id c C2). cbn [or_empty].
    pose proof (items_cdata (S (S (S f))) c ([112;114;111;102;105;108;101] ++ 62 :: 13 :: 10 :: tail) C1 C2) as It.
    revert It. lits. intros It.
    destruct e; cbn [app];
    (eapply (elem_step (S (S (S (S (S f))))) [112;114;111;102;105;108;101]); [discriminate|namet| |  |exact It]; [reflexivity|]).
    + apply attr_uri; [exact Q|first [reflexivity|apply En; reflexivity]|reflexivity].
    + apply attr_uri; [exact Q|first [reflexivity|apply En; reflexivity]|reflexivity].
    + apply attr_uri; [exact Q|first [reflexivity|apply En; reflexivity]|reflexivity].
  - cbn [or_empty]. lits.
    destruct e; cbn [app];
    (eapply (elem_step_empty (S (S (S (S (S f))))) [112;114;111;102;105;108;101]); [discriminate|namet|reflexivity|]).
    + apply attr_uri; [exact Q|first [reflexivity|apply En; reflexivity]|reflexivity].
    + apply attr_uri; [exact Q|first [reflexivity|apply En; reflexivity]|reflexivity].
    + apply attr_uri; [exact Q|first [reflexivity|apply En; reflexivity]|reflexivity].
Qed.
