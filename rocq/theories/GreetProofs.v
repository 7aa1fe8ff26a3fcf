(** Lemmas about the greetings message. *)
From Coq Require Import String Ascii.
From Verif Require Import Base CodecModel FlowModel MimeModel MimeSpec MimeProofs ReassemblyModel ReassemblySpec ReassemblyProofs GreetModel GreetSpec.
Local Open Scope list_scope.
Ltac conj := repeat match goal with |- _ /\ _ => split end.

(** * The text *)

Definition attr_text (name : bytes) (o : option bytes) : bytes := match o with Some v => name ++ v ++ asc "'" | None => [] end.
Definition profile_text (u : bytes) : bytes := asc "   <profile uri='" ++ u ++ asc "' />" ++ crlf.
Definition head_text (f l : option bytes) : bytes := asc "<greeting" ++ attr_text (asc " features='") f ++ attr_text (asc " localize='") l.
Definition kept (filtered : bytes -> bool) (ps : list bytes) : list bytes := filter (fun u => negb (filtered u)) ps.
Definition text (f l : option bytes) (filtered : bytes -> bool) (ps : list bytes) : bytes :=
  head_text f l ++ match ps with
                   | [] => asc " />" ++ crlf
                   | _ => asc ">" ++ crlf ++ flat_map profile_text (kept filtered ps) ++ asc "</greeting>" ++ crlf
                   end.
Definition hsize (f l : option bytes) : Z := zlen (head_text f l).

Lemma copy_ok : forall cap b s, zlen b + zlen s <= cap -> copy cap b s = Ok (b ++ s).
Proof. intros cap b s H. unfold copy. replace (_ <=? cap) with true by (symmetry; apply Z.leb_le; lia). reflexivity. Qed.
Lemma copy_ub : forall cap b s, cap < zlen b + zlen s -> copy cap b s = UB.
Proof. intros cap b s H. unfold copy. replace (_ <=? cap) with false by (symmetry; apply Z.leb_gt; lia). reflexivity. Qed.
Lemma copy_attr_ok : forall cap b n o, zlen b + zlen (attr_text n o) <= cap -> copy_attr cap b n o = Ok (b ++ attr_text n o).
Proof.
  intros cap b n [v|] H; cbn [copy_attr attr_text] in *; [|now rewrite app_nil_r].
  rewrite !zlen_app' in H. pose proof (zlen_pos v). pose proof (zlen_pos (asc "'")).
  rewrite copy_ok by lia. cbn [obind]. rewrite copy_ok by (rewrite zlen_app'; lia). cbn [obind]. rewrite copy_ok by (rewrite !zlen_app'; lia).
  now rewrite <- !app_assoc.
Qed.
Lemma attr_len : forall n o, zlen (attr_text n o) <= zlen n + 1 + size_of o /\ (o <> None -> zlen (attr_text n o) = zlen n + 1 + size_of o).
Proof.
  intros n [v|]; cbn [attr_text size_of]; [rewrite !zlen_app'; change (zlen (asc "'")) with 1; lia|]. split; [|congruence]. change (zlen (@nil Z)) with 0. pose proof (zlen_pos n). lia.
Qed.
Lemma hsize_le : forall f l, hsize f l <= 33 + size_of f + size_of l.
Proof.
  intros f l. unfold hsize, head_text. rewrite !zlen_app'. change (zlen (asc "<greeting")) with 9.
  destruct (attr_len (asc " features='") f) as [A _], (attr_len (asc " localize='") l) as [B _].
  change (zlen (asc " features='")) with 11 in A. change (zlen (asc " localize='")) with 11 in B. lia.
Qed.
Lemma profile_len : forall u, zlen (profile_text u) = 23 + zlen u.
Proof. intros u. unfold profile_text. rewrite !zlen_app'. change (zlen (asc "   <profile uri='")) with 17. change (zlen (asc "' />")) with 4. change (zlen crlf) with 2. lia. Qed.

Lemma profiles_ok : forall cap filtered ps b, zlen b <= cap -> exists r, copy_profiles cap filtered b ps = Ok r /\
  (r = None \/ r = Some (b ++ flat_map profile_text (kept filtered ps)) /\
     (kept filtered ps <> [] -> zlen (b ++ flat_map profile_text (kept filtered ps)) + 13 < cap)).
Proof.
  intros cap filtered. induction ps as [|u ps IH]; intros b B; cbn [copy_profiles].
  - eexists. split; [reflexivity|]. right. cbn. rewrite app_nil_r. split; [reflexivity|]. intros K. contradiction.
  - unfold kept. cbn [filter]. destruct (filtered u) eqn:F; cbn [negb].
    + exact (IH b B).
    + destruct (cap <=? zlen b + zlen u + 36) eqn:C; [eexists; split; [reflexivity|now left]|]. apply Z.leb_gt in C.
      pose proof (zlen_pos u). pose proof (profile_len u) as PL.
      rewrite copy_ok by (change (zlen (asc "   <profile uri='")) with 17; lia). cbn [obind].
      rewrite copy_ok by (rewrite zlen_app'; change (zlen (asc "   <profile uri='")) with 17; lia). cbn [obind].
      rewrite copy_ok by (rewrite !zlen_app'; change (zlen (asc "   <profile uri='")) with 17; change (zlen (asc "' />")) with 4; change (zlen crlf) with 2; lia).
      cbn [obind].
      replace (((b ++ asc "   <profile uri='") ++ u) ++ asc "' />" ++ crlf) with (b ++ profile_text u) by (unfold profile_text; now rewrite <- !app_assoc).
      destruct (IH (b ++ profile_text u)) as (r & R & D). { rewrite zlen_app'. lia. }
      exists r. split; [exact R|]. destruct D as [D|[D1 D2]]; [now left|]. right. cbn [flat_map].
      fold (kept filtered ps) in *. rewrite app_assoc. split; [exact D1|]. intros _.
      destruct (kept filtered ps) as [|k ks] eqn:K; [|apply D2; discriminate].
      cbn [flat_map]. rewrite app_nil_r, zlen_app'. lia.
Qed.

(** Outside of two cases the building writes inside of the buffer. *)
Definition too_big (cap : Z) (f l : option bytes) (filtered : bytes -> bool) (ps : list bytes) : Prop :=
  size_of f + size_of l + 36 < cap /\
  ((ps = [] /\ cap < hsize f l + 5) \/ (ps <> [] /\ kept filtered ps = [] /\ cap < hsize f l + 16)).
Lemma build_cases : forall cap f l filtered ps,
  (too_big cap f l filtered ps /\ build cap f l filtered ps = UB) \/
  (~ too_big cap f l filtered ps /\ (build cap f l filtered ps = Ok None \/
     build cap f l filtered ps = Ok (Some (text f l filtered ps)) /\ zlen (text f l filtered ps) <= cap /\ size_of f + size_of l + 36 < cap)).
Proof.
  intros cap f l filtered ps. unfold build, too_big. destruct (cap <=? _) eqn:C; [right; apply Z.leb_le in C; split; [intros [Q _]; lia|now left]|].
  apply Z.leb_gt in C. pose proof (hsize_le f l) as HL.
  assert (E : zlen (asc "<greeting") + zlen (attr_text (asc " features='") f) + zlen (attr_text (asc " localize='") l) = hsize f l) by (unfold hsize, head_text; rewrite !zlen_app'; lia).
  pose proof (zlen_pos (attr_text (asc " features='") f)). pose proof (zlen_pos (attr_text (asc " localize='") l)).
  rewrite copy_ok by (change (zlen (@nil Z)) with 0; lia). cbn [obind].
  rewrite copy_attr_ok by (rewrite app_nil_l; lia). cbn [obind].
  rewrite copy_attr_ok by (rewrite app_nil_l, zlen_app'; lia). cbn [obind].
  replace ((([] ++ asc "<greeting") ++ attr_text (asc " features='") f) ++ attr_text (asc " localize='") l) with (head_text f l) by (unfold head_text; now rewrite app_nil_l, <- !app_assoc).
  destruct ps as [|u ps].
  - unfold text. fold (hsize f l). destruct (Z_le_gt_dec (hsize f l + 5) cap) as [G|G].
    + right. split; [intros [_ [[_ Q]|[Q _]]]; [lia|congruence]|]. right.
      rewrite copy_ok by (fold (hsize f l); change (zlen (asc " />" ++ crlf)) with 5; lia). cbn [obind]. conj; [reflexivity| |lia].
      rewrite zlen_app'. fold (hsize f l). change (zlen (asc " />" ++ crlf)) with 5. lia.
    + left. split; [split; [lia|left; split; [reflexivity|lia]]|].
      rewrite copy_ub by (fold (hsize f l); change (zlen (asc " />" ++ crlf)) with 5; lia). reflexivity.
  - unfold text. set (q := u :: ps) in *. assert (NQ : q <> []) by discriminate.
    rewrite copy_ok by (fold (hsize f l); change (zlen (asc ">" ++ crlf)) with 3; lia). cbn [obind].
    destruct (profiles_ok cap filtered q (head_text f l ++ asc ">" ++ crlf)) as (r & R & D).
    { rewrite zlen_app'. fold (hsize f l). change (zlen (asc ">" ++ crlf)) with 3. lia. }
    rewrite R. cbn [obind]. clearbody q. rewrite zlen_app' in D. rewrite !zlen_app' in D. fold (hsize f l) in D.
    change (zlen (asc ">") + zlen crlf) with 3 in D. destruct D as [->|[-> D]].
    + right. split; [|now left]. intros [_ [[Q _]|(_ & K & Q)]]; [contradiction|].
      clear - R K. exfalso. assert (G : forall ps b, kept filtered ps = [] -> copy_profiles cap filtered b ps = Ok (Some b)).
      { induction ps as [|x ps IH]; intros b H; [reflexivity|]. unfold kept in H. cbn [filter] in H. cbn [copy_profiles]. destruct (filtered x); [now apply IH|discriminate]. }
      rewrite G in R by exact K. discriminate.
    + destruct (kept filtered q) as [|k ks] eqn:K.
      * cbn [flat_map app]. destruct (Z_le_gt_dec (hsize f l + 16) cap) as [G|G].
        -- right. split; [intros [_ [[Q _]|(_ & _ & Q)]]; [contradiction|lia]|]. right.
           rewrite copy_ok. 2:{ rewrite !zlen_app'. fold (hsize f l). change (zlen (asc ">") + zlen crlf) with 3. change (zlen (asc "</greeting>") + zlen crlf) with 13. change (zlen (@nil Z)) with 0. lia. }
           cbn [obind]. rewrite app_nil_r. destruct q as [|q0 q1]; [contradiction|]. rewrite <- !app_assoc. conj; [reflexivity| |lia].
           rewrite !zlen_app'. fold (hsize f l). change (zlen (asc ">")) with 1. change (zlen crlf) with 2. change (zlen (asc "</greeting>")) with 11. lia.
        -- left. split; [split; [lia|right; conj; [exact NQ|reflexivity|lia]]|].
           rewrite copy_ub; [reflexivity|]. rewrite !zlen_app'. fold (hsize f l). change (zlen (asc ">")) with 1. change (zlen crlf) with 2. change (zlen (asc "</greeting>")) with 11. change (zlen (@nil Z)) with 0. lia.
      * assert (D' : hsize f l + 3 + zlen (flat_map profile_text (k :: ks)) + 13 < cap) by (apply D; discriminate). clear D.
        right. split; [intros [_ [[Q _]|(_ & Q & _)]]; [contradiction|discriminate]|]. right.
        rewrite copy_ok. 2:{ rewrite !zlen_app'. fold (hsize f l). change (zlen (asc ">") + zlen crlf) with 3. change (zlen (asc "</greeting>") + zlen crlf) with 13. lia. }
        cbn [obind]. destruct q as [|q0 q1]; [contradiction|]. rewrite <- !app_assoc. conj; [reflexivity| |lia].
        rewrite !zlen_app'. fold (hsize f l). change (zlen (asc ">")) with 1. change (zlen crlf) with 2. change (zlen (asc "</greeting>")) with 11. lia.
Qed.

(** * Reading it *)

Lemma at_quotes_app : forall a cur r, no_quote a -> at_quotes cur (a ++ 39 :: r) = (cur ++ a) :: at_quotes [] r.
Proof.
  induction a as [|x a IH]; intros cur r N; cbn [app at_quotes].
  - now rewrite app_nil_r.
  - replace (x =? 39) with false by (symmetry; apply Z.eqb_neq; intros ->; apply N; now left).
    rewrite IH by (intros Q; apply N; now right). now rewrite <- app_assoc.
Qed.
Lemma at_quotes_end : forall a cur, no_quote a -> at_quotes cur a = [cur ++ a].
Proof.
  induction a as [|x a IH]; intros cur N; cbn [at_quotes].
  - now rewrite app_nil_r.
  - replace (x =? 39) with false by (symmetry; apply Z.eqb_neq; intros ->; apply N; now left).
    rewrite IH by (intros Q; apply N; now right). now rewrite <- app_assoc.
Qed.
Definition attrs (t : bytes) : list (bytes * bytes) := in_pairs (at_quotes [] t).
Lemma attrs_one : forall m v r, no_quote m -> no_quote v -> attrs (m ++ 39 :: v ++ 39 :: r) = (m, v) :: attrs r.
Proof. intros m v r M V. unfold attrs. rewrite at_quotes_app by exact M. rewrite at_quotes_app by exact V. reflexivity. Qed.
Lemma attrs_end : forall m, no_quote m -> attrs m = [].
Proof. intros m M. unfold attrs. rewrite at_quotes_end by exact M. reflexivity. Qed.
Lemma no_quote_dec : forall b, forallb (fun c => negb (c =? 39)) b = true -> no_quote b.
Proof. intros b H Q. rewrite forallb_forall in H. specialize (H _ Q). discriminate. Qed.
Lemma no_quote_app : forall a b, no_quote a -> no_quote b -> no_quote (a ++ b).
Proof. intros a b A B Q. apply in_app_iff in Q. destruct Q; [now apply A|now apply B]. Qed.

Definition tail_text : bytes := asc "</greeting>" ++ crlf.
Definition mark_profile : bytes := ztext "   <profile uri=".
Lemma attrs_profiles : forall ks pre, no_quote pre -> Forall no_quote ks ->
  map snd (filter (fun p => ends_with (fst p) (ztext "<profile uri=")) (attrs (pre ++ flat_map profile_text ks ++ tail_text))) = ks /\
  (forall name, name = ztext " features=" \/ name = ztext " localize=" ->
   filter (fun p => ends_with (fst p) name) (attrs (pre ++ flat_map profile_text ks ++ tail_text)) = []).
Proof.
  induction ks as [|k ks IH]; intros pre P K.
  - cbn [flat_map app]. rewrite attrs_end by (apply no_quote_app; [exact P|apply no_quote_dec; reflexivity]). split; reflexivity.
  - inversion K as [|? ? Hk Ks]; subst. cbn [flat_map].
    replace (pre ++ (profile_text k ++ flat_map profile_text ks) ++ tail_text)
      with ((pre ++ mark_profile) ++ 39 :: k ++ 39 :: (asc " />" ++ crlf) ++ flat_map profile_text ks ++ tail_text).
    2:{ unfold profile_text. change (asc "   <profile uri='") with (mark_profile ++ [39]). change (asc "' />") with (39 :: asc " />"). rewrite <- !app_assoc. cbn [app]. reflexivity. }
    rewrite attrs_one; [|apply no_quote_app; [exact P|apply no_quote_dec; reflexivity]|exact Hk].
    destruct (IH (asc " />" ++ crlf)) as [I1 I2]; [apply no_quote_dec; reflexivity|exact Ks|].
    assert (EW : forall pre, ends_with (pre ++ mark_profile) (ztext "<profile uri=") = true).
    { clear. intros pre. unfold ends_with. rewrite app_length. replace (List.length pre + List.length mark_profile - List.length (ztext "<profile uri="))%nat with (List.length pre + 3)%nat by (cbn; lia).
      rewrite skipn_app. rewrite skipn_all2 by lia. replace (List.length pre + 3 - List.length pre)%nat with 3%nat by lia. reflexivity. }
    assert (EN : forall pre name, name = ztext " features=" \/ name = ztext " localize=" -> ends_with (pre ++ mark_profile) name = false).
    { clear. intros pre name H. unfold ends_with. rewrite app_length.
      destruct H as [-> | ->]; (match goal with |- context [ztext ?x] => replace (List.length pre + List.length mark_profile - List.length (ztext x))%nat with (List.length pre + 6)%nat by (cbn; lia) end);
      rewrite skipn_app, skipn_all2 by lia; (replace (List.length pre + 6 - List.length pre)%nat with 6%nat by lia); reflexivity. }
    split.
    + cbn [filter fst]. rewrite EW. cbn [map snd]. f_equal. exact I1.
    + intros name N. cbn [filter fst]. rewrite EN by exact N. now apply I2.
Qed.

Lemma attrs_opt : forall pre name o r, no_quote pre -> no_quote name -> no_quote_o o ->
  exists pre', no_quote pre' /\ (pre' = [] \/ pre' = pre) /\ attrs (pre ++ attr_text (name ++ [39]) o ++ r) =
    map (fun v => (pre ++ name, v)) (listed o) ++ attrs (pre' ++ r).
Proof.
  intros pre name [v|] r P N V; cbn [attr_text listed map app].
  - exists []. conj; [intros []|now left|].
    replace (pre ++ ((name ++ [39]) ++ v ++ asc "'") ++ r) with ((pre ++ name) ++ 39 :: v ++ 39 :: r) by (change (asc "'") with [39]; rewrite <- !app_assoc; cbn [app]; reflexivity).
    rewrite attrs_one; [reflexivity|now apply no_quote_app|exact V].
  - exists pre. conj; [exact P|now right|reflexivity].
Qed.
Lemma listed_map : forall (m : bytes) o (g : bytes * bytes -> bool), (forall v, g (m, v) = true) -> map snd (filter g (map (fun v => (m, v)) (listed o))) = listed o.
Proof. intros m [v|] g H; cbn; [rewrite H|]; reflexivity. Qed.
Lemma listed_map0 : forall (m : bytes) o (g : bytes * bytes -> bool), (forall v, g (m, v) = false) -> filter g (map (fun v => (m, v)) (listed o)) = [].
Proof. intros m [v|] g H; cbn; [rewrite H|]; reflexivity. Qed.

Lemma text_says : forall f l filtered ps, no_quote_o f -> no_quote_o l -> Forall no_quote (kept filtered ps) ->
  uris_of (text f l filtered ps) = kept filtered ps /\ features_of (text f l filtered ps) = listed f /\ localize_of (text f l filtered ps) = listed l.
Proof.
  intros f l filtered ps F L K.
  assert (T : exists pre, no_quote pre /\ exists ks, ks = kept filtered ps /\ forall h, h ++ match ps with [] => asc " />" ++ crlf | _ => asc ">" ++ crlf ++ flat_map profile_text (kept filtered ps) ++ asc "</greeting>" ++ crlf end =
     h ++ pre ++ flat_map profile_text ks ++ (match ps with [] => [] | _ => tail_text end)).
  { destruct ps as [|p ps].
    - exists (asc " />" ++ crlf). split; [apply no_quote_dec; reflexivity|]. exists []. split; [reflexivity|]. intros h. now rewrite !app_nil_r.
    - exists (asc ">" ++ crlf). split; [apply no_quote_dec; reflexivity|]. exists (kept filtered (p :: ps)). split; [reflexivity|]. intros h. unfold tail_text. now rewrite <- !app_assoc. }
  destruct T as (pre & NP & ks & -> & T).
  unfold uris_of, features_of, localize_of, values_of, text. rewrite T. unfold head_text. rewrite <- !app_assoc.
  change (asc " features='") with (ztext " features=" ++ [39]). change (asc " localize='") with (ztext " localize=" ++ [39]).
  fold (attrs (asc "<greeting" ++ attr_text (ztext " features=" ++ [39]) f ++ attr_text (ztext " localize=" ++ [39]) l ++ pre ++ flat_map profile_text (kept filtered ps) ++ match ps with [] => [] | _ :: _ => tail_text end)).
  destruct (attrs_opt (asc "<greeting") (ztext " features=") f (attr_text (ztext " localize=" ++ [39]) l ++ pre ++ flat_map profile_text (kept filtered ps) ++ match ps with [] => [] | _ :: _ => tail_text end)) as (p1 & N1 & C1 & E1);
    [apply no_quote_dec; reflexivity|apply no_quote_dec; reflexivity|exact F|]. rewrite E1. clear E1.
  destruct (attrs_opt p1 (ztext " localize=") l (pre ++ flat_map profile_text (kept filtered ps) ++ match ps with [] => [] | _ :: _ => tail_text end)) as (p2 & N2 & C2 & E2);
    [exact N1|apply no_quote_dec; reflexivity|exact L|]. rewrite E2. clear E2.
  assert (A : map snd (filter (fun p => ends_with (fst p) (ztext "<profile uri=")) (attrs (p2 ++ pre ++ flat_map profile_text (kept filtered ps) ++ match ps with [] => [] | _ :: _ => tail_text end))) = kept filtered ps /\
    (forall name, name = ztext " features=" \/ name = ztext " localize=" -> filter (fun p => ends_with (fst p) name) (attrs (p2 ++ pre ++ flat_map profile_text (kept filtered ps) ++ match ps with [] => [] | _ :: _ => tail_text end)) = [])).
  { rewrite app_assoc. destruct ps as [|p ps].
    - cbn [kept filter flat_map app]. rewrite app_nil_r. rewrite attrs_end by (now apply no_quote_app). split; [reflexivity|]. intros; reflexivity.
    - apply attrs_profiles; [now apply no_quote_app|exact K]. }
  destruct A as [A1 A2]. rewrite !filter_app, !map_app, A1, !A2 by auto. cbn [map]. rewrite !app_nil_r.
  assert (Q1 : forall n, n = ztext "<profile uri=" \/ n = ztext " localize=" -> ends_with (asc "<greeting" ++ ztext " features=") n = false) by (intros n [-> | ->]; reflexivity).
  assert (Q2 : forall n, n = ztext "<profile uri=" \/ n = ztext " features=" -> ends_with (p1 ++ ztext " localize=") n = false) by (intros n [-> | ->]; destruct C1 as [-> | ->]; reflexivity).
  assert (Q3 : ends_with (p1 ++ ztext " localize=") (ztext " localize=") = true) by (destruct C1 as [-> | ->]; reflexivity).
  conj.
  - rewrite !listed_map0 by (intros v; cbn [fst]; auto). reflexivity.
  - rewrite listed_map by (intros v; reflexivity). rewrite listed_map0 by (intros v; cbn [fst]; auto). cbn. now rewrite app_nil_r.
  - rewrite listed_map0 by (intros v; cbn [fst]; auto). rewrite listed_map by (intros v; exact Q3). reflexivity.
Qed.
Lemma says_thm : forall cap f l filtered ps t, no_quote_o f -> no_quote_o l -> Forall no_quote ps -> build cap f l filtered ps = Ok (Some t) ->
  uris_of t = filter (fun u => negb (filtered u)) ps /\ features_of t = listed f /\ localize_of t = listed l /\ zlen t <= cap.
Proof.
  intros cap f l filtered ps t F L P B. destruct (build_cases cap f l filtered ps) as [[_ E]|[_ [E|(E & Z1 & _)]]]; rewrite E in B; try discriminate.
  apply (f_equal (fun o => match o with Ok (Some x) => x | _ => [] end)) in B. cbn in B. subst t.
  destruct (text_says f l filtered ps F L) as (A1 & A2 & A3). { unfold kept. clear -P. induction P; cbn; [constructor|]. destruct (negb _); auto. }
  conj; auto.
Qed.
Lemma memory_thm : forall cap f l filtered ps, build cap f l filtered ps = UB <->
  let head := 9 + (match f with Some v => 12 + zlen v | None => 0 end) + (match l with Some v => 12 + zlen v | None => 0 end) in
  size_of f + size_of l + 36 < cap /\
  ((ps = [] /\ cap < head + 5) \/ (ps <> [] /\ filter (fun u => negb (filtered u)) ps = [] /\ cap < head + 16)).
Proof.
  intros cap f l filtered ps. cbv zeta.
  assert (E : hsize f l = 9 + (match f with Some v => 12 + zlen v | None => 0 end) + (match l with Some v => 12 + zlen v | None => 0 end)).
  { unfold hsize, head_text. rewrite !zlen_app'. change (zlen (asc "<greeting")) with 9.
    destruct f as [v|], l as [w|]; cbn [attr_text]; rewrite ?zlen_app'; change (zlen (asc " features='")) with 11; change (zlen (asc " localize='")) with 11; change (zlen (asc "'")) with 1; change (zlen (@nil Z)) with 0; lia. }
  rewrite <- E. destruct (build_cases cap f l filtered ps) as [[A B]|[A B]].
  - split; [intros _; exact A|intros _; exact B].
  - split; [|intros Q; contradiction]. intros Q. destruct B as [B|[B _]]; rewrite B in Q; discriminate.
Qed.
