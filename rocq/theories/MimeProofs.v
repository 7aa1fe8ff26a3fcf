(** Lemmas about the MIME parser. *)
From Verif Require Import Base MimeModel MimeSpec.

Lemma zlen_app' : forall {A} (a b : list A), zlen (a ++ b) = zlen a + zlen b.
Proof. intros. unfold zlen. rewrite app_length. lia. Qed.
Lemma zlen_cons' : forall {A} (a : A) b, zlen (a :: b) = 1 + zlen b.
Proof. intros. unfold zlen. cbn [length]. lia. Qed.
Lemma zlen_pos : forall {A} (a : list A), 0 <= zlen a.
Proof. intros. unfold zlen. lia. Qed.

Lemma name_char_spec : forall c, name_char c = true <-> field_char c.
Proof.
  intros c. unfold name_char, field_char, COLON, SP, TAB. lia.
Qed.
Lemma is_wsp_spec : forall c, is_wsp c = true <-> wsp c.
Proof. intros. unfold is_wsp, wsp, SP, TAB. lia. Qed.

Lemma scan_name_total : forall rest T k, 0 <= k -> exists nm r,
  scan_name (rest ++ T) (zlen rest) k = Ok (nm, r ++ T, zlen r) /\ rest = nm ++ r /\ Forall field_char nm /\
  (k <= 995 -> k + zlen nm <= 995) /\
  (r = [] \/ 995 <= k + zlen nm \/ exists c r', r = c :: r' /\ ~ field_char c).
Proof.
  induction rest as [|c rest IH]; intros T k K.
  - exists [], []. destruct T; cbn; repeat split; auto; lia.
  - rewrite zlen_cons'. pose proof (zlen_pos rest) as P. cbn [app scan_name].
    destruct (1 + zlen rest <=? 0) eqn:E; [lia|].
    destruct (name_char c && (k <? 995)) eqn:E1.
    + apply andb_true_iff in E1. destruct E1 as [E1 E2]. apply name_char_spec in E1.
      replace (1 + zlen rest - 1) with (zlen rest) by lia.
      destruct (IH T (k + 1)) as (nm & r & H1 & H2 & H3 & H4 & H5); [lia|].
      rewrite H1. cbn [obind]. exists (c :: nm), r. split; [reflexivity|]. rewrite zlen_cons'.
      split; [cbn; congruence|]. split; [constructor; auto|]. split; [lia|].
      destruct H5 as [|[|]]; auto. right; left; lia.
    + exists [], (c :: rest). rewrite zlen_cons'. split; [reflexivity|]. split; [reflexivity|].
      split; [constructor|]. change (zlen (@nil Z)) with 0. split; [lia|]. right.
      apply andb_false_iff in E1. destruct E1 as [E1|E1].
      * right. exists c, rest. split; [reflexivity|]. intro F. apply name_char_spec in F. congruence.
      * left. lia.
Qed.

Lemma scan_name_at : forall nm r T k n, Forall field_char nm -> 0 <= k -> k + zlen nm < 995 -> n = zlen (nm ++ 58 :: r) ->
  scan_name ((nm ++ 58 :: r) ++ T) n k = Ok (nm, (58 :: r) ++ T, zlen (58 :: r)).
Proof.
  induction nm as [|c nm IH]; intros r T k n F K L N; subst n; cbn [app].
  - pose proof (zlen_pos r). cbn [scan_name]. rewrite zlen_cons'.
    destruct (1 + zlen r <=? 0) eqn:E; [lia|]. change (name_char 58) with false. cbn. reflexivity.
  - rewrite zlen_cons' in *. pose proof (zlen_pos (nm ++ 58 :: r)). pose proof (zlen_pos nm). cbn [scan_name].
    destruct (1 + zlen (nm ++ 58 :: r) <=? 0) eqn:E; [lia|].
    inversion F; subst. destruct (name_char c) eqn:E1; [|apply name_char_spec in H3; congruence].
    destruct (k <? 995) eqn:E2; [|lia]. cbn [andb].
    rewrite (IH r T (k + 1)) by (auto; lia). reflexivity.
Qed.

(** The two tests of a line end together are the specification's. *)
Lemma stops_spec : forall rest T, exists a b,
  crlf_stop (rest ++ 0 :: T) (zlen rest) = Ok a /\ lf_stop (rest ++ 0 :: T) (zlen rest) = Ok b /\
  (a || b = true <-> line_end (rest ++ 0 :: T)).
Proof.
  intros rest T. destruct rest as [|c [|d rest]].
  - exists false, false. cbn. repeat split; auto; [discriminate|].
    intros [(c & r & E & _)|(c & r & E & _)]; discriminate.
  - change (zlen [c]) with 1. cbn [app]. unfold crlf_stop, lf_stop. cbn [Z.ltb Z.compare].
    destruct (1 <? 1) eqn:X; [lia|]. destruct (0 <? 1) eqn:Y; [|lia].
    destruct (c =? LF) eqn:E.
    + exists false, true. cbn. repeat split; auto. intros _. right. exists 0, T.
      split; [f_equal; unfold LF in E; lia|]. intros [?|?]; lia.
    + exists false, false. cbn. repeat split; auto; [discriminate|].
      unfold LF in E. intros [(c' & r & E' & _)|(c' & r & E' & _)]; injection E'; lia.
  - rewrite !zlen_cons'. pose proof (zlen_pos rest) as P. unfold crlf_stop, lf_stop. cbn [app].
    destruct (1 <? 1 + (1 + zlen rest)) eqn:X; [|lia].
    destruct (0 <? 1 + (1 + zlen rest)) eqn:Y; [|lia].
    assert (exists e q, rest ++ 0 :: T = e :: q) as (e & q & Q) by (destruct rest; cbn; eauto).
    rewrite Q. cbn [rd obind].
    exists ((c =? CR) && (d =? LF) && negb (is_wsp e)), ((c =? LF) && negb (is_wsp d)).
    split; [destruct (c =? CR), (d =? LF); reflexivity|].
    split; [destruct (c =? LF); reflexivity|].
    unfold CR, LF, is_wsp, SP, TAB, line_end, wsp. split.
    + intros H. apply orb_true_iff in H. destruct H as [H|H].
      * left. exists e, q. split; [f_equal; [lia|f_equal; lia]|lia].
      * right. exists d, (e :: q). split; [f_equal; lia|lia].
    + intros [(c' & r & E & W)|(c' & r & E & W)]; injection E; intros; subst; lia.
Qed.

Lemma scan_value_eq : forall rest n, scan_value rest n =
  let! a := crlf_stop rest n in
  if a : bool then Ok ([], rest, n) else
  let! b := lf_stop rest n in
  if b : bool then Ok ([], rest, n) else
  if n =? 0 then Ok ([], rest, n) else
  match rest with
  | [] => UB
  | c :: r => let! (v, r', n') := scan_value r (n - 1) in Ok (c :: v, r', n')
  end.
Proof. intros. destruct rest; reflexivity. Qed.

Lemma scan_value_total : forall rest T, exists v r,
  scan_value (rest ++ 0 :: T) (zlen rest) = Ok (v, r ++ 0 :: T, zlen r) /\ rest = v ++ r /\
  (r = [] \/ line_end (r ++ 0 :: T)) /\
  (forall a b, v ++ (r ++ 0 :: T) = a ++ b -> (length a < length v)%nat -> ~ line_end b).
Proof.
  induction rest as [|c rest IH]; intros T; rewrite scan_value_eq.
  - exists [], []. cbn. repeat split; auto. intros; lia.
  - destruct (stops_spec (c :: rest) T) as (a & b & Ha & Hb & Hab). rewrite Ha. cbn [obind].
    destruct (a || b) eqn:S.
    + exists [], (c :: rest). split; [|split; [reflexivity|split; [right; apply Hab; reflexivity|cbn; intros; lia]]].
      destruct a; [reflexivity|]. rewrite Hb. cbn [obind]. cbn in S. subst b. reflexivity.
    + apply orb_false_iff in S. destruct S as [S1 S2]. subst a b. rewrite Hb. cbn [obind].
      rewrite zlen_cons'. pose proof (zlen_pos rest). destruct (1 + zlen rest =? 0) eqn:E; [lia|].
      cbn [app]. replace (1 + zlen rest - 1) with (zlen rest) by lia.
      destruct (IH T) as (v & r & H1 & H2 & H3 & H4). rewrite H1. cbn [obind].
      exists (c :: v), r. split; [reflexivity|]. split; [cbn; congruence|]. split; [auto|].
      intros x y E1 L. destruct x as [|x0 x].
      * cbn in E1. subst y. intro F.
        assert (false || false = true) by (apply Hab; rewrite H2; cbn [app]; rewrite <- app_assoc; exact F). discriminate.
      * cbn in E1. injection E1 as -> E1. apply (H4 x y); auto. cbn in L. lia.
Qed.

Lemma line_end_app : forall b X, (3 <= length b)%nat -> (line_end (b ++ X) <-> line_end b).
Proof.
  intros b X L. destruct b as [|x [|y [|z b]]]; cbn in L; try lia. cbn [app]. unfold line_end.
  split; intros [(c & r & E & W)|(c & r & E & W)]; injection E; intros; subst;
    [left|right|left|right]; eauto.
Qed.

(** The loop over a value ends exactly at the first line end. *)
Lemma scan_value_at : forall v r X n, n = zlen (v ++ r) -> line_end r ->
  (forall a b, v ++ r = a ++ b -> (length a < length v)%nat -> ~ line_end b) ->
  scan_value ((v ++ r) ++ X) n = Ok (v, r ++ X, zlen r).
Proof.
  induction v as [|c v IH]; intros r X n N L F; subst n; rewrite scan_value_eq; cbn [app].
  - destruct L as [(c & q & E & W)|(c & q & E & W)]; subst r.
    + unfold crlf_stop. rewrite !zlen_cons'. pose proof (zlen_pos q).
      destruct (1 <? 1 + (1 + (1 + zlen q))) eqn:X1; [|lia]. cbn [app].
      change (13 =? CR) with true. change (10 =? LF) with true. cbn [rd obind].
      destruct (is_wsp c) eqn:I; [apply is_wsp_spec in I; contradiction|]. reflexivity.
    + unfold crlf_stop, lf_stop. rewrite !zlen_cons'. pose proof (zlen_pos q).
      destruct (1 <? 1 + (1 + zlen q)) eqn:X1; [|lia]. destruct (0 <? 1 + (1 + zlen q)) eqn:X2; [|lia].
      cbn [app]. change (10 =? CR) with false. change (10 =? LF) with true. cbn [rd obind].
      destruct (is_wsp c) eqn:I; [apply is_wsp_spec in I; contradiction|]. reflexivity.
  - assert (L2 : (2 <= length r)%nat) by (destruct L as [(z & q & E & W)|(z & q & E & W)]; subst r; cbn; lia).
    assert (NE : ~ line_end (c :: (v ++ r) ++ X)).
    { intro Y. apply (F [] (c :: v ++ r) eq_refl); [cbn; lia|].
      apply (line_end_app (c :: v ++ r) X); [cbn; rewrite app_length; lia|exact Y]. }
    assert (Q : exists d e q, (v ++ r) ++ X = d :: e :: q).
    { destruct ((v ++ r) ++ X) as [|d [|e q]] eqn:E; eauto;
        apply (f_equal (@length Z)) in E; rewrite !app_length in E; cbn in E; lia. }
    destruct Q as (d & e & q & Q).
    assert (A : crlf_stop (c :: (v ++ r) ++ X) (zlen (c :: v ++ r)) = Ok false).
    { unfold crlf_stop. destruct (1 <? zlen (c :: v ++ r)); [|reflexivity].
      destruct (c =? CR) eqn:E1; [|reflexivity]. rewrite Q.
      destruct (d =? LF) eqn:E2; [|reflexivity]. cbn [rd obind].
      destruct (is_wsp e) eqn:E3; [reflexivity|]. exfalso. apply NE. rewrite Q. left. exists e, q.
      unfold CR, LF in *. split; [f_equal; [lia|f_equal; lia]|].
      intro I. apply is_wsp_spec in I. congruence. }
    assert (B : lf_stop (c :: (v ++ r) ++ X) (zlen (c :: v ++ r)) = Ok false).
    { unfold lf_stop. destruct (0 <? zlen (c :: v ++ r)); [|reflexivity].
      destruct (c =? LF) eqn:E1; [|reflexivity]. rewrite Q. cbn [rd obind].
      destruct (is_wsp d) eqn:E3; [reflexivity|]. exfalso. apply NE. rewrite Q. right. exists d, (e :: q).
      unfold LF in *. split; [f_equal; lia|]. intro I. apply is_wsp_spec in I. congruence. }
    rewrite A, B. cbn [obind]. rewrite zlen_cons'. pose proof (zlen_pos (v ++ r)).
    destruct (1 + zlen (v ++ r) =? 0) eqn:E; [lia|].
    rewrite (IH r X); [reflexivity|lia|exact L|].
    intros a b E1 E2. apply (F (c :: a) b); [cbn; congruence|cbn; lia].
Qed.

(** Nothing but the first character matters to the test of an empty line. *)
Lemma at_blank_total : forall rest T, exists b, at_blank (rest ++ 0 :: T) = Ok b /\
  (b = true -> exists t body, eol t /\ rest = t ++ body).
Proof.
  intros rest T. destruct rest as [|c rest]; cbn [app at_blank].
  - exists false. split; [reflexivity|discriminate].
  - destruct (c =? LF) eqn:E.
    + exists true. split; [reflexivity|]. intros _. exists [10], rest. split; [right; reflexivity|].
      cbn. f_equal. unfold LF in E. lia.
    + destruct (c =? CR) eqn:E1.
      * destruct rest as [|d rest]; cbn [app rd obind]; [exists false; split; [reflexivity|discriminate]|].
        exists (d =? LF). split; [reflexivity|]. intros E2. exists [13; 10], rest.
        split; [left; reflexivity|]. cbn. unfold LF, CR in *. f_equal; [lia|f_equal; lia].
      * exists false. split; [reflexivity|discriminate].
Qed.

Lemma sk_blanks_colon : forall r n, 0 < n -> skip_blanks (58 :: r) n = Ok (58 :: r, n).
Proof. intros. cbn [skip_blanks]. destruct (n <=? 0) eqn:E; [lia|]. reflexivity. Qed.

(** One header of a frame from the socket. *)
Lemma read_header_sock : forall rest,
  (exists name v t rest2, rest = name ++ 58 :: v ++ t ++ rest2 /\ field_name name /\ eol t /\
     line_end (t ++ rest2 ++ trailer) /\
     (forall a b, v ++ (t ++ rest2 ++ trailer) = a ++ b -> (length a < length v)%nat -> ~ line_end b) /\
     read_mime_header (rest ++ trailer) (zlen rest) = Ok (Some ((name, v), rest2 ++ trailer, zlen rest2))) \/
  (exists x, read_mime_header (rest ++ trailer) (zlen rest) = Ok (Some (x, [68; 13; 10], -2))) \/
  read_mime_header (rest ++ trailer) (zlen rest) = Ok None.
Proof.
  intros rest. unfold read_mime_header.
  destruct (scan_name_total rest trailer 0) as (nm & r1 & H1 & H2 & H3 & H4 & H5); [lia|].
  rewrite H1. cbn [obind].
  destruct r1 as [|c r1].
  - right; right. cbn [app trailer rd obind]. reflexivity.
  - cbn [app rd obind].
    destruct ((126 <? c) || (c <? 33)) eqn:E1; [right; right; reflexivity|].
    destruct (995 <=? zlen nm) eqn:E2; [right; right; reflexivity|].
    rewrite zlen_cons'. pose proof (zlen_pos r1) as P1.
    destruct (1 + zlen r1 =? 0) eqn:E3; [lia|].
    cbn [skip_blanks]. destruct (1 + zlen r1 <=? 0) eqn:E4; [lia|].
    destruct (c =? SP) eqn:E5; [unfold SP in *; lia|]. cbn [obind rd].
    destruct (negb (c =? COLON)) eqn:E6; [right; right; reflexivity|].
    assert (c = 58) by (unfold COLON in *; lia). subst c.
    destruct (scan_value_total (58 :: r1) [78; 68; 13; 10]) as (v & r & S1 & S2 & S3 & S4).
    rewrite zlen_cons' in S1. cbn [app] in S1. change (r1 ++ trailer) with (r1 ++ 0 :: [78; 68; 13; 10]).
    rewrite S1. cbn [obind].
    assert (NE : v <> []).
    { intro V. subst v. cbn in S2. destruct S3 as [S3|S3]; [subst r; discriminate|].
      rewrite <- S2 in S3. destruct S3 as [(z & q & E & _)|(z & q & E & _)]; discriminate. }
    destruct v as [|v0 v]; [contradiction|]. cbn in S2. injection S2 as <- S2. cbn [tl].
    destruct S3 as [S3|S3].
    + subst r. right; left. cbn. eauto.
    + assert (exists t rest2, eol t /\ r = t ++ rest2) as (t & rest2 & ET & ER).
      { destruct S3 as [(z & q & E & W)|(z & q & E & W)].
        - destruct r as [|a [|b r]]; cbn in E; try discriminate. injection E as -> -> E.
          exists [13; 10], r. split; [left; reflexivity|reflexivity].
        - destruct r as [|a r]; cbn in E; try discriminate. injection E as -> E.
          exists [10], r. split; [right; reflexivity|reflexivity]. }
      subst r. rewrite <- app_assoc in S3. change (0 :: [78; 68; 13; 10]) with trailer in *.
      left. exists nm, v, t, rest2.
      split; [subst r1; exact H2|]. split; [split; [auto|lia]|]. split; [exact ET|]. split; [exact S3|].
      split.
      * intros a b A1 A2. apply (S4 (58 :: a) b); [cbn; rewrite <- app_assoc; congruence|cbn; lia].
      * destruct ET; subst t; cbn [app rd obind]; rewrite !zlen_cons'.
        -- change (13 =? LF) with false. cbv iota. change (Z.to_nat 2) with 2%nat. cbn [skipn].
           do 4 f_equal. lia.
        -- change (10 =? LF) with true. cbv iota. change (Z.to_nat 1) with 1%nat. cbn [skipn].
           do 4 f_equal. lia.
Qed.

Lemma entity_nonempty : forall c hs body, entity c hs body -> c <> [].
Proof.
  intros c hs body H. destruct H as [t body [E|E]|name v t rest hs body F E V H]; subst; try discriminate.
  destruct name; discriminate.
Qed.

(** The inner loop on a frame from the socket: always ends, never reads outside
    of the block, and what it finds is an entity. *)
Lemma headers_sock : forall fuel rest, (length rest < fuel)%nat -> (1 < fuel)%nat ->
  exists res, mime_headers fuel (rest ++ trailer) (zlen rest) = Ok (Some res) /\
  forall hs r m, res = Some (hs, r, m) -> exists t body, eol t /\ r = (t ++ body) ++ trailer /\
    m = zlen (t ++ body) /\ entity rest hs body.
Proof.
  induction fuel as [|f IH]; intros rest L L1; [lia|]. cbn [mime_headers].
  destruct (at_blank_total rest [78; 68; 13; 10]) as (b & B1 & B2).
  change (0 :: [78; 68; 13; 10]) with trailer in B1. rewrite B1. cbn [obind].
  destruct b.
  - destruct (B2 eq_refl) as (t & body & E & ->). eexists. split; [reflexivity|].
    intros hs r m Q. injection Q as <- <- <-. exists t, body. repeat split; auto. constructor; auto.
  - destruct (read_header_sock rest) as [(name & v & t & rest2 & ER & F & ET & LE & FV & H)|[(x & H)|H]];
      rewrite H; cbn [obind].
    + destruct (Nat.eq_dec (length rest2) 0) as [ZL|ZL].
      * destruct rest2; [|discriminate].
        assert (mime_headers f (@nil Z ++ trailer) (zlen (@nil Z)) = Ok (Some None)) as X.
        { destruct f; [lia|]. reflexivity. }
        rewrite X. cbn [obind]. exists None. split; [reflexivity|]. intros; discriminate.
      * assert (LL : (length rest2 < f)%nat).
        { subst rest. repeat (rewrite app_length in L; cbn [length] in L). lia. }
        destruct (IH rest2 LL) as (res & R1 & R2); [lia|]. rewrite R1. cbn [obind].
        destruct res as [[[hs r] m]|]; eexists; (split; [reflexivity|]); [|intros; discriminate].
        intros hs' r' m' Q. injection Q as <- <- <-.
        destruct (R2 hs r m eq_refl) as (t' & body & T1 & T2 & T3 & T4).
        exists t', body. repeat split; auto. subst rest. constructor; auto.
        split.
        -- destruct rest2 as [|z rest2]; [cbn in ZL; lia|].
           destruct ET; subst t; cbn [app] in *; [left|right];
             destruct LE as [(c & q & E & W)|(c & q & E & W)]; try discriminate; injection E; intros; subst; eauto.
        -- intros a b E LA C. apply (FV a (b ++ trailer)).
           ++ rewrite (app_assoc a), <- E, <- !app_assoc. reflexivity.
           ++ exact LA.
           ++ destruct C as [(c & q & EC & W)|(c & q & EC & W)]; subst b; [left|right]; cbn [app]; eauto.
    + assert (mime_headers f [68; 13; 10] (-2) = Ok (Some None)) as X.
      { destruct f; [lia|]. reflexivity. }
      rewrite X. cbn [obind]. exists None. destruct x. split; [reflexivity|]. intros; discriminate.
    + exists None. split; [reflexivity|]. intros; discriminate.
Qed.

(** An entity is found whatever comes after the content. *)
Lemma read_header_at : forall name v t rest X, field_name name -> eol t -> rest <> [] ->
  field_value v (t ++ rest) ->
  read_mime_header ((name ++ 58 :: v ++ t ++ rest) ++ X) (zlen (name ++ 58 :: v ++ t ++ rest)) =
  Ok (Some ((name, v), rest ++ X, zlen rest)).
Proof.
  intros name v t rest X [F1 F2] ET NE [V1 V2]. unfold read_mime_header.
  rewrite (scan_name_at name (v ++ t ++ rest) X 0) by (auto; lia). cbn [app obind rd].
  change ((126 <? 58) || (58 <? 33)) with false. cbv iota.
  destruct (995 <=? zlen name) eqn:E; [lia|].
  rewrite zlen_cons'. pose proof (zlen_pos (v ++ t ++ rest)).
  destruct (1 + zlen (v ++ t ++ rest) =? 0) eqn:E1; [lia|].
  rewrite sk_blanks_colon by lia. cbn [obind rd]. change (negb (58 =? COLON)) with false. cbv iota.
  assert (S : scan_value ((58 :: v ++ t ++ rest) ++ X) (1 + zlen (v ++ t ++ rest)) =
              Ok (58 :: v, (t ++ rest) ++ X, zlen (t ++ rest))).
  { apply (scan_value_at (58 :: v) (t ++ rest) X).
    - cbn [app]. rewrite zlen_cons'. reflexivity.
    - exact V1.
    - intros a b A1 A2. destruct a as [|a0 a].
      + cbn in A1. subst b. intros [(z & q & Q & _)|(z & q & Q & _)]; discriminate.
      + cbn in A1. injection A1 as _ A1. apply (V2 a b A1). cbn in A2. lia. }
  cbn [app] in S. rewrite S. cbn [obind tl].
  destruct ET; subst t; cbn [app rd obind]; rewrite !zlen_cons'.
  - change (13 =? LF) with false. cbv iota. change (Z.to_nat 2) with 2%nat. cbn [skipn]. do 4 f_equal. lia.
  - change (10 =? LF) with true. cbv iota. change (Z.to_nat 1) with 1%nat. cbn [skipn]. do 4 f_equal. lia.
Qed.

Lemma headers_complete : forall rest hs body, entity rest hs body -> forall X fuel, (length hs < fuel)%nat ->
  exists t, eol t /\ mime_headers fuel (rest ++ X) (zlen rest) = Ok (Some (Some (hs, (t ++ body) ++ X, zlen (t ++ body)))).
Proof.
  intros rest hs body H. induction H as [t body E|name v t rest hs body F E V H IH]; intros X fuel L.
  - exists t. split; [exact E|]. destruct fuel; [cbn in L; lia|]. destruct E; subst t; reflexivity.
  - destruct fuel as [|f]; [cbn in L; lia|]. cbn [length] in L.
    destruct (IH X f) as (t' & E' & R); [lia|]. exists t'. split; [exact E'|]. cbn [mime_headers].
    assert (B : at_blank ((name ++ 58 :: v ++ t ++ rest) ++ X) = Ok false).
    { destruct name as [|c name]; [reflexivity|]. destruct F as [F _]. inversion F; subst. unfold field_char in *.
      cbn [app at_blank]. unfold LF, CR. destruct (c =? 10) eqn:E1; [lia|]. destruct (c =? 13) eqn:E2; [lia|]. reflexivity. }
    rewrite B. cbn [obind].
    rewrite (read_header_at name v t rest X F E (entity_nonempty _ _ _ H) V). cbn [obind].
    rewrite R. reflexivity.
Qed.

Lemma hs_length : forall rest hs body, entity rest hs body -> (length hs + length body < length rest)%nat.
Proof.
  intros rest hs body H. induction H as [t body E|name v t rest hs body F E V H IH].
  - destruct E; subst t; cbn; lia.
  - rewrite app_length. cbn [length]. rewrite !app_length. lia.
Qed.

Lemma entity_suffix : forall c hs body, entity c hs body -> exists h, c = h ++ body.
Proof.
  intros c hs body H. induction H as [t body E|name v t rest hs body F E V H [h IH]].
  - eauto.
  - exists (name ++ 58 :: v ++ t ++ h). rewrite IH. rewrite <- app_assoc. cbn [app]. rewrite <- !app_assoc. reflexivity.
Qed.

(** The parser finds exactly the entities; [plain] is the test of the start. *)
Definition found (r : mres) : option (list mheader * Z) :=
  match r with MPlain h => Some ([], h) | MHead hs h => Some (hs, h) | _ => None end.

Lemma outer_after : forall f size hs t body X n rest acc, eol t -> 0 < n ->
  mime_headers (S (length rest)) rest n = Ok (Some (Some (hs, (t ++ body) ++ X, zlen (t ++ body)))) ->
  mime_outer (S f) size acc rest n = Ok (MHead (acc ++ hs) (size - zlen body)).
Proof.
  intros f size hs t body X n rest acc E N H. cbn [mime_outer]. destruct (n <=? 0) eqn:E1; [lia|].
  rewrite H. cbn [obind].
  pose proof (zlen_pos body).
  destruct E; subst t; cbn [app rd obind tl]; rewrite !zlen_cons'.
  - change (13 =? LF) with false. cbv iota. destruct (1 <? 1 + (1 + zlen body)) eqn:E2; [|lia].
    change ((13 =? CR) && (10 =? LF)) with true. cbv iota. do 2 f_equal. lia.
  - change (10 =? LF) with true. cbv iota. do 2 f_equal. lia.
Qed.

Lemma parse_complete : forall c hs body X, entity c hs body -> exists r,
  mime_parse (c ++ X) (zlen c) = Ok r /\ found r = Some (hs, zlen c - zlen body).
Proof.
  intros c hs body X H. unfold mime_parse.
  pose proof (hs_length _ _ _ H) as L.
  assert (N : 0 < zlen c) by (unfold zlen; lia).
  destruct (headers_complete c hs body H X (S (length (c ++ X)))) as (t & E & R); [rewrite app_length; lia|].
  destruct ((2 <=? zlen c) && match c ++ X with a :: b :: _ => (a =? CR) && (b =? LF) | _ => false end) eqn:P1.
  - exists (MPlain 2). split; [reflexivity|].
    destruct c as [|x [|y c]]; [cbn in P1; discriminate|cbn in P1; discriminate|].
    apply andb_true_iff in P1. destruct P1 as [_ P1]. cbn [app] in P1. unfold CR, LF in P1.
    assert (x = 13 /\ y = 10) as [-> ->] by lia.
    cbn [app mime_headers at_blank] in R. change (13 =? LF) with false in R. change (13 =? CR) with true in R.
    cbv iota in R. cbn [rd obind] in R. change (10 =? LF) with true in R. cbv iota in R.
    injection R as <- R1 R2. cbn [found]. do 2 f_equal.
    destruct E; subst t; cbn [app] in *; rewrite !zlen_cons' in *; try discriminate; lia.
  - destruct ((zlen c =? 1) && match c ++ X with a :: _ => a =? LF | _ => false end) eqn:P2.
    + exists (MPlain 1). split; [reflexivity|].
      destruct c as [|x [|y c]]; [cbn in P2; discriminate| |rewrite !zlen_cons' in P2; pose proof (zlen_pos c); lia].
      apply andb_true_iff in P2. destruct P2 as [_ P2]. cbn [app] in P2. unfold LF in P2. assert (x = 10) by lia. subst x.
      cbn [app mime_headers at_blank] in R. change (10 =? LF) with true in R. cbv iota in R. cbn [rd obind] in R.
      injection R as <- R1 R2. cbn [found]. do 2 f_equal.
      destruct E; subst t; cbn [app] in *; rewrite !zlen_cons' in *; try discriminate; lia.
    + eexists. rewrite (outer_after _ _ _ _ _ _ _ _ _ E N R). split; reflexivity.
Qed.

Lemma parse_sock : forall c, exists r, mime_parse (sock_mem c) (zlen c) = Ok r /\ r <> MFuel /\
  (forall hs h, found r = Some (hs, h) -> exists body, entity c hs body /\ h = zlen c - zlen body).
Proof.
  intros c. unfold mime_parse, sock_mem.
  destruct ((2 <=? zlen c) && match c ++ trailer with a :: b :: _ => (a =? CR) && (b =? LF) | _ => false end) eqn:P1.
  - exists (MPlain 2). split; [reflexivity|]. split; [discriminate|]. intros hs h Q. injection Q as <- <-.
    destruct c as [|x [|y c]]; [cbn in P1; discriminate|cbn in P1; discriminate|].
    apply andb_true_iff in P1. destruct P1 as [_ P1]. cbn [app] in P1. unfold CR, LF in P1.
    assert (x = 13 /\ y = 10) as [-> ->] by lia.
    exists c. split; [apply (en_body [13; 10]); left; reflexivity|]. rewrite !zlen_cons'. lia.
  - destruct ((zlen c =? 1) && match c ++ trailer with a :: _ => a =? LF | _ => false end) eqn:P2.
    + exists (MPlain 1). split; [reflexivity|]. split; [discriminate|]. intros hs h Q. injection Q as <- <-.
      destruct c as [|x [|y c]]; [cbn in P2; discriminate| |rewrite !zlen_cons' in P2; pose proof (zlen_pos c); lia].
      apply andb_true_iff in P2. destruct P2 as [_ P2]. cbn [app] in P2. unfold LF in P2. assert (x = 10) by lia. subst x.
      exists []. split; [apply (en_body [10]); right; reflexivity|]. reflexivity.
    + destruct (Z_le_gt_dec (zlen c) 0) as [N|N].
      * cbn [mime_outer]. destruct (zlen c <=? 0) eqn:E; [|lia]. exists MNone. repeat split; discriminate.
      * destruct (headers_sock (S (length (c ++ trailer))) c) as (res & R1 & R2);
          [rewrite app_length; lia|rewrite app_length; cbn; lia|].
        destruct res as [[[hs r] m]|].
        -- destruct (R2 hs r m eq_refl) as (t & body & E & -> & -> & EN).
           rewrite (outer_after _ (zlen c) hs t body trailer (zlen c) (c ++ trailer) [] E) by (auto; lia).
           eexists. split; [reflexivity|]. split; [discriminate|]. intros hs' h Q. injection Q as <- <-.
           exists body. split; auto.
        -- cbn [mime_outer]. destruct (zlen c <=? 0) eqn:E; [lia|]. rewrite R1. cbn [obind].
           exists MNone. repeat split; discriminate.
Qed.

Lemma entity_det : forall c hs body hs' body', entity c hs body -> entity c hs' body' -> hs = hs' /\ body = body'.
Proof.
  intros c hs body hs' body' H H'.
  destruct (parse_complete c hs body trailer H) as (r & R & F).
  destruct (parse_complete c hs' body' trailer H') as (r' & R' & F').
  rewrite R in R'. injection R' as <-. rewrite F in F'. injection F' as <- E. split; [reflexivity|].
  destruct (entity_suffix _ _ _ H) as [h1 E1]. destruct (entity_suffix _ _ _ H') as [h2 E2].
  assert (length body = length body') by (unfold zlen in E; lia).
  rewrite E1 in E2. assert (length h1 = length h2).
  { apply (f_equal (@length Z)) in E2. rewrite !app_length in E2. lia. }
  clear -E2 H1. revert h2 E2 H1. induction h1 as [|x h1 IH]; intros [|y h2] E L; cbn in *; try lia; auto.
  injection E as -> E. eauto.
Qed.

(** * The frame *)

Lemma slice_all : forall c X, slice (c ++ X) 0 (zlen c) = c.
Proof.
  intros. unfold slice, zlen. rewrite Nat2Z.id. cbn [Z.to_nat skipn].
  rewrite firstn_app, Nat.sub_diag, firstn_all. cbn. apply app_nil_r.
Qed.
Lemma slice_tail : forall h b X, slice ((h ++ b) ++ X) (zlen h) (zlen b) = b.
Proof.
  intros. unfold slice, zlen. rewrite !Nat2Z.id. rewrite <- app_assoc.
  rewrite skipn_app, Nat.sub_diag, skipn_all. cbn [app skipn].
  rewrite firstn_app, Nat.sub_diag, firstn_all. cbn. apply app_nil_r.
Qed.

Lemma process_found : forall c hs body X, X <> [] -> entity c hs body -> exists f',
  mime_process (mf_new (c ++ X) (zlen c)) = Ok (Some (true, f')) /\
  get_content f' = c /\ get_payload f' = body /\ get_content_size f' = zlen c /\ mf_size f' = zlen body /\
  mf_content f' = true /\
  (mf_status f' = Some (ms_build hs) \/ hs = [] /\ mf_status f' = None).
Proof.
  intros c hs body X NX H. destruct (parse_complete c hs body X H) as (r & R & F).
  assert (exists x y q, c ++ X = x :: y :: q) as (x & y & q & Q).
  { pose proof (entity_nonempty _ _ _ H). destruct c as [|x [|y c]]; [contradiction| |cbn; eauto].
    destruct X as [|y X]; [contradiction|cbn; eauto]. }
  destruct (entity_suffix _ _ _ H) as [h E].
  assert (ZH : zlen c - zlen body = zlen h) by (rewrite E, zlen_app'; lia).
  rewrite ZH in F.
  unfold mime_process. cbn [mf_mem mf_size mf_new mf_status mf_off mf_hsize mf_content]. rewrite R.
  assert (rd (c ++ X) = Ok x /\ rd (tl (c ++ X)) = Ok y) as [Q1 Q2] by (rewrite Q; split; reflexivity).
  rewrite Q1, Q2. cbn [obind].
  destruct r; cbn [found] in F; try discriminate; injection F; intros; subst; eexists; (split; [reflexivity|]);
    unfold get_content, get_payload, get_content_size; cbn [mf_mem mf_size mf_off mf_hsize mf_content mf_status];
    (replace (zlen (h ++ body) - zlen h) with (zlen body) by (rewrite zlen_app'; lia));
    (replace (zlen body + zlen h) with (zlen (h ++ body)) by (rewrite zlen_app'; lia));
    rewrite slice_all, slice_tail; repeat split; auto.
Qed.

Lemma process_sock : forall c, exists ok f',
  mime_process (mf_new (sock_mem c) (zlen c)) = Ok (Some (ok, f')) /\
  get_content f' = c /\ get_content_size f' = zlen c /\
  (ok = true -> exists hs body, entity c hs body /\ get_payload f' = body) /\
  (ok = false -> (forall hs body, ~ entity c hs body) /\ get_payload f' = c /\ get_mime_header f' = fun _ => None).
Proof.
  intros c. destruct (parse_sock c) as (r & R & NF & F).
  destruct (found r) as [[hs h]|] eqn:FR.
  - destruct (F hs h eq_refl) as (body & E & _).
    destruct (process_found c hs body trailer ltac:(discriminate) E) as (f' & P & G1 & G2 & G3 & _).
    exists true, f'. repeat split; auto; try discriminate. eauto.
  - unfold mime_process. cbn [mf_mem mf_size mf_new mf_status mf_off mf_hsize mf_content]. rewrite R.
    assert (exists x y q, sock_mem c = x :: y :: q) as (x & y & q & Q) by (unfold sock_mem, trailer; destruct c as [|x [|y c]]; cbn; eauto).
    assert (rd (sock_mem c) = Ok x /\ rd (tl (sock_mem c)) = Ok y) as [Q1 Q2] by (rewrite Q; split; reflexivity).
    rewrite Q1, Q2. cbn [obind].
    destruct r; try discriminate; [|contradiction]. eexists. eexists. split; [reflexivity|].
    unfold get_content, get_payload, get_content_size; cbn [mf_mem mf_size mf_off mf_hsize mf_content mf_status].
    rewrite Z.add_0_r. unfold sock_mem. rewrite slice_all. repeat split; auto; try discriminate.
    intros hs body E. destruct (parse_complete c hs body trailer E) as (r & R' & F').
    unfold sock_mem in R. rewrite R in R'. injection R' as <-. discriminate.
Qed.

(** * Looking headers up *)

Lemma bytes_eqb_refl' : forall a, bytes_eqb a a = true.
Proof. induction a; cbn; auto. rewrite Z.eqb_refl. auto. Qed.
Lemma bytes_eqb_true : forall a b, bytes_eqb a b = true <-> a = b.
Proof.
  induction a as [|x a IH]; intros [|y b]; cbn; split; intro H; try discriminate; auto.
  - apply andb_true_iff in H. destruct H as [H1 H2]. apply IH in H2. f_equal; [lia|auto].
  - injection H as -> ->. rewrite Z.eqb_refl. apply bytes_eqb_refl'.
Qed.
Lemma same_casecmp : forall a b, same_name a b = casecmp a b.
Proof. reflexivity. Qed.
Lemma casecmp_true : forall a b, casecmp a b = true <-> map lower a = map lower b.
Proof. intros. unfold casecmp. apply bytes_eqb_true. Qed.
Lemma casecmp_l : forall a b c, casecmp a b = true -> casecmp a c = casecmp b c.
Proof. intros a b c H. apply casecmp_true in H. unfold casecmp. rewrite H. reflexivity. Qed.
Lemma casecmp_sym : forall a b, casecmp a b = casecmp b a.
Proof.
  intros. destruct (casecmp a b) eqn:E; destruct (casecmp b a) eqn:E1; auto.
  - apply casecmp_true in E. assert (casecmp b a = true) by (apply casecmp_true; auto). congruence.
  - apply casecmp_true in E1. assert (casecmp a b = true) by (apply casecmp_true; auto). congruence.
Qed.
Lemma casecmp_r : forall a b c, casecmp b c = true -> casecmp a b = casecmp a c.
Proof. intros. rewrite (casecmp_sym a b), (casecmp_sym a c). apply casecmp_l. auto. Qed.
Lemma casecmp_refl : forall a, casecmp a a = true.
Proof. intros. apply casecmp_true. reflexivity. Qed.
Lemma fast_key_same : forall a b, casecmp a b = true -> fast_key a = fast_key b.
Proof.
  intros a b H. unfold fast_key. induction fast_names as [|k l IH]; cbn; auto.
  rewrite (casecmp_l a b k H). destruct (casecmp b k); auto.
Qed.
Lemma fast_key_is : forall a k, fast_key a = Some k -> casecmp a k = true.
Proof. intros a k H. apply find_some in H. tauto. Qed.

Definition cooked (h : mheader) : mheader := (fst h, trim (cstr (snd h))).
Definition vals (hs : list mheader) (name : bytes) : list mheader := map cooked (values hs name).
Lemma vals_app : forall hs h name, vals (hs ++ [h]) name =
  vals hs name ++ (if casecmp name (fst h) then [cooked h] else []).
Proof.
  intros. unfold vals, values. rewrite filter_app, map_app. cbn [filter].
  rewrite same_casecmp. destruct (casecmp name (fst h)); reflexivity.
Qed.
Lemma vals_same : forall hs a b, casecmp a b = true -> vals hs a = vals hs b.
Proof.
  intros hs a b H. unfold vals, values. f_equal. apply filter_ext. intro h. apply casecmp_l. exact H.
Qed.

Definition chains_ok (s : mstatus) (hs : list mheader) : Prop :=
  (forall ch, In ch (ms_chains s) -> ch <> []) /\
  (forall name, find (chain_is name) (ms_chains s) = match vals hs name with [] => None | l => Some l end).
Definition fast_ok (s : mstatus) (hs : list mheader) : Prop :=
  forall name k, fast_key name = Some k ->
  fast_get (ms_fast s) k = match vals hs name with [] => None | x :: l => Some [last (x :: l) x] end.

Lemma mime_find_none : forall s hs name, chains_ok s hs -> fast_ok s hs ->
  (mime_find s name = None <-> vals hs name = []).
Proof.
  intros s hs name [_ C] F. unfold mime_find. destruct (fast_key name) as [k|] eqn:K.
  - rewrite (F name k K). destruct (vals hs name); split; auto; discriminate.
  - rewrite C. destruct (vals hs name); split; auto; discriminate.
Qed.

Lemma find_append : forall nm h l name, (forall ch, In ch l -> ch <> []) -> 
  find (chain_is name) (append_to nm h l) =
  match find (chain_is name) l with
  | Some ch => Some (if casecmp name nm then ch ++ [h] else ch)
  | None => None
  end.
Proof.
  intros nm h l name. induction l as [|ch l IH]; intros NE; [reflexivity|].
  cbn [append_to find].
  assert (ch <> []) by (apply NE; left; reflexivity). destruct ch as [|[n0 v0] ch]; [contradiction|].
  assert (NE' : forall c, In c l -> c <> []) by (intros; apply NE; right; auto).
  cbn [chain_is]. destruct (casecmp nm n0) eqn:E.
  - cbn [find app chain_is].
    rewrite <- (casecmp_r name nm n0 E). destruct (casecmp name nm) eqn:E1; [reflexivity|].
    destruct (find (chain_is name) l); reflexivity.
  - cbn [find chain_is]. destruct (casecmp name n0) eqn:E1; [|apply IH; auto].
    destruct (casecmp name nm) eqn:E2; [|reflexivity].
    rewrite (casecmp_l name nm n0 E2) in E1. congruence.
Qed.

Lemma last_snoc : forall (l : list mheader) x d, last (l ++ [x]) d = x.
Proof. induction l as [|y l IH]; intros; [reflexivity|]. cbn. destruct (l ++ [x]) eqn:E; [destruct l; discriminate|]. rewrite <- E. apply IH. Qed.

Lemma build_ok : forall hs, chains_ok (ms_build hs) hs /\ fast_ok (ms_build hs) hs.
Proof.
  induction hs as [|h hs [[C1 C2] F]] using rev_ind.
  - split; [split; [intros ch []|reflexivity]|]. intros name k K. reflexivity.
  - unfold ms_build in *. rewrite fold_left_app. cbn [fold_left].
    set (s := fold_left ms_add hs ms0) in *.
    assert (FN : mime_find s (fst h) = None <-> vals hs (fst h) = [])
      by (apply mime_find_none; [split; auto|auto]).
    unfold ms_add. change (fst h, trim (cstr (snd h))) with (cooked h).
    split; [split|].
    + cbn [ms_chains]. intros ch. destruct (mime_find s (fst h)).
      * clear -C1. induction (ms_chains s) as [|c l IH]; cbn [append_to]; [intros []|].
        destruct (chain_is (fst h) c); intros [<-|H].
        -- destruct c; discriminate.
        -- apply C1. right. exact H.
        -- apply C1. left. reflexivity.
        -- apply IH; auto. intros x I. apply C1. right. exact I.
      * intros [<-|H]; [discriminate|auto].
    + cbn [ms_chains]. intros name. rewrite vals_app. destruct (mime_find s (fst h)) eqn:M.
      * rewrite find_append by auto. rewrite C2.
        destruct (vals hs name) eqn:V.
        -- destruct (casecmp name (fst h)) eqn:E; [|reflexivity].
           exfalso. rewrite (vals_same hs _ _ E) in V. apply FN in V. discriminate.
        -- destruct (casecmp name (fst h)); [reflexivity|]. rewrite app_nil_r. reflexivity.
      * cbn [find chain_is]. unfold cooked at 1. destruct (casecmp name (fst h)) eqn:E.
        -- rewrite (vals_same hs _ _ E). rewrite (proj1 FN eq_refl). reflexivity.
        -- rewrite C2, app_nil_r. reflexivity.
    + unfold fast_ok. cbn [ms_fast]. intros name k K. rewrite vals_app.
      destruct (casecmp name (fst h)) eqn:E.
      * rewrite (fast_key_same _ _ E) in K. rewrite K. cbn [fast_get]. rewrite bytes_eqb_refl'.
        destruct (vals hs name ++ [cooked h]) eqn:V; [destruct (vals hs name); discriminate|].
        rewrite <- V, last_snoc. reflexivity.
      * rewrite app_nil_r. destruct (fast_key (fst h)) as [k'|] eqn:K'; [|apply F; auto].
        cbn [fast_get]. destruct (bytes_eqb k k') eqn:E1; [|apply F; auto].
        apply bytes_eqb_true in E1. subst k'. apply fast_key_is in K. apply fast_key_is in K'.
        rewrite (casecmp_r _ _ _ K') in E. congruence.
Qed.

Lemma lookup_ok : forall hs name, mime_find (ms_build hs) name =
  match vals hs name with
  | [] => None
  | x :: l => Some (if fast_key name then [last (x :: l) x] else x :: l)
  end.
Proof.
  intros. destruct (build_ok hs) as [[_ C] F]. unfold mime_find.
  destruct (fast_key name) as [k|] eqn:K; [rewrite (F name k K)|rewrite C]; destruct (vals hs name); reflexivity.
Qed.

(** * Trimming *)

Lemma is_blank_spec : forall c, is_blank c = true <-> blank c.
Proof. intros. unfold is_blank, blank, SP, TAB, CR, LF. lia. Qed.
Lemma cstr_no_nul : forall v, no_nul v -> cstr v = v.
Proof.
  intros v H. induction H as [|c v N H IH]; [reflexivity|]. cbn. destruct (c =? 0) eqn:E; [lia|congruence].
Qed.
Lemma drop_blanks_spec : forall v, exists a, v = a ++ drop_blanks v /\ Forall blank a /\
  (drop_blanks v = [] \/ exists c r, drop_blanks v = c :: r /\ ~ blank c).
Proof.
  induction v as [|c v (a & E & F & D)]; [exists []; cbn; auto|]. cbn [drop_blanks].
  destruct (is_blank c) eqn:B.
  - exists (c :: a). split; [cbn; congruence|]. split; [constructor; auto; apply is_blank_spec; auto|auto].
  - exists []. split; [reflexivity|]. split; [constructor|]. right. exists c, v. split; [reflexivity|].
    intro X. apply is_blank_spec in X. congruence.
Qed.

Lemma trim_spec : forall v, text_of v (trim (cstr v)).
Proof.
  intros v N. rewrite (cstr_no_nul v N). unfold trim.
  destruct (drop_blanks_spec v) as (a & E & F & D).
  destruct (drop_blanks_spec (rev (drop_blanks v))) as (z & E1 & F1 & D1).
  set (m := drop_blanks v) in *. set (w := drop_blanks (rev m)) in *.
  assert (M : m = rev w ++ rev z).
  { rewrite <- (rev_involutive m), E1, rev_app_distr. reflexivity. }
  exists a, (rev z). split; [rewrite E at 1; rewrite M; reflexivity|].
  split; [exact F|]. split; [apply Forall_rev; exact F1|].
  destruct D1 as [D1|(c & r & D1 & NB)]; [left; rewrite D1; reflexivity|]. right. split.
  - destruct D as [D|(c' & r' & D & NB')].
    + rewrite M, D1 in D. cbn in D. destruct (rev r); discriminate.
    + rewrite D1 in M. cbn in M. rewrite D in M. destruct (rev r ++ [c]) eqn:Q; [destruct (rev r); discriminate|].
      cbn in M. injection M as <- M. rewrite D1. cbn [rev]. rewrite Q. eauto.
  - exists c, (rev r). rewrite D1. split; [reflexivity|auto].
Qed.

(** * Lookup against the specification *)
Lemma usual_key : forall name, (exists k, fast_key name = Some k) <-> usual name.
Proof.
  intros. unfold usual. change usual_fields with fast_names. unfold fast_key. split.
  - intros (k & K). apply find_some in K. exists k. tauto.
  - intros (u & I & S). destruct (find (fun k => casecmp name k) fast_names) eqn:E; [eauto|].
    pose proof (find_none _ _ E u I) as X. cbn in X. rewrite same_casecmp in S. congruence.
Qed.

Lemma cooked_shows : forall l, Forall2 shows l (map cooked l).
Proof.
  induction l; constructor; auto. split; [reflexivity|]. apply trim_spec.
Qed.

Lemma last_map : forall (l : list mheader) x, last (map cooked (x :: l)) (cooked x) = cooked (last (x :: l) x).
Proof.
  intros l. assert (G : forall l x d, last (map cooked (x :: l)) (cooked d) = cooked (last (x :: l) d)).
  { clear. induction l as [|y l IH]; intros; [reflexivity|]. change (last (map cooked (y :: l)) (cooked d) = cooked (last (y :: l) d)).
    apply IH. }
  intros. apply G.
Qed.

Lemma lookup_spec : forall c hs body X, X <> [] -> entity c hs body -> exists f',
  mime_process (mf_new (c ++ X) (zlen c)) = Ok (Some (true, f')) /\
  forall name,
    (values hs name = [] -> get_mime_header f' name = None) /\
    (forall x l, values hs name = x :: l -> ~ usual name ->
       exists got, get_mime_header f' name = Some got /\ Forall2 shows (x :: l) got) /\
    (forall x l, values hs name = x :: l -> usual name ->
       exists got, get_mime_header f' name = Some [got] /\ shows (last (x :: l) x) got).
Proof.
  intros c hs body X NX H. destruct (process_found c hs body X NX H) as (f' & P & _ & _ & _ & _ & _ & S).
  exists f'. split; [exact P|]. intros name.
  assert (G : get_mime_header f' name = match vals hs name with
     | [] => None | x :: l => Some (if fast_key name then [last (x :: l) x] else x :: l) end).
  { unfold get_mime_header. destruct S as [S|[-> S]]; rewrite S; [apply lookup_ok|reflexivity]. }
  unfold vals in G. split; [|split].
  - intros E. rewrite E in G. exact G.
  - intros x l E U. rewrite E in G. cbn [map] in G. destruct (fast_key name) eqn:K.
    + exfalso. apply U. apply usual_key. eauto.
    + eexists. split; [exact G|]. apply (cooked_shows (x :: l)).
  - intros x l E U. rewrite E in G. cbn [map] in G. apply usual_key in U. destruct U as (k & K). rewrite K in G.
    change (cooked x :: map cooked l) with (map cooked (x :: l)) in G. rewrite last_map in G.
    eexists. split; [exact G|]. split; [reflexivity|apply trim_spec].
Qed.

(** The memory of a joined message. *)
Lemma process_joined : forall c hs body, entity c hs body -> exists f',
  mime_process (mf_new (join_mem c) (zlen c)) = Ok (Some (true, f')) /\
  get_content f' = c /\ get_payload f' = body /\ get_content_size f' = zlen c /\ mf_size f' = zlen body.
Proof.
  intros c hs body H. pose proof (entity_nonempty _ _ _ H) as N.
  destruct (process_found c hs body [0] ltac:(discriminate) H) as (f' & P & A & B & C & D & _).
  exists f'. destruct c; [contradiction|]. exact (conj P (conj A (conj B (conj C D)))).
Qed.
