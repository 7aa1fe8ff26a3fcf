(** Inversion of the decoder: what an accepted input looks like. *)
From Verif Require Import Base CodecModel CodecSpec CodecProofs.
Ltac Zify.zify_post_hook ::= Z.div_mod_to_equations.

Lemma scan_inv s : forall ds rest, scan s = Ok (Some (ds, rest)) ->
  exists c, s = ds ++ c :: rest /\ digit_string ds /\ separator c.
Proof.
  induction s as [|c s IH]; intros ds rest H; cbn in H; [discriminate|].
  destruct (is_sep c) eqn:Es.
  - inversion H; subst. exists c. repeat split; [constructor|].
    unfold is_sep, SP, LF, CR in Es. unfold separator. lia.
  - destruct (is_digit c) eqn:Ed; [|discriminate].
    destruct (scan s) as [[(ds', rest')|]|] eqn:E; cbn in H; try discriminate.
    inversion H; subst. destruct (IH _ _ eq_refl) as (c' & -> & Hd & Hs).
    exists c'. repeat split; auto. constructor; auto. unfold is_digit in Ed. lia.
Qed.

Lemma text_nonneg_acc ds : digit_string ds -> forall a, 0 <= a ->
  0 <= fold_left (fun acc d => 10 * acc + (d - 48)) ds a.
Proof. induction 1 as [|d ds Hd _ IH]; intros a Ha; cbn [fold_left]; cbv beta in *; [lia|]. apply IH. lia. Qed.
Lemma text_nonneg ds : digit_string ds -> 0 <= text_value ds.
Proof. intros H. apply text_nonneg_acc; [exact H|lia]. Qed.

Lemma s32_as_int v : 0 <= v -> as_int v (s32 (Z.min v (two63 - 1))).
Proof.
  intros Hv. unfold as_int, s32, two31, two32, two63.
  destruct (Z.ltb_spec v 9223372036854775808).
  - rewrite Z.min_l by lia. split; [lia|]. lia.
  - rewrite Z.min_r by lia. split; [lia|]. lia.
Qed.

Lemma u32_as_uint v : 0 <= v -> as_uint v (u32 (Z.min v (two64 - 1))).
Proof.
  intros Hv. unfold as_uint, u32, two32, two64.
  destruct (Z.ltb_spec v 18446744073709551616).
  - rewrite Z.min_l by lia. reflexivity.
  - rewrite Z.min_r by lia. reflexivity.
Qed.

Lemma get_int_inv s v rest sh : get_int s = Ok (v, rest, sh) ->
  (sh = true /\ v = -1 /\ rest = s) \/
  (sh = false /\ exists ds c, s = ds ++ c :: rest /\ digit_string ds /\ separator c /\
     as_int (text_value ds) v).
Proof.
  unfold get_int. destruct (scan s) as [[(ds, r)|]|] eqn:E; cbn; intros H; inversion H; subst; auto.
  right. split; [reflexivity|]. destruct (scan_inv _ _ _ E) as (c & -> & Hd & Hs).
  exists ds, c. repeat split; auto; apply s32_as_int, text_nonneg; exact Hd.
Qed.

Lemma get_uint_inv s v rest sh : get_uint s = Ok (v, rest, sh) ->
  (sh = true /\ rest = s) \/
  (sh = false /\ exists ds c, s = ds ++ c :: rest /\ digit_string ds /\ separator c /\
     as_uint (text_value ds) v).
Proof.
  unfold get_uint. destruct (scan s) as [[(ds, r)|]|] eqn:E; cbn; intros H; inversion H; subst; auto.
  right. split; [reflexivity|]. destruct (scan_inv _ _ _ E) as (c & -> & Hd & Hs).
  exists ds, c. repeat split; auto; apply u32_as_uint, text_nonneg; exact Hd.
Qed.

Lemma snoc_inj (a b : bytes) : forall l x, l ++ [x] = a ++ b -> b <> [] ->
  exists b', b = b' ++ [x] /\ l = a ++ b'.
Proof.
  intros l x H Hb. destruct (exists_last Hb) as (b' & y & ->).
  rewrite app_assoc in H. apply app_inj_tail in H. destruct H as [-> ->].
  exists b'. auto.
Qed.

(** Header parser, data frames. *)
Lemma header_data_inv t hdr h : t <> TSEQ -> get_header_data t hdr = Ok h ->
  h_shut h = false -> 5 <= h_code h ->
  exists ch s1 msg s2 y seq s3 size s4 rest,
    hdr = ch ++ s1 :: msg ++ s2 :: h_more_char h :: y :: seq ++ s3 :: size ++ s4 :: rest /\
    digit_string ch /\ digit_string msg /\ digit_string seq /\ digit_string size /\
    separator s1 /\ separator s2 /\ separator s3 /\ separator s4 /\
    as_int (text_value ch) (h_channel h) /\ as_int (text_value msg) (h_msgno h) /\
    as_uint (text_value seq) (h_seqno h) /\ as_int (text_value size) (h_size h) /\
    (if ftype_eqb t TANS
     then exists ans s5 rest', rest = ans ++ s5 :: rest' /\ digit_string ans /\ separator s5 /\
                               as_int (text_value ans) (h_ansno h)
     else h_ansno h = 0).
Proof.
  intros Ht H Hsh Hcode. unfold get_header_data in H.
  destruct (zlen hdr =? 0); [inversion H; subst; cbn in Hcode; lia|].
  destruct (get_int (hdr ++ [NULc])) as [((ch, s1), sh1)|] eqn:E1; cbn [obind] in H; [|discriminate].
  destruct (check_int ch s1) as [c1|] eqn:C1.
  { inversion H; subst; cbn in *. exfalso.
    unfold check_int, check_index in C1. destruct (ch =? -1); [inversion C1; lia|].
    destruct ((ch =? -2) || (zlen s1 <=? 1)); inversion C1; lia. }
  assert (Hnt : forall (A : Type) (x y : A), match t with TSEQ => x | _ => y end = y).
  { intros; destruct t; try reflexivity; congruence. }
  rewrite Hnt in H. clear Hnt.
  destruct (get_int s1) as [((msg, s2), sh2)|] eqn:E2; cbn [obind] in H; [|discriminate].
  destruct (check_int msg s2) as [c2|] eqn:C2.
  { inversion H; subst; cbn in *. exfalso.
    unfold check_int, check_index in C2. destruct (msg =? -1); [inversion C2; lia|].
    destruct ((msg =? -2) || (zlen s2 <=? 1)); inversion C2; lia. }
  destruct s2 as [|mc [|y s2]]; try discriminate. cbn [hd] in H.
  destruct (get_uint s2) as [((seq, s3), sh3)|] eqn:E3; cbn [obind] in H; [|discriminate].
  destruct (get_int s3) as [((size, s4), sh4)|] eqn:E4; cbn [obind] in H; [|discriminate].
  (* channel and msgno were not errors *)
  apply get_int_inv in E1. destruct E1 as [(_ & -> & _)|(_ & dch & x1 & Hs & Dch & S1 & Ach)];
    [discriminate C1|].
  apply get_int_inv in E2. destruct E2 as [(_ & -> & _)|(_ & dmsg & x2 & -> & Dmsg & S2 & Amsg)];
    [discriminate C2|].
  assert (Hfin : exists ansno s5 sh5, h = mkH (h_code h) ch msg mc seq size ansno (sh3 || sh4 || sh5) /\
            (if ftype_eqb t TANS then get_int s4 = Ok (ansno, s5, sh5) else ansno = 0 /\ s5 = s4 /\ sh5 = false)).
  { destruct (ftype_eqb t TANS).
    - destruct (get_int s4) as [((a, s5), sh5)|] eqn:E5; cbn [obind] in H; [|discriminate].
      inversion H; subst. exists a, s5, sh5. split; reflexivity.
    - inversion H; subst. exists 0, s4, false. rewrite orb_false_r. auto. }
  destruct Hfin as (ansno & s5 & sh5 & Hh & Hans). rewrite Hh in Hsh |- *. cbn in Hsh |- *.
  assert (sh3 = false /\ sh4 = false /\ sh5 = false) as (-> & -> & ->)
    by (destruct sh3, sh4, sh5; cbn in Hsh; try discriminate; auto).
  apply get_uint_inv in E3. destruct E3 as [(F & _)|(_ & dseq & x3 & -> & Dseq & S3 & Aseq)]; [discriminate F|].
  apply get_int_inv in E4. destruct E4 as [(F & _)|(_ & dsize & x4 & -> & Dsize & S4 & Asize)]; [discriminate F|].
  (* remove the final NUL *)
  assert (Hne : s4 <> []).
  { intros ->. cbn in Hs.
    assert (Hl : last (hdr ++ [NULc]) 1 = 0) by (rewrite last_last; reflexivity).
    rewrite Hs in Hl.
    assert (Hlast : last (dch ++ x1 :: dmsg ++ x2 :: mc :: y :: dseq ++ x3 :: dsize ++ [x4]) 1 = x4).
    { replace (dch ++ x1 :: dmsg ++ x2 :: mc :: y :: dseq ++ x3 :: dsize ++ [x4])
        with ((dch ++ x1 :: dmsg ++ x2 :: mc :: y :: dseq ++ x3 :: dsize) ++ [x4])
        by (repeat (rewrite <- app_assoc; cbn [app]); reflexivity).
      apply last_last. }
    rewrite Hlast in Hl. unfold separator in S4. lia. }
  assert (Hs' : hdr ++ [NULc] = (dch ++ x1 :: dmsg ++ x2 :: mc :: y :: dseq ++ x3 :: dsize ++ [x4]) ++ s4)
    by (rewrite Hs; repeat (rewrite <- app_assoc; cbn [app]); reflexivity).
  destruct (snoc_inj _ _ _ _ Hs' Hne) as (rest & Hs4 & Hhdr).
  exists dch, x1, dmsg, x2, y, dseq, x3, dsize, x4, rest.
  split. { rewrite Hhdr. repeat (rewrite <- app_assoc; cbn [app]). reflexivity. }
  repeat (split; [assumption|]).
  destruct (ftype_eqb t TANS).
  - apply get_int_inv in Hans. destruct Hans as [(F & _)|(_ & dans & x5 & Hs5 & Dans & S5 & Aans)]; [discriminate F|].
    assert (Hne5 : s5 <> []).
    { intros ->. rewrite Hs4 in Hs5. apply app_inj_tail in Hs5. destruct Hs5 as [_ Hx].
      unfold separator, NULc in *. lia. }
    rewrite Hs4 in Hs5.
    assert (Hs5' : rest ++ [NULc] = (dans ++ [x5]) ++ s5) by (rewrite Hs5, <- app_assoc; reflexivity).
    destruct (snoc_inj _ _ _ _ Hs5' Hne5) as (rest' & _ & Hr).
    exists dans, x5, rest'. repeat split; auto.
    rewrite Hr, <- app_assoc. reflexivity.
    all: apply Aans.
  - destruct Hans as (-> & _). reflexivity.
Qed.

Lemma seq_data_inv hdr h : get_header_data TSEQ hdr = Ok h ->
  h_shut h = false -> h_code h <> -2 -> 0 <= h_channel h ->
  exists ch s1 rest,
    hdr = ch ++ s1 :: rest /\ digit_string ch /\ separator s1 /\
    as_int (text_value ch) (h_channel h).
Proof.
  intros H Hsh Hcode Hch. unfold get_header_data in H.
  destruct (zlen hdr =? 0); [inversion H; subst; cbn in *; lia|].
  destruct (get_int (hdr ++ [NULc])) as [((ch, s1), sh1)|] eqn:E1; cbn [obind] in H; [|discriminate].
  apply get_int_inv in E1. destruct E1 as [(_ & Hm1 & _)|(_ & dch & x1 & Hs & Dch & S1 & Ach)].
  { exfalso. rewrite Hm1 in H. cbn in H. inversion H; subst; cbn in *. lia. }
  assert (Hc : h_channel h = ch).
  { destruct (check_int ch s1) as [c1|]; [inversion H; reflexivity|].
    destruct (get_uint s1) as [((seq, s2), sh2)|]; cbn [obind] in H; [|discriminate].
    destruct (check_uint seq s2); [inversion H; reflexivity|].
    destruct (get_int s2) as [((size, s3), sh3)|]; cbn [obind] in H; [|discriminate].
    destruct (check_int size s3); inversion H; reflexivity. }
  assert (Hne : s1 <> []).
  { intros ->. apply app_inj_tail in Hs. destruct Hs as [_ Hx].
    unfold separator, NULc in *. lia. }
  assert (Hs' : hdr ++ [NULc] = (dch ++ [x1]) ++ s1) by (rewrite Hs, <- app_assoc; reflexivity).
  destruct (snoc_inj _ _ _ _ Hs' Hne) as (rest & Hs4 & Hhdr).
  exists dch, x1, rest. rewrite Hc.
  split. { rewrite Hhdr, <- app_assoc. reflexivity. }
  auto.
Qed.

Lemma type_of_line_inv line t : type_of_line line = Some t -> exists r, line = kw t ++ r.
Proof.
  unfold type_of_line. intros H.
  exists (skipn 3 line).
  repeat match type of H with
  | (if bytes_eqb ?a ?b then _ else _) = _ => destruct (bytes_eqb a b) eqn:E;
    [inversion H; subst; apply bytes_eqb_eq in E; rewrite <- (firstn_skipn 3 line) at 1; rewrite E; reflexivity|clear E]
  end.
  discriminate.
Qed.

Lemma skipn_kw4 t r h : skipn 4 (kw t ++ r) = h -> h <> [] -> exists x, r = x :: h.
Proof.
  intros H Hne. destruct r as [|x r].
  - rewrite app_nil_r in H. destruct t; cbn in H; congruence.
  - rewrite skipn4_kw in H. exists x. congruence.
Qed.

Lemma line_end line n :
  (n =? 1) || negb (line_at line (n - 1) =? LF) || negb (line_at line (n - 2) =? CR) = false ->
  (n = zlen line \/ n = zlen line + 1) ->
  n = zlen line /\ exists l0, line = l0 ++ [13; 10].
Proof.
  intros H Hn. apply orb_false_elim in H. destruct H as [H H2]. apply orb_false_elim in H.
  destruct H as [H0 H1]. apply negb_false_iff in H1, H2.
  unfold line_at, LF, CR, NULc in *.
  assert (Hn' : n = zlen line).
  { destruct Hn as [Hn|Hn]; [exact Hn|exfalso]. rewrite Hn in H1.
    replace (Z.to_nat (zlen line + 1 - 1)) with (length line) in H1 by (unfold zlen; lia).
    rewrite app_nth2 in H1 by lia. rewrite Nat.sub_diag in H1. cbn in H1. lia. }
  split; [exact Hn'|]. subst n.
  destruct line as [|b line] using rev_ind; [cbn in H1; lia|]. clear IHline.
  destruct line as [|a line] using rev_ind.
  { cbn in H0. lia. }
  clear IHline. exists line.
  revert H1 H2. zl.
  replace (Z.to_nat (zlen line + (1 + 0) + (1 + 0) - 1)) with (length line + 1)%nat by (unfold zlen; lia).
  replace (Z.to_nat (zlen line + (1 + 0) + (1 + 0) - 2)) with (length line + 0)%nat by (unfold zlen; lia).
  repeat rewrite <- app_assoc. rewrite !app_nth2_plus. cbn [nth app]. intros H1 H2.
  assert (b = 10) by lia. assert (a = 13) by lia. subst. reflexivity.
Qed.

(** What a header line that announces a body looks like. *)
Lemma decide_body_inv chans n line f : sane_chans chans ->
  (n = zlen line \/ n = zlen line + 1) ->
  decide_line chans n line = Ok (DBody f) ->
  n = zlen line /\ lenient_line f line /\ f_type f <> TSEQ /\ f_payload f = [] /\
  (0 <= f_size f -> edge_ok chans f).
Proof.
  intros Hsane Hn H. unfold decide_line in H.
  destruct ((n =? 1) || _ || _) eqn:El; [discriminate|].
  destruct (line_end line n El Hn) as (Hn' & l0 & Hl0).
  destruct (type_of_line line) as [t|] eqn:Et; [|discriminate].
  destruct (type_of_line_inv _ _ Et) as (r & Hr).
  destruct (get_header_data t (skipn 4 line)) as [h|] eqn:Eh; cbn [obind] in H; [|discriminate].
  destruct (h_code h =? -2); [discriminate|].
  destruct (h_shut h) eqn:Esh; cbn [orb] in H; [discriminate|].
  destruct (Z.ltb_spec (h_channel h) 0) as [|Hch]; [discriminate|].
  destruct (chans (h_channel h)) as [(consumed, window)|] eqn:Ec; [|discriminate].
  destruct (ftype_eqb t TSEQ) eqn:Ets; [discriminate|].
  assert (Ht : t <> TSEQ) by (intros ->; discriminate).
  destruct (Z.ltb_spec (h_code h) 5) as [|Hcode]; [discriminate|].
  destruct (negb (h_more_char h =? DOT) && negb (h_more_char h =? STAR)) eqn:Emc; [discriminate|].
  destruct (check_incoming_seqno (consumed, window) (h_seqno h) (h_size h)) eqn:Ew; cbn [negb] in H;
    [|discriminate].
  inversion H; subst f; clear H.
  destruct (header_data_inv t (skipn 4 line) h Ht Eh Esh Hcode)
    as (ch & s1 & msg & s2 & y & seq & s3 & size & s4 & rest & Hhdr & Dch & Dmsg & Dseq & Dsize &
        S1 & S2 & S3 & S4 & Ach & Amsg & Aseq & Asize & Aans).
  assert (Hx : exists x, r = x :: skipn 4 line).
  { apply (skipn_kw4 t r (skipn 4 line)); [rewrite Hr; reflexivity|]. rewrite Hhdr.
    destruct ch; discriminate. }
  destruct Hx as (x & Hx).
  cbn [f_type f_payload].
  split; [exact Hn'|]. split; [|split; [exact Ht|split; [reflexivity|]]].
  - exists x, ch, s1, msg, s2, (h_more_char h), y, seq, s3, size, s4, rest.
    cbn [f_type f_channel f_msgno f_seqno f_size f_more f_ansno].
    split. { rewrite Hr at 1. rewrite Hx, Hhdr. reflexivity. }
    repeat (split; [assumption|]).
    split. { unfold DOT, STAR in *. apply andb_false_iff in Emc.
             destruct (Z.eqb_spec (h_more_char h) 46) as [E|E].
             - left. rewrite E. auto.
             - right. destruct Emc as [F|F]; [discriminate F|].
               destruct (Z.eqb_spec (h_more_char h) 42); [auto|discriminate F]. }
    split; [exact Aans|]. exists l0. exact Hl0.
  - cbn [f_size]. intros Hs0. exists consumed, window. cbn [f_channel f_seqno f_size]. split; [exact Ec|].
    destruct (Hsane _ _ _ Ec) as [Hc Hw].
    unfold check_incoming_seqno in Ew.
    assert (Hsq : 0 <= h_seqno h < 4294967296).
    { unfold as_uint in Aseq. rewrite Aseq. apply Z.mod_pos_bound. lia. }
    destruct (Z.leb_spec consumed (h_seqno h)).
    + apply Z.leb_le in Ew. unfold u32, two32 in Ew.
      replace (h_seqno h + h_size h - consumed) with (h_seqno h - consumed + h_size h) by lia. exact Ew.
    + apply Z.leb_le in Ew. unfold two32 in Ew.
      replace (h_seqno h + h_size h - consumed)
        with ((4294967296 - consumed + h_seqno h + h_size h) + (-1) * 4294967296) by lia.
      rewrite Z.mod_add by lia.
      etransitivity; [apply Z.mod_le; lia|exact Ew].
Qed.

Lemma decide_seq_inv chans n line f : (n = zlen line \/ n = zlen line + 1) ->
  decide_line chans n line = Ok (DSeq f) ->
  n = zlen line /\ f_type f = TSEQ /\ lenient_seq f line /\ chans (f_channel f) <> None.
Proof.
  intros Hn H. unfold decide_line in H.
  destruct ((n =? 1) || _ || _) eqn:El; [discriminate|].
  destruct (line_end line n El Hn) as (Hn' & l0 & Hl0).
  destruct (type_of_line line) as [t|] eqn:Et; [|discriminate].
  destruct (type_of_line_inv _ _ Et) as (r & Hr).
  destruct (get_header_data t (skipn 4 line)) as [h|] eqn:Eh; cbn [obind] in H; [|discriminate].
  destruct (Z.eqb_spec (h_code h) (-2)) as [|Hcode]; [discriminate|].
  destruct (h_shut h) eqn:Esh; cbn [orb] in H; [discriminate|].
  destruct (Z.ltb_spec (h_channel h) 0) as [|Hch]; [discriminate|].
  destruct (chans (h_channel h)) as [(consumed, window)|] eqn:Ec; [|discriminate].
  destruct (ftype_eqb t TSEQ) eqn:Ets.
  2:{ destruct (h_code h <? 5); [discriminate|].
      destruct (negb (h_more_char h =? DOT) && negb (h_more_char h =? STAR)); [discriminate|].
      destruct (negb (check_incoming_seqno (consumed, window) (h_seqno h) (h_size h))); discriminate. }
  assert (t = TSEQ) by (destruct t; try discriminate; reflexivity). subst t.
  inversion H; subst f; clear H. cbn [f_type f_channel].
  split; [exact Hn'|]. split; [reflexivity|]. split; [|congruence].
  destruct (seq_data_inv _ _ Eh Esh Hcode Hch) as (ch & s1 & rest & Hhdr & Dch & S1 & Ach).
  assert (Hx : exists x, r = x :: skipn 4 line).
  { apply (skipn_kw4 TSEQ r (skipn 4 line)); [rewrite Hr; reflexivity|]. rewrite Hhdr.
    destruct ch; discriminate. }
  destruct Hx as (x & Hx).
  exists x, ch, s1, rest. cbn [f_channel].
  split; [rewrite Hr at 1; rewrite Hx, Hhdr; reflexivity|]. auto.
Qed.

(** ** Undefined behaviour of the header parser *)

Lemma scan_nul l : scan (l ++ [0]) <> UB /\
  (forall ds rest, scan (l ++ [0]) = Ok (Some (ds, rest)) -> exists r, rest = r ++ [0]).
Proof.
  induction l as [|c l [IH1 IH2]]; cbn.
  - split; [discriminate|intros; discriminate].
  - destruct (is_sep c). { split; [discriminate|]. intros ds rest H. inversion H; subst. exists l. reflexivity. }
    destruct (is_digit c); [|split; [discriminate|intros; discriminate]].
    destruct (scan (l ++ [0])) as [[(ds', r')|]|] eqn:E; cbn.
    + split; [discriminate|]. intros ds rest H. inversion H; subst. apply (IH2 ds'). reflexivity.
    + split; [discriminate|intros; discriminate].
    + congruence.
Qed.

Lemma get_int_nul l : exists v r sh, get_int (l ++ [0]) = Ok (v, r ++ [0], sh).
Proof.
  unfold get_int. destruct (scan_nul l) as [H1 H2].
  destruct (scan (l ++ [0])) as [[(ds, rest)|]|] eqn:E; cbn [obind].
  - destruct (H2 _ _ eq_refl) as (r & ->). eauto.
  - eauto.
  - congruence.
Qed.

Lemma get_uint_nul l : exists v r sh, get_uint (l ++ [0]) = Ok (v, r ++ [0], sh).
Proof.
  unfold get_uint. destruct (scan_nul l) as [H1 H2].
  destruct (scan (l ++ [0])) as [[(ds, rest)|]|] eqn:E; cbn [obind].
  - destruct (H2 _ _ eq_refl) as (r & ->). eauto.
  - eauto.
  - congruence.
Qed.

Lemma header_data_ub t hdr : get_header_data t hdr = UB ->
  t <> TSEQ /\ exists ch s1 msg s2 c, hdr = ch ++ s1 :: msg ++ [s2; c] /\
    digit_string ch /\ digit_string msg /\ separator s1 /\ separator s2.
Proof.
  intros H. unfold get_header_data in H.
  destruct (zlen hdr =? 0); [discriminate|].
  unfold NULc in *.
  destruct (get_int_nul hdr) as (ch & r1 & sh1 & E1). rewrite E1 in H. cbn [obind] in H.
  destruct (check_int ch (r1 ++ [0])) eqn:C1; [discriminate|].
  assert (Hseq : t <> TSEQ).
  { intros ->. destruct (get_uint_nul r1) as (sq & r2 & sh2 & E2). rewrite E2 in H. cbn [obind] in H.
    destruct (check_uint sq (r2 ++ [0])); [discriminate|].
    destruct (get_int_nul r2) as (sz & r3 & sh3 & E3). rewrite E3 in H. cbn [obind] in H.
    destruct (check_int sz (r3 ++ [0])); discriminate. }
  split; [exact Hseq|].
  assert (Hnt : forall (A : Type) (x y : A), match t with TSEQ => x | _ => y end = y).
  { intros; destruct t; try reflexivity; congruence. }
  rewrite Hnt in H. clear Hnt.
  destruct (get_int_nul r1) as (msg & r2 & sh2 & E2). rewrite E2 in H. cbn [obind] in H.
  destruct (check_int msg (r2 ++ [0])) eqn:C2; [discriminate|].
  assert (Hr2 : exists c, r2 = [c]).
  { destruct r2 as [|c [|c2 r2]]; cbn [app] in H.
    - unfold check_int, check_index in C2. cbn in C2. rewrite orb_true_r in C2.
      destruct (msg =? -1); discriminate.
    - eauto.
    - exfalso. destruct (get_uint_nul r2) as (sq & r3 & sh3 & E3). rewrite E3 in H. cbn [obind] in H.
      destruct (get_int_nul r3) as (sz & r4 & sh4 & E4). rewrite E4 in H. cbn [obind] in H.
      destruct (get_int_nul r4) as (an & r5 & sh5 & E5). rewrite E5 in H. cbn [obind] in H.
      destruct (ftype_eqb t TANS); discriminate. }
  destruct Hr2 as (c & ->).
  apply get_int_inv in E1. destruct E1 as [(_ & -> & _)|(_ & dch & x1 & Hs & Dch & S1 & Ach)];
    [discriminate C1|].
  apply get_int_inv in E2. destruct E2 as [(_ & -> & _)|(_ & dmsg & x2 & Hm & Dmsg & S2 & Amsg)];
    [discriminate C2|].
  exists dch, x1, dmsg, x2, c.
  split; [|auto].
  apply (app_inv_tail [0]). rewrite Hs, Hm. repeat (rewrite <- app_assoc; cbn [app]). reflexivity.
Qed.

Lemma decide_ub chans n line : decide_line chans n line = UB -> short_line line.
Proof.
  unfold decide_line. intros H.
  destruct ((n =? 1) || _ || _); [discriminate|].
  destruct (type_of_line line) as [t|] eqn:Et; [|discriminate].
  destruct (type_of_line_inv _ _ Et) as (r & Hr).
  destruct (get_header_data t (skipn 4 line)) as [h|] eqn:Eh; cbn [obind] in H.
  - exfalso. destruct (h_code h =? -2); [discriminate|].
    destruct (if h_shut h || (h_channel h <? 0) then None else chans (h_channel h)); [|discriminate].
    destruct (ftype_eqb t TSEQ); [discriminate|]. destruct (h_code h <? 5); [discriminate|].
    destruct (negb (h_more_char h =? DOT) && negb (h_more_char h =? STAR)); [discriminate|].
    destruct (negb (check_incoming_seqno c (h_seqno h) (h_size h))); discriminate.
  - destruct (header_data_ub _ _ Eh) as (_ & ch & s1 & msg & s2 & c & Hhdr & D1 & D2 & S1 & S2).
    assert (Hx : exists x, r = x :: skipn 4 line).
    { apply (skipn_kw4 t r (skipn 4 line)); [rewrite Hr; reflexivity|]. rewrite Hhdr.
      destruct ch; discriminate. }
    destruct Hx as (x & Hx).
    exists t, x, ch, s1, msg, s2, c. split; [|auto]. rewrite Hr at 1. rewrite Hx, Hhdr. reflexivity.
Qed.

Lemma lenient_huge f line : lenient_line f line ->
  f_size f < 0 \/ 2147483642 <= f_size f -> huge_line line.
Proof.
  intros HL Hsz. destruct HL as (x & ch & s1 & msg & s2 & more & y & seq & s3 & size & s4 & rest & H).
  pose proof H as (H1 & _ & _ & _ & Dsize & _ & _ & _ & _ & _ & _ & _ & _ & Asize & _).
  exists f, x, ch, s1, msg, s2, more, y, seq, s3, size, s4, rest.
  split; [exact H1|]. split.
  { exists x, ch, s1, msg, s2, more, y, seq, s3, size, s4, rest. exact H. }
  split; [exact Dsize|]. split; [exact Asize|].
  destruct Asize as [Hr Hm]. pose proof (text_nonneg _ Dsize) as Hp.
  destruct (Z.ltb_spec (text_value size) 9223372036854775808).
  - destruct (Z_lt_ge_dec (text_value size) 2147483642); [exfalso|lia].
    rewrite (Z.mod_small (text_value size)) in Hm by lia.
    destruct Hsz as [Hs|Hs].
    + rewrite <- (Z.mod_add _ 1) in Hm by lia. rewrite Z.mod_small in Hm by lia. lia.
    + rewrite Z.mod_small in Hm by lia. lia.
  - lia.
Qed.

(** ** Streams *)

Lemma cstr_no_nul a : ~ In 0 a -> cstr a = a.
Proof.
  induction a as [|c a IH]; intros H; [reflexivity|]. cbn.
  destruct (Z.eqb_spec c 0). { exfalso. apply H. left. auto. }
  rewrite IH; auto. intros Hin. apply H. right. auto.
Qed.

Lemma recv_data n s r s' : (0 < n)%nat -> recv n s = (r, s') ->
  sdata s = (match r with RData bs => bs | _ => [] end) ++ sdata s' /\
  (forall bs, r = RData bs -> 0 < zlen bs <= Z.of_nat n).
Proof.
  intros Hn. revert r s'. induction s as [|e s IH]; intros r s' H; cbn in H.
  - inversion H; subst. split; [reflexivity|]. intros; discriminate.
  - destruct e as [bs| | | |]; try (inversion H; subst; split; [reflexivity|intros; discriminate]).
    + destruct bs as [|b bs].
      * apply IH in H. exact H.
      * remember (b :: bs) as bb. destruct (Nat.leb_spec (length bb) n); inversion H; subst; cbn [sdata].
        -- split; [reflexivity|]. intros bs' E. inversion E; subst. unfold zlen in *. cbn [length] in *. lia.
        -- split. { rewrite app_assoc, firstn_skipn. reflexivity. }
           intros bs' E. inversion E; subst. unfold zlen. rewrite firstn_length. cbn [length] in *. lia.
    + apply IH in H. exact H.
Qed.

Lemma readline_loop_data room : forall first buf s r s',
  readline_loop room first buf s = (r, s') ->
  exists d, sdata s = d ++ sdata s' /\
    match r with
    | RLine n line => line = buf ++ d /\ (n = zlen line \/ n = zlen line + 1)
    | RLAgain p => p = cstr (buf ++ d)
    | _ => True
    end.
Proof.
  induction room as [|room IH]; intros first buf s r s' H; cbn [readline_loop] in H.
  - inversion H; subst. exists []. rewrite app_nil_r. auto.
  - destruct (recv 1 s) as [r1 s1] eqn:E. apply recv_data in E; [|lia]. destruct E as [E El].
    destruct r1 as [bs| | |].
    + destruct bs as [|c [|c2 bs]].
      * specialize (El _ eq_refl). cbn in El. lia.
      * cbn [hd] in H. destruct (c =? LF).
        -- inversion H; subst. exists [c]. split; [exact E|]. split; [reflexivity|].
           left. zl. lia.
        -- apply IH in H. destruct H as (d & Hd & Hr). exists (c :: d). split; [rewrite E, Hd; reflexivity|].
           destruct r; auto. all: rewrite <- app_assoc in Hr; cbn [app] in Hr; exact Hr.
      * specialize (El _ eq_refl). revert El. zl. pose proof (zlen_nonneg bs). lia.
    + inversion H; subst. exists []. rewrite app_nil_r. auto.
    + exists []. destruct first; inversion H; subst; auto. split; [exact E|]. rewrite app_nil_r. auto.
    + inversion H; subst. exists []. auto.
Qed.

(** State of the reader and the bytes [g] it took since the last frame. *)
Definition skips (sk : list bytes) : Prop :=
  Forall (fun h => exists g l, seen_as h l /\ lenient_line g l /\ f_size g < -6) sk.

Definition rinv (chans : Z -> option chwin) (c : rconn) (g : bytes) : Prop :=
  r_down c = None ->
  match r_partial c with
  | None => exists sk hdr, skips sk /\ g = concat sk ++ hdr /\ seen_as hdr (r_pending c)
  | Some (f, got) =>
    exists sk hdr line, skips sk /\ g = concat sk ++ hdr ++ got /\ seen_as hdr line /\
      lenient_line f line /\ f_type f <> TSEQ /\ (0 <= f_size f -> edge_ok chans f) /\
      -4 <= f_size f < 2147483642 /\ zlen got < f_size f + 5 /\ r_pending c = []
  end.

Lemma process_buffer_inv chans c s f body c' s' o sk hdr line g :
  zlen body = f_size f + 5 -> r_partial c = None -> r_pending c = [] -> skips sk -> seen_as hdr line -> lenient_line f line ->
  f_type f <> TSEQ -> (0 <= f_size f -> edge_ok chans f) ->
  g = concat sk ++ hdr ++ body ->
  process_buffer c s f body = Ok (c', s', o) ->
  s' = s /\
  match o with
  | Some f' => received chans f' g /\ c' = c
  | None => r_down c' <> None
  end.
Proof.
  intros Hb Hp Hpend Hsk Hseen HL Ht He Hg H. unfold process_buffer in H.
  destruct (Z.ltb_spec (f_size f) 0); [discriminate|].
  destruct (bytes_eqb _ _) eqn:Et.
  - inversion H; subst; clear H. split; [reflexivity|]. split; [|reflexivity].
    apply bytes_eqb_eq in Et.
    exists sk, hdr, line. split; [exact Hsk|]. split; [exact Hseen|].
    cbn [f_type f_payload f_size f_channel].
    assert (Hbody : body = firstn (Z.to_nat (f_size f)) body ++ [69; 78; 68; 13; 10]).
    { rewrite <- (firstn_skipn (Z.to_nat (f_size f)) body) at 1. rewrite Et. reflexivity. }
    assert (Hlen : f_size f = Z.of_nat (length (firstn (Z.to_nat (f_size f)) body))).
    { rewrite firstn_length. unfold zlen in Hb. lia. }
    destruct (f_type f) eqn:Eft; try congruence;
    (split; [rewrite <- Hbody; reflexivity|]; split; [exact Hlen|];
     split; [|destruct (He ltac:(lia)) as (cs & w & E1 & E2); exists cs, w; cbn; auto];
     destruct HL as (x & ch & s1 & msg & s2 & more & y & seq & s3 & size & s4 & rest & HL);
     exists x, ch, s1, msg, s2, more, y, seq, s3, size, s4, rest; cbn;
     rewrite Eft in HL; exact HL).
  - inversion H; subst. split; [reflexivity|]. unfold shutdown.
    destruct (r_down c) eqn:Ed; cbn; congruence.
Qed.

Lemma shutdown_down c w : r_down (shutdown c w) <> None.
Proof. unfold shutdown. destruct (r_down c) eqn:E; cbn; congruence. Qed.

Lemma get_next_inv chans c s c' s' o g : sane_chans chans -> r_down c = None -> rinv chans c g ->
  get_next chans c s = Ok (c', s', o) ->
  exists d, sdata s = d ++ sdata s' /\
    match o with
    | Some f => received chans f (g ++ d) /\ r_down c' = None /\ r_partial c' = None /\ r_pending c' = []
    | None => rinv chans c' (g ++ d)
    end.
Proof.
  intros Hsane Hup Hinv H. unfold get_next in H. rewrite Hup in H.
  specialize (Hinv Hup).
  destruct (r_partial c) as [(f, got)|] eqn:Ep.
  - destruct Hinv as (sk & hdr & line & Hsk & -> & Hseen & HL & Ht & He & Hsz & Hgot & Hpend).
    unfold continue_body in H.
    destruct (Z.leb_spec (f_size f + 5 - zlen got) 0); [lia|].
    destruct (recv (Z.to_nat (f_size f + 5 - zlen got)) s) as [r s1] eqn:E.
    apply recv_data in E; [|lia]. destruct E as [E El].
    exists (match r with RData bs => bs | _ => [] end).
    destruct r as [bs| | |].
    + specialize (El _ eq_refl). rewrite Z2Nat.id in El by lia.
      destruct (Z.eqb_spec (zlen bs) (f_size f + 5 - zlen got)).
      * eapply process_buffer_inv in H; eauto; [|cbn; zl; lia..].
        destruct H as [-> H]. split; [exact E|].
        destruct o.
        -- destruct H as [H ->]. cbn. rewrite <- !app_assoc in *. auto.
        -- intros Hd. congruence.
      * inversion H; subst; clear H. split; [exact E|]. intros _. cbn [r_partial r_pending].
        exists sk, hdr, line. repeat (split; [solve[auto]|]).
        split; [repeat rewrite <- app_assoc; reflexivity|]. repeat (split; [solve[auto]|]).
        split; [|exact Hpend]. zl. lia.
    + inversion H; subst; clear H. split; [exact E|]. intros Hd. exfalso. exact (shutdown_down _ _ Hd).
    + inversion H; subst; clear H. split; [exact E|]. intros Hd. exfalso. exact (shutdown_down _ _ Hd).
    + inversion H; subst; clear H. split; [exact E|]. intros Hd. exfalso. exact (shutdown_down _ _ Hd).
  - destruct Hinv as (sk & hdr & Hsk & -> & Hseen).
    destruct (readline c s) as [r s1] eqn:Erl. unfold readline in Erl.
    destruct (maxline <=? zlen (r_pending c)).
    { inversion Erl; subst; clear Erl. inversion H; subst; clear H. exists []. split; [reflexivity|].
      intros Hd. exfalso. exact (shutdown_down _ _ Hd). }
    apply readline_loop_data in Erl. destruct Erl as (d & Hd & Hr).
    destruct r as [n line| |p|].
    + destruct Hr as [Hline Hn]. rewrite Hline in *. clear Hline. 
      unfold process_line in H.
      destruct (decide_line chans n (r_pending c ++ d)) as [dec|] eqn:Ed; cbn [obind] in H; [|discriminate].
      assert (Hseen' : seen_as (hdr ++ d) (r_pending c ++ d)).
      { intros Hni. rewrite Hseen; [reflexivity|]. intros Hin. apply Hni, in_or_app. auto. }
      destruct dec as [w|f|f].
      * inversion H; subst; clear H. exists d. split; [exact Hd|]. intros F. exfalso. exact (shutdown_down _ _ F).
      * inversion H; subst; clear H. exists d. split; [exact Hd|]. cbn. split; [|auto].
        destruct (decide_seq_inv _ _ _ _ Hn Ed) as (_ & Eft & HL & Hc).
        exists sk, (hdr ++ d), (r_pending c ++ d). rewrite Eft.
        split; [exact Hsk|]. split; [exact Hseen'|]. split; [rewrite app_assoc; reflexivity|]. auto.
      * destruct (decide_body_inv _ _ _ _ Hsane Hn Ed) as (_ & HL & Ht & _ & He).
        unfold first_body in H. unfold two31 in H.
        destruct (Z.leb_spec 2147483648 (f_size f + 6)); [discriminate|].
        destruct (Z.ltb_spec (f_size f + 6) 0).
        { inversion H; subst; clear H. exists d. split; [exact Hd|]. intros _. cbn.
          exists (sk ++ [hdr ++ d]), []. split.
          - apply Forall_app. split; [exact Hsk|]. constructor; [|constructor].
            exists f, (r_pending c ++ d). repeat split; auto. lia.
          - split; [|intros _; reflexivity]. rewrite concat_app. cbn. repeat rewrite app_nil_r.
            rewrite app_assoc. reflexivity. }
        destruct (Z.ltb_spec (f_size f + 5) 0); [discriminate|].
        destruct (Z.eqb_spec (f_size f + 5) 0).
        { inversion H; subst; clear H. exists d. split; [exact Hd|]. intros F. exfalso. exact (shutdown_down _ _ F). }
        destruct (recv (Z.to_nat (f_size f + 5)) s1) as [r s2] eqn:E.
        apply recv_data in E; [|lia]. destruct E as [E El].
        exists (d ++ match r with RData bs => bs | _ => [] end).
        destruct r as [bs| | |].
        -- specialize (El _ eq_refl). rewrite Z2Nat.id in El by lia.
           destruct (Z.eqb_spec (zlen bs) (f_size f + 5)).
           ++ eapply (process_buffer_inv chans _ _ _ _ _ _ _ sk (hdr ++ d) (r_pending c ++ d)) in H; eauto.
              destruct H as [-> H]. split; [rewrite Hd, E, app_assoc; reflexivity|].
              repeat rewrite <- app_assoc in *.
              destruct o.
              ** destruct H as [H ->]. cbn. auto.
              ** intros F. congruence.
           ++ inversion H; subst; clear H. split; [rewrite Hd, E, app_assoc; reflexivity|].
              intros _. cbn. exists sk, (hdr ++ d), (r_pending c ++ d).
              repeat rewrite <- app_assoc.
              repeat (split; [solve[auto]|]). split; [lia|]. split; [lia|reflexivity].
        -- inversion H; subst; clear H. rewrite app_nil_r. split; [rewrite Hd, E; reflexivity|].
           intros _. cbn. exists sk, (hdr ++ d), (r_pending c ++ d).
           rewrite app_nil_r. repeat rewrite <- app_assoc.
           repeat (split; [solve[auto]|]). split; [lia|]. split; [zl; lia|reflexivity].
        -- inversion H; subst; clear H. rewrite app_nil_r. split; [rewrite Hd, E; reflexivity|].
           intros F. exfalso. exact (shutdown_down _ _ F).
        -- inversion H; subst; clear H. rewrite app_nil_r. split; [rewrite Hd, E; reflexivity|].
           intros F. exfalso. exact (shutdown_down _ _ F).
    + inversion H; subst; clear H. exists d. split; [exact Hd|]. intros F. exfalso. exact (shutdown_down _ _ F).
    + exists d.
      assert (Hseen' : seen_as (hdr ++ d) p).
      { intros Hni. rewrite Hr, Hseen.
        - apply cstr_no_nul. exact Hni.
        - intros Hin. apply Hni, in_or_app. auto. }
      destruct (25 <? r_nodata c + 1); inversion H; subst c' s' o; (split; [exact Hd|]).
      * intros F. exfalso. exact (shutdown_down _ _ F).
      * intros _. cbn. exists sk, (hdr ++ d). split; [exact Hsk|]. split; [rewrite app_assoc; reflexivity|]. exact Hseen'.
    + inversion H; subst; clear H. exists d. split; [exact Hd|]. intros F. exfalso. exact (shutdown_down _ _ F).
Qed.

Lemma fresh_inv chans c : r_partial c = None -> r_pending c = [] -> rinv chans c [].
Proof.
  intros Hp Hq _. rewrite Hp, Hq. exists [], []. repeat split; try constructor.
Qed.

Lemma rinv_chans chans chans' c g : r_partial c = None -> rinv chans c g -> rinv chans' c g.
Proof. intros Hp H Hu. specialize (H Hu). rewrite Hp in *. exact H. Qed.

Lemma read_all_inv fuel : forall chans i c s c' s' fs g,
  (forall k, sane_chans (chans k)) -> r_down c = None -> rinv (chans i) c g ->
  read_all fuel chans i c s = Ok (c', s', fs) ->
  exists raws tail,
    g ++ sdata s = concat raws ++ tail /\
    length raws = length fs /\
    (forall k f raw, nth_error fs k = Some f -> nth_error raws k = Some raw ->
                     received (chans (i + k)%nat) f raw).
Proof.
  induction fuel as [|fuel IH]; intros chans i c s c' s' fs g Hsane Hup Hinv H; cbn [read_all] in H.
  - inversion H; subst. exists [], (g ++ sdata s'). repeat split. intros k f raw F. destruct k; discriminate.
  - rewrite Hup in H. destruct s as [|e s].
    { inversion H; subst. exists [], (g ++ []). repeat split. intros k f raw F. destruct k; discriminate. }
    destruct (get_next (chans i) c (e :: s)) as [[[c1 s1] o]|] eqn:E; cbn [obind] in H; [|discriminate].
    destruct (get_next_inv _ _ _ _ _ _ _ (Hsane i) Hup Hinv E) as (d & Hd & Ho).
    destruct o as [f|].
    + destruct Ho as (Hrec & Hup1 & Hp1 & Hq1).
      destruct (read_all fuel chans (S i) c1 s1) as [[[c2 s2] fs2]|] eqn:E2; cbn [obind] in H; [|discriminate].
      inversion H; subst; clear H.
      destruct (IH _ _ _ _ _ _ _ [] Hsane Hup1 (fresh_inv _ _ Hp1 Hq1) E2) as (raws & tail & Hcat & Hlen & Hall).
      exists ((g ++ d) :: raws), tail.
      split. { rewrite Hd. cbn [concat app] in *. rewrite Hcat. repeat rewrite <- app_assoc. reflexivity. }
      split; [cbn; lia|].
      intros k f0 raw Hf Hraw. destruct k as [|k]; cbn in Hf, Hraw.
      * inversion Hf; inversion Hraw; subst. rewrite Nat.add_0_r. exact Hrec.
      * replace (i + S k)%nat with (S i + k)%nat by lia. eauto.
    + destruct (r_down c1) eqn:Hdn.
      * assert (fs = []) as ->.
        { destruct fuel; cbn in H; [inversion H; reflexivity|]. rewrite Hdn in H. inversion H; reflexivity. }
        exists [], (g ++ sdata (e :: s)). repeat split. intros k f raw F. destruct k; discriminate.
      * destruct (IH _ _ _ _ _ _ _ (g ++ d) Hsane Hdn Ho H) as (raws & tail & Hcat & Hlen & Hall).
        exists raws, tail. rewrite Hd, app_assoc. auto.
Qed.

(** ** Undefined behaviour needs a malformed header line *)

Lemma process_buffer_ub c s f body : process_buffer c s f body = UB -> f_size f < 0.
Proof.
  unfold process_buffer. destruct (Z.ltb_spec (f_size f) 0); [auto|].
  destruct (bytes_eqb _ _); discriminate.
Qed.

Lemma get_next_ub chans c s g : sane_chans chans -> rinv chans c g ->
  get_next chans c s = UB ->
  exists pre hdr post line, g ++ sdata s = pre ++ hdr ++ post /\ seen_as hdr line /\
    (short_line line \/ huge_line line).
Proof.
  intros Hsane Hinv H. unfold get_next in H.
  destruct (r_down c) eqn:Hup; [discriminate|]. specialize (Hinv Hup).
  destruct (r_partial c) as [(f, got)|] eqn:Ep.
  - destruct Hinv as (sk & hdr & line & Hsk & -> & Hseen & HL & Ht & He & Hsz & Hgot & Hpend).
    exists (concat sk), hdr, (got ++ sdata s), line.
    split; [repeat rewrite <- app_assoc; reflexivity|]. split; [exact Hseen|]. right.
    unfold continue_body in H.
    destruct (Z.leb_spec (f_size f + 5 - zlen got) 0); [lia|].
    destruct (recv (Z.to_nat (f_size f + 5 - zlen got)) s) as [r s1] eqn:E.
    destruct r; try discriminate.
    destruct (zlen bs =? f_size f + 5 - zlen got); [|discriminate].
    apply process_buffer_ub in H. eapply lenient_huge; eauto.
  - destruct Hinv as (sk & hdr & Hsk & -> & Hseen).
    destruct (readline c s) as [r s1] eqn:Erl. unfold readline in Erl.
    destruct (maxline <=? zlen (r_pending c)).
    { inversion Erl; subst; clear Erl. discriminate. }
    apply readline_loop_data in Erl. destruct Erl as (d & Hd & Hr).
    destruct r as [n line| |p|]; try discriminate.
    2:{ destruct (25 <? r_nodata c + 1); discriminate. }
    destruct Hr as [Hline Hn]. rewrite Hline in *. clear Hline.
    exists (concat sk), (hdr ++ d), (sdata s1), (r_pending c ++ d).
    split; [rewrite Hd; repeat rewrite <- app_assoc; reflexivity|].
    split. { intros Hni. rewrite Hseen; [reflexivity|]. intros Hin. apply Hni, in_or_app. auto. }
    unfold process_line in H.
    destruct (decide_line chans n (r_pending c ++ d)) as [dec|] eqn:Ed; cbn [obind] in H.
    2:{ left. eapply decide_ub. eauto. }
    right. destruct dec as [w|f|f]; try discriminate.
    destruct (decide_body_inv _ _ _ _ Hsane Hn Ed) as (_ & HL & Ht & _ & He).
    apply (lenient_huge f); [exact HL|].
    unfold first_body, two31 in H.
    destruct (Z.leb_spec 2147483648 (f_size f + 6)); [lia|].
    destruct (Z.ltb_spec (f_size f + 6) 0); [discriminate|].
    destruct (Z.ltb_spec (f_size f + 5) 0); [lia|].
    destruct (Z.eqb_spec (f_size f + 5) 0); [discriminate|].
    destruct (recv (Z.to_nat (f_size f + 5)) s1) as [r s2].
    destruct r; try discriminate.
    destruct (zlen bs =? f_size f + 5); [|discriminate].
    apply process_buffer_ub in H. lia.
Qed.

Lemma read_all_ub fuel : forall chans i c s g,
  (forall k, sane_chans (chans k)) -> r_down c = None -> rinv (chans i) c g ->
  read_all fuel chans i c s = UB ->
  exists pre hdr post line, g ++ sdata s = pre ++ hdr ++ post /\ seen_as hdr line /\
    (short_line line \/ huge_line line).
Proof.
  induction fuel as [|fuel IH]; intros chans i c s g Hsane Hup Hinv H; cbn [read_all] in H.
  - discriminate.
  - rewrite Hup in H. destruct s as [|e s]; [discriminate|].
    destruct (get_next (chans i) c (e :: s)) as [[[c1 s1] o]|] eqn:E; cbn [obind] in H.
    2:{ eapply get_next_ub; eauto. }
    destruct (get_next_inv _ _ _ _ _ _ _ (Hsane i) Hup Hinv E) as (d & Hd & Ho).
    destruct o as [f|].
    + destruct Ho as (Hrec & Hup1 & Hp1 & Hq1).
      destruct (read_all fuel chans (S i) c1 s1) as [[[c2 s2] fs2]|] eqn:E2; cbn [obind] in H; [discriminate|].
      destruct (IH _ _ _ _ [] Hsane Hup1 (fresh_inv _ _ Hp1 Hq1) E2) as (pre & hdr & post & line & Hcat & Hr).
      exists (g ++ d ++ pre), hdr, post, line. split; [|exact Hr].
      rewrite Hd. cbn [app] in Hcat. rewrite Hcat. repeat rewrite <- app_assoc. reflexivity.
    + destruct (r_down c1) eqn:Hdn.
      * exfalso. destruct fuel; cbn in H; [discriminate|]. rewrite Hdn in H. discriminate.
      * destruct (IH _ _ _ _ (g ++ d) Hsane Hdn Ho H) as (pre & hdr & post & line & Hcat & Hr).
        exists pre, hdr, post, line. split; [|exact Hr]. rewrite Hd, app_assoc. exact Hcat.
Qed.

(** ** Reading driven by readiness *)

Lemma agains_cons e s : agains (e :: s) = (match e with SAgain => 1 | _ => 0 end) + agains s.
Proof. unfold agains. destruct e; cbn [filter length]; lia. Qed.
Lemma agains_nonneg s : 0 <= agains s.
Proof. unfold agains. lia. Qed.

Lemma recv_agains n s r s' : recv n s = (r, s') ->
  agains s' <= agains s /\ (r = RAgain -> agains s' + 1 <= agains s \/ s' = []).
Proof.
  revert r s'. induction s as [|e s IH]; intros r s' H; cbn in H.
  - inversion H; subst. split; [lia|auto].
  - rewrite agains_cons. destruct e as [bs| | | |].
    + destruct bs as [|b bs]; [apply IH in H; intuition lia|].
      destruct (length (b :: bs) <=? n)%nat; inversion H; subst.
      * split; [lia|discriminate].
      * rewrite agains_cons. split; [lia|discriminate].
    + inversion H; subst. split; [lia|]. intros _. left. lia.
    + apply IH in H. intuition lia.
    + inversion H; subst. rewrite agains_cons. split; [lia|discriminate].
    + inversion H; subst. split; [lia|discriminate].
Qed.

Lemma readline_loop_agains room : forall first buf s r s',
  readline_loop room first buf s = (r, s') ->
  agains s' <= agains s /\
  (match r with RLAgain _ => agains s' + 1 <= agains s \/ s' = [] | _ => True end).
Proof.
  induction room as [|room IH]; intros first buf s r s' H; cbn [readline_loop] in H.
  - inversion H; subst. split; [lia|exact I].
  - destruct (recv 1 s) as [r1 s1] eqn:E. apply recv_agains in E. destruct E as [E1 E2].
    destruct r1 as [bs| | |].
    + destruct (hd 0 bs =? LF).
      * inversion H; subst. split; [lia|exact I].
      * apply IH in H. destruct H as [H1 H2]. split; [lia|]. destruct r; auto.
        destruct H2; [left; lia|auto].
    + inversion H; subst. auto.
    + destruct first; inversion H; subst; auto.
    + inversion H; subst. auto.
Qed.

Lemma process_buffer_conn c s f body c' s' o :
  process_buffer c s f body = Ok (c', s', o) -> s' = s /\ r_nodata c' = r_nodata c.
Proof.
  unfold process_buffer. destruct (f_size f <? 0); [discriminate|].
  destruct (bytes_eqb _ _); intros H; inversion H; subst; auto.
  split; [reflexivity|]. unfold shutdown. destruct (r_down c); reflexivity.
Qed.

Lemma shutdown_nodata c w : r_nodata (shutdown c w) = r_nodata c.
Proof. unfold shutdown. destruct (r_down c); reflexivity. Qed.

Lemma get_next_nodata chans c s c' s' o : 0 <= r_nodata c ->
  get_next chans c s = Ok (c', s', o) ->
  agains s' <= agains s /\ 0 <= r_nodata c' /\
  (r_nodata c' + agains s' <= r_nodata c + agains s \/ s' = []).
Proof.
  intros H0 H. unfold get_next in H. destruct (r_down c) eqn:Hd.
  { inversion H; subst. split; [lia|]. split; [lia|left; lia]. }
  destruct (r_partial c) as [(f, got)|].
  - unfold continue_body in H. destruct (f_size f + 5 - zlen got <=? 0).
    { inversion H; subst. split; [lia|]. split; [lia|left; lia]. }
    destruct (recv _ s) as [r s1] eqn:E. apply recv_agains in E. destruct E as [E1 E2].
    assert (r_nodata c' = r_nodata c /\ s' = s1) as [Hn ->].
    { destruct r.
      - destruct (zlen bs =? _).
        + apply process_buffer_conn in H. cbn in H. tauto.
        + inversion H; subst. auto.
      - inversion H; subst. rewrite shutdown_nodata. auto.
      - inversion H; subst. rewrite shutdown_nodata. auto.
      - inversion H; subst. rewrite shutdown_nodata. auto. }
    lia.
  - destruct (readline c s) as [r s1] eqn:E. unfold readline in E.
    assert (Hr : agains s1 <= agains s /\
      match r with RLAgain _ => agains s1 + 1 <= agains s \/ s1 = [] | _ => True end).
    { destruct (maxline <=? _); [inversion E; subst; split; [lia|exact I]|].
      eapply readline_loop_agains; eauto. }
    clear E. destruct Hr as [E1 E2]. destruct r as [n line| |p|].
    + unfold process_line in H. destruct (decide_line chans n line) as [[w|f|f]|]; cbn [obind] in H;
        try discriminate.
      * inversion H; subst. rewrite shutdown_nodata. cbn. lia.
      * inversion H; subst. cbn. lia.
      * assert (Hf : r_nodata c' = 0 /\ agains s' <= agains s1).
        { unfold first_body in H.
          destruct (two31 <=? f_size f + 6); [discriminate|].
          destruct (f_size f + 6 <? 0); [inversion H; subst; cbn; lia|].
          destruct (f_size f + 5 <? 0); [discriminate|].
          destruct (f_size f + 5 =? 0); [inversion H; subst; rewrite shutdown_nodata; cbn; lia|].
          destruct (recv _ s1) as [r s2] eqn:Er. apply recv_agains in Er. destruct Er as [Er _].
          destruct r.
          - destruct (zlen bs =? _).
            + apply process_buffer_conn in H. destruct H as [-> ->]. cbn. lia.
            + inversion H; subst. cbn. lia.
          - inversion H; subst. cbn. lia.
          - inversion H; subst. rewrite shutdown_nodata. cbn. lia.
          - inversion H; subst. rewrite shutdown_nodata. cbn. lia. }
        lia.
    + inversion H; subst. rewrite shutdown_nodata. cbn. lia.
    + destruct (25 <? r_nodata c + 1); inversion H; subst; rewrite ?shutdown_nodata; cbn [r_nodata];
        (split; [lia|]; split; [lia|]; destruct E2; [left; lia|auto]).
    + inversion H; subst. rewrite shutdown_nodata. cbn. lia.
Qed.

Lemma wait_readable_spec s : alive s ->
  alive (wait_readable s) /\ sdata (wait_readable s) = sdata s /\
  (weight (wait_readable s) <= weight s)%nat /\ agains (wait_readable s) <= agains s /\
  (wait_readable s = [] \/ data_first (wait_readable s)).
Proof.
  induction s as [|e s IH]; intros Ha.
  - cbn. repeat split; auto; lia.
  - inversion Ha as [|x xs He Hs]; subst. destruct e as [[|b bs]| | | |]; try contradiction.
    + cbn [wait_readable sdata weight app]. rewrite agains_cons. destruct (IH Hs) as (A & B & C & D & E).
      cbn [length]. repeat split; auto; lia.
    + cbn [wait_readable]. split; [exact Ha|]. split; [reflexivity|]. split; [lia|]. split; [lia|]. right. exact I.
    + cbn [wait_readable sdata weight]. rewrite agains_cons. destruct (IH Hs) as (A & B & C & D & E).
      repeat split; auto; lia.
    + cbn [wait_readable sdata weight]. rewrite agains_cons. destruct (IH Hs) as (A & B & C & D & E).
      repeat split; auto; lia.
Qed.

Lemma inv_sock c s s2 fr : inv c s fr -> alive s2 -> sdata s2 = sdata s -> inv c s2 fr.
Proof.
  intros (Hd & Ha & Hf & Hst) Ha2 Hs2. unfold inv. rewrite Hs2. auto.
Qed.

Lemma inv_done c fr : inv c [] fr -> fr = [].
Proof.
  intros (Hd & Ha & Hfo & Hst). destruct (r_partial c) as [(f0, got)|].
  + destruct Hst as (_ & f & l & b & fr' & -> & _ & _ & _ & Heq & Hlt).
    exfalso. cbn [sdata] in Heq. rewrite app_nil_r in Heq. subst got. rewrite app_length in Hlt. lia.
  + destruct Hst as (Heq & Hl). destruct fr as [|(f, (l, b)) fr']; [reflexivity|exfalso].
    cbn [sdata flat] in Heq. rewrite app_nil_r in Heq. rewrite Heq, app_length in Hl. lia.
Qed.

Lemma read_ready_stream fuel : forall chans i c s fr,
  inv c s fr -> (weight s <= fuel)%nat -> 0 <= r_nodata c ->
  (forall k f lb, nth_error fr k = Some (f, lb) -> receivable (chans (i + k)%nat) f) ->
  exists c' s' out, read_ready fuel chans i c s = Ok (c', s', out) /\
    ((r_down c' = None /\ out = map fst fr) \/
     (r_down c' = Some WTooManyAgain /\ exists rest, map fst fr = out ++ rest)) /\
    (r_nodata c + agains s < 25 \/ s = [] -> r_down c' = None).
Proof.
  induction fuel as [|fuel IH]; intros chans i c s fr Hinv Hw Hn0 Hrecv.
  - assert (s = []) by (destruct s as [|[]]; cbn in Hw; [reflexivity|lia..]). subst s.
    rewrite (inv_done _ _ Hinv). exists c, [], []. split; [reflexivity|].
    destruct Hinv as (Hd & _). split; [left; auto|auto].
  - cbn [read_ready]. pose proof Hinv as (Hd & Ha & _). rewrite Hd.
    destruct (wait_readable_spec s Ha) as (Ha2 & Hs2 & Hw2 & Hag2 & Hdf).
    pose proof (inv_sock _ _ _ _ Hinv Ha2 Hs2) as Hinv2.
    destruct (wait_readable s) as [|e s0] eqn:Ews.
    { rewrite (inv_done _ _ Hinv2). exists c, [], []. split; [reflexivity|]. split; [left; auto|auto]. }
    destruct Hdf as [Hdf|Hdf]; [discriminate|].
    destruct (get_next_step (chans i) c (e :: s0) fr Hinv2 ltac:(discriminate))
      as (c' & s' & o & He & (Hwlt & Hna & Hcase)).
    { destruct fr as [|(f, lb) fr']; [exact I|]. intros _.
      specialize (Hrecv 0%nat f lb eq_refl). rewrite Nat.add_0_r in Hrecv. exact Hrecv. }
    rewrite He. cbn [obind].
    destruct (get_next_nodata _ _ _ _ _ _ Hn0 He) as (Hag & Hn0' & Hacc).
    assert (Hgood : r_nodata c + agains s < 25 \/ s = [] -> r_nodata c' + agains s' < 25 \/ s' = []).
    { intros [G|G]; [|subst s; discriminate Ews]. destruct Hacc; [left; lia|auto]. }
    destruct Hcase as [(-> & Hi & Hnd)|[(f & lb & fr' & -> & -> & Hi & Hnd)|(-> & (w & Hdn & Hfe & Hf1 & Hf2) & Hnd)]].
    * destruct (IH chans i c' s' fr Hi ltac:(lia) Hn0' Hrecv) as (c2 & s2 & out & He2 & Hres & Hn2).
      exists c2, s2, out. split; [exact He2|]. split; [exact Hres|auto].
    * destruct (IH chans (S i) c' s' fr' Hi ltac:(lia) Hn0') as (c2 & s2 & out & He2 & Hres & Hn2).
      { intros k f2 lb2 Hk. specialize (Hrecv (S k) f2 lb2 Hk).
        replace (S i + k)%nat with (i + S k)%nat by lia. exact Hrecv. }
      exists c2, s2, (f :: out). rewrite He2. cbn [obind]. split; [reflexivity|].
      split; [|auto].
      destruct Hres as [(H1 & ->)|(H1 & rest & H2)].
      + left. auto.
      + right. split; [exact H1|]. exists rest. cbn. rewrite H2. reflexivity.
    * assert (w = WTooManyAgain) as -> by (destruct Hfe as [|E]; [assumption|exfalso; exact (Hf2 E Hdf)]).
      exists c', s', []. split.
      { destruct fuel; cbn [read_ready]; [reflexivity|]. rewrite Hdn. reflexivity. }
      split.
      + right. split; [exact Hdn|]. exists (map fst fr). reflexivity.
      + intros [G|G]; [|subst s; discriminate Ews]. specialize (Hf1 eq_refl).
        pose proof (agains_nonneg s). lia.
Qed.

Lemma stream_ready fs ws s chans :
  Forall2 wire fs ws -> alive s -> sdata s = concat ws ->
  (forall k f, nth_error fs k = Some f -> receivable (chans k) f) ->
  exists c' s' out, read_ready (weight s) chans 0 rconn0 s = Ok (c', s', out) /\
    ((r_down c' = None /\ out = fs) \/
     (r_down c' = Some WTooManyAgain /\ exists rest, fs = out ++ rest)) /\
    (agains s < 25 -> r_down c' = None).
Proof.
  intros Hw Ha Hs Hrecv. destruct (wires_todo fs ws Hw) as (fr & Hfo & Hmap & Hflat).
  assert (Hinv : inv rconn0 s fr).
  { apply inv_boundary; auto. congruence. }
  destruct (read_ready_stream (weight s) chans 0 rconn0 s fr Hinv (le_n _) ltac:(cbn; lia))
    as (c' & s' & out & He & Hres & Hn).
  { intros k f lb Hk. apply Hrecv. rewrite <- Hmap. erewrite map_nth_error by exact Hk. reflexivity. }
  rewrite Hmap in Hres.
  exists c', s', out. split; [exact He|]. split; [exact Hres|]. intros H. apply Hn. left. cbn. lia.
Qed.

(** ** Round trips *)

Lemma sdata_frag frag : sdata (map SData frag) = concat frag.
Proof. induction frag as [|b frag IH]; cbn; [reflexivity|]. rewrite IH. reflexivity. Qed.
Lemma alive_frag frag : alive (map SData frag).
Proof. induction frag; constructor; auto. Qed.
Lemma never_again_frag frag : never_again (map SData frag).
Proof. induction frag; constructor; auto. Qed.

Lemma stream_frag fs ws frag chans :
  Forall2 wire fs ws -> concat frag = concat ws ->
  (forall k f, nth_error fs k = Some f -> receivable (chans k) f) ->
  exists c', read_all (weight (map SData frag)) chans 0 rconn0 (map SData frag) = Ok (c', [], fs) /\
    r_down c' = None.
Proof.
  intros Hw Hc Hr.
  destruct (stream_any_fragmentation fs ws (map SData frag) chans Hw (alive_frag _))
    as (c' & s' & out & He & Hcase & Hn); auto.
  { rewrite sdata_frag. exact Hc. }
  specialize (Hn (never_again_frag _)).
  destruct Hcase as [(H1 & -> & ->)|([H|H] & _)]; [|congruence|congruence].
  exists c'. auto.
Qed.

Lemma frame_round_trip cap t ch msg more seqno ans payload chans :
  t <> TSEQ ->
  0 <= ch < 2147483648 -> 0 <= msg < 2147483648 -> 0 <= seqno < 4294967296 ->
  (if ftype_eqb t TANS then 0 <= ans < 2147483648 else ans = 0) ->
  zlen payload + 6 < 2147483648 -> zlen payload + 68 <= cap ->
  let f := mkFrame t ch msg more seqno (zlen payload) ans payload in
  receivable chans f ->
  exists w, build_frame cap t ch msg more seqno ans payload = Ok (Some w) /\
    data_wire f w /\
    forall frag, concat frag = w ->
      exists c', read_all (weight (map SData frag)) (fun _ => chans) 0 rconn0 (map SData frag)
                 = Ok (c', [], [f]) /\ r_down c' = None.
Proof.
  intros Ht Hch Hmsg Hseq Hans Hp Hcap f Hrec.
  destruct (build_frame_wire cap t ch msg more seqno ans payload Ht Hch Hmsg Hseq Hans Hp Hcap)
    as (w & Hb & Hw & _).
  exists w. split; [exact Hb|]. split; [exact Hw|]. intros frag Hfrag.
  apply (stream_frag [f] [w]).
  - constructor; [|constructor]. left. split; [|exact Hw].
    unfold data_frame, f; cbn. repeat (split; [solve[auto|lia]|]). exact Hans.
  - rewrite Hfrag. cbn. rewrite app_nil_r. reflexivity.
  - intros [|[|k]] g Hg; inversion Hg; subst. exact Hrec.
Qed.

Lemma seq_round_trip cap ch ack win chans :
  0 <= ch < 2147483648 -> 0 <= ack < 4294967294 -> 0 <= win < 2147483648 -> 50 <= cap ->
  receivable chans (seq_frame ch ack win) ->
  exists w, build_seq cap ch ack win = Ok (Some w) /\ seq_wire ch ack win w /\
    forall frag, concat frag = w ->
      exists c', read_all (weight (map SData frag)) (fun _ => chans) 0 rconn0 (map SData frag)
                 = Ok (c', [], [seq_frame ch ack win]) /\ r_down c' = None.
Proof.
  intros Hch Hack Hwin Hcap Hrec.
  destruct (build_seq_wire cap ch ack win) as (w & Hb & Hw); unfold two32; try lia.
  exists w. split; [exact Hb|]. split; [exact Hw|]. intros frag Hfrag.
  apply (stream_frag [seq_frame ch ack win] [w]).
  - constructor; [|constructor]. right. exists ch, ack, win. auto.
  - rewrite Hfrag. cbn. rewrite app_nil_r. reflexivity.
  - intros [|[|k]] g Hg; inversion Hg; subst. exact Hrec.
Qed.

Lemma received_stream fuel chans s c' s' fs :
  (forall k, sane_chans (chans k)) ->
  read_all fuel chans 0 rconn0 s = Ok (c', s', fs) ->
  exists raws tail, sdata s = concat raws ++ tail /\ length raws = length fs /\
    forall k f raw, nth_error fs k = Some f -> nth_error raws k = Some raw -> received (chans k) f raw.
Proof.
  intros Hs H.
  destruct (read_all_inv fuel chans 0 rconn0 s c' s' fs [] Hs eq_refl (fresh_inv _ rconn0 eq_refl eq_refl) H)
    as (raws & tail & H1 & H2 & H3).
  exists raws, tail. auto.
Qed.

Lemma ub_stream fuel chans s :
  (forall k, sane_chans (chans k)) -> read_all fuel chans 0 rconn0 s = UB ->
  exists pre hdr post line, sdata s = pre ++ hdr ++ post /\ seen_as hdr line /\
    (short_line line \/ huge_line line).
Proof.
  intros Hs H.
  exact (read_all_ub fuel chans 0 rconn0 s [] Hs eq_refl (fresh_inv _ rconn0 eq_refl eq_refl) H).
Qed.
