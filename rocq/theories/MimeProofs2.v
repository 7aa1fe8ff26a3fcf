(** The content type. *)
From Coq Require Import String.
From Verif Require Import Base MimeModel MimeSpec MimeProofs.
Open Scope list_scope.

Lemma process_true_content : forall f f', mime_process f = Ok (Some (true, f')) -> mf_content f' = true.
Proof.
  intros f f'. unfold mime_process. destruct (rd (mf_mem f)); [|discriminate]. cbn [obind].
  destruct (rd (tl (mf_mem f))); [|discriminate]. cbn [obind].
  destruct (mime_parse (mf_mem f) (mf_size f)) as [[| | |]|]; cbn; intros H; try discriminate; injection H as <-; reflexivity.
Qed.
Lemma content_type_spec : forall c hs body X, X <> [] -> entity c hs body -> exists f',
  mime_process (mf_new (c ++ X) (zlen c)) = Ok (Some (true, f')) /\
  match values hs (ztext "content-type") with
  | [] => get_content_type f' = Some (ztext "application/octet-stream")
  | x :: l => exists t, get_content_type f' = Some t /\ text_of (snd (last (x :: l) x)) t
  end.
Proof.
  intros c hs body X NX H. destruct (lookup_spec c hs body X NX H) as (f' & P & L).
  exists f'. split; [exact P|]. destruct (L h_ctype) as (L1 & _ & L3).
  change (ztext "content-type") with h_ctype.
  unfold get_content_type. rewrite (process_true_content _ _ P).
  replace (match mf_status f' with Some _ => true | None => true end) with true by now destruct (mf_status f').
  destruct (values hs h_ctype) as [|x l] eqn:V.
  - rewrite (L1 eq_refl). reflexivity.
  - assert (U : usual h_ctype) by (exists h_ctype; split; [left; reflexivity|reflexivity]).
    destruct (L3 x l eq_refl U) as ([nm t] & -> & S). exists t. split; [reflexivity|]. exact (proj2 S).
Qed.
Lemma no_content_type : forall c f', mime_process (mf_new (sock_mem c) (zlen c)) = Ok (Some (false, f')) -> get_content_type f' = None.
Proof.
  intros c f'. unfold mime_process. destruct (rd _); [|discriminate]. cbn [obind].
  destruct (rd _); [|discriminate]. cbn [obind].
  destruct (mime_parse _ _) as [[| | |]|]; cbn; intros H; try discriminate; injection H as <-; reflexivity.
Qed.
