(** Lemmas about the frames of the greetings, the cache and the loop that waits. *)
From Coq Require Import String Ascii.
From Verif Require Import Base CodecModel FlowModel MimeModel MimeSpec MimeProofs ReassemblyModel ReassemblySpec ReassemblyProofs
  HeadModel HeadSpec HeadProofs HeadProofs4 GreetModel GreetSpec GreetProofs.
Local Open Scope list_scope.

Lemma head_lead : mime_head = lead beep_xml. Proof. reflexivity. Qed.
Lemma content_linked : forall t, content true (Some beep_xml) (Some t_binary) t = Ok (content_of t).
Proof. intros t. rewrite content_plain by reflexivity. reflexivity. Qed.
Lemma beep_plain : plain beep_xml.
Proof. split; [discriminate|]. apply Forall_forall. intros c H. cbn in H. repeat (destruct H as [<-|H]; [lia|]). contradiction. Qed.
Lemma content_entity : forall t, entity (content_of t) beep_fields t.
Proof. intros t. exact (lead_entity beep_xml t beep_plain). Qed.

(** What the frames received so far make. *)
Definition sofar (a : Z) (c : bytes) (X : bytes) : gframe := mkG TRPY 0 a true 0 (mf_new (c ++ X) (zlen c)).
Lemma window_ok : forall a more (c p : bytes), zlen c + zlen p <= 4096 -> in_window (mkW TRPY 0 a more (zlen c) p) = true.
Proof.
  intros a more c p H. unfold in_window. cbn [w_type w_seqno w_content rw_consumed rw_window rwin0]. unfold check_incoming_seqno.
  pose proof (zlen_pos c). pose proof (zlen_pos p). replace (0 <=? zlen c) with true by (symmetry; apply Z.leb_le; lia).
  apply Z.leb_le. unfold u32. rewrite Z.mod_small by (unfold two32; lia). lia.
Qed.
Lemma window_no : forall a more (c p : bytes), zlen c <= 4096 -> zlen p < two31 -> 4096 < zlen c + zlen p -> in_window (mkW TRPY 0 a more (zlen c) p) = false.
Proof.
  intros a more c p H P Q. unfold in_window. cbn [w_type w_seqno w_content rw_consumed rw_window rwin0]. unfold check_incoming_seqno.
  pose proof (zlen_pos c). pose proof (zlen_pos p). replace (0 <=? zlen c) with true by (symmetry; apply Z.leb_le; lia).
  apply Z.leb_gt. unfold u32. rewrite Z.mod_small by (unfold two32, two31 in *; lia). lia.
Qed.
Lemma payload_new : forall c X, get_payload (mf_new (c ++ X) (zlen c)) = c.
Proof. intros. unfold get_payload. cbn [mf_mem mf_off mf_size mf_new]. apply slice_all. Qed.
Lemma join_next : forall a c X more p, zlen c <= 4096 -> GreetModel.join (sofar a c X) (received (mkW TRPY 0 a more (zlen c) p)) =
  Some (mkG TRPY 0 a more 0 (mf_new ((c ++ p) ++ [0]) (zlen (c ++ p)))).
Proof.
  intros a c X more p H. pose proof (zlen_pos c). unfold GreetModel.join, are_joinable, sofar, received. cbn [g_type g_more g_msgno g_ansno g_seqno g_mf w_type w_msgno w_ansno w_more w_seqno w_content].
  cbn [ftype_eqb negb andb]. rewrite !Z.eqb_refl. cbn [negb mf_new mf_size mf_hsize].
  replace (u32 (0 + zlen c + 0) =? zlen c) with true. 2:{ symmetry. apply Z.eqb_eq. unfold u32. rewrite Z.mod_small; unfold two32; lia. }
  f_equal. f_equal. fold (mf_new (c ++ X) (zlen c)). fold (mf_new (sock_mem p) (zlen p)). unfold sock_mem. rewrite !payload_new, zlen_app', app_assoc. reflexivity.
Qed.
(** The state after some fragments. *)
Definition after (a : Z) (c : bytes) (s : gst) : Prop := s = gs0 /\ c = [] \/ exists X, X <> [] /\ s = mkGS (Some (sofar a c X)) true.
Lemma after_up : forall a c s, after a c s -> gs_up s = true.
Proof. intros a c s [[-> _]|(X & _ & ->)]; reflexivity. Qed.
Lemma frame_made : forall a c s more p, after a c s -> zlen c <= 4096 -> exists X, X <> [] /\
  (match gs_pending s with None => Some (received (mkW TRPY 0 a more (zlen c) p)) | Some q => GreetModel.join q (received (mkW TRPY 0 a more (zlen c) p)) end) =
  Some (mkG TRPY 0 a more 0 (mf_new ((c ++ p) ++ X) (zlen (c ++ p)))).
Proof.
  intros a c s more p [[-> ->]|(X & NX & ->)] H.
  - exists trailer. split; [discriminate|]. reflexivity.
  - exists [0]. split; [discriminate|]. cbn [gs_pending]. now rewrite join_next by exact H.
Qed.
Lemma step_more : forall r a c s p, after a c s -> zlen c + zlen p <= 4096 -> exists s',
  greet_frame r s (mkW TRPY 0 a true (zlen c) p) = Ok (Some (s', VWait)) /\ after a (c ++ p) s'.
Proof.
  intros r a c s p A H. pose proof (zlen_pos p). destruct (frame_made a c s true p A) as (X & NX & E); [lia|]. unfold greet_frame.
  rewrite (after_up _ _ _ A), (window_ok a true c p H). cbn [negb]. cbv zeta. rewrite E. cbn [g_more]. eexists. split; [reflexivity|]. right. eauto.
Qed.
Lemma step_last : forall r a c s p body, after a c s -> zlen c + zlen p <= 4096 -> entity (c ++ p) beep_fields body ->
  greet_frame r s (mkW TRPY 0 a false (zlen c) p) = Ok (Some (gs0, VGreetings body)).
Proof.
  intros r a c s p body A H EN. pose proof (zlen_pos p). destruct (frame_made a c s false p A) as (X & NX & E); [lia|]. unfold greet_frame.
  rewrite (after_up _ _ _ A), (window_ok a false c p H). cbn [negb]. cbv zeta. rewrite E. cbn [g_more]. unfold complete. cbn [g_type g_mf].
  destruct (type_of_fields beep_xml body (c ++ p) X NX beep_plain EN) as (f & F & P & T). rewrite F. cbn [obind].
  unfold is_reply_ok, g_set. cbn [g_type g_msgno g_seqno g_mf]. rewrite T. cbn [Z.eqb negb orb].
  replace (bytes_eqb beep_xml (asc "application/beep+xml")) with true by (vm_compute; reflexivity). rewrite P. reflexivity.
Qed.
Lemma step_over : forall r a c s more p, after a c s -> zlen c <= 4096 -> zlen p < two31 -> 4096 < zlen c + zlen p -> exists s',
  greet_frame r s (mkW TRPY 0 a more (zlen c) p) = Ok (Some (s', VClosed)).
Proof.
  intros r a c s more p A C P H. unfold greet_frame. rewrite (after_up _ _ _ A), (window_no a more c p C P H). cbn [negb]. eauto.
Qed.
Definition frames_from (a k : Z) (ps : list bytes) : list wframe := map (fun x : bool * Z * bytes => let '(more, seq, c) := x in mkW TRPY 0 a more seq c) (cut k ps).
Lemma received_run : forall r a ps c s body, ps <> [] -> after a c s -> zlen (c ++ concat ps) <= 4096 -> entity (c ++ concat ps) beep_fields body ->
  forall rest, greet r s (frames_from a (zlen c) ps ++ rest) = Ok (Some (gs0, VGreetings body)).
Proof.
  intros r a. induction ps as [|p ps IH]; intros c s body NE A Z0 EN rest; [contradiction|].
  cbn [concat] in *. rewrite !zlen_app' in Z0. pose proof (zlen_pos c). pose proof (zlen_pos p). pose proof (zlen_pos (concat ps)).
  unfold frames_from. cbn [cut map app greet]. destruct ps as [|q ps].
  - cbn [concat] in EN. rewrite app_nil_r in EN. rewrite (step_last r a c s p body A) by (auto; lia). reflexivity.
  - destruct (step_more r a c s p A) as (s' & E & A'); [lia|]. rewrite E. cbn [obind].
    replace ((zlen c + zlen p) mod two32) with (zlen (c ++ p)) by (rewrite zlen_app'; symmetry; apply Z.mod_small; unfold two32; lia).
    apply IH; [discriminate|exact A'| |]; rewrite <- app_assoc; [rewrite !zlen_app'; lia|exact EN].
Qed.
Lemma over_run : forall r a ps c s, after a c s -> zlen c <= 4096 -> Forall (fun p => zlen p < two31) ps -> 4096 < zlen (c ++ concat ps) ->
  forall rest, exists s', greet r s (frames_from a (zlen c) ps ++ rest) = Ok (Some (s', VClosed)).
Proof.
  intros r a. induction ps as [|p ps IH]; intros c s A C P Z0 rest.
  - cbn [concat] in Z0. rewrite app_nil_r in Z0. lia.
  - cbn [concat] in *. rewrite !zlen_app' in Z0. inversion P as [|? ? Hp Hps]; subst. pose proof (zlen_pos p). pose proof (zlen_pos c).
    unfold frames_from. cbn [cut map app greet]. destruct (Z_le_gt_dec (zlen c + zlen p) 4096) as [G|G].
    + destruct ps as [|q ps]; [cbn in Z0; change (zlen (@nil Z)) with 0 in Z0; lia|]. destruct (step_more r a c s p A G) as (s' & E & A'). rewrite E. cbn [obind].
      replace ((zlen c + zlen p) mod two32) with (zlen (c ++ p)) by (rewrite zlen_app'; symmetry; apply Z.mod_small; unfold two32; lia).
      apply IH; [exact A'|rewrite zlen_app'; lia|exact Hps|]. rewrite <- app_assoc, !zlen_app'. lia.
    + destruct (step_over r a c s (match ps with [] => false | _ => true end) p A C Hp) as (s' & E); [lia|]. rewrite E. cbn [obind]. eauto.
Qed.
Lemma received_thm : forall r a ps rest body, ps <> [] -> entity (concat ps) beep_fields body -> zlen (concat ps) <= 4096 ->
  greet r gs0 (reply_frames a ps ++ rest) = Ok (Some (gs0, VGreetings body)).
Proof. intros r a ps rest body NE EN Z0. apply (received_run r a ps [] gs0 body NE); auto. now left. Qed.
Lemma over_thm : forall r a ps rest, Forall (fun p => zlen p < two31) ps -> 4096 < zlen (concat ps) ->
  exists s, greet r gs0 (reply_frames a ps ++ rest) = Ok (Some (s, VClosed)).
Proof. intros r a ps rest P Z0. apply (over_run r a ps [] gs0); auto; [now left|]. change (zlen (@nil Z)) with 0. lia. Qed.

(** * Only a whole reply is taken *)

(** Fragments: same type, numbers, each where the one before ends. *)
Inductive frags (t : ftype) (m a q : Z) : list wframe -> bytes -> Prop :=
| fr_one : forall c, frags t m a q [mkW t m a true q c] c
| fr_more : forall ws c p, frags t m a q ws c -> frags t m a q (ws ++ [mkW t m a true ((q + zlen c) mod two32) p]) (c ++ p).
Definition held (s : gst) (ws : list wframe) : Prop :=
  match gs_pending s with
  | None => ws = []
  | Some g => exists t m a q c X, X <> [] /\ g = mkG t m a true q (mf_new (c ++ X) (zlen c)) /\ frags t m a q ws c
  end.
Lemma joined : forall g w j t m a q c X, g = mkG t m a true q (mf_new (c ++ X) (zlen c)) -> GreetModel.join g (received w) = Some j ->
  w = mkW t m a (w_more w) ((q + zlen c) mod two32) (w_content w) /\ j = mkG t m a (w_more w) q (mf_new ((c ++ w_content w) ++ [0]) (zlen (c ++ w_content w))).
Proof.
  intros g [t' m' a' mr sq p] j t m a q c X -> J. cbn [w_more w_content]. unfold GreetModel.join in J. destruct (are_joinable _ _) eqn:AJ; [|discriminate].
  unfold are_joinable, received in AJ. cbn [g_type g_more g_msgno g_ansno g_seqno g_mf w_type w_msgno w_ansno w_more w_seqno w_content mf_new mf_size mf_hsize negb andb] in AJ.
  destruct (ftype_eqb t t') eqn:T; [|discriminate]. apply ftype_eqb_true in T. subst t'. cbn [negb] in AJ.
  destruct (m =? m') eqn:M; [|discriminate]. apply Z.eqb_eq in M. subst m'. cbn [negb] in AJ.
  destruct (a =? a') eqn:A; [|discriminate]. apply Z.eqb_eq in A. subst a'. cbn [negb] in AJ. apply Z.eqb_eq in AJ. unfold u32 in AJ. rewrite Z.add_0_r in AJ. rewrite AJ.
  split; [reflexivity|]. injection J as <-. cbn [received g_type g_msgno g_ansno g_more g_seqno g_mf w_more w_content andb mf_size mf_new]. f_equal.
  fold (mf_new (c ++ X) (zlen c)). fold (mf_new (sock_mem p) (zlen p)). unfold sock_mem. rewrite !payload_new, zlen_app', app_assoc. reflexivity.
Qed.
(** A whole reply: its last frame announces no more. *)
Definition whole_reply (ws : list wframe) (c : bytes) : Prop :=
  (exists a, ws = [mkW TRPY 0 a false 0 c]) \/
  (exists a fs c0 p, c = c0 ++ p /\ frags TRPY 0 a 0 fs c0 /\ ws = fs ++ [mkW TRPY 0 a false (zlen c0 mod two32) p]).
Lemma reply_ok_inv : forall g p, is_reply_ok g = VGreetings p -> g_type g = TRPY /\ g_msgno g = 0 /\ g_seqno g = 0 /\ get_content_type (g_mf g) = Some (asc "application/beep+xml") /\ p = get_payload (g_mf g).
Proof.
  intros g p H. unfold is_reply_ok in H. destruct (g_type g); try discriminate.
  destruct (g_msgno g =? 0) eqn:A; [|discriminate]. destruct (g_seqno g =? 0) eqn:B; [|discriminate]. cbn [negb orb] in H.
  destruct (get_content_type (g_mf g)) as [t|]; [|discriminate]. destruct (bytes_eqb t _) eqn:C; [|discriminate]. apply bytes_eqb_true in C. subst t.
  injection H as <-. apply Z.eqb_eq in A, B. auto.
Qed.
Lemma reply_no_wait : forall g, is_reply_ok g <> VWait.
Proof. intros g. unfold is_reply_ok. destruct (g_type g); try discriminate. destruct (_ || _); [discriminate|]. destruct (get_content_type _) as [t|]; [destruct (bytes_eqb _ _)|]; discriminate. Qed.
Lemma complete_no_wait : forall g, complete g <> Ok (Some VWait).
Proof.
  intros g H. assert (K : forall x, (let! r := mime_process (g_mf g) in match r with None => Ok None | Some (_, m) => Ok (Some (is_reply_ok (g_set g m))) end) = x -> x <> Ok (Some VWait)).
  { intros x <-. destruct (mime_process (g_mf g)) as [[[ok f]|]|]; cbn [obind]; try discriminate. intros Q. injection Q as Q. exact (reply_no_wait _ Q). }
  unfold complete in H. destruct (g_type g); try (exact (K _ eq_refl H)). injection H as H. exact (reply_no_wait _ H).
Qed.
Definition body_of (c p : bytes) : Prop := forall hs body, entity c hs body -> p = body.
Lemma complete_inv : forall t m a q c X p, X <> [] -> complete (mkG t m a false q (mf_new (c ++ X) (zlen c))) = Ok (Some (VGreetings p)) -> t = TRPY /\ m = 0 /\ q = 0 /\ body_of c p.
Proof.
  intros t m a q c X p NX H. unfold complete in H. cbn [g_type g_mf] in H.
  assert (K : t <> TSEQ). { intros ->. cbv iota in H. injection H as H. apply reply_ok_inv in H. destruct H as [H _]. discriminate. }
  assert (H' : (let! r := mime_process (mf_new (c ++ X) (zlen c)) in match r with None => Ok None | Some (_, m0) => Ok (Some (is_reply_ok (g_set (mkG t m a false q (mf_new (c ++ X) (zlen c))) m0))) end) = Ok (Some (VGreetings p))) by (destruct t; auto; contradiction).
  clear H. destruct (mime_process (mf_new (c ++ X) (zlen c))) as [[[ok f]|]|] eqn:MP; cbn [obind] in H'; try discriminate. injection H' as H'. apply reply_ok_inv in H'.
  unfold g_set in H'. cbn [g_type g_msgno g_seqno g_mf] in H'. destruct H' as (T & M & Q & _ & P). conj; auto.
  intros hs body EN. destruct (process_found c hs body X NX EN) as (f' & F & _ & B & _). rewrite MP in F. assert (f = f') by congruence. congruence.
Qed.
Lemma frags_nonempty : forall t m a q ws c, frags t m a q ws c -> ws <> [].
Proof. intros t m a q ws c H. destruct H; [discriminate|]. intros Q. apply app_eq_nil in Q. destruct Q. discriminate. Qed.
Lemma frame_cases : forall r s w s' v ws, held s ws -> greet_frame r s w = Ok (Some (s', v)) ->
  match v with
  | VWait => (held s' (ws ++ [w])) \/ (r = Listener /\ held s' [])
  | VClosed => True
  | VGreetings p => exists c, whole_reply (ws ++ [w]) c /\ body_of c p
  end.
Proof.
  intros r s w s' v ws HD G. unfold greet_frame in G. destruct (gs_up s) eqn:U; cbn [negb] in G; [|injection G as <- <-; exact Logic.I].
  destruct (in_window w); cbn [negb] in G; [|injection G as <- <-; exact Logic.I]. cbv zeta in G. unfold held in HD.
  destruct (gs_pending s) as [g|] eqn:PD.
  - destruct HD as (t & m & a & q & c & X & NX & E & FR). destruct (GreetModel.join g (received w)) as [j|] eqn:J.
    + destruct (joined _ _ _ _ _ _ _ _ _ E J) as [W ->]. cbn [g_more] in G. destruct (w_more w) eqn:WM.
      * injection G as <- <-. left. cbn [held gs_pending]. exists t, m, a, q, (c ++ w_content w), [0]. conj; [discriminate|reflexivity|]. rewrite W. cbn [w_content]. now constructor.
      * destruct (complete _) as [[v'|]|] eqn:CP; cbn [obind] in G; try discriminate. injection G as <- <-. destruct v' as [| |p]; auto.
        { exfalso. exact (complete_no_wait _ CP). }
        destruct (complete_inv t m a q _ [0] p ltac:(discriminate) CP) as (-> & -> & -> & B). exists (c ++ w_content w). split; [|exact B]. right. exists a, ws, c, (w_content w). conj; [reflexivity|exact FR|]. rewrite W at 1. rewrite Z.add_0_l. reflexivity.
    + destruct r; injection G as <- <-; [exact Logic.I|]. right. split; reflexivity.
  - subst ws. cbn [app]. unfold received in G. cbn [g_more] in G. destruct (w_more w) eqn:WM.
    + injection G as <- <-. left. unfold held. cbn [gs_pending]. exists (w_type w), (w_msgno w), (w_ansno w), (w_seqno w), (w_content w), trailer. conj; [discriminate|reflexivity|].
      replace w with (mkW (w_type w) (w_msgno w) (w_ansno w) true (w_seqno w) (w_content w)) at 5 by (destruct w; cbn in *; now subst). constructor.
    + destruct (complete _) as [[v'|]|] eqn:CP; cbn [obind] in G; try discriminate. injection G as <- <-. destruct v' as [| |p]; auto.
      { exfalso. exact (complete_no_wait _ CP). }
      unfold sock_mem in CP. destruct (complete_inv _ _ _ _ _ trailer p ltac:(discriminate) CP) as (T & M & Q & B). exists (w_content w). split; [|exact B]. left. exists (w_ansno w).
      destruct w; cbn in *; now subst.
Qed.
Lemma whole_run : forall r ws s s' p hs, held s hs -> greet r s ws = Ok (Some (s', VGreetings p)) ->
  exists dropped taken rest c, hs ++ ws = dropped ++ taken ++ rest /\ whole_reply taken c /\ body_of c p /\ (r = Initiator -> dropped = []).
Proof.
  intros r. induction ws as [|w ws IH]; intros s s' p hs HD G; cbn [greet] in G; [discriminate|].
  destruct (greet_frame r s w) as [[[s1 v]|]|] eqn:F; cbn [obind] in G; try discriminate.
  pose proof (frame_cases r s w s1 v hs HD F) as C. destruct v as [| |p'].
  - destruct C as [C|[-> C]].
    + destruct (IH _ _ _ _ C G) as (d & t & rs & c & E & W & B & I). exists d, t, rs, c. conj; auto. rewrite <- E, <- app_assoc. reflexivity.
    + destruct (IH _ _ _ _ C G) as (d & t & rs & c & E & W & B & I). cbn [app] in E. exists (hs ++ w :: d), t, rs, c. conj; auto; [|discriminate]. rewrite E, <- app_assoc. reflexivity.
  - discriminate.
  - injection G as <- <-. destruct C as (c & W & B). exists [], (hs ++ [w]), ws, c. conj; auto. cbn [app]. now rewrite <- app_assoc.
Qed.
(** The frames of a whole reply are those of some cut. *)
Lemma cut_app : forall ps k p, cut k (ps ++ [p]) = (map (fun x : bool * Z * bytes => (true, snd (fst x), snd x)) (cut k ps)) ++ [(false, (match ps with [] => k | _ => (k + zlen (concat ps)) mod two32 end), p)].
Proof.
  induction ps as [|q ps IH]; intros k p; [reflexivity|]. cbn [app cut]. rewrite IH. cbn [map fst snd app]. f_equal.
  - destruct ps; reflexivity.
  - f_equal. f_equal. f_equal. f_equal. cbn [concat]. rewrite zlen_app'. destruct ps as [|x ps]; [cbn [concat]; change (zlen (@nil Z)) with 0; f_equal; lia|].
    rewrite Zplus_mod_idemp_l. f_equal. lia.
Qed.
Lemma frags_cut : forall a ws c, frags TRPY 0 a 0 ws c -> exists ps, ps <> [] /\ concat ps = c /\
  ws = map (fun x : bool * Z * bytes => mkW TRPY 0 a true (snd (fst x)) (snd x)) (cut 0 ps).
Proof.
  intros a ws c H. induction H as [c|ws c p H (ps & NE & C & W)].
  - exists [c]. conj; [discriminate|cbn; apply app_nil_r|reflexivity].
  - exists (ps ++ [p]). conj; [intros Q; apply app_eq_nil in Q; destruct Q; discriminate|rewrite concat_app, C; cbn; now rewrite app_nil_r|].
    rewrite cut_app, map_app, map_map, W. cbn [map fst snd]. destruct ps as [|x ps]; [contradiction|]. rewrite C. reflexivity.
Qed.
Lemma reply_cut : forall ws c, whole_reply ws c -> exists a ps, ps <> [] /\ concat ps = c /\ ws = reply_frames a ps.
Proof.
  intros ws c [(a & ->)|(a & fs & c0 & p & -> & F & ->)].
  - exists a, [c]. conj; [discriminate|cbn; apply app_nil_r|reflexivity].
  - destruct (frags_cut a fs c0 F) as (ps & NE & C & W). exists a, (ps ++ [p]). conj; [intros Q; apply app_eq_nil in Q; destruct Q; discriminate|rewrite concat_app, C; cbn; now rewrite app_nil_r|].
    unfold reply_frames. rewrite cut_app, map_app, map_map, W. cbn [map]. destruct ps as [|x ps]; [contradiction|]. rewrite C, Z.add_0_l. reflexivity.
Qed.
Lemma whole_thm : forall r ws s p, greet r gs0 ws = Ok (Some (s, VGreetings p)) ->
  exists dropped a ps rest, ws = dropped ++ reply_frames a ps ++ rest /\ ps <> [] /\ (forall hs body, entity (concat ps) hs body -> p = body) /\ (r = Initiator -> dropped = []).
Proof.
  intros r ws s p G. destruct (whole_run r ws gs0 s p [] eq_refl G) as (d & t & rs & c & E & W & B & I). destruct (reply_cut t c W) as (a & ps & NE & C & ->).
  exists d, a, ps, rs. conj; auto. subst c. exact B.
Qed.

(** * The cache *)

Lemma c_string_spec : forall b, up_to_zero b (c_string b).
Proof.
  assert (G : forall b, (c_string b = b /\ no_zero b) \/ exists r, b = c_string b ++ 0 :: r /\ no_zero (c_string b)).
  { induction b as [|x b IH]; cbn [c_string]; [left; split; [reflexivity|intros []]|]. destruct (x =? 0) eqn:X.
    - apply Z.eqb_eq in X. subst. right. exists b. split; [reflexivity|intros []].
    - apply Z.eqb_neq in X. destruct IH as [[E N]|(r & E & N)].
      + left. rewrite E. split; [reflexivity|]. intros [Q|Q]; [congruence|now apply N].
      + right. exists r. split; [cbn; now rewrite <- E|]. intros [Q|Q]; [congruence|now apply N]. }
  intros b. destruct (G b) as [[E N]|(r & E & N)]; [rewrite E; now constructor|]. rewrite E at 1. now constructor.
Qed.
Definition cache_ok {info} (parse : bytes -> option info) (c : cache info) (seen : list bytes) : Prop :=
  forall k i, In (k, i) c -> exists p, In p seen /\ c_string p = k /\ parse p = Some i.
Lemma cached_in : forall {info} (c : cache info) k i, cached c k = Some i -> In (k, i) c.
Proof.
  intros info c k i H. unfold cached in H. destruct (find _ c) as [[k' i']|] eqn:F; [|discriminate]. cbn in H. injection H as ->.
  apply find_some in F. destruct F as [F E]. cbn in E. apply bytes_eqb_true in E. now subst.
Qed.
Lemma parse_origin : forall {info} (parse : bytes -> option info) l c seen, cache_ok parse c seen ->
  forall p i, In (p, Some i) (snd (parse_all parse c l)) -> exists q, (In q seen \/ In q l) /\ c_string q = c_string p /\ parse q = Some i.
Proof.
  intros info parse. induction l as [|x l IH]; intros c seen C p i H; [destruct H|]. cbn [parse_all] in H.
  unfold parse_greetings in H. destruct (cached c (c_string x)) as [j|] eqn:CA.
  - destruct (parse_all parse c l) as [c' r] eqn:PA. cbn [snd] in H. destruct H as [H|H].
    + injection H as <- <-. destruct (C _ _ (cached_in _ _ _ CA)) as (q & Q1 & Q2 & Q3). exists q. auto.
    + destruct (IH c seen C p i) as (q & Q & R). { rewrite PA. exact H. } exists q. destruct R. destruct Q; (conj; auto; cbn; auto).
  - destruct (parse x) as [j|] eqn:PX.
    + destruct (parse_all parse ((c_string x, j) :: c) l) as [c' r] eqn:PA. cbn [snd] in H. destruct H as [H|H].
      * injection H as <- <-. exists x. cbn. auto.
      * destruct (IH ((c_string x, j) :: c) (x :: seen)) with (p := p) (i := i) as (q & Q & R1 & R2).
        { intros k y [E|I]; [injection E as <- <-; exists x; cbn; auto|]. destruct (C k y I) as (q & Q1 & Q2 & Q3). exists q. cbn. auto. }
        { rewrite PA. exact H. }
        exists q. destruct Q as [[<-|Q]|Q]; conj; cbn; auto.
    + destruct (parse_all parse c l) as [c' r] eqn:PA. cbn [snd] in H. destruct H as [H|H]; [discriminate|].
      destruct (IH c seen C p i) as (q & Q & R). { rewrite PA. exact H. } exists q. destruct R. destruct Q; (conj; auto; cbn; auto).
Qed.
Lemma c_string_id : forall b, no_zero b -> c_string b = b.
Proof. intros b N. destruct (c_string_spec b) as [b _|a r _]; [reflexivity|]. exfalso. apply N. apply in_app_iff. right. now left. Qed.
Lemma origin_thm : forall {info} (parse : bytes -> option info) l p i, In (p, Some i) (snd (parse_all parse [] l)) ->
  exists q t, In q l /\ up_to_zero q t /\ up_to_zero p t /\ parse q = Some i.
Proof.
  intros info parse l p i H. destruct (parse_origin parse l [] [] (fun _ _ Q => match Q with end) p i H) as (q & [[]|Q] & E & P).
  exists q, (c_string p). conj; auto; [rewrite <- E|]; apply c_string_spec.
Qed.
Lemma exact_gen : forall {info} (parse : bytes -> option info) l c seen, (forall b, ~ no_zero b -> parse b = None) -> cache_ok parse c seen ->
  forall p r, no_zero p -> In (p, r) (snd (parse_all parse c l)) -> r = parse p.
Proof.
  intros info parse. induction l as [|x l IH]; intros c seen PZ C p r N H; [destruct H|]. cbn [parse_all] in H.
  assert (NZ : forall q i, parse q = Some i -> no_zero q).
  { intros q i Q Z0. assert (E : parse q = None) by (apply PZ; intros K; now apply K). congruence. }
  unfold parse_greetings in H. destruct (cached c (c_string x)) as [j|] eqn:CA.
  - destruct (parse_all parse c l) as [c' s] eqn:PA. cbn [snd] in H. destruct H as [H|H].
    + injection H as -> <-. destruct (C _ _ (cached_in _ _ _ CA)) as (q & Q1 & Q2 & Q3). rewrite (c_string_id p N), (c_string_id q (NZ _ _ Q3)) in Q2. subst q. now rewrite Q3.
    + apply (IH c seen PZ C p r N). rewrite PA. exact H.
  - destruct (parse x) as [j|] eqn:PX.
    + destruct (parse_all parse ((c_string x, j) :: c) l) as [c' s] eqn:PA. cbn [snd] in H. destruct H as [H|H].
      * injection H as -> <-. now rewrite PX.
      * apply (IH ((c_string x, j) :: c) (x :: seen) PZ) with (p := p); [|exact N|rewrite PA; exact H].
        intros k y [E|I]; [injection E as <- <-; exists x; cbn; auto|]. destruct (C k y I) as (q & Q1 & Q2 & Q3). exists q. cbn. auto.
    + destruct (parse_all parse c l) as [c' s] eqn:PA. cbn [snd] in H. destruct H as [H|H]; [injection H as -> <-; now rewrite PX|].
      apply (IH c seen PZ C p r N). rewrite PA. exact H.
Qed.
Lemma exact_thm : forall {info} (parse : bytes -> option info) l p r, (forall b, ~ no_zero b -> parse b = None) -> no_zero p ->
  In (p, r) (snd (parse_all parse [] l)) -> r = parse p.
Proof. intros info parse l p r PZ N H. apply (exact_gen parse l [] [] PZ (fun _ _ Q => match Q with end) p r N H). Qed.

(** * The loop *)

Lemma end_step : forall s t e, gs_pending s = None -> e_read e = AEnd -> exchange_step (ERunning s t) e = Ok (EReturned None).
Proof.
  intros s t e P E. unfold exchange_step. rewrite E. cbn [obind gs_up gs_pending]. rewrite andb_false_r, P. reflexivity.
Qed.
Lemma wait_step : forall s t e, e_read e = ANothing -> gs_up s = true -> 0 < t -> e_wait e <= 0 \/ e_left e <= 0 -> exchange_step (ERunning s t) e = Ok (EReturned None).
Proof.
  intros s t e E U T W. unfold exchange_step. rewrite E. cbn [obind]. rewrite U. replace (0 <? t) with true by (symmetry; now apply Z.ltb_lt). cbn [andb].
  replace ((e_wait e <=? 0) || (e_left e <=? 0)) with true; [reflexivity|]. symmetry. apply orb_true_iff. destruct W; [left|right]; now apply Z.leb_le.
Qed.
Lemma spin_step : forall g t e, e_read e = AEnd -> exchange_step (ERunning (mkGS (Some g) false) t) e = Ok (ERunning (mkGS (Some g) false) t).
Proof. intros g t e E. unfold exchange_step. rewrite E. cbn [obind gs_up gs_pending]. now rewrite andb_false_r. Qed.
Definition event (x : option wframe * (Z * Z)) : eev :=
  mkE (match fst x with Some w => ARead w | None => ANothing end) (fst (snd x)) (snd (snd x)).
Lemma returned_stays : forall es x, exchange (EReturned x) es = Ok (EReturned x).
Proof. induction es as [|e es IH]; intros x; [reflexivity|]. cbn [exchange exchange_step obind]. apply IH. Qed.
Lemma wait_up : forall s w s', greet_frame Initiator s w = Ok (Some (s', VWait)) -> gs_up s' = true.
Proof.
  intros s w s' G. unfold greet_frame in G. destruct (gs_up s); cbn [negb] in G; [|discriminate]. destruct (in_window w); cbn [negb] in G; [|discriminate]. cbv zeta in G.
  destruct (match gs_pending s with None => _ | Some p => _ end) as [g|]; [|discriminate]. destruct (g_more g); [injection G as <-; reflexivity|].
  destruct (complete g) as [[v|]|] eqn:C; cbn [obind] in G; try discriminate. injection G as <- ->. reflexivity.
Qed.
Lemma loop_run : forall es s t s' p, calm es -> 0 < t -> gs_up s = true -> greet Initiator s (frames_read es) = Ok (Some (s', VGreetings p)) ->
  exchange (ERunning s t) (map event es) = Ok (EReturned (Some p)).
Proof.
  induction es as [|[[w|] [wa le]] es IH]; intros s t s' p C T U G.
  - discriminate.
  - cbn [calm] in C. destruct C as (W & L & C). unfold frames_read in G. cbn [flat_map fst app greet] in G. cbn [map exchange exchange_step event e_read e_wait e_left fst snd].
    destruct (greet_frame Initiator s w) as [[[s1 v]|]|] eqn:F; cbn [obind] in G |- *; try discriminate. destruct v as [| |p'].
    + rewrite (wait_up _ _ _ F). replace (0 <? t) with true by (symmetry; now apply Z.ltb_lt). cbn [andb].
      replace ((wa <=? 0) || (le <=? 0)) with false by (symmetry; apply orb_false_iff; split; apply Z.leb_gt; lia). cbn [obind].
      apply (IH s1 le s' p C L (wait_up _ _ _ F) G).
    + discriminate.
    + injection G as <- <-. cbn [obind]. apply returned_stays.
  - cbn [calm] in C. destruct C as (W & L & C). change (frames_read ((None, (wa, le)) :: es)) with (frames_read es) in G. cbn [map exchange exchange_step event e_read e_wait e_left fst snd obind].
    rewrite U. replace (0 <? t) with true by (symmetry; now apply Z.ltb_lt). cbn [andb].
    replace ((wa <=? 0) || (le <=? 0)) with false by (symmetry; apply orb_false_iff; split; apply Z.leb_gt; lia). cbn [obind].
    apply (IH s le s' p C L U G).
Qed.
Lemma loop_thm : forall es t a ps rest body, calm es -> 0 < t -> ps <> [] -> entity (concat ps) beep_fields body -> zlen (concat ps) <= 4096 ->
  frames_read es = reply_frames a ps ++ rest -> exchange (ERunning gs0 t) (map event es) = Ok (EReturned (Some body)).
Proof. intros es t a ps rest body C T NE EN Z0 E. apply (loop_run es gs0 t gs0 body C T eq_refl). rewrite E. now apply received_thm. Qed.
Lemma end_thm : forall s t e es, gs_pending s = None -> e_read e = AEnd -> exchange (ERunning s t) (e :: es) = Ok (EReturned None).
Proof. intros s t e es P E. cbn [exchange]. rewrite (end_step s t e P E). apply returned_stays. Qed.
Lemma time_thm : forall s t e es, gs_up s = true -> 0 < t -> e_read e = ANothing -> e_wait e <= 0 \/ e_left e <= 0 ->
  exchange (ERunning s t) (e :: es) = Ok (EReturned None).
Proof. intros s t e es U T E W. cbn [exchange]. rewrite (wait_step s t e E U T W). apply returned_stays. Qed.
Lemma spin_thm : forall a p t wa le n, 0 < wa -> 0 < le -> 0 < t -> zlen p <= 4096 -> exists s,
  exchange (ERunning gs0 t) (mkE (ARead (mkW TRPY 0 a true 0 p)) wa le :: repeat (mkE AEnd wa le) n) = Ok (ERunning s le).
Proof.
  intros a p t wa le n W L T P. destruct (step_more Initiator a [] gs0 p) as (s' & E & A); [now left|exact P|].
  cbn [exchange exchange_step e_read e_wait e_left]. change (mkW TRPY 0 a true (zlen (@nil Z)) p) with (mkW TRPY 0 a true 0 p) in E. rewrite E. cbn [obind].
  rewrite (after_up _ _ _ A). replace (0 <? t) with true by (symmetry; now apply Z.ltb_lt). cbn [andb].
  replace ((wa <=? 0) || (le <=? 0)) with false by (symmetry; apply orb_false_iff; split; apply Z.leb_gt; lia). cbn [obind].
  assert (G : exists g, gs_pending s' = Some g). { unfold greet_frame in E. change (in_window (mkW TRPY 0 a true 0 p)) with (in_window (mkW TRPY 0 a true (zlen (@nil Z)) p)) in E. rewrite window_ok in E by exact P.
    cbn [gs0 gs_up gs_pending negb received g_more w_more] in E. injection E as <-. eexists. reflexivity. }
  destruct G as [g G]. destruct n as [|n]; [exists s'; reflexivity|]. exists (mkGS (Some g) false). cbn [repeat exchange exchange_step e_read obind gs_up gs_pending]. rewrite andb_false_r, G. cbn [obind].
  induction n as [|n IH]; [reflexivity|]. cbn [repeat exchange]. rewrite spin_step by reflexivity. cbn [obind]. exact IH.
Qed.

(** * Witnesses *)

Definition bad_uri : bytes := asc "urn:x' /><profile uri='urn:y".
Lemma quote_witness : exists t, build buffer_size None None (fun _ => false) [bad_uri] = Ok (Some t) /\ uris_of t = [asc "urn:x"; asc "urn:y"].
Proof. eexists. split; vm_compute; reflexivity. Qed.
Lemma buffer_witness : build buffer_size (Some (repeat 97 5000)) (Some (repeat 98 63)) (fun _ => false) [] = UB /\
  build buffer_size (Some (repeat 97 5000)) (Some (repeat 98 52)) (fun _ => true) [asc "urn:x"] = UB.
Proof. conj; vm_compute; reflexivity. Qed.
Lemma over_witness : exists t, build buffer_size (Some (repeat 97 4100)) None (fun _ => false) [] = Ok (Some t) /\
  forall r a ps rest, Forall (fun p => zlen p < two31) ps -> concat ps = content_of t -> exists s, greet r gs0 (reply_frames a ps ++ rest) = Ok (Some (s, VClosed)).
Proof.
  eexists. split; [vm_compute; reflexivity|]. intros r a ps rest P C. apply over_thm; [exact P|]. rewrite C. vm_compute. reflexivity.
Qed.
Definition greeting1 : bytes := asc "<greeting />".
Definition hidden : list wframe :=
  [mkW TRPY 0 (-1) true 0 (asc "other"); mkW TMSG 7 (-1) false 3 (asc "x"); mkW TRPY 0 (-1) false 0 (content_of greeting1)].
Lemma hidden_witness : greet Listener gs0 hidden = Ok (Some (gs0, VGreetings greeting1)) /\
  (forall a ps rest, ps <> [] -> hidden = reply_frames a ps ++ rest -> False) /\
  (exists s, greet Initiator gs0 hidden = Ok (Some (s, VClosed))).
Proof.
  conj; [vm_compute; reflexivity| |eexists; vm_compute; reflexivity].
  intros a ps rest NE H. destruct ps as [|p [|q ps]]; [contradiction| |]; unfold reply_frames in H; cbn [cut map app] in H; [discriminate|]. unfold hidden in H. injection H as _ _ _ Q. destruct ps; discriminate.
Qed.
Definition toy_parse (b : bytes) : option bool := if existsb (Z.eqb 0) b then None else Some true.
Lemma cache_witness : exists p q, snd (parse_all toy_parse [] [p; q]) = [(p, Some true); (q, Some true)] /\ toy_parse q = None.
Proof. exists greeting1, (greeting1 ++ [0; 1; 2]). split; vm_compute; reflexivity. Qed.
Lemma sent_received : forall r a t ps rest, ps <> [] -> concat ps = content_of t -> zlen (content_of t) <= 4096 ->
  content true (Some beep_xml) (Some t_binary) t = Ok (content_of t) /\
  greet r gs0 (reply_frames a ps ++ rest) = Ok (Some (gs0, VGreetings t)).
Proof.
  intros r a t ps rest NE C Z. split; [exact (content_linked t)|]. apply received_thm; [exact NE|rewrite C; exact (content_entity t)|rewrite C; exact Z].
Qed.
Lemma spin_witness : forall t wa le n, 0 < wa -> 0 < le -> 0 < t -> exists s,
  exchange (ERunning gs0 t) (mkE (ARead (mkW TRPY 0 (-1) true 0 (asc "C"))) wa le :: repeat (mkE AEnd wa le) n) = Ok (ERunning s le).
Proof. intros t wa le n W L T. apply spin_thm; [exact W|exact L|exact T|]. vm_compute. discriminate. Qed.

(** ** The unconditional parts on their own *)
Lemma first_thm : forall ws s p, greet Initiator gs0 ws = Ok (Some (s, VGreetings p)) ->
  exists a ps rest, ws = reply_frames a ps ++ rest /\ ps <> [] /\ (forall hs body, entity (concat ps) hs body -> p = body).
Proof.
  intros ws s p H. destruct (whole_thm Initiator ws s p H) as (dr & a & ps & rest & E & N & B & D). rewrite (D eq_refl) in E. exists a, ps, rest. auto.
Qed.
Lemma limit_thm : forall r a ps rest body, ps <> [] -> Forall (fun p => zlen p < two31) ps -> entity (concat ps) beep_fields body ->
  ((exists s, greet r gs0 (reply_frames a ps ++ rest) = Ok (Some (s, VGreetings body))) <-> zlen (concat ps) <= 4096) /\
  (4096 < zlen (concat ps) <-> exists s, greet r gs0 (reply_frames a ps ++ rest) = Ok (Some (s, VClosed))).
Proof.
  intros r a ps rest body N F E. destruct (Z_le_gt_dec (zlen (concat ps)) 4096) as [Q|Q].
  - pose proof (received_thm r a ps rest body N E Q) as G. split.
    + split; [intros _; exact Q|intros _; eauto].
    + split; [lia|]. intros [s X]. rewrite G in X. discriminate.
  - destruct (over_thm r a ps rest F ltac:(lia)) as [s G]. split.
    + split; [intros [s' X]; rewrite G in X; discriminate|lia].
    + split; [intros _; eauto|lia].
Qed.
Lemma closed_thm : forall r ws s v, greet r gs0 ws = Ok (Some (s, v)) -> (gs_up s = false <-> v = VClosed).
Proof.
  assert (F : forall r s w s' v, greet_frame r s w = Ok (Some (s', v)) -> (gs_up s' = false <-> v = VClosed)).
  { intros r s w s' v E. unfold greet_frame in E.
    destruct (gs_up s) eqn:U; cbn [negb] in E; [|injection E as <- <-; split; auto].
    destruct (in_window w); cbn [negb] in E; [|injection E as <- <-; split; auto].
    destruct (match gs_pending s with None => Some (received w) | Some p => join p (received w) end) as [g|].
    - destruct (g_more g); [injection E as <- <-; split; discriminate|].
      destruct (complete g) as [[v1|]|]; cbn [obind] in E; try discriminate.
      injection E as <- <-. cbn [gs_up]. destruct v1; split; intro X; try discriminate; reflexivity.
    - destruct r; injection E as <- <-; split; intro X; try discriminate; reflexivity. }
  assert (G : forall r ws s s' v, gs_up s = true -> greet r s ws = Ok (Some (s', v)) -> (gs_up s' = false <-> v = VClosed)).
  { intros r ws. induction ws as [|w k IH]; intros s s' v U E; cbn [greet] in E.
    - injection E as <- <-. rewrite U. split; discriminate.
    - destruct (greet_frame r s w) as [[[s1 v1]|]|] eqn:E1; cbn [obind] in E; try discriminate.
      pose proof (F _ _ _ _ _ E1) as F1. destruct v1; try (injection E as <- <-; exact F1).
      apply (IH s1); [|exact E]. destruct (gs_up s1); [reflexivity|]. discriminate (proj1 F1 eq_refl). }
  intros r ws s v E. apply (G r ws gs0 s v); [reflexivity|exact E].
Qed.
