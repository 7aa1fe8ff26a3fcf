(** The calls to the cleanups. *)
From Verif Require Import Base HdrModel HdrProofs CtxModel CtxSpec CtxProofs CtxProofs2 CtxProofs3.

Definition contents (s : xst) : list Z := match x_clean s with Some l => l | None => [] end.
Definition late (p : pc) : bool := match p with PLast _ | PDestroy _ | PClean _ | PCall _ _ _ | PEnd _ => true | _ => false end.
Definition early (p : pc) : bool := match p with PLast _ | PDestroy _ | PClean _ => true | _ => false end.
Definition is_pend (p : pc) : bool := match p with PEnd _ => true | _ => false end.
Definition working (p : pc) : bool := match p with PStop _ | PLast _ | PDestroy _ | PClean _ | PCall _ _ _ => true | _ => false end.
Definition no_rem (l : list xobs) : Prop := forall f, ~ In (ORem f) l.
Definition none (b : xobs -> bool) (l : list xobs) : Prop := forall o, In o l -> b o = false.

Lemma none_app : forall b l o, none b l -> b o = false -> none b (l ++ [o]).
Proof. intros b l o H K p I. apply in_app_or in I. destruct I as [I|[<-|[]]]; auto. Qed.
Lemma called_app : forall l o, called (l ++ [o]) = called l ++ called [o].
Proof. intros. unfold called. rewrite flat_map_app. reflexivity. Qed.
Lemma installed_app : forall l o, installed (l ++ [o]) = installed l ++ installed [o].
Proof. intros. unfold installed. rewrite flat_map_app. reflexivity. Qed.
Lemma remaining_app : forall l o, remaining (l ++ [o]) = match o with OInst f => remaining l ++ [f] | ORem f => without f (remaining l) | _ => remaining l end.
Proof. intros. unfold remaining. rewrite fold_left_app. reflexivity. Qed.
Lemma without_ptr : forall f l, without f l = remove_ptr l f.
Proof. intros f l. induction l as [|g l IH]; cbn; [reflexivity|]. rewrite IH. destruct (Z.eq_dec g f), (Z.eqb_spec g f); congruence. Qed.
Lemma no_rem_app : forall l o, no_rem (l ++ [o]) -> no_rem l.
Proof. intros l o H f I. apply (H f). apply in_or_app. auto. Qed.
Lemma called_none : forall l, called l = [] -> forall o, called [o] = [] -> called (l ++ [o]) = [].
Proof. intros l H o K. rewrite called_app, H, K. reflexivity. Qed.

Inductive cl (s : xst) : Prop :=
| cl_before : none is_stop (x_log s) -> none is_cleaned (x_log s) -> called (x_log s) = [] -> contents s = remaining (x_log s) -> (forall t, ~ at_ s t late) -> cl s
| cl_during a t b k : x_log s = a ++ OStop t :: b -> none is_stop a -> none is_cleaned a -> none is_cleaned b -> called a = [] -> (no_rem b -> contents s = remaining a ++ installed b /\ called b = firstn k (contents s) /\ (k <= length (contents s))%nat) ->
    (forall u, ~ at_ s u is_pstop) -> (forall u, ~ at_ s u is_pend) -> (forall u, at_ s u early -> k = 0%nat) ->
    (forall u x r i f, nth_error (x_thr s) u = Some x -> t_pc x = PCall r i f -> k = S i) -> cl s
| cl_after a t b c : x_log s = a ++ OStop t :: b ++ OCleaned :: c -> none is_stop a -> none is_cleaned a -> none is_cleaned b -> called a = [] -> called c = [] -> (no_rem b -> called b = remaining a ++ installed b) ->
    (forall u, ~ at_ s u working) -> cl s.

(** A step that adds nothing about cleanups and does not bring a thread nearer. *)
Lemma cl_keep : forall s s' t x y l, cl s -> nth_error (x_thr s) t = Some x -> x_thr s' = upd_nth (x_thr s) t y -> contents s' = contents s ->
  x_log s' = x_log s ++ l -> l = [] \/ l = [OFreed] ->
  (t_pc y = t_pc x \/ working (t_pc y) = false /\ is_pend (t_pc y) = false \/ early (t_pc y) = true /\ early (t_pc x) = true) -> cl s'.
Proof.
  intros s s' t x y l I N T C L E P.
  assert (NS : none is_stop l /\ none is_cleaned l /\ called l = [] /\ installed l = [] /\ forall a, remaining (a ++ l) = remaining a).
  { destruct E as [-> | ->]; (split; [intros o H; cbn in H; try (destruct H as [<-|[]]); try contradiction; reflexivity|]; split; [intros o H; cbn in H; try (destruct H as [<-|[]]); try contradiction; reflexivity|]; split; [reflexivity|]; split; [reflexivity|]; intros a; rewrite ?app_nil_r, ?remaining_app; reflexivity). }
  destruct NS as (N1 & N2 & N3 & N4 & N5).
  assert (CA : forall a, called (a ++ l) = called a) by (intros a; unfold called in *; rewrite flat_map_app, N3, app_nil_r; reflexivity).
  assert (IA : forall a, installed (a ++ l) = installed a) by (intros a; unfold installed in *; rewrite flat_map_app, N4, app_nil_r; reflexivity).
  assert (NA : forall b a, none b a -> none b l -> none b (a ++ l)) by (intros b a H K o J; apply in_app_or in J; destruct J; auto).
  assert (RA : forall a, no_rem (a ++ l) -> no_rem a) by (intros a H f J; apply (H f); apply in_or_app; auto).
  assert (W : forall u b, at_ s' u b -> (forall p, b p = true -> late p = true \/ is_pstop p = true) -> (forall p q, early p = true -> early q = true -> b p = b q) -> at_ s u b).
  { intros u b H K Q. apply (at_upd s _ t y) in H; [|exact T]. destruct H as [[-> H]|[V H]]; [|exact H]. exists x. split; [exact N|].
    destruct P as [P|[[P P']|[P P']]]; [congruence| |rewrite (Q _ (t_pc y) P' P); exact H]. destruct (K _ H) as [J|J]; destruct (t_pc y); discriminate. }
  assert (SE : forall p q, early p = true -> early q = true -> forall b, b = is_pstop \/ b = is_pend \/ b = early \/ b = late \/ b = working -> b p = b q).
  { intros p q H K b [->|[->|[->|[->| ->]]]]; destruct p; try discriminate H; destruct q; try discriminate K; reflexivity. }
  destruct I as [I1 I2 I3 I4 I5|a v b k I1 I2 I3 I4 I5 I6 I7 I8 I9 I10|a v b c I1 I2 I3 I4 I5 I6 I7 I8].
  - apply cl_before; rewrite ?L, ?C, ?CA, ?N5; auto. intros u H. apply (I5 u). apply W; [exact H|auto|]. intros p q A B. apply (SE p q A B). auto.
  - apply (cl_during _ a v (b ++ l) k); auto.
    + rewrite L, I1, <- app_assoc. reflexivity.
    + intros H. rewrite C, CA, IA. auto.
    + intros u H. apply (I7 u). apply W; [exact H|auto|]. intros p q A B. apply (SE p q A B). auto.
    + intros u H. apply (I8 u). apply W; [exact H|intros [] K; try discriminate; auto|]. intros p q A B. apply (SE p q A B). auto.
    + intros u H. apply (I9 u). apply W; [exact H|intros [] K; try discriminate; auto|]. intros p q A B. apply (SE p q A B). auto.
    + intros u z r i f H K. rewrite T in H. apply nth_upd_inv in H. destruct H as [[-> ->]|[V H]]; [|eapply I10; eauto].
      destruct P as [P|[[P P']|[P P']]]; [eapply I10; [exact N|rewrite <- P; exact K]|rewrite K in P; discriminate P|rewrite K in P; discriminate P].
  - apply (cl_after _ a v b (c ++ l)); auto.
    + rewrite L, I1, <- !app_assoc. cbn. rewrite <- app_assoc. reflexivity.
    + rewrite CA. exact I6.
    + intros u H. apply (I8 u). apply W; [exact H|intros [] K; try discriminate; auto|]. intros p q A B. apply (SE p q A B). auto.
Qed.
Lemma post_only : forall s t x u b, one_stop s -> nth_error (x_thr s) t = Some x -> post (t_pc x) = true -> (forall p, b p = true -> post p = true) -> at_ s u b -> u = t.
Proof. intros s t x u b I N P B (z & H & K). apply (os_post _ I); [exists z; auto|exists x; auto]. Qed.
Lemma times_none : forall b l, none b l -> times b l = 0%nat.
Proof. intros b l H. unfold times. induction l as [|o l IH]; [reflexivity|]. cbn. rewrite (H o) by (cbn; auto). apply IH. intros p I. apply H. cbn. auto. Qed.
Lemma times_stop : forall l a t b, l = a ++ OStop t :: b -> (1 <= times is_stop l)%nat.
Proof. intros l a t b ->. unfold times. rewrite filter_app, app_length. cbn. lia. Qed.

Lemma cl_call : forall s s' t x r i l f, one_stop s -> cl s -> nth_error (x_thr s) t = Some x ->
  (t_pc x = PClean r /\ i = 0%nat \/ exists j g, t_pc x = PCall r j g /\ i = S j) -> x_clean s = Some l -> nth_error l i = Some f ->
  x_thr s' = upd_nth (x_thr s) t (set_pc (PCall r i f) x) -> x_clean s' = Some l -> x_log s' = x_log s ++ [OCall f] -> cl s'.
Proof.
  intros s s' t x r i l f OS I N P C L T C' G.
  assert (PW : working (t_pc x) = true /\ late (t_pc x) = true /\ post (t_pc x) = true) by (destruct P as [[-> _]|(j & g & -> & _)]; auto).
  destruct PW as (PW & PL & PP). assert (CS : contents s = l) by (unfold contents; rewrite C; reflexivity). assert (CS' : contents s' = l) by (unfold contents; rewrite C'; reflexivity).
  destruct I as [I1 I2 I3 I4 I5|a v b k I1 I2 I3 I4 I5 I6 I7 I8 I9 I10|a v b c I1 I2 I3 I4 I5 I6 I7 I8].
  - destruct (I5 t). exists x. auto.
  - assert (K : k = i). { destruct P as [[P ->]|(j & g & P & ->)]; [apply (I9 t); exists x; rewrite P; auto|eapply I10; eauto]. } subst k.
    assert (U : forall u c, (forall p, c p = true -> post p = true) -> c (PCall r i f) = false -> ~ at_ s' u c).
    { intros u c B Z H. apply (at_upd s _ t (set_pc (PCall r i f) x)) in H; [|exact T]. destruct H as [[-> H]|[V H]]; [cbn in H; congruence|]. apply V. eapply (post_only s t x u c); eauto. }
    apply (cl_during _ a v (b ++ [OCall f]) (S i)); auto.
    + rewrite G, I1, <- app_assoc. reflexivity.
    + apply none_app; auto.
    + intros R. destruct (I6 (no_rem_app _ _ R)) as (A & B & _). rewrite CS in A, B. rewrite CS', installed_app, called_app, B. cbn. rewrite app_nil_r. split; [exact A|].
      split; [|apply nth_error_Some; rewrite L; discriminate].
      clear - L. revert i L. induction l as [|g l IH]; intros [|i] L; try discriminate; cbn in *; [injection L as ->; reflexivity|]. rewrite (IH i L). reflexivity.
    + intros u. apply U; [intros [] H; try discriminate; reflexivity|reflexivity].
    + intros u. apply U; [intros [] H; try discriminate; reflexivity|reflexivity].
    + intros u H. destruct (U u early) in H; [intros [] Q; try discriminate; reflexivity|reflexivity|exact H].
    + intros u z r' i' f' H K. rewrite T in H. apply nth_upd_inv in H. destruct H as [[-> ->]|[V H]]; [injection K as _ -> _; reflexivity|].
      destruct V. apply (os_post _ OS); [exists z; rewrite K; auto|exists x; auto].
  - destruct (I8 t). exists x. auto.
Qed.
Lemma cl_end : forall s s' t x r i, one_stop s -> cl s -> nth_error (x_thr s) t = Some x ->
  (t_pc x = PClean r /\ i = 0%nat \/ exists j g, t_pc x = PCall r j g /\ i = S j) -> nth_error (contents s) i = None ->
  x_thr s' = upd_nth (x_thr s) t (set_pc (PEnd r) x) -> x_log s' = x_log s ++ [OCleaned] -> cl s'.
Proof.
  intros s s' t x r i OS I N P L T G.
  assert (PW : working (t_pc x) = true /\ late (t_pc x) = true /\ post (t_pc x) = true) by (destruct P as [[-> _]|(j & g & -> & _)]; auto).
  destruct PW as (PW & PL & PP). destruct I as [I1 I2 I3 I4 I5|a v b k I1 I2 I3 I4 I5 I6 I7 I8 I9 I10|a v b c I1 I2 I3 I4 I5 I6 I7 I8].
  - destruct (I5 t). exists x. auto.
  - assert (K : k = i). { destruct P as [[P ->]|(j & g & P & ->)]; [apply (I9 t); exists x; rewrite P; auto|eapply I10; eauto]. } subst k.
    apply (cl_after _ a v b []); auto.
    + rewrite G, I1, <- app_assoc. reflexivity.
    + intros R. destruct (I6 R) as (A & B & _). rewrite B, <- A. apply firstn_all2. apply nth_error_None. exact L.
    + intros u H. apply (at_upd s _ t (set_pc (PEnd r) x)) in H; [|exact T]. destruct H as [[-> H]|[V H]]; [discriminate|]. apply V. eapply (post_only s t x u working); eauto. intros [] Q; try discriminate; reflexivity.
  - destruct (I8 t). exists x. auto.
Qed.

Lemma cl_tr : forall own seq s s', one_stop s /\ cl s -> tr own seq s s' -> one_stop s' /\ cl s'.
Proof.
  intros own seq s s' [OS I] T. split; [eapply one_stop_tr; eauto|].
  destruct T as [t x N O M P|t x N O M P R|t x N O M P R|t x N O M P|t x r N O Q M P X|f M|f M|t x r N M P E|t x r N M P X|t x r N M P X|t x r N M P|t x r N M P|t x r N M P E|t x r N M P E|t x r N M P C|t x r i l f N M P C L|t x r i l N M P C L|t x N M P|t x last N M P Z|t x last N M P Z|t x last N M P L|t x u y N N' D O P P'|t x N O P].
  - eapply (cl_keep s _ t x _ []); [exact I|exact N|reflexivity|reflexivity|symmetry; apply app_nil_r|auto|]. cbn. auto.
  - eapply (cl_keep s _ t x _ []); [exact I|exact N|reflexivity|reflexivity|symmetry; apply app_nil_r|auto|]. cbn. auto.
  - eapply (cl_keep s _ t x _ []); [exact I|exact N|reflexivity|reflexivity|symmetry; apply app_nil_r|auto|]. cbn. auto.
  - eapply (cl_keep s _ t x _ []); [exact I|exact N|reflexivity|reflexivity|symmetry; apply app_nil_r|auto|]. cbn. auto.
  - eapply (cl_keep s _ t x _ []); [exact I|exact N|reflexivity|reflexivity|symmetry; apply app_nil_r|auto|]. cbn. auto.
  - (* install *) assert (CI : contents (install s f) = contents s ++ [f]) by reflexivity. assert (LI : x_log (install s f) = x_log s ++ [OInst f]) by reflexivity.
    assert (TI : x_thr (install s f) = x_thr s) by reflexivity. assert (AI : forall u b, at_ (install s f) u b -> at_ s u b) by (intros u b H; exact H).
    destruct I as [I1 I2 I3 I4 I5|a v b k I1 I2 I3 I4 I5 I6 I7 I8 I9 I10|a v b c I1 I2 I3 I4 I5 I6 I7 I8].
    + apply cl_before; rewrite ?LI; auto; try (apply none_app; auto); [apply called_none; auto|]. rewrite CI, remaining_app, I4. reflexivity.
    + apply (cl_during _ a v (b ++ [OInst f]) k); auto; [rewrite LI, I1, <- app_assoc; reflexivity|apply none_app; auto|].
      intros R. destruct (I6 (no_rem_app _ _ R)) as (A & B & LE). rewrite CI, installed_app, called_app, B. cbn. rewrite app_nil_r, A, app_assoc. rewrite A in LE. split; [reflexivity|]. split.
      * rewrite (firstn_app k (remaining a ++ installed b)). replace (k - length (remaining a ++ installed b))%nat with 0%nat by lia. cbn. rewrite app_nil_r. reflexivity.
      * rewrite app_length. lia.
    + apply (cl_after _ a v b (c ++ [OInst f])); auto; [rewrite LI, I1, <- !app_assoc; cbn; rewrite <- app_assoc; reflexivity|apply called_none; auto].
  - (* remove *) assert (CI : contents (remove s f) = remove_ptr (contents s) f) by (unfold remove, contents; destruct (x_clean s) eqn:CC; [reflexivity|]; cbn; rewrite CC; reflexivity).
    assert (LI : x_log (remove s f) = x_log s ++ [ORem f]) by (unfold remove; destruct (x_clean s); reflexivity).
    assert (TI : x_thr (remove s f) = x_thr s) by (unfold remove; destruct (x_clean s); reflexivity). assert (AI : forall u b, at_ (remove s f) u b -> at_ s u b) by (intros u b H; unfold at_ in *; rewrite TI in H; exact H).
    destruct I as [I1 I2 I3 I4 I5|a v b k I1 I2 I3 I4 I5 I6 I7 I8 I9 I10|a v b c I1 I2 I3 I4 I5 I6 I7 I8].
    + apply cl_before; rewrite ?LI; auto; try (apply none_app; auto); [apply called_none; auto| |intros u H; apply (I5 u); apply AI; exact H]. rewrite CI, remaining_app, I4, without_ptr. reflexivity.
    + apply (cl_during _ a v (b ++ [ORem f]) k); auto; [rewrite LI, I1, <- app_assoc; reflexivity|apply none_app; auto|..].
      * intros R. destruct (R f). apply in_or_app. cbn. auto.
      * intros u H. apply (I7 u). apply AI. exact H.
      * intros u H. apply (I8 u). apply AI. exact H.
      * intros u H. apply (I9 u). apply AI. exact H.
      * intros u x r i g H. rewrite TI in H. apply (I10 u x r i g H).
    + apply (cl_after _ a v b (c ++ [ORem f])); auto; [rewrite LI, I1, <- !app_assoc; cbn; rewrite <- app_assoc; reflexivity|apply called_none; auto|].
      intros u H. apply (I8 u). apply AI. exact H.
  - eapply (cl_keep s _ t x _ []); [exact I|exact N|reflexivity|reflexivity|symmetry; apply app_nil_r|auto|]. cbn. auto.
  - eapply (cl_keep s _ t x _ []); [exact I|exact N|reflexivity|reflexivity|symmetry; apply app_nil_r|auto|]. cbn. auto.
  - eapply (cl_keep s _ t x _ []); [exact I|exact N|reflexivity|reflexivity|symmetry; apply app_nil_r|auto|]. cbn. auto.
  - (* set *) assert (F : x_exit s = false) by (eapply (os_set _ OS t); eapply at_pc; eauto; rewrite P; reflexivity). destruct (os_no _ OS F) as [A B].
    set (y := set_pc (PStop r) x). destruct I as [I1 I2 I3 I4 I5|a v b k I1 I2 I3 I4 I5 I6 I7 I8 I9 I10|a v b c I1 I2 I3 I4 I5 I6 I7 I8].
    + apply cl_before; auto. intros u H. apply (at_upd s _ t y) in H; [|reflexivity]. destruct H as [[-> H]|[V H]]; [discriminate|]. apply (I5 u H).
    + pose proof (times_stop _ _ _ _ I1). lia.
    + pose proof (times_stop _ _ _ _ I1). lia.
  - (* stop *) assert (Z : times is_stop (x_log s) = 0%nat) by (eapply (os_stop _ OS t); eapply at_pc; eauto; rewrite P; reflexivity).
    set (y := set_pc (PLast r) x). destruct I as [I1 I2 I3 I4 I5|a v b k I1 I2 I3 I4 I5 I6 I7 I8 I9 I10|a v b c I1 I2 I3 I4 I5 I6 I7 I8].
    + assert (U : forall u c, (forall p, c p = true -> post p = true) -> at_ (see (thr s t y) (OStop t)) u c -> u = t).
      { intros u c B H. apply (at_upd s _ t y) in H; [|reflexivity]. destruct H as [[-> H]|[V H]]; [reflexivity|]. eapply (post_only s t x u c); eauto. rewrite P. reflexivity. }
      assert (Y : nth_error (x_thr (see (thr s t y) (OStop t))) t = Some y) by (eapply thr_same; eauto).
      apply (cl_during _ (x_log s) t [] 0); auto.
      * intros o [].
      * intros _. cbn. rewrite app_nil_r. split; [exact I4|]. split; [reflexivity|lia].
      * intros u H. assert (u = t) as -> by (apply (U u is_pstop); [intros [] Q; try discriminate; reflexivity|exact H]). apply (at_pc_inv _ _ y) in H; [discriminate|exact Y].
      * intros u H. assert (u = t) as -> by (apply (U u is_pend); [intros [] Q; try discriminate; reflexivity|exact H]). apply (at_pc_inv _ _ y) in H; [discriminate|exact Y].
      * intros u z r' i f H K. assert (u = t) as -> by (apply (U u post); [auto|exists z; rewrite K; auto]). rewrite H in Y. injection Y as ->. discriminate.
    + pose proof (times_stop _ _ _ _ I1). lia.
    + pose proof (times_stop _ _ _ _ I1). lia.
  - eapply (cl_keep s _ t x _ []); [exact I|exact N|reflexivity|reflexivity|symmetry; apply app_nil_r|auto|]. cbn. rewrite P. auto.
  - eapply (cl_keep s _ t x _ []); [exact I|exact N|reflexivity|reflexivity|symmetry; apply app_nil_r|auto|]. cbn. rewrite P. auto.
  - eapply (cl_end s _ t x r 0); eauto. unfold contents. rewrite C. reflexivity.
  - eapply (cl_call s _ t x r i l f); eauto.
  - eapply (cl_end s _ t x r i); eauto. unfold contents. rewrite C. exact L.
  - eapply (cl_keep s _ t x _ []); [exact I|exact N|reflexivity|reflexivity|symmetry; apply app_nil_r|auto|]. cbn. auto.
  - eapply (cl_keep s _ t x _ []); [exact I|exact N|reflexivity|reflexivity|symmetry; apply app_nil_r|auto|]. cbn. auto.
  - eapply (cl_keep s _ t x _ []); [exact I|exact N|reflexivity|reflexivity|symmetry; apply app_nil_r|auto|]. cbn. auto.
  - eapply (cl_keep s _ t x _ [OFreed]); [exact I|exact N|reflexivity|reflexivity|reflexivity|auto|]. cbn. auto.
  - assert (A : cl (thr s t (set_own (t_own x - 1) x))) by (eapply (cl_keep s _ t x _ []); [exact I|exact N|reflexivity|reflexivity|symmetry; apply app_nil_r|auto|]; cbn; auto).
    eapply (cl_keep (thr s t (set_own (t_own x - 1) x)) _ u y _ []); [exact A|rewrite thr_other; auto|reflexivity|reflexivity|symmetry; apply app_nil_r|auto|]. cbn. auto.
  - eapply (cl_keep s _ t x _ []); [exact I|exact N|reflexivity|reflexivity|symmetry; apply app_nil_r|auto|]. cbn. auto.
Qed.
Lemma cl_x0 : forall lmx n, cl (x0 lmx n).
Proof.
  intros lmx n. apply cl_before; [intros o []|intros o []|reflexivity|reflexivity|]. intros t (x & H & K). apply x0_idle in H. destruct H as [H _]. rewrite H in K. discriminate.
Qed.

Lemma until_none : forall b l r, none b l -> until b (l ++ r) = l ++ until b r.
Proof. intros b l r H. induction l as [|o l IH]; [reflexivity|]. cbn. rewrite (H o) by (cbn; auto). rewrite IH; [reflexivity|]. intros p I. apply H. cbn. auto. Qed.
Lemma since_none : forall b l r, none b l -> since b (l ++ r) = since b r.
Proof. intros b l r H. induction l as [|o l IH]; [reflexivity|]. cbn. rewrite (H o) by (cbn; auto). apply IH. intros p I. apply H. cbn. auto. Qed.
Theorem cleanups_called : forall lmx n es s, xrun (x0 lmx n) es = Ok s -> ~ removed_at_end (x_log s) ->
  (exists k, called (x_log s) = firstn k (to_call (x_log s))) /\ (In OCleaned (x_log s) -> called (x_log s) = to_call (x_log s)).
Proof.
  intros lmx n es s R Q. assert (I : one_stop s /\ cl s) by (apply (kept_by (fun s => one_stop s /\ cl s) false false (cl_tr false false) es (x0 lmx n) s); auto; try discriminate; split; [apply one_stop_x0|apply cl_x0]).
  destruct I as [_ [I1 I2 I3 I4 I5|a v b k I1 I2 I3 I4 I5 I6 I7 I8 I9 I10|a v b c I1 I2 I3 I4 I5 I6 I7 I8]].
  - split; [exists 0%nat; rewrite I3; reflexivity|]. intros H. apply I2 in H. discriminate.
  - assert (E : ending (x_log s) = b). { unfold ending. rewrite I1, since_none by exact I2. cbn. rewrite <- (app_nil_r b) at 1. rewrite until_none by exact I4. apply app_nil_r. }
    assert (B : until is_stop (x_log s) = a) by (rewrite I1, until_none by exact I2; cbn; apply app_nil_r).
    assert (NR : no_rem b) by (intros f H; apply Q; exists f; rewrite E; exact H). destruct (I6 NR) as (A & D & _). unfold to_call. rewrite E, B. split.
    + exists k. rewrite I1. unfold called in *. rewrite flat_map_app, I5. cbn. rewrite D, A. reflexivity.
    + intros H. rewrite I1 in H. apply in_app_or in H. destruct H as [H|[H|H]]; [apply I3 in H; discriminate|discriminate|apply I4 in H; discriminate].
  - assert (E : ending (x_log s) = b). { unfold ending. rewrite I1, since_none by exact I2. cbn. rewrite until_none by exact I4. cbn. apply app_nil_r. }
    assert (B : until is_stop (x_log s) = a) by (rewrite I1, until_none by exact I2; cbn; apply app_nil_r).
    assert (NR : no_rem b) by (intros f H; apply Q; exists f; rewrite E; exact H). unfold to_call. rewrite E, B.
    assert (called (x_log s) = remaining a ++ installed b) as ->. { rewrite I1. unfold called in *. rewrite flat_map_app, I5. cbn. rewrite flat_map_app. cbn. rewrite I6, app_nil_r. apply I7. exact NR. }
    split; [|auto]. exists (length (remaining a ++ installed b)). rewrite firstn_all. reflexivity.
Qed.
