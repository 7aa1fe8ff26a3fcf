(** Proofs about the reply to a start request. *)
From Verif Require Import Base ConfirmModel ConfirmSpec.
Ltac conj := repeat match goal with |- _ /\ _ => split end.
Lemma ok_inj {A} (a b : A) : Ok a = Ok b -> a = b.
Proof. congruence. Qed.
Lemma snoc_cases {A} (l a b : list A) x y : l ++ [x] = a ++ y :: b -> (b = [] /\ l = a /\ x = y) \/ (exists b', b = b' ++ [x] /\ l = a ++ y :: b').
Proof.
  destruct (@exists_last _ (y :: b)) as (p & q & E); [discriminate|]. intros H. rewrite E in H. rewrite app_assoc in H. apply app_inj_tail in H. destruct H as [H1 H2].
  subst q. destruct p as [|z p].
  - left. cbn in E. injection E as <- <-. rewrite app_nil_r in H1. auto.
  - right. cbn in E. injection E as <- ->. exists p. split; [reflexivity|exact H1].
Qed.
Lemma same_true a b : same_bytes a b = true <-> a = b.
Proof. unfold same_bytes. destruct (list_eq_dec Z.eq_dec a b); split; congruence. Qed.
Lemma named_true n x : is_named n x = true <-> n_name n = x.
Proof. unfold is_named. destruct (list_eq_dec Z.eq_dec (n_name n) x); split; congruence. Qed.

Lemma judge_true parse f asked c err : judge parse f asked = (Some (true, c), err) -> confirms parse f asked /\ piggy c = content_in parse f /\ err = None.
Proof.
  unfold judge, confirms, content_in. destruct (parse (f_payload f)) as [n|]; [|discriminate]. destruct (f_type f); try discriminate.
  destruct (is_named n PROFILE) eqn:E; [|discriminate]. destruct (n_uri n) as [u|] eqn:U; [|discriminate]. destruct (same_bytes u asked) eqn:Q; [|discriminate].
  intros H. injection H as <- <-. apply named_true in E. apply same_true in Q. subst u. conj; auto. exists n. auto.
Qed.
Lemma judge_some parse f asked ok c err : judge parse f asked = (Some (ok, c), err) -> some_profile parse f.
Proof.
  unfold judge, some_profile. destruct (parse (f_payload f)) as [n|]; [|discriminate]. destruct (f_type f); try discriminate.
  destruct (is_named n PROFILE) eqn:E; [|discriminate]. intros _. apply named_true in E. eauto.
Qed.
Lemma judge_not parse f asked r err : judge parse f asked = (r, err) -> (forall c, r <> Some (true, c)) -> ~ confirms parse f asked.
Proof.
  unfold judge, confirms. intros H N (T & n & P & E & U). rewrite P, T in H. apply named_true in E. unfold PROFILE in H. rewrite E, U in H.
  assert (same_bytes asked asked = true) as Q by (apply same_true; reflexivity). rewrite Q in H. injection H as <- <-. apply (N (n_content n)). reflexivity.
Qed.
Lemma judge_err parse f asked r err : judge parse f asked = (r, err) -> err = match f_type f with TRpy => None | _ => error_in parse f end.
Proof.
  unfold judge, error_in, is_named, ERROR. intros H. apply (f_equal snd) in H. cbn [snd] in H. rewrite <- H. clear H.
  destruct (parse (f_payload f)) as [n|]; [|destruct (f_type f); reflexivity].
  destruct (f_type f); cbn [snd]; try (destruct (list_eq_dec Z.eq_dec (n_name n) [101; 114; 114; 111; 114]); reflexivity).
  destruct (list_eq_dec Z.eq_dec (n_name n) PROFILE); [|reflexivity]. destruct (n_uri n) as [u|]; [|reflexivity]. destruct (same_bytes u asked); reflexivity.
Qed.

(** The keys of the cache are texts seen in replies with a profile. *)
Definition from_log (parse : bytes -> option node) (l : list verdict) (k : bytes) : Prop :=
  exists d, In d l /\ c_str (f_payload (d_frame d)) = k /\ some_profile parse (d_frame d).
Definition cache_ok (parse : bytes -> option node) (s : vst) : Prop :=
  Forall (fun e => from_log parse (v_log s) (fst e)) (v_cache s) /\
  Forall (fun e => match snd e with VHit _ f _ => from_log parse (v_log s) (c_str (f_payload f)) | _ => True end) (v_thr s).
Lemma from_log_more parse l m k : from_log parse l k -> from_log parse (l ++ m) k.
Proof. intros (d & I & H). exists d. split; [apply in_app_iff; auto|exact H]. Qed.
Lemma find_some_in {B A} (f : B * A -> bool) l x : option_map snd (find f l) = Some x -> exists e, In e l /\ f e = true /\ snd e = x.
Proof. destruct (find f l) as [e|] eqn:F; [|discriminate]. intros H. injection H as H. apply find_some in F. destruct F. eauto. Qed.
Lemma cache_step parse s e s' : cache_ok parse s -> vstep parse s e = Ok s' -> cache_ok parse s'.
Proof.
  intros (C & T) H. destruct e as [t f asked|t]; cbn [vstep] in H.
  - destruct (phase_of s t); apply ok_inj in H; subst s'; [split; auto|]. split; cbn; [exact C|]. constructor; [|exact T]. cbn.
    unfold entry_of. destruct (find (fun e => same_bytes (fst e) (c_str (f_payload f))) (v_cache s)) as [e|] eqn:F; cbn; [|exact Logic.I].
    apply find_some in F. destruct F as [F1 F2]. apply same_true in F2. rewrite Forall_forall in C. specialize (C _ F1). rewrite F2 in C. exact C.
  - destruct (phase_of s t) as [[id f asked|f asked]|] eqn:P; [| |apply ok_inj in H; subst; split; auto].
    + destruct (content_of s id); [|discriminate]. apply ok_inj in H. subst s'. split; cbn.
      * eapply Forall_impl; [|exact C]. intros a. apply from_log_more.
      * unfold end_thr. rewrite Forall_forall in *. intros x I. apply filter_In in I. destruct I as [I _]. specialize (T _ I). destruct (snd x); auto. apply from_log_more, T.
    + destruct (judge parse f asked) as [[[ok c]|] err] eqn:J; apply ok_inj in H; subst s'; split; cbn.
      * constructor.
        -- cbn. exists (mkV f asked ok (if ok then piggy c else None) err). conj; [apply in_app_iff; right; left; reflexivity|reflexivity|]. cbn. apply (judge_some _ _ _ _ _ _ J).
        -- rewrite Forall_forall in *. intros x I. apply filter_In in I. apply from_log_more, C, I.
      * unfold end_thr. rewrite Forall_forall in *. intros x I. apply filter_In in I. destruct I as [I _]. specialize (T _ I). destruct (snd x); auto. apply from_log_more, T.
      * eapply Forall_impl; [|exact C]. intros a. apply from_log_more.
      * unfold end_thr. rewrite Forall_forall in *. intros x I. apply filter_In in I. destruct I as [I _]. specialize (T _ I). destruct (snd x); auto. apply from_log_more, T.
Qed.
Lemma cache0 parse : cache_ok parse v0.
Proof. split; constructor. Qed.
(** What is added to the log in a step. *)
Lemma log_step parse s e s' : cache_ok parse s -> vstep parse s e = Ok s' ->
  v_log s' = v_log s \/ exists d, v_log s' = v_log s ++ [d] /\
    ((d_ok d = true /\ from_log parse (v_log s) (c_str (f_payload (d_frame d))) /\ d_error d = None) \/
     ((d_ok d = true <-> confirms parse (d_frame d) (d_asked d)) /\ (d_ok d = true -> d_piggy d = content_in parse (d_frame d)) /\
      d_error d = match f_type (d_frame d) with TRpy => None | _ => error_in parse (d_frame d) end)) /\
    (d_ok d = false -> d_piggy d = None).
Proof.
  intros (C & T) H. destruct e as [t f asked|t]; cbn [vstep] in H.
  - destruct (phase_of s t); apply ok_inj in H; subst s'; auto.
  - destruct (phase_of s t) as [[id f asked|f asked]|] eqn:P; [| |apply ok_inj in H; subst; auto].
    + destruct (content_of s id) as [c|]; [|discriminate]. apply ok_inj in H. subst s'. right. eexists. split; [reflexivity|]. cbn. split; [|discriminate]. left. conj; auto.
      unfold phase_of in P. apply find_some_in in P. destruct P as (x & I & _ & E). rewrite Forall_forall in T. specialize (T _ I). rewrite E in T. exact T.
    + destruct (judge parse f asked) as [[[ok c]|] err] eqn:J; apply ok_inj in H; subst s'; right; eexists; (split; [reflexivity|]); cbn; split.
      * right. pose proof (judge_err _ _ _ _ _ J). destruct ok.
        -- destruct (judge_true _ _ _ _ _ J) as (A & B & D). conj; auto. split; auto.
        -- conj; auto; [|discriminate]. split; [discriminate|]. intros X. exfalso. apply (judge_not _ _ _ _ _ J); [discriminate|exact X].
      * intros ->. reflexivity.
      * right. pose proof (judge_err _ _ _ _ _ J). conj; auto; [|discriminate]. split; [discriminate|]. intros X. exfalso. apply (judge_not _ _ _ _ _ J); [discriminate|exact X].
      * auto.
Qed.
Lemma vrun_inv parse (P : vst -> Prop) : (forall s e s', P s -> vstep parse s e = Ok s' -> P s') -> forall es s s', P s -> vrun parse s es = Ok s' -> P s'.
Proof.
  intros St. induction es as [|e es IH]; intros s s' H R; cbn [vrun] in R; [apply ok_inj in R; subst; exact H|].
  destruct (vstep parse s e) as [x|] eqn:E; [|discriminate]. cbn in R. apply (IH x); [apply (St s e); auto|exact R].
Qed.
Definition log_ok (parse : bytes -> option node) (s : vst) : Prop := cache_ok parse s /\
  forall a d b, v_log s = a ++ d :: b ->
    ((d_ok d = true /\ from_log parse a (c_str (f_payload (d_frame d))) /\ d_error d = None) \/
     ((d_ok d = true <-> confirms parse (d_frame d) (d_asked d)) /\ (d_ok d = true -> d_piggy d = content_in parse (d_frame d)) /\
      d_error d = match f_type (d_frame d) with TRpy => None | _ => error_in parse (d_frame d) end)) /\
    (d_ok d = false -> d_piggy d = None).
Lemma log_run parse es s : vrun parse v0 es = Ok s -> log_ok parse s.
Proof.
  apply vrun_inv with (P := log_ok parse).
  - intros u e u' (C & L) St. split; [apply (cache_step parse u e); auto|]. intros a d b E.
    destruct (log_step parse u e u' C St) as [N|(d0 & N & H)].
    + apply (L a d b). congruence.
    + rewrite N in E. apply snoc_cases in E. destruct E as [(-> & <- & ->)|(b' & -> & E)]; [exact H|apply (L a d b' E)].
  - split; [apply cache0|]. intros [|x a] d b E; discriminate.
Qed.
Lemma first_thm parse es s a d b : vrun parse v0 es = Ok s -> v_log s = a ++ d :: b -> unseen (d_frame d) a ->
  (d_ok d = true <-> confirms parse (d_frame d) (d_asked d)) /\ d_piggy d = (if d_ok d then content_in parse (d_frame d) else None) /\
  d_error d = match f_type (d_frame d) with TRpy => None | _ => error_in parse (d_frame d) end.
Proof.
  intros R E U. destruct (log_run parse es s R) as [_ L]. destruct (L a d b E) as [[(O & (d' & I & Q & _) & _)|(A & B & C)] Pn].
  - exfalso. apply (U d' I). exact Q.
  - conj; auto. destruct (d_ok d); auto.
Qed.
Lemma origin_thm parse es s a d b : vrun parse v0 es = Ok s -> v_log s = a ++ d :: b -> d_ok d = true ->
  confirms parse (d_frame d) (d_asked d) \/ exists d', In d' a /\ c_str (f_payload (d_frame d')) = c_str (f_payload (d_frame d)) /\ some_profile parse (d_frame d').
Proof.
  intros R E O. destruct (log_run parse es s R) as [_ L]. destruct (L a d b E) as [[(_ & F & _)|(A & _)] _]; [right; exact F|left; apply A, O].
Qed.

(** One validation at a time is always defined. *)
Definition entries_ok (s : vst) : Prop := Forall (fun e => exists c, content_of s (snd e) = Some c) (v_cache s) /\ Forall (fun e => fst e < v_next s) (v_content s) /\ v_thr s = [].
Lemma entries_pair parse s t f asked : entries_ok s -> exists s', vrun parse s [VStart t f asked; VNext t] = Ok s' /\ entries_ok s'.
Proof.
  intros (A & B & C). cbn [vrun vstep]. unfold phase_of at 1. rewrite C. cbn [find option_map obind]. unfold phase_of. cbn [v_thr find fst]. rewrite Z.eqb_refl. cbn [option_map snd].
  destruct (entry_of s (f_payload f)) as [id|] eqn:E.
  - assert (X : exists c, content_of s id = Some c).
    { unfold entry_of in E. apply find_some_in in E. destruct E as (e & I & _ & <-). rewrite Forall_forall in A. apply A, I. }
    destruct X as [c X]. unfold content_of in *. cbn [v_content]. rewrite X. cbn [obind]. eexists. split; [reflexivity|].
    unfold entries_ok, content_of. cbn. rewrite Z.eqb_refl. cbn. conj; auto.
  - destruct (judge parse f asked) as [[[ok c]|] err]; cbn [obind]; (eexists; split; [reflexivity|]); unfold entries_ok, content_of in *; cbn.
    + rewrite Z.eqb_refl. cbn. unfold entry_of in E. cbn in *. unfold entry_of. cbn [v_cache]. rewrite E. conj; [|constructor; [cbn; lia|]|reflexivity].
      * constructor; [cbn; rewrite Z.eqb_refl; eexists; reflexivity|]. apply Forall_forall. intros x I. apply filter_In in I. destruct I as [I _]. rewrite Forall_forall in A. destruct (A x I) as [c' Hc].
        cbn. destruct (v_next s =? snd x) eqn:Q; [eexists; reflexivity|]. rewrite Hc. eexists; reflexivity.
      * eapply Forall_impl; [|exact B]. cbn. intros. lia.
    + rewrite Z.eqb_refl. cbn. conj; auto.
Qed.
Lemma vrun_app parse s a b : vrun parse s (a ++ b) = match vrun parse s a with Ok x => vrun parse x b | UB => UB end.
Proof. revert s. induction a as [|e a IH]; intros s; [reflexivity|]. cbn. destruct (vstep parse s e); cbn; [apply IH|reflexivity]. Qed.
Lemma defined_thm parse es : one_by_one es -> exists s, vrun parse v0 es = Ok s.
Proof.
  assert (G : forall n es s, (length es <= n)%nat -> entries_ok s -> one_by_one es -> exists s', vrun parse s es = Ok s').
  { induction n as [|n IH]; intros l s L E O; [destruct l; [eexists; reflexivity|cbn in L; lia]|]. destruct l as [|[t f a|t] l]; [eexists; reflexivity| |contradiction].
    destruct l as [|[t' f' a'|u] l]; [destruct O|destruct O|]. cbn [one_by_one] in O. destruct O as [O1 O]. subst u. destruct (entries_pair parse s t f a E) as (x & R & Ex).
    change (VStart t f a :: VNext t :: l) with ([VStart t f a; VNext t] ++ l). rewrite vrun_app, R. apply IH; auto. cbn in L. lia. }
  intros O. apply (G (length es) es v0); auto. unfold entries_ok. cbn. conj; auto.
Qed.

(** ** Witnesses *)
Definition P1 : bytes := [49].
Definition P2 : bytes := [50].
Definition doc (u : bytes) : node := mkN PROFILE (Some u) None (Some [55]).
(** A parser for the texts "1" and "2": the profile with that uri and content 7. *)
Definition tiny (b : bytes) : option node := match b with [49] => Some (doc P1) | [50] => Some (doc P2) | _ => None end.
Definition reply1 : rframe := mkF TRpy [49].
Definition bad1 : rframe := mkF TErr [49].
Lemma twice_witness : exists parse es s a d b, vrun parse v0 es = Ok s /\ one_by_one es /\ v_log s = a ++ d :: b /\ d_ok d = true /\
  f_type (d_frame d) = TRpy /\ ~ confirms parse (d_frame d) (d_asked d) /\ map d_ok a = [false] /\ map d_frame a = [d_frame d] /\ map d_asked a = [d_asked d].
Proof.
  exists tiny, [VStart 0 reply1 P2; VNext 0; VStart 0 reply1 P2; VNext 0]. eexists. exists [mkV reply1 P2 false None None], (mkV reply1 P2 true None None), [].
  conj; try reflexivity; try (cbn; tauto). intros (_ & n & Pn & _ & U). cbn in Pn. injection Pn as <-. cbn in U. discriminate.
Qed.
Lemma err_witness : exists parse es s a d b, vrun parse v0 es = Ok s /\ one_by_one es /\ v_log s = a ++ d :: b /\ d_ok d = true /\ f_type (d_frame d) = TErr.
Proof.
  exists tiny, [VStart 0 reply1 P1; VNext 0; VStart 0 bad1 P1; VNext 0]. eexists. exists [mkV reply1 P1 true (Some [55]) None], (mkV bad1 P1 true (Some [55]) None), [].
  conj; try reflexivity; cbn; tauto.
Qed.
Lemma other_witness : exists parse es s a d b, vrun parse v0 es = Ok s /\ one_by_one es /\ v_log s = a ++ d :: b /\ d_ok d = true /\
  (exists n, parse (f_payload (d_frame d)) = Some n /\ n_uri n <> Some (d_asked d)) /\ Forall (fun x => confirms parse (d_frame x) (d_asked x)) a.
Proof.
  exists tiny, [VStart 0 reply1 P1; VNext 0; VStart 0 reply1 P2; VNext 0]. eexists. exists [mkV reply1 P1 true (Some [55]) None], (mkV reply1 P2 true (Some [55]) None), [].
  conj; try reflexivity; try (cbn; tauto).
  - exists (doc P1). split; [reflexivity|discriminate].
  - constructor; [|constructor]. split; [reflexivity|]. exists (doc P1). auto.
Qed.
Lemma piggy_witness : exists parse es s a d b, vrun parse v0 es = Ok s /\ one_by_one es /\ v_log s = a ++ d :: b /\ d_ok d = true /\
  confirms parse (d_frame d) (d_asked d) /\ content_in parse (d_frame d) = Some [55] /\ d_piggy d = None.
Proof.
  exists tiny, [VStart 0 reply1 P2; VNext 0; VStart 0 reply1 P1; VNext 0]. eexists. exists [mkV reply1 P2 false None None], (mkV reply1 P1 true None None), [].
  conj; try reflexivity; try (cbn; tauto). split; [reflexivity|]. exists (doc P1). auto.
Qed.
Lemma freed_witness : exists parse es, vrun parse v0 es = UB /\ forall t f a, In (VStart t f a) es -> confirms parse f a.
Proof.
  exists tiny, [VStart 0 reply1 P1; VStart 1 reply1 P1; VNext 0; VStart 2 reply1 P1; VNext 1; VNext 2]. split; [reflexivity|].
  intros t f a I. assert (f = reply1 /\ a = P1) as [-> ->]. { cbn in I. repeat destruct I as [I|I]; try contradiction; try discriminate; injection I; auto. }
  split; [reflexivity|]. exists (doc P1). auto.
Qed.
