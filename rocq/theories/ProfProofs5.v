(** Calls made one after another. *)
From Verif Require Import Base HdrModel HdrProofs ProfModel ProfSpec ProfProofs ProfProofs2 ProfProofs3 ProfProofs4.

Definition entry (u : Z) (g : settings) : prof :=
  mkP u (fn_of (g_start g)) (g_start_d g) (g_ext g) (g_ext_d g) (fn_of (g_close g)) (g_close_d g) (g_recv g) (g_recv_d g) 1.
Definition same (h : list (option prof)) (x : Z * nat) (y : Z * settings) : Prop :=
  fst x = fst y /\ nth_error h (snd x) = Some (Some (entry (fst y) (snd y))).
Definition agree (s : pst) (m : registry) (g : option (Z * Z)) : Prop :=
  s_thr s = [] /\ s_lock s = None /\ s_list s = map snd (s_tab s) /\ s_glob s = g /\ refs s /\ Forall2 (same (s_heap s)) (s_tab s) m.

Lemma upd_upd : forall A (l : list A) i x y, upd_nth (upd_nth l i x) i y = upd_nth l i y.
Proof. induction l as [|a l IH]; intros [|i] x y; cbn; auto. rewrite IH. auto. Qed.
Lemma upd_id : forall A (l : list A) i x, nth_error l i = Some x -> upd_nth l i x = l.
Proof. induction l as [|a l IH]; intros [|i] x H; cbn in *; try discriminate; [congruence|]. rewrite IH; auto. Qed.

Definition tfind (tab : list (Z * nat)) (u : Z) : option nat := option_map snd (find (fun e => fst e =? u) tab).
Lemma same_none : forall h tab m u, Forall2 (same h) tab m -> known m u = None -> tfind tab u = None.
Proof.
  intros h tab m u H. induction H as [|(v, i) (v', g) tab m (E & _) H IH]; intros K; auto. cbn in *. subst v'. unfold tfind in *. cbn.
  destruct (v =? u); [discriminate|]. auto.
Qed.
Lemma same_some : forall h tab m u g, Forall2 (same h) tab m -> known m u = Some g -> exists i, tfind tab u = Some i /\ nth_error h i = Some (Some (entry u g)).
Proof.
  intros h tab m u g H. induction H as [|(v, i) (v', g') tab m (E & L) H IH]; intros K; [discriminate|]. cbn in *. subst v'. unfold tfind in *. cbn.
  destruct (Z.eqb_spec v u) as [->|N]; [injection K as ->; exists i; auto|]. auto.
Qed.
Lemma same_upd_other : forall h tab m i q, ~ In i (map snd tab) -> Forall2 (same h) tab m -> Forall2 (same (upd_nth h i q)) tab m.
Proof.
  intros h tab m i q N H. induction H as [|(v, j) y tab m (E & L) H IH]; constructor.
  - split; auto. cbn in *. rewrite nth_upd_other; auto.
  - apply IH. intros K. apply N. right. auto.
Qed.
Lemma tfind_in : forall tab u i, tfind tab u = Some i -> In (u, i) tab.
Proof. intros tab u i H. apply (lookup_in (mkS [] tab [] None None [] [])). exact H. Qed.
Lemma same_change : forall h tab m u f i g, Forall2 (same h) tab m -> NoDup (map snd tab) -> known m u = Some g -> tfind tab u = Some i ->
  Forall2 (same (upd_nth h i (Some (entry u (f g))))) tab (change m u f).
Proof.
  intros h tab m u f i g H. induction H as [|(v, j) (v', g') tab m (E & L) H IH]; intros N K T; [constructor|]. cbn in *. subst v'. inversion N as [|? ? N1 N2]; subst.
  unfold tfind in T. cbn in T. destruct (Z.eqb_spec v u) as [->|V].
  - cbn in T. injection T as ->. injection K as ->. constructor; [|apply same_upd_other; auto]. split; auto. cbn. apply nth_upd_same. eapply nth_lt; eauto.
  - fold (tfind tab u) in T. constructor; [|apply IH; auto]. split; auto. cbn. rewrite nth_upd_other; auto.
    intros <-. apply N1. apply tfind_in in T. apply in_map_iff. exists (u, i). auto.
Qed.
Lemma same_forget : forall h tab m u i q, Forall2 (same h) tab m -> NoDup (map snd tab) -> NoDup (map fst tab) -> tfind tab u = Some i ->
  Forall2 (same (upd_nth h i q)) (without tab u) (forget m u) /\ remove_ptr (map snd tab) i = map snd (without tab u).
Proof.
  intros h tab m u i q H. induction H as [|(v, j) (v', g') tab m (E & L) H IH]; intros N M T; [discriminate|]. cbn in *. subst v'.
  inversion N as [|? ? N1 N2]; inversion M as [|? ? M1 M2]; subst.
  unfold tfind in T. cbn in T. destruct (Z.eqb_spec v u) as [->|V]; cbn.
  - cbn in T. injection T as ->. rewrite Nat.eqb_refl. fold (without tab u). rewrite without_none by auto. split; auto. apply same_upd_other; auto.
  - fold (tfind tab u) in T. fold (without tab u). destruct (IH N2 M2 T) as (A & B). assert (I : In i (map snd tab)) by (apply tfind_in in T; apply in_map_iff; exists (u, i); auto).
    assert (IJ : j <> i) by (intros ->; auto). destruct (Nat.eqb_spec j i); [congruence|]. split; [|rewrite B; auto].
    constructor; auto. split; auto. cbn. rewrite nth_upd_other; auto.
Qed.
Lemma change_none : forall m u f, known m u = None -> change m u f = m.
Proof. induction m as [|(v, g) m IH]; intros u f H; cbn in *; auto. destruct (v =? u); [discriminate|]. rewrite IH; auto. Qed.
Lemma forget_none : forall m u, known m u = None -> forget m u = m.
Proof. induction m as [|(v, g) m IH]; intros u H; cbn in *; auto. destruct (v =? u); [discriminate|]. rewrite IH; auto. Qed.
Lemma change_length : forall m u f, length (change m u f) = length m.
Proof. induction m as [|(v, g) m IH]; intros u f; cbn; auto. destruct (v =? u); cbn; auto. Qed.
Lemma forget_length : forall m u, (length (forget m u) <= length m)%nat.
Proof. induction m as [|(v, g) m IH]; intros u; cbn; auto. destruct (v =? u); cbn; auto. specialize (IH u). lia. Qed.
Lemma after_length : forall m c, (length (after m c) <= S (length m))%nat.
Proof.
  intros m c. destruct c; cbn; auto.
  - destruct (known m u); rewrite ?change_length, ?app_length; cbn; lia.
  - destruct (known m u); rewrite ?change_length, ?app_length; cbn; lia.
  - rewrite change_length. lia.
  - pose proof (forget_length m u). lia.
Qed.

Section One.
Variables (t : Z) (r : bool).
Lemma run_step : forall h tab l lk glob p log n,
  prun (mkS h tab l lk glob [(t, p)] log) (repeat (EStep t r) (S n)) =
  let! s := adv (mkS h tab l lk glob [(t, p)] log) t p r in prun s (repeat (EStep t r) n).
Proof. intros. cbn -[adv]. unfold phase_of. cbn -[adv]. rewrite Z.eqb_refl. cbn -[adv]. reflexivity. Qed.
Lemma run_idle : forall h tab l lk glob log n, prun (mkS h tab l lk glob [] log) (repeat (EStep t r) n) = Ok (mkS h tab l lk glob [] log).
Proof. intros. induction n as [|n IH]; auto. Qed.
Lemma goes_one : forall h tab l lk glob p log q, goes (mkS h tab l lk glob [(t, p)] log) t q = mkS h tab l lk glob [(t, q)] log.
Proof. intros. unfold goes, put_thr. cbn. rewrite Z.eqb_refl. reflexivity. Qed.
Lemma ends_one : forall h tab l lk glob p log, ends (mkS h tab l lk glob [(t, p)] log) t = mkS h tab l lk glob [] log.
Proof. intros. unfold ends, put_thr. cbn. rewrite Z.eqb_refl. reflexivity. Qed.
Lemma deref_one : forall h tab l lk glob thr log i w, nth_error h i = Some (Some w) -> deref (mkS h tab l lk glob thr log) i = Ok w.
Proof. intros. apply nth_deref. auto. Qed.
Lemma write_one : forall h tab l lk glob thr log i w f, nth_error h i = Some (Some w) ->
  write (mkS h tab l lk glob thr log) i f = Ok (mkS (upd_nth h i (Some (f w))) tab l lk glob thr log).
Proof. intros. unfold write. rewrite (deref_one _ _ _ _ _ _ _ _ w) by auto. reflexivity. Qed.
Lemma greet_run : forall h l k tab lk glob log names n,
  Forall2 (fun i u => exists w, nth_error h i = Some (Some w) /\ p_uri w = u) (skipn k l) names -> (2 * length names + 1 <= n)%nat ->
  prun (mkS h tab l lk glob [(t, GNext k)] log) (repeat (EStep t r) n) =
  Ok (mkS h tab l None glob [] (log ++ map (fun u => OName t u) names ++ [OEnd t])).
Proof.
  intros h l k tab lk glob log nm. revert k log. induction nm as [|u nm IH]; intros k log n F L.
  - destruct n as [|n]; [cbn in L; lia|]. rewrite run_step. cbn -[goes ends see]. assert (E : nth_error l k = None).
    { inversion F as [E|]. symmetry in E. apply nth_error_None. pose proof (skipn_length k l) as X. rewrite E in X. cbn in X. lia. }
    rewrite E. unfold put_lock. cbn -[ends see prun repeat]. rewrite ends_one. cbn -[prun]. apply run_idle.
  - cbn in L. destruct n as [|[|n]]; try lia. rewrite run_step. cbn -[goes ends see repeat].
    inversion F as [|i v x y Hi Hy E1 E2]; subst. assert (E : nth_error l k = Some i).
    { rewrite <- (firstn_skipn k l). assert (KL : (k < length l)%nat). { destruct (le_lt_dec (length l) k) as [Q|Q]; auto. rewrite skipn_all2 in E1 by auto. discriminate. }
      rewrite nth_error_app2 by (rewrite firstn_length; lia). rewrite firstn_length. replace (k - Nat.min k (length l))%nat with 0%nat by lia. rewrite <- E1. auto. }
    rewrite E. rewrite goes_one. cbn -[goes ends see repeat]. rewrite run_step. cbn -[goes ends see repeat]. destruct Hi as (w & W & U).
    rewrite (deref_one _ _ _ _ _ _ _ _ w) by auto. cbn -[goes ends see repeat]. rewrite goes_one. unfold see. cbn -[repeat].
    rewrite IH; [|replace (skipn (S k) l) with x|lia].
    + rewrite U, <- app_assoc. reflexivity.
    + exact Hy.
    + clear - E1. revert l E1. induction k as [|k IH]; intros [|a l] E; cbn in *; try discriminate; [congruence|]. apply IH. auto.
Qed.
End One.
Ltac dn n := destruct n as [|n]; [exfalso; lia|].
Ltac look w := match goal with
  | |- context [deref (mkS ?h ?tab ?l ?lk ?gl ?th ?lg) ?i] => rewrite (deref_one h tab l lk gl th lg i w) by (first [assumption | apply nth_upd_same; assumption])
  | |- context [write (mkS ?h ?tab ?l ?lk ?gl ?th ?lg) ?i ?f] =>
      rewrite (write_one h tab l lk gl th lg i w f) by (first [assumption | apply nth_upd_same; assumption])
  end.
Ltac nrm := cbn -[prun repeat goes ends deref write upd_nth adv entry]; rewrite ?goes_one, ?ends_one, ?upd_upd; unfold see, put_lock, put_heap; cbn -[prun repeat goes ends deref write upd_nth adv entry].
Ltac adv1 := rewrite run_step; cbn -[prun repeat goes ends deref write upd_nth see put_lock put_heap entry unref].

Definition wait (t : Z) (p : ph) (h : list (option prof)) (tab : list (Z * nat)) (l : list nat) lk glob log : pst := mkS h tab l lk glob [(t, p)] log.
Lemma unref_two : forall h tab l lk glob thr log i w, nth_error h i = Some (Some w) -> p_ref w = 2 ->
  unref (mkS h tab l lk glob thr log) i = Ok (mkS (upd_nth h i (Some (set_ref 1 w))) tab l lk glob thr log).
Proof. intros. unfold unref. rewrite (deref_one _ _ _ _ _ _ _ _ w) by auto. cbn -[write]. rewrite H0. cbn -[write]. rewrite (write_one _ _ _ _ _ _ _ _ w) by auto. auto. Qed.
Lemma unref_last : forall h tab l lk glob thr log i w, nth_error h i = Some (Some w) -> p_ref w = 1 ->
  unref (mkS h tab l lk glob thr log) i = Ok (mkS (upd_nth h i None) tab l lk glob thr log).
Proof. intros. unfold unref. rewrite (deref_one _ _ _ _ _ _ _ _ w) by auto. cbn. rewrite H0. auto. Qed.

Section Calls.
Variables (t : Z) (r : bool) (h : list (option prof)) (tab : list (Z * nat)) (l : list nat) (glob : option (Z * Z)) (log : list pobs) (i : nat) (u : Z) (g : settings).
Hypothesis E : nth_error h i = Some (Some (entry u g)).
Let L : (i < length h)%nat := nth_lt _ _ _ _ E.
Let w2 := set_ref 2 (entry u g).
Let h2 := upd_nth h i (Some w2).
Lemma h2_at : nth_error h2 i = Some (Some w2).
Proof. apply nth_upd_same. exact L. Qed.
Lemma h2_back : upd_nth h2 i (Some (set_ref 1 w2)) = h.
Proof. unfold h2. rewrite upd_upd. apply upd_id. exact E. Qed.
Lemma drop2 : forall p lk gl lg, unref (mkS h2 tab l lk gl [(t, p)] lg) i = Ok (mkS h tab l lk gl [(t, p)] lg).
Proof. intros. rewrite (unref_two _ _ _ _ _ _ _ _ w2); auto; [rewrite h2_back; auto|apply h2_at]. Qed.
Ltac flds := change (p_uri w2) with u; change (p_ext w2) with (g_ext g); change (p_ext_d w2) with (g_ext_d g); change (p_start w2) with (fn_of (g_start g));
  change (p_start_d w2) with (g_start_d g); change (p_close w2) with (fn_of (g_close g)); change (p_close_d w2) with (g_close_d g);
  change (p_recv w2) with (g_recv g); change (p_recv_d w2) with (g_recv_d g).
Ltac d2 := rewrite (deref_one _ _ _ _ _ _ _ _ w2) by apply h2_at; cbn -[prun repeat goes ends deref write see put_lock put_heap unref h2 w2 fn_of]; flds.
Ltac s2 := rewrite run_step; cbn -[prun repeat goes ends deref write see put_lock put_heap unref h2 w2 fn_of].
Ltac e2 := rewrite ?drop2; cbn -[prun repeat goes ends deref write see unref h2 w2 fn_of]; rewrite ?ends_one, ?goes_one; unfold see; cbn -[prun repeat goes ends deref write unref h2 w2 fn_of].
Lemma start_run : forall n, (5 <= n)%nat -> prun (mkS h2 tab l None glob [(t, S1 i)] log) (repeat (EStep t r) n) =
  Ok (mkS h tab l None glob [] (log ++ [OCall t u (decider glob g); OAns t r])).
Proof.
  intros n N. do 5 dn n. s2. d2. e2. s2. d2. e2. s2. d2. e2. s2. unfold decider. destruct (g_ext g) as [f|].
  - d2. e2. s2. e2. rewrite run_idle, <- app_assoc. reflexivity.
  - destruct (g_start g) as [f|]; cbn [fn_of].
    + d2. e2. s2. e2. rewrite run_idle, <- app_assoc. reflexivity.
    + destruct glob as [(f, d)|]; d2; e2; s2; e2; rewrite run_idle, <- app_assoc; reflexivity.
Qed.
Lemma close_run : forall n, (5 <= n)%nat -> prun (mkS h2 tab l None glob [(t, K1 i)] log) (repeat (EStep t r) n) =
  Ok (mkS h tab l None glob [] (log ++ [OCall t u (TClose (fn_of (g_close g)) (g_close_d g)); OAns t r])).
Proof. intros n N. do 5 dn n. s2. d2. e2. s2. d2. e2. s2. e2. rewrite run_idle, <- app_assoc. reflexivity. Qed.
Lemma frame_run : forall n, (5 <= n)%nat -> prun (mkS h2 tab l None glob [(t, F1 i)] log) (repeat (EStep t r) n) =
  Ok (mkS h tab l None glob [] (log ++ match g_recv g with None => [OAns t false] | Some f => [OAns t true; OCall t u (TRecv f (g_recv_d g))] end)).
Proof.
  intros n N. do 5 dn n. s2. d2. destruct (g_recv g) as [f|] eqn:R; e2; [|rewrite run_idle; reflexivity].
  s2. d2. rewrite R. e2. s2. d2. e2. s2. e2. rewrite run_idle, <- app_assoc. reflexivity.
Qed.
Lemma defined_run : forall n, (5 <= n)%nat -> prun (mkS h2 tab l None glob [(t, DR i)] log) (repeat (EStep t r) n) = Ok (mkS h tab l None glob [] (log ++ [OAns t true])).
Proof. intros n N. do 5 dn n. s2. d2. e2. rewrite run_idle. reflexivity. Qed.
Lemma taken : forall p lg, lookup (mkS h tab l None glob [] lg) u = Some i ->
  get_and_ref (mkS h tab l None glob [] lg) u = Ok (Some i, mkS h2 tab l None glob [] lg) /\ goes (mkS h2 tab l None glob [] lg) t p = mkS h2 tab l None glob [(t, p)] lg.
Proof.
  intros p lg K. unfold get_and_ref. rewrite K. rewrite (deref_one _ _ _ _ _ _ _ _ (entry u g)) by auto. cbn -[write goes h2 upd_nth].
  rewrite (write_one _ _ _ _ _ _ _ _ (entry u g)) by auto. split; reflexivity.
Qed.
Lemma asked_run : forall q n, q = D1 i \/ q = DC i -> (5 <= n)%nat -> prun (mkS h tab l None glob [(t, q)] log) (repeat (EStep t r) n) = Ok (mkS h tab l None glob [] (log ++ [OAns t true])).
Proof.
  intros q n Q N. do 5 dn n. destruct Q as [-> | ->]; (s2; rewrite (deref_one _ _ _ _ _ _ _ _ (entry u g)) by exact E; e2; rewrite run_idle; reflexivity).
Qed.
Lemma unreg_run : forall n, (5 <= n)%nat -> prun (mkS h tab l (Some t) glob [(t, UDrop i)] log) (repeat (EStep t r) n) =
  Ok (mkS (upd_nth h i None) tab l None glob [] (log ++ [OAns t true])).
Proof.
  intros n N. do 5 dn n. s2. rewrite (unref_last _ _ _ _ _ _ _ _ (entry u g)) by (auto; exact E). cbn -[prun repeat goes ends see put_lock upd_nth]. unfold put_lock. cbn -[prun repeat goes ends see upd_nth].
  e2. rewrite run_idle. reflexivity.
Qed.
Ltac wr := match goal with
  | |- context [write (mkS ?hh ?tab ?l ?lk ?gl ?th ?lg) i ?f] =>
      match hh with
      | upd_nth h i (Some ?w) => rewrite (write_one hh tab l lk gl th lg i w f) by (apply nth_upd_same; exact L)
      | h => rewrite (write_one hh tab l lk gl th lg i (entry u g) f) by exact E
      end
  end; rewrite ?upd_upd; cbn -[prun repeat goes ends see put_lock upd_nth write entry]; unfold put_lock; cbn -[prun repeat goes ends see upd_nth write entry];
  rewrite ?goes_one, ?ends_one; unfold see; cbn -[prun repeat upd_nth write entry].
Ltac s3 := rewrite run_step; cbn -[prun repeat goes ends deref write see put_lock put_heap unref upd_nth entry].
Lemma ext_run : forall f d n, (5 <= n)%nat -> prun (mkS h tab l (Some t) glob [(t, XSet i f d)] log) (repeat (EStep t r) n) =
  Ok (mkS (upd_nth h i (Some (entry u (mkSet (g_start g) (g_start_d g) f d (g_close g) (g_close_d g) (g_recv g) (g_recv_d g))))) tab l None glob [] (log ++ [OAns t true])).
Proof. intros f d n N. do 5 dn n. s3. wr. s3. wr. rewrite run_idle. reflexivity. Qed.
Lemma recv_run : forall f d n, (5 <= n)%nat -> prun (mkS h tab l (Some t) glob [(t, VSet i f d)] log) (repeat (EStep t r) n) =
  Ok (mkS (upd_nth h i (Some (entry u (mkSet (g_start g) (g_start_d g) (g_ext g) (g_ext_d g) (g_close g) (g_close_d g) f d)))) tab l None glob [] (log ++ [OAns t true])).
Proof. intros f d n N. do 5 dn n. s3. wr. s3. wr. rewrite run_idle. reflexivity. Qed.
Lemma reg_run : forall a n, (6 <= n)%nat -> prun (mkS h tab l None glob [(t, RUpd i 0 a)] log) (repeat (EStep t r) n) =
  Ok (mkS (upd_nth h i (Some (entry u (mkSet (a_start a) (a_start_d a) (g_ext g) (g_ext_d g) (a_close a) (a_close_d a) (a_recv a) (a_recv_d a))))) tab l None glob [] (log ++ [OAns t true])).
Proof. intros a n N. do 6 dn n. do 6 (s3; wr). rewrite run_idle. destruct a as [x1 y1 x2 y2 x3 y3]. destruct x1, x2; reflexivity. Qed.
End Calls.

Lemma same_app_heap : forall h x tab m, Forall2 (same h) tab m -> Forall2 (same (h ++ [x])) tab m.
Proof.
  intros h x tab m H. induction H as [|a b tab m (E & L) H IH]; constructor; auto. split; auto. rewrite nth_error_app1; auto. eapply nth_lt; eauto.
Qed.
Lemma same_new : forall h tab m u g, Forall2 (same h) tab m -> Forall2 (same (h ++ [Some (entry u g)])) (tab ++ [(u, length h)]) (m ++ [(u, g)]).
Proof.
  intros h tab m u g H. apply Forall2_app; [apply same_app_heap; auto|]. constructor; [|constructor]. split; auto. cbn. rewrite nth_error_app2 by lia. rewrite Nat.sub_diag. auto.
Qed.
Lemma same_names : forall h tab m, Forall2 (same h) tab m -> Forall2 (fun i u => exists w, nth_error h i = Some (Some w) /\ p_uri w = u) (map snd tab) (map fst m).
Proof. intros h tab m H. induction H as [|a b tab m (E & L) H IH]; cbn; constructor; auto. eexists. split; [exact L|reflexivity]. Qed.
Lemma one_call : forall s m g t c r n, agree s m g -> (2 * length m + 12 <= n)%nat ->
  exists s', prun s (ECall t c :: repeat (EStep t r) n) = Ok s' /\ agree s' (after m c) g /\ s_log s' = s_log s ++ seen g m t c r.
Proof.
  intros [h tab l lk glob thr log] m g t c r n (A1 & A2 & A3 & A4 & R & F) N. cbn in A1, A2, A3, A4. subst thr lk l glob. cbn [s_heap s_tab] in F.
  assert (N1 : NoDup (map fst tab)) by apply R. assert (N2 : NoDup (map snd tab)) by apply R.
  assert (goal : forall h' tab' l' lg', prun (mkS h tab (map snd tab) None g [] log) (ECall t c :: repeat (EStep t r) n) = Ok (mkS h' tab' l' None g [] lg') ->
            l' = map snd tab' -> Forall2 (same h') tab' (after m c) -> lg' = log ++ seen g m t c r ->
            exists s', prun (mkS h tab (map snd tab) None g [] log) (ECall t c :: repeat (EStep t r) n) = Ok s' /\ agree s' (after m c) g /\ s_log s' = log ++ seen g m t c r).
  { intros h' tab' l' lg' H Hl Hf Hg. eexists. split; [exact H|]. split; auto. unfold agree. cbn [s_thr s_lock s_list s_tab s_glob s_heap]. repeat (split; auto); eapply (run_refs _ _ _ R H). }
  change (s_log (mkS h tab (map snd tab) None g [] log)) with log.
  assert (LK : forall u, lookup (mkS h tab (map snd tab) None g [] log) u = tfind tab u) by reflexivity.
  assert (start : forall s1, begin (mkS h tab (map snd tab) None g [] log) t c = Ok s1 -> forall x, prun s1 (repeat (EStep t r) n) = x ->
            prun (mkS h tab (map snd tab) None g [] log) (ECall t c :: repeat (EStep t r) n) = x).
  { intros s1 H x X. cbn -[begin repeat]. rewrite H. cbn -[repeat]. exact X. }
  assert (own : forall u, match c with CRegister v _ | CExt v _ _ | CSetRecv v _ _ | CUnreg v | CStart v | CClose v | CFrame v | CIsReg v | CIsStart v | CIsClose v | CIsRecv v => v = u | CGreet => False end ->
            (known m u = None /\ tfind tab u = None) \/ (exists v i, known m u = Some v /\ tfind tab u = Some i /\ nth_error h i = Some (Some (entry u v)))).
  { intros u _. destruct (known m u) as [v|] eqn:K; [|left; split; auto; eapply same_none; eauto].
    right. destruct (same_some _ _ _ _ _ F K) as (i & I & J). exists v, i. auto. }
  destruct c; try (destruct (own u eq_refl) as [(K & T)|(v & i & K & T & E)]); try (specialize (LK u); rewrite T in LK).
  (* register *)
  - eapply goal; [eapply start; [cbn -[enlist]; rewrite LK; reflexivity|apply run_idle]|cbn; rewrite map_app; reflexivity| |reflexivity].
    cbn [after]. rewrite K. cbn. match goal with |- Forall2 (same (h ++ [Some ?p])) _ (m ++ [(u, ?q)]) => replace p with (entry u q) by (destruct (a_start a), (a_close a); reflexivity) end. apply same_new. exact F.
  - eapply goal; [eapply start; [cbn -[goes]; rewrite LK; reflexivity|eapply reg_run; [exact E|lia]]|reflexivity| |reflexivity].
    cbn [after]. rewrite K. exact (same_change h tab m u _ i v F N2 K T).
  (* extended *)
  - eapply goal; [eapply start; [cbn -[enlist]; rewrite LK; reflexivity|apply run_idle]|cbn; rewrite map_app; reflexivity| |reflexivity].
    cbn [after]. rewrite K. cbn. match goal with |- Forall2 (same (h ++ [Some ?p])) _ (m ++ [(u, ?q)]) => change p with (entry u q) end. apply same_new. exact F.
  - eapply goal; [eapply start; [cbn -[goes]; rewrite LK; reflexivity|eapply ext_run; [exact E|lia]]|reflexivity| |reflexivity].
    cbn [after]. rewrite K. exact (same_change h tab m u _ i v F N2 K T).
  (* set received *)
  - eapply goal; [eapply start; [cbn; rewrite LK; reflexivity|apply run_idle]|reflexivity|cbn [after]; rewrite change_none by auto; exact F|cbn; unfold is_known; rewrite K; reflexivity].
  - eapply goal; [eapply start; [cbn -[goes]; rewrite LK; reflexivity|eapply recv_run; [exact E|lia]]|reflexivity| |cbn; unfold is_known; rewrite K; reflexivity].
    exact (same_change h tab m u _ i v F N2 K T).
  (* unregister *)
  - eapply goal; [eapply start; [cbn; rewrite LK; reflexivity|apply run_idle]|reflexivity|cbn [after]; rewrite forget_none by auto; exact F|cbn; unfold is_known; rewrite K; reflexivity].
  - destruct (same_forget h tab m u i None F N2 N1 T) as (S1 & S2).
    eapply goal; [eapply start; [cbn -[goes deref]; rewrite LK; rewrite (deref_one _ _ _ _ _ _ _ _ (entry u v)) by exact E; reflexivity|eapply unreg_run; [exact E|lia]]|exact S2|exact S1|cbn; unfold is_known; rewrite K; reflexivity].
  (* start *)
  - eapply goal; [eapply start; [cbn -[lookup]; unfold get_and_ref; rewrite LK; reflexivity|apply run_idle]|reflexivity|exact F|cbn; rewrite K; reflexivity].
  - destruct (taken t h tab (map snd tab) g i u v E (S1 i) log LK) as (G1 & G2).
    eapply goal; [eapply start; [cbn -[goes get_and_ref]; rewrite G1; cbn -[goes]; reflexivity|eapply (start_run t r h tab (map snd tab) g log i u v); [exact E|lia]]|reflexivity|exact F|cbn; rewrite K; reflexivity].
  (* close *)
  - eapply goal; [eapply start; [cbn -[lookup]; unfold get_and_ref; rewrite LK; reflexivity|apply run_idle]|reflexivity|exact F|cbn; rewrite K; reflexivity].
  - destruct (taken t h tab (map snd tab) g i u v E (K1 i) log LK) as (G1 & G2).
    eapply goal; [eapply start; [cbn -[goes get_and_ref]; rewrite G1; cbn -[goes]; reflexivity|eapply (close_run t r h tab (map snd tab) g log i u v); [exact E|lia]]|reflexivity|exact F|cbn; rewrite K; reflexivity].
  (* frame *)
  - eapply goal; [eapply start; [cbn -[lookup]; unfold get_and_ref; rewrite LK; reflexivity|apply run_idle]|reflexivity|exact F|cbn; rewrite K; reflexivity].
  - destruct (taken t h tab (map snd tab) g i u v E (F1 i) log LK) as (G1 & G2).
    eapply goal; [eapply start; [cbn -[goes get_and_ref]; rewrite G1; cbn -[goes]; reflexivity|eapply (frame_run t r h tab (map snd tab) g log i u v); [exact E|lia]]|reflexivity|exact F|cbn; rewrite K; reflexivity].
  (* asks *)
  - eapply goal; [eapply start; [cbn; rewrite LK; reflexivity|apply run_idle]|reflexivity|exact F|cbn; unfold is_known; rewrite K; reflexivity].
  - eapply goal; [eapply start; [cbn; rewrite LK; reflexivity|apply run_idle]|reflexivity|exact F|cbn; unfold is_known; rewrite K; reflexivity].
  - eapply goal; [eapply start; [cbn; rewrite LK; reflexivity|apply run_idle]|reflexivity|exact F|cbn; unfold is_known; rewrite K; reflexivity].
  - eapply goal; [eapply start; [cbn -[goes]; rewrite LK; reflexivity|eapply asked_run; [exact E|left; reflexivity|lia]]|reflexivity|exact F|cbn; unfold is_known; rewrite K; reflexivity].
  - eapply goal; [eapply start; [cbn; rewrite LK; reflexivity|apply run_idle]|reflexivity|exact F|cbn; unfold is_known; rewrite K; reflexivity].
  - eapply goal; [eapply start; [cbn -[goes]; rewrite LK; reflexivity|eapply asked_run; [exact E|right; reflexivity|lia]]|reflexivity|exact F|cbn; unfold is_known; rewrite K; reflexivity].
  - eapply goal; [eapply start; [cbn -[lookup]; unfold get_and_ref; rewrite LK; reflexivity|apply run_idle]|reflexivity|exact F|cbn; unfold is_known; rewrite K; reflexivity].
  - destruct (taken t h tab (map snd tab) g i u v E (DR i) log LK) as (G1 & G2).
    eapply goal; [eapply start; [cbn -[goes get_and_ref]; rewrite G1; cbn -[goes]; reflexivity|eapply (defined_run t r h tab (map snd tab) g log i u v); [exact E|lia]]|reflexivity|exact F|cbn; unfold is_known; rewrite K; reflexivity].
  (* greeting *)
  - eapply goal; [eapply start; [reflexivity|eapply greet_run; [apply (same_names _ _ _ F)|rewrite map_length; lia]]|reflexivity|exact F|cbn; rewrite map_map; reflexivity].
Qed.

Lemma script_runs : forall script s m g n, agree s m g -> (2 * (length m + length script) + 12 <= n)%nat ->
  exists s', prun s (in_turn n script) = Ok s' /\ s_log s' = s_log s ++ seen_all g m script.
Proof.
  induction script as [|x script IH]; intros s m g n A N.
  - exists s. split; auto. cbn. rewrite app_nil_r. auto.
  - cbn in N. unfold in_turn. cbn [flat_map]. fold (in_turn n script). rewrite prun_app. destruct x as [g'|t c r]; cbn [one seen_all].
    + cbn [prun pstep]. cbn -[prun]. destruct A as (A1 & A2 & A3 & A4 & R & F).
      destruct (IH (mkS (s_heap s) (s_tab s) (s_list s) (s_lock s) g' (s_thr s) (s_log s)) m g' n) as (s' & P & Q); [|lia|exists s'; auto].
      unfold agree. cbn. repeat (split; auto); try apply R.
    + destruct (one_call s m g t c r n A) as (s1 & P & A1 & L); [lia|]. rewrite P. cbn -[prun].
      destruct (IH s1 (after m c) g n A1) as (s' & P' & Q); [pose proof (after_length m c); lia|]. exists s'. split; auto. rewrite Q, L, <- app_assoc. auto.
Qed.
(** C198 *)
Lemma one_after_another : forall script n, (2 * length script + 12 <= n)%nat ->
  exists s, prun pst0 (in_turn n script) = Ok s /\ s_log s = seen_all None [] script.
Proof.
  intros script n N. destruct (script_runs script pst0 [] None n) as (s & P & Q); [|cbn; lia|exists s; auto].
  unfold agree. cbn [s_thr s_lock s_list s_glob s_heap s_tab pst0]. repeat (split; auto); try apply refs0. 
Qed.
