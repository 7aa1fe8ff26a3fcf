(** Each step keeps the invariant. *)
From Verif Require Import Base CloseModel CloseSpec CloseProofs.
Lemma not_freed s : k_in s = true -> freed s = false.
Proof. unfold freed. intros ->. reflexivity. Qed.
Lemma verdict_none : verdict None = true.
Proof. reflexivity. Qed.
Lemma less_less {A} (l : list (Z * A)) m : less (less l m) m = less l m.
Proof. unfold less. induction l as [|a l IH]; [reflexivity|]. cbn. destruct (negb (fst a =? m)) eqn:E; cbn; rewrite ?E, ?IH; reflexivity. Qed.
Definition drop_r (s : kst) (m : Z) : kst := with_resp s (less (k_resp s) m).
Lemma go_drop s m p : go_r (drop_r s m) m p = go_r s m p.
Proof. unfold drop_r. fields. unfold go_r. fields. rewrite less_less. reflexivity. Qed.
Lemma j_decided s m v : inv s -> k_mutex s = None -> k_being s = false -> 0 <= m < k_reqs s -> inv (decided s m v).
Proof.
  intros I A B C. unfold decided. destruct v.
  - apply j_wait; auto.
  - apply j_end, inv_reply. replace (with_being s false) with s; [exact I|]. destruct s; cbn in *. unfold with_being. cbn. congruence.
Qed.
Lemma decided_drop s m v : decided (drop_r s m) m v = decided s m v.
Proof.
  unfold decided. destruct v; unfold go_r, end_r, reply, drop_r; fields; [|destruct (k_up s); fields]; rewrite less_less; reflexivity.
Qed.
Lemma less_none {A} (l : list (Z * A)) x : look l x = None -> less l x = l.
Proof.
  unfold look, less. induction l as [|[a p] l IH]; [reflexivity|]. cbn. destruct (a =? x) eqn:E; cbn; [discriminate|]. intros H. rewrite IH; auto.
Qed.
Lemma with_clo_same s : with_clo s (k_clo s) = s.
Proof. destruct s. reflexivity. Qed.
Definition known (s : kst) : Prop := forall m, In (ODefer m) (k_log s) -> 0 <= m < k_reqs s.
Lemma inv_step s e : inv s -> known s -> calm s e -> exists s', kstep s e = Ok s' /\ inv s'.
Proof.
  intros I K C. assert (Same : exists s', Ok s = Ok s' /\ inv s') by eauto.
  destruct e; cbn [kstep resp_step clo_step].
  - destruct (k_up s) eqn:U; [|auto]. destruct d as [[]|]; [| |].
    + eexists. split; [reflexivity|]. pose proof (j_req s (k_log s) I) as J. rewrite U in J. exact J.
    + exfalso. apply C. reflexivity.
    + eexists. split; [reflexivity|]. apply j_end, inv_reply. pose proof (j_req2 s (k_log s) I) as J. rewrite U in J. exact J.
  - destruct (at_r s m) as [[]|] eqn:P; auto. destruct (k_up s) eqn:U, (k_in s) eqn:N; cbn [andb]; eexists; (split; [reflexivity|]); try (apply j_end, inv_reply; exact I).
    apply j_exists; auto.
  - destruct (at_r s m) as [[]|] eqn:P; auto. rewrite (i_touch s I m _ P Logic.I). eexists. split; [reflexivity|]. apply j_get; auto.
  - destruct (at_r s m) as [[]|] eqn:P; auto. destruct (k_mutex s) eqn:M; auto. destruct (k_being s) eqn:B.
    + eexists. split; [reflexivity|]. apply j_fake; [apply inv_reply; exact I|]. unfold reply. destruct (k_up s); exact P.
    + rewrite not_freed by (apply (i_touch s I m _ P Logic.I)). pose proof (j_drop s m I) as J. fold (drop_r s m) in *. destruct h.
      * eexists. split; [reflexivity|]. apply inv_log, J.
      * eexists. split; [reflexivity|]. rewrite go_drop. apply inv_log, j_handler; auto.
      * eexists. split; [reflexivity|]. rewrite go_drop. apply inv_log, j_handler; auto.
      * eexists. split; [reflexivity|]. rewrite decided_drop. apply j_decided; auto. apply (i_valid s I m _ P).
  - destruct (at_r s m) as [[]|] eqn:P; auto. pose proof (i_mutex s I m _ P) as M. pose proof (i_held s I m M) as B. destruct (i_fresh s I B) as [N W].
    rewrite (not_freed s N). eexists. split; [reflexivity|].
    rewrite <- decided_drop. apply j_decided; auto; [|apply (i_valid s I m _ P)]. apply (j_decide s m _ I P).
  - destruct (at_r s m) as [[]|] eqn:P; auto. destruct (k_wait s) eqn:W; eexists; (split; [reflexivity|]); [apply j_fakeref|apply j_end]; auto.
  - destruct (at_r s m) as [[]|] eqn:P; auto. pose proof (i_fake s I (i_ref s I m P) m _ P Logic.I) as F.
    destruct (k_wrefs s =? 0) eqn:Z0; [lia|]. eexists; (split; [reflexivity|]). apply j_fakepush; auto.
  - destruct (at_r s m) as [[]|] eqn:P; auto. destruct (i_rown s I m _ P eq_refl) as [B N]. rewrite (not_freed s N). destruct (k_mutex s) eqn:M; auto.
    destruct (k_out (with_being s true) <=? 0); [eexists; split; [reflexivity|]; apply j_replies; auto|].
    destruct (k_up (with_being s true)); eexists; (split; [reflexivity|]); [|apply j_replies; auto].
    replace (with_being s true) with s; [exact I|]. destruct s; cbn in *. unfold with_being. cbn. congruence.
  - destruct (at_r s m) as [[]|] eqn:P; auto. destruct (i_rown s I m _ P eq_refl) as [B N]. rewrite (not_freed s N). destruct (k_mutex s) eqn:M; auto.
    destruct C as [C1 C2]. eexists; split; [reflexivity|]. destruct ok; [|apply (j_finish s m false); auto].
    assert (I' : inv (reply s m AOk)) by (apply inv_reply; auto). assert (E : k_resp (reply s m AOk) = k_resp s /\ k_clo (reply s m AOk) = k_clo s) by (unfold reply; destruct (k_up s); auto).
    destruct E as [E1 E2]. apply (j_finish _ m true); auto.
    + rewrite at_r_look, E1. exact P.
    + intros x q. rewrite at_r_look, E1. apply C1.
    + intros x. rewrite at_c_look, E2. apply C2.
  - destruct C as ((D1 & D2 & D3) & N & V). rewrite D3, (not_freed s N). destruct v; eexists; (split; [reflexivity|]); [|apply inv_reply; exact I].
    destruct (V eq_refl) as [V1 V2]. apply j_wait; auto.
  - rewrite (not_freed s C). destruct (at_c s t) eqn:P; auto. destruct (flagged s); eexists; (split; [reflexivity|]); [|apply j_clock; auto].
    replace (end_c s t true) with (with_log s [ODone t true]); [apply inv_log; exact I|]. unfold end_c. rewrite less_none by exact P. rewrite with_clo_same. reflexivity.
  - destruct (at_c s t) as [[]|] eqn:P; auto.
    + rewrite not_freed by (apply (i_clock s I t P)). destruct (k_mutex s) eqn:M; auto. destruct (k_being s) eqn:B; eexists; (split; [reflexivity|]); [apply j_cloop|apply j_cset]; auto.
    + destruct (k_up s && k_in s); [auto|]. eexists; (split; [reflexivity|]). apply j_cloopend; auto.
    + destruct (i_cown s I t _ P eq_refl) as [B N]. rewrite (not_freed s N). eexists; (split; [reflexivity|]). apply j_creplies; auto.
    + destruct (i_cown s I t _ P eq_refl) as [B N]. rewrite (not_freed s N). destruct (k_up s) eqn:U; cbn [negb].
      * destruct (k_out s <=? 0); [|auto]. eexists; (split; [reflexivity|]). apply j_csend; auto.
      * eexists; (split; [reflexivity|]). apply j_cdown; auto.
    + destruct (i_cown s I t _ P eq_refl) as [B N]. rewrite (not_freed s N). destruct (k_queue s) eqn:Q; [destruct (k_up s) eqn:U|]; eexists; (split; [reflexivity|]).
      * pose proof (j_csent s t I P) as J. rewrite Q in J. apply (inv_log _ [OSent t]) in J. exact J.
      * apply j_cfail; auto. cbn [calm] in C. rewrite P in C. auto.
      * apply j_cskip; auto.
    + destruct (i_cown s I t _ P eq_refl) as [B N]. rewrite (not_freed s N). cbn [calm] in C. rewrite P in C. destruct r; eexists; (split; [reflexivity|]).
      * destruct C. apply j_cend; auto.
      * apply j_cend2; auto.
  - destruct (at_c s t) as [[]|] eqn:P; auto. destruct (i_cown s I t _ P eq_refl) as [B N]. rewrite (not_freed s N). destruct (i_refs s I t _ P eq_refl) as [_ W].
    assert (None1 : exists s', Ok (go_c (with_log (with_wait s (k_wait s) (k_queue s) (k_wrefs s - 1) (k_sent s)) [OTook t None]) t (CEnd (verdict None))) = Ok s' /\ inv s').
    { eexists; (split; [reflexivity|]). pose proof (j_ctake s t (k_queue s) (k_wait s) true I P C (fun H => Logic.conj H eq_refl)) as J. apply (inv_log _ [OTook t None]) in J. exact J. }
    cbv zeta. destruct (timeout && negb (k_up s)); [exact None1|]. destruct (k_queue s) eqn:Q; [destruct (timeout || negb (k_up s)); auto|].
    eexists; (split; [reflexivity|]). assert (J : inv (go_c (with_wait s false l (k_wrefs s - 1) (k_sent s)) t (CEnd (verdict (Some w))))) by (apply j_ctake; auto; discriminate).
    apply (inv_log _ [OTook t (Some w)]) in J. exact J.
  - destruct f; auto; destruct (k_up s) eqn:U, (k_sent s) eqn:X; cbn [andb]; auto; eexists; (split; [reflexivity|]); apply j_reply; auto.
  - rewrite (not_freed s C). destruct (k_being s || negb (k_up s)); eexists; (split; [reflexivity|]); apply inv_log; auto. apply j_out; auto.
  - destruct (k_up s && (0 <? k_out s)); auto. eexists; (split; [reflexivity|]). apply j_out; auto.
  - eexists; (split; [reflexivity|]). apply j_down; auto.
Qed.
