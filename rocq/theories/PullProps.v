(** The properties of the PULL API. *)
From Verif Require Import Base PullModel PullSpec PullProofs PullProofs2 PullProofs3.

(** C147: what happens is reported once. *)
Theorem C147_once_partial : forall l s h, natural l -> inits l <= 1 -> prun p0 l = Ok s ->
  calls (this h) (p_log s) <= 1 /\ pushed (this h) (p_log s) <= 1.
Proof. exact once_pushed_thm. Qed.
Print Assumptions C147_once_partial.
Theorem C147_exactly_partial : forall a h b s,
  natural (a ++ Occur h :: b) -> ~ In Init (a ++ Occur h :: b) -> ~ In Cleanup (a ++ Occur h :: b) ->
  prun p0 (Init :: a ++ Occur h :: b) = Ok s -> p_calls s = [] ->
  (h_kind h = KClosed -> 0 < num (is_ready (h_conn h)) (happens a) /\ num (is_closed (h_conn h)) (happens a) = 0 /\
     forall sa, prun p0 (Init :: a) = Ok sa -> p_calls sa = []) ->
  pushed (this h) (p_log s) + skipped (this h) (p_log s) = 1 /\
  ((forall e, In e (a ++ Occur h :: b) -> is_install e = false) -> pushed (this h) (p_log s) = 1).
Proof. exact exactly_thm. Qed.
Print Assumptions C147_exactly_partial.
Theorem C147_account : forall P l s, prun p0 l = Ok s ->
  calls P (p_log s) = pushed P (p_log s) + skipped P (p_log s) + leaked P (p_log s) + inflight P s.
Proof. exact account_thm. Qed.
Print Assumptions C147_account.
Theorem C147_twice_refuted : exists l s h, natural l /\ prun p0 l = Ok s /\ h_kind h = KClosed /\ pushed (this h) (p_log s) = 2.
Proof. exact twice_thm. Qed.
Print Assumptions C147_twice_refuted.
Example C147_case : exists s, prun p0 (Init :: [Occur (mkH 1 KReady 7); Step 0 true; Step 0 true; Step 0 true] ++ Occur (mkH 2 KClosed 7) :: [Step 0 false; Step 0 true]) = Ok s /\
  p_calls s = [] /\ pushed (this (mkH 2 KClosed 7)) (p_log s) = 1 /\ pushed (this (mkH 1 KReady 7)) (p_log s) = 1.
Proof. eexists. conj; vm_compute; reflexivity. Qed.

(** C148: events come out in the order they were pushed, each once. *)
Theorem C148_fifo : forall l s, prun p0 l = Ok s -> out_order (p_log s) ++ queued s = in_order (p_log s).
Proof. exact fifo_thm. Qed.
Print Assumptions C148_fifo.
Example C148_case : exists s, prun p0 [Init; Occur (mkH 1 KFrame 7); Occur (mkH 2 KFrame 7); Step 0 true; Step 1 true; Step 1 true; Step 0 true; Next true] = Ok s /\
  p_log s = [POccur (mkH 1 KFrame 7); PCall (mkH 1 KFrame 7); POccur (mkH 2 KFrame 7); PCall (mkH 2 KFrame 7);
             PPush 1 (mkH 2 KFrame 7); PPush 0 (mkH 1 KFrame 7); PPull 1 (mkH 2 KFrame 7)] /\ queued s = [(0%nat, mkH 1 KFrame 7)].
Proof. eexists. conj; vm_compute; reflexivity. Qed.

(** C149: a request to start or close a channel reaches the user or is accepted. *)
Theorem C149_answered_partial : forall P l s, asks P -> ~ In Cleanup l -> prun p0 l = Ok s ->
  calls P (p_log s) = pulled P (p_log s) + num (fun x => P (snd x)) (queued s) + accepted P (p_log s) + inflight P s.
Proof. exact answered_thm. Qed.
Print Assumptions C149_answered_partial.
Theorem C149_dropped_refuted : exists l s h, h_kind h = KStart /\ prun p0 l = Ok s /\ p_calls s = [] /\ queued s = [] /\
  calls (this h) (p_log s) = 1 /\ deferred (this h) (p_log s) = 1 /\ pulled (this h) (p_log s) = 0 /\ accepted (this h) (p_log s) = 0.
Proof. exact dropped_thm. Qed.
Print Assumptions C149_dropped_refuted.
Theorem C149_leaked_refuted : exists l s h e, h_kind h = KStart /\ prun p0 l = Ok s /\ p_calls s = [] /\ queued s = [] /\
  deferred (this h) (p_log s) = 1 /\ pulled (this h) (p_log s) = 0 /\ accepted (this h) (p_log s) = 0 /\ alive s e = true /\ held e (p_log s) = 0.
Proof. exact leaked_thm. Qed.
Print Assumptions C149_leaked_refuted.
Example C149_case : exists s, prun p0 [Init; Occur (mkH 1 KClose 7); Install (mkM 3 64 true); Occur (mkH 2 KStart 7); Step 1 true; Step 0 true; Step 0 true; Next false] = Ok s /\
  pulled (this (mkH 1 KClose 7)) (p_log s) = 1 /\ accepted (this (mkH 2 KStart 7)) (p_log s) = 1 /\ p_calls s = [].
Proof. eexists. conj; vm_compute; reflexivity. Qed.

(** C150: the masks. *)
Theorem C150_filter : forall l k, filtered l (type k) = true <-> exists m, In m l /\ m_on m = true /\ Z.testbit (m_bits m) (bit k) = true.
Proof. exact filter_thm. Qed.
Print Assumptions C150_filter.
Theorem C150_bits : forall m e n, 0 <= n ->
  Z.testbit (m_bits (mask_add m e)) n = Z.testbit (m_bits m) n || Z.testbit e n /\
  Z.testbit (m_bits (mask_remove m e)) n = Z.testbit (m_bits m) n && negb (Z.testbit e n) /\
  (forall b, m_on (mask_enable m b) = b /\ m_bits (mask_enable m b) = m_bits m) /\
  m_on (mask_add m e) = m_on m /\ m_on (mask_remove m e) = m_on m /\ m_id (mask_add m e) = m_id m /\ m_id (mask_remove m e) = m_id m /\ forall b, m_id (mask_enable m b) = m_id m.
Proof. exact masks_thm. Qed.
Print Assumptions C150_bits.
Theorem C150_ids : forall l s, prun p0 l = Ok s -> NoDup (map m_id (p_masks s)).
Proof. exact ids_thm. Qed.
Print Assumptions C150_ids.
Theorem C150_skip : forall s e s' h, pstep s e = Ok s' -> skipped (this h) (p_log s) < skipped (this h) (p_log s') ->
  p_queue s = None \/ exists m, In m (p_masks s) /\ m_on m = true /\ Z.testbit (m_bits m) (bit (h_kind h)) = true.
Proof. exact skip_thm. Qed.
Print Assumptions C150_skip.
Theorem C150_masked : forall s i ok h, nth_error (p_calls s) i = Some (mkCall h SCall) ->
  (exists m, In m (p_masks s) /\ m_on m = true /\ Z.testbit (m_bits m) (bit (h_kind h)) = true) ->
  exists s', pstep s (Step i ok) = Ok s' /\ p_log s' = p_log s ++ unreported h /\ p_queue s' = p_queue s.
Proof. exact masked_thm. Qed.
Print Assumptions C150_masked.
Theorem C150_kinds : forall j k, bit j = bit k -> j = k.
Proof. exact bit_thm. Qed.
Print Assumptions C150_kinds.
Theorem C150_install : forall l m, (snd (install l m) = true <-> ~ In (m_id m) (map m_id l)) /\
  (snd (install l m) = true -> fst (install l m) = l ++ [m]) /\ (snd (install l m) = false -> fst (install l m) = l).
Proof. exact install_thm. Qed.
Print Assumptions C150_install.
Theorem C150_change : forall l i f x, In x (change_at l i f) <-> exists m, In m l /\ x = if Nat.eqb (m_id m) i then change f m else m.
Proof. exact change_thm. Qed.
Print Assumptions C150_change.
Example C150_case : let m := mkM 1 0 true in
  filtered [mask_add m (Z.lor (type KFrame) (type KStart))] (type KStart) = true /\
  filtered [mask_remove (mask_add m 65) 64] (type KStart) = false /\ filtered [mask_enable (mask_add m 65) false] (type KFrame) = false.
Proof. vm_compute. auto. Qed.

(** C151: an event lives while somebody has it, and is freed once. *)
Theorem C151_safe_partial : forall l, polite p0 l -> exists s, prun p0 l = Ok s.
Proof. exact safe_thm. Qed.
Print Assumptions C151_safe_partial.
Theorem C151_life_partial : forall l s e, polite p0 l -> prun p0 l = Ok s ->
  (alive s e = true <-> 0 < owned s e) /\ 0 <= held e (p_log s) /\ freed e (p_log s) <= 1 /\
  (freed e (p_log s) = 1 <-> (e < p_next s)%nat /\ owned s e = 0).
Proof. exact life_thm. Qed.
Print Assumptions C151_life_partial.
Theorem C151_race_refuted : exists l, prun p0 l = UB /\ forall e x, In e l -> e <> Ref x /\ e <> Unref x.
Proof. exact race_thm. Qed.
Print Assumptions C151_race_refuted.
Theorem C151_waiter_refuted : exists l, prun p0 l = UB /\ forall e, In e l -> e = Init \/ e = Next true \/ e = Cleanup.
Proof. exact waiter_thm. Qed.
Print Assumptions C151_waiter_refuted.
Theorem C151_noconn_refuted : exists l s h, polite p0 l /\ prun p0 l = Ok s /\ h_kind h = KFrame /\ pulled (this h) (p_log s) = 1 /\
  p_events s = [mkE 0 h false 1].
Proof. exact noconn_thm. Qed.
Print Assumptions C151_noconn_refuted.
Example C151_case : let l := [Init; Occur (mkH 1 KFrame 7); Step 0 true; Step 0 true; Next true; Ref 0; Cleanup; Unref 0; Unref 0] in
  polite p0 l /\ exists s, prun p0 l = Ok s /\ freed 0 (p_log s) = 1 /\ alive s 0 = false.
Proof. split; [vm_compute; conj; auto; intros c []|]. eexists. conj; vm_compute; reflexivity. Qed.
