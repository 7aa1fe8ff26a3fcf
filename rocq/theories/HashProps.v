(** Theorems about vortex_hash (C29, C30, C62). *)
From Coq Require Import Permutation.
From Verif Require Import Base AsyncModel AsyncSpec AsyncProofs HashModel HashSpec HashProofs HashProofs2.

(** ** C29: vortex_hash is a map that destroys each value exactly once *)

(** Whatever the threads do, each answer is that of an ideal map after the
    operations before it. *)
Theorem C29_map : forall es h, hrun h0 es = Ok h ->
  forall p o r, h_log h = p ++ o :: r -> answer (ideal p) o.
Proof. exact run_map. Qed.
Print Assumptions C29_map.
(** Each entry inserted is in one place: in the table, out of it and about to
    be destroyed, or gone (destroyed, or handed to the caller by delete or
    lookup_and_clear), and gone once. *)
Theorem C29_once : forall es h, hrun h0 es = Ok h ->
  NoDup (ins_ids (h_log h)) /\
  Permutation (ins_ids (h_log h)) (map he_id (h_tab h) ++ map he_id (h_dead h) ++ gone_ids (h_log h)).
Proof. exact run_once. Qed.
Print Assumptions C29_once.
(** When the table has been released nothing is left behind. *)
Theorem C29_released : forall es h, hrun h0 es = Ok h -> h_freed h = true -> h_dead h = [] ->
  Permutation (ins_ids (h_log h)) (gone_ids (h_log h)).
Proof. exact run_released. Qed.
Print Assumptions C29_released.
(** The table is released when the last reference is dropped: those of the
    users and one for each thread inside of lock_until_changed. *)
Theorem C29_references : forall es h, hrun h0 es = Ok h -> h_freed h = false ->
  h_refs h = held es + zlen (h_in h) + nwait h + h_out h.
Proof. exact (fun es h E F => proj2 (run_refs es h E F)). Qed.
Print Assumptions C29_references.

Example C29_case :
  let e1 := mkHE 0 5 7 false true in let e2 := mkHE 1 5 8 true true in let e3 := mkHE 2 6 0 false false in
  exists h, hrun h0 [HEInsert 5 7 false true; HEInsert 5 8 true true; HEInsert 6 0 false false; HELookup 5; HEDestroy 0;
                     HELookup 6; HEExists 6; HESize; HERemove 9; HETake 5; HERef; HEUnref; HEUnref] = Ok h /\
  h_log h = [HInserted e1; HChanged; HInserted e2; HChanged; HInserted e3; HChanged; HLookup 5 8; HCleanup e1 false;
             HLookup 6 0; HExists 6 true; HSize 2; HRemoved 9 false; HHanded e2; HTaken 5 8; HChanged; HCleanup e3 true] /\
  h_freed h = true.
Proof. eexists. split; [cbv; reflexivity|]. auto. Qed.

(** ** C30: vortex_hash_lock_until_changed observes changes *)

(** A notification that starts while threads wait, and is not disturbed by new
    threads coming to wait, releases them all: once every woken thread has
    run, none is blocked. *)
Theorem C30_notified_partial : forall es1 es2 h h' i q, hrun h0 es1 = Ok h -> hrun h es2 = Ok h' ->
  nth_error (h_notif h) i = Some None -> no_waits es2 -> nth_error (h_notif h') i = Some (Some 0) ->
  h_q h' = Some q -> aq_woken q = [] -> aq_blocked q = [].
Proof. exact run_notified. Qed.
Print Assumptions C30_notified_partial.
Example C30_case :
  exists h h' q, hrun h0 [HEEnter 1 0; HEWait 0; HEEnter 2 1000; HEWait 0; HEInsert 5 7 false false] = Ok h /\
  nth_error (h_notif h) 0 = Some None /\
  hrun h [HENotify 0 0; HENotify 0 1; HERun 0; HENotify 0 0; HERun 0] = Ok h' /\ h_q h' = Some q /\
  nth_error (h_notif h') 0 = Some (Some 0) /\ aq_woken q = [] /\ aq_blocked q = [] /\
  told (h_log h') 1 = [1] /\ told (h_log h') 2 = [1].
Proof. do 3 eexists. split; [cbv; reflexivity|]. split; [reflexivity|]. split; [cbv; reflexivity|]. repeat split. Qed.

(** In general it is not so.  A thread that comes to wait after the change
    takes the wake-up of the thread that was waiting, which stays blocked. *)
Theorem C30_stolen_refuted : exists es h q, hrun h0 es = Ok h /\ h_q h = Some q /\
  changes (h_log h) = 1 /\ Forall (eq (Some 0)) (h_notif h) /\
  nth_error es 1 = Some (HEWait 0) /\ nth_error es 2 = Some (HEInsert 5 7 false false) /\
  aq_blocked q = [mkWt 1 false] /\ aq_woken q = [] /\ told (h_log h) 1 = [].
Proof. exact stolen. Qed.
Print Assumptions C30_stolen_refuted.
(** A change made once the thread is inside of lock_until_changed, but not yet
    in the queue, is not noticed: a thread that saw the key and waits for its
    removal, as vortex_channel_close does, waits for nothing. *)
Theorem C30_gap_refuted : exists es h q, hrun h0 es = Ok h /\ h_q h = Some q /\
  es = [HEInsert 5 7 false false; HENotify 0 0; HEExists 5; HEEnter 1 0; HERemove 5; HENotify 1 0; HEWait 0] /\
  Forall (eq (Some 0)) (h_notif h) /\ h_tab h = [] /\
  aq_blocked q = [mkWt 1 false] /\ aq_woken q = [] /\ told (h_log h) 1 = [].
Proof. exact gap. Qed.
Print Assumptions C30_gap_refuted.
(** And a call can report a change when there was none since it was made. *)
Theorem C30_stale_refuted : exists es1 es2 h1 h2, hrun h0 es1 = Ok h1 /\ hrun h1 es2 = Ok h2 /\
  es2 = [HEEnter 1 0; HEWait 0] /\ changes (h_log h2) = changes (h_log h1) /\
  Forall (eq (Some 0)) (h_notif h1) /\ told (h_log h1) 1 = [1] /\ told (h_log h2) 1 = [1; 1].
Proof. exact stale. Qed.
Print Assumptions C30_stale_refuted.

(** ** C62: destroy functions run with the table unlocked *)

(** So for insert, replace and remove: a destroy function can use the table. *)
Theorem C62_unlocked_partial : forall es h, hrun h0 es = Ok h -> Forall (fun e => e <> HEClear) es -> h_freed h = false ->
  forall e, ~ In (HCleanup e true) (h_log h).
Proof. exact run_unlocked. Qed.
Print Assumptions C62_unlocked_partial.
Example C62_case : exists h, hrun h0 [HEInsert 5 7 false true; HERemove 5; HEDestroy 0] = Ok h /\
  In (HCleanup (mkHE 0 5 7 false true) false) (h_log h) /\ h_freed h = false.
Proof. eexists. split; [cbv; reflexivity|]. cbn. split; [|reflexivity]. tauto. Qed.
(** Not so for clear: a destroy function that uses the table blocks forever. *)
Theorem C62_clear_refuted : exists es h e, hrun h0 es = Ok h /\ In (HCleanup e true) (h_log h) /\ h_freed h = false /\ he_vd e = true.
Proof. exact locked_clear. Qed.
Print Assumptions C62_clear_refuted.
