(** The properties of the I/O waiting mechanisms. *)
From Verif Require Import Base IoModel IoSpec IoProofs.

(** C152: a wait set grows up to the limit of the process, within its arrays. *)
Theorem C152_next_partial : forall c h i, 0 < c -> h <= two31 / 2 -> 0 < i <= 16 ->
  next_size c h i = Ok (if h <=? c then c else Z.min (c * 2) h).
Proof. exact next_thm. Qed.
Print Assumptions C152_next_partial.
Theorem C152_poll_partial : forall l h0 h, hard_ok h -> exists s, poll_run h (poll_create h0) l = Ok s /\ p_inside s.
Proof. exact poll_safe_thm. Qed.
Print Assumptions C152_poll_partial.
Theorem C152_room_partial : forall l h s fd c, 0 < h <= two31 / 2 -> poll_run (Some h) (poll_create h) l = Ok s ->
  exists s' b, poll_add s fd c (Some h) true true = Ok (s', b) /\ (b = true <-> zlen (ps_items s) < h) /\
    ps_items s' = ps_items s ++ (if b then [(fd, c)] else []).
Proof. exact poll_room_thm. Qed.
Print Assumptions C152_room_partial.
Theorem C152_epoll_partial : forall l h0 h, hard_ok h -> exists s, epoll_run h (epoll_create h0) l = Ok s /\ e_inside s /\
  forall ready, epoll_wait s ready <> UB.
Proof. exact epoll_safe_thm. Qed.
Print Assumptions C152_epoll_partial.
Theorem C152_eroom_partial : forall l h s fd c k, 0 < h <= two31 / 2 -> epoll_run (Some h) (epoll_create h) l = Ok s -> k <> CtlFail ->
  exists s' b, epoll_add s fd c k (Some h) true = Ok (s', b) /\ (b = true <-> es_len s < h) /\
    es_items s' = es_items s ++ (match k with CtlOk => if b then [(fd, c)] else [] | _ => [] end).
Proof. exact epoll_room_thm. Qed.
Print Assumptions C152_eroom_partial.
Theorem C152_first : forall h, ps_max (poll_create h) = (if h <=? 0 then 4096 else Z.min h 4096) /\ es_max (epoll_create h) = ps_max (poll_create h).
Proof. exact first_thm. Qed.
Print Assumptions C152_first.
Theorem C152_count : forall s fd c k h a s' b, epoll_add s fd c k h a = Ok (s', b) ->
  es_len s' = es_len s + (if b then 1 else 0) /\ (b = true -> k <> CtlFail) /\ (b = false -> es_items s' = es_items s).
Proof. exact count_thm. Qed.
Print Assumptions C152_count.
Theorem C152_overflow_refuted : exists c h, 0 < c < h /\ h < two31 /\ next_size c h 8 = UB.
Proof. exact overflow_thm. Qed.
Print Assumptions C152_overflow_refuted.
Theorem C152_unlimited_refuted : exists l s, Forall p_alloc l /\ poll_run (Some (hard_limit (two64 - 1))) (poll_create (hard_limit (two64 - 1))) l = Ok s /\
  zlen (ps_items s) = 4096 /\ poll_add s 5 1 (Some (hard_limit (two64 - 1))) true true = Ok (s, false).
Proof. exact unlimited_thm. Qed.
Print Assumptions C152_unlimited_refuted.
Example C152_case : next_size 4096 1073741816 8 = Ok 8192 /\ next_size 8192 10000 8 = Ok 10000 /\ next_size 10000 10000 8 = Ok 10000 /\
  poll_run (Some 3) (poll_create 3) [PAdd 7 1 true true; PAdd 8 2 true true; PAdd 9 3 true true; PAdd 10 4 true true] = Ok (mkPS 3 3 3 [(7, 1%nat); (8, 2%nat); (9, 3%nat)]).
Proof. vm_compute. auto. Qed.

(** C153: the sockets that can be read are the ones dispatched, each once. *)
Theorem C153_poll : forall l, poll_dispatch l 0 (poll_changed l) = can_read l.
Proof. exact poll_dispatch_thm. Qed.
Print Assumptions C153_poll.
Theorem C153_epoll : forall s ready l, epoll_wait s ready = Ok (WEvents l) ->
  epoll_dispatch l 0 (zlen l) (es_len s) = can_read l /\ (zlen ready <= es_len s -> l = ready).
Proof. exact epoll_dispatch_thm. Qed.
Print Assumptions C153_epoll.
Example C153_case : let l := [(1%nat, mkRe false false true); (2%nat, mkRe true false false); (3%nat, mkRe false false false); (4%nat, mkRe false true true)] in
  poll_changed l = 3 /\ poll_dispatch l 0 3 = [2%nat; 4%nat] /\ epoll_dispatch l 0 4 4 = [2%nat; 4%nat].
Proof. vm_compute. auto. Qed.

(** C154: the wait ends for something to do. *)
Theorem C154_data_partial : forall l, only_data l -> 0 < poll_changed l -> poll_dispatch l 0 (poll_changed l) <> [].
Proof. exact data_thm. Qed.
Print Assumptions C154_data_partial.
Theorem C154_sleep_partial : forall s ready, 0 < es_len s -> epoll_wait s ready <> Ok WError.
Proof. exact sleep_thm. Qed.
Print Assumptions C154_sleep_partial.
Theorem C154_ignored_refuted : exists l, 0 < poll_changed l /\ poll_dispatch l 0 (poll_changed l) = [] /\ epoll_dispatch l 0 (zlen l) (zlen l) = [].
Proof. exact ignored_thm. Qed.
Print Assumptions C154_ignored_refuted.
Theorem C154_spin_refuted : exists s, e_inside s /\ es_items s = [] /\ forall ready, epoll_wait s ready = Ok WError.
Proof. exact spin_thm. Qed.
Print Assumptions C154_spin_refuted.
Example C154_case : only_data [(2%nat, mkRe true false true)] /\ poll_changed [(2%nat, mkRe true false true)] = 1.
Proof. split; [|reflexivity]. intros c r [E|[]] _. injection E as <- <-. reflexivity. Qed.

(** C155: select(2) within its set. *)
Theorem C155_inside : forall l, let s := fold_left (fun s fd => fst (sel_add s fd)) l (mkSS 0 []) in
  ss_len s < FD_SETSIZE /\ forall fd, In fd (ss_fds s) -> 0 <= fd < FD_SETSIZE.
Proof. exact select_safe_thm. Qed.
Print Assumptions C155_inside.
Theorem C155_set_partial : forall left fd, 0 < fd < FD_SETSIZE -> exists b, sel_is_set left fd = Ok b /\ (b = true <-> In fd left).
Proof. exact select_set_thm. Qed.
Print Assumptions C155_set_partial.
Theorem C155_added : forall s fd, (snd (sel_add s fd) = true <-> 0 <= fd < FD_SETSIZE /\ ss_len s <> FD_SETSIZE - 1) /\
  (snd (sel_add s fd) = true -> fst (sel_add s fd) = mkSS (ss_len s + 1) (fd :: ss_fds s)) /\ (snd (sel_add s fd) = false -> fst (sel_add s fd) = s).
Proof. exact select_add_thm. Qed.
Print Assumptions C155_added.
Theorem C155_zero_refuted : exists s, sel_add (mkSS 0 []) 0 = (s, true) /\ In 0 (ss_fds s) /\ sel_is_set (ss_fds s) 0 = Ok false.
Proof. exact zero_thm. Qed.
Print Assumptions C155_zero_refuted.
Theorem C155_beyond_refuted : exists fd, snd (sel_add (mkSS 0 []) fd) = false /\ sel_is_set [] fd = UB.
Proof. exact beyond_thm. Qed.
Print Assumptions C155_beyond_refuted.
Example C155_case : let s := fst (sel_add (fst (sel_add (mkSS 0 []) 5)) 1023) in
  sel_is_set (ss_fds s) 5 = Ok true /\ sel_is_set (ss_fds s) 1023 = Ok true /\ sel_is_set (ss_fds s) 6 = Ok false /\ snd (sel_add s 1024) = false.
Proof. vm_compute. auto. Qed.
