(** The I/O waiting mechanisms (src/vortex_io.c): the size of a wait set (86-105), the
    sets of select(2) (112-287), poll(2) (293-577) and epoll(2) (585-883), and what each
    dispatches.

    Waiting for READ_OPERATIONS, as the reader does.  What the kernel reports, whether an
    allocation succeeds and whether epoll_ctl accepts a descriptor are arguments.  Writing
    beyond an array is undefined behaviour; so is FD_ISSET of a descriptor beyond
    FD_SETSIZE. *)
From Verif Require Import Base.

(** vortex.h:70-72 and vortex_io.c:71. *)
Definition FD_SETSIZE : Z := 1024.
Definition INITIAL : Z := 4096.
(** vortex_conf_get (VORTEX_HARD_SOCK_LIMIT), vortex.c:412-421: rlim_max, an unsigned
    64 bit number (the largest says there is no limit), into an int. *)
Definition hard_limit (rlim : Z) : Z := s32 rlim.

(** __vortex_io_waiting_next_size (86-105). *)
Definition size_t (n : Z) : Z := if n <? 0 then n + two64 else n.
Definition next_size (current hard item : Z) : outcome Z :=
  if hard <=? current then Ok current else
  let! n := if 0 <? current then (if current * 2 <? two31 then Ok (current * 2) else UB) else Ok INITIAL in
  let n := if (n <=? current) || (hard <? n) then hard else n in
  if (two64 - 1) / item <? size_t n then Ok current else Ok n.

(** The initial size (_create, 325-326, 616-617). *)
Definition first_size (hard : Z) : Z := if (hard <=? 0) || (INITIAL <? hard) then INITIAL else hard.

(** * poll(2): VortexPoll (293-300); the items each array has room for; what is watched. *)
Record pset := mkPS { ps_max : Z; ps_room : Z; ps_croom : Z; ps_items : list (Z * nat) }.
Definition poll_create (hard : Z) : pset := let m := first_size hard in mkPS m m m [].
(** __vortex_io_waiting_poll_clear (376-388): memset of the items used. *)
Definition poll_clear (s : pset) : outcome pset :=
  if ps_room s <? zlen (ps_items s) then UB else Ok (mkPS (ps_max s) (ps_room s) (ps_croom s) []).
(** __vortex_io_waiting_poll_add_to (399-469); the limit is NULL if it cannot be got. *)
Definition poll_put (s : pset) (fd : Z) (c : nat) : outcome (pset * bool) :=
  let n := zlen (ps_items s) in
  if (n <? ps_room s) && (n <? ps_croom s)
  then Ok (mkPS (ps_max s) (ps_room s) (ps_croom s) (ps_items s ++ [(fd, c)]), true) else UB.
Definition poll_add (s : pset) (fd : Z) (c : nat) (hard : option Z) (a1 a2 : bool) : outcome (pset * bool) :=
  if zlen (ps_items s) =? ps_max s then
    match hard with
    | None => Ok (s, false)
    | Some h =>
        let! n := next_size (ps_max s) h 8 in
        if n =? ps_max s then Ok (s, false) else
        if negb a1 then Ok (s, false) else
        if negb a2 then Ok (mkPS (ps_max s) n (ps_croom s) (ps_items s), false) else
        poll_put (mkPS n n n (ps_items s)) fd c
    end
  else poll_put s fd c.

(** What the kernel reports of a socket. *)
Record revents := mkRe { r_in : bool; r_pri : bool; r_other : bool }.
(** What poll(2) gives: the items with something to report. *)
Definition reported (r : revents) : bool := r_in r || r_pri r || r_other r.
Definition poll_changed (l : list (nat * revents)) : Z := zlen (filter (fun x => reported (snd x)) l).
(** __vortex_io_waiting_poll_dispatch (517-577). *)
Fixpoint poll_dispatch (l : list (nat * revents)) (checked changed : Z) : list nat :=
  match l with
  | [] => []
  | (c, r) :: l =>
      if checked <? changed then
        if r_in r || r_pri r then c :: poll_dispatch l (checked + 1) changed else poll_dispatch l checked changed
      else []
  end.

(** * epoll(2): VortexEPoll (585-592); the events array; what the kernel has in the set. *)
Record eset := mkES { es_max : Z; es_room : Z; es_len : Z; es_items : list (Z * nat) }.
Inductive ctl := CtlOk | CtlExist | CtlFail.
Definition epoll_create (hard : Z) : eset := let m := first_size hard in mkES m m 0 [].
(** __vortex_io_waiting_epoll_clear (677-691). *)
Definition epoll_clear (s : eset) : eset := mkES (es_max s) (es_room s) 0 [].
(** __vortex_io_waiting_epoll_add_to (702-773). *)
Definition epoll_put (s : eset) (fd : Z) (c : nat) (k : ctl) : eset * bool :=
  match k with
  | CtlFail => (s, false)
  | CtlExist => (mkES (es_max s) (es_room s) (es_len s + 1) (es_items s), true)
  | CtlOk => (mkES (es_max s) (es_room s) (es_len s + 1) (es_items s ++ [(fd, c)]), true)
  end.
Definition epoll_add (s : eset) (fd : Z) (c : nat) (k : ctl) (hard : option Z) (a : bool) : outcome (eset * bool) :=
  if es_len s =? es_max s then
    match hard with
    | None => Ok (s, false)
    | Some h =>
        let! n := next_size (es_max s) h 12 in
        if n =? es_max s then Ok (s, false) else
        if negb a then Ok (s, false) else
        Ok (epoll_put (mkES n n (es_len s) (es_items s)) fd c k)
    end
  else Ok (epoll_put s fd c k).
(** __vortex_io_waiting_epoll_wait_on (781-802): the kernel gives as many of the events
    there are as fit in length; a length of 0 is an error, at once. *)
Inductive waited := WError | WEvents (l : list (nat * revents)).
Definition epoll_wait (s : eset) (ready : list (nat * revents)) : outcome waited :=
  if es_len s <=? 0 then Ok WError else
  let l := firstn (Z.to_nat (es_len s)) ready in
  if es_room s <? zlen l then UB else Ok (WEvents l).
(** __vortex_io_waiting_epoll_dispatch (822-883). *)
Fixpoint epoll_dispatch (l : list (nat * revents)) (it changed len : Z) : list nat :=
  match l with
  | [] => []
  | (c, r) :: l =>
      if (it <? changed) && (it <? len) then
        if r_in r || r_pri r then c :: epoll_dispatch l (it + 1) changed len else epoll_dispatch l (it + 1) changed len
      else []
  end.

(** * select(2): VortexSelect (112-117). *)
Record sset := mkSS { ss_len : Z; ss_fds : list Z }.
(** __vortex_io_waiting_default_add_to (228-267). *)
Definition sel_add (s : sset) (fd : Z) : sset * bool :=
  if FD_SETSIZE <=? fd then (s, false) else
  if fd <? 0 then (s, false) else
  if ss_len s =? FD_SETSIZE - 1 then (s, false) else
  (mkSS (ss_len s + 1) (fd :: ss_fds s), true).
(** vortex_io_waiting_invoke_is_set_fd_group (1385-1401) and
    __vortex_io_waiting_default_is_set (280-287), with what select(2) left in the set. *)
Definition sel_is_set (left : list Z) (fd : Z) : outcome bool :=
  if fd <=? 0 then Ok false else
  if FD_SETSIZE <=? fd then UB else
  Ok (existsb (Z.eqb fd) left).

(** A run over a poll set and over an epoll set. *)
Inductive pop := PAdd (fd : Z) (c : nat) (a1 a2 : bool) | PClear.
Fixpoint poll_run (hard : option Z) (s : pset) (l : list pop) : outcome pset :=
  match l with
  | [] => Ok s
  | PAdd fd c a1 a2 :: l => let! (s, _) := poll_add s fd c hard a1 a2 in poll_run hard s l
  | PClear :: l => let! s := poll_clear s in poll_run hard s l
  end.
Inductive eop := EAdd (fd : Z) (c : nat) (k : ctl) (a : bool) | EClear.
Fixpoint epoll_run (hard : option Z) (s : eset) (l : list eop) : outcome eset :=
  match l with
  | [] => Ok s
  | EAdd fd c k a :: l => let! (s, _) := epoll_add s fd c k hard a in epoll_run hard s l
  | EClear :: l => epoll_run hard (epoll_clear s) l
  end.
