(** The portable pipe of the library (src/vortex_support.c 954-1083, src/vortex_listener.c 483-495) and the descriptor of events that the Lua binding
    makes with it (lua-vortex/src/lua-vortex.c 764-792, 936-984).

    The kernel answers each call: its answers are the argument [ans].  The state is the set of descriptors the process has open.  The socket options
    and the log are left out.  The address written by getsockname is indeterminate when the call fails; its use is undefined behaviour here.  Other
    threads do not open or close descriptors during a call. *)
From Verif Require Import Base.

(** Who is at the other end of an accepted socket: the socket the function connects itself, or another program of the machine. *)
Inductive peer := Own | Other (n : nat).
Inductive conn := CDone | CProgress | CFail.
Record ans := mkA {
  a_lst : Z;            (* socket (), the listener: -1 or a descriptor *)
  a_bind : bool;        (* bind () works *)
  a_listen : bool;      (* listen () works *)
  a_name : Z;           (* what getsockname () returns: 0 or -1 *)
  a_cli : Z;            (* socket (), the read side *)
  a_conn : conn;        (* connect (): done, EINPROGRESS, another error *)
  a_before : list peer; (* the connections already waiting at the listener when ours arrives *)
  a_acc : Z             (* accept () *)
}.
(** vortex_close_socket (src/vortex.h 101). *)
Definition close_fd (fd : Z) (open : list Z) : list Z := if 0 <=? fd then filter (fun x => negb (x =? fd)) open else open.
(** What a descriptor given by the kernel adds. *)
Definition opened (fd : Z) (open : list Z) : list Z := if fd <? 0 then open else fd :: open.

Record pres := mkP { p_ret : Z; p_d0 : Z; p_d1 : Z; p_open : list Z; p_peer : option peer }.
(** vortex_listener_accept: the first connection of the queue. *)
Definition first_waiting (q : list peer) : peer := match q with [] => Own | x :: _ => x end.
(** vortex_support_pipe (966-1083); [d0], [d1] are the contents of descf before the call. *)
Definition support_pipe (a : ans) (d0 d1 : Z) (open : list Z) : outcome pres :=
  let l := a_lst a in
  let open1 := opened l open in
  if l <=? 2 then Ok (mkP (-1) d0 d1 open1 None) else
  if negb (a_bind a) then Ok (mkP (-1) d0 d1 (close_fd l open1) None) else
  if negb (a_listen a) then Ok (mkP (-1) d0 d1 (close_fd l open1) None) else
  if a_name a <? -1 then Ok (mkP (-1) d0 d1 (close_fd l open1) None) else
  if negb (a_name a =? 0) then UB else
  let c := a_cli a in
  let open2 := opened c open1 in
  if c =? -1 then Ok (mkP (-1) c d1 (close_fd l open2) None) else
  match a_conn a with
  | CFail => Ok (mkP (-1) c d1 (close_fd l open2) None)
  | CDone | CProgress =>
      let s := a_acc a in
      let open3 := opened s open2 in
      if s <=? 0 then Ok (mkP (-1) c s (close_fd l open3) None)
      else Ok (mkP 0 c s (close_fd l open3) (Some (first_waiting (a_before a))))
  end.

(** The lock of an interpreter: the two descriptors, 0 at first (axl_new). *)
Record lock := mkL { l_p0 : Z; l_p1 : Z; l_peer : option peer }.
Definition lock0 : lock := mkL 0 0 None.
(** What vortex.event_fd gives: a descriptor, an error, nothing. *)
Inductive evres := EFd (fd : Z) | EErr | ENone.
(** lua_vortex_event_fd (951-984), with __lua_vortex_event_fd_init_pipe (936-945). *)
Definition event_fd (a : ans) (l : lock) (open : list Z) : outcome (evres * lock * list Z) :=
  if 0 <? l_p0 l then Ok (EFd (l_p0 l), l, open) else
  let! r := support_pipe a (l_p0 l) (l_p1 l) open in
  let l' := mkL (p_d0 r) (p_d1 r) (p_peer r) in
  if negb (p_ret r =? 0) then Ok (EErr, l', p_open r) else
  if 0 <? p_d0 r then Ok (EFd (p_d0 r), l', p_open r) else Ok (ENone, l', p_open r).
(** The calls of vortex.event_fd, one after another, with what each gave. *)
Fixpoint event_fds (al : list ans) (l : lock) (open : list Z) : outcome (list evres * lock * list Z) :=
  match al with
  | [] => Ok ([], l, open)
  | a :: r =>
      let! x := event_fd a l open in
      let! y := event_fds r (snd (fst x)) (snd x) in
      Ok (fst (fst x) :: fst (fst y), snd (fst y), snd y)
  end.
(** lua_vortex_release_lock, the part of the pipe (784-787). *)
Definition lock_free (l : lock) (open : list Z) : list Z :=
  let open1 := if 0 <? l_p0 l then close_fd (l_p0 l) open else open in
  if 0 <? l_p1 l then close_fd (l_p1 l) open1 else open1.
