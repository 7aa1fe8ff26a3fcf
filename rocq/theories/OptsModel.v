(** Connection options: how they are read, how long they live and the serverName they ask for (src/vortex_connection.c 60-275, 1897-2014, 2036-2170;
    src/vortex_channel.c 1361-1365; http/vortex_http.c 202-206, 256, 340-350).

    Names are numbers.  How far the creation of a connection comes is an argument.  An option item other than the three known ones is not modelled, nor
    failures of memory. *)
From Verif Require Import Base.

Inductive item := IName (n : option nat) | IAcquire (b : bool) | IRelease (b : bool).
Record opts := mkO { o_name : option nat; o_acq : bool; o_rel : bool }.
(** __vortex_connection_opts_process (89-133). *)
Definition opt_item (o : opts) (i : item) : opts :=
  match i with
  | IName n => mkO n (o_acq o) (o_rel o)
  | IAcquire b => mkO (o_name o) b (o_rel o)
  | IRelease b => mkO (o_name o) (o_acq o) b
  end.
Definition opts_process (is : list item) : opts := fold_left opt_item is (mkO None true false).
(** vortex_connection_opts_new (161-175), vortex_connection_opts_default (187-204). *)
Definition opts_new (is : list item) : opts := opts_process is.
Definition opts_default (is : list item) : opts := let o := opts_process is in mkO (o_name o) (o_acq o) true.

(** How far the creation comes: the context or the parameters are refused; the TCP connection fails; no local address (getsockname); no text for it
    (getnameinfo); the greetings fail; done. *)
Inductive end_at := KRefused | KTcp | KSockName | KNameInfo | KGreet | KDone.
(** What a connection keeps of its options: the two keys of its data. *)
Record conn := mkC { c_name : option nat; c_acq : option bool; c_host : nat }.
(** The end of vortex_connection_do_greetings_exchange (2005-2012). *)
Definition keep (o : option opts) (host : nat) : conn :=
  match o with
  | None => mkC None None host
  | Some o => mkC (o_name o) (if o_acq o then Some true else None) host
  end.
(** vortex_connection_opts_get_serverName (217-244); [on], the flag of the context. *)
Definition server_name (on : bool) (c : conn) : option nat :=
  if negb on then None else
  match c_name c with
  | Some n => Some n
  | None =>
      match c_acq c with
      | Some true => Some (c_host c)
      | Some false => None
      | None => Some (c_host c)
      end
  end.

(** The options there are ([None], freed), the connections made, and the creations given to a thread that did not run yet. *)
Record ost := mkT { t_opts : list (option opts); t_conns : list conn; t_todo : list (option nat * end_at * nat) }.
Definition os0 : ost := mkT [] [] [].
Definition live (s : ost) (i : nat) : outcome opts := match nth_error (t_opts s) i with Some (Some o) => Ok o | _ => UB end.
Fixpoint clear (l : list (option opts)) (i : nat) : list (option opts) :=
  match l, i with [], _ => [] | _ :: r, O => None :: r | x :: r, S i => x :: clear r i end.
(** vortex_connection_opts_free (267-275). *)
Definition opts_free (s : ost) (i : nat) : outcome ost := let! _ := live s i in Ok (mkT (clear (t_opts s) i) (t_conns s) (t_todo s)).
(** vortex_connection_opts_check_and_release (251-262). *)
Definition release (s : ost) (x : option nat) : outcome ost :=
  match x with None => Ok s | Some i => let! o := live s i in if o_rel o then opts_free s i else Ok s end.
Definition look (s : ost) (x : option nat) : outcome (option opts) :=
  match x with None => Ok None | Some i => let! o := live s i in Ok (Some o) end.
(** __vortex_connection_new (2036-2141). *)
Definition create (s : ost) (x : option nat) (e : end_at) (host : nat) : outcome ost :=
  match e with
  | KRefused | KTcp | KSockName | KGreet => release s x
  | KNameInfo => Ok s
  | KDone => let! o := look s x in release (mkT (t_opts s) (t_conns s ++ [keep o host]) (t_todo s)) x
  end.
(** __vortex_http_connection_new: the options are looked at in the greetings and never released. *)
Definition http_create (s : ost) (x : option nat) (e : end_at) (host : nat) : outcome ost :=
  match e with
  | KDone => let! o := look s x in Ok (mkT (t_opts s) (t_conns s ++ [keep o host]) (t_todo s))
  | _ => Ok s
  end.
Inductive ev :=
| VNew (is : list item) | VDefault (is : list item) | VFree (i : nat)
| VConn (x : option nat) (e : end_at) (host : nat)   (* vortex_connection_new_full, without on_connected *)
| VStart (x : option nat) (e : end_at) (host : nat)  (* with on_connected: a task (2241-2245) *)
| VRun                                               (* the first task runs *)
| VHttp (x : option nat) (e : end_at) (host : nat).
Definition ostep (s : ost) (v : ev) : outcome ost :=
  match v with
  | VNew is => Ok (mkT (t_opts s ++ [Some (opts_new is)]) (t_conns s) (t_todo s))
  | VDefault is => Ok (mkT (t_opts s ++ [Some (opts_default is)]) (t_conns s) (t_todo s))
  | VFree i => opts_free s i
  | VConn x e host => create s x e host
  | VStart x e host =>
      match e with
      | KRefused => release s x
      | _ => Ok (mkT (t_opts s) (t_conns s) (t_todo s ++ [(x, e, host)]))
      end
  | VRun => match t_todo s with [] => Ok s | (x, e, host) :: r => create (mkT (t_opts s) (t_conns s) r) x e host end
  | VHttp x e host => http_create s x e host
  end.
Fixpoint oruns (s : ost) (vs : list ev) : outcome ost := match vs with [] => Ok s | v :: r => let! s' := ostep s v in oruns s' r end.
