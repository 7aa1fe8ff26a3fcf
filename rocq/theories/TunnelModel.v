(** Model of the TUNNEL profile (RFC 3620): the settings with the hops to cross,
    the connection to the first hop, the answer of a listener to a tunnel request
    and the relay of octets done by the hops in the middle.
    Source: tunnel/vortex_tunnel.c.  XML documents are trees of <tunnel> nodes
    (writing one and parsing it at the other side gives the same tree: the AXL
    library, trusted). *)
From Verif Require Import Base SendRawModel.

(** ** Settings *)

(** The attributes of a <tunnel> node. *)
Inductive attr := AFqdn | APort | AIp4 | AIp6 | ASrv | AUri | AEndpoint.
Definition attr_eqb (a b : attr) : bool :=
  match a, b with
  | AFqdn, AFqdn | APort, APort | AIp4, AIp4 | AIp6, AIp6 | ASrv, ASrv | AUri, AUri | AEndpoint, AEndpoint => true
  | _, _ => false
  end.
Definition attrs := list (attr * bytes).
(** HAS_ATTR, ATTR_VALUE *)
Definition has (l : attrs) (a : attr) : bool := existsb (fun x => attr_eqb (fst x) a) l.
Definition value (l : attrs) (a : attr) : option bytes :=
  match find (fun x => attr_eqb (fst x) a) l with Some x => Some (snd x) | None => None end.

(** What an item of the configuration refuses to be with
    (tunnel/vortex_tunnel.c:257-329). *)
Definition forbids (a : attr) : list attr :=
  match a with
  | AFqdn => [AFqdn; AIp4; AIp6; AUri; AEndpoint]
  | APort => [APort; AUri; AEndpoint]
  | AIp4 => [AIp4; AFqdn; ASrv; AEndpoint; AUri]
  | AIp6 => [AIp6; AFqdn; ASrv; AEndpoint; AUri]
  | ASrv => [ASrv; AIp4; AIp6; AEndpoint; AUri]
  | AUri => [AUri; AFqdn; APort; ASrv; AIp4; AIp6; AEndpoint]
  | AEndpoint => [AUri; AFqdn; APort; ASrv; AIp4; AIp6; AEndpoint]
  end.

(** The loop of vortex_tunnel_settings_add_hop (tunnel/vortex_tunnel.c:249-332):
    None is wrong_tunnel_conf. *)
Fixpoint hop_conf (node : attrs) (items : list (attr * bytes)) : option attrs :=
  match items with
  | [] => Some node
  | (a, v) :: rest =>
    if existsb (has node) (forbids a) then None
    else hop_conf (node ++ [(a, v)]) rest
  end.

Inductive tnode := TNode (a : attrs) (children : list tnode).
Definition t_attrs (t : tnode) : attrs := let (a, _) := t in a.
Definition t_children (t : tnode) : list tnode := let (_, c) := t in c.

(** vortex_tunnel_settings_new: an empty <tunnel /> (tunnel/vortex_tunnel.c:80-110). *)
Definition settings_new : tnode := TNode [] [].
(** vortex_tunnel_settings_add_hop (tunnel/vortex_tunnel.c:224-359): the new hop is
    the new root; a wrong configuration is only logged. *)
Definition add_hop (s : tnode) (items : list (attr * bytes)) : tnode :=
  match hop_conf [] items with
  | None => s
  | Some a => TNode a [s]
  end.
Definition add_hops (s : tnode) (l : list (list (attr * bytes))) : tnode := fold_left add_hop l s.

(** ** The request to the first hop *)

Definition addr := (bytes * bytes)%type.
(** The host and port to connect to (tunnel/vortex_tunnel.c:445-474). *)
Definition next_addr (a : attrs) : option addr :=
  let hp :=
    if has a AFqdn then (value a AFqdn, value a APort)
    else if has a AIp4 then (value a AIp4, value a APort)
    else (None, None) in
  match hp with
  | (Some h, Some p) => Some (h, p)
  | _ => None
  end.
(** First part of __vortex_tunnel_new_common (tunnel/vortex_tunnel.c:431-482): where
    to connect and the document to send there; None is a NULL result. *)
Definition first_step (s : tnode) : option (addr * tnode) :=
  match t_children s with
  | [] => None
  | c :: _ => match next_addr (t_attrs s) with None => None | Some x => Some (x, c) end
  end.

(** ** The answer of a listener *)

(** What a listener does with a request (tunnel/vortex_tunnel.c:809-1015):
    [DRefuse code] an error reply, [DEnd] it is the end point and the session is
    reset, [DNext s] it is a hop in the middle, [s] are the settings used to go on. *)
Inductive sdec := DRefuse (code : Z) | DEnd | DNext (s : tnode).
(** The content of the start message: none at all, something that is not XML, or
    a document. *)
Inductive content := CNone | CBad | CDoc (t : tnode).
(** [accept]: the handler of vortex_tunnel_accept_negotiation, if any, and what it
    answers; [resolver]: the one of vortex_tunnel_set_resolver, if any.  Without
    content, strlen (NULL). *)
Definition start_request (accept : option bool) (resolver : option (tnode -> option tnode)) (c : content) : outcome sdec :=
  match c with
  | CNone => UB
  | CBad => Ok (DRefuse 500)
  | CDoc t =>
    match t_children t with
    | [] => match accept with Some false => Ok (DRefuse 537) | _ => Ok DEnd end
    | _ :: _ =>
      match resolver with
      | None => Ok (DNext t)
      | Some f => match f t with Some t' => Ok (DNext t') | None => Ok (DNext t) end
      end
    end
  end.

(** A peer: can be connected and offers the profile, and its handlers. *)
Record peer := mkPeer { p_up : bool; p_accept : option bool; p_resolver : option (tnode -> option tnode) }.

(** A request and everything it causes: the peers asked, in order, with the
    document each one got, and whether the tunnel was created
    (__vortex_tunnel_new_common, tunnel/vortex_tunnel.c:404-580, on each peer:
    its <ok /> is sent when its own request was answered with <ok />, and 450
    otherwise, 964-984).  None: not finished within [fuel] hops. *)
Fixpoint tunnel (fuel : nat) (net : addr -> peer) (s : tnode) : option (list (addr * tnode) * bool) :=
  match fuel with
  | O => None
  | S fuel' =>
    match first_step s with
    | None => Some ([], false)
    | Some (x, doc) =>
      let p := net x in
      if negb (p_up p) then Some ([(x, doc)], false)
      else
        match start_request (p_accept p) (p_resolver p) (CDoc doc) with
        | UB => None
        | Ok (DRefuse _) => Some ([(x, doc)], false)
        | Ok DEnd => Some ([(x, doc)], true)
        | Ok (DNext s') =>
          match tunnel fuel' net s' with
          | None => None
          | Some (l, ok) => Some ((x, doc) :: l, ok)
          end
        end
    end
  end.

(** vortex_tunnel_new (tunnel/vortex_tunnel.c:377-383, 404-660): the result and the
    calls to on_connected.  [reset] is the result of the tuning reset and the
    greetings that follow.  The handler is a parameter nothing uses. *)
Definition tunnel_new (fuel : nat) (net : addr -> peer) (s : tnode) (handler reset : bool) : option (option bool * list bool) :=
  match tunnel fuel net s with
  | None => None
  | Some (_, ok) => Some (if ok && reset then Some true else None, [])
  end.

(** ** The relay *)

Inductive side := SA | SB.
Definition other (x : side) : side := match x with SA => SB | SB => SA end.
(** One of the two connections of a relay: is it up, does it exist (the reader has
    the only reference, tunnel/vortex_tunnel.c:1002-1004), the octets read from
    it and the octets written to it. *)
Record rconn := mkRC { r_up : bool; r_alive : bool; r_in : bytes; r_out : bytes }.
Record relay := mkRelay { r_a : rconn; r_b : rconn }.
Definition conn0 : rconn := mkRC true true [] [].
Definition relay0 : relay := mkRelay conn0 conn0.
Definition get (r : relay) (x : side) : rconn := match x with SA => r_a r | SB => r_b r end.
Definition set (r : relay) (x : side) (c : rconn) : relay :=
  match x with SA => mkRelay c (r_b r) | SB => mkRelay (r_a r) c end.
Definition with_up (c : rconn) (b : bool) : rconn := mkRC b (r_alive c) (r_in c) (r_out c).
Definition with_in (c : rconn) (bs : bytes) : rconn := mkRC (r_up c) (r_alive c) (r_in c ++ bs) (r_out c).
Definition with_out (c : rconn) (w : bytes) : rconn := mkRC (r_up c) (r_alive c) (r_in c) (r_out c ++ w).
Definition with_dead (c : rconn) : rconn := mkRC (r_up c) false (r_in c) (r_out c).

(** What vortex_frame_receive_raw finds in an open socket
    (src/vortex_frame_factory.c:1253-1300): data; or 0, that is the end of the
    stream, an error, or nothing to read yet ([GNone] keeps which one). *)
Inductive nothing := NEof | NError | NAgain.
Inductive got := GData (b : byte) (bs : bytes) | GNone (n : nothing).

(** Settings of vortex_frame_send_raw. *)
Record wopts := mkW { w_timeout : Z; w_disable : bool }.

(** __vortex_tunnel_pass_octets (tunnel/vortex_tunnel.c:763-803) on connection
    [x].  The partner is a bare pointer: using it once released is undefined.  On
    a connection already shut down receive_raw gives -1, which is not 0: the call
    to send_raw asks for -1 bytes, undefined unless the partner is down as well.
    None: the call to send_raw does not end. *)
Definition pass_octets (o : wopts) (r : relay) (x : side) (g : got) (sends : list sres) (waits : list wres) : outcome (option relay) :=
  let c := get r x in
  let p := get r (other x) in
  if negb (r_alive p) then UB
  else if negb (r_up c) then (if r_up p then UB else Ok (Some r))
  else
    match g with
    | GNone _ => Ok (Some (set (set r x (with_up c false)) (other x) (with_up p false)))
    | GData b bs =>
      let r := set r x (with_in c (b :: bs)) in
      match send_raw (w_timeout o) (w_disable o) (r_up p) sends waits (b :: bs) with
      | Still _ => Ok None
      | Fin _ down w => Ok (Some (set r (other x) (with_up (with_out p w) (r_up p && negb down))))
      end
    end.

(** A call to the handler inside a round of the reader. *)
Record rcall := mkRCall { q_side : side; q_got : got; q_sends : list sres; q_waits : list wres }.

(** A connection that is not ok is taken out and its reference released
    (src/vortex_reader.c:988-1001 and, with select, 1100-1110). *)
Definition reap (r : relay) (x : side) : relay :=
  let c := get r x in if r_alive c && negb (r_up c) then set r x (with_dead c) else r.

(** The calls of one round.  With automatic dispatch the connections are not
    checked again before the handler (src/vortex_reader.c:1259-1290), [dispatch];
    otherwise they are. *)
Fixpoint calls (dispatch : bool) (o : wopts) (r : relay) (l : list rcall) : outcome (option relay) :=
  match l with
  | [] => Ok (Some r)
  | q :: l' =>
    let x := q_side q in
    if negb (r_alive (get r x)) then calls dispatch o r l'
    else if negb dispatch && negb (r_up (get r x)) then calls dispatch o (reap r x) l'
    else
      match pass_octets o r x (q_got q) (q_sends q) (q_waits q) with
      | UB => UB
      | Ok None => Ok None
      | Ok (Some r') => calls dispatch o r' l'
      end
  end.
(** Rounds of the reader: the set to watch is built, then the calls. *)
Fixpoint rounds (dispatch : bool) (o : wopts) (r : relay) (l : list (list rcall)) : outcome (option relay) :=
  match l with
  | [] => Ok (Some r)
  | q :: l' =>
    match calls dispatch o (reap (reap r SA) SB) q with
    | UB => UB
    | Ok None => Ok None
    | Ok (Some r') => rounds dispatch o r' l'
    end
  end.
