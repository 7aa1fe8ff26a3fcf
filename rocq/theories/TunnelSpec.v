(** Independent specification of the TUNNEL settings, routes and relays. *)
From Verif Require Import Base TunnelModel.

(** The combinations the documentation of vortex_tunnel_settings_add_hop gives,
    in any order. *)
Definition documented : list (list attr) :=
  [[AFqdn; APort]; [AFqdn; ASrv]; [AFqdn; ASrv; APort]; [AIp4; APort]; [AIp6; APort]; [AUri]; [AEndpoint]].
Definition same_items (a b : list attr) : Prop := NoDup a /\ NoDup b /\ forall x, In x a <-> In x b.
Definition well_configured (items : list (attr * bytes)) : Prop :=
  exists d, In d documented /\ same_items (map fst items) d.

(** What every hop in the settings is: no item twice, a uri or an endpoint is
    alone, a name and an address exclude each other, so do an address and a
    service. *)
Definition coherent (a : list attr) : Prop :=
  NoDup a /\
  (In AUri a -> a = [AUri]) /\ (In AEndpoint a -> a = [AEndpoint]) /\
  (In AFqdn a -> ~ In AIp4 a /\ ~ In AIp6 a) /\
  (In ASrv a -> ~ In AIp4 a /\ ~ In AIp6 a).

(** A hop given with a name or an IPv4 address and a port, and its address. *)
Definition plain_hop (items : list (attr * bytes)) (x : addr) : Prop :=
  items = [(AFqdn, fst x); (APort, snd x)] \/ items = [(APort, snd x); (AFqdn, fst x)] \/
  items = [(AIp4, fst x); (APort, snd x)] \/ items = [(APort, snd x); (AIp4, fst x)].

(** The route through the addresses: each one is asked while the ones before were
    reached; the last one has to accept. *)
Definition willing (net : addr -> peer) (last : bool) (x : addr) : bool :=
  p_up (net x) && (if last then match p_accept (net x) with Some false => false | _ => true end else true).
Fixpoint route (net : addr -> peer) (l : list addr) : list addr * bool :=
  match l with
  | [] => ([], false)
  | [x] => ([x], willing net true x)
  | x :: rest =>
    if willing net false x then let (l', ok) := route net rest in (x :: l', ok)
    else ([x], false)
  end.
Definition no_resolvers (net : addr -> peer) : Prop := forall x, p_resolver (net x) = None.

(** Every write of a relay was complete. *)
Definition call_ok (o : wopts) (q : rcall) : Prop :=
  match q_got q with
  | GNone _ => True
  | GData b bs => exists w, SendRawModel.send_raw (w_timeout o) (w_disable o) true (q_sends q) (q_waits q) (b :: bs) = SendRawModel.Fin true false w
  end.
(** Every write of a relay was complete or closed the connection. *)
Definition call_closes (o : wopts) (q : rcall) : Prop :=
  match q_got q with
  | GNone _ => True
  | GData b bs => forall ok w, SendRawModel.send_raw (w_timeout o) (w_disable o) true (q_sends q) (q_waits q) (b :: bs) = SendRawModel.Fin ok false w -> ok = true
  end.
Definition is_prefix (a b : bytes) : Prop := exists c, b = a ++ c.
