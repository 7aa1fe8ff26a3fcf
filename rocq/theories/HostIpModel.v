(** The IP of a connection (vortex_connection_get_host_ip, src/vortex_connection.c 4762-4844; vortex_support_inet_ntoa, src/vortex_support.c 933-953).

    Addresses are the octets of sockaddr_in (16) and sockaddr_in6 (28) as the kernel writes them, cut to the size of the buffer given.  The text of
    inet_ntoa is its four numbers.  The strings of the connection are places of a memory ([None], freed).  One thread; the mutex is left out. *)
From Verif Require Import Base.

Inductive addr := V4 (port : Z * Z) (a b c d : Z) | V6 (port : Z * Z) (flow : Z * Z * Z * Z) (a : list Z) (scope : list Z).
(** The octets: family (2 or 10, little endian), port, and then for IPv4 the address and 8 zeros; for IPv6 flow information, address, scope. *)
Definition octets (x : addr) : list Z :=
  match x with
  | V4 (p, q) a b c d => [2; 0; p; q; a; b; c; d; 0; 0; 0; 0; 0; 0; 0; 0]
  | V6 (p, q) (f, g, h, i) a s => [10; 0; p; q; f; g; h; i] ++ a ++ s
  end.
(** getsockname and getpeername with sizeof (struct sockaddr_in). *)
Definition given (x : addr) : list Z := firstn 16 (octets x).
(** inet_ntoa of sin_addr: the octets 4 to 7. *)
Definition ntoa (sin : list Z) : list Z := firstn 4 (skipn 4 sin).

Record conn := mkC { c_master : bool; c_mem : list (option (list Z)); c_ip : option nat }.
(** What the kernel knows of the socket: the local address and that of the peer; [None], the call fails. *)
Record sock := mkK { k_local : option addr; k_peer : option addr }.
(** vortex_connection_get_host_ip: the place returned, [None] for NULL.  [log]: ENABLE_VORTEX_LOG, with which the connection is read before it is compared
    with NULL. *)
Definition get_ip (log : bool) (k : sock) (oc : option conn) : outcome (option nat * option conn) :=
  match oc with
  | None => if log then UB else Ok (None, None)
  | Some c =>
      match c_ip c with
      | Some p => Ok (Some p, Some c)
      | None =>
          match (if c_master c then k_local k else k_peer k) with
          | None => Ok (None, Some c)
          | Some x => Ok (Some (List.length (c_mem c)), Some (mkC (c_master c) (c_mem c ++ [Some (ntoa (given x))]) (Some (List.length (c_mem c)))))
          end
      end
  end.
Fixpoint drop (m : list (option (list Z))) (p : nat) : list (option (list Z)) :=
  match m, p with [], _ => [] | _ :: r, O => None :: r | x :: r, S p => x :: drop r p end.
(** vortex_connection_set_host_and_port (4762-4782), the part of the IP. *)
Definition set_host (c : conn) (ip : option (list Z)) : conn :=
  let m := match c_ip c with Some p => drop (c_mem c) p | None => c_mem c end in
  match ip with
  | Some t => mkC (c_master c) (m ++ [Some t]) (Some (List.length m))
  | None => mkC (c_master c) m None
  end.
(** The caller reads a string it was given. *)
Definition read_text (c : conn) (p : nat) : outcome (list Z) := match nth_error (c_mem c) p with Some (Some t) => Ok t | _ => UB end.
(** Several calls, the kernel answering each time. *)
Fixpoint get_ips (log : bool) (ks : list sock) (c : conn) : outcome (list (option nat) * conn) :=
  match ks with
  | [] => Ok ([], c)
  | k :: r =>
      let! x := get_ip log k (Some c) in
      match snd x with
      | Some c' => let! y := get_ips log r c' in Ok (fst x :: fst y, snd y)
      | None => UB
      end
  end.
