(** TLS (tls/vortex_tls.c): the listener (vortex_tls_process_start_msg, 1992-2085,
    vortex_tls_prepare_listener, 1705-1975, vortex_tls_initial_accept, 1602-1690), the
    initiator (vortex_tls_start_negotiation, 1507-1570, __vortex_tls_start_negotiation,
    1015-1328, vortex_tls_invoke_tls_activation, 709-912), the synchronous call
    (2157-2190, 2271-2352), auto TLS (2777-2838), vortex_tls_verify_cert (941-1000) and
    the text of the digests (2203-2226).

    One connection.  The SSL library (OpenSSL) and the handlers of the user are what
    each event or call carries.  The listener is the object the reader watches: after
    the preparation, the new connection.  The notification of the failure handler is left
    out. *)
From Verif Require Import Base.

(** The handlers a connection reads and writes with: those of the socket
    (vortex_connection_set_default_io_handler) or those of vortex_tls_set_common_data. *)
Inductive io := Clear | Ssl.

(** The listener: with no pre-read handler, with vortex_tls_prepare_listener, with
    vortex_tls_initial_accept. *)
Inductive lstage := LNormal | LPrepare | LHandshake.
(** What is seen: the replies to the start of a TLS channel (proceed, an error, a refusal),
    octets taken as BEEP, octets written, SSL_accept ends the handshake, SSL_accept
    fails, what the post check says. *)
Inductive lobs :=
| LProceed | LError | LRefuse | LRead (i : io) | LWrite (i : io) | LHandshaken | LHandFailed | LChecked (ok : bool).
Record lst := mkL { l_up : bool; l_stage : lstage; l_io : io; l_flag : bool; l_mask : bool; l_log : list lobs }.
Definition l0 : lst := mkL true LNormal Clear false false [].
Definition lnote (s : lst) (o : list lobs) : lst := mkL (l_up s) (l_stage s) (l_io s) (l_flag s) (l_mask s) (l_log s ++ o).

(** What SSL_accept returns: 1, 0, -1 wanting to read or write, -1 with another error. *)
Inductive sslacc := AOne | AZero | AWant | AFail.
(** The events: a start of a TLS channel is handled (with <ready />; what
    tls_accept_handler says; there is a ctx creation handler; there are a certificate and a
    key), there is something to read on the socket (which gives something; the SSL context,
    the certificates, the SSL object, the new connection and its accept handlers work; what
    SSL_accept returns; the post check, if there is one), something is written, the
    connection is closed. *)
Inductive lev :=
| EStart (ready accept own cert key : bool)
| EReadable (some prepared : bool) (a : sslacc) (post : option bool)
| EWrite
| EDown.

(** vortex_tls_initial_accept when SSL_accept did not fail (1654-1690). *)
Definition accepted (s : lst) (post : option bool) : lst :=
  match post with
  | Some false => mkL false LNormal (l_io s) (l_flag s) (l_mask s) (l_log s ++ [LChecked false])
  | Some true => mkL (l_up s) LNormal (l_io s) true true (l_log s ++ [LChecked true])
  | None => mkL (l_up s) LNormal (l_io s) true true (l_log s)
  end.

Definition lstep (s : lst) (e : lev) : lst :=
  if negb (l_up s) then s else
  match e with
  | EStart ready accept own cert key =>
      match l_stage s with
      | LHandshake => s                              (* of the connection there was *)
      | _ =>
          if l_mask s || l_flag s || negb ready then lnote s [LRefuse] else
          if negb accept then lnote s [LError] else
          if negb own && negb (cert && key) then lnote s [LError] else
          mkL true LPrepare (l_io s) (l_flag s) (l_mask s) (l_log s ++ [LProceed])
      end
  | EReadable some prepared a post =>
      match l_stage s with
      | LNormal => if some : bool then lnote s [LRead (l_io s)] else s
      | LPrepare =>
          (* the data, and so the flag, is that of the connection there was; the masks
             are not *)
          if prepared : bool then mkL true LHandshake Ssl (l_flag s) false (l_log s)
          else mkL false LNormal (l_io s) (l_flag s) (l_mask s) (l_log s)
      | LHandshake =>
          match a with
          | AWant => s
          | AFail => mkL true LNormal Clear (l_flag s) (l_mask s) (l_log s ++ [LHandFailed])
          | AOne => accepted (lnote s [LHandshaken]) post
          | AZero => accepted s post                 (* ssl_error == -1 is what is checked *)
          end
      end
  | EWrite => lnote s [LWrite (l_io s)]
  | EDown => mkL false (l_stage s) (l_io s) (l_flag s) (l_mask s) (l_log s)
  end.
Definition lrun (l : list lev) : lst := fold_left lstep l l0.

(** The initiator.  A connection: whether it is up, how it reads and writes, the TLS flag,
    whether it does not send SEQ frames, whether the reader watches it, whether closing
    it closes the socket, whether it has the data of the user. *)
Record iconn := mkIC {
  ic_up : bool; ic_io : io; ic_flag : bool; ic_seq_off : bool; ic_watched : bool; ic_closes : bool; ic_data : bool }.
Definition down (c : iconn) : iconn :=
  mkIC false (ic_io c) (ic_flag c) (ic_seq_off c) (ic_watched c) (ic_closes c) (ic_data c).

(** The reply to <ready />: a RPY with <proceed />, a RPY with something else, an ERR,
    another type. *)
Inductive treply := TProceed | TOther | TErr | TType.
(** What SSL_connect gives: done, to be called again, SSL_ERROR_SYSCALL, another error. *)
Inductive sslconn := CDone | CWant | CSyscall | CError.
Record tk := mkTK {
  k_chan : bool; k_reply : option treply; k_new : bool; k_ctx : bool; k_ssl : bool; k_conn : list sslconn;
  k_cert : bool; k_post : option bool; k_greet : bool; k_gup : bool; k_actions : bool }.

Inductive which := Old | New.
Inductive tobs := THandshaken | TChecked (ok : bool) | TNotify (w : which) (ok : bool).

(** The calls to SSL_connect (860-898): whether it worked; None if it is called for
    ever. *)
Fixpoint connect (n : iconn) (l : list sslconn) : option (iconn * bool) :=
  match l with
  | [] => None
  | CDone :: _ => Some (n, true)
  | CWant :: l => connect n l
  | CSyscall :: _ => Some (down n, false)
  | CError :: _ => Some (mkIC (ic_up n) Clear (ic_flag n) (ic_seq_off n) (ic_watched n) (ic_closes n) (ic_data n), false)
  end.

(** vortex_tls_invoke_tls_activation (709-912). *)
Definition activation (n : iconn) (k : tk) : option (iconn * list tobs * bool) :=
  if negb (k_ctx k && k_ssl k) then Some (n, [], false) else
  let n := mkIC (ic_up n) Ssl (ic_flag n) (ic_seq_off n) (ic_watched n) (ic_closes n) (ic_data n) in
  match connect n (k_conn k) with
  | None => None
  | Some (n, false) => Some (n, [], false)
  | Some (n, true) =>
      if negb (k_cert k) then Some (n, [THandshaken], false) else
      match k_post k with
      | None => Some (n, [THandshaken], true)
      | Some true => Some (n, [THandshaken; TChecked true], true)
      | Some false => Some (down n, [THandshaken; TChecked false], false)
      end
  end.

(** vortex_tls_start_negotiation, with a handler, and __vortex_tls_start_negotiation: the
    connection there was, the new one, and what is seen; None if it does not end. *)
Definition start_tls (c : iconn) (k : tk) : option (iconn * option iconn * list tobs) :=
  if negb (ic_up c) then Some (c, None, [TNotify Old false]) else
  if ic_flag c then Some (c, None, [TNotify Old true]) else
  let c := mkIC true (ic_io c) (ic_flag c) true (ic_watched c) (ic_closes c) (ic_data c) in
  if negb (k_chan k) then Some (c, None, [TNotify Old false]) else
  match k_reply k with
  | Some TProceed =>
      let c := mkIC true (ic_io c) (ic_flag c) (ic_seq_off c) (ic_watched c) false (ic_data c) in
      (* a connection that is not created takes the data with it, and the socket flag
         set back is that of the reference that is NULL (1190-1206) *)
      if negb (k_new k) then
        Some (mkIC true (ic_io c) (ic_flag c) (ic_seq_off c) (ic_watched c) (ic_closes c) false, None, [TNotify Old false])
      else
      let n := mkIC true Clear (ic_flag c) false false true (ic_data c) in
      let c := down (mkIC true (ic_io c) (ic_flag c) (ic_seq_off c) (ic_watched c) (ic_closes c) false) in
      match activation n k with
      | None => None
      | Some (n, o, false) => Some (c, Some n, o ++ [TNotify New false])
      | Some (n, o, true) =>
          (* the greetings: sent, received and parsed (1248-1310) *)
          if negb (k_greet k) then
            Some (c, Some (if k_gup k then n else down n), o ++ [TNotify New false])
          else
          let n := mkIC (k_actions k) (ic_io n) true (ic_seq_off n) true (ic_closes n) (ic_data n) in
          Some (c, Some n, o ++ [TNotify New true])
      end
  | _ => Some (c, None, [TNotify Old false])
  end.

(** vortex_tls_start_negotiation_sync (2271-2352) with __vortex_tls_start_negotiation_sync_process
    (2157-2190), which, when nobody waits on the queue, shuts down the connection.  The
    caller waits when the notification comes, or not yet, or no more (the time limit),
    when the connection given may have been released. *)
Inductive swait := SWaiting | SLate | STimeout (released : bool).
Record sres := mkSR { sr_conn : option which; sr_ok : bool; sr_old : iconn; sr_new : option iconn }.
(** Whether the connection given is replaced, and its reference released (1209-1213). *)
Definition replaced (k : tk) : bool :=
  k_chan k && match k_reply k with Some TProceed => k_new k | _ => false end.
Definition lost (o : iconn) (n : option iconn) (w : which) : sres :=
  match w with Old => mkSR None false (down o) n | New => mkSR None false o (option_map down n) end.
Definition notified (l : list tobs) : which * bool :=
  match rev l with TNotify w ok :: _ => (w, ok) | _ => (Old, false) end.
Definition sync (c : iconn) (k : tk) (message : bool) (w : swait) : outcome sres :=
  if negb (ic_up c) then Ok (mkSR (Some Old) false c None) else
  (* the caller itself notifies, before it waits *)
  if ic_flag c then Ok (lost c None Old) else
  let late := match w with STimeout released => message && released && replaced k | _ => false end in
  if late then UB else                               (* vortex_connection_get_id (connection) *)
  match start_tls c k with
  | None => Ok (mkSR None false c None)
  | Some (o, n, l) =>
      let '(x, ok) := notified l in
      match w with
      | SWaiting => Ok (mkSR (Some x) ok o n)
      | SLate | STimeout _ => Ok (lost o n x)
      end
  end.

(** vortex_tls_auto_tlsfixate_connection (2777-2838) within
    vortex_connection_actions_notify: the connection the application gets. *)
Definition auto_tls (allow : bool) (c : iconn) (k : tk) (w : swait) : outcome (option iconn) :=
  if ic_flag c then Ok (Some c) else
  let! r := sync c k false w in
  match sr_conn r with
  | None => Ok None
  | Some x =>
      match (match x with Old => Some (sr_old r) | New => sr_new r end) with
      | None => Ok None
      | Some n =>
          if negb (ic_up n) then Ok (Some n) else
          if negb allow && negb (ic_flag n) then Ok (Some (down n)) else Ok (Some n)
      end
  end.

(** vortex_tls_verify_cert (941-1000): what SSL_get_verify_result says, the certificate of
    the peer and its common name, if it has one; X509_NAME_get_text_by_NID copies up to
    511 octets, and nothing if there is none (its result is not looked at); serverName.
    The strings are compared as C strings (axl_cmp). *)
Fixpoint until_nul (b : bytes) : bytes :=
  match b with
  | [] => []
  | x :: b => if x =? 0 then [] else x :: until_nul b
  end.
Definition verify_cert (tls ssl vok : bool) (cert : option (option bytes)) (server : option bytes) : outcome bool :=
  if negb tls then Ok false else
  if negb ssl then Ok false else
  if negb vok then Ok false else
  match cert with
  | None => Ok false
  | Some None => UB                                  (* peer_common_name was not written *)
  | Some (Some cn) =>
      match server with
      | None => Ok false
      | Some s => Ok (bytes_eqb (until_nul (firstn 511 cn)) (until_nul s))
      end
  end.

(** __vortex_tls_translateToOctal (2203-2226): sprintf of "%02X" and ":" into a buffer of
    3 * len + 1 zeroes, each with its NUL. *)
Definition hex (d : Z) : Z := if d <? 10 then 48 + d else 55 + d.
Definition put_at (buf : bytes) (pos : nat) (data : bytes) : outcome bytes :=
  if (pos + length data <=? length buf)%nat
  then Ok (firstn pos buf ++ data ++ skipn (pos + length data) buf) else UB.
Fixpoint translate (buf : bytes) (pos : nat) (l : bytes) : outcome bytes :=
  match l with
  | [] => Ok buf
  | b :: l =>
      let! buf := put_at buf pos ([hex (b / 16); hex (b mod 16)] ++ (match l with [] => [] | _ => [58] end) ++ [0]) in
      translate buf (pos + 3) l
  end.
Definition octal (l : bytes) : outcome bytes :=
  let! buf := translate (repeat 0 (3 * length l + 1)) 0 l in
  Ok (until_nul buf).
