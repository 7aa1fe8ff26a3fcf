(** SASL, the listener (sasl/vortex_sasl.c): the start of a SASL channel
    (__vortex_sasl_accept_negotiation_start, 2152-2236), the messages of the SASL channels
    (__vortex_sasl_accept_negotiation_frame_receive, 2238-2265), the step
    (__vortex_sasl_server_iterate, 2048-2138), the calls the SASL library makes to have
    the credentials checked (__vortex_sasl_auth_validation, 1874-1985, and the functions
    of each mechanism, 1545-1860), the properties (vortex_sasl_set_propertie, 274-345)
    and vortex_sasl_is_authenticated (437-446).

    One connection.  The SASL library (GNU SASL) is not in the repository: at each
    step it does what it wants with the properties of its session and with the calls
    to the validation function, and ends with the code it wants; what each event
    carries is what it did.  What is known of it (that it does not end with
    GSASL_OK without a validation) is a hypothesis of the theorems (SaslSpec).  Its
    properties are strings in memory of its own: setting one, and ending the
    session, release the one before.  Strings are numbers.  Each message and each
    start is handled at once (the code takes no lock, so two SASL channels handled by
    two threads at once are a data race, which is left out).  The user handlers are functions of what they are given.
    The serverName of the start and the user pointers are left out. *)
From Verif Require Import Base.

Inductive mech := MPlain | MAnon | MExternal | MCram | MDigest.
Definition mech_eqb (a b : mech) : bool :=
  match a, b with
  | MPlain, MPlain | MAnon, MAnon | MExternal, MExternal | MCram, MCram | MDigest, MDigest => true
  | _, _ => false
  end.

(** The properties of a session of the library used here, and what the library asks of
    the validation function: a property, or a validation. *)
Inductive gprop := PAuthid | PAuthzid | PPassword | PToken | PRealm.
Inductive gask := AskProp (p : gprop) | AskAnon | AskSimple | AskExternal | AskOther.
(** What the validation function answers: GSASL_OK, GSASL_NO_CALLBACK,
    GSASL_AUTHENTICATION_ERROR. *)
Inductive gres := GOk | GNoCallback | GAuthError.
(** How gsasl_step64 ends. *)
Inductive rc := RMore | ROk | RAuthError | ROther.

(** A string of the library: where it is and what it says. *)
Definition ptr := (nat * Z)%type.
Record sess := mkG {
  g_mech : mech; g_authid : option ptr; g_authzid : option ptr; g_password : option ptr;
  g_token : option ptr; g_realm : option ptr }.
Definition sess0 (m : mech) : sess := mkG m None None None None None.
(** gsasl_property_fast. *)
Definition fast (g : sess) (p : gprop) : option ptr :=
  match p with
  | PAuthid => g_authid g | PAuthzid => g_authzid g | PPassword => g_password g
  | PToken => g_token g | PRealm => g_realm g
  end.
Definition put (g : sess) (p : gprop) (v : option ptr) : sess :=
  match p with
  | PAuthid => mkG (g_mech g) v (g_authzid g) (g_password g) (g_token g) (g_realm g)
  | PAuthzid => mkG (g_mech g) (g_authid g) v (g_password g) (g_token g) (g_realm g)
  | PPassword => mkG (g_mech g) (g_authid g) (g_authzid g) v (g_token g) (g_realm g)
  | PToken => mkG (g_mech g) (g_authid g) (g_authzid g) (g_password g) v (g_realm g)
  | PRealm => mkG (g_mech g) (g_authid g) (g_authzid g) (g_password g) (g_token g) v
  end.

(** What a handler of the user is given, and what it says: no, yes, or the password
    to compare with. *)
Record creds := mkC {
  c_authid : option Z; c_authzid : option Z; c_password : option Z; c_token : option Z; c_realm : option Z }.
Inductive hres := HDeny | HAccept | HPassword (p : Z).
(** The handlers: the common one of a mechanism (vortex_sasl_accept_negotiation_common),
    the one of the mechanism (for PLAIN, ANONYMOUS and EXTERNAL a yes or no,
    for CRAM-MD5 and DIGEST-MD5 a password or NULL), and the default realm. *)
Record handlers := mkH {
  h_common : mech -> option (creds -> hres);
  h_check : mech -> option (creds -> bool);
  h_pass : mech -> option (creds -> option Z);
  h_realm : option Z }.

(** What is seen: a session begins, a handler says, the negotiation is complete (with
    the password the peer made its response with, if any), another reply is sent,
    the channel is refused, the authentication data is cleared, a channel is closed. *)
Inductive sobs :=
| OSession (m : mech) | OSaid (m : mech) (c : creds) (r : hres)
| OComplete (m : mech) (resp : option Z) | OContinue | OError (code : Z)
| OAborted | ORefused | OClear | OClosed (ch : nat).

(** The data of the connection: SASL_DATA (the context, and the session in it),
    SASL_PROFILE_BEING_NEGOTIATED, the SASL channels, the mask, SASL_IS_AUTHENTICATED,
    SASL_METHOD_USED, SASL_AUTHID, SASL_AUTHZID, SASL_REALM, SASL_ANONYMOUS_TOKEN; the
    memory: the next place, the places released. *)
Record sst := mkS {
  s_next : nat; s_freed : list nat;
  s_data : option (option sess); s_neg : option mech;
  s_chans : list (nat * mech); s_mask : bool; s_flag : bool; s_method : option mech;
  s_authid : option ptr; s_authzid : option ptr; s_realm : option ptr; s_token : option ptr;
  s_log : list sobs }.
Definition sasl0 : sst := mkS 0 [] None None [] false false None None None None None [].

Definition note (s : sst) (o : list sobs) : sst :=
  mkS (s_next s) (s_freed s) (s_data s) (s_neg s) (s_chans s) (s_mask s) (s_flag s) (s_method s)
      (s_authid s) (s_authzid s) (s_realm s) (s_token s) (s_log s ++ o).
Definition with_data (s : sst) (d : option (option sess)) (freed : list nat) : sst :=
  mkS (s_next s) (s_freed s ++ freed) d (s_neg s) (s_chans s) (s_mask s) (s_flag s) (s_method s)
      (s_authid s) (s_authzid s) (s_realm s) (s_token s) (s_log s).

(** The memory a session has: what gsasl_finish releases. *)
Definition place (p : option ptr) : list nat := match p with Some (a, _) => [a] | None => [] end.
Definition places (g : sess) : list nat :=
  place (g_authid g) ++ place (g_authzid g) ++ place (g_password g) ++ place (g_token g) ++ place (g_realm g).
Definition data_places (d : option (option sess)) : list nat :=
  match d with Some (Some g) => places g | _ => [] end.

(** gsasl_property_set: releases the string there was, and keeps a copy of the new one. *)
Definition prop_set (s : sst) (g : sess) (p : gprop) (v : option Z) : sst * sess :=
  let g' := put g p (option_map (fun z => (s_next s, z)) v) in
  (mkS (S (s_next s)) (s_freed s ++ place (fast g p)) (Some (Some g')) (s_neg s) (s_chans s) (s_mask s) (s_flag s)
       (s_method s) (s_authid s) (s_authzid s) (s_realm s) (s_token s) (s_log s), g').

(** vortex_sasl_set_propertie (274-345): nothing is done with a NULL value; the value is
    kept as it is, without a copy, and the anonymous token is the auth id too. *)
Definition keep (s : sst) (p : gprop) (v : option ptr) : sst :=
  match v with
  | None => s
  | Some x =>
      match p with
      | PAuthid => mkS (s_next s) (s_freed s) (s_data s) (s_neg s) (s_chans s) (s_mask s) (s_flag s) (s_method s) (Some x) (s_authzid s) (s_realm s) (s_token s) (s_log s)
      | PAuthzid => mkS (s_next s) (s_freed s) (s_data s) (s_neg s) (s_chans s) (s_mask s) (s_flag s) (s_method s) (s_authid s) (Some x) (s_realm s) (s_token s) (s_log s)
      | PRealm => mkS (s_next s) (s_freed s) (s_data s) (s_neg s) (s_chans s) (s_mask s) (s_flag s) (s_method s) (s_authid s) (s_authzid s) (Some x) (s_token s) (s_log s)
      | PToken => mkS (s_next s) (s_freed s) (s_data s) (s_neg s) (s_chans s) (s_mask s) (s_flag s) (s_method s) (Some x) (s_authzid s) (s_realm s) (Some x) (s_log s)
      | PPassword => s
      end
  end.
Definition with_method (s : sst) (m : mech) : sst :=
  mkS (s_next s) (s_freed s) (s_data s) (s_neg s) (s_chans s) (s_mask s) (s_flag s) (Some m)
      (s_authid s) (s_authzid s) (s_realm s) (s_token s) (s_log s).

Definition value (p : option ptr) : option Z := option_map snd p.
Definition creds_all (g : sess) : creds :=
  mkC (value (g_authid g)) (value (g_authzid g)) (value (g_password g)) (value (g_token g)) (value (g_realm g)).

(** __validation_handler_check_properties (1490-1541). *)
Definition check_properties (m : option mech) (g : sess) : bool :=
  match m with
  | None => false
  | Some MAnon => match g_token g with Some _ => true | None => false end
  | Some MExternal => match g_authzid g with Some _ => true | None => false end
  | Some _ => match g_authid g with Some _ => true | None => false end
  end.

(** vortex_sasl_handle_generic_request (1797-1860). *)
Definition generic (f : creds -> hres) (m : mech) (s : sst) (g : sess) : sst * sess * gres :=
  let c := creds_all g in
  let s := note s [OSaid m c (f c)] in
  match f c with
  | HDeny => (s, g, GAuthError)
  | r =>
      let '(s, g) := match r with HPassword pw => prop_set s g PPassword (Some pw) | _ => (s, g) end in
      let s := keep (keep (keep (keep s PAuthid (g_authid g)) PAuthzid (g_authzid g)) PRealm (g_realm g)) PToken (g_token g) in
      (with_method s m, g, GOk)
  end.

(** vortex_sasl_handle_anonymous_request (1545-1587), _plain_ (1589-1640), _external_
    (1743-1780): a yes or no of the handler. *)
Definition anonymous (h : handlers) (s : sst) (g : sess) : sst * sess * gres :=
  match h_check h MAnon with
  | None => (s, g, GNoCallback)
  | Some f =>
      let c := mkC None None None (value (g_token g)) None in
      if f c then (with_method (keep (note s [OSaid MAnon c HAccept]) PToken (g_token g)) MAnon, g, GOk)
      else (note s [OSaid MAnon c HDeny], g, GAuthError)
  end.
Definition plain (h : handlers) (s : sst) (g : sess) : sst * sess * gres :=
  match h_check h MPlain with
  | None => (s, g, GNoCallback)
  | Some f =>
      let c := mkC (value (g_authid g)) (value (g_authzid g)) (value (g_password g)) None None in
      if f c then
        let s := keep (note s [OSaid MPlain c HAccept]) PAuthid (g_authid g) in
        (with_method (keep s PAuthzid (g_authzid g)) MPlain, g, GOk)
      else (note s [OSaid MPlain c HDeny], g, GAuthError)
  end.
Definition external (h : handlers) (s : sst) (g : sess) : sst * sess * gres :=
  match h_check h MExternal with
  | None => (s, g, GNoCallback)
  | Some f =>
      let c := mkC None (value (g_authzid g)) None None None in
      if f c then (with_method (keep (note s [OSaid MExternal c HAccept]) PAuthzid (g_authzid g)) MExternal, g, GOk)
      else (note s [OSaid MExternal c HDeny], g, GAuthError)
  end.

(** vortex_sasl_handle_cram_md5_request (1642-1689): the password of the handler is given
    to the library, and the auth id is kept before the response is compared. *)
Definition cram (h : handlers) (s : sst) (g : sess) : sst * sess * gres :=
  match h_pass h MCram with
  | None => (s, g, GNoCallback)
  | Some f =>
      let c := mkC (value (g_authid g)) None None None None in
      match f c with
      | None => (note s [OSaid MCram c HDeny], g, GAuthError)
      | Some pw =>
          let '(s, g) := prop_set (note s [OSaid MCram c (HPassword pw)]) g PPassword (Some pw) in
          (with_method (keep s PAuthid (g_authid g)) MCram, g, GOk)
      end
  end.

(** The request of the realm (1925-1940). *)
Definition realm (h : handlers) (s : sst) (g : sess) : sst * sess * gres :=
  match h_realm h with
  | None => (s, g, GNoCallback)
  | Some r => let '(s, g) := prop_set s g PRealm (Some r) in (s, g, GOk)
  end.

(** vortex_sasl_handle_digest_md5_request (1691-1741).  Getting the realm, when the
    library does not have it, asks for it. *)
Definition digest (h : handlers) (s : sst) (g : sess) : sst * sess * gres :=
  match h_pass h MDigest with
  | None => (s, g, GNoCallback)
  | Some f =>
      let '(s, g, _) := match g_realm g with Some _ => (s, g, GOk) | None => realm h s g end in
      let c := mkC (value (g_authid g)) (value (g_authzid g)) None None (value (g_realm g)) in
      match f c with
      | None => (note s [OSaid MDigest c HDeny], g, GAuthError)
      | Some pw =>
          let '(s, g) := prop_set (note s [OSaid MDigest c (HPassword pw)]) g PPassword (Some pw) in
          let s := keep (keep (keep s PAuthid (g_authid g)) PAuthzid (g_authzid g)) PRealm (g_realm g) in
          (with_method s MDigest, g, GOk)
      end
  end.

(** __vortex_sasl_auth_validation (1874-1985). *)
Definition validation (h : handlers) (s : sst) (g : sess) (a : gask) : sst * sess * gres :=
  match a with
  | AskProp PRealm => realm h s g
  | _ =>
      if negb (check_properties (s_neg s) g) then (s, g, GNoCallback) else
      match s_neg s with
      | None => (s, g, GNoCallback)
      | Some m =>
          match h_common h m with
          | Some f => generic f m s g
          | None =>
              match a with
              | AskAnon => anonymous h s g
              | AskSimple => plain h s g
              | AskProp PPassword =>
                  match m with
                  | MCram => cram h s g
                  | MDigest => digest h s g
                  | _ => (s, g, GNoCallback)
                  end
              | AskExternal => external h s g
              | _ => (s, g, GNoCallback)
              end
          end
      end
  end.

(** What the library does within a step: set a property, get one (asking for it when it
    is not set), ask for a validation. *)
Inductive gop := GSet (p : gprop) (v : option Z) | GGet (p : gprop) | GCall (a : gask).
Definition op (h : handlers) (s : sst) (g : sess) (o : gop) : sst * sess * option gres :=
  match o with
  | GSet p v => let '(s, g) := prop_set s g p v in (s, g, None)
  | GGet p =>
      match fast g p with
      | Some _ => (s, g, None)
      | None => let '(s, g, r) := validation h s g (AskProp p) in (s, g, Some r)
      end
  | GCall a => let '(s, g, r) := validation h s g a in (s, g, Some r)
  end.
(** With what the last one was answered. *)
Fixpoint ops (h : handlers) (s : sst) (g : sess) (l : list gop) (last : option gres) : sst * sess * option gres :=
  match l with
  | [] => (s, g, last)
  | o :: l => let '(s, g, r) := op h s g o in ops h s g l r
  end.

(** The content of a start or a message: none, something that is not a valid blob, a
    blob with status abort, another blob (with the password its response was made
    with, if it has one). *)
Inductive blob := BNone | BBad | BAbort | BData (resp : option Z).
Definition resp_of (b : blob) : option Z := match b with BData r => r | _ => None end.

(** __vortex_sasl_notify with VortexError and no handler (483-522). *)
Definition clear (s : sst) : sst :=
  mkS (s_next s) (s_freed s) (s_data s) (s_neg s) (s_chans s) (s_mask s) false (s_method s)
      None None None (s_token s) (s_log s ++ [OClear]).
Definition complete (s : sst) : sst :=
  mkS (s_next s) (s_freed s) (s_data s) (s_neg s) (s_chans s) true true (s_method s)
      (s_authid s) (s_authzid s) (s_realm s) (s_token s) (s_log s).

(** __vortex_sasl_server_iterate (2048-2138): what it returns and whether there is a
    reply. *)
Definition iterate (h : handlers) (s : sst) (b : blob) (l : list gop) (r : rc) : outcome (sst * bool * bool) :=
  match b with
  | BBad => Ok (note (clear s) [OError 500], false, true)
  | BAbort => Ok (note (with_data s None (data_places (s_data s))) [OAborted], false, false)
  | _ =>
      match s_data s with
      | None => UB                                   (* data->session, data is NULL *)
      | Some None => UB                              (* gsasl_step64 of no session *)
      | Some (Some g) =>
          let '(s, g, _) := ops h s g l None in
          match r with
          | RMore => Ok (note s [OContinue], true, true)
          | RAuthError => Ok (note s [OError 535], false, true)
          | ROk => Ok (note (complete s) [OComplete (g_mech g) (resp_of b)], true, true)
          | ROther => Ok (note s [OError 454], false, true)
          end
      end
  end.

(** How a start begins: gsasl_init fails, gsasl_server_start fails, both work. *)
Inductive begin := BInitFails | BStartFails | BStarts.

Inductive sev :=
| SStart (ch : nat) (m : mech) (bg : begin) (b : blob) (l : list gop) (r : rc)
| SFrame (ch : nat) (b : blob) (l : list gop) (r : rc)
| SClose (ch : nat).

Definition has_chan (s : sst) (ch : nat) : bool := existsb (fun c => (fst c =? ch)%nat) (s_chans s).
Definition open_chan (s : sst) (ch : nat) (m : mech) : sst :=
  mkS (s_next s) (s_freed s) (s_data s) (s_neg s) (s_chans s ++ [(ch, m)]) (s_mask s) (s_flag s) (s_method s)
      (s_authid s) (s_authzid s) (s_realm s) (s_token s) (s_log s).
(** __vortex_sasl_create_context (569-600) and gsasl_server_start. *)
Definition new_session (s : sst) (m : mech) : sst :=
  let s := with_data s (Some (Some (sess0 m))) (data_places (s_data s)) in
  mkS (s_next s) (s_freed s) (s_data s) (Some m) (s_chans s) (s_mask s) (s_flag s) (s_method s)
      (s_authid s) (s_authzid s) (s_realm s) (s_token s) (s_log s ++ [OSession m]).

Definition sstep (h : handlers) (s : sst) (e : sev) : outcome sst :=
  match e with
  | SStart ch m bg b l r =>
      (* vortex_channel.c 7277-7314: the channel exists, the profile is masked (999-1040) *)
      if has_chan s ch || s_mask s then Ok (note s [ORefused]) else
      match bg with
      | BInitFails => Ok (note s [ORefused])
      | BStartFails => Ok (note (with_data s (Some None) (data_places (s_data s))) [ORefused])
      | BStarts =>
          let! x := iterate h (new_session s m) b l r in
          let '(s, ok, _) := x in
          Ok (if ok : bool then open_chan s ch m else note s [ORefused])
      end
  | SFrame ch b l r =>
      if negb (has_chan s ch) then Ok s else
      let! x := iterate h s b l r in
      let '(s, _, reply) := x in
      if reply : bool then Ok s else UB              (* strlen of the reply, NULL *)
  | SClose ch =>
      Ok (mkS (s_next s) (s_freed s) (s_data s) (s_neg s) (filter (fun c => negb (fst c =? ch)%nat) (s_chans s))
              (s_mask s) (s_flag s) (s_method s) (s_authid s) (s_authzid s) (s_realm s) (s_token s)
              (s_log s ++ [OClosed ch]))
  end.

Fixpoint srun (h : handlers) (s : sst) (l : list sev) : outcome sst :=
  match l with
  | [] => Ok s
  | e :: l => let! s := sstep h s e in srun h s l
  end.

(** vortex_sasl_is_authenticated (437-446): the flag, and a channel of the method used. *)
Definition is_authenticated (s : sst) : bool :=
  s_flag s && match s_method s with
              | Some m => existsb (fun c => mech_eqb (snd c) m) (s_chans s)
              | None => false
              end.
(** vortex_sasl_get_propertie (347-410), by who reads the string. *)
Definition read (s : sst) (p : option ptr) : outcome (option Z) :=
  match p with
  | None => Ok None
  | Some (a, v) => if existsb (Nat.eqb a) (s_freed s) then UB else Ok (Some v)
  end.
Definition auth_id (s : sst) : outcome (option Z) := read s (s_authid s).
Definition authz_id (s : sst) : outcome (option Z) := read s (s_authzid s).
