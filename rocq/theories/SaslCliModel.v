(** SASL, the initiator (sasl/vortex_sasl.c): vortex_sasl_start_auth (1297-1366) with its
    checks (1208-1258), __vortex_sasl_start_auth (1042-1185), the first step (681-743), the
    steps after it (__vortex_sasl_initiator_do_steps, 866-990), the notification
    (483-522), and vortex_sasl_start_auth_sync (1372-1483) with its queue.

    One connection.  What the SASL library and the listener do comes with each call.
    The properties are there or not.  The time limit of the synchronous call is an event. *)
From Verif Require Import Base SaslModel.

Inductive status := NOk | NErr.
(** SASL_IS_AUTHENTICATED, the properties of the user (SASL_AUTHID, SASL_AUTHZID,
    SASL_PASSWORD, SASL_ANONYMOUS_TOKEN), SASL_METHOD_USED, the SASL channels, the mask. *)
Record ist := mkI {
  i_flag : bool; i_authid : bool; i_authzid : bool; i_password : bool; i_token : bool;
  i_method : option mech; i_chans : list mech; i_mask : bool }.

(** A reply of the listener: none comes, an error, something that is not a valid blob,
    a blob (with status complete or not, and with content or not), no content. *)
Inductive reply := RNone | RError | RBad | RBlob (complete : bool) (content : bool) | REmpty.
(** A turn: the reply, how the library ends its step with it, whether it has something
    to send, and whether it can be sent. *)
Record turn := mkT { t_reply : reply; t_rc : rc; t_out : bool; t_sent : bool }.
(** The first step: gsasl_client_start fails, gsasl_step64 fails, there is a blob. *)
Inductive first := FStartFails | FStepFails | FBlob.
(** A call: the connection is up, the profile is a SASL one, the mechanism, gsasl_init
    works, the first step, the channel is created, the connection can be referenced,
    the turns that come, the connection is up at the end. *)
Record call := mkCall {
  k_up : bool; k_sasl : bool; k_mech : mech; k_init : bool; k_first : first; k_chan : bool; k_ref : bool;
  k_turns : list turn; k_still : bool }.

(** __vortex_sasl_notify (483-522): what it does to the connection. *)
Definition notify (s : ist) (st : status) : ist :=
  match st with
  | NErr => mkI false false false false (i_token s) (i_method s) (i_chans s) (i_mask s)
  | NOk => mkI true (i_authid s) (i_authzid s) (i_password s) (i_token s) (i_method s) (i_chans s) (i_mask s)
  end.

(** vortex_sasl_is_authenticated (437-446). *)
Definition i_authenticated (s : ist) : bool :=
  i_flag s && match i_method s with Some m => existsb (mech_eqb m) (i_chans s) | None => false end.

(** __vortex_sasl_auth_data_sanity_check (1208-1258). *)
Definition sanity (s : ist) (m : mech) : bool :=
  match m with
  | MAnon => i_token s
  | MPlain | MDigest | MCram => i_authid s && i_password s
  | MExternal => i_authzid s || i_authid s
  end.

(** __vortex_sasl_initiator_do_steps (866-990): whether it works, and the notifications
    __vortex_sasl_get_base64_blob (788-863) made; None while it waits for a reply. *)
Fixpoint do_steps (s : ist) (l : list turn) : option (ist * list status * bool) :=
  match l with
  | [] => None
  | t :: l =>
      let next :=
        match t_rc t, t_out t with
        | RMore, _ | _, true => if t_sent t then do_steps s l else Some (s, [], false)
        | ROk, false => Some (s, [], true)
        | _, false => Some (s, [], false)
        end in
      match t_reply t with
      | RNone => Some (s, [], false)
      | RError => Some (s, [], false)
      | RBad => Some (notify s NErr, [NErr], false)
      | RBlob true _ => Some (s, [], true)
      | RBlob false false => Some (s, [], false)
      | RBlob false true => next
      | REmpty => next
      end
  end.

Definition add_chan (s : ist) (m : mech) : ist :=
  mkI (i_flag s) (i_authid s) (i_authzid s) (i_password s) (i_token s) (i_method s) (m :: i_chans s) (i_mask s).
Definition drop_chan (s : ist) : ist :=
  mkI (i_flag s) (i_authid s) (i_authzid s) (i_password s) (i_token s) (i_method s) (tl (i_chans s)) (i_mask s).
Definition settle (s : ist) (m : mech) : ist :=
  mkI (i_flag s) (i_authid s) (i_authzid s) (i_password s) (i_token s) (Some m) (i_chans s) true.

(** The state at the end and the calls to process_status; None if it waits for ever. *)
Definition start_auth (s : ist) (k : call) : option (ist * list status) :=
  let fails := Some (notify s NErr, [NErr]) in
  if negb (k_up k) then fails else
  if negb (k_sasl k) then fails else
  if i_authenticated s then fails else
  if negb (sanity s (k_mech k)) then fails else
  if negb (k_init k) then fails else
  match k_first k with
  | FStartFails | FStepFails => fails
  | FBlob =>
      if negb (k_chan k) then fails else
      let s := add_chan s (k_mech k) in
      if negb (k_ref k) then Some (notify s NErr, [NErr]) else
      match do_steps s (k_turns k) with
      | None => None
      | Some (s, n, false) =>
          let s := if k_still k then drop_chan s else s in
          Some (notify s NErr, n ++ [NErr])
      | Some (s, n, true) => Some (notify (settle s (k_mech k)) NOk, n ++ [NOk])
      end
  end.

(** vortex_sasl_start_auth_sync (1372-1483): its queue, which has a reference for the
    notification and one in the connection; a notification
    (__vortex_sasl_start_auth_sync_process, 1368-1385) pushes two items and releases one,
    the caller that was waiting takes them and releases the other. *)
Inductive qev := QNotify | QMain | QTimeout.
Record qst := mkQ { q_refs : Z; q_items : Z; q_done : bool }.
Definition q0 : qst := mkQ 2 0 false.
Definition qstep (q : qst) (e : qev) : outcome qst :=
  match e with
  | QNotify => if q_refs q <=? 0 then UB else Ok (mkQ (q_refs q - 1) (q_items q + 2) (q_done q))
  | QMain =>
      if q_done q then Ok q else
      if q_items q =? 0 then Ok q else
      if q_refs q <=? 0 then UB else Ok (mkQ (q_refs q - 1) (q_items q - 2) true)
  | QTimeout => if q_done q then Ok q else if q_items q =? 0 then Ok (mkQ (q_refs q) (q_items q) true) else Ok q
  end.
Fixpoint qrun (q : qst) (l : list qev) : outcome qst :=
  match l with [] => Ok q | e :: l => let! q := qstep q e in qrun q l end.
