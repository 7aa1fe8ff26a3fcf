(** What the authentication of a listener has to give, on the log of what was seen. *)
From Verif Require Import Base SaslModel.

(** What the application says of some credentials: the common handler of the mechanism
    if there is one, or else the handler of the mechanism. *)
Definition says (h : handlers) (m : mech) (c : creds) : hres :=
  match h_common h m with
  | Some f => f c
  | None =>
      match m with
      | MCram | MDigest =>
          match h_pass h m with
          | Some f => match f c with Some p => HPassword p | None => HDeny end
          | None => HDeny
          end
      | _ => match h_check h m with Some f => if f c then HAccept else HDeny | None => HDeny end
      end
  end.

(** What was seen since the last session began. *)
Definition since (l : list sobs) : list sobs :=
  fold_left (fun a o => match o with OSession _ => [] | _ => a ++ [o] end) l [].

(** The application vouches for the peer: it accepted the credentials last seen; for
    the mechanisms with a secret, within this session it gave the password with which
    the peer made its response. *)
Definition vouched (h : handlers) (m : mech) (resp : option Z) (l : list sobs) : Prop :=
  match m with
  | MCram | MDigest =>
      exists c pw, In (OSaid m c (HPassword pw)) l /\ says h m c = HPassword pw /\ resp = Some pw
  | _ => exists l' c r, l = l' ++ [OSaid m c r] /\ says h m c = r /\ r <> HDeny
  end.
Definition justified (h : handlers) (log : list sobs) : Prop :=
  exists l1 m resp l2,
    log = l1 ++ OComplete m resp :: l2 /\ ~ In OClear l2 /\ vouched h m resp (since l1).

(** What is known of the SASL library: it asks only for the validation of its
    mechanism; it ends a step with GSASL_OK only after asking for it last and getting
    GSASL_OK, or, for CRAM-MD5 and DIGEST-MD5, when the response was made with the
    password of the session, which it does not set itself. *)
Definition ask_of (m : mech) : gask :=
  match m with MPlain => AskSimple | MAnon => AskAnon | MExternal => AskExternal | _ => AskProp PPassword end.
Definition own (m : mech) (o : gop) : Prop :=
  match o with
  | GCall AskSimple => m = MPlain
  | GCall AskAnon => m = MAnon
  | GCall AskExternal => m = MExternal
  | GSet PPassword _ => m <> MCram /\ m <> MDigest
  | _ => True
  end.
Definition contract (m : mech) (g' : sess) (l : list gop) (last : option gres) (resp : option Z) (r : rc) : Prop :=
  Forall (own m) l /\
  (r = ROk ->
   match m with
   | MCram | MDigest => value (g_password g') <> None /\ resp = value (g_password g')
   | _ => last = Some GOk /\ exists l', l = l' ++ [GCall (ask_of m)]
   end).
Definition library (h : handlers) (s : sst) (e : sev) : Prop :=
  match e with
  | SStart ch m BStarts b l r =>
      let '(_, g, last) := ops h (new_session s m) (sess0 m) l None in contract m g l last (resp_of b) r
  | SFrame ch b l r =>
      match s_data s with
      | Some (Some g) => let '(_, g', last) := ops h s g l None in contract (g_mech g) g' l last (resp_of b) r
      | _ => True
      end
  | _ => True
  end.
Fixpoint faithful (h : handlers) (s : sst) (l : list sev) : Prop :=
  match l with
  | [] => True
  | e :: l => library h s e /\ match sstep h s e with Ok s' => faithful h s' l | UB => True end
  end.

(** The library fills in the properties it read, and then asks the application. *)
Definition fills (o : gop) : Prop := (exists p v, o = GSet p v) \/ o = GGet PRealm.
Definition asks (m : mech) (o : gop) : Prop :=
  match m with MCram | MDigest => o = GGet PPassword | _ => o = GCall (ask_of m) end.
Definition ops_of (e : sev) : list gop :=
  match e with SStart _ _ _ _ l _ => l | SFrame _ _ l _ => l | SClose _ => [] end.
(** The application was not asked in this session. *)
Definition not_asked (l : list sobs) : Prop := forall m c r, ~ In (OSaid m c r) (since l).
Definition is_frame (e : sev) : bool := match e with SFrame _ _ _ _ => true | _ => false end.

(** Events with nothing to go wrong in them: no abort, and the library can start. *)
Definition calm (e : sev) : Prop :=
  match e with
  | SStart _ _ bg b _ _ => bg <> BStartFails /\ b <> BAbort
  | SFrame _ b _ _ => b <> BAbort
  | SClose _ => True
  end.
