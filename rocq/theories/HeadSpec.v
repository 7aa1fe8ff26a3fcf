(** What the MIME headers of the messages sent have to be, stated with the calls made
    and with what a MIME entity is (MimeSpec). *)
From Coq Require Import String.
From Verif Require Import Base MimeSpec HeadModel.
Local Open Scope list_scope.

(** Values of headers: printable characters. *)
Definition plain (v : bytes) : Prop := v <> [] /\ Forall (fun c => 33 <= c <= 126) v.

(** The fields of a message with this MIME type and transfer encoding; the defaults of
    BEEP are left out. *)
Definition d_type : bytes := ztext "application/octet-stream".
Definition d_encoding : bytes := ztext "binary".
Definition fields_of (cf : bytes * bytes) : list (bytes * bytes) :=
  (if bytes_eqb (fst cf) d_type then [] else [(ztext "Content-Type", ztext " " ++ fst cf)]) ++
  (if bytes_eqb (snd cf) d_encoding then [] else [(ztext "Content-Transfer-Encoding", ztext " " ++ snd cf)]).

(** The type and encoding of the profile at each moment ([None]: not registered), and
    those of each channel: the ones at the moment it was created. *)
Record conf := mkConf { cf_profile : option (bytes * bytes); cf_chans : list (option (bytes * bytes)) }.
Definition or (v : option bytes) (d : bytes) : bytes := match v with Some b => b | None => d end.
Definition conf_step (c : conf) (e : hev) : conf :=
  match e with
  | HRegister => match cf_profile c with None => mkConf (Some (d_type, d_encoding)) (cf_chans c) | _ => c end
  | HUnregister => mkConf None (cf_chans c)
  | HMime m t => match cf_profile c with Some (m0, t0) => mkConf (Some (or m m0, or t t0)) (cf_chans c) | None => c end
  | HOpen => mkConf (cf_profile c) (cf_chans c ++ [cf_profile c])
  | _ => c
  end.
Definition conf_of (es : list hev) : conf := fold_left conf_step es (mkConf None []).

(** The profile is not changed while it has channels. *)
Fixpoint steady (opened : bool) (es : list hev) : Prop :=
  match es with
  | [] => True
  | HOpen :: k => steady true k
  | HUnregister :: k | HMime _ _ :: k => opened = false /\ steady opened k
  | _ :: k => steady opened k
  end.
(** The types are printable and no transfer encoding but the default is set. *)
Definition usual_types (es : list hev) : Prop :=
  forall m t, In (HMime m t) es -> (forall b, m = Some b -> plain b) /\ (t = None \/ t = Some d_encoding).

(** The messages of one channel (or its replies to one message), with their pieces put
    together: what vortex_channel_get_automatic_mime said after the first piece, the
    contents sent and the messages asked; and the one with pieces to come. *)
Definition about (i : nat) (r : option Z) (o : sent) : bool :=
  Nat.eqb (o_chan o) i && match o_reply o, r with None, None => true | Some a, Some b => a =? b | _, _ => false end.
Definition gathered := (option (Z * bytes * bytes) * list (Z * bytes * bytes))%type.
Definition gather (g : gathered) (o : sent) : gathered :=
  let x := match fst g with
           | None => (o_auto o, o_content o, o_msg o)
           | Some (a, c, m) => (a, c ++ o_content o, m ++ o_msg o)
           end in
  if o_more o then (Some x, snd g) else (None, snd g ++ [x]).
Definition messages (log : list sent) (i : nat) (r : option Z) : gathered :=
  fold_left gather (filter (about i r) log) (None, []).

(** The level that decides: the first that is set of the channel, the profile and the
    library; and if none is, headers are added. *)
Definition level (channel profile library : Z) : Z :=
  match filter (fun v => negb (v =? 0)) [channel; profile; library] with v :: _ => v | [] => 1 end.

(** The pieces after the first carry what was asked and nothing else; [cont]: a piece
    with more to come was the last one. *)
Fixpoint pieces (cont : bool) (l : list sent) : Prop :=
  match l with
  | [] => True
  | o :: k => (cont = true -> o_content o = o_msg o) /\ pieces (o_more o) k
  end.
