(** What a fragmented message is, and what a delivery is. *)
From Verif Require Import Base CodecModel MimeModel MimeSpec ReassemblyModel.

(** A message and the way it is cut in frames. *)
Record message := mkMsg { m_type : ftype; m_msgno : Z; m_ansno : Z; m_pieces : list bytes }.
Definition m_bytes (m : message) : bytes := concat (m_pieces m).

(** Its frames, from a sequence number on: (more, seqno, content). *)
Fixpoint cut (s : Z) (ps : list bytes) : list (bool * Z * bytes) :=
  match ps with
  | [] => []
  | p :: r => (match r with [] => false | _ => true end, s, p) :: cut ((s + zlen p) mod two32) r
  end.

(** The sequence number after it. *)
Definition seq_after (s : Z) (m : message) : Z := (s + zlen (m_bytes m)) mod two32.

(** All frames belong to the same message and announce more. *)
Definition one_message (l : list gframe) : Prop := forall a b, In a l -> In b l ->
  g_type a = g_type b /\ g_msgno a = g_msgno b /\ g_ansno a = g_ansno b /\ g_more a = true.
(** Each frame starts where the previous one ends. *)
Definition contiguous (l : list gframe) : Prop := forall x a b y, l = x ++ a :: b :: y ->
  (g_seqno a + get_content_size (g_mf a)) mod two32 = g_seqno b.
(** Octets kept in memory waiting for the rest of a message. *)
Definition held (s : rst) : Z := fold_right (fun g n => mf_size (g_mf g) + n) 0 (r_prev s).
Definition held_but_last (s : rst) : Z := fold_right (fun g n => mf_size (g_mf g) + n) 0 (removelast (r_prev s)).
(** The limit configured, if any (none: 0 or less): the documentation says the
    one of the channel, or the one of the connection when it is bigger. *)
Definition limit_of (s : rst) : Z := Z.max (r_limit s) (r_climit s).
(** The last value given to each limit. *)
Definition last_limit (es : list fgev) : Z :=
  fold_left (fun n e => match e with RLimit m => m | _ => n end) es 0.
Definition last_conn_limit (es : list fgev) : Z :=
  fold_left (fun n e => match e with RConnLimit m => m | _ => n end) es 0.
