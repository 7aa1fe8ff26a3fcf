(** What the greetings say and which frames carry them, stated without the functions
    of the model. *)
From Coq Require Import String Ascii.
From Verif Require Import Base CodecModel MimeModel MimeSpec ReassemblyModel ReassemblySpec.
Local Open Scope list_scope.

(** * Reading the attributes of a document *)

(** The text cut at the quotes: markup and values take turns. *)
Fixpoint at_quotes (cur t : bytes) : list bytes :=
  match t with
  | [] => [cur]
  | c :: r => if c =? 39 then cur :: at_quotes [] r else at_quotes (cur ++ [c]) r
  end.
Fixpoint in_pairs (l : list bytes) : list (bytes * bytes) :=
  match l with m :: v :: r => (m, v) :: in_pairs r | _ => [] end.
Definition ends_with (m s : bytes) : bool := bytes_eqb (skipn (List.length m - List.length s) m) s.
(** The values given after the markup [name]. *)
Definition values_of (name t : bytes) : list bytes :=
  map snd (filter (fun p => ends_with (fst p) name) (in_pairs (at_quotes [] t))).
Definition uris_of : bytes -> list bytes := values_of (ztext "<profile uri=").
Definition features_of : bytes -> list bytes := values_of (ztext " features=").
Definition localize_of : bytes -> list bytes := values_of (ztext " localize=").

Definition no_quote (b : bytes) : Prop := ~ In 39 b.
Definition no_quote_o (o : option bytes) : Prop := match o with Some b => no_quote b | None => True end.
Definition listed (o : option bytes) : list bytes := match o with Some b => [b] | None => [] end.

(** * The frames *)

(** One reply to message 0 in frames, from sequence number 0 on. *)
Definition reply_frames (ansno : Z) (ps : list bytes) : list wframe :=
  map (fun x => let '(more, seq, c) := x in mkW TRPY 0 ansno more seq c) (cut 0 ps).
(** The fields of its content. *)
Definition beep_xml : bytes := ztext "application/beep+xml".
Definition beep_fields : list (bytes * bytes) := [(ztext "Content-Type", ztext " application/beep+xml")].

(** * The cache *)

(** The text has no zero. *)
Definition no_zero (b : bytes) : Prop := ~ In 0 b.
(** The text up to the first zero. *)
Inductive up_to_zero : bytes -> bytes -> Prop :=
| uz_end : forall b, no_zero b -> up_to_zero b b
| uz_zero : forall a r, no_zero a -> up_to_zero (a ++ 0 :: r) a.

(** * The loop that waits *)

(** The frames read while nothing goes wrong: no end of the connection and every
    wait gives data with time left. *)
Fixpoint calm (es : list (option wframe * (Z * Z))) : Prop :=
  match es with [] => True | (_, (w, l)) :: k => 0 < w /\ 0 < l /\ calm k end.
Definition frames_read (es : list (option wframe * (Z * Z))) : list wframe :=
  flat_map (fun e => match fst e with Some w => [w] | None => [] end) es.
