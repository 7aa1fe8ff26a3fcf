(** What is asked of TLS, in terms of what is seen. *)
From Verif Require Import Base TlsModel FlowModel.

(** Something that goes in the clear. *)
Definition in_clear (o : lobs) : Prop := o = LRead Clear \/ o = LWrite Clear.
(** The listener said proceed, the handshake ended, the post check, if there is one,
    accepted it, and nothing went in the clear since. *)
Definition secured (log : list lobs) : Prop :=
  exists l1 l2 c l3, log = l1 ++ LProceed :: l2 ++ LHandshaken :: c ++ l3 /\
    (c = [] \/ c = [LChecked true]) /\ ~ In (LChecked false) l3 /\ Forall (fun o => ~ in_clear o) l3.
(** SSL_accept does not give 0. *)
Definition never_zero (l : list lev) : Prop :=
  forall some prepared post, ~ In (EReadable some prepared AZero post) l.

(** The connection a notification is about. *)
Definition about (w : which) (o : iconn) (n : option iconn) : option iconn :=
  match w with Old => Some o | New => n end.
(** A connection as the application has it: up, watched by the reader, with SEQ frames. *)
Definition fresh_conn : iconn := mkIC true Clear false false true true true.
Definition usable (c : iconn) : Prop := ic_up c = true /\ ic_watched c = true /\ ic_seq_off c = false.

(** Two octets of text for each octet, with a colon between. *)
Definition digits : bytes := [48; 49; 50; 51; 52; 53; 54; 55; 56; 57; 65; 66; 67; 68; 69; 70].
Definition pair_of (b : Z) : bytes := [nth (Z.to_nat (b / 16)) digits 0; nth (Z.to_nat (b mod 16)) digits 0].
Fixpoint colons (l : bytes) : bytes :=
  match l with
  | [] => []
  | [b] => pair_of b
  | b :: l => pair_of b ++ 58 :: colons l
  end.

(** Only frames received while SEQ frames are not sent. *)
Definition seq_off (e : rxev) : Prop := match e with RFrame off _ n => off = true /\ 0 <= n < two31 | RSetWindow _ => True end.
