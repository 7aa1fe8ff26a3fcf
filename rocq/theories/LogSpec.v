(** What is asked of the log, of the errors recorded and of the configuration. *)
From Coq Require Import String.
From Verif Require Import Base GreetModel MsgModel CodecModel LogModel.
Open Scope list_scope.

(** A text printf copies as it is. *)
Definition plain (t : bytes) : Prop := ~ In 37 t.
(** The text of an error, with what is said of the connection. *)
Definition full_text (text : bytes) (i : cinfo) (status : Z) : bytes :=
  text ++ asc " (socket=" ++ dec (i_sock i) ++ asc ", conn-id=" ++ dec (i_id i) ++ asc ", errno=" ++ dec (i_errno i) ++
  asc ", remote-ip=" ++ as_text (i_host i) ++ asc ", serverName=" ++ as_text (i_server i) ++ asc ", status=" ++ dec status ++ asc ")".
(** A string has no NUL. *)
Definition c_string (t : bytes) : Prop := ~ In 0 t.

(** A word occurs in a string. *)
Definition occurs (w s : bytes) : Prop := exists a b, s = a ++ w ++ b.
Definition word (level : Z) : bytes :=
  if level =? 1 then asc "debug" else if level =? 2 then asc "warning" else asc "critical".
Definition a_level (level : Z) : Prop := level = 1 \/ level = 2 \/ level = 4.
(** The log is on, whatever the environment says. *)
Definition on (g : lctx) : Prop := g_debug g = true /\ g_debug_checked g = true.
(** A message of that level comes out. *)
Definition comes_out (v : lenv) (level : Z) (g : lctx) : Prop :=
  forall msg, plain msg -> exists g' o, log_common v false level msg [] g = Ok (LDone g' o) /\ o <> [].
Definition kept_in (v : lenv) (level : Z) (g : lctx) : Prop :=
  forall msg args, exists g', log_common v false level msg args g = Ok (LDone g' []).
(** Values of int. *)
Definition an_int (n : Z) : Prop := -2147483648 <= n < 2147483648.
