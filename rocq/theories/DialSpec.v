(** What is expected of a connect. *)
From Verif Require Import Base DialModel.

(** A socket was created. *)
Definition created (o : net) : Prop := o_res o = true /\ o_known o = true /\ o_sock o <> -1.
(** The TCP connection is known to be made: connect said so or, later, the socket without error. *)
Definition handshake (o : net) : Prop :=
  o_connect o = None \/ exists i, In i (o_its o) /\ 0 < i_wait i /\ i_so i = Some 0.
(** A blocking socket never says that the connect goes on. *)
Definition blocking_ok (o : net) : Prop := o_timeout o <= 0 -> o_connect o <> Some EINPROGRESS /\ o_connect o <> Some EAGAIN.
(** The descriptors the library does not accept. *)
Definition reserved (o : net) : Prop := o_check o = true /\ 0 <= o_sock o <= 2.
(** The clock is before 2038 for as long as a timeout may last; it does not go back. *)
Definition clock_ok (o : net) : Prop :=
  0 <= o_start o < two31 - 2148 /\ o_start o <= o_now1 o <= o_now2 o /\ o_now2 o < two31 /\
  Forall (fun i => i_now i <= o_now1 o) (o_its o).
Definition an_int (v : Z) : Prop := - two31 <= v < two31.

(** What comes before the wait: a socket the library takes, and a connect under way or made. *)
Definition under_way (o : net) : Prop :=
  created o /\ o_temp o = true /\ ~ reserved o /\ -1 <= o_sock o /\ o_create o = true /\ o_want o = true /\
  (o_connect o = None \/ o_connect o = Some EINPROGRESS).
(** A wait, before the deadline, that says nothing. *)
Definition nothing_yet (deadline : Z) (i : iter) : Prop :=
  i_now i < deadline /\ i_add i = true /\ i_errno i <> EBADF /\
  (i_wait i = 0 \/ i_wait i = -2 \/ (i_wait i = -1 /\ (i_errno i = EINTR \/ i_errno i = EAGAIN))).
(** One that says that the socket is connected. *)
Definition connects (deadline : Z) (i : iter) : Prop :=
  i_now i < deadline /\ i_add i = true /\ i_errno i <> EBADF /\ 0 < i_wait i /\ i_so i = Some 0.
